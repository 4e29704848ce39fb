(** The scenarios, heats and capacities that the calls of a builder leave in a network. *)
From Verif Require Import Base QSum ThermalNetwork_Model ThermalNetwork_Spec ThermalNetwork_Proofs ThermalNetwork_Props.
From Verif Require Import PrismNet_Model PrismNet_Spec PrismNet_Proofs WireNet_Model WireNet_Spec WireNet_Proofs WireNet_Props.
Open Scope nat_scope.

Lemma step_node minR l o l1 i : never_append o -> step minR l o = Ok l1 ->
  nth i l1 node0 = if owned_by i o then eff minR o (nth i l node0) else nth i l node0.
Proof.
  intros Ho E; unfold owned_by; destruct (owner o) as [j|] eqn:Ej; [|destruct o; cbn in Ej, Ho; try discriminate; tauto].
  rewrite (step_owner minR o j l Ej) in E; apply at_node_ok in E as [-> Hj].
  rewrite nth_upd by auto; rewrite (Nat.eqb_sym j i); destruct (Nat.eqb_spec i j) as [->|]; reflexivity.
Qed.

Lemma new_node n i : nth i (net_new n) node0 = node0.
Proof. unfold net_new; destruct (nth_in_or_default i (repeat node0 n) node0) as [H|H]; [apply repeat_spec in H|]; auto. Qed.

(** the heat added to node [i] by one call *)
Definition heat_to (i : nat) (o : op) : Q := match o with AddHF j v => if j =? i then v else 0%Q | _ => 0%Q end.

Section Node.
  Context (minR : Q) (i : nat).

  Lemma run_scen os : Forall never_append os -> forall l l', run minR l os = Ok l' ->
    (forall s, In (SetScenario i s) os -> (forall s', In (SetScenario i s') os -> s' = s) -> get_scen l' i = Some s) /\
    ((forall s, ~ In (SetScenario i s) os) -> get_scen l' i = get_scen l i).
  Proof.
    induction 1 as [|o os Ho _ IH]; intros l l' Hrun; cbn [run] in Hrun; [injection Hrun as <-; split; [intros s []|auto]|].
    destruct (step minR l o) as [l1| | |] eqn:E; cbn [bind] in Hrun; try discriminate.
    pose proof (step_node minR l o l1 i Ho E) as N; destruct (IH _ _ Hrun) as [I1 I2]; split.
    - intros s Hs Hu.
      assert (D : (exists s', In (SetScenario i s') os) \/ forall s', ~ In (SetScenario i s') os).
      { clear; induction os as [|o os IH]; [right; intros s []|].
        destruct IH as [[s Hs]|IH]; [left; exists s; now right|].
        destruct o as [| j s| | | | | | |];
          try (right; intros s' [H|H]; [discriminate|exact (IH _ H)]).
        destruct (Nat.eq_dec j i) as [->|Hne]; [left; exists s; now left|].
        right; intros s' [H|H]; [injection H as -> _; auto|exact (IH _ H)]. }
      destruct D as [[s' Hs']|D].
      + assert (s' = s) by (apply Hu; now right); subst s'; apply I1; [auto|intros; apply Hu; now right].
      + rewrite (I2 D); destruct Hs as [->|Hs]; [|destruct (D _ Hs)].
        unfold get_scen; rewrite N; unfold owned_by; cbn [owner]; rewrite Nat.eqb_refl; reflexivity.
    - intros Hn; rewrite I2 by (intros s Hs; apply (Hn s); now right).
      unfold get_scen; rewrite N; destruct (owned_by i o) eqn:Eo; [|reflexivity].
      destruct o; try reflexivity; cbn in Eo; apply Nat.eqb_eq in Eo; subst; destruct (Hn s); now left.
  Qed.

  Lemma run_cap os : Forall never_append os -> forall l l', run minR l os = Ok l' ->
    (forall s, In (SetC i s) os -> (forall s', In (SetC i s') os -> (s' == s)%Q) -> (get_c l' i == s)%Q) /\
    ((forall s, ~ In (SetC i s) os) -> (get_c l' i == get_c l i)%Q).
  Proof.
    induction 1 as [|o os Ho _ IH]; intros l l' Hrun; cbn [run] in Hrun; [injection Hrun as <-; split; [intros s []|reflexivity]|].
    destruct (step minR l o) as [l1| | |] eqn:E; cbn [bind] in Hrun; try discriminate.
    pose proof (step_node minR l o l1 i Ho E) as N; destruct (IH _ _ Hrun) as [I1 I2]; split.
    - intros s Hs Hu.
      assert (D : (exists s', In (SetC i s') os) \/ forall s', ~ In (SetC i s') os).
      { clear; induction os as [|o os IH]; [right; intros s []|].
        destruct IH as [[s Hs]|IH]; [left; exists s; now right|].
        destruct o as [| | | | | | |j s|];
          try (right; intros s' [H|H]; [discriminate|exact (IH _ H)]).
        destruct (Nat.eq_dec j i) as [->|Hne]; [left; exists s; now left|].
        right; intros s' [H|H]; [injection H as -> _; auto|exact (IH _ H)]. }
      destruct D as [[s' Hs']|D].
      + assert (Es : (s' == s)%Q) by (apply Hu; now right); rewrite <- Es; apply I1; [auto|].
        intros s2 H2; rewrite Es; apply Hu; now right.
      + rewrite (I2 D); destruct Hs as [->|Hs]; [|destruct (D _ Hs)].
        unfold get_c; rewrite N; unfold owned_by; cbn [owner]; rewrite Nat.eqb_refl; reflexivity.
    - intros Hn; rewrite I2 by (intros s Hs; apply (Hn s); now right).
      unfold get_c; rewrite N; destruct (owned_by i o) eqn:Eo; [|reflexivity].
      destruct o; try reflexivity; cbn in Eo; apply Nat.eqb_eq in Eo; subst; destruct (Hn v); now left.
  Qed.

  Lemma run_heat os : Forall never_append os -> forall l l', run minR l os = Ok l' ->
    (forall v, ~ In (SetHF i v) os) -> (get_hf l' i == get_hf l i + sumf (heat_to i) os)%Q.
  Proof.
    induction 1 as [|o os Ho _ IH]; intros l l' Hrun Hn; cbn [run] in Hrun; [injection Hrun as <-; cbn [sumf]; ring|].
    destruct (step minR l o) as [l1| | |] eqn:E; cbn [bind] in Hrun; try discriminate.
    rewrite (IH _ _ Hrun) by (intros v Hv; apply (Hn v); now right).
    cbn [sumf]; unfold get_hf; rewrite (step_node minR l o l1 i Ho E).
    assert (Z : (n_hf (if owned_by i o then eff minR o (nth i l node0) else nth i l node0) == n_hf (nth i l node0) + heat_to i o)%Q); [|rewrite Z; ring].
    destruct o; unfold owned_by; cbn [owner heat_to]; try (destruct (_ =? i); cbn; ring); [cbn; ring|].
    destruct (Nat.eqb_spec i0 i) as [->|]; [destruct (Hn v); now left|ring].
  Qed.

  (** the last of several heat flows set for a node stays *)
  Lemma run_flux os : Forall never_append os -> forall l l', run minR l os = Ok l' -> (forall v, ~ In (AddHF i v) os) ->
    (exists v, In (SetHF i v) os /\ get_hf l' i = v) \/ ((forall v, ~ In (SetHF i v) os) /\ get_hf l' i = get_hf l i).
  Proof.
    induction 1 as [|o os Ho _ IH]; intros l l' Hrun Hn; cbn [run] in Hrun; [injection Hrun as <-; right; split; [intros v []|reflexivity]|].
    destruct (step minR l o) as [l1| | |] eqn:E; cbn [bind] in Hrun; try discriminate.
    pose proof (step_node minR l o l1 i Ho E) as N.
    destruct (IH _ _ Hrun) as [(v & Hv & E2)|[H1 H2]]; [intros v Hv; apply (Hn v); now right|left; exists v; split; [now right|auto]|].
    destruct (owned_by i o) eqn:Eo.
    - destruct o; try (right; split; [intros v' [H|H]; [discriminate|exact (H1 _ H)]|rewrite H2; unfold get_hf; rewrite N; reflexivity]);
        cbn in Eo; apply Nat.eqb_eq in Eo; subst.
      + left; exists v; split; [now left|rewrite H2; unfold get_hf; rewrite N; reflexivity].
      + destruct (Hn v); now left.
    - right; split; [|rewrite H2; unfold get_hf; rewrite N; reflexivity].
      intros v [->|H]; [unfold owned_by in Eo; cbn in Eo; rewrite Nat.eqb_refl in Eo; discriminate|exact (H1 _ H)].
  Qed.
End Node.

(** a sum over segments numbered from [a] that picks one of them *)
Lemma sumf_numbered (g : wline -> Q) ls : forall a i, a <= i -> (forall q l, nth_error ls q = Some l -> w_id l = a + q) ->
  (sumf (fun l => if w_id l =? i then g l else 0) ls == match nth_error ls (i - a) with Some l => g l | None => 0 end)%Q.
Proof.
  induction ls as [|l ls IH]; intros a i Hi H; cbn [sumf]; [destruct (i - a); reflexivity|].
  pose proof (H 0 l eq_refl) as E0.
  destruct (Nat.eqb_spec (w_id l) i) as [E|E].
  - replace (i - a) with 0 by lia; cbn [nth_error]; rewrite sumf_zero; [ring|].
    intros x Hx; apply In_nth_error in Hx as [q Hq]; pose proof (H (S q) x Hq); destruct (Nat.eqb_spec (w_id x) i); [lia|reflexivity].
  - rewrite (IH (S a) i) by (try lia; intros q x Hq; rewrite (H (S q) x Hq); lia).
    replace (i - a) with (S (i - S a)) by lia; cbn [nth_error]; ring.
Qed.

Lemma sumf_prisms (g : nat -> Q) (ops : nat -> prism -> list op) i :
  (forall j p, (sumf (heat_to i) (ops j p) == if j =? i then g j else 0)%Q) ->
  forall (ps : list prism) a, a <= i < a + List.length ps ->
  (sumf (heat_to i) (flat_map (fun ip => ops (fst ip) (snd ip)) (combine (seq a (List.length ps)) ps)) == g i)%Q.
Proof.
  intros H; assert (Z : forall (ps : list prism) a, i < a ->
    (sumf (heat_to i) (flat_map (fun ip => ops (fst ip) (snd ip)) (combine (seq a (List.length ps)) ps)) == 0)%Q).
  { induction ps as [|p ps IH]; intros a Ha; cbn [List.length seq combine flat_map sumf fst snd]; [reflexivity|].
    rewrite sumf_app, H, IH by lia; destruct (Nat.eqb_spec a i); [lia|ring]. }
  induction ps as [|p ps IH]; intros a Ha; cbn [List.length] in Ha; [lia|].
  cbn [List.length seq combine flat_map fst snd]; rewrite sumf_app, H.
  destruct (Nat.eqb_spec a i) as [->|]; [rewrite Z by lia; ring|rewrite IH by lia; ring].
Qed.

(** ** What the calls for segments leave *)
Section Lines.
  Context (k : lookups) (v : pmodel) (T : list Q) (Hv : connected_well v) (Hp : physical k v).
  Local Notation np := (prism_count v).

  Lemma lines_heat i : (sumf (heat_to i) (flat_map (line_calls k v T) (m_lines v)) ==
    if i <? np then 0 else match nth_error (m_lines v) (i - np) with Some l => joule_heat k l (nth i T 0) | None => 0 end)%Q.
  Proof.
    rewrite sumf_flat, (sumf_ext _ (fun l => if w_id l =? i then joule_heat k l (nth (w_id l) T 0%Q) else 0)%Q).
    - destruct (Nat.ltb_spec i np) as [Hi|Hi].
      + apply sumf_zero; intros l Hl; destruct (line_in v Hv l Hl) as (q & _ & E & _); destruct (Nat.eqb_spec (w_id l) i); [lia|reflexivity].
      + rewrite (sumf_numbered _ _ np i Hi (proj1 Hv)); destruct (nth_error (m_lines v) (i - np)) as [l|] eqn:E; [|reflexivity].
        rewrite (proj1 Hv _ _ E); change (List.length (m_prisms v)) with np; replace (np + (i - np)) with i by lia; reflexivity.
    - intros l Hl; unfold line_calls; rewrite sumf_app.
      rewrite (sumf_zero (heat_to i) (line_links k v T l)) by (intros o Ho; apply (links_resistors k v T l) in Ho as (a & b & r & ->); reflexivity).
      destruct (Hp l Hl) as (_ & P2 & _); pose proof (joule_nonneg k v l (nth (w_id l) T 0%Q) Hp Hl) as N.
      rewrite <- (joule_value k l _ P2) in N; unfold line_head.
      destruct (Qltb 0 (joule k l (nth (w_id l) T 0%Q))) eqn:E; cbn [app sumf heat_to]; destruct (w_id l =? i); try ring;
        rewrite <- (joule_value k l _ P2); [ring|].
      assert (~ (0 < joule k l (nth (w_id l) T 0))%Q) by (rewrite <- Qltb_iff, E; discriminate); lra.
  Qed.

  Lemma lines_scen i s : In (SetScenario i s) (flat_map (line_calls k v T) (m_lines v)) <->
    np <= i /\ option_map w_scen (nth_error (m_lines v) (i - np)) = Some s.
  Proof.
    rewrite in_flat_map; split.
    - intros (l & Hl & H); destruct (line_in v Hv l Hl) as (q & Eq & E & _).
      unfold line_calls in H; apply in_app_iff in H as [H|H]; [|apply (links_resistors k v T l) in H as (a & b & r & H); discriminate].
      unfold line_head in H; apply in_app_iff in H as [[H|[H|[]]]|H]; [discriminate| |destruct (Qltb _ _); [destruct H as [H|[]]; discriminate|destruct H]].
      injection H as <- <-; split; [lia|]; replace (w_id l - np) with q by lia; rewrite Eq; reflexivity.
    - intros [Hi H]; destruct (nth_error (m_lines v) (i - np)) as [l|] eqn:E; cbn in H; [|discriminate]; injection H as <-.
      exists l; split; [eapply nth_error_In; eauto|].
      pose proof (proj1 Hv _ _ E) as Eid; change (List.length (m_prisms v)) with np in Eid; replace (np + (i - np)) with i in Eid by lia; subst i.
      unfold line_calls, line_head; right; left; reflexivity.
  Qed.

  Lemma lines_cap i c : In (SetC i c) (flat_map (line_calls k v T) (m_lines v)) ->
    np <= i /\ exists l, nth_error (m_lines v) (i - np) = Some l /\ (c == heat_capacity k l (nth i T 0))%Q.
  Proof.
    rewrite in_flat_map; intros (l & Hl & H); destruct (line_in v Hv l Hl) as (q & Eq & E & _).
    unfold line_calls in H; apply in_app_iff in H as [H|H]; [|apply (links_resistors k v T l) in H as (a & b & r & H); discriminate].
    unfold line_head in H; apply in_app_iff in H as [[H|[H|[]]]|H]; [|discriminate|destruct (Qltb _ _); [destruct H as [H|[]]; discriminate|destruct H]].
    injection H as <- <-; split; [lia|]; exists l; replace (w_id l - np) with q by lia; split; [exact Eq|unfold heat_capacity; ring].
  Qed.
  Lemma lines_cap_in i l : np <= i -> nth_error (m_lines v) (i - np) = Some l ->
    exists c, In (SetC i c) (flat_map (line_calls k v T) (m_lines v)).
  Proof.
    intros Hi E; pose proof (proj1 Hv _ _ E) as Eid; change (List.length (m_prisms v)) with np in Eid; replace (np + (i - np)) with i in Eid by lia; subst i.
    eexists; apply in_flat_map; exists l; split; [eapply nth_error_In; eauto|left; reflexivity].
  Qed.
  Lemma lines_no_flux i c : ~ In (SetHF i c) (flat_map (line_calls k v T) (m_lines v)).
  Proof.
    rewrite in_flat_map; intros (l & Hl & H); apply (line_call_of k v T l) in H; auto; inversion H.
  Qed.
End Lines.
