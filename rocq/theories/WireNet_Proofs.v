(** The calls that build the network of a prism model with wires. *)
From Verif Require Import Base QSum ThermalNetwork_Model ThermalNetwork_Spec ThermalNetwork_Proofs ThermalNetwork_Props.
From Verif Require Grid_Proofs SteadyGrid_Props.
From Verif Require Import PrismNet_Model PrismNet_Spec PrismNet_Proofs WireNet_Model WireNet_Spec.
Open Scope nat_scope.
Import Grid_Proofs.

(** * Networks after calls *)
Definition never_append (o : op) : Prop := match o with AppendNode _ => False | _ => True end.

Lemma ok_ops_all n os : Forall (fun o => op_ok n o /\ never_append o) os -> ok_ops n os.
Proof.
  induction 1 as [|o os [H1 H2] _ IH]; [exact I|].
  destruct o; cbn [ok_ops never_append] in *; try tauto.
Qed.

Definition owned_by (i : nat) (o : op) : bool := match owner o with Some j => Nat.eqb j i | None => false end.

Lemma nth_upd i j f (l : network) : j < List.length l ->
  nth i (upd j f l) node0 = if Nat.eqb i j then f (nth j l node0) else nth i l node0.
Proof.
  revert i j; induction l as [|n l IH]; intros i j Hj; cbn [List.length] in Hj; [lia|].
  destruct j as [|j], i as [|i]; cbn [upd nth Nat.eqb]; auto; apply IH; lia.
Qed.

Lemma run_node minR os : Forall never_append os -> forall l l', run minR l os = Ok l' ->
  forall i, nth i l' node0 = effs minR (filter (owned_by i) os) (nth i l node0).
Proof.
  induction 1 as [|o os Ho _ IH]; intros l l' Hrun i; cbn [run] in Hrun; [injection Hrun as <-; reflexivity|].
  destruct (step minR l o) as [l1| | |] eqn:E; cbn [bind] in Hrun; try discriminate.
  rewrite (IH _ _ Hrun i); cbn [filter]; unfold owned_by at 2.
  destruct (owner o) as [j|] eqn:Ej; [|destruct o; cbn in Ej, Ho; try discriminate; tauto].
  rewrite (step_owner minR o j l Ej) in E; apply at_node_ok in E as [-> Hj].
  rewrite nth_upd by auto; rewrite (Nat.eqb_sym j i); destruct (Nat.eqb_spec i j) as [->|]; reflexivity.
Qed.

Definition added (o : op) : Q := match o with AddHF _ v => v | _ => 0%Q end.
Definition never_set_hf (o : op) : Prop := match o with SetHF _ _ => False | _ => True end.

Lemma total_hf_sum l : (total_hf l == sumf n_hf l)%Q.
Proof.
  unfold total_hf; assert (G : forall l a, (fold_left (fun a n => a + n_hf n) l a == a + sumf n_hf l)%Q).
  { clear; induction l as [|n l IH]; intros a; cbn [fold_left sumf]; [ring|rewrite IH; ring]. }
  rewrite G; ring.
Qed.

Lemma sum_upd (l : network) j f : j < List.length l ->
  (sumf n_hf (upd j f l) == sumf n_hf l - n_hf (nth j l node0) + n_hf (f (nth j l node0)))%Q.
Proof.
  revert j; induction l as [|n l IH]; intros j Hj; cbn [List.length] in Hj; [lia|].
  destruct j as [|j]; cbn [upd sumf nth]; [ring|rewrite IH by lia; ring].
Qed.

Lemma run_total minR os : Forall (fun o => never_append o /\ never_set_hf o) os -> forall l l', run minR l os = Ok l' ->
  (total_hf l' == total_hf l + sumf added os)%Q.
Proof.
  induction 1 as [|o os [Ho1 Ho2] _ IH]; intros l l' Hrun; cbn [run] in Hrun; [injection Hrun as <-; cbn [sumf]; ring|].
  destruct (step minR l o) as [l1| | |] eqn:E; cbn [bind] in Hrun; try discriminate.
  rewrite (IH _ _ Hrun); cbn [sumf].
  assert (G : forall j f, at_node j f l = Ok l1 -> (forall n, n_hf (f n) == n_hf n + added o)%Q -> (total_hf l1 == total_hf l + added o)%Q).
  { intros j f H' Hf; apply at_node_ok in H' as [-> Hj]; rewrite !total_hf_sum, sum_upd by auto; rewrite Hf; ring. }
  assert (S : (total_hf l1 == total_hf l + added o)%Q); [|rewrite S; ring].
  destruct o; cbn [step never_append never_set_hf] in *; try tauto;
    try (apply (G _ _ E); intros n; cbn; ring).
  apply set_r_ok in E as [-> Hk]; rewrite !total_hf_sum, sum_upd by auto; cbn; ring.
Qed.

(** * The calls *)
Section Calls.
  Context (k : lookups) (m : pmodel) (T : list Q).

  Definition nb_calls (l : wline) (t : Q) (nb : nat) : list op :=
    if nb <? prism_count m then [SetR nb (w_id l) (half_r k l t)]
    else if w_id l <? nb then
      match nth_error (m_lines m) (nb - prism_count m) with
      | Some l2 => [SetR (w_id l) nb (half_r k l t + half_r k l2 t)%Q]
      | None => []
      end
    else [].
  Definition line_head (l : wline) : list op :=
    let t := nth (w_id l) T 0%Q in
    [SetC (w_id l) (k_heat k (w_mat l) t * k_density k (w_mat l) t * (w_area l * w_len l))%Q;
     SetScenario (w_id l) (w_scen l)] ++
    (if Qltb 0 (joule k l t) then [AddHF (w_id l) (joule k l t)] else []).
  Definition line_links (l : wline) : list op := flat_map (nb_calls l (nth (w_id l) T 0%Q)) (ends l).
  Definition line_calls (l : wline) : list op := line_head l ++ line_links l.

  Lemma concat_ok {A} (f : A -> res (list op)) g xs : (forall x, In x xs -> f x = Ok (g x)) ->
    concat_res f xs = Ok (flat_map g xs).
  Proof.
    induction xs as [|x xs IH]; intros H; cbn [concat_res flat_map]; [reflexivity|].
    rewrite (H x (or_introl eq_refl)); change (bind (concat_res f xs) (fun b => Ok (g x ++ b)) = Ok (g x ++ flat_map g xs)); rewrite IH by (intros; apply H; right; auto); reflexivity.
  Qed.

  Context (Hm : connected_well m).

  Lemma line_id q l : nth_error (m_lines m) q = Some l -> w_id l = prism_count m + q /\ q < List.length (m_lines m).
  Proof. intros H; split; [apply (proj1 Hm); auto|apply nth_error_Some; rewrite H; discriminate]. Qed.
  Lemma line_in l : In l (m_lines m) -> exists q, nth_error (m_lines m) q = Some l /\ w_id l = prism_count m + q /\ q < List.length (m_lines m).
  Proof. intros H; apply In_nth_error in H as [q H]; exists q; split; auto; apply line_id; auto. Qed.

  Lemma end_touches l j : In l (m_lines m) -> In j (ends l) -> touches m (w_id l) j.
  Proof. intros H1 H2; right; exists l; auto. Qed.
  Lemma end_range l j : In l (m_lines m) -> In j (ends l) -> j < element_count m /\ j <> w_id l.
  Proof. intros H1 H2; apply (proj1 (proj2 Hm)); apply end_touches; auto. Qed.

  Lemma lines_calls : List.length T = element_count m -> concat_res (line_ops k m T) (m_lines m) = Ok (flat_map line_calls (m_lines m)).
  Proof.
    intros HT; apply concat_ok; intros l Hl; destruct (line_in l Hl) as (q & Hq & Eid & Lq); unfold line_ops.
    assert (Hlt : w_id l < List.length T) by (rewrite HT, Eid; unfold element_count; lia).
    rewrite (nth_error_nth' T 0%Q Hlt).
    rewrite (concat_ok _ (nb_calls l (nth (w_id l) T 0%Q))); [cbn [bind]; unfold line_calls, line_head; rewrite <- app_assoc; reflexivity|].
    intros j Hj; destruct (end_range l j Hl Hj) as [R1 R2]; unfold nb_ops, nb_calls.
    destruct (Nat.ltb_spec j (prism_count m)); [reflexivity|]; destruct (w_id l <? j); [|reflexivity].
    destruct (nth_error (m_lines m) (j - prism_count m)) eqn:E; [reflexivity|].
    apply nth_error_None in E; unfold element_count in R1; lia.
  Qed.

  Definition all_calls : list op := prism_calls k m T ++ flat_map line_calls (m_lines m) ++ block_calls k m.

  Lemma build_calls minR : List.length T = element_count m -> wire_build k m minR T = rmap Some (run minR (net_new (element_count m)) all_calls).
  Proof. intros HT; unfold wire_build; rewrite HT, Nat.eqb_refl, lines_calls by auto; reflexivity. Qed.

  (** ** What each call is *)
  Inductive prism_call (i : nat) : op -> Prop :=
  | pc_power p s : k_power k T i = Some (p, s) -> prism_call i (AddHF i p)
  | pc_scen s : prism_call i (SetScenario i s)
  | pc_cap v : prism_call i (SetC i v)
  | pc_side j r : i < j -> touches m i j -> prism_call i (SetR i j r)
  | pc_htc v : free_face m i (HTC v) -> prism_call i (SetHTC i (v * k_harea k i)%Q)
  | pc_flux v : free_face m i (HeatFlux v) -> prism_call i (SetHF i (v * k_harea k i)%Q).

  Lemma side_in kxy sa d2 d i nbs : forall ie o, In o (side_ops kxy sa d2 d i ie nbs) ->
    exists j r, o = SetR i j r /\ i < j /\ In (Some j) nbs.
  Proof.
    induction nbs as [|[n|] nbs IH]; intros ie o; cbn [side_ops side_op app]; [intros []| |].
    - intros H; apply in_app_iff in H as [H|H].
      + destruct (Nat.ltb_spec i n); cbn [In] in H; [|tauto]; destruct H as [<-|[]]; do 2 eexists; split; [reflexivity|split; [auto|now left]].
      + destruct (IH _ _ H) as (j & r & H1 & H2 & H3); exists j, r; split; [auto|split; [auto|now right]].
    - intros H; destruct (IH _ _ H) as (j & r & H1 & H2 & H3); exists j, r; split; [auto|split; [auto|now right]].
  Qed.
  Lemma side_has kxy sa d2 d i j nbs : i < j -> In (Some j) nbs -> forall ie, exists r, In (SetR i j r) (side_ops kxy sa d2 d i ie nbs).
  Proof.
    intros Hij; induction nbs as [|nb nbs IH]; intros Hin ie; [destruct Hin|]; cbn [side_ops].
    destruct Hin as [->|Hin].
    - cbn [side_op]; rewrite (proj2 (Nat.ltb_lt _ _) Hij); eexists; apply in_app_iff; left; now left.
    - destruct (IH Hin (Datatypes.S ie)) as [r Hr]; exists r; apply in_app_iff; auto.
  Qed.

  Lemma in_prism_calls o : In o (prism_calls k m T) <-> exists i p, nth_error (m_prisms m) i = Some p /\
    In o (prism_ops (k_power k T) (k_cap k T) (k_xy k T) (k_z k T) (k_height k) (k_harea k)
            (k_side k) (k_edge k) (k_dist k) (m_top m) (m_bot m) i p).
  Proof.
    unfold prism_calls, prism_count; rewrite in_flat_map; split.
    - intros ([i p] & H1 & H2); exists i, p; split; [|exact H2].
      apply In_nth_error in H1 as [q H1].
      assert (G : forall (l : list prism) a q, nth_error (combine (seq a (List.length l)) l) q = Some (i, p) -> i = a + q /\ nth_error l q = Some p).
      { clear; induction l as [|x l IH]; intros a [|q] H; cbn in H; try discriminate; [injection H as <- <-; split; [lia|reflexivity]|].
        apply IH in H as [-> H]; split; [lia|exact H]. }
      apply G in H1 as [-> H1]; exact H1.
    - intros (i & p & H1 & H2); exists (i, p); split; [|exact H2].
      assert (G : forall (l : list prism) a q, nth_error l q = Some p -> In (a + q, p) (combine (seq a (List.length l)) l)).
      { clear; induction l as [|x l IH]; intros a [|q] H; cbn in H |- *; try discriminate; [injection H as ->; left; f_equal; lia|].
        right; replace (a + S q) with (S a + q) by lia; apply IH; auto. }
      exact (G _ 0 _ H1).
  Qed.

  Lemma prism_call_of i p o : nth_error (m_prisms m) i = Some p ->
    In o (prism_ops (k_power k T) (k_cap k T) (k_xy k T) (k_z k T) (k_height k) (k_harea k)
            (k_side k) (k_edge k) (k_dist k) (m_top m) (m_bot m) i p) -> prism_call i o.
  Proof.
    intros Hp H; unfold prism_ops in H; repeat (apply in_app_iff in H; destruct H as [H|H]).
    - unfold power_ops in H; destruct (k_power k T i) as [[q s]|] eqn:E; [|destruct H].
      destruct H as [<-|[<-|[]]]; [eapply pc_power; eauto|apply pc_scen].
    - destruct H as [<-|[]]; apply pc_cap.
    - apply side_in in H as (j & r & -> & H1 & H2); apply pc_side; auto; left; exists p; auto.
    - unfold face_ops in H; destruct (p_top p) as [j|] eqn:E.
      + destruct (Nat.ltb_spec i j); [|destruct H]; destruct H as [<-|[]]; apply pc_side; auto; left; exists p; auto.
      + unfold bc_ops in H; destruct (m_top m) as [[v|v]|] eqn:E2; [| |destruct H]; destruct H as [<-|[]];
          [apply pc_htc|apply pc_flux]; exists p; auto.
    - unfold face_ops in H; destruct (p_bot p) as [j|] eqn:E.
      + destruct (Nat.ltb_spec i j); [|destruct H]; destruct H as [<-|[]]; apply pc_side; auto; left; exists p; auto.
      + unfold bc_ops in H; destruct (m_bot m) as [[v|v]|] eqn:E2; [| |destruct H]; destruct H as [<-|[]];
          [apply pc_htc|apply pc_flux]; exists p; auto.
  Qed.

  Inductive block_call : op -> Prop :=
  | bc_htc i v : i < prism_count m -> free_face m i (HTC v) -> block_call (SetHTC i (v * k_harea k i)%Q)
  | bc_flux i v : i < prism_count m -> free_face m i (HeatFlux v) -> block_call (SetHF i (v * k_harea k i)%Q).

  Lemma block_call_of o : In o (block_calls k m) -> block_call o.
  Proof.
    intros H; apply in_flat_map in H as (b & Hb & H); unfold block_ops in H; apply in_flat_map in H as (i & Hi & H).
    assert (Li : i < prism_count m) by (apply (proj2 (proj2 (proj2 (proj2 Hm))) b i); auto).
    destruct (nth_error (m_prisms m) i) as [p|] eqn:Ep; [|apply nth_error_None in Ep; unfold prism_count in Li; lia].
    assert (F : (if b_top b then above_of m else below_of m) i = None -> free_face m i (b_bc b)).
    { intros E; exists p; split; [auto|right; right; exists b; split; [auto|split; [auto|split; [auto|]]]].
      unfold above_of, below_of in E; destruct (b_top b); rewrite Ep in E; auto. }
    destruct ((if b_top b then above_of m else below_of m) i) eqn:E; [destruct H|specialize (F eq_refl)].
    destruct (b_bc b); destruct H as [<-|[]]; constructor; auto.
  Qed.

  Inductive line_call : op -> Prop :=
  | lc_cap l v : In l (m_lines m) -> line_call (SetC (w_id l) v)
  | lc_scen l s : In l (m_lines m) -> line_call (SetScenario (w_id l) s)
  | lc_joule l v : In l (m_lines m) -> line_call (AddHF (w_id l) v)
  | lc_prism l j r : In l (m_lines m) -> In j (ends l) -> j < prism_count m -> line_call (SetR j (w_id l) r)
  | lc_line l j r : In l (m_lines m) -> In j (ends l) -> prism_count m <= j -> w_id l < j -> line_call (SetR (w_id l) j r).

  Lemma line_call_of l o : In l (m_lines m) -> In o (line_calls l) -> line_call o.
  Proof.
    intros Hl H; unfold line_calls, line_head in H; repeat (apply in_app_iff in H; destruct H as [H|H]).
    - destruct H as [<-|[<-|[]]]; constructor; auto.
    - destruct (Qltb _ _); [|destruct H]; destruct H as [<-|[]]; constructor; auto.
    - apply in_flat_map in H as (j & Hj & H); unfold nb_calls in H.
      destruct (Nat.ltb_spec j (prism_count m)); [destruct H as [<-|[]]; constructor; auto|].
      destruct (Nat.ltb_spec (w_id l) j); [|destruct H].
      destruct (nth_error _ _); [|destruct H]; destruct H as [<-|[]]; constructor; auto.
  Qed.

  Lemma in_calls o : In o all_calls -> (exists i, i < prism_count m /\ prism_call i o) \/ line_call o \/ block_call o.
  Proof.
    unfold all_calls; rewrite !in_app_iff; intros [H|[H|H]].
    - apply in_prism_calls in H as (i & p & Hp & H); left; exists i; split; [apply nth_error_Some; rewrite Hp; discriminate|eapply prism_call_of; eauto].
    - apply in_flat_map in H as (l & Hl & H); right; left; eapply line_call_of; eauto.
    - right; right; apply block_call_of; auto.
  Qed.

  Lemma touched_range i j : touches m i j -> i < element_count m /\ j < element_count m /\ j <> i.
  Proof.
    intros H; destruct (proj1 (proj2 Hm) i j H) as [H1 H2]; split; [|auto].
    destruct H as [(p & Hp & _)|(l & Hl & <- & _)].
    - assert (i < List.length (m_prisms m)) by (apply nth_error_Some; rewrite Hp; discriminate); unfold element_count, prism_count; lia.
    - destruct (line_in l Hl) as (q & _ & -> & Lq); unfold element_count; lia.
  Qed.

  Lemma calls_ok : Forall (fun o => op_ok (element_count m) o /\ never_append o) all_calls.
  Proof.
    apply Forall_forall; intros o Ho; apply in_calls in Ho as [(i & Li & Ho)|[Ho|Ho]].
    - assert (i < element_count m) by (unfold element_count; lia).
      inversion Ho as [| | |j r Hij Ht| |]; subst; cbn [op_ok never_append]; auto.
      destruct (touched_range _ _ Ht) as (_ & Hj & _); auto.
    - assert (L : forall l, In l (m_lines m) -> w_id l < element_count m)
        by (intros l Hl; destruct (line_in l Hl) as (q & _ & -> & Lq); unfold element_count; lia).
      assert (J : forall l j, In l (m_lines m) -> In j (ends l) -> j < element_count m) by (intros l j Hl Hj; apply (end_range l j); auto).
      inversion Ho; subst; cbn [op_ok never_append]; eauto 6.
    - inversion Ho; subst; cbn [op_ok never_append]; unfold element_count; split; auto; lia.
  Qed.
  Lemma calls_append : Forall never_append all_calls.
  Proof. eapply Forall_impl; [|exact calls_ok]; intros o []; auto. Qed.

  Lemma build_defined minR : List.length T = element_count m -> exists net, wire_build k m minR T = Ok (Some net) /\ run minR (net_new (element_count m)) all_calls = Ok net /\
    List.length net = element_count m /\ Forall (ends_below (List.length net)) all_calls.
  Proof.
    intros HT; assert (L0 : List.length (net_new (element_count m)) = element_count m) by apply repeat_length.
    assert (Hok : ok_ops (List.length (net_new (element_count m))) all_calls) by (rewrite L0; apply ok_ops_all, calls_ok).
    destruct (ok_ops_run minR all_calls _ Hok) as [net Hrun].
    exists net; rewrite build_calls, Hrun by auto; split; [reflexivity|split; [reflexivity|split]].
    - rewrite (SteadyGrid_Props.run_appended minR _ _ _ Hrun), L0.
      rewrite (SteadyGrid_Props.not_appended never_append); [lia| |intros o Ho; exact Ho].
      intros o Ho; exact (proj1 (Forall_forall _ _) calls_append o Ho).
    - exact (SteadyGrid_Props.ok_ops_ends minR _ _ _ Hok Hrun).
  Qed.

  (** ** Every contact has a resistor *)
  Lemma contact_call i j : touches m i j -> exists r, In (SetR (Nat.min i j) (Nat.max i j) r) all_calls.
  Proof.
    assert (P : forall i j, i < j -> i < prism_count m -> j < prism_count m -> touches m i j -> exists r, In (SetR i j r) all_calls).
    { clear i j; intros i j Hij Hi Hj [(p & Hp & H)|(l & Hl & <- & _)]; [|destruct (line_in l Hl) as (q & _ & E & _); lia].
      assert (exists r, In (SetR i j r) (prism_ops (k_power k T) (k_cap k T) (k_xy k T) (k_z k T) (k_height k) (k_harea k)
            (k_side k) (k_edge k) (k_dist k) (m_top m) (m_bot m) i p)) as [r Hr].
      { unfold prism_ops; destruct H as [H|[H|H]].
        - destruct (side_has (k_xy k T) (k_side k) (k_edge k) (k_dist k) i j _ Hij H 0) as [r Hr]; exists r.
          rewrite !in_app_iff; auto.
        - eexists; rewrite !in_app_iff; do 3 right; left; unfold face_ops; rewrite H, (proj2 (Nat.ltb_lt _ _) Hij); now left.
        - eexists; rewrite !in_app_iff; do 4 right; unfold face_ops; rewrite H, (proj2 (Nat.ltb_lt _ _) Hij); now left. }
      exists r; unfold all_calls; rewrite in_app_iff; left; apply in_prism_calls; eauto. }
    assert (L : forall l j, In l (m_lines m) -> In j (ends l) -> j < prism_count m -> exists r, In (SetR j (w_id l) r) all_calls).
    { clear i j; intros l j Hl Hj Lj; exists (half_r k l (nth (w_id l) T 0%Q)); unfold all_calls; rewrite !in_app_iff; right; left.
      apply in_flat_map; exists l; split; [auto|]; unfold line_calls; apply in_app_iff; right; apply in_flat_map; exists j; split; [auto|].
      unfold nb_calls; rewrite (proj2 (Nat.ltb_lt _ _) Lj); now left. }
    assert (W : forall l j, In l (m_lines m) -> In j (ends l) -> prism_count m <= j -> w_id l < j -> exists r, In (SetR (w_id l) j r) all_calls).
    { clear i j; intros l j Hl Hj Lj Hlt; destruct (end_range l j Hl Hj) as [R _].
      destruct (nth_error (m_lines m) (j - prism_count m)) as [l2|] eqn:E; [|apply nth_error_None in E; unfold element_count in R; lia].
      eexists; unfold all_calls; rewrite !in_app_iff; right; left.
      apply in_flat_map; exists l; split; [auto|]; unfold line_calls; apply in_app_iff; right; apply in_flat_map; exists j; split; [auto|].
      unfold nb_calls; rewrite (proj2 (Nat.ltb_ge _ _) Lj), (proj2 (Nat.ltb_lt _ _) Hlt), E; now left. }
    destruct Hm as (M1 & M2 & M3 & M4 & M5).
    intros Ht; destruct (touched_range i j Ht) as (Hi & Hj & Hne).
    destruct (Nat.lt_ge_cases i (prism_count m)) as [Pi|Pi].
    - pose proof (M3 i j Pi Ht) as Pj.
      destruct (Nat.lt_ge_cases i j); [rewrite Nat.min_l, Nat.max_r by lia; auto|rewrite Nat.min_r, Nat.max_l by lia].
      apply P; auto; [lia|apply M4; [auto|unfold prism_count in Pi; tauto]].
    - destruct Ht as [(p & Hp & _)|(l & Hl & <- & Hin)]; [exfalso|].
      { assert (i < List.length (m_prisms m)) by (apply nth_error_Some; rewrite Hp; discriminate); unfold prism_count in Pi; lia. }
      destruct (Nat.lt_ge_cases j (prism_count m)) as [Pj|Pj]; [rewrite Nat.min_r, Nat.max_l by lia; auto|].
      destruct (Nat.lt_ge_cases (w_id l) j) as [Hlt|Hge]; [rewrite Nat.min_l, Nat.max_r by lia; auto|rewrite Nat.min_r, Nat.max_l by lia].
      assert (Ht' : touches m j (w_id l)) by (apply M4; [apply end_touches; auto|unfold prism_count in *; lia]).
      destruct Ht' as [(p & Hp & _)|(l2 & Hl2 & <- & Hin2)].
      { assert (j < List.length (m_prisms m)) by (apply nth_error_Some; rewrite Hp; discriminate); unfold prism_count in Pj; lia. }
      apply W; auto; lia.
  Qed.

  Lemma face_call i v : free_face m i (HTC v) -> In (SetHTC i (v * k_harea k i)%Q) all_calls.
  Proof.
    intros (p & Hp & [[H1 H2]|[[H1 H2]|(q & H1 & H2 & H3 & H4)]]); unfold all_calls; rewrite !in_app_iff.
    - left; apply in_prism_calls; exists i, p; split; [auto|]; unfold prism_ops, face_ops; rewrite !in_app_iff, H1, H2; do 3 right; left; now left.
    - left; apply in_prism_calls; exists i, p; split; [auto|]; unfold prism_ops, face_ops; rewrite !in_app_iff, H1, H2; do 4 right; now left.
    - right; right; apply in_flat_map; exists q; split; [auto|]; unfold block_ops; apply in_flat_map; exists i; split; [auto|].
      replace ((if b_top q then above_of m else below_of m) i) with (@None nat); [rewrite H3; now left|].
      unfold above_of, below_of; destruct (b_top q); rewrite Hp; auto.
  Qed.
End Calls.
