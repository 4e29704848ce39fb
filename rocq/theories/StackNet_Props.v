(** C176: the steady state of stack-up prism models. *)
From Verif Require Import Base QSum ThermalNetwork_Model ThermalNetwork_Spec ThermalNetwork_Proofs ThermalNetwork_Props.
From Verif Require Grid_Proofs SteadyGrid_Props.
From Verif Require Import Steady_Spec Steady_Proofs Steady_Props.
From Verif Require Import PrismNet_Model PrismNet_Spec PrismNet_Proofs WireNet_Model WireNet_Spec WireNet_Proofs WireNet_Props StackNet_Model StackNet_Spec.
Open Scope nat_scope.

Lemma view_count m : prism_count (line_view m) = prism_count m.
Proof. unfold prism_count, line_view; cbn [m_prisms]; apply map_length. Qed.
Lemma view_elements m : element_count (line_view m) = element_count m.
Proof. unfold element_count; rewrite view_count; reflexivity. Qed.

Lemma view_touches m i j : touches (line_view m) i j <-> beside m i j \/ wired m i j.
Proof.
  unfold touches, beside, wired, line_view; cbn [m_prisms m_lines]; split; (intros [(p & Hp & H)|H]; [left|right; exact H]).
  - rewrite nth_error_map in Hp; destruct (nth_error (m_prisms m) i) as [p'|] eqn:E; cbn [option_map] in Hp; [|discriminate].
    injection Hp as <-; exists p'; cbn [sides_only p_side p_top p_bot] in H; split; [auto|]; destruct H as [H|[H|H]]; [auto|discriminate|discriminate].
  - exists (sides_only p); rewrite nth_error_map, Hp; split; [reflexivity|left; exact H].
Qed.

Section Stack.
  Context (k : lookups) (m : pmodel) (T : list Q).
  Context (Hm : stack_well m).

  Lemma prism_range i p : nth_error (m_prisms m) i = Some p -> i < prism_count m.
  Proof. intros H; apply nth_error_Some; rewrite H; discriminate. Qed.

  Lemma view_well : connected_well (line_view m).
  Proof.
    destruct Hm as (M0 & M1 & M2 & M3 & M4 & M5 & M6).
    unfold connected_well; fold (prism_count (line_view m)); rewrite view_count; cbn [line_view m_lines m_blocks].
    split; [exact M1|split; [|split; [|split; [|intros b i []]]]].
    - intros i j H; apply view_touches in H; apply M2; right; exact H.
    - intros i j Hi H; apply view_touches in H as [H|(l & Hl & <- & _)]; [apply (M3 i j); auto|].
      apply In_nth_error in Hl as [q Hq]; apply M1 in Hq; unfold prism_count in Hi; lia.
    - intros i j H Hij; apply view_touches in H; apply view_touches; destruct H as [H|H]; [left; auto|right].
      apply M6; auto; destruct H as (l & Hl & <- & _); apply In_nth_error in Hl as [q Hq]; apply M1 in Hq; unfold prism_count in Hij; lia.
  Qed.

  (** the calls for the faces of one prism *)
  Definition top_calls (i : nat) (p : prism) : list op :=
    match p_top p with None => bc_ops i (k_harea k i) (m_top m) | Some _ => covered_ops (k_z k T) (k_height k) (k_harea k) i (p_ctop p) (m_top m) end.
  Definition bot_calls (i : nat) (p : prism) : list op :=
    match p_bot p with
    | None => match m_bot m with Some (HeatFlux v) => [SetHF i v] | b => bc_ops i (k_harea k i) b end
    | Some _ => covered_ops (k_z k T) (k_height k) (k_harea k) i (p_cbot p) (m_bot m)
    end.
  Definition body_calls (i : nat) (p : prism) : list op :=
    power_ops (k_power k T) i ++ [SetC i (k_cap k T i)] ++ side_ops (k_xy k T) (k_side k) (k_edge k) (k_dist k) i 0 (p_side p).
  Definition one_prism (i : nat) (p : prism) : list op := body_calls i p ++ top_calls i p ++ bot_calls i p.
  Definition prism_list : list op := flat_map (fun ip => one_prism (fst ip) (snd ip)) (combine (seq 0 (prism_count m)) (m_prisms m)).
  Definition stack_all : list op := prism_list ++ flat_map (line_calls k (line_view m) T) (m_lines m).

  Lemma in_numbered ip : In ip (combine (seq 0 (prism_count m)) (m_prisms m)) <-> nth_error (m_prisms m) (fst ip) = Some (snd ip).
  Proof.
    unfold prism_count; split.
    - intros H; apply In_nth_error in H as [q H].
      assert (G : forall (l : list prism) a q, nth_error (combine (seq a (List.length l)) l) q = Some ip -> fst ip = a + q /\ nth_error l q = Some (snd ip)).
      { clear; induction l as [|x l IH]; intros a [|q] H; cbn in H; try discriminate; [injection H as <-; cbn [fst snd]; split; [lia|reflexivity]|].
        apply IH in H as [-> H]; split; [lia|exact H]. }
      apply G in H as [-> H]; exact H.
    - destruct ip as [i p]; cbn [fst snd]; intros H1.
      assert (G : forall (l : list prism) a q, nth_error l q = Some p -> In (a + q, p) (combine (seq a (List.length l)) l)).
      { clear; induction l as [|x l IH]; intros a [|q] H; cbn in H |- *; try discriminate; [injection H as ->; left; f_equal; lia|].
        right; replace (a + S q) with (S a + q) by lia; apply IH; auto. }
      exact (G _ 0 _ H1).
  Qed.

  Lemma stack_calls_ok : stack_calls k m T = Ok prism_list.
  Proof.
    unfold stack_calls; apply concat_ok; intros [i p] Hin; apply in_numbered in Hin; cbn [fst snd] in *.
    destruct (proj1 Hm i p Hin) as [Ht Hb]; unfold stack_prism_ops, one_prism, body_calls, stack_top_ops, stack_bot_ops, top_calls, bot_calls.
    destruct Ht as [-> | ->], Hb as [-> | ->]; rewrite ?Nat.eqb_refl; cbn [bind]; rewrite <- !app_assoc; destruct (m_bot m) as [[]|]; reflexivity.
  Qed.

  Lemma blocks_nothing local barea : stack_blocks k local barea m = [].
  Proof.
    unfold stack_blocks; induction (m_blocks m) as [|b bs IH]; [reflexivity|]; cbn [flat_map]; rewrite IH, app_nil_r.
    unfold stack_block_ops, block_ops, stack_elem_nb; induction (b_found b) as [|i is IHi]; [reflexivity|exact IHi].
  Qed.

  Lemma stack_build_calls local barea minR : List.length T = element_count m ->
    stack_build k local barea m minR T = rmap Some (run minR (net_new (element_count m)) stack_all).
  Proof.
    intros HT; unfold stack_build; rewrite HT, Nat.eqb_refl, stack_calls_ok.
    pose proof (lines_calls k (line_view m) T view_well ltac:(rewrite view_elements; exact HT)) as E.
    change (m_lines (line_view m)) with (m_lines m) in E; rewrite E; cbn [bind]; rewrite blocks_nothing, app_nil_r; reflexivity.
  Qed.

  (** ** Which calls there are *)
  Inductive stack_call : op -> Prop :=
  | sc_power i p s : i < prism_count m -> k_power k T i = Some (p, s) -> stack_call (AddHF i p)
  | sc_scen i s : i < prism_count m -> stack_call (SetScenario i s)
  | sc_cap i v : i < prism_count m -> stack_call (SetC i v)
  | sc_meet i j r : i < prism_count m -> meets m i j -> stack_call (SetR i j r)
  | sc_htc i v s : i < prism_count m -> m_top m = Some (HTC v) \/ m_bot m = Some (HTC v) -> (0 < s)%Q -> stack_call (SetHTC i (v * (k_harea k i * s))%Q)
  | sc_htc1 i v : i < prism_count m -> m_top m = Some (HTC v) \/ m_bot m = Some (HTC v) -> stack_call (SetHTC i (v * k_harea k i)%Q)
  | sc_flux i v w : i < prism_count m -> m_top m = Some (HeatFlux v) \/ m_bot m = Some (HeatFlux v) -> stack_call (SetHF i w)
  | sc_line o : line_call (line_view m) o -> stack_call o.

  Lemma contact_in i cs o : In o (contact_ops (k_z k T) (k_height k) (k_harea k) i cs) -> exists n s r, o = SetR i n r /\ In (n, s) cs.
  Proof.
    induction cs as [|[n s] cs IH]; cbn [contact_ops]; [intros []|]; intros H; apply in_app_iff in H as [H|H].
    - destruct (n <? i); [destruct H|destruct H as [<-|[]]; do 3 eexists; split; [reflexivity|now left]].
    - destruct (IH H) as (n' & s' & r & H1 & H2); exists n', s', r; split; [auto|now right].
  Qed.
  Lemma contact_has i cs n s : i <= n -> In (n, s) cs -> exists r, In (SetR i n r) (contact_ops (k_z k T) (k_height k) (k_harea k) i cs).
  Proof.
    intros Hn; induction cs as [|[n' s'] cs IH]; [intros []|]; intros [H|H]; cbn [contact_ops].
    - injection H as -> ->; destruct (Nat.ltb_spec n i); [lia|]; eexists; apply in_app_iff; left; now left.
    - destruct (IH H) as [r Hr]; exists r; apply in_app_iff; auto.
  Qed.

  Lemma covered_call i p cs b : nth_error (m_prisms m) i = Some p -> (forall n s, In (n, s) cs -> stacked_on m i n) -> m_top m = b \/ m_bot m = b ->
    forall o, In o (covered_ops (k_z k T) (k_height k) (k_harea k) i cs b) -> stack_call o.
  Proof.
    intros Hp Hc Hb o H; pose proof (prism_range i p Hp) as Li; unfold covered_ops in H; apply in_app_iff in H as [H|H].
    - apply contact_in in H as (n & s & r & -> & H); apply sc_meet; [auto|left; eauto].
    - destruct (Qltb 0 (uncovered cs)) eqn:E; [|destruct H]; apply Qltb_iff in E; unfold bc_ops in H; destruct b as [[v|v]|]; [| |destruct H]; destruct H as [<-|[]].
      + apply sc_htc; tauto.
      + apply (sc_flux i v); tauto.
  Qed.

  Lemma stack_call_of o : In o stack_all -> stack_call o.
  Proof.
    intros H; apply in_app_iff in H as [H|H].
    - apply in_flat_map in H as ([i p] & Hin & H); apply in_numbered in Hin; cbn [fst snd] in *; pose proof (prism_range i p Hin) as Li.
      unfold one_prism, body_calls in H; repeat (apply in_app_iff in H; destruct H as [H|H]).
      + unfold power_ops in H; destruct (k_power k T i) as [[q s]|] eqn:E; [|destruct H].
        destruct H as [<-|[<-|[]]]; [eapply sc_power; eauto|apply sc_scen; auto].
      + destruct H as [<-|[]]; apply sc_cap; auto.
      + apply side_in in H as (j & r & -> & H1 & H2); apply sc_meet; [auto|right; left; exists p; auto].
      + unfold top_calls in H; destruct (p_top p) as [x|] eqn:E.
        * apply (covered_call i p (p_ctop p) (m_top m) Hin); auto; intros n s Hn; exists p, s; split; [auto|left; rewrite E; split; [discriminate|auto]].
        * unfold bc_ops in H; destruct (m_top m) as [[v|v]|] eqn:E2; [| |destruct H]; destruct H as [<-|[]]; [apply sc_htc1; auto|apply (sc_flux i v); auto].
      + unfold bot_calls in H; destruct (p_bot p) as [x|] eqn:E.
        * apply (covered_call i p (p_cbot p) (m_bot m) Hin); auto; intros n s Hn; exists p, s; split; [auto|right; rewrite E; split; [discriminate|auto]].
        * unfold bc_ops in H; destruct (m_bot m) as [[v|v]|] eqn:E2; [| |destruct H]; destruct H as [<-|[]]; [apply sc_htc1; auto|apply (sc_flux i v); auto].
    - apply in_flat_map in H as (l & Hl & H); apply sc_line; apply (line_call_of k (line_view m) T l); auto.
  Qed.

  Lemma meet_range i j : meets m i j -> i < element_count m /\ j < element_count m /\ j <> i.
  Proof.
    intros H; destruct Hm as (M0 & M1 & M2 & _); destruct (M2 i j H) as [H1 H2]; split; [|auto].
    destruct H as [(p & r & Hp & _)|[(p & Hp & _)|(l & Hl & <- & _)]].
    - apply prism_range in Hp; unfold element_count; lia.
    - apply prism_range in Hp; unfold element_count; lia.
    - apply In_nth_error in Hl as [q Hq]; assert (q < List.length (m_lines m)) by (apply nth_error_Some; rewrite Hq; discriminate).
      apply M1 in Hq; unfold element_count, prism_count; lia.
  Qed.

  Lemma stack_ok : Forall (fun o => Grid_Proofs.op_ok (element_count m) o /\ never_append o) stack_all.
  Proof.
    apply Forall_forall; intros o Ho.
    assert (LL : In o (flat_map (line_calls k (line_view m) T) (m_lines m)) -> Grid_Proofs.op_ok (element_count m) o /\ never_append o).
    { intros H; rewrite <- view_elements; apply (proj1 (Forall_forall _ _) (calls_ok k (line_view m) T view_well) o).
      unfold all_calls; apply in_app_iff; right; apply in_app_iff; left; exact H. }
    apply in_app_iff in Ho as [Ho|Ho]; [|auto].
    assert (P : stack_call o) by (apply stack_call_of; apply in_app_iff; auto).
    apply in_flat_map in Ho as ([i p] & Hin & Ho); clear LL.
    assert (E : forall i, i < prism_count m -> i < element_count m) by (unfold element_count; intros; lia).
    inversion P as [| | |i' j r Li Hj| | | |o' Hl]; subst; cbn [Grid_Proofs.op_ok never_append]; auto.
    - destruct (meet_range i' j Hj) as (H1 & H2 & _); auto.
    - assert (V : forall l, In l (m_lines (line_view m)) -> w_id l < element_count m).
      { intros l Hl'; destruct (line_in (line_view m) view_well l Hl') as (q & _ & -> & Lq); rewrite view_count; unfold element_count; cbn [line_view m_lines] in Lq; lia. }
      assert (J : forall l j, In l (m_lines (line_view m)) -> In j (ends l) -> j < element_count m)
        by (intros l j Hl' Hj; rewrite <- view_elements; apply (end_range (line_view m) view_well l j); auto).
      inversion Hl; subst; cbn [Grid_Proofs.op_ok never_append]; eauto 6.
  Qed.
  Lemma stack_append : Forall never_append stack_all.
  Proof. eapply Forall_impl; [|exact stack_ok]; intros o []; auto. Qed.

  Lemma stack_defined local barea minR : List.length T = element_count m -> exists net, stack_build k local barea m minR T = Ok (Some net) /\
    run minR (net_new (element_count m)) stack_all = Ok net /\
    List.length net = element_count m /\ Forall (ends_below (List.length net)) stack_all.
  Proof.
    intros HT; assert (L0 : List.length (net_new (element_count m)) = element_count m) by apply repeat_length.
    assert (Hok : Grid_Proofs.ok_ops (List.length (net_new (element_count m))) stack_all) by (rewrite L0; apply ok_ops_all, stack_ok).
    destruct (Grid_Proofs.ok_ops_run minR stack_all _ Hok) as [net Hrun].
    exists net; rewrite stack_build_calls, Hrun by auto; split; [reflexivity|split; [reflexivity|split]].
    - rewrite (SteadyGrid_Props.run_appended minR _ _ _ Hrun), L0.
      rewrite (SteadyGrid_Props.not_appended never_append); [lia| |intros o Ho; exact Ho].
      intros o Ho; exact (proj1 (Forall_forall _ _) stack_append o Ho).
    - exact (SteadyGrid_Props.ok_ops_ends minR _ _ _ Hok Hrun).
  Qed.

  (** ** Contacts are resistors, cooled prisms exchange heat *)
  Lemma in_one i p o : nth_error (m_prisms m) i = Some p -> In o (one_prism i p) -> In o stack_all.
  Proof. intros Hp Ho; apply in_app_iff; left; apply in_flat_map; exists (i, p); split; [apply in_numbered; exact Hp|exact Ho]. Qed.

  Lemma meet_call i j : meets m i j -> exists r, In (SetR (Nat.min i j) (Nat.max i j) r) stack_all.
  Proof.
    intros H.
    assert (V : beside m i j \/ wired m i j -> exists r, In (SetR (Nat.min i j) (Nat.max i j) r) stack_all).
    { intros H'; apply view_touches in H'; destruct (contact_call k (line_view m) T view_well i j H') as [r Hr]; exists r.
      unfold all_calls in Hr; apply in_app_iff in Hr as [Hr|Hr]; [|apply in_app_iff in Hr as [Hr|[]]].
      - apply in_prism_calls in Hr as (a & p' & Hp' & Hr); cbn [line_view m_prisms] in Hp'; rewrite nth_error_map in Hp'.
        destruct (nth_error (m_prisms m) a) as [p|] eqn:E; cbn [option_map] in Hp'; [|discriminate]; injection Hp' as <-.
        apply (in_one a p); [auto|]; unfold prism_ops in Hr; cbn [sides_only p_side p_top p_bot line_view m_top m_bot face_ops bc_ops] in Hr.
        rewrite !app_nil_r in Hr; unfold one_prism; apply in_app_iff; left; exact Hr.
      - apply in_app_iff; right; exact Hr. }
    destruct H as [H|H]; [|auto].
    destruct (meet_range i j (or_introl H)) as (_ & _ & Hne); destruct Hm as (_ & _ & _ & _ & M4 & _).
    assert (S : forall a b, a < b -> stacked_on m a b -> exists r, In (SetR a b r) stack_all).
    { intros a b Hab (p & s & Hp & Hs).
      assert (exists r, In (SetR a b r) (one_prism a p)) as [r Hr]; [|exists r; eapply in_one; eauto].
      unfold one_prism, top_calls, bot_calls, covered_ops; destruct Hs as [[H1 H2]|[H1 H2]].
      - destruct (contact_has a (p_ctop p) b s) as [r Hr]; [lia|auto|]; exists r; rewrite !in_app_iff; right; left.
        destruct (p_top p); [|congruence]; apply in_app_iff; auto.
      - destruct (contact_has a (p_cbot p) b s) as [r Hr]; [lia|auto|]; exists r; rewrite !in_app_iff; right; right.
        destruct (p_bot p); [|congruence]; apply in_app_iff; auto. }
    destruct (Nat.lt_ge_cases i j); [rewrite Nat.min_l, Nat.max_r by lia; auto|rewrite Nat.min_r, Nat.max_l by lia; apply S; [lia|auto]].
  Qed.

  Lemma uncovered_share cs : (uncovered cs == 1 - sumf snd cs)%Q.
  Proof. unfold uncovered; apply uncovered_sum. Qed.

  Lemma cooled_call i : cooled_prism m i -> exists w, In (SetHTC i w) stack_all.
  Proof.
    intros (p & v & Hp & H).
    assert (C : forall cs b, b = Some (HTC v) -> (0 < 1 - sumf snd cs)%Q -> exists w, In (SetHTC i w) (covered_ops (k_z k T) (k_height k) (k_harea k) i cs b)).
    { intros cs b -> Hs; exists (v * (k_harea k i * uncovered cs))%Q; unfold covered_ops; apply in_app_iff; right.
      rewrite <- uncovered_share in Hs; apply Qltb_iff in Hs; rewrite Hs; now left. }
    assert (exists w, In (SetHTC i w) (one_prism i p)) as [w Hw]; [|exists w; eapply in_one; eauto].
    unfold one_prism, top_calls, bot_calls; destruct H as [[H1 H2]|[H1 H2]]; unfold free_share in H2; rewrite H1.
    - destruct (p_top p); [destruct (C (p_ctop p) _ eq_refl H2) as [w Hw]; exists w; rewrite !in_app_iff; auto|].
      eexists; rewrite !in_app_iff; right; left; now left.
    - destruct (p_bot p); [destruct (C (p_cbot p) _ eq_refl H2) as [w Hw]; exists w; rewrite !in_app_iff; auto|].
      eexists; rewrite !in_app_iff; right; right; now left.
  Qed.

  Lemma stack_dissipates minR net M : (0 < minR)%Q -> stack_exchange k m -> (forall i, i < element_count m -> drains m i) ->
    run minR (net_new (element_count m)) stack_all = Ok net -> List.length net = element_count m ->
    forall bonds ps, make_mna net bonds ps = Ok M -> dissipates net M.
  Proof.
    intros HminR [Ha Hv] Hw Hrun Hlen bonds ps HM.
    assert (Hpos : Forall SteadyGrid_Props.positive_htc stack_all).
    { apply Forall_forall; intros o Ho; apply stack_call_of in Ho; inversion Ho as [| | | |i v s Li Hb Hs|i v Li Hb| |o' Hl]; subst; cbn [SteadyGrid_Props.positive_htc]; auto.
      - apply Qmult_lt_0_compat; [auto|]; apply Qmult_lt_0_compat; auto.
      - apply Qmult_lt_0_compat; auto.
      - inversion Hl; exact I. }
    destruct (SteadyGrid_Props.run_htc minR _ _ _ Hrun Hpos) as (R1 & _ & R3).
    split; [intros i _; apply R1; rewrite SteadyGrid_Props.net_new_htc; lra|].
    intros i Hi; rewrite Hlen in Hi; specialize (Hw i Hi).
    assert (C : forall a b, meets m a b -> a < List.length net /\ b < List.length net /\ a <> b /\ ~ (entry (m_G M) a b == 0)%Q /\ ~ (entry (m_G M) b a == 0)%Q).
    { intros a b Ht; destruct (meet_range a b Ht) as (La & Lb & Hne); rewrite Hlen.
      split; [auto|split; [auto|split; [auto|]]].
      destruct (meet_call a b Ht) as [r Hr].
      destruct (SteadyGrid_Props.resistor_couples minR _ _ net bonds ps M (Nat.min a b) (Nat.max a b) r HminR Hrun HM) as [E1 E2];
        [lia|lia|lia|auto|].
      destruct (Nat.lt_ge_cases a b); [rewrite Nat.min_l, Nat.max_r in E1, E2 by lia|rewrite Nat.min_r, Nat.max_l in E1, E2 by lia]; auto. }
    clear Hi; induction Hw as [i Hf|i j Ht _ IH|i j Ht _ IH].
    - destruct (cooled_call i Hf) as [w Hin]; apply grounded_here; [|exact (R3 i w Hin)].
      destruct Hf as (p & v & Hp & _); apply prism_range in Hp; rewrite Hlen; unfold element_count; lia.
    - destruct (C i j Ht) as (Li & Lj & Hne & E1 & E2); apply (grounded_via _ _ _ i j); auto.
    - destruct (C j i Ht) as (Lj & Li & Hne & E1 & E2); apply (grounded_via _ _ _ i j); auto.
  Qed.

  Lemma stack_powers : (sumf added prism_list == prism_powers k m T)%Q.
  Proof.
    assert (CO : forall i cs, (sumf added (contact_ops (k_z k T) (k_height k) (k_harea k) i cs) == 0)%Q)
      by (intros i cs; apply sumf_zero; intros o Ho; apply contact_in in Ho as (n & s & r & -> & _); reflexivity).
    assert (BC : forall i a b, (sumf added (bc_ops i a b) == 0)%Q) by (intros i a [[v|v]|]; reflexivity).
    assert (P : forall i p, (sumf added (one_prism i p) == match k_power k T i with Some (q, _) => q | None => 0 end)%Q).
    { intros i p; unfold one_prism, body_calls; rewrite !sumf_app.
      rewrite (sumf_zero added (side_ops _ _ _ _ _ _ _)) by (intros o Ho; apply side_in in Ho as (j & r & -> & _); reflexivity).
      assert (E1 : (sumf added (top_calls i p) == 0)%Q).
      { unfold top_calls, covered_ops; destruct (p_top p); [rewrite sumf_app, CO; destruct (Qltb _ _); rewrite ?BC; reflexivity|apply BC]. }
      assert (E2 : (sumf added (bot_calls i p) == 0)%Q).
      { unfold bot_calls, covered_ops; destruct (p_bot p); [rewrite sumf_app, CO; destruct (Qltb _ _); rewrite ?BC; reflexivity|].
        destruct (m_bot m) as [[v|v]|]; reflexivity. }
      rewrite E1, E2; unfold power_ops; destruct (k_power k T i) as [[q s]|]; cbn [sumf added]; ring. }
    unfold prism_list, prism_powers, prism_count.
    assert (G : forall (ps : list prism) a, (sumf added (flat_map (fun ip => one_prism (fst ip) (snd ip)) (combine (seq a (List.length ps)) ps)) ==
        sumf (fun i => match k_power k T i with Some (q, _) => q | None => 0 end) (seq a (List.length ps)))%Q).
    { induction ps as [|p ps IH]; intros a; cbn [List.length seq combine flat_map sumf]; [reflexivity|].
      rewrite sumf_app, IH; cbn [fst snd]; rewrite P; reflexivity. }
    apply G.
  Qed.
End Stack.

(** ** C176: if every prism and every segment of a stack-up model is in contact, over any number of others, with a prism whose
    top or bottom is not fully covered and exchanges heat there, there is exactly one steady state. *)
Theorem C176_exactly_one : forall k local barea m minR T refT bonds, (0 < minR)%Q ->
  stack_well m -> stack_exchange k m ->
  (forall i, i < List.length (m_prisms m) + List.length (m_lines m) -> drains m i) ->
  List.length T = List.length (m_prisms m) + List.length (m_lines m) ->
  exists net M, stack_build k local barea m minR T = Ok (Some net) /\ List.length net = List.length (m_prisms m) + List.length (m_lines m) /\
    make_mna net bonds [] = Ok M /\ exactly_one net M refT.
Proof.
  intros k local barea m minR T refT bonds HminR Hm Hx Hw HT.
  destruct (stack_defined k m T Hm local barea minR HT) as (net & Hb & Hrun & Hlen & Hends).
  destruct (C27_assembly_defined minR HminR _ _ net bonds [] Hrun Hends (Forall_nil _)) as [M HM].
  exists net, M; split; [auto|split; [auto|split; [auto|]]].
  apply (C165_exactly_one minR HminR net bonds [] M refT); [exists (element_count m), (stack_all k m T); auto|auto|].
  exact (stack_dissipates k m T Hm minR net M HminR Hx Hw Hrun Hlen bonds [] HM).
Qed.

(** In it the heat that leaves is what the powers and the currents produce. *)
Theorem C176_heat_balance : forall k local barea m minR T refT bonds net M X,
  stack_well m -> physical k m -> stack_no_flux m ->
  List.length T = List.length (m_prisms m) + List.length (m_lines m) ->
  stack_build k local barea m minR T = Ok (Some net) -> make_mna net bonds [] = Ok M -> equilibrium net M refT X ->
  (sumf (fun i => get_htc net i * (X i - refT)) (seq 0 (List.length (m_prisms m) + List.length (m_lines m))) == prism_powers k m T + joule_heats k m T)%Q.
Proof.
  intros k local barea m minR T refT bonds net M X Hm Hp Hf HT Hb HM HX.
  destruct (stack_defined k m T Hm local barea minR HT) as (net' & Hb' & Hrun & Hlen & _).
  assert (net' = net) by congruence; subst net'.
  pose proof (C27_energy_balance net bonds [] M refT X HM HX) as B; rewrite Hlen in B.
  change (List.length (m_prisms m) + List.length (m_lines m)) with (element_count m); rewrite B.
  rewrite (run_total minR (stack_all k m T)) with (l := net_new (element_count m)); [| |exact Hrun].
  - rewrite total_hf_sum, (sumf_zero n_hf (net_new _)) by (intros n Hn; apply repeat_spec in Hn; subst; reflexivity).
    unfold stack_all; rewrite sumf_app, stack_powers.
    pose proof (joules_added k (line_view m) T Hp) as J; change (m_lines (line_view m)) with (m_lines m) in J; rewrite J.
    unfold joule_heats; cbn [line_view m_lines]; ring.
  - apply Forall_forall; intros o Ho; split; [exact (proj1 (Forall_forall _ _) (stack_append k m T Hm) o Ho)|].
    apply stack_call_of in Ho; inversion Ho as [| | | | | |i v w Li Hb2|o' Hl]; subst; cbn [never_set_hf]; auto.
    + destruct (Hf v) as [F1 F2]; destruct Hb2; auto.
    + inversion Hl; exact I.
Qed.

(** ** Block boundary conditions never take effect: the network is the one without them, *)
Theorem C176_blocks_dropped : forall k local barea m minR T,
  stack_build k local barea m minR T = stack_build k local barea (mkModel (m_prisms m) (m_lines m) (m_top m) (m_bot m) []) minR T.
Proof.
  intros k local barea m minR T; unfold stack_build; rewrite (blocks_nothing k m local barea); reflexivity.
Qed.

Lemma no_htc minR os : (forall i v, ~ In (SetHTC i v) os /\ ~ In (AddHTC i v) os) -> Forall never_append os ->
  forall l l', run minR l os = Ok l' -> forall i, get_htc l' i = get_htc l i.
Proof.
  intros Hn Ha l l' Hrun i; unfold get_htc; rewrite (run_node minR os Ha l l' Hrun i); clear Ha Hrun; revert Hn; generalize (nth i l node0).
  induction os as [|o os IH]; intros n Hn; [reflexivity|]; cbn [filter].
  assert (Hn' : forall i v, ~ In (SetHTC i v) os /\ ~ In (AddHTC i v) os) by (intros j v; destruct (Hn j v) as [H1 H2]; split; intros H; [apply H1|apply H2]; right; auto).
  destruct (owned_by i o); [|apply IH; auto]; unfold effs; cbn [fold_left]; fold (effs minR (filter (owned_by i) os) (eff minR o n)); rewrite IH by auto.
  destruct o as [|? ?|? ?|? ?|? ?|a v|a v|? ?|? ? ?]; try reflexivity; exfalso; destruct (Hn a v) as [H1 H2]; [apply H1|apply H2]; left; reflexivity.
Qed.

(** so that a model whose only cooling is a block condition, whatever block and coefficient, has a steady state only if
    nothing heats it. *)
Theorem C176_blocks_do_not_cool : forall k local barea m minR T refT bonds net M X,
  stack_well m -> physical k m -> stack_no_flux m -> (forall v, m_top m <> Some (HTC v) /\ m_bot m <> Some (HTC v)) ->
  List.length T = List.length (m_prisms m) + List.length (m_lines m) ->
  stack_build k local barea m minR T = Ok (Some net) -> make_mna net bonds [] = Ok M -> equilibrium net M refT X ->
  (prism_powers k m T + joule_heats k m T == 0)%Q.
Proof.
  intros k local barea m minR T refT bonds net M X Hm Hp Hf Hc HT Hb HM HX.
  rewrite <- (C176_heat_balance k local barea m minR T refT bonds net M X Hm Hp Hf HT Hb HM HX).
  destruct (stack_defined k m T Hm local barea minR HT) as (net' & Hb' & Hrun & Hlen & _).
  assert (net' = net) by congruence; subst net'.
  apply sumf_zero; intros i _; rewrite (no_htc minR (stack_all k m T)) with (l := net_new (element_count m)) (l' := net); [| | |exact Hrun].
  - rewrite SteadyGrid_Props.net_new_htc; ring.
  - intros j v; split; intros H; apply stack_call_of in H; inversion H as [| | | |? w s Lj Hb2 Hs|? w Lj Hb2| |o Hl]; subst;
      try (inversion Hl; fail); destruct (Hc w); destruct Hb2; auto.
  - exact (stack_append k m T Hm).
Qed.
Print Assumptions C176_exactly_one.
Print Assumptions C176_heat_balance.
Print Assumptions C176_blocks_dropped.
Print Assumptions C176_blocks_do_not_cool.

(** ** A chip lies on half of a base that is cooled from below; a wire leads from the chip to the base; the block condition
    does nothing. *)
Definition chip_on_base : pmodel :=
  mkModel [{| p_side := [None; None; None]; p_top := None; p_bot := Some 0; p_ctop := []; p_cbot := [(1, 1%Q)] |};
           {| p_side := [None; None; None]; p_top := Some 1; p_bot := None; p_ctop := [(0, (1#2)%Q)]; p_cbot := [] |}]
    [mkLine 2 7 1 2 1 1 [0] [1]] None (Some (HTC 10)) [mkBlock true [0] (HTC 1000)].

Lemma chip_meets i j : meets chip_on_base i j <-> In (i, j) [(0, 1); (1, 0); (2, 0); (2, 1)].
Proof.
  split.
  - intros [(p & r & Hp & H)|[(p & Hp & H)|(l & [<-|[]] & <- & H)]].
    + destruct i as [|[|i]]; cbn in Hp; try (injection Hp as <-); cbn in H; try (destruct i; discriminate).
      * destruct H as [[H _]|[_ [H|[]]]]; [tauto|injection H as <- _; cbn; auto].
      * destruct H as [[_ [H|[]]]|[H _]]; [injection H as <- _; cbn; auto|tauto].
    + destruct i as [|[|i]]; cbn in Hp; try (injection Hp as <-); cbn in H; try (destruct i; discriminate); decompose [or] H; try discriminate; tauto.
    + cbn in H |- *; destruct H as [<-|[<-|[]]]; auto.
  - intros H; cbn in H; decompose [or] H; clear H; try tauto; match goal with E : _ = _ |- _ => injection E as <- <- end.
    + left; eexists; exists 1%Q; split; [reflexivity|right; cbn; split; [discriminate|auto]].
    + left; eexists; exists (1#2)%Q; split; [reflexivity|left; cbn; split; [discriminate|auto]].
    + right; right; exists (mkLine 2 7 1 2 1 1 [0] [1]); cbn; auto.
    + right; right; exists (mkLine 2 7 1 2 1 1 [0] [1]); cbn; auto.
Qed.
Lemma chip_stacked i j : stacked_on chip_on_base i j <-> In (i, j) [(0, 1); (1, 0)].
Proof.
  split.
  - intros (p & r & Hp & H); destruct i as [|[|i]]; cbn in Hp; try (injection Hp as <-); cbn in H; try (destruct i; discriminate).
    + destruct H as [[H _]|[_ [H|[]]]]; [tauto|injection H as <- _; cbn; auto].
    + destruct H as [[_ [H|[]]]|[H _]]; [injection H as <- _; cbn; auto|tauto].
  - intros [H|[H|[]]]; injection H as <- <-.
    + eexists; exists 1%Q; split; [reflexivity|right; cbn; split; [discriminate|auto]].
    + eexists; exists (1#2)%Q; split; [reflexivity|left; cbn; split; [discriminate|auto]].
Qed.
Lemma chip_beside i j : ~ beside chip_on_base i j.
Proof.
  intros (p & Hp & H); destruct i as [|[|i]]; cbn in Hp; try (injection Hp as <-); cbn in H; try (destruct i; discriminate); decompose [or] H; try discriminate; tauto.
Qed.
Example chip_well : stack_well chip_on_base.
Proof.
  unfold stack_well; cbn [chip_on_base m_prisms m_lines List.length Nat.add]; split; [|split; [|split; [|split; [|split; [|split]]]]].
  - intros [|[|i]] p H; cbn in H; try (injection H as <-; cbn; auto); destruct i; discriminate.
  - intros [|q] l H; cbn in H; [injection H as <-; reflexivity|destruct q; discriminate].
  - intros i j H; apply chip_meets in H; cbn in H; decompose [or] H; clear H; try tauto; match goal with E : _ = _ |- _ => injection E as <- <- end; lia.
  - intros i j [H|H]; [|destruct (chip_beside _ _ H)]; apply chip_stacked in H; cbn in H; decompose [or] H; clear H; try tauto;
      match goal with E : _ = _ |- _ => injection E as <- <- end; lia.
  - intros i j H; apply chip_stacked in H; apply chip_stacked; cbn in H |- *; decompose [or] H; clear H; try tauto;
      match goal with E : _ = _ |- _ => injection E as <- <- end; auto.
  - intros i j H; destruct (chip_beside _ _ H).
  - intros i j (l & [<-|[]] & <- & H) Hj; cbn in H; lia.
Qed.
Example chip_exchange : stack_exchange bonded_look chip_on_base /\ stack_no_flux chip_on_base /\ physical bonded_look chip_on_base.
Proof.
  split; [split; [intros; cbn; lra|intros v [H|H]; [discriminate|injection H as <-; lra]]|split; [intros v; split; discriminate|]].
  intros l [<-|[]]; exact (bonded_physical (mkLine 2 7 1 2 1 1 [0] [3]) (or_introl eq_refl)).
Qed.
Example chip_drains : forall i, i < 3 -> drains chip_on_base i.
Proof.
  assert (D1 : drains chip_on_base 1).
  { apply drains_here; eexists; exists 10%Q; split; [reflexivity|right; split; [reflexivity|cbn; lra]]. }
  assert (D0 : drains chip_on_base 0) by (apply (drains_from _ 0 1); [apply chip_meets; cbn; auto|auto]).
  assert (D2 : drains chip_on_base 2) by (apply (drains_from _ 2 0); [apply chip_meets; cbn; auto|auto]).
  intros [|[|[|i]]] Hi; auto; lia.
Qed.
Definition chip_net : network := match stack_build bonded_look (fun i => i) (fun _ => 1%Q) chip_on_base (1#1000) [1; 1; 1]%Q with Ok (Some n) => n | _ => [] end.
Example C176_example :
  map (fun i => Qred (get_htc chip_net i)) [0; 1; 2] = [0; 10; 0]%Q /\ map (fun i => Qred (get_hf chip_net i)) [0; 1; 2] = [0; 5; 1]%Q /\
  (prism_powers bonded_look chip_on_base [1; 1; 1] + joule_heats bonded_look chip_on_base [1; 1; 1] == 6)%Q /\ drains chip_on_base 0.
Proof. split; [vm_compute; reflexivity|split; [vm_compute; reflexivity|split; [vm_compute; reflexivity|apply chip_drains; lia]]]. Qed.

(** the same without the condition below: nothing but the block condition would cool it, and there is no steady state *)
Definition chip_afloat : pmodel := mkModel (m_prisms chip_on_base) (m_lines chip_on_base) None None (m_blocks chip_on_base).
Example C176_afloat_example : forall net M refT X,
  stack_build bonded_look (fun i => i) (fun _ => 1%Q) chip_afloat (1#1000) [1; 1; 1]%Q = Ok (Some net) -> make_mna net true [] = Ok M ->
  ~ equilibrium net M refT X.
Proof.
  intros net M refT X Hb HM HX.
  pose proof (C176_blocks_do_not_cool bonded_look (fun i => i) (fun _ => 1%Q) chip_afloat (1#1000) [1; 1; 1]%Q refT true net M X
    chip_well (proj2 (proj2 chip_exchange)) ltac:(intros v; split; discriminate) ltac:(intros v; split; discriminate) eq_refl Hb HM HX) as H.
  vm_compute in H; discriminate.
Qed.
