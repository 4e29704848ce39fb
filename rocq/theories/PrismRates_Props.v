(** C184-C186: the transient simulation of prism and stack-up prism models. *)
From Coq Require Import Qround.
From Verif Require Import Base QSum ThermalNetwork_Model ThermalNetwork_Spec ThermalNetwork_Proofs ThermalNetwork_Props.
From Verif Require Import PrismNet_Model PrismNet_Spec PrismNet_Proofs WireNet_Model WireNet_Spec WireNet_Proofs WireNet_Props
  StackNet_Model StackNet_Spec StackNet_Props Rates_Model Rates_Spec PrismRates_Model PrismRates_Spec PrismRates_Proofs.
From Verif Require Solver_Model Solver_Proofs Solver_Props Rates_Props.
Open Scope nat_scope.

(** * The elements in a network *)
Section Elements.
  Context (k : lookups) (m : pmodel) (T : list Q) (minR : Q) (os : list op) (net : network).
  Context (Happ : Forall never_append os) (Hrun : run minR (net_new (element_count m)) os = Ok net) (Hlen : List.length net = element_count m).
  Context (Hs : forall i s, i < element_count m -> In (SetScenario i s) os <-> element_scenario k m T i = Some s).
  Context (Hh : forall i, i < element_count m -> (sumf (heat_to i) os == element_heat k m T i)%Q).
  Context (Hc : forall i c, i < element_count m -> In (SetC i c) os -> (c == element_capacity k m T i)%Q).
  Context (Hc' : forall i, i < element_count m -> exists c, In (SetC i c) os).
  Context (Hf : forall i v, ~ In (SetHF i v) os).

  Lemma element_scen i : i < element_count m -> get_scen net i = element_scenario k m T i.
  Proof.
    intros Hi; destruct (run_scen minR i os Happ _ _ Hrun) as [R1 R2]; destruct (element_scenario k m T i) as [s|] eqn:E.
    - apply R1; [apply Hs; auto|]; intros s' H; apply Hs in H; auto; congruence.
    - rewrite R2; [unfold get_scen; rewrite new_node; reflexivity|]; intros s H; apply Hs in H; auto; congruence.
  Qed.
  Lemma element_hf i : i < element_count m -> (get_hf net i == element_heat k m T i)%Q.
  Proof.
    intros Hi; rewrite (run_heat minR i os Happ _ _ Hrun (Hf i)), (Hh i Hi); unfold get_hf; rewrite new_node; cbn; ring.
  Qed.
  Lemma element_c i : i < element_count m -> (get_c net i == element_capacity k m T i)%Q.
  Proof.
    intros Hi; destruct (Hc' i Hi) as [c Hin]; destruct (run_cap minR i os Happ _ _ Hrun) as [R1 _].
    rewrite <- (Hc i c Hi Hin); apply R1; [auto|]; intros s' H; rewrite (Hc i c Hi Hin); apply Hc; auto.
  Qed.
  Lemma element_small : (forall i, i < element_count m -> ~ (element_heat k m T i == 0)%Q -> element_scenario k m T i <> None) ->
    scenarios_bounded k m T -> scenarios_small net.
  Proof.
    intros Hd Hb i Hi Hn; rewrite Hlen in Hi; rewrite (element_hf i Hi) in Hn; rewrite (element_scen i Hi).
    destruct (element_scenario k m T i) as [s|] eqn:E; [exists s; split; [auto|exact (Hb i s E)]|destruct (Hd i Hi Hn E)].
  Qed.
  Lemma element_factor e t i : i < element_count m -> (get_hf net i * factor net e t i == heat_at_time k m T e t i)%Q.
  Proof.
    intros Hi; unfold heat_at_time, factor; rewrite (element_hf i Hi), (element_scen i Hi); reflexivity.
  Qed.
End Elements.

Lemma heat_has_scenario k m T i : i < element_count m -> ~ (element_heat k m T i == 0)%Q -> element_scenario k m T i <> None.
Proof.
  intros Hi Hn; unfold element_heat, element_scenario in *; destruct (i <? List.length (m_prisms m)).
  - destruct (k_power k T i) as [[p s]|]; [discriminate|destruct Hn; reflexivity].
  - destruct (nth_error _ _); [discriminate|destruct Hn; reflexivity].
Qed.

(** the calls of a builder: those for prisms, then those for segments *)
Section Calls.
  Context (k : lookups) (m v : pmodel) (T : list Q) (ops : nat -> prism -> list op) (tail : list op).
  Context (Hv : connected_well v) (Hl : m_lines v = m_lines m) (Hn : prism_count v = prism_count m) (Hp : physical k v).
  Context (Hpow : forall i p o, In o (ops i p) -> owner o = Some i).
  Context (Hheat : forall i p, (sumf (heat_to i) (ops i p) == match k_power k T i with Some (q, _) => q | None => 0 end)%Q).
  Context (Hscen : forall i p s, In (SetScenario i s) (ops i p) <-> option_map snd (k_power k T i) = Some s).
  Context (Hcap : forall i p c, In (SetC i c) (ops i p) <-> c = k_cap k T i).
  Context (Htail : forall o, In o tail -> match o with SetHTC _ _ | SetHF _ _ => True | _ => False end).

  Definition calls : list op :=
    flat_map (fun ip => ops (fst ip) (snd ip)) (combine (seq 0 (prism_count m)) (m_prisms m)) ++ flat_map (line_calls k v T) (m_lines v) ++ tail.

  Lemma in_body o : In o (flat_map (fun ip => ops (fst ip) (snd ip)) (combine (seq 0 (prism_count m)) (m_prisms m))) <->
    exists i p, nth_error (m_prisms m) i = Some p /\ In o (ops i p).
  Proof.
    rewrite in_flat_map; split.
    - intros ([i p] & H & Ho); apply in_numbered in H; eauto.
    - intros (i & p & H & Ho); exists (i, p); split; [apply in_numbered; exact H|exact Ho].
  Qed.
  Lemma prism_at i : i < prism_count m -> exists p, nth_error (m_prisms m) i = Some p.
  Proof. intros Hi; destruct (nth_error (m_prisms m) i) as [p|] eqn:E; [eauto|apply nth_error_None in E; unfold prism_count in Hi; lia]. Qed.

  Lemma calls_scen i s : i < element_count m -> In (SetScenario i s) calls <-> element_scenario k m T i = Some s.
  Proof.
    intros Hi; unfold calls, element_scenario; rewrite !in_app_iff, in_body, (lines_scen k v T Hv i s); unfold prism_count in Hn |- *; rewrite Hl, Hn.
    destruct (Nat.ltb_spec i (List.length (m_prisms m))) as [Li|Li].
    - split; [intros [(j & p & _ & H)|[[H _]|H]]|].
      + pose proof (Hpow _ _ _ H) as E; injection E as <-; apply (Hscen i p); exact H.
      + lia.
      + destruct (Htail _ H).
      + intros H; destruct (prism_at i Li) as [p Ep]; left; exists i, p; split; [auto|apply Hscen; auto].
    - split; [intros [(j & p & Ep & H)|[[_ H]|H]]|auto].
      + pose proof (Hpow _ _ _ H) as E; injection E as <-; apply prism_range in Ep; unfold prism_count in Ep; lia.
      + exact H.
      + destruct (Htail _ H).
  Qed.
  Lemma calls_cap i c : i < element_count m -> In (SetC i c) calls -> (c == element_capacity k m T i)%Q.
  Proof.
    intros Hi; unfold calls, element_capacity; rewrite !in_app_iff, in_body; intros [(j & p & Ep & H)|[H|H]].
    - pose proof (Hpow _ _ _ H) as E; injection E as <-; apply prism_range in Ep; unfold prism_count in Ep.
      rewrite (proj2 (Nat.ltb_lt _ _) Ep); apply Hcap in H; subst; reflexivity.
    - apply (lines_cap k v T Hv) in H as (H1 & l & H2 & H3); unfold prism_count in Hn, H1, H2; rewrite Hl, Hn in *.
      destruct (Nat.ltb_spec i (List.length (m_prisms m))); [lia|]; rewrite H2; exact H3.
    - destruct (Htail _ H).
  Qed.
  Lemma calls_cap_in i : i < element_count m -> exists c, In (SetC i c) calls.
  Proof.
    intros Hi; unfold calls; destruct (Nat.lt_ge_cases i (prism_count m)) as [Li|Li].
    - destruct (prism_at i Li) as [p Ep]; exists (k_cap k T i); apply in_app_iff; left; apply in_body; exists i, p; split; [auto|apply Hcap; reflexivity].
    - destruct (nth_error (m_lines v) (i - prism_count v)) as [l|] eqn:E; [|apply nth_error_None in E; rewrite Hl, Hn in E; unfold element_count in Hi; lia].
      destruct (lines_cap_in k v T Hv i l ltac:(lia) E) as [c Hc]; exists c; rewrite !in_app_iff; auto.
  Qed.
  Lemma calls_heat i : i < element_count m -> (sumf (heat_to i) calls == element_heat k m T i)%Q.
  Proof.
    intros Hi; unfold calls, element_heat; rewrite !sumf_app, (lines_heat k v T Hv Hp i).
    rewrite (sumf_zero (heat_to i) tail) by (intros o Ho; specialize (Htail o Ho); destruct o; (reflexivity || tauto)).
    unfold prism_count in Hn |- *; rewrite Hl, Hn.
    assert (Z : forall j p, (sumf (heat_to i) (ops j p) == if j =? i then match k_power k T j with Some (q, _) => q | None => 0 end else 0)%Q).
    { intros j p; destruct (Nat.eqb_spec j i) as [->|Hne]; [apply Hheat|].
      apply sumf_zero; intros o Ho; pose proof (Hpow _ _ _ Ho) as E; destruct o; try reflexivity; cbn in E; injection E as ->; cbn.
      destruct (Nat.eqb_spec j i); [tauto|reflexivity]. }
    destruct (Nat.ltb_spec i (List.length (m_prisms m))) as [Li|Li].
    - rewrite (sumf_prisms (fun j => match k_power k T j with Some (q, _) => q | None => 0 end)%Q ops i Z (m_prisms m) 0) by lia; ring.
    - rewrite (sumf_zero (heat_to i) (flat_map _ _)); [ring|].
      intros o Ho; apply in_body in Ho as (j & p & Ep & Ho); apply prism_range in Ep; unfold prism_count in Ep.
      pose proof (Hpow _ _ _ Ho) as E; destruct o; try reflexivity; cbn in E; injection E as ->; cbn; destruct (Nat.eqb_spec j i); [lia|reflexivity].
  Qed.
End Calls.

(** * Prism models *)
Section PrismOps.
  Context (k : lookups) (m : pmodel) (T : list Q).
  Local Notation pops := (prism_ops (k_power k T) (k_cap k T) (k_xy k T) (k_z k T) (k_height k) (k_harea k) (k_side k) (k_edge k) (k_dist k) (m_top m) (m_bot m)).

  Lemma face_kind i nb b o : In o (face_ops (k_z k T) (k_height k) (k_harea k) i nb b) ->
    match o with SetHTC _ _ | SetHF _ _ | SetR _ _ _ => True | _ => False end.
  Proof.
    unfold face_ops, bc_ops; destruct nb as [n|]; [destruct (i <? n)|destruct b as [[w|w]|]]; cbn; intros H; try tauto; destruct H as [<-|[]]; exact I.
  Qed.
  Lemma prism_scen i p s : In (SetScenario i s) (pops i p) <-> option_map snd (k_power k T i) = Some s.
  Proof.
    unfold prism_ops; rewrite !in_app_iff; split.
    - intros [H|[H|[H|[H|H]]]].
      + unfold power_ops in H; destruct (k_power k T i) as [[q s']|]; [|destruct H]; destruct H as [H|[H|[]]]; [discriminate|injection H as <-; reflexivity].
      + destruct H as [H|[]]; discriminate.
      + apply side_in in H as (j & r & H & _); discriminate.
      + destruct (face_kind _ _ _ _ H).
      + destruct (face_kind _ _ _ _ H).
    - intros H; left; unfold power_ops; destruct (k_power k T i) as [[q s']|]; [|discriminate]; injection H as <-; right; left; reflexivity.
  Qed.
  Lemma prism_cap i p c : In (SetC i c) (pops i p) <-> c = k_cap k T i.
  Proof.
    unfold prism_ops; rewrite !in_app_iff; split.
    - intros [H|[H|[H|[H|H]]]].
      + unfold power_ops in H; destruct (k_power k T i) as [[q s']|]; [|destruct H]; destruct H as [H|[H|[]]]; discriminate.
      + destruct H as [H|[]]; injection H as <-; reflexivity.
      + apply side_in in H as (j & r & H & _); discriminate.
      + destruct (face_kind _ _ _ _ H).
      + destruct (face_kind _ _ _ _ H).
    - intros ->; right; left; left; reflexivity.
  Qed.
  Lemma prism_heat i p : (sumf (heat_to i) (pops i p) == match k_power k T i with Some (q, _) => q | None => 0 end)%Q.
  Proof.
    unfold prism_ops; rewrite !sumf_app.
    rewrite (sumf_zero _ (side_ops _ _ _ _ _ _ _)) by (intros o Ho; apply side_in in Ho as (j & r & -> & _); reflexivity).
    rewrite !(sumf_zero _ (face_ops _ _ _ _ _ _)) by (intros o Ho; apply face_kind in Ho; destruct o; (reflexivity || tauto)).
    unfold power_ops; destruct (k_power k T i) as [[q s]|]; cbn [sumf heat_to]; rewrite ?Nat.eqb_refl; ring.
  Qed.
  Lemma prism_tail (Hm : connected_well m) o : In o (block_calls k m) -> match o with SetHTC _ _ | SetHF _ _ => True | _ => False end.
  Proof. intros H; apply (block_call_of k m Hm) in H; inversion H; exact I. Qed.
  Lemma prism_calls_are : all_calls k m T = calls k m m T pops (block_calls k m).
  Proof. reflexivity. Qed.
End PrismOps.

Lemma prism_no_flux k m T i v : connected_well m -> no_flux m -> ~ In (SetHF i v) (all_calls k m T).
Proof.
  intros Hm Hf Ho.
  assert (FB : forall i b, free_face m i b -> WireNet_Spec.has_bc m b).
  { intros j b (p & _ & H); destruct H as [[_ H]|[[_ H]|(x & H1 & _ & H2 & _)]]; [left|right; left|right; right; exists x]; auto. }
  apply (in_calls k m T Hm) in Ho as [(j & Lj & Ho)|[Ho|Ho]]; inversion Ho; subst;
    match goal with F : free_face _ _ (HeatFlux ?w) |- _ => exact (Hf w (FB _ _ F)) end.
Qed.

Lemma prism_owner k m T i p o : In o (prism_ops (k_power k T) (k_cap k T) (k_xy k T) (k_z k T) (k_height k) (k_harea k) (k_side k) (k_edge k) (k_dist k) (m_top m) (m_bot m) i p) -> owner o = Some i.
Proof. apply prism_owned. Qed.

(** ** C184 *)
(** Every prism and every segment is one node with its own heat, its scenario and its capacity. *)
Theorem C184_elements : forall k m minR T net i,
  connected_well m -> physical k m -> no_flux m -> List.length T = List.length (m_prisms m) + List.length (m_lines m) ->
  wire_build k m minR T = Ok (Some net) -> i < List.length (m_prisms m) + List.length (m_lines m) ->
  (get_hf net i == element_heat k m T i)%Q /\ get_scen net i = element_scenario k m T i /\ (get_c net i == element_capacity k m T i)%Q.
Proof.
  intros k m minR T net i Hm Hp Hf HT Hb Hi.
  destruct (build_defined k m T Hm minR HT) as (net' & Hb' & Hrun & Hlen & _); assert (net' = net) by congruence; subst net'.
  rewrite prism_calls_are in Hrun; pose proof (calls_append k m T Hm) as Ha; rewrite prism_calls_are in Ha.
  pose proof (prism_tail k m Hm) as Ht.
  split; [|split].
  - refine (element_hf k m T minR _ net Ha Hrun _ _ i Hi).
    + intros j Hj; apply calls_heat; auto; [apply prism_owner|apply prism_heat].
    + intros j v; rewrite <- prism_calls_are; apply prism_no_flux; auto.
  - refine (element_scen k m T minR _ net Ha Hrun _ i Hi); intros j s Hj; apply calls_scen; auto; [apply prism_owner|apply prism_scen].
  - refine (element_c k m T minR _ net Ha Hrun _ _ i Hi).
    + intros j c Hj; apply calls_cap; auto; [apply prism_owner|apply prism_cap].
    + intros j Hj; apply calls_cap_in; auto; apply prism_cap.
Qed.

Lemma rates_balance k m T minR refT net M e t x v : (0 < minR)%Q -> List.length net = element_count m -> reachable minR net ->
  make_mna net true [] = Ok M -> scenarios_bounded k m T ->
  (forall i, i < element_count m -> (get_hf net i == element_heat k m T i)%Q /\ get_scen net i = element_scenario k m T i /\ (get_c net i == element_capacity k m T i)%Q) ->
  (forall i, i < element_count m -> (0 < element_capacity k m T i)%Q) -> rates net refT e t x = Ok v ->
  (sumf (fun i => element_capacity k m T i * v i) (seq 0 (element_count m)) ==
   sumf (heat_at_time k m T e t) (seq 0 (element_count m)) - sumf (fun i => get_htc net i * (x i - refT)) (seq 0 (element_count m)))%Q.
Proof.
  intros HminR Hlen Hr HM Hb He Hc Hv.
  assert (Hs : scenarios_small net).
  { intros i Hi Hn; rewrite Hlen in Hi; destruct (He i Hi) as (E1 & E2 & _); rewrite E1 in Hn; rewrite E2.
    pose proof (heat_has_scenario k m T i Hi Hn) as Hd; destruct (element_scenario k m T i) as [s|] eqn:E; [exists s; split; [auto|exact (Hb i s E)]|tauto]. }
  assert (Hst : all_store net) by (intros i Hi; rewrite Hlen in Hi; rewrite (proj2 (proj2 (He i Hi))); auto).
  pose proof (Rates_Props.C181_heat_balance minR net true [] M refT e t x v Hr HM Hs Hst Hv) as B; rewrite Hlen in B.
  rewrite (sumf_ext (fun i => element_capacity k m T i * v i) (fun i => get_c net i * v i) (seq 0 (element_count m)))%Q, B, (sumf_ext (fun i => get_hf net i * factor net e t i) (heat_at_time k m T e t))%Q; [reflexivity| |].
  - intros i Hi; apply in_seq in Hi; destruct (He i ltac:(lia)) as (E1 & E2 & _); unfold heat_at_time, factor; rewrite E1, E2; reflexivity.
  - intros i Hi; apply in_seq in Hi; destruct (He i ltac:(lia)) as (_ & _ & E3); rewrite E3; reflexivity.
Qed.

(** The rates exist at every state and under every excitation, and the heat all elements take up together is what they
    produce, every one under its scenario, minus what leaves through the cooled faces. *)
Theorem C184_heat_balance : forall k m minR T refT e t x, (0 < minR)%Q ->
  connected_well m -> physical k m -> no_flux m -> List.length T = List.length (m_prisms m) + List.length (m_lines m) ->
  scenarios_bounded k m T ->
  exists net v, wire_build k m minR T = Ok (Some net) /\ rates net refT e t x = Ok v /\
    ((forall i, i < List.length (m_prisms m) + List.length (m_lines m) -> (0 < element_capacity k m T i)%Q) ->
     (sumf (fun i => element_capacity k m T i * v i) (seq 0 (List.length (m_prisms m) + List.length (m_lines m))) ==
      sumf (heat_at_time k m T e t) (seq 0 (List.length (m_prisms m) + List.length (m_lines m)))
      - sumf (fun i => get_htc net i * (x i - refT)) (seq 0 (List.length (m_prisms m))))%Q).
Proof.
  intros k m minR T refT e t x HminR Hm Hp Hf HT Hb.
  destruct (build_defined k m T Hm minR HT) as (net & Hb' & Hrun & Hlen & Hends).
  destruct (C27_assembly_defined minR HminR _ _ net true [] Hrun Hends (Forall_nil _)) as [M HM].
  assert (Hr : reachable minR net) by (exists (element_count m), (all_calls k m T); auto).
  pose proof (fun i => C184_elements k m minR T net i Hm Hp Hf HT Hb') as He.
  assert (Hs : scenarios_small net).
  { intros i Hi Hn; rewrite Hlen in Hi; destruct (He i Hi) as (E1 & E2 & _); rewrite E1 in Hn; rewrite E2.
    pose proof (heat_has_scenario k m T i Hi Hn) as Hd; destruct (element_scenario k m T i) as [s|] eqn:E; [exists s; split; [auto|exact (Hb i s E)]|tauto]. }
  destruct (Rates_Props.C181_rate net true [] M refT e t x HM Hs) as (v & Hv & _); exists net, v; split; [auto|split; [auto|]]; intros Hc.
  pose proof (rates_balance k m T minR refT net M e t x v HminR Hlen Hr HM Hb He Hc Hv) as B; unfold element_count, prism_count in B; rewrite B.
  assert (Z : (sumf (fun i => get_htc net i * (x i - refT)) (seq 0 (List.length (m_prisms m) + List.length (m_lines m))) ==
               sumf (fun i => get_htc net i * (x i - refT)) (seq 0 (List.length (m_prisms m))))%Q); [|rewrite Z; reflexivity].
  rewrite seq_app, sumf_app, (sumf_zero _ (seq (0 + _) _)); [ring|].
  intros i Hi; apply in_seq in Hi; destruct (nth_error (m_lines m) (i - List.length (m_prisms m))) as [l|] eqn:E; [|apply nth_error_None in E; lia].
  destruct (C171_segment_node k m minR T net _ l Hm Hp HT Hb' E) as (_ & _ & _ & _ & Z).
  replace (List.length (m_prisms m) + (i - List.length (m_prisms m))) with i in Z by lia; rewrite Z; ring.
Qed.

(** A prism heated only by the flux through its boundary has no scenario, and the simulation is undefined. *)
Theorem C184_flux_is_ub : forall k m minR T net refT f t x i v,
  connected_well m -> List.length T = List.length (m_prisms m) + List.length (m_lines m) -> wire_build k m minR T = Ok (Some net) ->
  k_power k T i = None -> free_face m i (HeatFlux v) ->
  (forall w, WireNet_Spec.has_bc m (HeatFlux w) -> ~ (w * k_harea k i == 0)%Q) ->
  rates net refT (Some f) t x = UB.
Proof.
  intros k m minR T net refT f t x i v Hm HT Hb Hp Hface Hnz.
  destruct (build_defined k m T Hm minR HT) as (net' & Hb' & Hrun & Hlen & _); assert (net' = net) by congruence; subst net'.
  assert (FB : forall i b, free_face m i b -> i < prism_count m /\ WireNet_Spec.has_bc m b).
  { intros j b (p & Ep & H); split; [apply nth_error_Some; rewrite Ep; discriminate|].
    destruct H as [[_ H]|[[_ H]|(y & H1 & _ & H2 & _)]]; [left|right; left|right; right; exists y]; auto. }
  destruct (FB _ _ Hface) as [Li _].
  pose proof (calls_append k m T Hm) as Ha.
  assert (NA : forall w, ~ In (AddHF i w) (all_calls k m T)).
  { intros w H; apply (in_calls k m T Hm) in H as [(j & Lj & H)|[H|H]]; inversion H; subst; [congruence|].
    match goal with L : In ?l (m_lines m) |- _ => destruct (line_in m Hm l L) as (q & _ & E & _) end; lia. }
  assert (NS : forall s, ~ In (SetScenario i s) (all_calls k m T)).
  { intros s H; rewrite prism_calls_are in H.
    apply (calls_scen k m m T) in H; auto; [|apply prism_owner|apply prism_scen|apply (prism_tail k m Hm)|unfold element_count; lia].
    unfold element_scenario in H; unfold prism_count in Li; rewrite (proj2 (Nat.ltb_lt _ _) Li), Hp in H; discriminate. }
  assert (IN : In (SetHF i (v * k_harea k i)%Q) (all_calls k m T)).
  { destruct Hface as (p & Ep & H); unfold all_calls; rewrite !in_app_iff.
    destruct H as [[H1 H2]|[[H1 H2]|(b & H1 & H2 & H3 & H4)]].
    - left; apply in_prism_calls; exists i, p; split; [auto|]; unfold prism_ops, face_ops; rewrite H1, H2, !in_app_iff; cbn; tauto.
    - left; apply in_prism_calls; exists i, p; split; [auto|]; unfold prism_ops, face_ops; rewrite H1, H2, !in_app_iff; cbn; tauto.
    - right; right; apply in_flat_map; exists b; split; [auto|]; unfold block_ops; apply in_flat_map; exists i; split; [auto|].
      assert (Z : (if b_top b then above_of m else below_of m) i = None) by (unfold above_of, below_of; destruct (b_top b); rewrite Ep; exact H4).
      rewrite Z, H3; left; reflexivity. }
  apply (Rates_Props.C182_missing_scenario_is_ub net refT f t x i); [rewrite Hlen; unfold element_count; lia| |].
  - destruct (run_flux minR i _ Ha _ _ Hrun NA) as [(w & Hw & ->)|[N _]]; [|destruct (N _ IN)].
    apply (in_calls k m T Hm) in Hw as [(j & Lj & H)|[H|H]]; inversion H; subst;
      match goal with F : free_face _ _ _ |- _ => exact (Hnz _ (proj2 (FB _ _ F))) end.
  - destruct (run_scen minR i _ Ha _ _ Hrun) as [_ R]; rewrite (R NS); unfold get_scen; rewrite new_node; reflexivity.
Qed.
Print Assumptions C184_elements.
Print Assumptions C184_heat_balance.
Print Assumptions C184_flux_is_ub.

(** * Stack-up models *)
Section StackOps.
  Context (k : lookups) (m : pmodel) (T : list Q).
  Local Notation sops := (one_prism k m T).

  Lemma contact_kind i cs o : In o (contact_ops (k_z k T) (k_height k) (k_harea k) i cs) -> owner o = Some i /\ exists a b r, o = SetR a b r.
  Proof.
    induction cs as [|[n s] cs IH]; cbn [contact_ops]; [intros []|]; intros H; apply in_app_iff in H as [H|H]; [|auto].
    destruct (Nat.ltb_spec n i); [destruct H|destruct H as [<-|[]]]; cbn [owner]; rewrite Nat.min_l by lia; split; [reflexivity|eauto].
  Qed.
  Lemma bc_kind i a b o : In o (bc_ops i a b) -> owner o = Some i /\ match o with SetHTC _ _ | SetHF _ _ | SetR _ _ _ => True | _ => False end.
  Proof. unfold bc_ops; destruct b as [[w|w]|]; [| |intros []]; intros [<-|[]]; split; reflexivity || exact I. Qed.
  Lemma faces_kind i p o : In o (top_calls k m T i p ++ bot_calls k m T i p) ->
    owner o = Some i /\ match o with SetHTC _ _ | SetHF _ _ | SetR _ _ _ => True | _ => False end.
  Proof.
    assert (C : forall cs b, In o (covered_ops (k_z k T) (k_height k) (k_harea k) i cs b) ->
      owner o = Some i /\ match o with SetHTC _ _ | SetHF _ _ | SetR _ _ _ => True | _ => False end).
    { intros cs b H; unfold covered_ops in H; apply in_app_iff in H as [H|H].
      - apply contact_kind in H as (H & a & c & r & ->); split; [auto|exact I].
      - destruct (Qltb _ _); [|destruct H]; exact (bc_kind _ _ _ _ H). }
    rewrite in_app_iff; unfold top_calls, bot_calls; intros [H|H].
    - destruct (p_top p); [exact (C _ _ H)|exact (bc_kind _ _ _ _ H)].
    - destruct (p_bot p); [exact (C _ _ H)|]; destruct (m_bot m) as [[w|w]|]; [exact (bc_kind _ _ _ _ H)| |destruct H].
      destruct H as [<-|[]]; split; [reflexivity|exact I].
  Qed.
  Lemma stack_owner i p o : In o (sops i p) -> owner o = Some i.
  Proof.
    unfold one_prism, body_calls; rewrite in_app_iff; intros [H|H]; [|exact (proj1 (faces_kind _ _ _ H))].
    rewrite !in_app_iff in H; destruct H as [H|[H|H]].
    - unfold power_ops in H; destruct (k_power k T i) as [[q s']|]; [|destruct H]; destruct H as [<-|[<-|[]]]; reflexivity.
    - destruct H as [<-|[]]; reflexivity.
    - apply side_in in H as (j & r & -> & H & _); cbn [owner]; rewrite Nat.min_l by lia; reflexivity.
  Qed.
  Lemma stack_scen i p s : In (SetScenario i s) (sops i p) <-> option_map snd (k_power k T i) = Some s.
  Proof.
    unfold one_prism, body_calls; rewrite in_app_iff; split.
    - intros [H|H]; [|destruct (proj2 (faces_kind _ _ _ H))]; rewrite !in_app_iff in H; destruct H as [H|[H|H]].
      + unfold power_ops in H; destruct (k_power k T i) as [[q s']|]; [|destruct H]; destruct H as [H|[H|[]]]; [discriminate|injection H as <-; reflexivity].
      + destruct H as [H|[]]; discriminate.
      + apply side_in in H as (j & r & H & _); discriminate.
    - intros H; left; unfold power_ops; destruct (k_power k T i) as [[q s']|]; [|discriminate]; injection H as <-; right; left; reflexivity.
  Qed.
  Lemma stack_cap i p c : In (SetC i c) (sops i p) <-> c = k_cap k T i.
  Proof.
    unfold one_prism, body_calls; rewrite in_app_iff; split.
    - intros [H|H]; [|destruct (proj2 (faces_kind _ _ _ H))]; rewrite !in_app_iff in H; destruct H as [H|[H|H]].
      + unfold power_ops in H; destruct (k_power k T i) as [[q s']|]; [|destruct H]; destruct H as [H|[H|[]]]; discriminate.
      + destruct H as [H|[]]; injection H as <-; reflexivity.
      + apply side_in in H as (j & r & H & _); discriminate.
    - intros ->; left; rewrite !in_app_iff; right; left; left; reflexivity.
  Qed.
  Lemma stack_heat i p : (sumf (heat_to i) (sops i p) == match k_power k T i with Some (q, _) => q | None => 0 end)%Q.
  Proof.
    unfold one_prism, body_calls; rewrite sumf_app.
    rewrite (sumf_zero _ (top_calls _ _ _ _ _ ++ _)) by (intros o Ho; apply faces_kind in Ho as [_ Ho]; destruct o; (reflexivity || tauto)).
    rewrite !sumf_app.
    rewrite (sumf_zero _ (side_ops _ _ _ _ _ _ _)) by (intros o Ho; apply side_in in Ho as (j & r & -> & _); reflexivity).
    unfold power_ops; destruct (k_power k T i) as [[q s]|]; cbn [sumf heat_to]; rewrite ?Nat.eqb_refl; ring.
  Qed.
  Lemma stack_calls_are : stack_all k m T = calls k m (line_view m) T sops [].
  Proof. unfold stack_all, calls, prism_list; cbn [line_view m_lines]; rewrite app_nil_r; reflexivity. Qed.
End StackOps.

Lemma stack_never_flux k m T i v : stack_well m -> stack_no_flux m -> ~ In (SetHF i v) (stack_all k m T).
Proof.
  intros Hm Hf Ho; apply (stack_call_of k m T) in Ho; inversion Ho as [| | | | | |j u w Lj Hb|o' Hl]; subst.
  - destruct (Hf u) as [F1 F2]; destruct Hb; auto.
  - inversion Hl.
Qed.

(** ** C186 *)
Theorem C186_elements : forall k local barea m minR T net i,
  stack_well m -> physical k m -> stack_no_flux m -> List.length T = List.length (m_prisms m) + List.length (m_lines m) ->
  stack_build k local barea m minR T = Ok (Some net) -> i < List.length (m_prisms m) + List.length (m_lines m) ->
  (get_hf net i == element_heat k m T i)%Q /\ get_scen net i = element_scenario k m T i /\ (get_c net i == element_capacity k m T i)%Q.
Proof.
  intros k local barea m minR T net i Hm Hp Hf HT Hb Hi.
  destruct (stack_defined k m T Hm local barea minR HT) as (net' & Hb' & Hrun & Hlen & _); assert (net' = net) by congruence; subst net'.
  rewrite stack_calls_are in Hrun; pose proof (stack_append k m T Hm) as Ha; rewrite stack_calls_are in Ha.
  assert (Ht : forall o, In o (@nil op) -> match o with SetHTC _ _ | SetHF _ _ => True | _ => False end) by (intros o []).
  pose proof (view_well m Hm) as Hv; pose proof (view_count m) as Hn.
  split; [|split].
  - refine (element_hf k m T minR _ net Ha Hrun _ _ i Hi).
    + intros j Hj; apply calls_heat; auto; [apply stack_owner|apply stack_heat].
    + intros j v; rewrite <- stack_calls_are; apply stack_never_flux; auto.
  - refine (element_scen k m T minR _ net Ha Hrun _ i Hi); intros j s Hj; apply calls_scen; auto; [apply stack_owner|apply stack_scen].
  - refine (element_c k m T minR _ net Ha Hrun _ _ i Hi).
    + intros j c Hj; apply calls_cap; auto; [apply stack_owner|apply stack_cap].
    + intros j Hj; apply calls_cap_in; auto; apply stack_cap.
Qed.

Theorem C186_heat_balance : forall k local barea m minR T refT e t x, (0 < minR)%Q ->
  stack_well m -> physical k m -> stack_no_flux m -> List.length T = List.length (m_prisms m) + List.length (m_lines m) ->
  scenarios_bounded k m T ->
  exists net v, stack_build k local barea m minR T = Ok (Some net) /\ rates net refT e t x = Ok v /\
    ((forall i, i < List.length (m_prisms m) + List.length (m_lines m) -> (0 < element_capacity k m T i)%Q) ->
     (sumf (fun i => element_capacity k m T i * v i) (seq 0 (List.length (m_prisms m) + List.length (m_lines m))) ==
      sumf (heat_at_time k m T e t) (seq 0 (List.length (m_prisms m) + List.length (m_lines m)))
      - sumf (fun i => get_htc net i * (x i - refT)) (seq 0 (List.length (m_prisms m) + List.length (m_lines m))))%Q).
Proof.
  intros k local barea m minR T refT e t x HminR Hm Hp Hf HT Hb.
  destruct (stack_defined k m T Hm local barea minR HT) as (net & Hb' & Hrun & Hlen & Hends).
  destruct (C27_assembly_defined minR HminR _ _ net true [] Hrun Hends (Forall_nil _)) as [M HM].
  assert (Hr : reachable minR net) by (exists (element_count m), (stack_all k m T); auto).
  pose proof (fun i => C186_elements k local barea m minR T net i Hm Hp Hf HT Hb') as He.
  assert (Hs : scenarios_small net).
  { intros i Hi Hn; rewrite Hlen in Hi; destruct (He i Hi) as (E1 & E2 & _); rewrite E1 in Hn; rewrite E2.
    pose proof (heat_has_scenario k m T i Hi Hn) as Hd; destruct (element_scenario k m T i) as [s|] eqn:E; [exists s; split; [auto|exact (Hb i s E)]|tauto]. }
  destruct (Rates_Props.C181_rate net true [] M refT e t x HM Hs) as (v & Hv & _); exists net, v; split; [auto|split; [auto|]]; intros Hc.
  exact (rates_balance k m T minR refT net M e t x v HminR Hlen Hr HM Hb He Hc Hv).
Qed.
Print Assumptions C186_elements.
Print Assumptions C186_heat_balance.

(** * The runs *)
Section Steps.
  Import Solver_Model. Local Open Scope nat_scope.
  Context (size : nat) (integrate : Q -> Q -> list Q -> list (list Q * Q) * list Q * nat).
  Context (Hkeep : Solver_Props.keeps_size size integrate).
  Context (Hstep : forall t len x, List.length x = size -> 0 < snd (integrate t len x)).
  Local Notation idl := (fun x : list Q => x).

  Lemma chunk_steps ps w t0 len x samples c : List.length x = size -> chunk size integrate idl idl Full ps w t0 len x samples = Ok c ->
    0 < snd c /\ List.length (fst (fst c)) = size.
  Proof.
    intros Hx; unfold chunk; rewrite Hx, Nat.eqb_refl; cbn [negb enter leave].
    destruct (reserve_samples w); cbn [bind]; try discriminate.
    pose proof (Hstep t0 len x Hx) as S; destruct (integrate t0 len x) as [[obs fin] n] eqn:I; cbn [snd] in S.
    destruct (observe_all _ _ _ _ _); cbn [bind]; try discriminate; intros [= <-]; cbn [fst snd].
    split; [exact S|exact (proj1 (Hkeep _ _ _ _ _ _ I Hx))].
  Qed.
  Lemma loop_steps st w fuel : forall time x samples steps o, List.length x = size ->
    trans_loop size integrate idl idl Full st w fuel time x samples steps = Ok o ->
    steps <= snd (fst o) /\ ((time < duration st)%Q -> 0 < snd (fst o)).
  Proof.
    induction fuel as [|fuel IH]; intros time x samples steps o Hx; cbn [trans_loop]; destruct (Qltb time (duration st)) eqn:E; try discriminate.
    1, 3: intros [= <-]; cbn [fst snd]; split; [lia|intros C; apply Solver_Proofs.Qltb_true in C; congruence].
    destruct (chunk _ _ _ _ _ _ _ _ _ _ _) as [c| | |] eqn:Ec; cbn [bind]; try discriminate.
    apply chunk_steps in Ec as [S L]; [|exact Hx]; destruct c as [[x' s'] n]; cbn [fst snd] in S, L.
    destruct (trans_loop _ _ _ _ _ _ _ _ _ _ _ _) as [o'| | |] eqn:El; cbn [rmap bind]; try discriminate; intros [= <-]; cbn [fst snd].
    destruct (IH _ _ _ _ _ L El) as [I1 _]; split; intros; lia.
  Qed.
  Lemma run_succeeds st fuel envT o : (0 < duration st)%Q -> trans_solve size integrate idl idl Full st fuel envT = Ok o -> o_ok o = true.
  Proof.
    intros Hd; unfold trans_solve; destruct (make_window _ _ _) as [w| | |]; cbn [bind]; try discriminate; destruct (temperature_depend st).
    - destruct (trans_loop _ _ _ _ _ _ _ _ _ _ _ _) as [[[s n] b]| | |] eqn:E; cbn [bind]; try discriminate.
      apply loop_steps in E; [|apply repeat_length]; destruct E as [_ E]; specialize (E Hd); cbn [fst snd] in E.
      destruct (summarise _ _ _ _) as [[[mn mx] out]| | |]; cbn [bind]; try discriminate; intros [= <-]; cbn [o_ok]; apply Nat.ltb_lt; exact E.
    - destruct (chunk _ _ _ _ _ _ _ _ _ _ _) as [c| | |] eqn:Ec; cbn [bind]; try discriminate.
      apply chunk_steps in Ec as [S _]; [|apply repeat_length].
      destruct (summarise _ _ _ _) as [[[mn mx] out]| | |]; cbn [bind]; try discriminate; intros [= <-]; cbn [o_ok]; apply Nat.ltb_lt; exact S.
  Qed.
End Steps.

(** An integrator keeps the number of values and takes at least one step. *)
Definition integrates (odeint : network -> Q -> Q -> list Q -> list (list Q * Q) * list Q * nat) : Prop :=
  forall l t len x, let '(obs, fin, n) := odeint l t len x in
    List.length fin = List.length x /\ 0 < n /\ forall y u, In (y, u) obs -> List.length y = List.length x.

(** Settings that a run accepts. *)
Definition runnable (st : Solver_Model.trans_settings) (n fuel : nat) : Prop :=
  Solver_Model.probs st <> [] /\ (forall p, In p (Solver_Model.probs st) -> p < n) /\
  (0 < Solver_Model.duration st)%Q /\ (0 < Solver_Model.step st)%Q /\ (0 < Solver_Model.min_sampling_interval st)%Q /\ (0 < Solver_Model.sampling_window st)%Q /\
  (Qfloor (Solver_Model.sampling_window st / Solver_Model.min_sampling_interval st) <= (2 ^ 63 - 1) / 24)%Z /\
  (Qceiling (Solver_Model.duration st / Solver_Model.step st) <= Z.of_nat fuel)%Z.

Section Simulate.
  Import Solver_Model. Local Open Scope nat_scope.
  Context (odeint : network -> Q -> Q -> list Q -> list (list Q * Q) * list Q * nat) (Hode : integrates odeint).
  Context (n : nat) (make : list Q -> res (option network)).
  Context (Hmake : forall x, List.length x = n -> exists net, make x = Ok (Some net) /\ List.length net = n).

  Lemma chunk_integrated t0 len x : List.length x = n -> exists net, make x = Ok (Some net) /\ net_chunk odeint make t0 len x = odeint net t0 len x.
  Proof.
    intros Hx; destruct (Hmake x Hx) as (net & E & L); exists net; split; [exact E|].
    unfold net_chunk, full_solve; rewrite E, Hx, L, Nat.eqb_refl; reflexivity.
  Qed.
  Lemma simulated st fuel envT : runnable st n fuel ->
    exists o, trans_solve n (net_chunk odeint make) (fun x => x) (fun x => x) Full st fuel envT = Ok o /\ o_ok o = true.
  Proof.
    intros (R1 & R2 & R3 & R4 & R5 & R6 & R7 & R8).
    assert (K : Solver_Props.keeps_size n (net_chunk odeint make)).
    { intros t len x obs fin q E Hx; destruct (chunk_integrated t len x Hx) as (net & _ & Ec); rewrite Ec in E.
      specialize (Hode net t len x); rewrite E in Hode; destruct Hode as (H1 & _ & H2); rewrite Hx in *; split; auto. }
    destruct (Solver_Props.C56_completes n (net_chunk odeint make) (fun x => x) (fun x => x) st fuel envT) as [o Ho]; auto.
    exists o; split; [exact Ho|]; apply (run_succeeds n (net_chunk odeint make) K) with (st := st) (fuel := fuel) (envT := envT); auto.
    intros t len x Hx; destruct (chunk_integrated t len x Hx) as (net & _ & Ec); rewrite Ec.
    specialize (Hode net t len x); destruct (odeint net t len x) as [[obs fin] q]; exact (proj1 (proj2 Hode)).
  Qed.
End Simulate.

(** ** C185: the transient simulation of prism models *)
Theorem C185_integrated : forall odeint k m minR t0 len x, connected_well m -> List.length x = List.length (m_prisms m) + List.length (m_lines m) ->
  exists net, wire_build k m minR x = Ok (Some net) /\ net_chunk odeint (wire_build k m minR) t0 len x = odeint net t0 len x.
Proof.
  intros odeint k m minR t0 len x Hm Hx; apply (chunk_integrated odeint (element_count m)); [|exact Hx].
  intros y Hy; destruct (build_defined k m y Hm minR Hy) as (net & H1 & _ & H2 & _); eauto.
Qed.
Theorem C185_range : forall odeint k m minR st fuel envT, integrates odeint -> connected_well m ->
  runnable st (List.length (m_prisms m) + List.length (m_lines m)) fuel ->
  exists o, prism_transient odeint k m minR st fuel envT = Ok o /\
    prism_transient_range odeint k m minR st fuel envT = Ok (Some (Solver_Model.o_min o, Solver_Model.o_max o)) /\
    (forall s v, In s (Solver_Model.o_samples o) -> In v (snd s) ->
      exists a b, Solver_Model.o_min o = Some a /\ Solver_Model.o_max o = Some b /\ (a <= v)%Q /\ (v <= b)%Q) /\
    (forall a, Solver_Model.o_min o = Some a \/ Solver_Model.o_max o = Some a -> exists s, In s (Solver_Model.o_samples o) /\ In a (snd s)) /\
    (forall s, In s (Solver_Model.o_samples o) ->
      (Solver_Model.duration st - Solver_Model.sampling_window st <= fst s)%Q /\ (fst s <= Solver_Model.duration st)%Q).
Proof.
  intros odeint k m minR st fuel envT Hode Hm Hr.
  assert (Hmake : forall x, List.length x = element_count m -> exists net, wire_build k m minR x = Ok (Some net) /\ List.length net = element_count m).
  { intros y Hy; destruct (build_defined k m y Hm minR Hy) as (net & H1 & _ & H2 & _); eauto. }
  destruct (simulated odeint Hode (element_count m) (wire_build k m minR) Hmake st fuel envT Hr) as (o & Ho & Eo).
  exists o; split; [exact Ho|]; unfold prism_transient_range, prism_transient; rewrite Ho; cbn [rmap bind]; unfold range_of; rewrite Eo; split; [reflexivity|].
  destruct (Solver_Props.C56_extremes _ _ _ _ _ _ _ _ _ Ho) as (_ & X1 & X2).
  destruct (Solver_Props.C56_samples _ _ _ _ _ _ _ _ _ Ho) as (_ & _ & X3); split; [exact X1|split; [exact X2|exact X3]].
Qed.

Theorem C186_integrated : forall odeint k local barea m minR t0 len x, stack_well m -> List.length x = List.length (m_prisms m) + List.length (m_lines m) ->
  exists net, stack_build k local barea m minR x = Ok (Some net) /\ net_chunk odeint (stack_build k local barea m minR) t0 len x = odeint net t0 len x.
Proof.
  intros odeint k local barea m minR t0 len x Hm Hx; apply (chunk_integrated odeint (element_count m)); [|exact Hx].
  intros y Hy; destruct (stack_defined k m y Hm local barea minR Hy) as (net & H1 & _ & H2 & _); eauto.
Qed.
Theorem C186_range : forall odeint k local barea m minR st fuel envT, integrates odeint -> stack_well m ->
  runnable st (List.length (m_prisms m) + List.length (m_lines m)) fuel ->
  exists o, stack_transient odeint k local barea m minR st fuel envT = Ok o /\
    stack_transient_range odeint k local barea m minR st fuel envT = Ok (Some (Solver_Model.o_min o, Solver_Model.o_max o)) /\
    (forall s v, In s (Solver_Model.o_samples o) -> In v (snd s) ->
      exists a b, Solver_Model.o_min o = Some a /\ Solver_Model.o_max o = Some b /\ (a <= v)%Q /\ (v <= b)%Q) /\
    (forall a, Solver_Model.o_min o = Some a \/ Solver_Model.o_max o = Some a -> exists s, In s (Solver_Model.o_samples o) /\ In a (snd s)) /\
    (forall s, In s (Solver_Model.o_samples o) ->
      (Solver_Model.duration st - Solver_Model.sampling_window st <= fst s)%Q /\ (fst s <= Solver_Model.duration st)%Q).
Proof.
  intros odeint k local barea m minR st fuel envT Hode Hm Hr.
  assert (Hmake : forall x, List.length x = element_count m -> exists net, stack_build k local barea m minR x = Ok (Some net) /\ List.length net = element_count m).
  { intros y Hy; destruct (stack_defined k m y Hm local barea minR Hy) as (net & H1 & _ & H2 & _); eauto. }
  destruct (simulated odeint Hode (element_count m) (stack_build k local barea m minR) Hmake st fuel envT Hr) as (o & Ho & Eo).
  exists o; split; [exact Ho|]; unfold stack_transient_range, stack_transient; rewrite Ho; cbn [rmap bind]; unfold range_of; rewrite Eo; split; [reflexivity|].
  destruct (Solver_Props.C56_extremes _ _ _ _ _ _ _ _ _ Ho) as (_ & X1 & X2).
  destruct (Solver_Props.C56_samples _ _ _ _ _ _ _ _ _ Ho) as (_ & _ & X3); split; [exact X1|split; [exact X2|exact X3]].
Qed.
Print Assumptions C185_integrated.
Print Assumptions C185_range.
Print Assumptions C186_integrated.
Print Assumptions C186_range.

(** * Cases *)
(** the chip of WireNet_Props runs at half power in scenario 0, its wires at full current in scenario 1 *)
Definition half_chip (t : Q) (s : Z) : Q := if (s =? 0)%Z then (1#2)%Q else 1%Q.
Example C184_example : scenarios_bounded bonded_look bonded [1; 1; 1; 1]%Q /\ (forall i, i < 4 -> (0 < element_capacity bonded_look bonded [1; 1; 1; 1]%Q i)%Q) /\
  map (fun i => Qred (heat_at_time bonded_look bonded [1; 1; 1; 1]%Q (Some half_chip) 0 i)) (seq 0 4) = [0; 5#2; 1; 1]%Q /\
  match rates (bonded_net [1; 1; 1; 1]%Q) 300 (Some half_chip) 0 (fun _ => 300%Q) with
  | Ok v => map (fun i => Qred (v i)) (seq 0 4) = [0; 5#2; 1; 1]%Q | _ => False end.
Proof.
  split; [|split; [|split]].
  - intros i s H; unfold element_scenario in H; cbn [bonded m_prisms m_lines List.length] in H; destruct i as [|[|[|[|i]]]]; cbn in H; try discriminate; try (injection H as <-; cbn; lia).
    destruct i; discriminate.
  - intros [|[|[|[|i]]]] Hi; try lia; vm_compute; reflexivity.
  - vm_compute; reflexivity.
  - vm_compute; reflexivity.
Qed.

(** a lone prism heated through its top *)
Definition flux_only : pmodel := mkModel [lone] [] (Some (HeatFlux 3)) (Some (HTC 10)) [].
Definition no_power : lookups :=
  mkLook (fun _ _ => None) (fun _ _ => 1%Q) (fun _ _ => 1%Q) (fun _ _ => 1%Q) (fun _ => 1%Q) (fun _ => 1%Q)
    (fun _ _ => 1%Q) (fun _ _ => 1%Q) (fun _ _ => 1%Q) (fun _ _ => (1, 1, 1)%Q) (fun _ _ => 1%Q) (fun _ _ => 1%Q) (fun _ _ => 1%Q).
Example C184_flux_example : connected_well flux_only /\ free_face flux_only 0 (HeatFlux 3) /\
  (exists net, wire_build no_power flux_only (1#1000) [300%Q] = Ok (Some net) /\ rates net 300 (Some half_chip) 0 (fun _ => 300%Q) = UB).
Proof.
  split; [|split].
  - assert (N : forall i j, ~ touches flux_only i j).
    { intros i j [(p & Hp & H)|(l & [] & _)]; destruct i as [|i]; cbn in Hp; [injection Hp as <-|destruct i; discriminate].
      cbn in H; decompose [or] H; discriminate || tauto. }
    split; [intros q l H; destruct q; discriminate|].
    split; [intros i j H; destruct (N _ _ H)|split; [intros i j _ H; destruct (N _ _ H)|split; [intros i j H; destruct (N _ _ H)|intros b i []]]].
  - exists lone; split; [reflexivity|left; split; reflexivity].
  - eexists; split; [vm_compute; reflexivity|vm_compute; reflexivity].
Qed.

Definition euler_once (l : network) (t len : Q) (x : list Q) : list (list Q * Q) * list Q * nat :=
  match rates l 300 (Some half_chip) t (fun i => nth i x 0%Q) with
  | Ok v => let y := map (fun i => Qred (nth i x 0 + len * v i))%Q (seq 0 (List.length x)) in ([(y, (t + len)%Q)], y, 1)
  | _ => ([], x, 1)
  end.
Example euler_integrates : integrates euler_once.
Proof.
  intros l t len x; unfold euler_once; destruct (rates _ _ _ _ _) as [v| | |]; cbn zeta; (split; [|split; [lia|]]);
    try reflexivity; try (intros y u []); [rewrite map_length, seq_length; reflexivity| |destruct H].
  injection H as <- <-; rewrite map_length, seq_length; reflexivity.
Qed.
Definition half_seconds : Solver_Model.trans_settings := Solver_Model.Build_trans_settings (1#2) 1 (1#10) 1 true false [1; 3].
Example half_runnable : runnable half_seconds 4 2.
Proof.
  unfold runnable; cbn; repeat split; try (vm_compute; congruence); try discriminate.
  intros p [<-|[<-|[]]]; lia.
Qed.
(** one step of a second without temperature dependence: the chip gains 2.5 K, a wire 1 K *)
Definition one_second : Solver_Model.trans_settings := Solver_Model.Build_trans_settings (1#2) 1 (1#10) 1 false false [1; 3].
Example C185_example :
  rmap (option_map (fun r => (option_map Qred (fst r), option_map Qred (snd r)))) (prism_transient_range euler_once bonded_look bonded (1#1000) one_second 2 300) =
  Ok (Some (Some 301%Q, Some (605#2)%Q)).
Proof. vm_compute; reflexivity. Qed.
Example C186_example :
  scenarios_bounded bonded_look chip_on_base [1; 1; 1]%Q /\
  match stack_build bonded_look (fun i => i) (fun _ => 1%Q) chip_on_base (1#1000) [1; 1; 1]%Q with
  | Ok (Some net) => rmap (fun v => map (fun i => Qred (v i)) (seq 0 3)) (rates net 300 (Some half_chip) 0 (fun _ => 300%Q)) = Ok [0; 5#2; 1]%Q
  | _ => False end /\
  rmap (option_map (fun r => (option_map Qred (fst r), option_map Qred (snd r))))
    (stack_transient_range euler_once bonded_look (fun i => i) (fun _ => 1%Q) chip_on_base (1#1000)
       (Solver_Model.Build_trans_settings (1#2) 1 (1#10) 1 false false [1; 2]) 2 300) = Ok (Some (Some 301%Q, Some (605#2)%Q)).
Proof.
  split; [|split; vm_compute; reflexivity].
  intros i s H; unfold element_scenario in H; destruct i as [|[|[|i]]]; cbn in H; try discriminate; try (injection H as <-; cbn; lia).
  destruct i; discriminate.
Qed.
