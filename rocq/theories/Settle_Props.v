(** C187: transient simulations of prism models settle at the result of the static simulation. *)
From Verif Require Import Base QSum ThermalNetwork_Model ThermalNetwork_Spec ThermalNetwork_Proofs ThermalNetwork_Props Steady_Spec.
From Verif Require Import PrismNet_Model PrismNet_Spec WireNet_Model WireNet_Spec WireNet_Proofs WireNet_Props
  StackNet_Model StackNet_Spec StackNet_Props Rates_Model Rates_Spec PrismRates_Model PrismRates_Spec PrismRates_Proofs PrismRates_Props Settle_Spec.
From Verif Require Rates_Props Steady_Props.
Open Scope nat_scope.

Section Settle.
  Context (k : lookups) (m : pmodel) (T : list Q) (minR : Q) (net : network) (M : mna).
  Context (HminR : (0 < minR)%Q) (Hlen : List.length net = elements m) (Hr : reachable minR net) (HM : make_mna net true [] = Ok M).
  Context (Hb : scenarios_bounded k m T) (Hst : stores k m T).
  Context (He : forall i, i < elements m -> (get_hf net i == element_heat k m T i)%Q /\ get_scen net i = element_scenario k m T i /\ (get_c net i == element_capacity k m T i)%Q).
  Context (Hd : dissipates net M).

  Lemma settle_small : scenarios_small net.
  Proof.
    intros i Hi Hn; rewrite Hlen in Hi; destruct (He i Hi) as (E1 & E2 & _); rewrite E1 in Hn; rewrite E2.
    pose proof (heat_has_scenario k m T i Hi Hn) as Hd'; destruct (element_scenario k m T i) as [s|] eqn:E; [exists s; split; [auto|exact (Hb i s E)]|tauto].
  Qed.
  Lemma settle_store : all_store net.
  Proof. intros i Hi; rewrite Hlen in Hi; rewrite (proj2 (proj2 (He i Hi))); apply Hst; exact Hi. Qed.

  Lemma settle_rest refT e t : nominal k m T e t ->
    exists X, equilibrium net M refT X /\
      (forall x v, rates net refT e t x = Ok v -> ((forall i, i < elements m -> (v i == 0)%Q) <-> (forall i, i < elements m -> (x i == X i)%Q))).
  Proof.
    intros Hnom; destruct (Steady_Props.C165_exactly_one minR HminR net true [] M refT Hr HM Hd) as (X & HX & Hu).
    exists X; split; [exact HX|]; intros x v Hv.
    assert (F : forall i, i < List.length net -> (factor net e t i == 1)%Q).
    { intros i Hi; rewrite Hlen in Hi; unfold factor; rewrite (proj1 (proj2 (He i Hi))); destruct e as [f|]; [|reflexivity].
      destruct (element_scenario k m T i) as [s|] eqn:E; [exact (Hnom f i s eq_refl E)|reflexivity]. }
    pose proof (Rates_Props.C181_rest_is_equilibrium net true [] M refT e t x v HM settle_small settle_store F Hv) as R.
    rewrite Hlen in R; rewrite R; split; intros H.
    - intros i Hi; apply Hu; [exact H|rewrite Hlen; exact Hi].
    - intros i Hi; rewrite <- (HX i Hi); unfold mulv; apply sumf_ext; intros j Hj; apply in_seq in Hj; rewrite (H j ltac:(lia)); reflexivity.
  Qed.

  Lemma settle_approach refT e t x y v w : rates net refT e t x = Ok v -> rates net refT e t y = Ok w ->
    (spread k m T x y v w <= 0)%Q /\ ((spread k m T x y v w == 0)%Q -> forall i, i < elements m -> (x i == y i)%Q).
  Proof.
    intros Hv Hw; destruct (Rates_Props.C181_contraction minR HminR net true [] M refT e t x y v w Hr HM settle_small settle_store (proj1 Hd) Hv Hw) as [C1 C2].
    assert (E : (weighted net (fun i => x i - y i) (fun i => v i - w i) == spread k m T x y v w)%Q).
    { unfold weighted, spread; rewrite Hlen; apply sumf_ext; intros i Hi; apply in_seq in Hi; rewrite (proj2 (proj2 (He i ltac:(lia)))); reflexivity. }
    rewrite E in C1, C2; rewrite Hlen in C2; split; [exact C1|exact (C2 Hd)].
  Qed.
  Lemma settle_defined refT e t x : exists v, rates net refT e t x = Ok v.
  Proof. destruct (Rates_Props.C181_rate net true [] M refT e t x HM settle_small) as (v & Hv & _); eauto. Qed.
End Settle.

(** ** C187 *)
(** In a model that is cooled and stores heat everywhere there is one field of temperatures at which nothing changes under
    nominal powers, and it is the steady state. *)
Theorem C187_rest : forall k m minR T refT e t, (0 < minR)%Q ->
  connected_well m -> physical k m -> no_flux m -> positive_exchange k m -> (forall i, i < elements m -> has_way_out m i) ->
  List.length T = elements m -> scenarios_bounded k m T -> stores k m T -> nominal k m T e t ->
  exists net M X, wire_build k m minR T = Ok (Some net) /\ make_mna net true [] = Ok M /\ equilibrium net M refT X /\
    forall x, exists v, rates net refT e t x = Ok v /\
      ((forall i, i < elements m -> (v i == 0)%Q) <-> (forall i, i < elements m -> (x i == X i)%Q)).
Proof.
  intros k m minR T refT e t HminR Hm Hp Hf Hx Hw HT Hb Hst Hnom.
  destruct (build_defined k m T Hm minR HT) as (net & Hb' & Hrun & Hlen & Hends).
  destruct (C27_assembly_defined minR HminR _ _ net true [] Hrun Hends (Forall_nil _)) as [M HM].
  assert (Hr : reachable minR net) by (exists (element_count m), (all_calls k m T); auto).
  pose proof (fun i => C184_elements k m minR T net i Hm Hp Hf HT Hb') as He.
  pose proof (wires_dissipate k m minR T net M HminR Hm Hx Hw Hrun Hlen true [] HM) as Hd.
  destruct (settle_rest k m T minR net M HminR Hlen Hr HM Hb Hst He Hd refT e t Hnom) as (X & HX & R).
  exists net, M, X; split; [auto|split; [auto|split; [auto|]]].
  intros x; destruct (settle_defined k m T net M Hlen HM Hb He refT e t x) as [v Hv]; exists v; split; [exact Hv|exact (R x v Hv)].
Qed.

(** Under whatever excitation, two temperature fields that differ come closer. *)
Theorem C187_approach : forall k m minR T refT e t x y, (0 < minR)%Q ->
  connected_well m -> physical k m -> no_flux m -> positive_exchange k m -> (forall i, i < elements m -> has_way_out m i) ->
  List.length T = elements m -> scenarios_bounded k m T -> stores k m T ->
  exists net v w, wire_build k m minR T = Ok (Some net) /\ rates net refT e t x = Ok v /\ rates net refT e t y = Ok w /\
    (spread k m T x y v w <= 0)%Q /\ ((exists i, i < elements m /\ ~ (x i == y i)%Q) -> (spread k m T x y v w < 0)%Q).
Proof.
  intros k m minR T refT e t x y HminR Hm Hp Hf Hx Hw HT Hb Hst.
  destruct (build_defined k m T Hm minR HT) as (net & Hb' & Hrun & Hlen & Hends).
  destruct (C27_assembly_defined minR HminR _ _ net true [] Hrun Hends (Forall_nil _)) as [M HM].
  assert (Hr : reachable minR net) by (exists (element_count m), (all_calls k m T); auto).
  pose proof (fun i => C184_elements k m minR T net i Hm Hp Hf HT Hb') as He.
  pose proof (wires_dissipate k m minR T net M HminR Hm Hx Hw Hrun Hlen true [] HM) as Hd.
  destruct (settle_defined k m T net M Hlen HM Hb He refT e t x) as [v Hv], (settle_defined k m T net M Hlen HM Hb He refT e t y) as [w Hw'].
  destruct (settle_approach k m T minR net M HminR Hlen Hr HM Hb Hst He Hd refT e t x y v w Hv Hw') as [C1 C2].
  exists net, v, w; split; [auto|split; [auto|split; [auto|split; [exact C1|]]]].
  intros (i & Hi & Hne); apply Qnot_le_lt; intros C; apply Hne, C2; [lra|exact Hi].
Qed.

Theorem C187_stack_rest : forall k local barea m minR T refT e t, (0 < minR)%Q ->
  stack_well m -> physical k m -> stack_no_flux m -> stack_exchange k m -> (forall i, i < elements m -> drains m i) ->
  List.length T = elements m -> scenarios_bounded k m T -> stores k m T -> nominal k m T e t ->
  exists net M X, stack_build k local barea m minR T = Ok (Some net) /\ make_mna net true [] = Ok M /\ equilibrium net M refT X /\
    forall x, exists v, rates net refT e t x = Ok v /\
      ((forall i, i < elements m -> (v i == 0)%Q) <-> (forall i, i < elements m -> (x i == X i)%Q)).
Proof.
  intros k local barea m minR T refT e t HminR Hm Hp Hf Hx Hw HT Hb Hst Hnom.
  destruct (stack_defined k m T Hm local barea minR HT) as (net & Hb' & Hrun & Hlen & Hends).
  destruct (C27_assembly_defined minR HminR _ _ net true [] Hrun Hends (Forall_nil _)) as [M HM].
  assert (Hr : reachable minR net) by (exists (element_count m), (stack_all k m T); auto).
  pose proof (fun i => C186_elements k local barea m minR T net i Hm Hp Hf HT Hb') as He.
  pose proof (stack_dissipates k m T Hm minR net M HminR Hx Hw Hrun Hlen true [] HM) as Hd.
  destruct (settle_rest k m T minR net M HminR Hlen Hr HM Hb Hst He Hd refT e t Hnom) as (X & HX & R).
  exists net, M, X; split; [auto|split; [auto|split; [auto|]]].
  intros x; destruct (settle_defined k m T net M Hlen HM Hb He refT e t x) as [v Hv]; exists v; split; [exact Hv|exact (R x v Hv)].
Qed.
Theorem C187_stack_approach : forall k local barea m minR T refT e t x y, (0 < minR)%Q ->
  stack_well m -> physical k m -> stack_no_flux m -> stack_exchange k m -> (forall i, i < elements m -> drains m i) ->
  List.length T = elements m -> scenarios_bounded k m T -> stores k m T ->
  exists net v w, stack_build k local barea m minR T = Ok (Some net) /\ rates net refT e t x = Ok v /\ rates net refT e t y = Ok w /\
    (spread k m T x y v w <= 0)%Q /\ ((exists i, i < elements m /\ ~ (x i == y i)%Q) -> (spread k m T x y v w < 0)%Q).
Proof.
  intros k local barea m minR T refT e t x y HminR Hm Hp Hf Hx Hw HT Hb Hst.
  destruct (stack_defined k m T Hm local barea minR HT) as (net & Hb' & Hrun & Hlen & Hends).
  destruct (C27_assembly_defined minR HminR _ _ net true [] Hrun Hends (Forall_nil _)) as [M HM].
  assert (Hr : reachable minR net) by (exists (element_count m), (stack_all k m T); auto).
  pose proof (fun i => C186_elements k local barea m minR T net i Hm Hp Hf HT Hb') as He.
  pose proof (stack_dissipates k m T Hm minR net M HminR Hx Hw Hrun Hlen true [] HM) as Hd.
  destruct (settle_defined k m T net M Hlen HM Hb He refT e t x) as [v Hv], (settle_defined k m T net M Hlen HM Hb He refT e t y) as [w Hw'].
  destruct (settle_approach k m T minR net M HminR Hlen Hr HM Hb Hst He Hd refT e t x y v w Hv Hw') as [C1 C2].
  exists net, v, w; split; [auto|split; [auto|split; [auto|split; [exact C1|]]]].
  intros (i & Hi & Hne); apply Qnot_le_lt; intros C; apply Hne, C2; [lra|exact Hi].
Qed.
Print Assumptions C187_rest.
Print Assumptions C187_approach.
Print Assumptions C187_stack_rest.
Print Assumptions C187_stack_approach.

(** ** The chip and its wires of C173 under nominal powers: nothing changes in the steady state, and everything warms up from
    the ambient where heat is produced. *)
Definition nominal_power (t : Q) (s : Z) : Q := 1%Q.
Example C187_example : nominal bonded_look bonded [1; 1; 1; 1]%Q (Some nominal_power) 0 /\ stores bonded_look bonded [1; 1; 1; 1]%Q /\
  scenarios_bounded bonded_look bonded [1; 1; 1; 1]%Q /\
  rmap (fun v => map (fun i => Qred (v i)) (seq 0 4)) (rates (bonded_net [1; 1; 1; 1]%Q) 300 (Some nominal_power) 0
    (fun i => nth i [300 + (7#10); 300 + (7#10) + (7#4) + 3 + (5#4); 300 + (7#10) + (7#4); 300 + (7#10) + (7#4) + 3]%Q 0%Q)) = Ok [0; 0; 0; 0]%Q /\
  rmap (fun v => map (fun i => Qred (v i)) (seq 0 4)) (rates (bonded_net [1; 1; 1; 1]%Q) 300 (Some nominal_power) 0 (fun _ => 300%Q)) = Ok [0; 5; 1; 1]%Q.
Proof.
  split; [intros f i s [= <-] _; reflexivity|split; [intros [|[|[|[|i]]]] Hi; try (cbn in Hi; lia); vm_compute; reflexivity|split; [exact (proj1 C184_example)|split; vm_compute; reflexivity]]].
Qed.
Example C187_stack_example : nominal bonded_look chip_on_base [1; 1; 1]%Q (Some nominal_power) 0 /\ stores bonded_look chip_on_base [1; 1; 1]%Q /\
  scenarios_bounded bonded_look chip_on_base [1; 1; 1]%Q.
Proof.
  split; [intros f i s [= <-] _; reflexivity|split; [intros [|[|[|i]]] Hi; try (cbn in Hi; lia); vm_compute; reflexivity|exact (proj1 C186_example)]].
Qed.
Example C187_bonded_rest : exists net M X, wire_build bonded_look bonded (1#1000) [1; 1; 1; 1]%Q = Ok (Some net) /\ make_mna net true [] = Ok M /\
  equilibrium net M 300 X /\ forall x, exists v, rates net 300 (Some nominal_power) 0 x = Ok v /\
    ((forall i, i < 4 -> (v i == 0)%Q) <-> (forall i, i < 4 -> (x i == X i)%Q)).
Proof.
  destruct C187_example as (H1 & H2 & H3 & _).
  exact (C187_rest bonded_look bonded (1#1000) [1; 1; 1; 1]%Q 300 (Some nominal_power) 0 eq_refl bonded_well bonded_physical bonded_no_flux bonded_exchange
    bonded_way_out eq_refl H3 H2 H1).
Qed.
Example C187_chip_rest : exists net M X, stack_build bonded_look (fun i => i) (fun _ => 1%Q) chip_on_base (1#1000) [1; 1; 1]%Q = Ok (Some net) /\
  make_mna net true [] = Ok M /\
  equilibrium net M 300 X /\ forall x, exists v, rates net 300 (Some nominal_power) 0 x = Ok v /\
    ((forall i, i < 3 -> (v i == 0)%Q) <-> (forall i, i < 3 -> (x i == X i)%Q)).
Proof.
  destruct C187_stack_example as (H1 & H2 & H3), chip_exchange as (E1 & E2 & E3).
  exact (C187_stack_rest bonded_look (fun i => i) (fun _ => 1%Q) chip_on_base (1#1000) [1; 1; 1]%Q 300 (Some nominal_power) 0 eq_refl chip_well E3 E2 E1
    chip_drains eq_refl H3 H2 H1).
Qed.
