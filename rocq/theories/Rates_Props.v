(** C181-C183: the rates of a transient simulation, scenarios, and the transient simulation of grid models. *)
From Coq Require Import Qround.
From Verif Require Import Base QSum ThermalNetwork_Model ThermalNetwork_Spec ThermalNetwork_Proofs ThermalNetwork_Props
  Grid_Model Grid_Spec Grid_Props GridSim_Spec GridSim_Proofs Steady_Spec Steady_Proofs Rates_Model Rates_Spec Rates_Proofs.
From Verif Require Solver_Model Solver_Props.

Lemma small_convertible e l : scenarios_small l -> convertible e l.
Proof.
  intros H; right; intros i Hi Hn; destruct (H i Hi Hn) as (s & -> & Hs); cbn [scen_id]; rewrite f32_small by lia; lia.
Qed.

Lemma small_applied l e t i : scenarios_small l -> (i < List.length l)%nat ->
  get_hf l i * applied e t (get_scen l i) == get_hf l i * factor l e t i.
Proof.
  intros H Hi; destruct (Qeq_dec (get_hf l i) 0) as [E|E]; [rewrite E; ring|].
  destruct (H i Hi E) as (s & Es & Hs); unfold applied, factor; rewrite Es; destruct e; [|reflexivity].
  cbn [scen_id]; rewrite f32_small by lia; reflexivity.
Qed.

Lemma inflow_mulv l bonds ps m refT e t x i : make_mna l bonds ps = Ok m -> (i < List.length l)%nat ->
  inflow l m refT e t x i == - mulv (List.length l) (entry (m_G m)) x i + get_htc l i * refT + get_hf l i * factor l e t i.
Proof.
  intros Hm Hi; unfold inflow.
  rewrite (mulv_differences (List.length l) (entry (m_G m)) (get_htc l) (C27_g_row_sum_is_htc l bonds ps m Hm) x i Hi).
  rewrite (sumf_ext _ (fun j => - (if (j =? i)%nat then 0 else entry (m_G m) i j * (x j - x i)))).
  - rewrite sumf_opp; ring.
  - intros j _; destruct (j =? i)%nat; ring.
Qed.

(** ** C181 *)
(** Every node that stores heat changes its temperature by the heat it receives divided by its capacity; the others
    keep theirs. *)
Theorem C181_rate l bonds ps m refT e t x : make_mna l bonds ps = Ok m -> scenarios_small l ->
  exists v, rates l refT e t x = Ok v /\ forall i, (i < List.length l)%nat ->
    (0 < get_c l i -> get_c l i * v i == inflow l m refT e t x i) /\ (get_c l i <= 0 -> v i == 0).
Proof.
  intros Hm Hs; pose proof Hm as Hm'; apply make_mna_ok in Hm' as (-> & Hb & _).
  destruct (rates_ok l refT e t x Hb (small_convertible e l Hs)) as (v & Hv & H); exists v; split; [exact Hv|].
  intros i Hi; rewrite (H i Hi); unfold inv_c, get_c, Qltb.
  destruct (Qle_bool (n_c (nth i l node0)) 0) eqn:E; cbn [negb].
  - apply Qle_bool_iff in E; split; [lra|intros _; ring].
  - assert (Hc : 0 < n_c (nth i l node0)).
    { apply Qnot_le_lt; intros C; apply Qle_bool_iff in C; congruence. }
    split; [intros _|lra].
    rewrite (inflow_mulv l bonds ps _ refT e t x i Hm Hi), <- (small_applied l e t i Hs Hi); cbn [m_G]; field; lra.
Qed.

Section Laws.
  Context (minR : Q) (HminR : 0 < minR).

  (** The heat all nodes take up together is what the sources deliver minus what leaves to the ambient. *)
  Theorem C181_heat_balance l bonds ps m refT e t x v : reachable minR l -> make_mna l bonds ps = Ok m -> scenarios_small l -> all_store l ->
    rates l refT e t x = Ok v ->
    sumf (fun i => get_c l i * v i) (seq 0 (List.length l)) ==
    sumf (fun i => get_hf l i * factor l e t i) (seq 0 (List.length l)) - sumf (fun i => get_htc l i * (x i - refT)) (seq 0 (List.length l)).
  Proof.
    intros Hr Hm Hs Hc Hv; destruct (C181_rate l bonds ps m refT e t x Hm Hs) as (v' & Hv' & H).
    rewrite Hv in Hv'; injection Hv' as <-.
    pose proof Hm as Hm'; apply make_mna_ok in Hm' as (-> & Hb & _).
    pose proof (G_form l x (fun _ => 1) Hb) as E; cbv zeta in E; rewrite esum_zero in E by (intros; ring).
    rewrite (sumf_ext _ (fun i => get_hf l i * factor l e t i + - (get_htc l i * (x i - refT)) +
      (get_htc l i * x i * 1 + - (1 * mulv (List.length l) (entry (tG_from 0 l)) x i)))).
    - rewrite !sumf_plus, !sumf_opp, E; ring.
    - intros i Hi; apply in_seq in Hi; rewrite (proj1 (H i ltac:(lia)) (Hc i ltac:(lia))).
      rewrite (inflow_mulv l bonds ps _ refT e t x i Hm ltac:(lia)); cbn [m_G]; ring.
  Qed.

  (** With unit factors the temperatures at rest are exactly the steady states. *)
  Theorem C181_rest_is_equilibrium l bonds ps m refT e t x v : make_mna l bonds ps = Ok m -> scenarios_small l -> all_store l ->
    (forall i, (i < List.length l)%nat -> factor l e t i == 1) -> rates l refT e t x = Ok v ->
    (forall i, (i < List.length l)%nat -> v i == 0) <-> equilibrium l m refT x.
  Proof.
    intros Hm Hs Hc Hf Hv; destruct (C181_rate l bonds ps m refT e t x Hm Hs) as (v' & Hv' & H).
    rewrite Hv in Hv'; injection Hv' as <-.
    assert (K : forall i, (i < List.length l)%nat -> get_c l i * v i == nth i (make_full_rhs l refT) 0 - mulv (List.length l) (entry (m_G m)) x i).
    { intros i Hi; rewrite (proj1 (H i Hi) (Hc i Hi)), (inflow_mulv l bonds ps m refT e t x i Hm Hi), (Hf i Hi), full_rhs_nth by auto; ring. }
    split.
    - intros Z i Hi; specialize (K i Hi); rewrite (Z i Hi) in K; lra.
    - intros Heq i Hi; specialize (K i Hi); rewrite (Heq i Hi) in K; specialize (Hc i Hi).
      assert (Z : get_c l i * v i == 0) by lra; apply Qmult_integral in Z as [Z|Z]; lra.
  Qed.

  (** A hottest node that is not heated and not below the ambient does not become hotter, and a coldest one not above it
      that is not cooled does not become colder. *)
  Theorem C181_extremes l bonds ps m refT e t x v i : reachable minR l -> make_mna l bonds ps = Ok m -> scenarios_small l ->
    rates l refT e t x = Ok v -> (i < List.length l)%nat -> 0 <= get_htc l i ->
    (get_hf l i * factor l e t i <= 0 -> refT <= x i -> (forall j, (j < List.length l)%nat -> x j <= x i) -> v i <= 0) /\
    (0 <= get_hf l i * factor l e t i -> x i <= refT -> (forall j, (j < List.length l)%nat -> x i <= x j) -> 0 <= v i).
  Proof.
    intros Hr Hm Hs Hv Hi Hh; destruct (C181_rate l bonds ps m refT e t x Hm Hs) as (v' & Hv' & H).
    rewrite Hv in Hv'; injection Hv' as <-.
    pose proof (C27_g_offdiagonal_nonpositive minR HminR l bonds ps m Hr Hm) as Hoff.
    destruct (H i Hi) as [H1 H2]; destruct (Qlt_le_dec 0 (get_c l i)) as [Hc|Hc]; [|rewrite (H2 Hc); split; intros; lra].
    specialize (H1 Hc); unfold inflow in H1; split; intros Hq Hx Hall.
    - assert (A : 0 <= sumf (fun j => - (if (j =? i)%nat then 0 else - entry (m_G m) i j * (x j - x i))) (seq 0 (List.length l))).
      { apply sumf_nonneg; intros j Hj; apply in_seq in Hj; destruct (Nat.eqb_spec j i); [lra|].
        specialize (Hoff i j Hi ltac:(lia) ltac:(lia)); specialize (Hall j ltac:(lia)); nra. }
      rewrite sumf_opp in A; assert (B : 0 <= get_htc l i * (x i - refT)) by (apply Qmult_le_0_compat; lra).
      apply Qnot_lt_le; intros C; assert (0 < get_c l i * v i) by nra; lra.
    - assert (A : 0 <= sumf (fun j => if (j =? i)%nat then 0 else - entry (m_G m) i j * (x j - x i)) (seq 0 (List.length l))).
      { apply sumf_nonneg; intros j Hj; apply in_seq in Hj; destruct (Nat.eqb_spec j i); [lra|].
        specialize (Hoff i j Hi ltac:(lia) ltac:(lia)); specialize (Hall j ltac:(lia)); nra. }
      assert (B : 0 <= get_htc l i * (refT - x i)) by (apply Qmult_le_0_compat; lra).
      apply Qnot_lt_le; intros C; assert (get_c l i * v i < 0) by nra; lra.
  Qed.

  (** Order: where two temperature fields meet, the one that is higher elsewhere rises at least as fast. *)
  Theorem C181_order l bonds ps m refT e t x y v w i : reachable minR l -> make_mna l bonds ps = Ok m -> scenarios_small l ->
    rates l refT e t x = Ok v -> rates l refT e t y = Ok w -> (i < List.length l)%nat ->
    (forall j, (j < List.length l)%nat -> x j <= y j) -> x i == y i -> v i <= w i.
  Proof.
    intros Hr Hm Hs Hv Hw Hi Hle Heq.
    destruct (C181_rate l bonds ps m refT e t x Hm Hs) as (v' & Hv' & H); rewrite Hv in Hv'; injection Hv' as <-.
    destruct (C181_rate l bonds ps m refT e t y Hm Hs) as (w' & Hw' & K); rewrite Hw in Hw'; injection Hw' as <-.
    pose proof (C27_g_offdiagonal_nonpositive minR HminR l bonds ps m Hr Hm) as Hoff.
    destruct (H i Hi) as [H1 H2], (K i Hi) as [K1 K2].
    destruct (Qlt_le_dec 0 (get_c l i)) as [Hc|Hc]; [|rewrite (H2 Hc), (K2 Hc); lra].
    specialize (H1 Hc); specialize (K1 Hc); unfold inflow in H1, K1.
    assert (A : sumf (fun j => if (j =? i)%nat then 0 else - entry (m_G m) i j * (x j - x i)) (seq 0 (List.length l)) <=
                sumf (fun j => if (j =? i)%nat then 0 else - entry (m_G m) i j * (y j - y i)) (seq 0 (List.length l))).
    { apply sumf_le; intros j Hj; apply in_seq in Hj; destruct (Nat.eqb_spec j i); [lra|].
      specialize (Hoff i j Hi ltac:(lia) ltac:(lia)); specialize (Hle j ltac:(lia)); rewrite Heq; nra. }
    assert (B : get_htc l i * (refT - x i) == get_htc l i * (refT - y i)) by (rewrite Heq; reflexivity).
    apply Qnot_lt_le; intros C; assert (D : get_c l i * w i < get_c l i * v i) by nra; lra.
  Qed.

  (** Two temperature fields under the same excitation never move apart, measured with the capacities as weights, and
      they approach each other as long as they differ if every node reaches the ambient. *)
  Theorem C181_contraction l bonds ps m refT e t x y v w : reachable minR l -> make_mna l bonds ps = Ok m -> scenarios_small l ->
    all_store l -> (forall i, (i < List.length l)%nat -> 0 <= get_htc l i) ->
    rates l refT e t x = Ok v -> rates l refT e t y = Ok w ->
    weighted l (fun i => x i - y i) (fun i => v i - w i) <= 0 /\
    (dissipates l m -> weighted l (fun i => x i - y i) (fun i => v i - w i) == 0 -> forall i, (i < List.length l)%nat -> x i == y i).
  Proof.
    intros Hr Hm Hs Hc Hh Hv Hw.
    destruct (C181_rate l bonds ps m refT e t x Hm Hs) as (v' & Hv' & H); rewrite Hv in Hv'; injection Hv' as <-.
    destruct (C181_rate l bonds ps m refT e t y Hm Hs) as (w' & Hw' & K); rewrite Hw in Hw'; injection Hw' as <-.
    set (d := fun i => x i - y i); unfold weighted.
    pose proof Hm as Hm'; apply make_mna_ok in Hm' as (Em & Hb & _); subst m.
    pose proof (G_form l d d Hb) as E; cbv zeta in E; unfold esum in E.
    assert (W : sumf (fun i => get_c l i * d i * (v i - w i)) (seq 0 (List.length l)) ==
                - sumf (fun i => d i * mulv (List.length l) (entry (tG_from 0 l)) d i) (seq 0 (List.length l))).
    { rewrite <- sumf_opp; apply sumf_ext; intros i Hi; apply in_seq in Hi.
      assert (F : get_c l i * d i * (v i - w i) == d i * (get_c l i * v i - get_c l i * w i)) by ring; rewrite F.
      rewrite (proj1 (H i ltac:(lia)) (Hc i ltac:(lia))), (proj1 (K i ltac:(lia)) (Hc i ltac:(lia))).
      rewrite !(inflow_mulv l bonds ps _ refT e t _ i Hm) by lia; cbn [m_G]; unfold d; rewrite mulv_minus; ring. }
    pose proof (edges_pos l (reachable_wf minR HminR l Hr)) as Hpos.
    assert (N1 : forall e, In e (edges_from 0 l) -> 0 <= (fun '(a, b, g) => (d a - d b) * (d a - d b) * g) e).
    { intros [[a b] g] Hin; destruct (Hpos _ _ _ Hin) as [Hgp _]; pose proof (Qsq_nonneg (d a - d b)); nra. }
    assert (N2 : forall i, In i (seq 0 (List.length l)) -> 0 <= get_htc l i * d i * d i).
    { intros i Hi; apply in_seq in Hi; specialize (Hh i ltac:(lia)); pose proof (Qsq_nonneg (d i)); nra. }
    assert (S1 := sumf_nonneg _ _ N1); assert (S2 := sumf_nonneg _ _ N2); cbv beta in S1, S2.
    split; [rewrite W, E; lra|].
    intros (_ & Hg) Hz; rewrite W, E in Hz.
    assert (Z1 : forall a b g, In (a, b, g) (edges_from 0 l) -> d a == d b).
    { intros a b g Hin; destruct (Hpos _ _ _ Hin) as [Hgp _].
      assert (Z := sumf_zero_inv _ _ N1 ltac:(lra) _ Hin); cbv beta iota in Z.
      assert (d a - d b == 0) by (apply (Qmult_zero_sq g); auto; rewrite <- Z; ring); lra. }
    assert (Z2 : forall i, (i < List.length l)%nat -> get_htc l i * d i == 0).
    { intros i Hi; destruct (Qeq_dec (get_htc l i) 0) as [E0|E0]; [rewrite E0; ring|].
      assert (Hp : 0 < get_htc l i) by (specialize (Hh i Hi); lra).
      assert (Z := sumf_zero_inv _ _ N2 ltac:(lra) i ltac:(apply in_seq; lia)).
      rewrite (Qmult_zero_sq (get_htc l i) (d i) Hp) by (rewrite <- Z; ring); ring. }
    assert (Zero : forall i, (i < List.length l)%nat -> d i == 0).
    { apply (only_zero (List.length l) (entry (tG_from 0 l)) (get_htc l)); auto.
      - exact (C27_g_offdiagonal_nonpositive minR HminR l bonds ps _ Hr Hm).
      - exact (C27_g_row_sum_is_htc l bonds ps _ Hm).
      - intros i Hi; rewrite G_mulv by auto; rewrite esum_zero, (Z2 i Hi); [ring|].
        intros a b g Hin; rewrite (Z1 _ _ _ Hin); ring. }
    intros i Hi; specialize (Zero i Hi); unfold d in Zero; lra.
  Qed.
End Laws.
Print Assumptions C181_rate.
Print Assumptions C181_heat_balance.
Print Assumptions C181_rest_is_equilibrium.
Print Assumptions C181_extremes.
Print Assumptions C181_order.
Print Assumptions C181_contraction.

(** ** Examples of C181: a heated node with scenario 5 and a cooled one *)
Definition pair_ops : list op := [SetC 0 2; SetHF 0 3; SetScenario 0 5; SetR 0 1 (1#2); SetC 1 1; SetHTC 1 4].
Definition pair_net : network := [mkNode (Some 5%nat) None 2 3 0 [(1%nat, 1#2)]; mkNode None None 1 0 4 []].
Definition ramp : option (Q -> Z -> Q) := Some (fun t s => if (s =? 5)%Z then t else 0).
Definition warm_pair (i : nat) : Q := match i with O => 310 | _ => 300 end.

Lemma pair_reachable : run (1#1000) (net_new 2) pair_ops = Ok pair_net.
Proof. reflexivity. Qed.
Lemma pair_small : scenarios_small pair_net.
Proof.
  intros [|[|i]] Hi Hn; [exists 5%nat; split; [reflexivity|cbn; lia]| |cbn in Hi; lia].
  exfalso; apply Hn; reflexivity.
Qed.
Lemma pair_mna : exists m, make_mna pair_net true [] = Ok m /\ dissipates pair_net m.
Proof.
  eexists; split; [reflexivity|].
  assert (G1 : grounded (List.length pair_net) (entry (m_G {| m_G := tG_from 0 pair_net; m_C := tC_from 0 pair_net; m_B := tB_from true 0 0 pair_net;
    m_L := tL (List.length pair_net) [] |})) (get_htc pair_net) 1) by (apply grounded_here; [cbn; lia|reflexivity]).
  split.
  - intros [|[|i]] Hi; cbn in *; try lia; discriminate.
  - intros [|[|i]] Hi; [|exact G1|cbn in Hi; lia].
    apply (grounded_via _ _ _ 0 1); [cbn; lia|cbn; lia|lia| |exact G1]; vm_compute; discriminate.
Qed.

Example C181_example : reachable (1#1000) pair_net /\ scenarios_small pair_net /\ all_store pair_net /\
  match rates pair_net 300 ramp 2 warm_pair with Ok v => v 0%nat == -7 /\ v 1%nat == 20 | _ => False end.
Proof.
  split; [exists 2%nat, pair_ops; exact pair_reachable|]; split; [exact pair_small|]; split.
  - intros [|[|i]] Hi; cbn in *; try lia; reflexivity.
  - vm_compute; split; reflexivity.
Qed.

(** the steady state: 300.75 K at the cooled node, 302.25 K at the heated one *)
Example C181_rest_example : match rates pair_net 300 None 0 (fun i => match i with O => 1209#4 | _ => 1203#4 end) with
  | Ok v => v 0%nat == 0 /\ v 1%nat == 0 | _ => False end.
Proof. vm_compute; split; reflexivity. Qed.

(** a heated node without capacity neither warms up nor passes its heat on *)
Example C181_no_capacity : match rates [mkNode (Some 5%nat) None 0 3 0 [(1%nat, 1#2)]; mkNode None None 1 0 4 []] 300 None 0 (fun _ => 300) with
  | Ok v => v 0%nat == 0 /\ v 1%nat == 0 | _ => False end.
Proof. vm_compute; split; reflexivity. Qed.

(** ** C182 *)
(** The reduced solver's sources, scattered to the nodes, are the inputs of the full one. *)
Theorem C182_reduced_same l bonds ps m refT e t x v : make_mna l bonds ps = Ok m -> scenarios_small l ->
  rates l refT e t x = Ok v -> forall i, (i < List.length l)%nat -> 0 < get_c l i ->
  get_c l i * v i == - mulv (List.length l) (entry (m_G m)) x i
    + mulv (source_count true l) (entry (tB_from true 0 0 l)) (fun s => nth s (reduced_heat l refT e t) 0) i.
Proof.
  intros Hm Hs Hv i Hi Hc; destruct (C181_rate l bonds ps m refT e t x Hm Hs) as (v' & Hv' & H).
  rewrite Hv in Hv'; injection Hv' as <-; rewrite (proj1 (H i Hi) Hc), (inflow_mulv l bonds ps m refT e t x i Hm Hi).
  unfold reduced_heat; rewrite tB_mulv by auto.
  rewrite (scatter true refT (fun o => match e with Some f => f t (scen_id o) | None => 1 end) 0 0 l i) by (auto; intros; reflexivity).
  assert (F : get_hf l i * factor l e t i == get_hf l i * match e with Some f => f t (scen_id (get_scen l i)) | None => 1 end).
  { destruct (Qeq_dec (get_hf l i) 0) as [E|E]; [rewrite E; ring|].
    destruct (Hs i Hi E) as (s & Es & _); unfold factor; rewrite Es; destruct e; reflexivity. }
  rewrite F; unfold get_hf, get_htc, get_scen in *; destruct (selected true (nth i l node0)) eqn:E; [ring|].
  apply selected_false in E as [E1 E2]; rewrite E1, E2 by auto; ring.
Qed.

Lemma rounded_scenario s : Z.of_nat s = 16777217%Z -> exists l m refT (f : Q -> Z -> Q) t x v,
  reachable (1#1000) l /\ make_mna l true [] = Ok m /\ get_scen l 0 = Some s /\ ~ get_hf l 0 == 0 /\ 0 < get_c l 0 /\
  rates l refT (Some f) t x = Ok v /\ ~ get_c l 0 * v 0%nat == inflow l m refT (Some f) t x 0.
Proof.
  intros Hs; set (l := [mkNode (Some s) None 1 1 0 []]).
  set (f := fun (_ : Q) (k : Z) => if (k =? 16777217)%Z then 1 else 0).
  assert (Hr : run (1#1000) (net_new 1) [SetScenario 0 s; SetC 0 1; SetHF 0 1] = Ok l) by reflexivity.
  assert (Hb : in_bounds (List.length l) (List.length l) (tG_from 0 l) = true) by reflexivity.
  assert (Hm : exists m, make_mna l true [] = Ok m) by (eexists; reflexivity); destruct Hm as [m Hm].
  assert (Hc : convertible (Some f) l).
  { right; intros [|i] Hi _; [|cbn in Hi; lia]; unfold get_scen; cbn [nth l n_scen scen_id]; rewrite Hs; reflexivity. }
  destruct (rates_ok l 0 (Some f) 0 (fun _ => 0) Hb Hc) as (v & Hv & H).
  exists l, m, 0, f, 0, (fun _ => 0), v.
  split; [eexists 1%nat, _; exact Hr|]; split; [exact Hm|]; split; [reflexivity|]; split; [discriminate|]; split; [reflexivity|].
  split; [exact Hv|]; intros C.
  rewrite (inflow_mulv l true [] m 0 (Some f) 0 (fun _ => 0) 0 Hm ltac:(cbn; lia)), (H 0%nat ltac:(cbn; lia)) in C.
  unfold factor, applied, get_scen, get_hf, get_htc, get_c, mulv in C; cbn [nth l n_scen n_hf n_htc n_c scen_id inv_c] in C; rewrite Hs in C.
  apply make_mna_ok in Hm as (-> & _); vm_compute in C; discriminate C.
Qed.

(** A scenario above 2^24 reaches the excitation rounded to a 32 bit float: scenario 16777217 is asked for as 16777216. *)
Theorem C182_scenario_refuted : exists l m refT (f : Q -> Z -> Q) t x v s,
  reachable (1#1000) l /\ make_mna l true [] = Ok m /\ get_scen l 0 = Some s /\ ~ get_hf l 0 == 0 /\ 0 < get_c l 0 /\
  rates l refT (Some f) t x = Ok v /\ ~ get_c l 0 * v 0%nat == inflow l m refT (Some f) t x 0.
Proof.
  assert (H : exists s, Z.of_nat s = 16777217%Z) by (exists (Z.to_nat 16777217); apply Z2Nat.id; lia).
  destruct H as [s Hs]; destruct (rounded_scenario s Hs) as (l & m & refT & f & t & x & v & H).
  exists l, m, refT, f, t, x, v, s; exact H.
Qed.

(** A source without a scenario makes every evaluation undefined: its id 2^64 - 1 becomes the float 2^64. *)
Theorem C182_missing_scenario_is_ub l refT f t x i : (i < List.length l)%nat -> ~ get_hf l i == 0 -> get_scen l i = None ->
  rates l refT (Some f) t x = UB.
Proof. intros Hi Hn Hs; apply (rates_ub l refT f t x i Hi Hn); rewrite Hs; vm_compute; discriminate. Qed.

(** No node of a grid model has a scenario, so a heated grid model cannot be simulated over time. *)
Theorem C182_heated_grid_is_ub minR g T l refT f t x i : build minR g T = Ok (Some l) -> (i < List.length l)%nat -> ~ get_hf l i == 0 ->
  rates l refT (Some f) t x = UB.
Proof.
  intros Hb Hi Hn; apply (C182_missing_scenario_is_ub l refT f t x i Hi Hn).
  unfold get_scen; apply (grid_no_scen _ _ _ _ Hb); apply nth_In; exact Hi.
Qed.
Print Assumptions C182_reduced_same.
Print Assumptions C182_scenario_refuted.
Print Assumptions C182_missing_scenario_is_ub.
Print Assumptions C182_heated_grid_is_ub.

Section Rounding.
Local Open Scope Z_scope.
Lemma grid u n b q r : 0 < u -> n = q * u + r -> 0 <= r < u -> (b <= q -> r <= Z.abs (b * u - n)) /\ (q < b -> u - r <= Z.abs (b * u - n)).
Proof. intros Hu -> Hr; split; intros Hb; nia. Qed.
Lemma grid_eq u n b q r : 0 < u -> n = q * u + r -> 0 <= r < u ->
  (b <= q -> Z.abs (b * u - n) <= r -> b = q) /\ (q < b -> Z.abs (b * u - n) <= u - r -> b = q + 1).
Proof. intros Hu -> Hr; split; intros Hb H; nia. Qed.

(** The id that reaches the excitation is the nearest 32 bit float of the scenario, the one with an even significand if two
    are equally near. *)
Theorem C182_id_nearest_float : forall n, 0 <= n ->
  float_integer (f32 n) /\
  forall v, float_integer v -> Z.abs (f32 n - n) <= Z.abs (v - n) /\ (v <> f32 n -> Z.abs (v - n) = Z.abs (f32 n - n) -> even_float (f32 n)).
Proof.
  intros n Hn; unfold f32; set (e := Z.log2 n - 23); destruct (Z.leb_spec e 0) as [He|He].
  - assert (n < 2 ^ 24).
    { destruct (Z.eq_dec n 0) as [->|]; [lia|]; pose proof (Z.log2_spec n ltac:(lia)) as [_ L].
      eapply Z.lt_le_trans; [exact L|apply Z.pow_le_mono_r; lia]. }
    split; [exists n, 0; lia|]; intros v _; split; [lia|lia].
  - assert (0 < n) by (destruct (Z.eq_dec n 0) as [->|]; [cbn in e; lia|lia]).
    pose proof (Z.log2_spec n ltac:(lia)) as [L1 L2].
    assert (Hu : 0 < 2 ^ e) by (apply Z.pow_pos_nonneg; lia).
    assert (P23 : 2 ^ Z.log2 n = 2 ^ 23 * 2 ^ e) by (rewrite <- Z.pow_add_r by lia; f_equal; lia).
    assert (P24 : 2 ^ Z.succ (Z.log2 n) = 2 ^ 24 * 2 ^ e) by (rewrite <- Z.pow_add_r by lia; f_equal; lia).
    rewrite P23 in L1; rewrite P24 in L2.
    pose proof (Z.div_mod n (2 ^ e) ltac:(lia)) as D; pose proof (Z.mod_pos_bound n (2 ^ e) Hu) as R.
    set (q := n / 2 ^ e) in *; set (r := n mod 2 ^ e) in *.
    assert (H2 : 2 ^ e = 2 * (2 ^ e / 2)).
    { replace e with (1 + (e - 1)) by lia; rewrite Z.pow_add_r by lia; change (2 ^ 1) with 2; rewrite Z.mul_comm, Z.div_mul by lia; ring. }
    set (h := 2 ^ e / 2) in *; set (u := 2 ^ e) in *; assert (Eu : u = 2 ^ e) by reflexivity; clearbody u h.
    assert (Hq : 2 ^ 23 <= q < 2 ^ 24) by nia.
    set (q' := if r <? h then q else if h <? r then q + 1 else if Z.even q then q else q + 1).
    assert (Q : (q' = q /\ (r < h \/ (r = h /\ Z.even q = true))) \/ (q' = q + 1 /\ (h < r \/ (r = h /\ Z.even (q + 1) = true)))).
    { unfold q'; destruct (Z.ltb_spec r h); [left; auto|]; destruct (Z.ltb_spec h r); [right; auto|].
      destruct (Z.even q) eqn:Ee; [left; split; [auto|right; split; [lia|auto]]|].
      right; split; [auto|right; split; [lia|]]; rewrite Z.even_add, Ee; reflexivity. }
    clearbody q'.
    assert (Fl : forall (P : Z -> Prop), P q' -> (q' = 2 ^ 24 -> P (2 ^ 23)) -> exists a x, 0 <= a < 2 ^ 24 /\ 0 <= x /\ q' * u = a * 2 ^ x /\ P a).
    { intros P HP HP2; destruct (Z.eq_dec q' (2 ^ 24)) as [E|E].
      - exists (2 ^ 23), (e + 1); split; [lia|split; [lia|split; [|auto]]]; rewrite Z.pow_add_r, E, <- Eu by lia; lia.
      - exists q', e; split; [destruct Q as [[-> _]|[-> _]]; lia|split; [lia|split; [rewrite Eu; reflexivity|auto]]]. }
    split; [destruct (Fl (fun _ => True) I (fun _ => I)) as (a & x & H1 & H3 & H4 & _); exists a, x; auto|].
    intros v (b & x & Hb & Hx & ->).
    assert (C : (exists c, b * 2 ^ x = c * u) \/ b * 2 ^ x < 2 ^ 23 * u).
    { destruct (Z.le_gt_cases e x) as [Hxe|Hxe].
      - left; exists (b * 2 ^ (x - e)); replace x with ((x - e) + e) at 1 by lia; rewrite Z.pow_add_r, <- Eu by lia; ring.
      - right; assert (2 ^ 24 * 2 ^ x <= 2 ^ 23 * u).
        { rewrite Eu; replace e with (1 + (e - 1)) by lia; rewrite Z.pow_add_r by lia; change (2 ^ 1) with 2.
          assert (2 ^ x <= 2 ^ (e - 1)) by (apply Z.pow_le_mono_r; lia); lia. }
        assert (0 < 2 ^ x) by (apply Z.pow_pos_nonneg; lia); nia. }
    assert (Dn : n = q * u + r) by lia; clear D.
    destruct C as [[c Ec]|C].
    + rewrite Ec; destruct (grid u n c q r Hu Dn R) as [G1 G2], (grid_eq u n c q r Hu Dn R) as [G3 G4].
      assert (Dq : Z.abs (q' * u - n) = if Z.eqb q' q then r else u - r).
      { destruct Q as [[-> _]|[-> _]]; [rewrite Z.eqb_refl; lia|destruct (Z.eqb_spec (q + 1) q); lia]. }
      rewrite Dq; destruct Q as [[-> Q]|[-> Q]]; [rewrite Z.eqb_refl|destruct (Z.eqb_spec (q + 1) q); [lia|]].
      * split; [destruct (Z.le_gt_cases c q); [apply G1; auto|specialize (G2 ltac:(lia)); lia]|].
        intros Hne Heq; destruct Q as [Q|[Q Ev]].
        -- destruct (Z.le_gt_cases c q); [destruct Hne; rewrite (G3 ltac:(lia) ltac:(lia)); reflexivity|specialize (G2 ltac:(lia)); lia].
        -- destruct (Fl (fun a => Z.even a = true) Ev ltac:(lia)) as (a & y & K1 & K2 & K3 & K4); exists a, y; auto.
      * split; [destruct (Z.le_gt_cases c q); [specialize (G1 ltac:(lia)); lia|apply G2; lia]|].
        intros Hne Heq; destruct Q as [Q|[Q Ev]].
        -- destruct (Z.le_gt_cases c q); [specialize (G1 ltac:(lia)); lia|destruct Hne; rewrite (G4 ltac:(lia) ltac:(lia)); reflexivity].
        -- destruct (Fl (fun a => Z.even a = true) Ev ltac:(reflexivity)) as (a & y & K1 & K2 & K3 & K4); exists a, y; auto.
    + assert (Far : r < Z.abs (b * 2 ^ x - n)) by nia.
      assert (Near : Z.abs (q' * u - n) <= r) by (destruct Q as [[-> _]|[-> [?|[? _]]]]; lia).
      split; [lia|intros _ E; lia].
Qed.
End Rounding.
Print Assumptions C182_id_nearest_float.
Example C182_float_example : map f32 [16777215; 16777217; 16777219; 33554435; 18446744073709551615]%Z = [16777215; 16777216; 16777220; 33554436; 18446744073709551616]%Z.
Proof. reflexivity. Qed.

(** ** C183 *)
Section Idle.
  Import Solver_Model.
  Context (size : nat) (integrate : Q -> Q -> list Q -> list (list Q * Q) * list Q * nat) (a b : list Q -> list Q).
  Context (Hidle : forall t0 len x, List.length x = size -> integrate t0 len x = ([], x, 0%nat)).

  Lemma idle_chunk ps w t0 len x samples c : List.length x = size -> chunk size integrate a b Full ps w t0 len x samples = Ok c -> c = (x, samples, 0%nat).
  Proof.
    intros Hx; unfold chunk; rewrite Hx, Nat.eqb_refl; cbn [negb enter leave].
    destruct (reserve_samples w); cbn [bind]; try discriminate; rewrite Hidle by exact Hx; cbn [observe_all bind]; congruence.
  Qed.

  Lemma idle_loop st w fuel : forall time x o, List.length x = size ->
    trans_loop size integrate a b Full st w fuel time x [] 0 = Ok o -> fst o = ([], 0%nat).
  Proof.
    induction fuel as [|fuel IH]; intros time x o Hx; cbn [trans_loop]; destruct (Qltb time (duration st)); try discriminate; try (intros [= <-]; reflexivity).
    destruct (chunk size integrate a b Full (probs st) w time (step st) x []) as [c| | |] eqn:E; cbn [bind]; try discriminate.
    apply idle_chunk in E; [subst c|exact Hx]; cbn [Nat.add].
    destruct (trans_loop size integrate a b Full st w fuel (time + step st) x [] 0) as [o'| | |] eqn:E'; cbn [rmap bind]; try discriminate.
    intros [= <-]; cbn [fst]; exact (IH _ _ _ Hx E').
  Qed.

  Lemma idle_solve st fuel envT o : trans_solve size integrate a b Full st fuel envT = Ok o -> o_ok o = false /\ o_samples o = [].
  Proof.
    unfold trans_solve; destruct (make_window _ _ _) as [w| | |]; cbn [bind]; try discriminate; destruct (temperature_depend st).
    - destruct (trans_loop size integrate a b Full st w fuel 0 (repeat envT size) [] 0) as [o'| | |] eqn:E; cbn [bind]; try discriminate.
      apply idle_loop in E; [|apply repeat_length]; destruct o' as [[s n] st']; cbn [fst] in E; injection E as -> ->; cbn; intros [= <-]; auto.
    - destruct (chunk size integrate a b Full (probs st) w 0 (duration st) (repeat envT size) []) as [c| | |] eqn:E; cbn [bind]; try discriminate.
      apply idle_chunk in E; [subst c|apply repeat_length]; cbn; intros [= <-]; auto.
  Qed.
End Idle.

Section Grid.
  Import Solver_Model.
  Context (odeint : network -> Q -> Q -> list Q -> list (list Q * Q) * list Q * nat).

  (** Without block powers the network of the model is integrated from the given state. *)
  Theorem C183_tables_integrated minR g t0 len x : g_layers g <> [] -> blocks_in_grid g -> tables_only g -> List.length x = total_grids g ->
    exists l, build minR g x = Ok (Some l) /\ List.length l = total_grids g /\ grid_chunk odeint minR g t0 len x = odeint l t0 len x.
  Proof.
    intros Hl Hb Ht Hx; destruct (C31_build_defined minR g x Hl Hb Hx) as [l El]; exists l.
    assert (L : List.length l = total_grids g).
    { rewrite (build_size _ _ _ _ El), tables_no_nodes by (intros; eapply Ht; eauto); lia. }
    split; [exact El|split; [exact L|]]; unfold grid_chunk, full_solve; rewrite El, L, Hx, Nat.eqb_refl; reflexivity.
  Qed.

  (** As soon as one power is given as a block, no step is ever taken and the simulation has no result: the network has
      more nodes than the initial state. *)
  Theorem C183_block_power_refuted minR g st fuel envT : g_layers g <> [] -> blocks_in_grid g -> some_block g ->
    probs st <> [] -> (forall p, In p (probs st) -> (p < total_grids g)%nat) ->
    0 < step st -> 0 < min_sampling_interval st -> 0 < sampling_window st ->
    (Qfloor (sampling_window st / min_sampling_interval st) <= (2 ^ 63 - 1) / 24)%Z ->
    (Qceiling (duration st / step st) <= Z.of_nat fuel)%Z ->
    (exists o, grid_transient odeint minR g st fuel envT = Ok o /\ o_samples o = []) /\
    grid_transient_range odeint minR g st fuel envT = Ok None.
  Proof.
    intros Hl Hb Hblk H1 H2 H3 H4 H5 H6 H7.
    assert (Hidle : forall t0 len x, List.length x = total_grids g -> grid_chunk odeint minR g t0 len x = ([], x, 0%nat)).
    { intros t0 len x Hx; destruct (C31_build_defined minR g x Hl Hb Hx) as [l El]; unfold grid_chunk, full_solve; rewrite El.
      pose proof (build_size _ _ _ _ El) as Hs.
      pose proof (blocks_add_nodes g (fun i => nth i x 0) (g_layers g) Hblk 0 (total_grids g)) as Hp.
      destruct (Nat.eqb_spec (List.length x) (List.length l)); [lia|reflexivity]. }
    destruct (Solver_Props.C56_completes (total_grids g) (grid_chunk odeint minR g) (fun x => x) (fun x => x) st fuel envT) as [o Ho]; auto.
    { intros t0 len x obs fin n E Hx; rewrite Hidle in E by exact Hx; injection E as <- <- <-; split; [exact Hx|intros y u []]. }
    destruct (idle_solve _ _ _ _ Hidle _ _ _ _ Ho) as [E1 E2]; unfold grid_transient_range, grid_transient.
    split; [exists o; auto|]; rewrite Ho; cbn [rmap bind]; rewrite E1; reflexivity.
  Qed.
End Grid.
Print Assumptions C183_tables_integrated.
Print Assumptions C183_block_power_refuted.

(** ** Cases of C182 and C183 *)
Example C182_example : exists l, build (1#1000) block_model (repeat 300 12) = Ok (Some l) /\ (exists i, (i < List.length l)%nat /\ ~ get_hf l i == 0) /\ rates l 300 (Some (fun _ _ => 1)) 0 (fun _ => 300) = UB.
Proof.
  eexists; split; [vm_compute; reflexivity|].
  split; [exists 12%nat; split; [vm_compute; lia|vm_compute; discriminate]|vm_compute; reflexivity].
Qed.

Definition one_second : Solver_Model.trans_settings := Solver_Model.Build_trans_settings (1#2) 1 (1#10) 1 true true [0%nat].
Example C183_example : some_block block_model /\ grid_transient_range (fun _ t0 len x => ([(x, t0 + len)], x, 1%nat)) (1#1000) block_model one_second 2 300 = Ok None.
Proof. split; [do 6 eexists; split; [left; reflexivity|left; reflexivity]|vm_compute; reflexivity]. Qed.
Example C183_tables_example : tables_only (m23 [PGrid (fun _ x y => if (x =? y)%nat then Some 2 else None)]) /\
  match grid_transient_range (fun _ t0 len x => ([(x, t0 + len)], x, 1%nat)) (1#1000) (m23 [PGrid (fun _ x y => if (x =? y)%nat then Some 2 else None)])
          one_second 2 300 with
  | Ok (Some (Some a, Some b)) => a == 2685#100 /\ b == a
  | _ => False end.
Proof.
  split; [|vm_compute; split; reflexivity].
  intros l p Hl Hp; cbn in Hl; repeat (destruct Hl as [<-|Hl]; [cbn in Hp; try (destruct Hp as [<-|[]]; eauto; fail); destruct Hp|]); destruct Hl.
Qed.
