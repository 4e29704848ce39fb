(** Bounds of rounded products and quotients. *)
From Coq Require Import Qround Qpower Lqa.
From Verif Require Import Base QSum Units_Model Units_Spec Units_Proofs Scale_Model Scale_Spec.
Local Open Scope res_scope.
Local Open Scope Q_scope.

Lemma fl_bounds q : 0 <= q -> q * (1 - ulp) <= fl q /\ fl q <= q * (1 + ulp).
Proof. intros P. exact (proj1 (fl_close q) P). Qed.
Lemma metre_one : scale2meter Meter == 1.
Proof. vm_compute. reflexivity. Qed.

Lemma trunc_floor q : 0 <= q -> inject_Z (trunc q) <= q /\ q < inject_Z (trunc q) + 1 /\ (0 <= trunc q)%Z.
Proof.
  intros P. unfold trunc. assert (E : Qle_bool 0 q = true) by (now apply Qle_bool_iff). rewrite E.
  pose proof (Qfloor_le q). pose proof (Qlt_floor q) as L. rewrite inject_Z_plus in L. repeat split; auto.
  change 0%Z with (Qfloor 0). now apply Qfloor_resp_le.
Qed.
Lemma div_le a b c : 0 < b -> a <= c * b -> a / b <= c. Proof. intros. now apply Qle_shift_div_r. Qed.
Lemma inv_pos u : 0 < u -> 0 < 1 / u. Proof. intros. apply Qlt_shift_div_l; lra. Qed.

(** The number of coordinates of one user unit, and the scale *)
Lemma one_unit cu : 0 < cu_unit cu -> (1 # 1125899906842624) <= cu_unit cu -> exists c, to_coord cu 1 = Ok c /\ (0 <= c <= 2 ^ 51)%Z /\
  (1 - 3 * ulp - cu_unit cu) / cu_unit cu <= inject_Z c /\ inject_Z c <= (1 + 3 * ulp) / cu_unit cu.
Proof.
  intros P L. set (u := cu_unit cu) in *. pose proof (inv_pos u P) as I.
  assert (B : 1 / u <= 1125899906842624) by (apply div_le; [exact P|lra]).
  destruct (fl_bounds (1 / u) (Qlt_le_weak _ _ I)) as [A1 A2].
  assert (S : 0 < scale2coord cu) by (apply fl_pos_sign; exact I). unfold scale2coord in S. fold u in S.
  assert (W0 : 0 <= 1 * scale2coord cu) by (unfold scale2coord; fold u; lra).
  destruct (fl_bounds _ W0) as [B1 B2]. unfold scale2coord in B1, B2. fold u in B1, B2. set (w := fl (1 * fl (1 / u))) in *. unfold ulp in *.
  assert (Wp : 0 <= w) by lra. assert (Wl : w <= 1125899906842625) by lra.
  assert (W1 : 1 / u * (1 - 3 * (1 # 9007199254740992)) <= w) by lra. assert (W2 : w <= 1 / u * (1 + 3 * (1 # 9007199254740992))) by lra.
  destruct (trunc_floor w Wp) as (T1 & T2 & T3). exists (trunc w). unfold to_coord, to_coordf, scale2coord, to_int64. fold u. fold w. cbv zeta.
  assert (T4 : (trunc w <= 1125899906842625)%Z) by (rewrite Zle_Qle; change (inject_Z 1125899906842625) with 1125899906842625; lra).
  replace ((- 2 ^ 63 <=? trunc w)%Z && (trunc w <? 2 ^ 63)%Z) with true by (symmetry; apply andb_true_intro; split; [apply Z.leb_le|apply Z.ltb_lt]; lia).
  split; [reflexivity|]. split; [lia|].
  assert (U1 : u / u == 1) by (field; lra). split.
  - apply Qle_trans with (1 / u * (1 - 3 * (1 # 9007199254740992)) - 1); [|lra].
    assert (E : (1 - 3 * (1 # 9007199254740992) - u) / u == 1 / u * (1 - 3 * (1 # 9007199254740992)) - 1) by (field; lra). lra.
  - assert (E : (1 + 3 * (1 # 9007199254740992)) / u == 1 / u * (1 + 3 * (1 # 9007199254740992))) by (field; lra). lra.
Qed.

Lemma metres_of cu c : 0 < cu_precision cu -> (0 <= c <= 2 ^ 53)%Z ->
  inject_Z c * cu_precision cu * (1 - 3 * ulp) <= to_unit_in cu c Meter /\ to_unit_in cu c Meter <= inject_Z c * cu_precision cu * (1 + 3 * ulp).
Proof.
  intros P C. unfold to_unit_in. set (p := cu_precision cu) in *.
  assert (Z0 : 0 <= inject_Z c) by (change 0 with (inject_Z 0); rewrite <- Zle_Qle; lia).
  pose proof (int_coord c ltac:(lia)) as I. assert (Q0 : 0 <= fl (inject_Z c) * p) by (rewrite I; nra).
  destruct (fl_bounds _ Q0) as [A1 A2]. set (x := fl (fl (inject_Z c) * p)) in *. rewrite I in A1, A2.
  assert (X0 : 0 <= x) by (unfold ulp in *; nra).
  assert (D : x / scale2meter Meter == x) by (rewrite metre_one; field). assert (D0 : 0 <= x / scale2meter Meter) by lra.
  destruct (fl_bounds _ D0) as [B1 B2]. rewrite D in B1 at 1. rewrite D in B2 at 2. unfold ulp in *.
  assert (CP : 0 <= inject_Z c * p) by nra. set (y := inject_Z c * p) in *. split; lra.
Qed.

Lemma scale_bounds cu : 0 < cu_unit cu -> (1 # 1125899906842624) <= cu_unit cu -> 0 < cu_precision cu ->
  exists s, model_scale cu = Ok s /\ 0 <= s /\
    cu_precision cu / cu_unit cu * (1 - cu_unit cu - 7 * ulp) <= s /\ s <= cu_precision cu / cu_unit cu * (1 + 7 * ulp).
Proof.
  intros U L P. destruct (one_unit cu U L) as (c & E & C & B1 & B2). unfold model_scale. rewrite E. cbn [bind]. eexists. split; [reflexivity|].
  destruct (metres_of cu c P ltac:(lia)) as [M1 M2]. set (s := to_unit_in cu c Meter) in *. set (p := cu_precision cu) in *. set (u := cu_unit cu) in *.
  assert (Z0 : 0 <= inject_Z c) by (change 0 with (inject_Z 0); rewrite <- Zle_Qle; lia).
  assert (R : p / u == p * (1 / u)) by (field; lra). rewrite R. pose proof (inv_pos u U) as V. set (v := 1 / u) in *.
  assert (R1 : (1 - 3 * ulp - u) / u == v * (1 - 3 * ulp) - 1) by (unfold v; field; lra). rewrite R1 in B1.
  assert (R2 : (1 + 3 * ulp) / u == v * (1 + 3 * ulp)) by (unfold v; field; lra). rewrite R2 in B2.
  assert (R3 : v * u == 1) by (unfold v; field; lra).
  set (z := inject_Z c) in *. clearbody z v s p u. clear R R1 R2 E. unfold ulp in *.
  assert (K1 : z * p <= v * (1 + 3 * (1 # 9007199254740992)) * p) by (apply Qmult_le_compat_r; lra).
  assert (K2 : (v * (1 - 3 * (1 # 9007199254740992)) - 1) * p <= z * p) by (apply Qmult_le_compat_r; lra).
  assert (K3 : 0 < p * v) by nra. assert (K4 : 0 <= z * p) by nra.
  assert (E1 : p * v * (1 - u - 7 * (1 # 9007199254740992)) == p * v - p * (v * u) - 7 * (1 # 9007199254740992) * (p * v)) by ring.
  rewrite R3 in E1.
  set (pv := p * v) in *. assert (N1 : v * (1 + 3 * (1 # 9007199254740992)) * p == pv * (1 + 3 * (1 # 9007199254740992))) by (unfold pv; ring).
  assert (N2 : (v * (1 - 3 * (1 # 9007199254740992)) - 1) * p == pv * (1 - 3 * (1 # 9007199254740992)) - p) by (unfold pv; ring).
  rewrite N1 in K1. rewrite N2 in K2. rewrite E1. set (zp := z * p) in *. clearbody zp pv. split; [lra|]. split; [|lra].
  apply Qle_trans with (zp * (1 - 3 * (1 # 9007199254740992))); [|lra]. lra.
Qed.
