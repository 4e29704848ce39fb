(** C155: the length scales of thermal models. *)
From Coq Require Import Qround Qpower Lqa.
From Verif Require Import Base QSum Units_Model Units_Spec Units_Proofs Scale_Model Scale_Spec Scale_Proofs.
Local Open Scope res_scope.
Local Open Scope Q_scope.

Lemma within_mult a b x y k l : within a x y -> within b k l -> 0 <= a -> a <= 1 -> 0 <= b -> b <= 1 -> 0 <= x -> 0 <= k -> within (a + b + a * b) (x * k) (y * l).
Proof.
  intros [H1 H2] [G1 G2] A0 A1 B0 B1 X K. assert (Y : 0 <= y) by nra. assert (L : 0 <= l) by nra. split.
  - apply Qle_trans with (x * (1 - a) * (k * (1 - b))).
    + assert (0 <= x * k) by nra. assert (0 <= a * b) by nra. nra.
    + apply Qle_trans with (y * (k * (1 - b))); [apply Qmult_le_compat_r; nra|]. rewrite (Qmult_comm y), (Qmult_comm y). apply Qmult_le_compat_r; nra.
  - apply Qle_trans with (y * (k * (1 + b))).
    + rewrite (Qmult_comm y), (Qmult_comm y). apply Qmult_le_compat_r; nra.
    + apply Qle_trans with (x * (1 + a) * (k * (1 + b))); [apply Qmult_le_compat_r; nra|]. assert (0 <= x * k) by nra. nra.
Qed.
Lemma within_fl e x y : within e x y -> 0 <= e -> e <= 1 -> 0 <= x -> within (e + ulp + e * ulp) x (fl y).
Proof.
  intros [H1 H2] E0 E1 X. assert (Y : 0 <= y) by nra. destruct (fl_bounds y Y) as [A B]. unfold within, ulp in *.
  assert (M : 0 <= x * e) by nra. set (xe := x * e) in *.
  assert (R1 : x * (1 - (e + (1 # 9007199254740992) + e * (1 # 9007199254740992))) == x - xe - x * (1 # 9007199254740992) - xe * (1 # 9007199254740992)) by (unfold xe; ring).
  assert (R2 : x * (1 + (e + (1 # 9007199254740992) + e * (1 # 9007199254740992))) == x + xe + x * (1 # 9007199254740992) + xe * (1 # 9007199254740992)) by (unfold xe; ring).
  rewrite R1, R2. assert (R3 : x * (1 - e) == x - xe) by (unfold xe; ring). assert (R4 : x * (1 + e) == x + xe) by (unfold xe; ring).
  rewrite R3 in H1. rewrite R4 in H2. split; lra.
Qed.
Lemma within_weaken a b x y : a <= b -> 0 <= x -> within a x y -> within b x y.
Proof. intros L X [H1 H2]. split; nra. Qed.
Lemma within_comp e x x' y y' : x == x' -> y == y' -> within e x y -> within e x' y'.
Proof. intros A B. unfold within. now rewrite A, B. Qed.
Lemma within_inv e x y : within e x y -> 0 <= e -> e <= (1 # 2) -> 0 < x -> within (e + 2 * (e * e)) (1 / x) (1 / y).
Proof.
  intros [H1 H2] E0 E1 X. assert (Y : 0 < y) by nra. pose proof (inv_pos x X) as IX. pose proof (inv_pos y Y) as IY.
  assert (RX : x * (1 / x) == 1) by (field; lra). assert (RY : y * (1 / y) == 1) by (field; lra).
  set (a := 1 / x) in *. set (b := 1 / y) in *. clearbody a b. split.
  - (* b >= a (1 - e - 2e^2): y <= x (1+e) so b >= a / (1+e) *)
    assert (S : a <= b * (1 + e)). { assert (0 <= a * b) by nra. assert (y * b * a <= x * (1 + e) * b * a) by nra. nra. }
    nra.
  - assert (S : b * (1 - e) <= a). { assert (0 <= a * b) by nra. assert (x * (1 - e) * b * a <= y * b * a) by nra. nra. }
    assert (b * (1 - e) * (1 + e + 2 * (e * e)) <= a * (1 + e + 2 * (e * e))) by (apply Qmult_le_compat_r; nra).
    assert (1 <= (1 - e) * (1 + e + 2 * (e * e))).
    { assert (R : (1 - e) * (1 + e + 2 * (e * e)) == 1 + e * e * (1 - 2 * e)) by ring. rewrite R. assert (0 <= e * e * (1 - 2 * e)) by (apply Qmult_le_0_compat; nra). lra. }
    nra.
Qed.

Lemma named_units user data : within (4 * ulp) (metres data / metres user) (cu_unit (make_units user data)) /\ within ulp (metres data) (cu_precision (make_units user data)) /\ 0 < metres data / metres user.
Proof. unfold within. destruct user, data; repeat split; vm_compute; discriminate || reflexivity. Qed.

(** The scale of a model is never more than a user unit (the data unit divided by its share), and less than it by no more than
    one data unit, beside rounding.  Missing: that nothing is lost, which is false. *)
Theorem C155_scale_partial : forall cu, 0 < cu_unit cu -> (1 # 1125899906842624) <= cu_unit cu -> 0 < cu_precision cu ->
  exists s, model_scale cu = Ok s /\ 0 <= s /\
    cu_precision cu / cu_unit cu * (1 - cu_unit cu - rounding) <= s /\ s <= cu_precision cu / cu_unit cu * (1 + rounding).
Proof.
  intros cu U L P. destruct (scale_bounds cu U L P) as (s & E & S & B1 & B2). exists s. split; [exact E|]. split; [exact S|].
  assert (D : 0 < cu_precision cu / cu_unit cu) by (apply Qlt_shift_div_l; lra). unfold ulp, rounding in *. split; nra.
Qed.
Print Assumptions C155_scale_partial.

(** When a whole number of data units makes a user unit, the scale is the length of the user unit. *)
Theorem C155_named_units : forall user data, whole user data ->
  exists s, model_scale (make_units user data) = Ok s /\ within tenth_ppm (metres user) s.
Proof.
  intros user data [k W].
  destruct user, data; try (exfalso; unfold Qeq in W; cbn in W; lia);
    (eexists; split; [vm_compute; reflexivity|unfold within; split; vm_compute; discriminate]).
Qed.
Print Assumptions C155_named_units.

Lemma unit_scale_near user data : whole user data -> exists s, unit_scale (make_units user data) 1 = Ok s /\ within (tenth_ppm + 2 * ulp) (metres user) s.
Proof.
  intros W. destruct (C155_named_units user data W) as (s & E & B). unfold unit_scale. rewrite E. cbn [bind]. eexists. split; [reflexivity|].
  assert (M : 0 <= metres user) by (destruct user; vm_compute; discriminate).
  assert (B' : within tenth_ppm (metres user) (s ^ 1)) by (eapply within_comp; [reflexivity|symmetry; apply Qpower_1_r|exact B]).
  eapply within_weaken; [|exact M|apply within_fl; [exact B'| | |exact M]]; unfold tenth_ppm, ulp; lra.
Qed.

(** Then edges of prism models and tiles of grid models have their true lengths, both: the models agree. *)
Theorem C155_models_agree : forall user data c, whole user data -> (0 <= c <= 2 ^ 53)%Z ->
  (exists l, prism_length (make_units user data) c = Ok l /\ within (2 * tenth_ppm) (inject_Z c * metres data) l) /\
  within rounding (inject_Z c * metres data) (tile_size (make_units user data) c).
Proof.
  intros user data c W C. assert (Z0 : 0 <= inject_Z c) by (change 0 with (inject_Z 0); rewrite <- Zle_Qle; lia).
  assert (M : 0 < metres user) by (destruct user; vm_compute; reflexivity). assert (D : 0 < metres data) by (destruct data; vm_compute; reflexivity).
  destruct (named_units user data) as (U & P & UP). split.
  - destruct (unit_scale_near user data W) as (s & E & B). unfold prism_length. rewrite E. cbn [bind]. eexists. split; [reflexivity|].
    set (u := cu_unit (make_units user data)) in *.
    assert (A1 : within 0 (inject_Z c) (fl (inject_Z c))) by (split; rewrite int_coord by lia; lra).
    pose proof (within_mult _ _ _ _ _ _ A1 U (Qle_refl 0) ltac:(lra) ltac:(unfold ulp; lra) ltac:(unfold ulp; lra) Z0 (Qlt_le_weak _ _ UP)) as A2.
    assert (X1 : 0 <= inject_Z c * (metres data / metres user)) by nra.
    pose proof (within_fl _ _ _ A2 ltac:(unfold ulp; lra) ltac:(unfold ulp; lra) X1) as A3.
    pose proof (within_mult _ _ _ _ _ _ A3 B ltac:(unfold ulp; lra) ltac:(unfold ulp; lra) ltac:(unfold ulp, tenth_ppm; lra) ltac:(unfold ulp, tenth_ppm; lra) X1 (Qlt_le_weak _ _ M)) as A4.
    assert (X2 : 0 <= inject_Z c * (metres data / metres user) * metres user) by nra.
    pose proof (within_fl _ _ _ A4 ltac:(unfold ulp, tenth_ppm; lra) ltac:(unfold ulp, tenth_ppm; lra) X2) as A5.
    eapply within_comp with (x := inject_Z c * (metres data / metres user) * metres user); [field; lra|reflexivity|].
    eapply within_weaken; [|exact X2|exact A5]. unfold ulp, tenth_ppm. lra.
  - unfold tile_size. set (cu := make_units user data) in *. assert (PP : 0 < cu_precision cu) by (destruct P; unfold ulp in *; nra).
    pose proof (metres_of cu c PP ltac:(lia)) as T.
    assert (A1 : within 0 (inject_Z c) (inject_Z c)) by (split; lra).
    pose proof (within_mult _ _ _ _ _ _ A1 P (Qle_refl 0) ltac:(lra) ltac:(unfold ulp; lra) ltac:(unfold ulp; lra) Z0 (Qlt_le_weak _ _ D)) as [A2 A3].
    assert (CD : 0 <= inject_Z c * metres data) by nra. set (x := inject_Z c * metres data) in *. set (y := inject_Z c * cu_precision cu) in *.
    unfold within, rounding, ulp in *. destruct T. split; lra.
Qed.
Print Assumptions C155_models_agree.

(** Areas: a square of one data unit, as heat flows given for the area of a block are divided by, and one of a user unit. *)
Theorem C155_areas : forall user data, whole user data ->
  (exists q, coord_scale (make_units user data) 2 = Ok q /\ within (3 * tenth_ppm) (metres data * metres data) q) /\
  (exists q, unit_scale (make_units user data) 2 = Ok q /\ within (3 * tenth_ppm) (metres user * metres user) q).
Proof.
  intros user data [k W].
  destruct user, data; try (exfalso; unfold Qeq in W; cbn in W; lia);
    (split; (eexists; split; [vm_compute; reflexivity|unfold within; split; vm_compute; discriminate])).
Qed.
Print Assumptions C155_areas.

(** The heat made in a solder joint: its resistance is the one of its material, its area and its height in metres. *)
Theorem C155_joint_resistance : forall user data rho t a, whole user data -> 0 < rho -> 0 < t -> 0 < a ->
  exists r, joint_resistance (make_units user data) rho t a = Ok (Some r) /\
    within (2 * tenth_ppm) (rho * (t * metres user) / (a * (metres data * metres data))) r.
Proof.
  intros user data rho t a W Hr Ht Ha.
  assert (M : 0 < metres user) by (destruct user; vm_compute; reflexivity). assert (D : 0 < metres data) by (destruct data; vm_compute; reflexivity).
  destruct (named_units user data) as (U & P & UP). destruct (C155_named_units user data W) as (s & E & B).
  unfold joint_resistance. rewrite E. cbn [bind]. cbv zeta. set (u := cu_unit (make_units user data)) in *. set (q := metres data / metres user) in *.
  assert (A1 : within 0 a a) by (split; lra).
  pose proof (within_mult _ _ _ _ _ _ A1 U (Qle_refl 0) ltac:(lra) ltac:(unfold ulp; lra) ltac:(unfold ulp; lra) ltac:(lra) (Qlt_le_weak _ _ UP)) as A2.
  assert (X1 : 0 < a * q) by nra.
  pose proof (within_fl _ _ _ A2 ltac:(unfold ulp; lra) ltac:(unfold ulp; lra) (Qlt_le_weak _ _ X1)) as A3.
  apply (within_weaken _ (6 * ulp)) in A3; [|unfold ulp; lra|lra].
  pose proof (within_mult _ _ _ _ _ _ A3 U ltac:(unfold ulp; lra) ltac:(unfold ulp; lra) ltac:(unfold ulp; lra) ltac:(unfold ulp; lra) (Qlt_le_weak _ _ X1) (Qlt_le_weak _ _ UP)) as A4.
  assert (X2 : 0 < a * q * q) by nra. apply (within_weaken _ (11 * ulp)) in A4; [|unfold ulp; lra|lra].
  pose proof (within_fl _ _ _ A4 ltac:(unfold ulp; lra) ltac:(unfold ulp; lra) (Qlt_le_weak _ _ X2)) as A5.
  apply (within_weaken _ (13 * ulp)) in A5; [|unfold ulp; lra|lra].
  pose proof (within_mult _ _ _ _ _ _ A5 B ltac:(unfold ulp; lra) ltac:(unfold ulp; lra) ltac:(unfold tenth_ppm; lra) ltac:(unfold tenth_ppm; lra) (Qlt_le_weak _ _ X2) (Qlt_le_weak _ _ M)) as A6.
  assert (X3 : 0 < a * q * q * metres user) by nra. apply (within_weaken _ (tenth_ppm + 15 * ulp)) in A6; [|unfold ulp, tenth_ppm; lra|lra].
  pose proof (within_fl _ _ _ A6 ltac:(unfold ulp, tenth_ppm; lra) ltac:(unfold ulp, tenth_ppm; lra) (Qlt_le_weak _ _ X3)) as A7.
  apply (within_weaken _ (tenth_ppm + 17 * ulp)) in A7; [|unfold ulp, tenth_ppm; lra|lra].
  set (d := fl (fl (fl (a * u) * u) * s)) in *. assert (D0 : 0 < d) by (destruct A7 as [A7 _]; unfold tenth_ppm, ulp in A7; lra).
  assert (Dn : Qeq_bool d 0 = false) by (apply not_true_is_false; intros H; apply Qeq_bool_iff in H; lra). rewrite Dn. eexists. split; [reflexivity|].
  pose proof (within_inv _ _ _ A7 ltac:(unfold ulp, tenth_ppm; lra) ltac:(unfold ulp, tenth_ppm; lra) X3) as A8.
  apply (within_weaken _ (tenth_ppm + tenth_ppm * (1 # 10))) in A8; [|unfold ulp, tenth_ppm; lra|apply Qlt_le_weak, inv_pos; exact X3].
  assert (A9 : within 0 (rho * t) (rho * t)) by (split; lra). assert (RT : 0 < rho * t) by nra.
  pose proof (within_fl _ _ _ A9 (Qle_refl 0) ltac:(lra) (Qlt_le_weak _ _ RT)) as A10. apply (within_weaken _ (2 * ulp)) in A10; [|unfold ulp; lra|lra].
  pose proof (within_mult _ _ _ _ _ _ A10 A8 ltac:(unfold ulp; lra) ltac:(unfold ulp; lra) ltac:(unfold tenth_ppm; lra) ltac:(unfold tenth_ppm; lra) (Qlt_le_weak _ _ RT) (Qlt_le_weak _ _ (inv_pos _ X3))) as A11.
  assert (X4 : 0 <= rho * t * (1 / (a * q * q * metres user))) by (apply Qmult_le_0_compat; [lra|apply Qlt_le_weak, inv_pos; exact X3]).
  apply (within_weaken _ (tenth_ppm + tenth_ppm * (2 # 10))) in A11; [|unfold ulp, tenth_ppm; lra|exact X4].
  assert (A12 : within (tenth_ppm + tenth_ppm * (2 # 10)) (rho * t * (1 / (a * q * q * metres user))) (fl (rho * t) / d)).
  { eapply within_comp; [reflexivity| |exact A11]. field. lra. }
  pose proof (within_fl _ _ _ A12 ltac:(unfold tenth_ppm; lra) ltac:(unfold tenth_ppm; lra) X4) as A13.
  eapply within_comp; [|reflexivity|eapply within_weaken; [|exact X4|exact A13]; unfold tenth_ppm, ulp; lra].
  unfold q. field. repeat split; lra.
Qed.
Print Assumptions C155_joint_resistance.

(** With a user unit finer than the data unit the scale is zero: every prism has no size and joints no finite resistance. *)
Theorem C155_fine_user_unit_refuted : forall cu c rho t a, 1 + 8 * ulp <= cu_unit cu -> 0 < cu_precision cu -> (0 <= c <= 2 ^ 53)%Z ->
  (exists s, model_scale cu = Ok s /\ s == 0) /\ (exists l, prism_length cu c = Ok l /\ l == 0) /\ joint_resistance cu rho t a = Ok None.
Proof.
  intros cu c rho t a U P C.
  assert (E : to_coord cu 1 = Ok 0%Z).
  { unfold to_coord, to_coordf, scale2coord. set (u := cu_unit cu) in *. unfold ulp in U. assert (U0 : 0 < u) by lra. pose proof (inv_pos u U0) as I.
    destruct (fl_bounds (1 / u) (Qlt_le_weak _ _ I)) as [A1 A2]. pose proof (fl_pos_sign _ I) as S.
    assert (W0 : 0 <= 1 * fl (1 / u)) by lra. destruct (fl_bounds _ W0) as [B1 B2]. set (w := fl (1 * fl (1 / u))) in *. unfold ulp in *.
    assert (I1 : 1 / u * (1 + 8 * (1 # 9007199254740992)) <= 1).
    { assert (RX : u * (1 / u) == 1) by (field; lra). set (v := 1 / u) in *. clearbody v. nra. }
    assert (W1 : w < 1) by lra. assert (W2 : 0 <= w) by lra. destruct (trunc_floor w W2) as (T1 & T2 & T3).
    assert (T : trunc w = 0%Z). { assert (trunc w < 1)%Z by (rewrite Zlt_Qlt; change (inject_Z 1) with 1; lra). lia. }
    unfold to_int64. cbv zeta. rewrite T. reflexivity. }
  assert (Z : forall x, x == 0 -> fl x == 0) by (intros x X; destruct (fl_cases x) as [[_ H]|[[H _]|[H _]]]; [exact H|lra|lra]).
  assert (S : exists s, model_scale cu = Ok s /\ s == 0).
  { unfold model_scale. rewrite E. cbn [bind]. eexists. split; [reflexivity|]. unfold to_unit_in. apply Z. unfold Qdiv. rewrite (Z (fl (inject_Z 0) * cu_precision cu)); [ring|].
    rewrite (Z (inject_Z 0)); [ring|reflexivity]. }
  split; [exact S|]. destruct S as (s & Es & Hs). split.
  - unfold prism_length, unit_scale. rewrite Es. cbn [bind]. eexists. split; [reflexivity|]. apply Z. rewrite (Z (s ^ 1)); [ring|]. rewrite Qpower_1_r. exact Hs.
  - unfold joint_resistance. rewrite Es. cbn [bind]. cbv zeta.
    assert (D : Qeq_bool (fl (fl (fl (a * cu_unit cu) * cu_unit cu) * s)) 0 = true) by (apply Qeq_bool_iff, Z; rewrite Hs; ring). now rewrite D.
Qed.
Print Assumptions C155_fine_user_unit_refuted.

(** The claim is false of units that are no whole multiples: a database in inches on centimetres.  An edge of 100 centimetres
    is 787 millimetres long in a prism model, a tile of a grid model of the same size a metre. *)
Theorem C155_inch_refuted : exists s l, model_scale (make_units Inch Centimeter) = Ok s /\ within rounding (2 # 100) s /\
  prism_length (make_units Inch Centimeter) 100 = Ok l /\ within (1 # 1000) (7874 # 10000) l /\ within rounding 1 (tile_size (make_units Inch Centimeter) 100).
Proof.
  eexists. eexists. split; [vm_compute; reflexivity|]. split; [split; vm_compute; discriminate|]. split; [vm_compute; reflexivity|].
  split; split; vm_compute; discriminate.
Qed.
Print Assumptions C155_inch_refuted.

(** It is even false of whole multiples set by hand or read from a file: 93 data units of a nanometre to a user unit are
    taken for 92, since the quotient is rounded before it is cut off. *)
Theorem C155_whole_ratio_refuted : exists cu s, cu_unit cu = fl (1 # 93) /\ cu_precision cu = scale2meter Nanometer /\
  to_coord cu 1 = Ok 92%Z /\ model_scale cu = Ok s /\ within rounding (92 # 1000000000) s.
Proof.
  exists {| cu_unit := fl (1 # 93); cu_precision := scale2meter Nanometer |}. eexists. split; [reflexivity|]. split; [reflexivity|].
  split; [vm_compute; reflexivity|]. split; [vm_compute; reflexivity|]. split; vm_compute; discriminate.
Qed.
Print Assumptions C155_whole_ratio_refuted.

(** The default units, and a joint of 100 by 100 micrometres, 20 micrometres high. *)
Example C155_ex : whole Micrometer Nanometer /\ match model_scale default_units with Ok s => within rounding (1 # 1000000) s | _ => False end /\ 0 < cu_unit default_units /\
  match joint_resistance default_units (fl (1 # 10000000)) 20 10000000000 with Ok (Some r) => within (2 * tenth_ppm) (2 # 10000) r | _ => False end.
Proof.
  split; [exists 1000%Z; reflexivity|]. split; [vm_compute; split; discriminate|]. split; [vm_compute; reflexivity|]. vm_compute. split; discriminate.
Qed.
Example C155_fine_ex : 1 + 8 * ulp <= cu_unit (make_units Nanometer Micrometer) /\ 0 < cu_precision (make_units Nanometer Micrometer).
Proof. split; vm_compute; [discriminate|reflexivity]. Qed.
