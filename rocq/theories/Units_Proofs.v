From Verif Require Import Base QSum Units_Model Units_Spec.
From Coq Require Import Qround Qabs Qpower.
Open Scope res_scope.
Open Scope Q_scope.

Lemma two_pos e : 0 < 2 ^ e.
Proof. apply Qpower_0_lt; reflexivity. Qed.
Lemma two_plus a b : 2 ^ (a + b) == 2 ^ a * 2 ^ b.
Proof. apply Qpower_plus; discriminate. Qed.
Lemma two_Z n : (0 <= n)%Z -> inject_Z (2 ^ n) == 2 ^ n.
Proof. apply Zpower_Qpower. Qed.
Lemma two_S e : 2 ^ (e + 1) == 2 * 2 ^ e.
Proof. rewrite two_plus, Qpower_1_r; ring. Qed.

Lemma Q_frac q : q == inject_Z (Qnum q) / inject_Z (Zpos (Qden q)).
Proof. destruct q as [n d]; unfold Qeq, Qdiv, Qmult, Qinv; simpl; lia. Qed.

Definition mag (q : Q) : Z := (Z.log2 (Qnum q) - Z.log2 (Zpos (Qden q)))%Z.
Lemma mag_bounds q : 0 < q -> 2 ^ (mag q - 1) <= q /\ q < 2 ^ (mag q + 1).
Proof.
  intros P; assert (0 < Qnum q)%Z as N by (unfold Qlt in P; simpl in P; lia).
  set (n := Qnum q) in *; set (d := Zpos (Qden q)).
  assert (0 < d)%Z as D by (unfold d; lia).
  destruct (Z.log2_spec n N) as [N1 N2], (Z.log2_spec d D) as [D1 D2].
  pose proof (Z.log2_nonneg n) as Ln; pose proof (Z.log2_nonneg d) as Ld.
  unfold Z.succ in *.
  rewrite Zle_Qle, two_Z in N1, D1 by auto; rewrite Zlt_Qlt, two_Z in N2, D2 by lia.
  assert (0 < inject_Z d) as Dp by (change 0 with (inject_Z 0); rewrite <- Zlt_Qlt; auto).
  pose proof (Q_frac q) as F; fold n d in F; unfold mag; fold n d.
  set (a := Z.log2 n) in *; set (b := Z.log2 d) in *.
  enough (2 ^ (a - b - 1) <= inject_Z n / inject_Z d /\ inject_Z n / inject_Z d < 2 ^ (a - b + 1)) by lra.
  clear F; split.
  - apply Qle_shift_div_l; auto.
    apply Qle_trans with (2 ^ (a - b - 1) * 2 ^ (b + 1)).
    + rewrite !(Qmult_comm (2 ^ (a - b - 1))); apply Qmult_le_compat_r; [lra|apply Qlt_le_weak, two_pos].
    + rewrite <- two_plus; replace (a - b - 1 + (b + 1))%Z with a by lia; auto.
  - apply Qlt_shift_div_r; auto.
    apply Qlt_le_trans with (2 ^ (a + 1)); auto.
    replace (a + 1)%Z with (a - b + 1 + b)%Z by lia; rewrite two_plus.
    rewrite !(Qmult_comm (2 ^ (a - b + 1))); apply Qmult_le_compat_r; [auto|apply Qlt_le_weak, two_pos].
Qed.
Lemma two52 : 2 ^ 52 == 4503599627370496. Proof. reflexivity. Qed.
Lemma two53 : 2 ^ 53 == 9007199254740992. Proof. reflexivity. Qed.

Lemma div_two q e : q / 2 ^ e == q * 2 ^ (- e).
Proof. rewrite Qpower_opp; reflexivity. Qed.
Lemma exponent_spec q : 0 < q -> 2 ^ 52 <= q / 2 ^ (exponent q) /\ q / 2 ^ (exponent q) < 2 ^ 53.
Proof.
  intros P; destruct (mag_bounds q P) as [L U]; unfold exponent; fold (mag q); cbv zeta.
  assert (forall a b, a <= b -> forall e, a * 2 ^ e <= b * 2 ^ e) as ML by (intros; apply Qmult_le_compat_r; auto; apply Qlt_le_weak, two_pos).
  assert (forall a b, a < b -> forall e, a * 2 ^ e < b * 2 ^ e) as MU by (intros; apply Qmult_lt_compat_r; auto; apply two_pos).
  destruct (Qle_bool (2 ^ 52) (q / 2 ^ (mag q - 52))) eqn:E.
  - apply Qle_bool_iff in E; split; auto; rewrite div_two.
    apply Qlt_le_trans with (2 ^ (mag q + 1) * 2 ^ (- (mag q - 52))); [apply MU; auto|].
    rewrite <- two_plus; replace (mag q + 1 + - (mag q - 52))%Z with 53%Z by lia; lra.
  - assert (q / 2 ^ (mag q - 52) < 2 ^ 52) as E'.
    { apply Qnot_le_lt; intros X; apply Qle_bool_iff in X; congruence. }
    rewrite div_two in *.
    assert (2 ^ (- (mag q - 52 - 1)) == 2 * 2 ^ (- (mag q - 52))) as X.
    { rewrite <- two_S; replace (- (mag q - 52 - 1))%Z with (- (mag q - 52) + 1)%Z by lia; reflexivity. }
    rewrite X; assert (q * (2 * 2 ^ (- (mag q - 52))) == 2 * (q * 2 ^ (- (mag q - 52)))) as Y by ring; rewrite Y; split.
    + apply Qle_trans with (2 * (2 ^ (mag q - 1) * 2 ^ (- (mag q - 52)))).
      * rewrite <- two_plus; replace (mag q - 1 + - (mag q - 52))%Z with 51%Z by lia; discriminate.
      * apply Qmult_le_l; [reflexivity|]; apply ML; auto.
    + rewrite two52 in E'; rewrite two53; lra.
Qed.

Lemma round_even_near q : q - (1 # 2) <= inject_Z (round_even q) /\ inject_Z (round_even q) <= q + (1 # 2).
Proof.
  unfold round_even; pose proof (Qfloor_le q) as A; pose proof (Qlt_floor q) as B.
  rewrite inject_Z_plus in B; change (inject_Z 1) with 1 in B.
  destruct (Qcompare_spec (q - inject_Z (Qfloor q)) (1 # 2)) as [H|H|H]; [destruct (Z.even _)| |];
    rewrite ?inject_Z_plus; change (inject_Z 1) with 1; split; lra.
Qed.
Lemma round_even_int q z : q == inject_Z z -> round_even q = z.
Proof.
  intros E; destruct (round_even_near q) as [A B].
  assert (inject_Z z < inject_Z (round_even q + 1) /\ inject_Z (round_even q) < inject_Z (z + 1)) as [C D].
  { rewrite !inject_Z_plus; change (inject_Z 1) with 1; lra. }
  rewrite <- Zlt_Qlt in C, D; lia.
Qed.

Lemma fl_pos_close q : 0 < q -> q * (1 - ulp) <= fl_pos q /\ fl_pos q <= q * (1 + ulp).
Proof.
  intros P; destruct (exponent_spec q P) as [L _]; unfold fl_pos; cbv zeta.
  set (e := exponent q) in *; set (y := q / 2 ^ e) in *.
  assert (q == y * 2 ^ e) as Q by (unfold y; field; pose proof (two_pos e); lra).
  destruct (round_even_near y) as [A B]; rewrite two52 in L.
  assert (1 # 2 <= y * ulp) as H by (unfold ulp; lra).
  rewrite Q; split.
  - assert (y * 2 ^ e * (1 - ulp) == (y - y * ulp) * 2 ^ e) as -> by ring.
    apply Qmult_le_compat_r; [lra|apply Qlt_le_weak, two_pos].
  - assert (y * 2 ^ e * (1 + ulp) == (y + y * ulp) * 2 ^ e) as -> by ring.
    apply Qmult_le_compat_r; [lra|apply Qlt_le_weak, two_pos].
Qed.
Lemma fl_pos_double q : 0 < q -> is_double (fl_pos q).
Proof.
  intros P; destruct (exponent_spec q P) as [L U]; unfold fl_pos; cbv zeta.
  exists (round_even (q / 2 ^ exponent q)), (exponent q); split; [|reflexivity].
  destruct (round_even_near (q / 2 ^ exponent q)) as [A B].
  rewrite two52 in L; rewrite two53 in U.
  assert (inject_Z 0 <= inject_Z (round_even (q / 2 ^ exponent q))) as C by (change (inject_Z 0) with 0; lra).
  assert (inject_Z (round_even (q / 2 ^ exponent q)) < inject_Z (9007199254740992 + 1)) as D.
  { change (inject_Z (9007199254740992 + 1)) with 9007199254740993; lra. }
  rewrite <- Zle_Qle in C; rewrite <- Zlt_Qlt in D.
  change (2 ^ 53)%Z with 9007199254740992%Z; lia.
Qed.

Lemma Qopp_opp q : - - q = q.
Proof. destruct q; unfold Qopp; simpl; rewrite Z.opp_involutive; reflexivity. Qed.
Lemma fl_cases q : (q == 0 /\ fl q == 0) \/ (0 < q /\ fl q == fl_pos q) \/ (q < 0 /\ fl q == - fl_pos (- q)).
Proof.
  unfold fl; destruct (Qcompare_spec q 0) as [H|H|H].
  - left; split; [auto|reflexivity].
  - right; right; split; auto; apply Qred_correct.
  - right; left; split; auto; apply Qred_correct.
Qed.
Lemma fl_close q : close ulp q (fl q).
Proof.
  destruct (fl_cases q) as [[A B]|[[A B]|[A B]]]; unfold close; rewrite B.
  - assert (forall x, q * x == 0) as Z by (intros; rewrite A; ring); rewrite !Z; split; intros; lra.
  - destruct (fl_pos_close q A); split; intros; [lra|lra].
  - destruct (fl_pos_close (- q)) as [C D]; [lra|].
    assert (- q * (1 - ulp) == - (q * (1 - ulp))) as X by ring; assert (- q * (1 + ulp) == - (q * (1 + ulp))) as Y by ring.
    rewrite X in C; rewrite Y in D; split; intros; lra.
Qed.
Lemma fl_double q : is_double (fl q).
Proof.
  destruct (fl_cases q) as [[A B]|[[A B]|[A B]]].
  - exists 0%Z, 0%Z; split; [simpl; lia|rewrite B; reflexivity].
  - destruct (fl_pos_double q A) as (m & e & L & E); exists m, e; split; auto; rewrite B; auto.
  - destruct (fl_pos_double (- q)) as (m & e & L & E); [lra|]; exists (- m)%Z, e; split; [lia|].
    rewrite B, E, inject_Z_opp; ring.
Qed.

(** Integers of 53 bits are kept. *)
Lemma fl_pos_int q c : q == inject_Z c -> (0 < c <= 2 ^ 53)%Z -> fl_pos q == q.
Proof.
  intros E [L U].
  assert (0 < q) as P by (rewrite E; change 0 with (inject_Z 0); rewrite <- Zlt_Qlt; auto).
  destruct (exponent_spec q P) as [A B]; unfold fl_pos; cbv zeta; set (e := exponent q) in *.
  assert (exists z, q / 2 ^ e == inject_Z z) as [z Z].
  { destruct (Z_lt_le_dec 0 e) as [G|G].
    - assert (2 ^ 52 * 2 ^ e <= q) as H.
      { assert (q == q / 2 ^ e * 2 ^ e) as X by (field; pose proof (two_pos e); lra).
        rewrite X; apply Qmult_le_compat_r; auto; apply Qlt_le_weak, two_pos. }
      rewrite <- two_plus, E, <- two_Z, <- Zle_Qle in H by lia.
      assert (2 ^ (52 + e) <= 2 ^ 53)%Z as I by lia.
      apply Z.pow_le_mono_r_iff in I; try lia.
      assert (e = 1)%Z as -> by lia; change (2 ^ (52 + 1))%Z with (2 ^ 53)%Z in H.
      exists (2 ^ 52)%Z; assert (c = 2 ^ 53)%Z as -> by lia; rewrite E; reflexivity.
    - exists (c * 2 ^ (- e))%Z; rewrite inject_Z_mult, two_Z by lia; rewrite div_two, E; reflexivity. }
  rewrite (round_even_int _ _ Z), <- Z; field; pose proof (two_pos e); lra.
Qed.
Lemma fl_int q c : q == inject_Z c -> (Z.abs c <= 2 ^ 53)%Z -> fl q == q.
Proof.
  intros E L; destruct (fl_cases q) as [[A B]|[[A B]|[A B]]]; rewrite B.
  - lra.
  - apply (fl_pos_int q c E); rewrite E in A; change 0 with (inject_Z 0) in A; rewrite <- Zlt_Qlt in A; lia.
  - rewrite (fl_pos_int (- q) (- c)); [ring|rewrite E, inject_Z_opp; reflexivity|].
    rewrite E in A; change 0 with (inject_Z 0) in A; rewrite <- Zlt_Qlt in A; lia.
Qed.

(** ** Composition of relative errors *)
Lemma close_mult e x y k : close e x y -> 0 < k -> close e (x * k) (y * k).
Proof.
  intros [A B] K; split; intros H.
  - assert (0 <= x) as X by (apply Qnot_lt_le; intros C; assert (x * k < 0 * k) by (apply Qmult_lt_compat_r; auto); lra).
    destruct (A X) as [C D]; split.
    + assert (x * k * (1 - e) == x * (1 - e) * k) as -> by ring; apply Qmult_le_compat_r; lra.
    + assert (x * k * (1 + e) == x * (1 + e) * k) as -> by ring; apply Qmult_le_compat_r; lra.
  - assert (x <= 0) as X by (apply Qnot_lt_le; intros C; assert (0 * k < x * k) by (apply Qmult_lt_compat_r; auto); lra).
    destruct (B X) as [C D]; split.
    + assert (x * k * (1 + e) == x * (1 + e) * k) as -> by ring; apply Qmult_le_compat_r; lra.
    + assert (x * k * (1 - e) == x * (1 - e) * k) as -> by ring; apply Qmult_le_compat_r; lra.
Qed.
Lemma close_trans a b c x y z : 0 <= a -> a <= 1 -> 0 <= b -> b <= 1 -> a + b + a * b <= c -> close a x y -> close b y z -> close c x z.
Proof.
  intros A0 A1 B0 B1 C [H1 H2] [G1 G2]; split; intros X.
  - destruct (H1 X) as [P R].
    assert (0 <= y) as Y by (assert (0 <= x * (1 - a)) by (apply Qmult_le_0_compat; lra); lra).
    destruct (G1 Y) as [S T]; split.
    + apply Qle_trans with (x * (1 - a) * (1 - b)); [|apply Qle_trans with (y * (1 - b)); [apply Qmult_le_compat_r; lra|auto]].
      assert (x * (1 - a) * (1 - b) == x * (1 - (a + b - a * b))) as -> by ring.
      rewrite !(Qmult_comm x); apply Qmult_le_compat_r; [|auto].
      assert (0 <= a * b) by (apply Qmult_le_0_compat; auto); lra.
    + apply Qle_trans with (x * (1 + a) * (1 + b)); [apply Qle_trans with (y * (1 + b)); [auto|apply Qmult_le_compat_r; lra]|].
      assert (x * (1 + a) * (1 + b) == x * (1 + (a + b + a * b))) as -> by ring.
      rewrite !(Qmult_comm x); apply Qmult_le_compat_r; [lra|auto].
  - destruct (H2 X) as [P R].
    assert (y <= 0) as Y by (assert (0 <= (- x) * (1 - a)) by (apply Qmult_le_0_compat; lra); lra).
    destruct (G2 Y) as [S T]; split.
    + apply Qle_trans with (x * (1 + a) * (1 + b)); [|apply Qle_trans with (y * (1 + b)); [apply Qmult_le_compat_r; lra|auto]].
      assert (x * (1 + a) * (1 + b) == x * (1 + (a + b + a * b))) as -> by ring.
      assert ((- x) * (1 + (a + b + a * b)) <= (- x) * (1 + c)) as M by (rewrite !(Qmult_comm (- x)); apply Qmult_le_compat_r; lra).
      lra.
    + apply Qle_trans with (x * (1 - a) * (1 - b)); [apply Qle_trans with (y * (1 - b)); [auto|apply Qmult_le_compat_r; lra]|].
      assert (x * (1 - a) * (1 - b) == x * (1 - (a + b - a * b))) as -> by ring.
      assert (0 <= a * b) by (apply Qmult_le_0_compat; auto).
      assert ((- x) * (1 - c) <= (- x) * (1 - (a + b - a * b))) as M by (rewrite !(Qmult_comm (- x)); apply Qmult_le_compat_r; lra).
      lra.
Qed.
Lemma close_comp e x x' y y' : x == x' -> y == y' -> close e x y -> close e x' y'.
Proof.
  intros A B [H1 H2]; split; intros X; rewrite <- A, <- B in *; auto.
Qed.
Lemma close_mult_err a b c x y k l : 0 <= a -> a <= 1 -> 0 <= b -> b <= 1 -> a + b + a * b <= c -> 0 < k -> 0 < l ->
  close a x y -> close b k l -> close c (x * k) (y * l).
Proof.
  intros A0 A1 B0 B1 C K L H G.
  assert (close a (x * k) (y * k)) as H1 by (apply close_mult; auto).
  assert (close b (y * k) (y * l)) as H2.
  { destruct G as [G _]; destruct (G (Qlt_le_weak _ _ K)) as [G1 G2]; split; intros Y.
    - assert (0 <= y) as Y0 by (apply Qnot_lt_le; intros X; assert (y * k < 0 * k) by (apply Qmult_lt_compat_r; auto); lra).
      split.
      + assert (y * k * (1 - b) == (k * (1 - b)) * y) as -> by ring; rewrite (Qmult_comm y l); apply Qmult_le_compat_r; auto.
      + assert (y * k * (1 + b) == (k * (1 + b)) * y) as -> by ring; rewrite (Qmult_comm y l); apply Qmult_le_compat_r; auto.
    - assert (y <= 0) as Y0 by (apply Qnot_lt_le; intros X; assert (0 * k < y * k) by (apply Qmult_lt_compat_r; auto); lra).
      split.
      + assert (l * (- y) <= (k * (1 + b)) * (- y)) as M by (apply Qmult_le_compat_r; lra); lra.
      + assert ((k * (1 - b)) * (- y) <= l * (- y)) as M by (apply Qmult_le_compat_r; lra); lra. }
  eapply close_trans with (a := a) (b := b); eauto.
Qed.

Lemma fl_pos_sign q : 0 < q -> 0 < fl q.
Proof.
  intros P; destruct (fl_close q) as [A _]; destruct (A (Qlt_le_weak _ _ P)) as [B _].
  assert (0 < q * (1 - ulp)) as C by (unfold ulp; lra); lra.
Qed.

(** Truncating something within half of an integer. *)
Lemma trunc_near c w : close (5 * ulp) (inject_Z c) w -> (Z.abs c <= 2 ^ 50)%Z -> same_or_one_less c (trunc w).
Proof.
  intros [A B] L; unfold trunc, ulp in *.
  assert (inject_Z (Z.abs c) <= 1125899906842624) as L' by (change 1125899906842624 with (inject_Z (2 ^ 50)); rewrite <- Zle_Qle; auto).
  destruct (Z.lt_trichotomy c 0) as [N|[->|N]].
  - rewrite Z.abs_neq, inject_Z_opp in L' by lia.
    assert (inject_Z c <= inject_Z (-1)) as N' by (rewrite <- Zle_Qle; lia); change (inject_Z (-1)) with (-(1)) in N'.
    destruct (B) as [B1 B2]; [lra|].
    destruct (Qle_bool 0 w) eqn:W; [apply Qle_bool_iff in W; lra|].
    pose proof (Qle_ceiling w) as F1; pose proof (Qceiling_lt w) as F2.
    unfold Z.sub in F2; rewrite inject_Z_plus in F2; change (inject_Z (- (1))) with (-(1)) in F2.
    assert (inject_Z (c - 1) < inject_Z (Qceiling w)) as G1 by (unfold Z.sub; rewrite inject_Z_plus; change (inject_Z (- (1))) with (-(1)); lra).
    assert (inject_Z (Qceiling w) < inject_Z (c + 2)) as G2 by (rewrite inject_Z_plus; change (inject_Z 2) with 2; lra).
    rewrite <- Zlt_Qlt in G1, G2; unfold same_or_one_less; lia.
  - change (inject_Z 0) with 0 in *; destruct A as [A1 A2]; [lra|].
    assert (w == 0) as W by lra.
    assert (Qle_bool 0 w = true) as -> by (apply Qle_bool_iff; lra).
    rewrite (Qfloor_comp _ _ W); left; reflexivity.
  - rewrite Z.abs_eq in L' by lia.
    assert (inject_Z 1 <= inject_Z c) as N' by (rewrite <- Zle_Qle; lia); change (inject_Z 1) with 1 in N'.
    destruct A as [A1 A2]; [lra|].
    destruct (Qle_bool 0 w) eqn:W; [|exfalso; assert (0 <= w) as X by lra; apply Qle_bool_iff in X; congruence].
    pose proof (Qfloor_le w) as F1; pose proof (Qlt_floor w) as F2.
    rewrite inject_Z_plus in F2; change (inject_Z 1) with 1 in F2.
    assert (inject_Z (Qfloor w) < inject_Z (c + 1)) as G1 by (rewrite inject_Z_plus; change (inject_Z 1) with 1; lra).
    assert (inject_Z (c - 2) < inject_Z (Qfloor w)) as G2 by (unfold Z.sub; rewrite inject_Z_plus; change (inject_Z (- (2))) with (-(2)); lra).
    rewrite <- Zlt_Qlt in G1, G2; unfold same_or_one_less; lia.
Qed.

Lemma close_weaken a b x y : a <= b -> close a x y -> close b x y.
Proof.
  intros L [A B]; split; intros X.
  - destruct (A X) as [P R]; split.
    + apply Qle_trans with (x * (1 - a)); auto; rewrite !(Qmult_comm x); apply Qmult_le_compat_r; lra.
    + apply Qle_trans with (x * (1 + a)); auto; rewrite !(Qmult_comm x); apply Qmult_le_compat_r; lra.
  - destruct (B X) as [P R].
    assert ((- x) * (1 - b) <= (- x) * (1 - a)) by (rewrite !(Qmult_comm (- x)); apply Qmult_le_compat_r; lra).
    assert ((- x) * (1 + a) <= (- x) * (1 + b)) by (rewrite !(Qmult_comm (- x)); apply Qmult_le_compat_r; lra).
    split; lra.
Qed.
Lemma close_round e x y : 0 <= e -> e <= 5 * ulp -> close e x y -> close (e + ulp + 5 * ulp * ulp) x (fl y).
Proof.
  intros A B C; eapply close_trans with (a := e) (b := ulp); eauto using fl_close; try (unfold ulp in *; lra).
Qed.
Lemma int_coord c : (Z.abs c <= 2 ^ 53)%Z -> fl (inject_Z c) == inject_Z c.
Proof. intros; apply (fl_int _ c); auto; reflexivity. Qed.

Lemma roundtrip_close cu c : 0 < cu_unit cu -> (Z.abs c <= 2 ^ 53)%Z -> close (4 * ulp) (inject_Z c) (to_coordf cu (to_unit cu c)).
Proof.
  intros U L; unfold to_coordf, to_unit, scale2coord.
  assert (close ulp (inject_Z c * cu_unit cu) (fl (fl (inject_Z c) * cu_unit cu))) as A.
  { eapply close_comp; [|reflexivity|apply fl_close]; rewrite (int_coord c L); reflexivity. }
  assert (0 < 1 / cu_unit cu) as I by (apply Qlt_shift_div_l; auto; lra).
  assert (close (2 * ulp + ulp * ulp) (inject_Z c * cu_unit cu * (1 / cu_unit cu)) (fl (fl (inject_Z c) * cu_unit cu) * fl (1 / cu_unit cu))) as B.
  { eapply close_mult_err with (a := ulp) (b := ulp); eauto using fl_close, fl_pos_sign; unfold ulp; lra. }
  assert (close (2 * ulp + ulp * ulp) (inject_Z c) (fl (fl (inject_Z c) * cu_unit cu) * fl (1 / cu_unit cu))) as B'.
  { eapply close_comp; [|reflexivity|exact B]; field; lra. }
  eapply close_weaken; [|apply close_round; [| |exact B']]; unfold ulp; lra.
Qed.
Lemma div_mult x y : x / y == x * (1 / y).
Proof. unfold Qdiv; ring. Qed.
Lemma scale2meter_pos u : 0 < scale2meter u.
Proof. unfold scale2meter; apply fl_pos_sign; destruct u; reflexivity. Qed.
Lemma roundtrip_in_close cu c u : 0 < cu_precision cu -> (Z.abs c <= 2 ^ 53)%Z -> close (5 * ulp) (inject_Z c) (to_coordf_in cu (to_unit_in cu c u) u).
Proof.
  intros U L; unfold to_coordf_in, to_unit_in.
  pose proof (scale2meter_pos u) as M; set (m := scale2meter u) in *; set (p := cu_precision cu) in *.
  assert (0 < 1 / p) as IP by (apply Qlt_shift_div_l; auto; lra).
  assert (0 < 1 / m) as IM by (apply Qlt_shift_div_l; auto; lra).
  assert (close ulp (inject_Z c * p) (fl (fl (inject_Z c) * p))) as A.
  { eapply close_comp; [|reflexivity|apply fl_close]; rewrite (int_coord c L); reflexivity. }
  assert (close ulp (inject_Z c * p * (1 / m)) (fl (fl (inject_Z c) * p) / m)) as B.
  { eapply close_comp; [reflexivity|symmetry; apply div_mult|]; apply close_mult; auto. }
  assert (close (2 * ulp + 5 * ulp * ulp) (inject_Z c * p * (1 / m)) (fl (fl (fl (inject_Z c) * p) / m))) as C.
  { eapply close_weaken; [|apply close_round; [| |exact B]]; unfold ulp; lra. }
  assert (close (2 * ulp + 5 * ulp * ulp) (inject_Z c * p) (fl (fl (fl (inject_Z c) * p) / m) * m)) as D.
  { eapply close_comp; [|reflexivity|apply close_mult; [exact C|exact M]]; field; lra. }
  assert (close (3 * ulp + 10 * ulp * ulp) (inject_Z c * p) (fl (fl (fl (fl (inject_Z c) * p) / m) * m))) as E.
  { eapply close_weaken; [|apply close_round; [| |exact D]]; unfold ulp; lra. }
  assert (close (3 * ulp + 10 * ulp * ulp) (inject_Z c) (fl (fl (fl (fl (inject_Z c) * p) / m) * m) / p)) as F.
  { eapply close_comp; [|symmetry; apply div_mult|apply close_mult; [exact E|exact IP]]; field; lra. }
  eapply close_weaken; [|apply close_round; [| |exact F]]; unfold ulp; lra.
Qed.
Lemma round_near c w : close (5 * ulp) (inject_Z c) w -> (Z.abs c <= 2 ^ 49)%Z -> round_even w = c.
Proof.
  intros [A B] L.
  assert (inject_Z (Z.abs c) <= 562949953421312) as L' by (change 562949953421312 with (inject_Z (2 ^ 49)); rewrite <- Zle_Qle; auto).
  destruct (round_even_near w) as [R1 R2].
  assert (inject_Z c - (5 # 16) <= w /\ w <= inject_Z c + (5 # 16)) as [W1 W2].
  { unfold ulp in *; destruct (Z_le_dec 0 c) as [N|N].
    - rewrite Z.abs_eq in L' by lia; destruct A; [change 0 with (inject_Z 0); rewrite <- Zle_Qle; auto|]; lra.
    - rewrite Z.abs_neq, inject_Z_opp in L' by lia; destruct B; [change 0 with (inject_Z 0); rewrite <- Zle_Qle; lia|]; lra. }
  assert (inject_Z c < inject_Z (round_even w + 1) /\ inject_Z (round_even w) < inject_Z (c + 1)) as [C D].
  { rewrite !inject_Z_plus; change (inject_Z 1) with 1; lra. }
  rewrite <- Zlt_Qlt in C, D; lia.
Qed.
Lemma to_int64_near c w : same_or_one_less c (trunc w) -> (Z.abs c <= 2 ^ 50)%Z -> exists r, to_int64 w = Ok r /\ same_or_one_less c r.
Proof.
  intros H L; exists (trunc w); split; auto; unfold to_int64; cbv zeta.
  assert ((- 2 ^ 63 <=? trunc w) && (trunc w <? 2 ^ 63) = true)%Z as ->; auto.
  unfold same_or_one_less in H; change (2 ^ 50)%Z with 1125899906842624%Z in L; change (2 ^ 63)%Z with 9223372036854775808%Z.
  apply andb_true_intro; split; [apply Z.leb_le|apply Z.ltb_lt]; lia.
Qed.
Lemma unit_pos user data : 0 < cu_unit (make_units user data).
Proof.
  simpl; apply fl_pos_sign; apply Qlt_shift_div_l; [apply scale2meter_pos|].
  pose proof (scale2meter_pos data); lra.
Qed.
Lemma same_unit_one u : cu_unit (make_units u u) == 1.
Proof.
  simpl; pose proof (scale2meter_pos u) as P.
  assert (scale2meter u / scale2meter u == inject_Z 1) as E by (change (inject_Z 1) with 1; field; lra).
  rewrite (fl_int _ 1 E); [exact E|simpl; lia].
Qed.
Lemma trunc_int q c : q == inject_Z c -> trunc q = c.
Proof.
  intros E; unfold trunc; rewrite (Qfloor_comp _ _ E), (Qceiling_comp _ _ E), Qceiling_Z, Qfloor_Z.
  destruct (Qle_bool 0 q); auto.
Qed.
