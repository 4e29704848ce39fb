(** * C60: converting coordinates to user units and back *)
From Verif Require Import Base QSum Units_Model Units_Spec Units_Proofs.
From Coq Require Import Qround Qabs Qpower.
Open Scope res_scope.
Open Scope Q_scope.

(** The rounding used is that of doubles: the result has 53 bits, the error is at most half an ulp,
    and numbers that already are 53 bit integers are kept. *)
Theorem C60_rounding : forall q, is_double (fl q) /\ close ulp q (fl q).
Proof. intros q; split; [apply fl_double|apply fl_close]. Qed.
Theorem C60_integers_kept : forall c, (Z.abs c <= 2 ^ 53)%Z -> fl (inject_Z c) == inject_Z c.
Proof. exact int_coord. Qed.

(** The lengths of the units. *)
Definition metres (u : length_unit) : Q :=
  match u with
  | Nanometer => 1 / 1000000000 | Micrometer => 1 / 1000000 | Millimeter => 1 / 1000
  | Centimeter => 1 / 100 | Decimeter => 1 / 10 | Meter => 1 | Inch => 254 / 10000
  end.
(** The factors are the doubles nearest to the lengths of the units in metres. *)
Theorem C60_unit_factors : forall u, is_double (scale2meter u) /\ close ulp (metres u) (scale2meter u).
Proof. intros u; assert (scale2meter u = fl (metres u)) as -> by (destruct u; vm_compute; reflexivity); split; [apply fl_double|apply fl_close]. Qed.
Print Assumptions C60_unit_factors.

(** The claim for [toCoord (toUnit c)] holds up to one step towards zero: missing is the claim that
    the result is [c] itself, which is false. *)
Theorem C60_roundtrip_partial : forall user data c, (Z.abs c <= 2 ^ 50)%Z ->
  let cu := make_units user data in
  exists r, to_coord cu (to_unit cu c) = Ok r /\ same_or_one_less c r.
Proof.
  intros user data c L cu; unfold to_coord; apply to_int64_near; auto; apply trunc_near; auto.
  eapply close_weaken; [|apply roundtrip_close; [apply unit_pos|lia]]; unfold ulp; lra.
Qed.
(** Any positive unit set by hand. *)
Theorem C60_roundtrip_unit_partial : forall cu c, 0 < cu_unit cu -> (Z.abs c <= 2 ^ 50)%Z ->
  exists r, to_coord cu (to_unit cu c) = Ok r /\ same_or_one_less c r.
Proof.
  intros cu c P L; unfold to_coord; apply to_int64_near; auto; apply trunc_near; auto.
  eapply close_weaken; [|apply roundtrip_close; auto; lia]; unfold ulp; lra.
Qed.
Theorem C60_roundtrip_in_partial : forall cu c u, 0 < cu_precision cu -> (Z.abs c <= 2 ^ 50)%Z ->
  exists r, to_coord_in cu (to_unit_in cu c u) u = Ok r /\ same_or_one_less c r.
Proof.
  intros cu c u P L; unfold to_coord_in; apply to_int64_near; auto; apply trunc_near; auto.
  apply roundtrip_in_close; auto; lia.
Qed.
(** When user and data unit agree the claim holds as stated, up to 2^53. *)
Theorem C60_same_unit : forall u c, (Z.abs c <= 2 ^ 53)%Z ->
  to_coord (make_units u u) (to_unit (make_units u u) c) = Ok c.
Proof.
  intros u c L; pose proof (same_unit_one u) as O; unfold to_coord, to_coordf, to_unit, scale2coord.
  assert (1 / cu_unit (make_units u u) == inject_Z 1) as I by (rewrite O; reflexivity).
  assert (fl (1 / cu_unit (make_units u u)) == 1) as F by (rewrite (fl_int _ 1 I); [exact I|simpl; lia]).
  assert (fl (inject_Z c) * cu_unit (make_units u u) == inject_Z c) as G by (rewrite O, (int_coord c L); ring).
  assert (fl (fl (inject_Z c) * cu_unit (make_units u u)) * fl (1 / cu_unit (make_units u u)) == inject_Z c) as H.
  { rewrite F, (fl_int _ c G L), G; ring. }
  set (w := fl (fl (inject_Z c) * cu_unit (make_units u u)) * fl (1 / cu_unit (make_units u u))) in *.
  unfold to_int64; cbv zeta; rewrite (trunc_int (fl w) c) by (rewrite (fl_int _ c H L); exact H).
  assert ((- 2 ^ 63 <=? c) && (c <? 2 ^ 63) = true)%Z as ->; auto.
  change (2 ^ 53)%Z with 9007199254740992%Z in L; change (2 ^ 63)%Z with 9223372036854775808%Z.
  apply andb_true_intro; split; [apply Z.leb_le|apply Z.ltb_lt]; lia.
Qed.
(** The loss comes from the final truncation: rounding the same double to the nearest integer gives
    the coordinate back, for every unit. *)
Theorem C60_nearest_would_do : forall user data c u, (Z.abs c <= 2 ^ 49)%Z ->
  let cu := make_units user data in
  round_even (to_coordf cu (to_unit cu c)) = c /\ round_even (to_coordf_in cu (to_unit_in cu c u) u) = c.
Proof.
  intros user data c u L cu; split; apply round_near; auto.
  - eapply close_weaken; [|apply roundtrip_close; [apply unit_pos|lia]]; unfold ulp; lra.
  - apply roundtrip_in_close; [apply scale2meter_pos|lia].
Qed.

(** Repeated conversion never makes a coordinate leave the interval between zero and itself, and
    loses at most one per round. *)
Fixpoint trips (cu : coord_units) (n : nat) (c : Z) : res Z :=
  match n with O => Ok c | Datatypes.S n => r <- to_coord cu (to_unit cu c) ;; trips cu n r end.
Theorem C60_drift_bound : forall cu n c, 0 < cu_unit cu -> (Z.abs c <= 2 ^ 50)%Z ->
  exists r, trips cu n c = Ok r /\ (0 <= r * c)%Z /\ (Z.abs c - Z.of_nat n <= Z.abs r <= Z.abs c)%Z.
Proof.
  intros cu n; induction n as [|n IH]; intros c P L; cbn [trips].
  - exists c; split; auto; split; [nia|lia].
  - destruct (C60_roundtrip_unit_partial cu c P L) as (r & -> & S); cbn [bind].
    assert (Z.abs r <= Z.abs c /\ Z.abs c - 1 <= Z.abs r)%Z as [A B] by (unfold same_or_one_less in S; lia).
    destruct (IH r P) as (t & E & T1 & T2); [lia|]; exists t; split; auto; split; [|lia].
    unfold same_or_one_less in S; destruct (Z.lt_trichotomy c 0) as [N|[N|N]].
    + assert (t <= 0 \/ r = 0)%Z as [X|X] by nia; [nia|subst r; assert (t = 0)%Z by lia; subst; lia].
    + subst; lia.
    + assert (0 <= t \/ r = 0)%Z as [X|X] by nia; [nia|subst r; assert (t = 0)%Z by lia; subst; lia].
Qed.

(** ** The full claim is false *)
(** Default units (micrometres, nanometre coordinates). *)
Theorem C60_default_refuted : exists c, (0 < c < 5000)%Z /\ to_coord default_units (to_unit default_units c) = Ok (c - 1)%Z.
Proof. exists 4007%Z; split; [lia|vm_compute; reflexivity]. Qed.
(** Metres: one nanometre becomes zero. *)
Theorem C60_metre_refuted : exists c, (0 < c)%Z /\ to_coord (make_units Meter Nanometer) (to_unit (make_units Meter Nanometer) c) = Ok 0%Z.
Proof. exists 1%Z; split; [lia|vm_compute; reflexivity]. Qed.
(** The conversions that name the unit, default units, to metres. *)
Theorem C60_named_unit_refuted : exists c u r, to_coord_in default_units (to_unit_in default_units c u) u = Ok r /\ r <> c.
Proof. exists 31%Z, Meter, 30%Z; split; [vm_compute; reflexivity|lia]. Qed.
(** Successive conversions keep losing: two round trips lose two. *)
Theorem C60_drift_refuted : exists cu c, trips cu 2 c = Ok (c - 2)%Z /\ (2 <= c)%Z.
Proof. exists (make_units Meter Nanometer), 2%Z; split; [vm_compute; reflexivity|lia]. Qed.
(** Beyond 53 bits even the same unit loses. *)
Theorem C60_large_refuted : exists c, (c < 2 ^ 63)%Z /\ to_coord (make_units Meter Meter) (to_unit (make_units Meter Meter) c) = Ok (c - 1)%Z.
Proof. exists (2 ^ 53 + 1)%Z; split; [reflexivity|vm_compute; reflexivity]. Qed.
(** The largest coordinate is not representable and converting it back is undefined. *)
Theorem C60_maximum_is_ub : to_coord (make_units Meter Meter) (to_unit (make_units Meter Meter) (2 ^ 63 - 1)) = UB.
Proof. vm_compute; reflexivity. Qed.

Example C60_ex_default : to_coord default_units (to_unit default_units 123456789) = Ok 123456789%Z.
Proof. vm_compute; reflexivity. Qed.
Example C60_ex_same_unit : (Z.abs (-123456789) <= 2 ^ 53)%Z /\ to_coord (make_units Nanometer Nanometer) (to_unit (make_units Nanometer Nanometer) (-123456789)) = Ok (-123456789)%Z.
Proof. split; [simpl; lia|vm_compute; reflexivity]. Qed.
Example C60_ex_nearest : round_even (to_coordf default_units (to_unit default_units 4007)) = 4007%Z.
Proof. vm_compute; reflexivity. Qed.
Example C60_ex_trips : trips default_units 3 4007 = Ok 4006%Z.
Proof. vm_compute; reflexivity. Qed.

Print Assumptions C60_rounding.
Print Assumptions C60_integers_kept.
Print Assumptions C60_roundtrip_partial.
Print Assumptions C60_roundtrip_unit_partial.
Print Assumptions C60_roundtrip_in_partial.
Print Assumptions C60_same_unit.
Print Assumptions C60_nearest_would_do.
Print Assumptions C60_drift_bound.
Print Assumptions C60_default_refuted.
Print Assumptions C60_metre_refuted.
Print Assumptions C60_named_unit_refuted.
Print Assumptions C60_drift_refuted.
Print Assumptions C60_large_refuted.
Print Assumptions C60_maximum_is_ub.
