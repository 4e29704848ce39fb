(** Model of [ECoordUnits], src/basic/ECadUnits.h:147-260.

    Doubles are the rationals [m * 2^e] with a 53 bit integer [m]; every operation rounds its exact
    result to the nearest of them, ties to even.  The exponent is not bounded: overflow, underflow
    and subnormal numbers are left out, which lengths in any unit stay far away from. *)
From Verif Require Import Base QSum.
From Coq Require Import Qround Qabs Qpower.
Open Scope res_scope.
Open Scope Q_scope.

(** ** Rounding to doubles *)
Definition round_even (q : Q) : Z :=
  let f := Qfloor q in
  match Qcompare (q - inject_Z f) (1 # 2) with
  | Lt => f
  | Gt => (f + 1)%Z
  | Eq => if Z.even f then f else (f + 1)%Z
  end.
(** The exponent that makes [q / 2^e] an integer part of 53 bits, for positive [q]. *)
Definition exponent (q : Q) : Z :=
  let k := (Z.log2 (Qnum q) - Z.log2 (Zpos (Qden q)))%Z in
  let e := (k - 52)%Z in
  if Qle_bool (2 ^ 52) (q / 2 ^ e) then e else (e - 1)%Z.
Definition fl_pos (q : Q) : Q := let e := exponent q in inject_Z (round_even (q / 2 ^ e)) * 2 ^ e.
Definition fl (q : Q) : Q :=
  match Qcompare q 0 with
  | Eq => 0
  | Gt => Qred (fl_pos q)
  | Lt => Qred (- fl_pos (- q))
  end.

(** ** Coordinates and units *)

(** Conversion of a double to [ECoord] (int64): truncation, undefined outside the type. *)
Definition trunc (q : Q) : Z := if Qle_bool 0 q then Qfloor q else Qceiling q.
Definition to_int64 (q : Q) : res Z :=
  let z := trunc q in if ((- 2 ^ 63 <=? z) && (z <? 2 ^ 63))%Z then Ok z else UB.

(** [generic::unit::Scale2Meter] of the units: the doubles nearest to the decimal factors. *)
Inductive length_unit := Nanometer | Micrometer | Millimeter | Centimeter | Decimeter | Meter | Inch.
Definition scale2meter (u : length_unit) : Q :=
  fl match u with
     | Nanometer => 1 # 1000000000
     | Micrometer => 1 # 1000000
     | Millimeter => 1 # 1000
     | Centimeter => 1 # 100
     | Decimeter => 1 # 10
     | Meter => 1
     | Inch => 254 # 10000
     end.

Record coord_units := { cu_unit : Q; cu_precision : Q }.
(** ECadUnits.h:180-184 *)
Definition make_units (user data : length_unit) : coord_units :=
  {| cu_unit := fl (scale2meter data / scale2meter user); cu_precision := scale2meter data |}.
(** ECadUnits.h:164-167 *)
Definition default_units : coord_units := make_units Micrometer Nanometer.
(** ECadUnits.h:201-204 *)
Definition scale2coord (cu : coord_units) : Q := fl (1 / cu_unit cu).
(** ECadUnits.h:226-230; the coordinate is converted to double first. *)
Definition to_unit (cu : coord_units) (c : Z) : Q := fl (fl (inject_Z c) * cu_unit cu).
(** ECadUnits.h:216-219 *)
Definition to_coordf (cu : coord_units) (v : Q) : Q := fl (v * scale2coord cu).
(** ECadUnits.h:206-209 *)
Definition to_coord (cu : coord_units) (v : Q) : res Z := to_int64 (to_coordf cu v).
(** ECadUnits.h:232-236 *)
Definition to_unit_in (cu : coord_units) (c : Z) (u : length_unit) : Q := fl (fl (fl (inject_Z c) * cu_precision cu) / scale2meter u).
(** ECadUnits.h:221-224 *)
Definition to_coordf_in (cu : coord_units) (v : Q) (u : length_unit) : Q := fl (fl (v * scale2meter u) / cu_precision cu).
(** ECadUnits.h:211-214 *)
Definition to_coord_in (cu : coord_units) (v : Q) (u : length_unit) : res Z := to_int64 (to_coordf_in cu v u).
