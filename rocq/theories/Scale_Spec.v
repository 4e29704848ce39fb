(** What the length scales of a model should be. *)
From Verif Require Import Base QSum Units_Model.
Local Open Scope Q_scope.

(** The lengths of the units in metres *)
Definition metres (u : length_unit) : Q :=
  match u with
  | Nanometer => 1 / 1000000000 | Micrometer => 1 / 1000000 | Millimeter => 1 / 1000
  | Centimeter => 1 / 100 | Decimeter => 1 / 10 | Meter => 1 | Inch => 254 / 10000
  end.

(** [y] is [x] up to a part [e] of it *)
Definition within (e x y : Q) : Prop := x * (1 - e) <= y /\ y <= x * (1 + e).

(** A whole number of data units makes a user unit *)
Definition whole (user data : length_unit) : Prop := exists k, metres user == inject_Z k * metres data.

Definition tenth_ppm : Q := 1 # 10000000.
Definition rounding : Q := 1 # 1000000000000000.
