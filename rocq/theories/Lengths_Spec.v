(** What lengths in the user unit should become. *)
From Verif Require Import Base QSum.
From Verif Require Import Units_Model Transform_Model.
From Coq Require Import Qabs.
Local Open Scope Q_scope.

(** how many metres a unit has *)
Definition in_metres (u : length_unit) : Q :=
  match u with
  | Nanometer => 1 # 1000000000 | Micrometer => 1 # 1000000 | Millimeter => 1 # 1000
  | Centimeter => 1 # 100 | Decimeter => 1 # 10 | Meter => 1 | Inch => 254 # 10000
  end.
(** the length of [v] user units, in data units *)
Definition exactly (user data : length_unit) (v : Q) : Q := v * in_metres user / in_metres data.
(** not more than 2^48 data units long (281 km in nanometres) *)
Definition reachable (user data : length_unit) (v : Q) : Prop := Qabs (exactly user data v) <= 281474976710656.
(** [c] is [v] up to less than one and a half data units *)
Definition about (user data : length_unit) (v : Q) (c : Q) : Prop := Qabs (c - exactly user data v) < 3 # 2.
Definition about_pt (user data : length_unit) (p c : Q * Q) : Prop :=
  about user data (fst p) (fst c) /\ about user data (snd p) (snd c).
Definition reachable_pt (user data : length_unit) (p : Q * Q) : Prop :=
  reachable user data (fst p) /\ reachable user data (snd p).

(** [ll] is nowhere above [ur] *)
Definition ordered_pt (ll ur : Q * Q) : Prop := fst ll <= fst ur /\ snd ll <= snd ur.

(** consecutive pairs of a list of numbers *)
Fixpoint pairs (l : list Q) : list (Q * Q) :=
  match l with x :: y :: l' => (x, y) :: pairs l' | _ => [] end.
Fixpoint flat (ps : list (Q * Q)) : list Q :=
  match ps with [] => [] | p :: ps' => fst p :: snd p :: flat ps' end.

(** where a mirror or a flip takes a point *)
Definition mirrored (m : mirror2d) (p : Q * Q) : Q * Q :=
  match m with
  | MNo => p | MX => (fst p, - snd p) | MY => (- fst p, snd p) | MXY => (- fst p, - snd p)
  end.
Definition flipped_over (f : bool) (p : Q * Q) : Q * Q := if f then (- fst p, - snd p) else p.
Definition shifted (o p : Q * Q) : Q * Q := (fst p + fst o, snd p + snd o).

(** [p] is the first pin named [n] *)
Fixpoint first_of (l : list (string * (Q * Q))) (n : string) : option (Q * Q) :=
  match l with
  | [] => None
  | (m, p) :: l' => if String.eqb m n then Some p else first_of l' n
  end.
(** [got] is [want] up to [k] data units, both in user units *)
Definition off_by (user data : length_unit) (k : Q) (want got : Q * Q) : Prop :=
  Qabs (exactly user data (fst got) - exactly user data (fst want)) < k /\
  Qabs (exactly user data (snd got) - exactly user data (snd want)) < k.
