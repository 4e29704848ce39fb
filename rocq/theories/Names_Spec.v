(** What a generated name has to satisfy, in terms of the set of used names only. *)
From Verif Require Import Base.
From Coq Require Import DecimalString.

Local Open Scope string_scope.

(** decimal rendering of a number, no leading zeros *)
Definition decimal (n : nat) : string := NilZero.string_of_uint (Nat.to_uint n).

(** [r] is the first free name of the enumeration base, base1, base2, ... *)
Definition first_free (used : list string) (base r : string) : Prop :=
  ~ In r used /\
  ( (~ In base used /\ r = base) \/
    (In base used /\ exists k, 1 <= k /\ r = base ++ decimal k /\
                       forall j, 1 <= j < k -> In (base ++ decimal j) used) ).

(** a call with unlimited time returns [r] *)
Definition returns {A} (call : nat -> res A) (r : A) : Prop :=
  exists n, forall fuel, n <= fuel -> call fuel = Ok r.

(** a call never returns *)
Definition diverges {A} (call : nat -> res A) : Prop := forall fuel, call fuel = OutOfFuel.
