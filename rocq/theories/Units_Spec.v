(** What a double is, and what a conversion may do to a coordinate. *)
From Verif Require Import Base QSum.
From Coq Require Import Qpower.
Open Scope Q_scope.

(** Numbers with a 53 bit significand. *)
Definition is_double (q : Q) : Prop := exists m e, (Z.abs m <= 2 ^ 53)%Z /\ q == inject_Z m * 2 ^ e.
(** [r] is [c] or the next integer towards zero. *)
Definition same_or_one_less (c r : Z) : Prop :=
  (r = c \/ (0 < c /\ r = c - 1) \/ (c < 0 /\ r = c + 1))%Z.
(** Relative error at most [eps]. *)
Definition close (eps : Q) (x y : Q) : Prop :=
  (0 <= x -> x * (1 - eps) <= y /\ y <= x * (1 + eps)) /\ (x <= 0 -> x * (1 + eps) <= y /\ y <= x * (1 - eps)).
(** The rounding unit of doubles, 2^-53. *)
Definition ulp : Q := 1 # 9007199254740992.
