(** What merging one layer on its own yields. *)
From Verif Require Import Base.

Section Spec.
  Context {M : Type} (turn : nat -> M -> option M) (per : nat).
  Inductive merged : M -> M -> nat -> Prop :=
  | merged_done m : turn per m = None -> merged m m 0
  | merged_more m m' r n : turn per m = Some m' -> merged m' r n -> merged m r (S n).
  Definition comes_to (m r : M) : Prop := exists n, merged m r n.
End Spec.
