From Verif Require Import Base Merger_Model.
From Coq Require Export Permutation.

(** the elements of a list whose position is not in [r] *)
Fixpoint kept_from {A} (i : nat) (r : list nat) (l : list A) : list A :=
  match l with
  | [] => []
  | x :: l' => (if existsb (Nat.eqb i) r then [] else [x]) ++ kept_from (Datatypes.S i) r l'
  end.
Definition kept {A} (r : list nat) (l : list A) : list A := kept_from 0 r l.

Fixpoint descending (l : list nat) : Prop :=
  match l with
  | a :: ((b :: _) as r) => (b < a)%nat /\ descending r
  | _ => True
  end.
