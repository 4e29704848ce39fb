From Verif Require Import Base Iterators_Model.

(** [n] calls deliver the elements in order and then nothing, for ever *)
Definition enumerates {A St} (next : St -> option A * St) (s : St) (elems : list A) : Prop :=
  forall n, calls next n s = firstn n (map Some elems) ++ repeat None (n - List.length elems).

(** Current announces what Next would return, after any number of calls *)
Definition current_agrees {A St} (next : St -> option A * St) (current : St -> option A) (s : St) : Prop :=
  forall n, current (after next n s) = fst (next (after next n s)).

(** the containers before the first empty one *)
Fixpoint before_empty {A} (ls : list (list A)) : list (list A) :=
  match ls with
  | [] => []
  | [] :: _ => []
  | l :: ls' => l :: before_empty ls'
  end.
