From Verif Require Import Base LookupTable_Model.
Local Open Scope Q_scope.

(** [answers t x y]: the query returns (not UB) and its value is y *)
Definition answers (t : table) (x y : Q) : Prop := exists q, lookup t x = Ok q /\ q == y.

(** a and b are neighbouring samples *)
Definition neighbours (t : table) (a b : Q * Q) : Prop := exists pre post, t = pre ++ a :: b :: post.

(** keys strictly increase along the table *)
Fixpoint sorted {V} (t : list (Q * V)) : Prop :=
  match t with
  | a :: ((b :: _) as r) => fst a < fst b /\ sorted r
  | _ => True
  end.

Fixpoint nondecreasing (t : table) : Prop :=
  match t with
  | a :: ((b :: _) as r) => snd a <= snd b /\ nondecreasing r
  | _ => True
  end.

(** the value of the first sample in a history with this key *)
Fixpoint first_write {V} (hist : list (Q * V)) (k : Q) : option V :=
  match hist with
  | [] => None
  | (k', v) :: r => if Qeq_bool k' k then Some v else first_write r k
  end.
Definition last_write {V} (hist : list (Q * V)) (k : Q) : option V := first_write (rev hist) k.
