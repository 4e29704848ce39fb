From Verif Require Import Base MatProp_Model.
Local Open Scope Q_scope.

(** declared dimensionality and components of the last setting *)
Definition declared (ctor : mp_set) (sets : list mp_set) : mp_set := last sets ctor.
Definition dims (s : mp_set) : nat * nat :=
  match s with SetSimple _ => (1, 1)%nat | SetAniso _ _ _ => (3, 1)%nat | SetTensor _ _ _ _ _ _ _ _ _ => (3, 3)%nat end.

Definition comp3 (a b c : Q) (i : nat) : Q := match i with 0%nat => a | 1%nat => b | _ => c end.

(** the component the interface documents, for an index in range: a simple property is the same in every direction;
    an anisotropic one is a diagonal; off-diagonal entries of both are zero *)
Definition simple_component (s : mp_set) : Q :=
  match s with SetSimple v => v | SetAniso a _ _ => a | SetTensor a _ _ _ _ _ _ _ _ => a end.
Definition diag_component (s : mp_set) (row : nat) : Q :=
  match s with
  | SetSimple v => v
  | SetAniso a b c => comp3 a b c row
  | SetTensor a _ _ _ e _ _ _ i => comp3 a e i row
  end.
Definition tensor_component (s : mp_set) (row col : nat) : Q :=
  match s with
  | SetTensor a b c d e f g h i => comp3 (comp3 a b c col) (comp3 d e f col) (comp3 g h i col) row
  | _ => if (row =? col)%nat then diag_component s row else 0
  end.

(** sum of c_i t^i *)
Fixpoint power_sum (cs : list Q) (t : Q) (i : nat) : Q :=
  match cs with [] => 0 | c :: cs' => c * t ^ (Z.of_nat i) + power_sum cs' t (S i) end.
Definition polynomial (cs : list Q) (t : Q) : Q := power_sum cs t 0.

Definition succeeds_with (g : getter) (v : Q) : Prop := exists q, g = Ok (true, q) /\ q == v.
