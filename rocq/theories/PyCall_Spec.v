(** When a Python value is a value of a C++ type, without conversion. *)
From Verif Require Import Base PyCall_Model.

Fixpoint is_a (t : ty) (v : pv) : Prop :=
  match t with
  | TStr => exists s, v = PStr s
  | TFloat => exists q, v = PFloat q
  | TInt => exists z, v = PInt z /\ (0 <= z)%Z
  | TBool => exists b, v = PBool b
  | TEnum c => exists z, v = PEnum c z
  | TPtr c | TRef c => exists id, v = PObj c id
  | TList t' => exists l, v = PList l /\ l <> [] /\ Forall (is_a t') l
  end.
(** [f] is one of the functions bound to a name. *)
Definition bound (name : string) (f : fn) : Prop := exists fs, In (name, fs) methods /\ In f fs.
