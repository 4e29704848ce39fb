(** What a Python program may expect of the objects it holds. *)
From Verif Require Import Base Handles_Model.
Open Scope nat_scope.
Open Scope list_scope.

(** Object [i] exists and is [o]. *)
Definition alive (h : heap) (i : nat) (o : obj) : Prop := nth_error h i = Some (Some o).
(** Variable [x] holds object [i]. *)
Definition holds (s : state) (x : nat) (c : pyclass) (i : nat) : Prop := nth_error (s_vars s) x = Some (VObj c i).

(** Object [i] belongs to database object [d]. *)
Inductive belongs (h : heap) (d : nat) : nat -> Prop :=
| b_database o : alive h d o -> o_owner o = None -> belongs h d d
| b_owned i o p : alive h i o -> o_owner o = Some p -> belongs h d p -> belongs h d i.
(** It belongs to the database the data manager has under the name [n]. *)
Definition in_database (s : state) (n : string) (i : nat) : Prop := exists d, In (n, d) (s_reg s) /\ belongs (s_heap s) d i.

(** The statements that may delete a database. *)
Definition removes (n : string) (t : stmt) : Prop := t = RemoveDb n \/ t = ShutDown.

(** The variables a statement uses, and that each of them holds an object that exists, or no object at all. *)
Definition uses (t : stmt) : list nat :=
  match t with
  | CreateDb _ | OpenDb _ | RemoveDb _ | ShutDown => []
  | CreateIn _ x _ | FindIn _ x _ | GetLayout x | GetFlattened x | Flatten x | GetDatabase x | GetName _ x | SetBoundary x _
  | FindComponent x _ | GetBoundary x => [x]
  | CreateComponent x _ y | CreateInst x _ y | SetMap x y => [x; y]
  end.
Definition usable (s : state) (t : stmt) : Prop :=
  forall x c i, In x (uses t) -> holds s x c i -> exists o, alive (s_heap s) i o.

(** The statement makes objects of one database refer to objects of the same database only, and to something. *)
Definition local (s : state) (t : stmt) : Prop :=
  match t with
  | CreateComponent x _ y | CreateInst x _ y =>
      exists c i c' j d, holds s x c i /\ holds s y c' j /\ belongs (s_heap s) d i /\ belongs (s_heap s) d j
  | SetMap x y =>
      nth_error (s_vars s) y = Some VNone \/
      exists c i c' j d, holds s x c i /\ holds s y c' j /\ belongs (s_heap s) d i /\ belongs (s_heap s) d j
  | _ => True
  end.
Section Tidy.
  Context (step : state -> stmt -> res state).
  (** all statements of a program are *)
  Fixpoint tidy (s : state) (ts : list stmt) : Prop :=
    match ts with
    | [] => True
    | t :: ts' => local s t /\ forall s', step s t = Ok s' -> tidy s' ts'
    end.
End Tidy.
(** No layout contains itself: the layouts instances stand for can be ranked below those they are in. *)
Definition acyclic (s : state) : Prop :=
  exists rank : nat -> nat, forall i o c d, alive (s_heap s) i o -> o_kind o = KInst -> o_owner o = Some c -> o_ref o = Some d ->
    rank d < rank c.

(** What a call answers: the value of the new variable, the only thing that is new. *)
Definition answers (s : state) (r : res state) (v : val) : Prop := r = Ok (mkS (s_heap s) (s_reg s) (s_vars s ++ [v])).
