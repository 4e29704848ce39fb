From Verif Require Import Base LayerMap_Model Layers_Model.

(** every layer's id is its position *)
Definition id_is_position (ls : list layer) : Prop :=
  forall i l, nth_error ls i = Some l -> l_id l = Z.of_nat i.

(** everything about a layer but its id *)
Definition ident (l : layer) : nat * string * layer_type := (l_obj l, l_name l, l_type l).

(** the layers among [ls] that already existed when [nx] layer objects had been made, and the newer ones *)
Definition older (nx : nat) (ls : list layer) : list layer := filter (fun l => l_obj l <? nx) ls.
Definition newer (nx : nat) (ls : list layer) : list layer := filter (fun l => negb (l_obj l <? nx)) ls.

(** neighbouring layers satisfy [R] *)
Fixpoint neighbours {A} (R : A -> A -> Prop) (ls : list A) : Prop :=
  match ls with
  | a :: ((b :: _) as tl) => R a b /\ neighbours R tl
  | _ => True
  end.

(** all objects were made before [ly_next] and are different *)
Definition distinct_objects (c : layers) : Prop :=
  NoDup (map l_obj (ly_list c)) /\ forall l, In l (ly_list c) -> l_obj l < ly_next c.

(** [a] is obtained from [b] by leaving out elements *)
Inductive sublist {A} : list A -> list A -> Prop :=
| sub_nil l : sublist [] l
| sub_skip a x l : sublist a l -> sublist a (x :: l)
| sub_take x a l : sublist a l -> sublist (x :: a) (x :: l).

(** number of positions where two conducting layers follow each other directly *)
Fixpoint conducting_pairs (ls : list layer) : nat :=
  match ls with
  | a :: ((b :: _) as tl) =>
      (if is_conducting (l_type a) && is_conducting (l_type b) then 1 else 0) + conducting_pairs tl
  | _ => 0
  end.

Definition both_conducting (a b : layer) : Prop := l_type a = LConducting /\ l_type b = LConducting.

Definition no_both (a b : layer) : Prop := ~ both_conducting a b.

(** the newer layers have names different from each other and from all older ones *)
Definition names_ok (nx : nat) (L : list layer) : Prop :=
  NoDup (map l_name (newer nx L)) /\
  (forall n, In n (map l_name (newer nx L)) -> ~ In n (map l_name (older nx L))).
