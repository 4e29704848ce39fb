From Verif Require Import Base QSum Retriever_Model.

(** consecutive elements are related *)
Fixpoint chain {A} (R : A -> A -> Prop) (l : list A) : Prop :=
  match l with
  | a :: ((b :: _) as r) => R a b /\ chain R r
  | _ => True
  end.

(** every element of the first list has an [R]-image in the second, in the same order *)
Inductive thread {A} (R : A -> A -> Prop) : list A -> list A -> Prop :=
| th_nil l : thread R [] l
| th_keep a b l l' : R a b -> thread R l l' -> thread R (a :: l) (b :: l')
| th_skip b l l' : thread R l l' -> thread R l (b :: l').

(** each layer starts where the one above ends *)
Definition stacked (ls : list slayer) : Prop := chain (fun a b => sl_elev b == sl_elev a - sl_thick a) (stackup ls).

(** everything but the elevation *)
Definition static (l : slayer) : Z * string * bool * Q := (sl_id l, sl_name l, sl_stackup l, sl_thick l).

Definition distinct_ids (ls : list slayer) : Prop := NoDup (map sl_id (stackup ls)).

(** a height inside a layer: below or at its top, above its bottom *)
Definition inside (l : slayer) (h : Q) : Prop := sl_elev l - sl_thick l < h /\ h <= sl_elev l.

(** two wire points at the same integer position *)
Definition same_place (scale : Q) (a b : wpt) : Prop := fst a = fst b /\ zc scale a = zc scale b.
