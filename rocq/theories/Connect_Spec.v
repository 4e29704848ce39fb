(** What it means for two objects of a layout to be connected. *)
From Coq Require Import Relations Permutation.
From Verif Require Import Base Net_Model Names_Model Connect_Model.
Local Open Scope list_scope.

Section Spec.
  Context {G : Type} (touch : G -> G -> Prop).

  (** the pieces of metal (and the labels) of a layout with the object each belongs to *)
  Definition prim_pieces (ip : nat * cprim G) : list (owner * Z * G) :=
    match snd ip with CGeom l g | CText l _ g => [(OPrim (fst ip), l, g)] | COther => [] end.
  Definition layer_range (top bot : Z) : list Z := map (fun k => top + Z.of_nat k)%Z (seq 0 (Z.to_nat (bot - top + 1))).
  Definition pad_pieces (ip : nat * cpad G) : list (owner * Z * G) :=
    flat_map (fun l => match cp_shape (snd ip) l with Some g => [(OPad (fst ip), l, g)] | None => [] end) (layer_range (cp_top (snd ip)) (cp_bot (snd ip))).
  Definition numbered {A} (l : list A) : list (nat * A) := combine (seq 0 (List.length l)) l.
  Definition pieces (prims : list (cprim G)) (pads : list (cpad G)) : list (owner * Z * G) :=
    flat_map prim_pieces (numbered prims) ++ flat_map pad_pieces (numbered pads).

  (** neighbouring layers of the stack-up *)
  Definition next_to (stack : list Z) (a b : Z) : Prop := exists l r, stack = l ++ a :: b :: r.
  (** two pieces that touch, on the same or on neighbouring layers *)
  Definition joined (stack : list Z) (P : list (owner * Z * G)) (i j : nat) : Prop :=
    exists o1 l1 g1 o2 l2 g2, nth_error P i = Some (o1, l1, g1) /\ nth_error P j = Some (o2, l2, g2) /\
      (l1 = l2 \/ next_to stack l1 l2 \/ next_to stack l2 l1) /\ touch g1 g2.
  Definition connected (stack : list Z) (P : list (owner * Z * G)) : nat -> nat -> Prop := clos_refl_sym_trans nat (joined stack P).

  (** the first piece of an object *)
  Definition first_piece (P : list (owner * Z * G)) (o : owner) (i : nat) : Prop :=
    (exists l g, nth_error P i = Some (o, l, g)) /\ (forall j l g, nth_error P j = Some (o, l, g) -> i <= j).

  (** the text of a piece *)
  Definition text_of (prims : list (cprim G)) (P : list (owner * Z * G)) (i : nat) (t : string) : Prop :=
    exists k l g, nth_error P i = Some (OPrim k, l, g) /\ nth_error prims k = Some (CText l t g).

  (** contract of the extractor: the components of the graph whose edges join touching objects of the same or of
      linked layers *)
  Definition component_contract (components : list (Z * Z) -> list (Z * G) -> list (list nat)) : Prop :=
    forall ls os,
      let edge i j := exists l1 g1 l2 g2, nth_error os i = Some (l1, g1) /\ nth_error os j = Some (l2, g2) /\
                      (l1 = l2 \/ In (l1, l2) ls \/ In (l2, l1) ls) /\ touch g1 g2 in
      Permutation (List.concat (components ls os)) (seq 0 (List.length os)) /\
      ~ In [] (components ls os) /\
      forall i j, i < List.length os -> j < List.length os ->
        ((exists c, In c (components ls os) /\ In i c /\ In j c) <-> clos_refl_sym_trans nat edge i j).
End Spec.
