From Verif Require Import Base Bondwire_Model.

(** where an end is placed, as a user describes it *)
Inductive place (C : Type) := AtPin (c : C) (pin : string) | AtLayer (l : Z).
Arguments AtPin {C} c pin.
Arguments AtLayer {C} l.

(** placement plus the last explicit location and flip *)
Record aend (C : Type) := mkA { a_place : place C; a_loc : Z * Z; a_flip : bool }.
Arguments mkA {C}. Arguments a_place {C}. Arguments a_loc {C}. Arguments a_flip {C}.

Section S.
  Context {C : Type} (is_flipped : C -> bool) (pin_location : C -> string -> option (Z * Z)).

  Definition a_new : aend C := mkA (AtLayer noLayer) (0, 0)%Z false.

  (** the effect of one call on the start (left) or the end (right) *)
  Definition a_step (s : aend C * aend C) (o : bw_op C) : aend C * aend C :=
    let (a, b) := s in
    match o with
    | StartLayer l => (mkA (AtLayer l) (a_loc a) (a_flip a), b)
    | StartLayerAt l p f => (mkA (AtLayer l) p f, b)
    | StartComponent (Some c) pin => (mkA (AtPin c pin) (a_loc a) (a_flip a), b)
    | EndLayer l => (a, mkA (AtLayer l) (a_loc b) (a_flip b))
    | EndLayerAt l p f => (a, mkA (AtLayer l) p f)
    | EndComponent (Some c) pin => (a, mkA (AtPin c pin) (a_loc b) (a_flip b))
    | _ => s
    end.
  Definition a_run (ops : list (bw_op C)) : aend C * aend C := fold_left a_step ops (a_new, a_new).

  (** calls that place an end properly: a real component, or a real layer *)
  Definition proper (o : bw_op C) : Prop :=
    match o with
    | StartLayer l | StartLayerAt l _ _ | EndLayer l | EndLayerAt l _ _ => l <> ComponentLayer
    | StartComponent c _ | EndComponent c _ => c <> None
    | PrimitiveLayer _ => False
    end.

  (** what the queries must answer *)
  Definition a_layer (a : aend C) : Z * bool :=
    match a_place a with AtPin c _ => (ComponentLayer, is_flipped c) | AtLayer l => (l, a_flip a) end.
  Definition a_pt (a : aend C) : Z * Z :=
    match a_place a with
    | AtPin c pin => if String.eqb pin "" then a_loc a
                     else match pin_location c pin with Some p => p | None => a_loc a end
    | AtLayer _ => a_loc a
    end.
  Definition a_comp (a : aend C) : option C := match a_place a with AtPin c _ => Some c | AtLayer _ => None end.
End S.
