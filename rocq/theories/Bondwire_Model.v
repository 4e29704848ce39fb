(** Bondwire endpoints, src/design/EPrimitive.{h,cpp}.  Components are opaque values of type C with two oracles:
    isFlipped and GetPinLocation. *)
From Verif Require Import Base.

Definition ComponentLayer : Z := -10.
Definition noLayer : Z := -1.

Section Bondwire.
  Context {C : Type} (is_flipped : C -> bool) (pin_location : C -> string -> option (Z * Z)).

  (** one end: EPrimitive.h:130-134 (for the start the layer is EPrimitive::m_layer) *)
  Record wend := mkEnd { e_layer : Z; e_comp : option C; e_pin : string; e_loc : Z * Z; e_flip : bool }.
  Record bondwire := mkBw { b_start : wend; b_end : wend }.

  (** EPrimitive.cpp:217-221 and EPrimitive.h:130-134 *)
  Definition end_new : wend := mkEnd noLayer None "" (0, 0)%Z false.
  Definition bw_new : bondwire := mkBw end_new end_new.

  (** EPrimitive.cpp:283-288, 303-308 *)
  Definition set_layer (e : wend) (l : Z) : wend := mkEnd l None "" (e_loc e) (e_flip e).
  (** EPrimitive.cpp:276-281, 296-301 *)
  Definition set_layer_at (e : wend) (l : Z) (p : Z * Z) (f : bool) : wend :=
    set_layer (mkEnd (e_layer e) (e_comp e) (e_pin e) p f) l.
  (** EPrimitive.cpp:346-351, 358-363; a null pointer is None *)
  Definition set_component (e : wend) (c : option C) (pin : string) : wend :=
    mkEnd ComponentLayer c pin (e_loc e) (e_flip e).
  (** EPrimitive::SetLayer through IPrimitive (used by EPrimitiveCollection::Map, EPrimitiveCollection.cpp:78-84):
      only the start's layer id *)
  Definition raw_set_layer (e : wend) (l : Z) : wend := mkEnd l (e_comp e) (e_pin e) (e_loc e) (e_flip e).

  (** EPrimitive.cpp:290-294, 310-314 with a non-null [flipped] argument *)
  Definition get_layer (e : wend) : res (Z * bool) :=
    if (ComponentLayer =? e_layer e)%Z
    then match e_comp e with None => UB | Some c => Ok (e_layer e, is_flipped c) end
    else Ok (e_layer e, e_flip e).

  (** EPrimitive.cpp:248-264 *)
  Definition get_pt (e : wend) : Z * Z :=
    match e_comp e with
    | Some c =>
        if String.eqb (e_pin e) "" then e_loc e
        else match pin_location c (e_pin e) with Some p => p | None => e_loc e end
    | None => e_loc e
    end.

  Inductive bw_op :=
  | StartLayer (l : Z) | StartLayerAt (l : Z) (p : Z * Z) (f : bool) | StartComponent (c : option C) (pin : string)
  | EndLayer (l : Z) | EndLayerAt (l : Z) (p : Z * Z) (f : bool) | EndComponent (c : option C) (pin : string)
  | PrimitiveLayer (l : Z).

  Definition bw_step (b : bondwire) (o : bw_op) : bondwire :=
    match o with
    | StartLayer l => mkBw (set_layer (b_start b) l) (b_end b)
    | StartLayerAt l p f => mkBw (set_layer_at (b_start b) l p f) (b_end b)
    | StartComponent c pin => mkBw (set_component (b_start b) c pin) (b_end b)
    | EndLayer l => mkBw (b_start b) (set_layer (b_end b) l)
    | EndLayerAt l p f => mkBw (b_start b) (set_layer_at (b_end b) l p f)
    | EndComponent c pin => mkBw (b_start b) (set_component (b_end b) c pin)
    | PrimitiveLayer l => mkBw (raw_set_layer (b_start b) l) (b_end b)
    end.
  Definition bw_run (ops : list bw_op) : bondwire := fold_left bw_step ops bw_new.
End Bondwire.
Arguments wend : clear implicits.
Arguments bondwire : clear implicits.
Arguments bw_op : clear implicits.
