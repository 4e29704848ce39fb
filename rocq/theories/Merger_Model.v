(** Merging the polygons of a layout.  src/utility/ELayoutPolygonMerger.cpp, src/collection/EPrimitiveCollection.cpp

    The polygon merger of 3rdparty/generic is the oracle [merge]: from the (net, shape) objects of one
    layer it makes the (net, shape) polygons of that layer.  The iteration order of the unordered set of
    indices to remove and of the unordered map of layers is arbitrary. *)
From Verif Require Import Base.

Section Merger.
  Context {S : Type} (valid : S -> bool).
  Context (merge : list (Z * S) -> list (Z * S)).

  (** a primitive: geometry with a shape (possibly null), or something else (text, bondwire) *)
  Record prim := mkPrim { p_layer : Z; p_net : Z; p_shape : option (option S) }.

  Inductive ltype := Conducting | Dielectric.
  Record mlayer := mkML { ml_id : Z; ml_type : ltype }.
  (** ECadSettings.h:51-57 *)
  Record msettings := mkMS { m_padstack : bool; m_dielectric : bool; m_skip_ends : bool; m_nets : list Z }.
  (** ELayoutPolygonMerger.cpp:22: m_settings(1, {}) *)
  Definition default_settings : msettings := mkMS true true false [].

  (** ELayoutPolygonMerger.cpp:27-35: the layers that get a merger *)
  Definition is_diel (l : mlayer) : bool := match ml_type l with Dielectric => true | Conducting => false end.
  Fixpoint merged_from (s : msettings) (n i : nat) (ls : list mlayer) : list Z :=
    match ls with
    | [] => []
    | l :: ls' =>
      let skip := (negb (m_dielectric s) && is_diel l) ||
                  (m_skip_ends s && is_diel l && ((i =? 0)%nat || (i =? n - 1)%nat)) in
      (if skip then [] else [ml_id l]) ++ merged_from s n (Datatypes.S i) ls'
    end.
  Definition merged_layers (s : msettings) (ls : list mlayer) : list Z := merged_from s (List.length ls) 0 ls.

  (** the merger's state after construction and SetLayoutMergeSettings (21-45): the layers were
      chosen with the default settings *)
  Record merger := mkMerger { mg_layers : list Z; mg_set : msettings }.
  Definition make_merger (ls : list mlayer) (s : msettings) : merger := mkMerger (merged_layers default_settings ls) s.

  Definition mem (z : Z) (l : list Z) : bool := existsb (Z.eqb z) l.

  (** FillOneShape, 155-197: is the shape handed to the merger of its layer? *)
  Definition fills (g : merger) (net layer : Z) (sh : option S) : bool :=
    match sh with
    | None => false
    | Some x => valid x && mem layer (mg_layers g) && (match m_nets (mg_set g) with [] => true | ns => mem net ns end)
    end.
  Definition prim_fills (g : merger) (p : prim) : bool :=
    match p_shape p with None => false | Some sh => fills g (p_net p) (p_layer p) sh end.

  (** FillPolygonsFromLayout, 62-75: indices to remove *)
  Fixpoint removed_from (g : merger) (i : nat) (ps : list prim) : list nat :=
    match ps with
    | [] => []
    | p :: ps' => (if prim_fills g p then [i] else []) ++ removed_from g (Datatypes.S i) ps'
    end.

  (** a padstack instance: net, whether its definition has data, and its shape per layer of its range *)
  Record pinst := mkPI { pi_net : Z; pi_data : bool; pi_shapes : list (Z * option S) }.

  (** the objects given to the merger of [layer] (62-96) *)
  Definition objects (g : merger) (layer : Z) (ps : list prim) (pis : list pinst) : list (Z * S) :=
    flat_map (fun p => match p_shape p with
                       | Some (Some x) => if (prim_fills g p && (p_layer p =? layer)%Z)%bool then [(p_net p, x)] else []
                       | _ => [] end) ps ++
    (if m_padstack (mg_set g) then
       flat_map (fun pi =>
         if pi_data pi then flat_map (fun '(l, sh) => match sh with
              | Some x => if (fills g (pi_net pi) l sh && (l =? layer)%Z)%bool then [(pi_net pi, x)] else []
              | None => [] end) (pi_shapes pi)
         else []) pis
     else []).

  (** FillPolygonsBackToLayout, 127-147; [layers] is the iteration order of the map of mergers *)
  Definition new_prims (g : merger) (layers : list Z) (ps : list prim) (pis : list pinst) : list prim :=
    flat_map (fun l => map (fun '(net, x) => mkPrim l net (Some (Some x))) (merge (objects g l ps pis))) layers.

  (** EPrimitiveCollection.cpp:91-97 and 52-57 *)
  Fixpoint set_at {A} (i : nat) (x : A) (l : list A) : list A :=
    match l, i with
    | [], _ => []
    | _ :: l', O => x :: l'
    | y :: l', Datatypes.S k => y :: set_at k x l'
    end.
  (** 149-152: SetPrimitive(PopBack(), i); an index that is now out of range drops the popped one *)
  Definition pop_set {A} (l : list A) (i : nat) : list A :=
    match rev l with
    | [] => []
    | t :: r => set_at i t (rev r)
    end.
  Definition remove_all {A} (order : list nat) (l : list A) : list A := fold_left pop_set order l.

  (** Merge, 47-59, without the optional picture file *)
  Definition merge_layout (ls : list mlayer) (s : msettings) (layers : list Z) (order : list nat)
    (ps : list prim) (pis : list pinst) : list prim :=
    let g := make_merger ls s in
    remove_all order (ps ++ new_prims g layers ps pis).
End Merger.
Arguments prim : clear implicits.
Arguments pinst : clear implicits.
