(** ELayoutMergeUtility::Merge: copying the (flattened) definition of an instance into a layout. *)
From Verif Require Import Base Names_Model Net_Model Bondwire_Model.

(** src/basic/ECadDef.h – ENetId::noNet *)
Definition noNet : Z := -1.

Section Merge.
  (** G: geometry of a primitive, D: remaining data of a component or padstack instance.  [mv_geo], [mv_pt], [mv_data]:
      applying the instance's transform to them (oracles, see Transform_Model.v).  [forward]: the layer map of the
      instance, or the default map of the target layout (ELayoutMergeUtility.cpp:31-35, LayerMap_Model.v).
      [is_flipped]: IComponent::isFlipped. *)
  Context {G D : Type}.

  (** a component pointer: the layout owning it and its key there *)
  Definition cptr : Type := (nat * string)%type.

  Context (mv_geo : G -> G) (mv_pt : Z * Z -> Z * Z) (mv_data : D -> D) (forward : Z -> Z)
          (is_flipped : cptr -> bool).

  (** src/design/EComponent.h:50-53, EHierarchyObj.h (name, reference layout, transform) *)
  Record comp := mkComp { c_name : string; c_ref : nat; c_layer : Z; c_data : D }.

  (** src/design/EPrimitive.h:39-40, 62-153; [Geo] and [Txt] have a layer, a bondwire's layer is its start layer *)
  Inductive body :=
  | Geo (layer : Z) (g : G)
  | Txt (layer : Z) (g : G)
  | Bw (b : bondwire cptr).
  Record prim := mkPrim { p_net : Z; p_body : body }.

  (** src/design/EPadstackInst.h *)
  Record psinst := mkPs { ps_net : Z; ps_top : Z; ps_bot : Z; ps_data : D }.

  Record layout := mkLay {
    y_id : nat;
    y_nets : netcoll;
    y_comps : list (string * comp);
    y_prims : list prim;
    y_ps : list psinst
  }.

  (** ELayoutMergeUtility.cpp:17-18 *)
  Definition hier_name (prefix sep name : string) : string := (prefix ++ sep ++ name)%string.

  (** ELayoutMergeUtility.cpp:20-29; the nets of the other layout in iteration order *)
  Fixpoint merge_nets (prefix sep : string) (nets : list net) (tgt : netcoll) (m : list (Z * Z))
    : res (netcoll * list (Z * Z)) :=
    match nets with
    | [] => Ok (tgt, m)
    | x :: nets' =>
        bind (nc_add tgt (hier_name prefix sep (net_name x))) (fun p =>
          match snd p with
          | None => UB      (* added->GetNetId() on a null pointer *)
          | Some y => merge_nets prefix sep nets' (fst p) (aemplace Z.eqb (net_id x) (net_id y) m)
          end)
    end.

  (** src/collection/EComponentCollection.cpp:39-49 *)
  Definition add_comp (cs : list (string * comp)) (c : comp) : res (list (string * comp) * string) :=
    bind (next_key (S (List.length cs)) (fun n => acount String.eqb n cs) (c_name c)) (fun n =>
      Ok (aemplace String.eqb n (mkComp n (c_ref c) (c_layer c) (c_data c)) cs, n)).

  (** ELayoutMergeUtility.cpp:47-56; the clone keeps its reference layout.  The map goes from keys of the other layout to
      keys of this one. *)
  Fixpoint merge_comps (prefix sep : string) (others : list (string * comp)) (tgt : list (string * comp))
           (m : list (string * string)) : res (list (string * comp) * list (string * string)) :=
    match others with
    | [] => Ok (tgt, m)
    | (k, c) :: others' =>
        bind (add_comp tgt (mkComp (hier_name prefix sep (c_name c)) (c_ref c) (forward (c_layer c)) (mv_data (c_data c))))
          (fun p => merge_comps prefix sep others' (fst p) (aemplace String.eqb k (snd p) m))
    end.

  (** ELayoutMergeUtility.cpp:63-65, 103-105 *)
  Definition map_net (m : list (Z * Z)) (n : Z) : Z :=
    match alookup Z.eqb n m with Some n' => n' | None => noNet end.

  (** EBondwire::Transform, src/design/EPrimitive.cpp – the stored locations *)
  Definition mv_end (e : wend cptr) : wend cptr := mkEnd (e_layer e) (e_comp e) (e_pin e) (mv_pt (e_loc e)) (e_flip e).

  (** ELayoutMergeUtility.cpp:82-85 *)
  Definition remap_end (idB idA : nat) (cm : list (string * string)) (e : wend cptr) : wend cptr :=
    match e_comp e with
    | Some (o, k) =>
        if (o =? idB)%nat
        then match alookup String.eqb k cm with
             | Some k' => set_component e (Some (idA, k')) (e_pin e)
             | None => e
             end
        else e
    | None => e
    end.

  (** ELayoutMergeUtility.cpp:76-87, after [clone->SetLayer] of line 68 *)
  Definition merge_bondwire (idB idA : nat) (cm : list (string * string)) (b : bondwire cptr) : res (bondwire cptr) :=
    let b0 := mkBw (raw_set_layer (b_start b) (forward (e_layer (b_start b)))) (b_end b) in
    let b1 := mkBw (mv_end (b_start b0)) (mv_end (b_end b0)) in
    bind (get_layer is_flipped (b_end b1)) (fun p =>
      let e1 := if (fst p =? ComponentLayer)%Z then b_end b1 else set_layer (b_end b1) (forward (fst p)) in
      Ok (mkBw (remap_end idB idA cm (b_start b1)) (remap_end idB idA cm e1))).

  (** ELayoutMergeUtility.cpp:60-97 *)
  Definition merge_prim (idB idA : nat) (nm : list (Z * Z)) (cm : list (string * string)) (p : prim) : res prim :=
    let n := map_net nm (p_net p) in
    match p_body p with
    | Geo l g => Ok (mkPrim n (Geo (forward l) (mv_geo g)))
    | Txt l g => Ok (mkPrim n (Txt (forward l) (mv_geo g)))
    | Bw b => bind (merge_bondwire idB idA cm b) (fun b' => Ok (mkPrim n (Bw b')))
    end.

  Fixpoint merge_prims (idB idA : nat) (nm : list (Z * Z)) (cm : list (string * string)) (l acc : list prim)
    : res (list prim) :=
    match l with
    | [] => Ok acc
    | p :: l' => bind (merge_prim idB idA nm cm p) (fun p' => merge_prims idB idA nm cm l' (acc ++ [p']))
    end.

  (** ELayoutMergeUtility.cpp:99-114; the layer range is left as it is ("todo, Layermap") *)
  Definition merge_ps (nm : list (Z * Z)) (s : psinst) : psinst :=
    mkPs (map_net nm (ps_net s)) (ps_top s) (ps_bot s) (mv_data (ps_data s)).

  (** ELayoutMergeUtility.cpp:8-118 for layout <> other, without the (empty after flattening) cell instances *)
  Definition merge (prefix sep : string) (A B : layout) : res layout :=
    bind (merge_nets prefix sep (map snd (nc_map (y_nets B))) (y_nets A) (aemplace Z.eqb noNet noNet [])) (fun pn =>
      bind (merge_comps prefix sep (y_comps B) (y_comps A) []) (fun pc =>
        bind (merge_prims (y_id B) (y_id A) (snd pn) (snd pc) (y_prims B) (y_prims A)) (fun ps =>
          Ok (mkLay (y_id A) (fst pn) (fst pc) ps (y_ps A ++ map (merge_ps (snd pn)) (y_ps B)))))).
End Merge.
Arguments comp : clear implicits.
Arguments body : clear implicits.
Arguments prim : clear implicits.
Arguments psinst : clear implicits.
Arguments layout : clear implicits.
