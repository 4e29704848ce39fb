(** ELayerCollection: the ordered layers of a layout. *)
From Verif Require Import Base Names_Model LayerMap_Model.

(** src/basic/ECadCommon.h ELayerType, reduced to what the collection looks at *)
Inductive layer_type := LConducting | LDielectric | LOther.
Definition is_conducting (t : layer_type) : bool := match t with LConducting => true | _ => false end.

(** src/design/ELayer.cpp:23-33 – a layer object (identified by [l_obj]) with name, type and id. *)
Record layer := mkLayer { l_obj : nat; l_name : string; l_type : layer_type; l_id : Z }.

Definition with_id (l : layer) (i : Z) : layer := mkLayer (l_obj l) (l_name l) (l_type l) i.

(** the vector of layers and the number of layer objects allocated so far *)
Record layers := mkLayers { ly_list : list layer; ly_next : nat }.
Definition ly_init : layers := mkLayers [] 0.

(** ELayerCollection.cpp:41-47 – AppendLayer of a layer with the given name and type *)
Definition append_layer (c : layers) (n : string) (t : layer_type) : layers * Z :=
  let id := Z.of_nat (List.length (ly_list c)) in
  (mkLayers (ly_list c ++ [with_id (mkLayer (ly_next c) n t noLayer) id]) (S (ly_next c)), id).

(** ELayerCollection.cpp:49-55 – AppendLayers *)
Fixpoint append_layers (c : layers) (ls : list (string * layer_type)) : layers * list Z :=
  match ls with
  | [] => (c, [])
  | (n, t) :: ls' =>
      let (c1, i) := append_layer c n t in
      let (c2, is) := append_layers c1 ls' in (c2, i :: is)
  end.

(** ELayerCollection.cpp:111-116 – FindLayerByLayerId; a negative id becomes a huge size_t. *)
Definition find_layer_by_id (c : layers) (i : Z) : option layer :=
  if (i <? 0)%Z then None else nth_error (ly_list c) (Z.to_nat i).

(** ELayerCollection.cpp:118-125 – FindLayerByName: first match *)
Definition find_layer_by_name (c : layers) (n : string) : option layer :=
  find (fun l => String.eqb n (l_name l)) (ly_list c).

(** ELayerCollection.cpp:61-69 – the loop of AddDefaultDielectricLayers.  [done] is what precedes [curr],
    [rest] starts at [next].  The name is generated against the whole collection as it is then. *)
Fixpoint add_diel (done : list layer) (curr : layer) (rest : list layer) (nx : nat) : res (list layer * nat) :=
  match rest with
  | [] => Ok (done ++ [curr], nx)
  | next :: rest' =>
      if is_conducting (l_type curr) && is_conducting (l_type next) then
        let names := map l_name (done ++ curr :: rest) in
        bind (get_next_layer_name (S (List.length names)) names "Dielectric") (fun n =>
          add_diel (done ++ [curr; mkLayer nx n LDielectric noLayer]) next rest' (S nx))
      else add_diel (done ++ [curr]) next rest' nx
  end.

(** ELayerCollection.cpp:144-156 – MakeLayerIdOrdered *)
Fixpoint make_ordered (i : nat) (ls : list layer) (m : lmap) : list layer * lmap :=
  match ls with
  | [] => ([], m)
  | l :: ls' =>
      let m' := if (l_id l =? noLayer)%Z then m else set_mapping (l_id l, Z.of_nat i) m in
      let (r, m'') := make_ordered (S i) ls' m' in
      (with_id l (Z.of_nat i) :: r, m'')
  end.

(** ELayerCollection.cpp:57-71 – AddDefaultDielectricLayers; [next++] on the end iterator of an empty
    vector is undefined. *)
Definition add_default_dielectrics (c : layers) : res (layers * lmap) :=
  match ly_list c with
  | [] => UB
  | l :: ls =>
      bind (add_diel [] l ls (ly_next c)) (fun p =>
        let (r, m) := make_ordered 0 (fst p) lm_new in
        Ok (mkLayers r (snd p), m))
  end.

(** ELayerCollection.cpp:73-81 – GetDefaultLayerMap *)
Definition default_layer_map (c : layers) : lmap :=
  fold_left (fun m l => set_mapping (l_id l, l_id l) m) (ly_list c) lm_new.

Inductive layer_op :=
| AppendLayer (n : string) (t : layer_type)
| AppendLayers (ls : list (string * layer_type))
| AddDefaultDielectricLayers.

Inductive layer_out := OIds (ids : list Z) | OMap (m : lmap).

Definition layer_step (c : layers) (o : layer_op) : res (layers * layer_out) :=
  match o with
  | AppendLayer n t => let (c', i) := append_layer c n t in Ok (c', OIds [i])
  | AppendLayers ls => let (c', is) := append_layers c ls in Ok (c', OIds is)
  | AddDefaultDielectricLayers =>
      bind (add_default_dielectrics c) (fun p => Ok (fst p, OMap (snd p)))
  end.

Fixpoint layer_run (c : layers) (ops : list layer_op) : res (layers * list layer_out) :=
  match ops with
  | [] => Ok (c, [])
  | o :: ops' =>
      bind (layer_step c o) (fun p => bind (layer_run (fst p) ops') (fun q => Ok (fst q, snd p :: snd q)))
  end.
