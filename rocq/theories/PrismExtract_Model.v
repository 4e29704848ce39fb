(** Extraction of prism elements from a layer cut model.
    src/model/geometry/utils/ELayerCutModelQuery.cpp, src/extraction/thermal/EThermalModelExtraction.cpp:207-260, 343-435
    (the part that makes the elements; their neighbours are in Prism_Model).

    Points and polygons are abstract: a polygon is its area, its membership test and the test of its bounding box
    (3rdparty/generic), the mesh of a layer is a list of triangles with centre and area.  The std::priority_queue
    of polygon indices ordered by area is any function that answers a smallest one ([pq_top], contract in
    PrismExtract_Spec); whether two layers share one vector of indices is the oracle [shared]. *)
From Verif Require Import Base QSum LayerCut_Model.
Open Scope res_scope.

Section Extract.
  Context {pt table : Type}.
  (** A polygon of the layer cut model with its material, net, heights and power block. *)
  Record pdata := mkPD { p_area : Q; p_in : pt -> bool; p_box : pt -> bool; p_mat : Z; p_net : Z; p_range : lrange;
                         p_block : option (lrange * Z * table) }.
  Definition noMaterial : Z := -1.
  (** What BuildLayerPolygonLUT looks at. *)
  Definition shape_of (p : pdata) : shape :=
    mkS (p_range p) (negb (p_mat p =? noMaterial)%Z) (option_map (fun b => fst (fst b)) (p_block p)).

  Context (pq_top : list nat -> option nat) (shared : nat -> bool).

  (** ** ELayerCutModelQuery *)
  (** The constructor, ELayerCutModelQuery.cpp:7-22: one tree per layer, that of the layer above if the index vectors
      are the same object. *)
  Fixpoint make_trees (m : lcm) (lyrs : list nat) (trees : list (nat * list nat)) : res (list (nat * list nat)) :=
    match lyrs with
    | [] => Ok trees
    | lyr :: lyrs' =>
      match layer_polygons m lyr with
      | None => Throw
      | Some v =>
        t <- (if ((0 <? lyr)%nat && shared lyr)%bool
              then match alookup Nat.eqb (lyr - 1)%nat trees with Some t => Ok t | None => Throw end
              else Ok v) ;;
        make_trees m lyrs' (aemplace Nat.eqb lyr t trees)
      end
    end.
  (** TotalLayers() wraps around without heights; the first .at() throws then. *)
  Definition make_query (m : lcm) : res (list (nat * list nat)) :=
    match l_order m with
    | [] => Throw
    | _ => make_trees m (seq 0 (total_layers (l_order m))) []
    end.

  (** SearchPolygon, 24-41 *)
  Definition hit (ps : list pdata) (f : pdata -> pt -> bool) (x : pt) (i : nat) : bool :=
    match nth_error ps i with Some p => f p x | None => false end.
  Definition search (ps : list pdata) (m : lcm) (trees : list (nat * list nat)) (lyr : nat) (x : pt) : res (option nat) :=
    match layer_polygons m lyr with
    | None => Ok None
    | Some _ =>
      match alookup Nat.eqb lyr trees with
      | None => Throw
      | Some t =>
        match filter (hit ps p_box x) t with
        | [] => Ok None
        | results => Ok (pq_top (filter (hit ps p_in x) results))
        end
      end
    end.

  (** ** Elements of a layer, EThermalModelExtraction.cpp:228-256 and 398-426 *)
  Record tri := mkTri { t_center : pt; t_area : Q }.
  Record element := mkEl { x_id : nat; x_tid : nat; x_mat : Z; x_net : Z; x_power : option (Q * (Z * table)) }.

  Definition power_of (m : lcm) (lyr : nat) (p : pdata) (t : tri) : option (Q * (Z * table)) :=
    match p_block p with
    | Some (r, scen, lut) =>
      match layer_by_height m (hi r) with
      | Some l => if (lyr =? l)%nat then Some (t_area t / p_area p, (scen, lut)) else None
      | None => None
      end
    | None => None
    end.
  Fixpoint build_layer (ps : list pdata) (m : lcm) (trees : list (nat * list nat)) (fluids : list Z) (lyr : nat)
           (ts : list tri) (it : nat) (acc : list element) : res (list element) :=
    match ts with
    | [] => Ok acc
    | t :: ts' =>
      r <- search ps m trees lyr (t_center t) ;;
      match r with
      | None => build_layer ps m trees fluids lyr ts' (S it) acc
      | Some pid =>
        match nth_error ps pid with
        | None => Throw
        | Some p =>
          if existsb (Z.eqb (p_mat p)) fluids then build_layer ps m trees fluids lyr ts' (S it) acc
          else if (p_mat p =? noMaterial)%Z then build_layer ps m trees fluids lyr ts' (S it) acc
          else build_layer ps m trees fluids lyr ts' (S it)
                 (acc ++ [mkEl (List.length acc) it (p_mat p) (p_net p) (power_of m lyr p t)])
        end
      end
    end.
  (** All layers, 258-259; [mesh] is the triangulation of every layer. *)
  Fixpoint build_layers (ps : list pdata) (m : lcm) (trees : list (nat * list nat)) (fluids : list Z) (mesh : nat -> list tri)
           (lyrs : list nat) : res (list (list element)) :=
    match lyrs with
    | [] => Ok []
    | l :: ls =>
      es <- build_layer ps m trees fluids l (mesh l) 0 [] ;;
      r <- build_layers ps m trees fluids mesh ls ;;
      Ok (es :: r)
    end.
  Definition extract (ps : list pdata) (m : lcm) (fluids : list Z) (mesh : nat -> list tri) : res (list (list element)) :=
    trees <- make_query m ;;
    build_layers ps m trees fluids mesh (seq 0 (total_layers (l_order m))).

  (** ** Solder joints of a bond wire, EGeometryModelExtraction.cpp:57-90, as polygons of the layer cut model; the branch
      for the end of the wire (83-86) has no else.  AddPowerBlock is ELayerCutModelBuilder.cpp:46-54. *)
  Definition solder_joint (at_end : bool) (current scale elevation thickness area : Q) (inp box : pt -> bool) (mat net scen : Z) (lut : table)
    : list pdata :=
    let r := get_range scale elevation thickness in
    let block := mkPD area inp box mat (-1) r (Some (power_range scale elevation thickness (1#2) (1#10), scen, lut)) in
    let plain := mkPD area inp box mat net r None in
    if r_valid r then
      if ThermalNetwork_Model.Qltb 0 current then block :: (if at_end then [plain] else []) else [plain]
    else [].

  (** ** The meshes of a stack-up prism model, EThermalModelExtraction.cpp:343-364: the polygons each mesh is made of,
      and the mesh of each layer.  [polys l] are the polygons of layer [l]. *)
  Fixpoint make_meshes {P} (imprint : bool) (polys : nat -> list P) (lyrs : list nat) (done : list (list P)) (idx : list (nat * nat))
    : list (list P) * list (nat * nat) :=
    match lyrs with
    | [] => (done, idx)
    | i :: ls =>
      let done' := if shared i then done
                   else done ++ [polys i ++ (if imprint then last done [] else [])] in
      make_meshes imprint polys ls done' (aemplace Nat.eqb i (List.length done' - 1)%nat idx)
    end.
  Definition meshes {P} (imprint : bool) (polys : nat -> list P) (n : nat) : list (list P) * list (nat * nat) :=
    make_meshes imprint polys (seq 1 (n - 1)) [polys 0%nat] [(0, 0)%nat].
End Extract.
Arguments pdata : clear implicits.
Arguments tri : clear implicits.
Arguments element : clear implicits.
