(** Building a layer cut model from a layout.
    src/extraction/geometry/EGeometryModelExtraction.cpp, src/model/geometry/utils/ELayerCutModelBuilder.cpp

    Polygons, points, tables of losses and the paths of bond wires are abstract.  What the retriever and the
    database answer (heights, materials by name, pad shapes) is part of the input, [None] standing for a failed query;
    those functions have models of their own (Retriever_Model, PadInst_Model, BondPath_Model).  A failed ECAD_ASSERT
    throws.  The table of the losses of a solder joint is an input too, with the outcome of its computation
    (EGeometryModelExtraction.cpp:63-66, 77-80).  The boundaries of layout and components and the shape of a solder
    joint exist: a joint has no shape only without a material name or if the wire has no path, and then the code has
    thrown before (ELayoutRetriever.cpp:178-200). *)
From Verif Require Import Base QSum ThermalNetwork_Model LayerCut_Model.
Open Scope res_scope.

Definition noNet : Z := (-1)%Z.
Definition noMaterial : Z := (-1)%Z.

Section Cut.
  Context {poly point table path : Type} (ccw : poly -> bool) (reverse : poly -> poly).

  (** EShape: the centre of a circle, contour and holes.  src/basic/EShape.h; only polygons with holes have holes *)
  Record sshape := mkSh { sh_center : option point; sh_outline : poly; sh_holes : list poly }.
  (** ELayerCutModel::Bondwire, ELayerCutModel.h:60-83; points and heights are the path *)
  Record bwire := mkBW { bw_net : Z; bw_radius : Q; bw_mat : Z; bw_current : Q; bw_scen : Z; bw_path : path }.
  (** ELayerCutModel.h:121-128 *)
  Record cut := mkCut { c_nets : list Z; c_ranges : list lrange; c_wires : list bwire; c_mats : list Z; c_polys : list poly;
                        c_points : list point; c_blocks : list (nat * (lrange * Z * table)) }.
  Definition cut_init : cut := mkCut [] [] [] [] [] [] [].

  (** the precision and the setting addCircleCenterAsSteinerPoint *)
  Context (scale : Q) (steiner : bool).

  (** ELayerCutModelBuilder.cpp:33-43; [None] is invalidIndex *)
  Definition add_polygon (net mat : Z) (p : poly) (hole : bool) (elev thk : Q) (m : cut) : cut * option nat :=
    let r := get_range scale elev thk in
    if r_valid r then
      let p := if Bool.eqb hole (ccw p) then reverse p else p in
      (mkCut (c_nets m ++ [net]) (c_ranges m ++ [r]) (c_wires m) (c_mats m ++ [mat]) (c_polys m ++ [p]) (c_points m) (c_blocks m),
       Some (List.length (c_polys m ++ [p]) - 1)%nat)
    else (m, None).

  (** 16-31 *)
  Definition add_shape (net solid hole : Z) (s : sshape) (elev thk : Q) (m : cut) : cut :=
    let m := if steiner then match sh_center s with
                             | Some c => mkCut (c_nets m) (c_ranges m) (c_wires m) (c_mats m) (c_polys m) (c_points m ++ [c]) (c_blocks m)
                             | None => m end else m in
    match sh_holes s with
    | [] => fst (add_polygon net solid (sh_outline s) false elev thk m)
    | hs => fold_left (fun m h => fst (add_polygon net hole h true elev thk m)) hs
              (fst (add_polygon net solid (sh_outline s) false elev thk m))
    end.

  (** 45-53 *)
  Definition add_power_block (mat : Z) (p : poly) (scen : Z) (power : table) (elev thk pos pth : Q) (m : cut) : cut :=
    let '(m, i) := add_polygon noNet mat p false elev thk m in
    match i with
    | None => m
    | Some i => mkCut (c_nets m) (c_ranges m) (c_wires m) (c_mats m) (c_polys m) (c_points m)
                      (aemplace Nat.eqb i (power_range scale elev thk pos pth, scen, power) (c_blocks m))
    end.

  (** a component: contour of the boundary, material, height and thickness, scenario and table of the losses if it
      has any, height and thickness of the solder, filling material *)
  Record comp := mkComp { cp_contour : poly; cp_mat : option Z; cp_height : option (Q * Q); cp_power : option (Z * table);
                          cp_solder : option (Q * Q); cp_filling : option Z }.
  (** 55-76 *)
  Definition add_component (m : cut) (c : comp) : res cut :=
    match cp_mat c with
    | None => Throw
    | Some mat =>
      match cp_height c with
      | None => Throw
      | Some (e, t) =>
        let m := match cp_power c with
                 | Some (scen, power) => add_power_block mat (cp_contour c) scen power e t (1#10) (1#10) m
                 | None => fst (add_polygon noNet mat (cp_contour c) false e t m)
                 end in
        match cp_solder c with
        | None => Throw
        | Some (e, t) =>
          if Qltb 0 t then
            match cp_filling c with
            | None => Throw
            | Some mat => Ok (fst (add_polygon noNet mat (cp_contour c) false e t m))
            end
          else Ok m
        end
      end
    end.
  Fixpoint add_components (m : cut) (cs : list comp) : res cut :=
    match cs with [] => Ok m | c :: cs' => m' <- add_component m c ;; add_components m' cs' end.

  (** 82-88: a box without a range *)
  Definition add_imprint_box (m : cut) (p : poly) : cut :=
    mkCut (c_nets m ++ [noNet]) (c_ranges m ++ [mkR (- (2 ^ 31 - 1)) (2 ^ 31 - 1)]) (c_wires m) (c_mats m ++ [noMaterial]) (c_polys m ++ [p])
          (c_points m) (c_blocks m).

  (** EGeometryModelExtraction.cpp:27-31: the layers of the stack-up, with dielectric material, height and thickness *)
  Fixpoint add_stackup (boundary : sshape) (m : cut) (ls : list (option Z * option (Q * Q))) : res cut :=
    match ls with
    | [] => Ok m
    | (mat, range) :: ls' =>
      match mat, range with
      | Some mat, Some (e, t) => add_stackup boundary (add_shape noNet mat noMaterial boundary e t m) ls'
      | _, _ => Throw
      end
    end.

  (** a solder joint: shape, height and thickness, material, table of the losses *)
  Record joint := mkJoint { j_shape : sshape; j_elev : Q; j_thick : Q; j_mat : option Z; j_heat : res table }.
  (** a bond wire; the solder joints are [None] without a padstack, [Some None] if the padstack has no data *)
  Record wire := mkWire { w_net : Z; w_radius : Q; w_mat : option Z; w_current : Q; w_scen : Z; w_path : option path;
                          w_joints : option (option (option joint * option joint)) }.
  (** 58-70 and 72-84: at the end of the wire the shape is added in any case, at the start only without a current *)
  Definition add_joint (at_end : bool) (w : wire) (j : option joint) (m : cut) : res cut :=
    match j with
    | None => Ok m
    | Some j =>
      match j_mat j with
      | None => Throw
      | Some mat =>
        if Qltb 0 (w_current w) then
          power <- j_heat j ;;
          let m := add_power_block mat (sh_outline (j_shape j)) (w_scen w) power (j_elev j) (j_thick j) (1#2) (1#10) m in
          Ok (if at_end then add_shape (w_net w) mat noMaterial (j_shape j) (j_elev j) (j_thick j) m else m)
        else Ok (add_shape (w_net w) mat noMaterial (j_shape j) (j_elev j) (j_thick j) m)
      end
    end.
  (** 46-85 *)
  Definition add_wire (w : wire) (m : cut) : res cut :=
    match w_path w, w_mat w with
    | Some p, Some mat =>
      let m := mkCut (c_nets m) (c_ranges m) (c_wires m ++ [mkBW (w_net w) (w_radius w) mat (w_current w) (w_scen w) p]) (c_mats m) (c_polys m)
                     (c_points m) (c_blocks m) in
      match w_joints w with
      | None => Ok m
      | Some None => UB
      | Some (Some (top, bot)) => m <- add_joint false w top m ;; add_joint true w bot m
      end
    | _, _ => Throw
    end.

  Inductive prim := PWire (w : wire) | PGeom (net lyr : Z) (s : sshape) | PText.
  (** the caches layerMaterialMap and layerElevationThicknessMap, lines 41-42, with their use in 90-101 and 102-108 *)
  Definition mcache := list (Z * (Z * Z)).
  Definition hcache := list (Z * (Q * Q)).
  (** [mats] are the ids of the conducting and dielectric material of a layer, [None] if it is no stack-up layer or a
      material is unknown; [heights] is GetLayerHeightThickness *)
  Context (mats : Z -> option (Z * Z)) (heights : Z -> option (Q * Q)).
  Definition cached_mats (c : mcache) (l : Z) : res (Z * Z * mcache) :=
    match alookup Z.eqb l c with
    | Some x => Ok (x, c)
    | None => match mats l with Some x => Ok (x, aemplace Z.eqb l x c) | None => Throw end
    end.
  Definition cached_height (c : hcache) (l : Z) : res (Q * Q * hcache) :=
    match alookup Z.eqb l c with
    | Some x => Ok (x, c)
    | None => match heights l with Some x => Ok (x, aemplace Z.eqb l x c) | None => Throw end
    end.

  (** 43-111 *)
  Fixpoint add_prims (m : cut) (mc : mcache) (hc : hcache) (ps : list prim) : res (cut * hcache) :=
    match ps with
    | [] => Ok (m, hc)
    | PWire w :: ps' => m' <- add_wire w m ;; add_prims m' mc hc ps'
    | PGeom net l s :: ps' =>
      r <- cached_mats mc l ;;
      let '(cond, diel, mc') := r in
      h <- cached_height hc l ;;
      let '(e, t, hc') := h in
      add_prims (add_shape net cond diel s e t m) mc' hc' ps'
    | PText :: ps' => add_prims m mc hc ps'
    end.

  (** a padstack instance; [pi_def] is [None] without a definition, [Some None] if that has no data, else the material *)
  Record pinst := mkPI { pi_net : Z; pi_def : option (option (option Z)); pi_top : Z; pi_bot : Z; pi_shape : Z -> option sshape }.
  (** 123-134; a null shape is dereferenced *)
  Fixpoint add_pads (i : pinst) (mat : Z) (m : cut) (hc : hcache) (n : nat) (l : Z) : res (cut * hcache) :=
    match n with
    | 0%nat => Ok (m, hc)
    | Datatypes.S n' =>
      h <- cached_height hc l ;;
      let '(e, t, hc') := h in
      match pi_shape i l with
      | None => UB
      | Some s => add_pads i mat (add_shape (pi_net i) mat mat s e t m) hc' n' (l + 1)%Z
      end
    end.
  (** 112-135 *)
  Fixpoint add_insts (m : cut) (hc : hcache) (is : list pinst) : res cut :=
    match is with
    | [] => Ok m
    | i :: is' =>
      match pi_def i with
      | None => UB
      | Some None => add_insts m hc is'
      | Some (Some None) => Throw
      | Some (Some (Some mat)) =>
        let lo := Z.min (pi_top i) (pi_bot i) in
        let hi := Z.max (pi_top i) (pi_bot i) in
        r <- add_pads i mat m hc (Z.to_nat (hi - lo + 1)) lo ;;
        add_insts (fst r) (snd r) is'
      end
    end.

  Record layout := mkLayout { ly_boundary : sshape; ly_stack : list (option Z * option (Q * Q)); ly_comps : list comp;
                              ly_prims : list prim; ly_insts : list pinst; ly_boxes : list poly }.
  (** EGeometryModelExtraction.cpp:15-139 *)
  Definition build_cut (l : layout) : res cut :=
    m <- add_stackup (ly_boundary l) cut_init (ly_stack l) ;;
    m <- add_components m (ly_comps l) ;;
    r <- add_prims m [] [] (ly_prims l) ;;
    m <- add_insts (fst r) (snd r) (ly_insts l) ;;
    Ok (fold_left add_imprint_box (ly_boxes l) m).

  (** ELayerCutModel.cpp:45-63: what the table of the layers is made from *)
  Definition cut_shapes (m : cut) : list shape :=
    map (fun i => mkS (nth i (c_ranges m) (mkR 0 0)) (negb (nth i (c_mats m) noMaterial =? noMaterial)%Z)
                      (option_map (fun b => fst (fst b)) (alookup Nat.eqb i (c_blocks m))))
        (seq 0 (List.length (c_ranges m))).
  (** EGeometryModelExtraction.cpp:15-143 *)
  Definition extract_cut (fuel : nat) (ratio : Q) (l : layout) : res (cut * lcm) :=
    m <- build_cut l ;; t <- build_lut fuel ratio (cut_shapes m) ;; Ok (m, t).
  (** ELayerCutModel.cpp:134-137: [front] of no polygons is undefined *)
  Definition layout_boundary (m : cut) : res poly := match c_polys m with [] => UB | p :: _ => Ok p end.
End Cut.
Arguments sshape : clear implicits.
Arguments bwire : clear implicits.
Arguments cut : clear implicits.
Arguments comp : clear implicits.
Arguments joint : clear implicits.
Arguments wire : clear implicits.
Arguments prim : clear implicits.
Arguments pinst : clear implicits.
Arguments layout : clear implicits.
