(** Export of a layout as a chip thermal model, src/utility/ELayout2CtmUtility.cpp.

    The densities are those of Fraction_Model, the appending of layers that of Grid_Model and the conversion that of
    CtmGrid_Model; the writing of the file is in Ctm_Model.  Coordinates are whole numbers, [meter] is the length of one;
    [map_size] is [OccupancyGridMappingFactory::GetGridMapSize] of 3rdparty/generic for one direction, [cover] its mapping
    of a polygon to the tiles and [merge] is what MergeLayerPolygons makes of the primitives (Merger_Model). *)
From Verif Require Import Base QSum Fraction_Model GridExtract_Model.
From Verif Require Grid_Model CtmGrid_Model.
Import CtmGrid_Model (chip, xmodel, mkx, export).
Open Scope res_scope.
Open Scope Q_scope.

(** A stack-up layer: id, name, thickness in coordinates and whether it is a conducting layer *)
Record stlayer := mkSt { st_id : Z; st_name : string; st_thick : Q; st_metal : bool }.

Section Export.
  Context {polygon : Type} (cover : axis -> axis -> polygon -> list (nat * nat * Q))
          (merge : list (primitive (polygon := polygon)) -> list (primitive (polygon := polygon)))
          (map_size : Z -> Z -> nat) (ne : Q -> Q -> bool) (meter : Q).

  (** The layout: the box of its boundary, its stack-up layers in the order of the collection, its primitives *)
  Record layout := mkLay { lo_ll : Z * Z; lo_ur : Z * Z; lo_stack : list stlayer; lo_prims : list (primitive (polygon := polygon)) }.
  (** [ELayout2CtmSettings] (ECadSettings.h 529-540) in coordinates; [c_named]: folder and file have names *)
  Record settings := mkSet { c_named : bool; c_stride : Z; c_left : Z; c_bot : Z; c_right : Z; c_top : Z; c_nets : list Z }.

  (** EMetalFractionMapping.cpp 98-150, the part used here *)
  Definition fractions (s : settings) (nx ny : nat) (l : layout) : res (axis * axis * list xlayer) :=
    ax <- make_axis (fst (lo_ll l)) (fst (lo_ur l)) (c_left s) (c_right s) (Z.of_nat nx) ;;
    ay <- make_axis (snd (lo_ll l)) (snd (lo_ur l)) (c_bot s) (c_top s) (Z.of_nat ny) ;;
    Ok (ax, ay, map (fun t => mkXL (st_id t) (st_name t) (st_thick t * meter) (nx, ny)
                                   (layer_fraction (cover ax ay) nx ny (st_id t) (c_nets s) (lo_prims l))) (lo_stack l)).

  (** ELayout2CtmUtility.cpp 27-90 up to the file; the layout is merged on the way.  [None] is a failure.  [SetResolution]
      (64) does not take a negative number. *)
  Definition to_ctm (s : settings) (l : layout) : res (option chip * layout) :=
    if negb (c_named s) then Ok (None, l)
    else
      let nx := map_size (fst (lo_ur l) + c_right s - (fst (lo_ll l) - c_left s))%Z (c_stride s) in
      let ny := map_size (snd (lo_ur l) + c_top s - (snd (lo_ll l) - c_bot s))%Z (c_stride s) in
      let l' := mkLay (lo_ll l) (lo_ur l) (lo_stack l) (merge (lo_prims l)) in
      f <- fractions s nx ny l' ;;
      let r := inject_Z (c_stride s) * meter in
      let r' := if Qle_bool 0 r then r else 0 in
      gm <- extract_layers nx ny r' r' (snd f) ;;
      Ok (export ne false (mkx nx ny r' r' 1 (combine (Grid_Model.g_layers (fst gm)) (map st_metal (lo_stack l)))), l').
End Export.
