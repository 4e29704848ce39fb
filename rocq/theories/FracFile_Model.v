(** The metal fraction mapping of a layout and its files, src/utility/EMetalFractionMapping.cpp.

    The map of one layer and the tiles of an axis are those of Fraction_Model.v.  Parameters: [cover], what part of the
    tiles a polygon covers (Map2Grid of 3rdparty/generic); [merge], the primitives after [MergeLayerPolygons] with a
    selection of nets; [tocoord], [toCoord] of the units of the layout, and [scale], their [Scale2Unit]; [show9], what the
    format %.9f makes of a number, and [show6], what [operator<<] prints with a fixed precision of 6; [prefix], directory
    and name of the result file.  Floating point numbers are rationals. *)
From Coq Require Import Ascii.
From Verif Require Import Base QSum Names_Model Vtk_Model Fraction_Model.
Close Scope Q_scope.
Open Scope string_scope.
Open Scope nat_scope.
Open Scope list_scope.
Open Scope res_scope.

(** What the mapping asks of a layer: id, name, elevation and thickness if it is in the stack-up, whether it conducts *)
Record layer := mkLayer { y_id : Z; y_name : string; y_stack : option (Q * Q); y_cond : bool }.
(** [EMetalFractionMappingSettings]: merge first, tiles, extensions (left, bottom, right, top), selected nets, file *)
Record settings := mkSet { s_merge : bool; s_nx : nat; s_ny : nat; s_left : Q; s_bot : Q; s_right : Q; s_top : Q; s_nets : list Z; s_out : string }.
(** [EStackupLayerInfo] and [EMetalFractionInfo], EMetalFractionMapping.h 41-56 *)
Record linfo := mkLi { n_metal : bool; n_elev : Q; n_thick : Q; n_name : string }.
Record minfo := mkMi { i_nx : nat; i_ny : nat; i_origin : (Z * Z) * (Z * Z); i_ext : (Z * Z) * (Z * Z); i_stride : Z * Z; i_layers : list linfo }.
(** What is written to a file: a text or the picture of a map *)
Inductive content := CText (s : string) | CPicture (g : grid).
(** The result, the info, the maps, the primitives of the layout afterwards and the files in the order they are written *)
Record outcome {polygon : Type} := mkOut { o_ok : bool; o_info : minfo; o_maps : list grid; o_prims : list (primitive (polygon := polygon)); o_files : list (string * content) }.

(** Numbers of a width of at least [w], filled up with blanks on the left *)
Fixpoint blanks (n : nat) : string := match n with O => "" | S n' => String " " (blanks n') end.
Definition pad (w : nat) (s : string) : string := (blanks (w - String.length s) ++ s)%string.

Section Write.
  Context (show9 show6 : Q -> string) (scale : Q).
  (** %12.9f *)
  Definition f12 (q : Q) : string := pad 12 (show9 (q * scale)%Q).
  Definition z12 (z : Z) : string := f12 (inject_Z z).

  (** 202-205 *)
  Definition layer_line (l : linfo) : string :=
    ("LAYER" ++ " " ++ n_name l ++ " " ++ to_dec (if n_metal l then 1 else 0) ++ " " ++ f12 (n_elev l) ++ " " ++ f12 (n_thick l) ++ eol)%string.
  (** 207-214 *)
  Definition box_line (key : string) (b : (Z * Z) * (Z * Z)) : string :=
    (key ++ " " ++ z12 (fst (fst b)) ++ " " ++ z12 (snd (fst b)) ++ " " ++ z12 (fst (snd b)) ++ " " ++ z12 (snd (snd b)) ++ eol)%string.
  (** 222-226 *)
  Definition value_line (maps : list grid) (i j : nat) : string :=
    (to_dec i ++ " " ++ to_dec j ++ cat (map (fun g : grid => " " ++ show6 (g i j))%string maps) ++ eol)%string.
  (** 200-228; no blank after RESOLUTION *)
  Definition result_text (f : minfo) (maps : list grid) : string :=
    ("LAYERS" ++ " " ++ to_dec (List.length (i_layers f)) ++ eol ++ eol ++
     cat (map layer_line (i_layers f)) ++ eol ++
     box_line "ORIGIN" (i_origin f) ++ box_line "EXTENSION" (i_ext f) ++
     "TILE" ++ " " ++ to_dec (i_nx f) ++ " " ++ to_dec (i_ny f) ++ eol ++
     "RESOLUTION" ++ z12 (fst (i_stride f)) ++ " " ++ z12 (snd (i_stride f)) ++ eol ++ eol ++
     cat (flat_map (fun i => map (value_line maps i) (seq 0 (i_ny f))) (seq 0 (i_nx f))))%string.

  (** Line 244 and 162 *)
  Definition picture_name (prefix name : string) : string := (prefix ++ "_" ++ name ++ ".png")%string.
  (** [WriteResult2File], 181-248: nothing if the file can not be opened *)
  Definition write_result (opened : bool) (out prefix : string) (f : minfo) (maps : list grid) : bool * list (string * content) :=
    if negb opened then (false, [])
    else (true, (out, CText (result_text f maps)) :: map (fun lg => (picture_name prefix (n_name (fst lg)), CPicture (snd lg))) (combine (i_layers f) maps)).
End Write.

Section Map.
  Context {polygon : Type} (cover : axis -> axis -> polygon -> list (nat * nat * Q)) (merge : list Z -> list (primitive (polygon := polygon)) -> list (primitive (polygon := polygon))).
  Context (tocoord : Q -> Z) (show9 show6 : Q -> string) (scale : Q) (prefix : string -> string).

  (** The loop over the layers; 134-147 *)
  Fixpoint map_layers (s : settings) (ax ay : axis) (ps : list (primitive (polygon := polygon))) (ls : list layer) : list linfo * list grid :=
    match ls with
    | [] => ([], [])
    | y :: r =>
        let '(fs, gs) := map_layers s ax ay ps r in
        match y_stack y with
        | None => (fs, gs)
        | Some (e, t) => (mkLi (y_cond y) e t (y_name y) :: fs, layer_fraction (cover ax ay) (s_nx s) (s_ny s) (y_id y) (s_nets s) ps :: gs)
        end
    end.

  (** [ELayoutMetalFractionMapper::GenerateMetalFractionMapping], 98-167, of a layout with the box [lo], [hi], the layers
      [ls] and the primitives [ps]; [opened] tells whether the result file can be opened *)
  Definition generate (opened : bool) (s : settings) (lo hi : Z * Z) (ls : list layer) (ps : list (primitive (polygon := polygon))) : res (outcome (polygon := polygon)) :=
    let ps' := if s_merge s then merge (s_nets s) ps else ps in
    ax <- make_axis (fst lo) (fst hi) (tocoord (s_left s)) (tocoord (s_right s)) (Z.of_nat (s_nx s)) ;;
    ay <- make_axis (snd lo) (snd hi) (tocoord (s_bot s)) (tocoord (s_top s)) (Z.of_nat (s_ny s)) ;;
    let '(fs, gs) := map_layers s ax ay ps' ls in
    let f := mkMi (s_nx s) (s_ny s) (lo, hi) ((a_lo ax, a_lo ay), (a_hi ax, a_hi ay)) (a_stride ax, a_stride ay) fs in
    if (s_out s =? "")%string then Ok (mkOut _ true f gs ps' [])
    else
      let '(ok, files) := write_result show9 show6 scale opened (s_out s) (prefix (s_out s)) f gs in
      let pictures := map (fun ig => (picture_name (prefix (s_out s)) (to_dec (fst ig)), CPicture (snd ig))) (combine (seq 0 (List.length gs)) gs) in
      Ok (mkOut _ ok f gs ps' (files ++ pictures)).
End Map.
