(** From the text of an XFL file to the database: the handlers of src/extension/xfl/EXflParser.h:479-595 and
    src/extension/xfl/ECadExtXflHandler.cpp:18-71.

    [str::Equals] with [CaseInsensitive] (of generic, not in the repository) is taken to ignore the case of ASCII letters. *)
From Coq Require Import Ascii.
From Verif Require Import Base XflText_Model.
From Verif Require Import QSum Units_Model Names_Model Net_Model Bondwire_Model Padstack_Model LayerMap_Model Layers_Model Xfl_Model XflGeom_Model XflFile_Model.
Open Scope res_scope.
Local Open Scope list_scope.

(** ** What is kept of a file, EXflObjects.h:370-385.  [version], [designType] and the parts play no part in the import
    (ImportComponentDefs, ECadExtXflHandler.cpp:73-82, makes nothing of the parts). *)
Record file_db := mkDb {
  db_unit : option length_unit; db_scale : option Q; db_board : option XflText_Model.board;
  db_nets : list XflText_Model.net; db_vias : list via; db_layers : list XflText_Model.layer; db_routes : list route;
  db_mats : list XflText_Model.material; db_padstacks : list padstack; db_templates : list template
}.
(** [Clear], 387-399: unit and scale stay without a value *)
Definition db_clear : file_db := mkDb None None None [] [] [] [] [] [] [].

(** EXflParser.h:485-491 *)
Definition lower (c : ascii) : ascii :=
  let n := nat_of_ascii c in if (65 <=? n)%nat && (n <=? 90)%nat then ascii_of_nat (n + 32) else c.
Fixpoint equals_nocase (a b : string) : bool :=
  match a, b with
  | EmptyString, EmptyString => true
  | String c a', String d b' => Ascii.eqb (lower c) (lower d) && equals_nocase a' b'
  | _, _ => false
  end.
Definition unit_handle (u : string) : length_unit := if equals_nocase u "inch" then Inch else Millimeter.

(** 479-595: what a handler does to the database *)
Definition handle (d : file_db) (c : call) : file_db :=
  let '(mkDb u s b ns vs ls rs ms ps ts) := d in
  match c with
  | CUnit w => mkDb (Some (unit_handle w)) s b ns vs ls rs ms ps ts
  | CScale q => mkDb u (Some q) b ns vs ls rs ms ps ts
  | CMaterial m => mkDb u s b ns vs ls rs (ms ++ [m]) ps ts
  | CLayer l => mkDb u s b ns vs (ls ++ [l]) rs ms ps ts
  | CShape t => mkDb u s b ns vs ls rs ms ps (ts ++ [t])
  | CBoard g => mkDb u s (Some g) ns vs ls rs ms ps ts
  | CPadstack p => mkDb u s b ns vs ls rs ms (ps ++ [p]) ts
  | CVia v => mkDb u s b ns (vs ++ [v]) ls rs ms ps ts
  | CNet n => mkDb u s b (ns ++ [n]) vs ls rs ms ps ts
  | CRoute r => mkDb u s b ns vs ls (rs ++ [r]) ms ps ts
  | CVersion _ _ | CDesign _ | CPart _ | CUnknown _ | CLine _ => d
  end.
Definition handle_all (cs : list call) : file_db := fold_left handle cs db_clear.

(** ** ImportMaterialDefs, ECadExtXflHandler.cpp:84-113: the materials made, and m_matNameMap, in which the first stays *)
Fixpoint import_mats (ms : list XflText_Model.material) (made : list (string * XflText_Model.material)) (m : list (string * string))
  : res (list (string * XflText_Model.material) * list (string * string)) :=
  match ms with
  | [] => Ok (made, m)
  | x :: ms' =>
      n <- next_key (Datatypes.S (List.length made)) (fun n => existsb (String.eqb n) (map fst made)) (m_name x) ;;
      import_mats ms' (made ++ [(n, x)]) (aemplace String.eqb (m_name x) n m)
  end.

(** ** The parsed objects as the importer sees them *)
(** Where a shape is put: nowhere, or by a transformation (makeEShapeFromInstObject 435-482) to a point in coordinates.
    Only shapes from templates are turned and mirrored. *)
Inductive placement := Unplaced | At (loc : Z * Z) (rot : Q) (mirror : ascii) (rot_first : bool).

(** EXflObjects.h:36-39 and 41-59 *)
Definition conv_piece (p : XflText_Model.piece) : piece :=
  match p with
  | PPoint q => CPoint q
  | PArc k e m => CArc (match k with 0%Z => Arc | 1%Z => RArc | _ => Arc3 end) m e
  end.
Definition conv_shape (s : shape) : file_shape :=
  match s with
  | SPolygon ps => FPolygon ps
  | SComposite cs => FComposite (map conv_piece cs)
  | SRectangle w h => FRectangle w h
  | SSquare w => FSquare w
  | SDiamond w => FDiamond w
  | SCircle d => FCircle d
  | SAnnular o i => FAnnular i o
  | SOblong w l r => FOblong w l r
  | SBullet w l r => FBullet w l r
  | SFinger w l r => FFinger w l r
  end.
(** ECadExtXflHandler.cpp:189 looks for 'D' only *)
Definition conv_layer (l : XflText_Model.layer) : file_layer :=
  {| fl_name := ly_name l; fl_thickness := ly_thick l;
     fl_kind := if Ascii.eqb (ly_type l) "D" then Dielectric else if Ascii.eqb (ly_type l) "P" then Power else Signal;
     fl_cond := ly_cond l; fl_diel := ly_diel l |}.
(** 134-140 *)
Definition conv_via (mats : list (string * string)) (v : via) : string * Z * Z * bool :=
  (XflText_Model.v_name v, v_padstack v, XflText_Model.v_shape v,
   String.eqb (v_mat v) "" || (match alookup String.eqb (v_mat v) mats with Some _ => true | None => false end)).
Definition conv_padstack (p : padstack) : Z * list (Z * Z) := (ps_id p, map (fun d => (p_shape d, p_layer d)) (ps_pads p)).
(** 237-349, 435-482; the width of a path is scaled (254) *)
Definition conv_obj (scale : Q) (o : inst) : file_obj placement :=
  match o with
  | XflText_Model.IPath l w cs => RPath l (w * scale)%Q (map conv_piece cs)
  | XflText_Model.IVia s e n _ _ _ => RVia s e n
  | XflText_Model.IBondwire _ _ _ _ _ => RBondwire
  | XflText_Model.IShape v l s p =>
      RShape (match s with SAnnular _ _ => true | _ => false end) v l (conv_shape s) (At (to_point scale p) 0%Q "N" true)
  | IOutline v l s => RShape false v l (conv_shape s) Unplaced
  | ITemplate v l i p r m f => RTemplate v l i (At (to_point scale p) r m f)
  end.
Definition conv_board (b : XflText_Model.board) : list pt + list piece + Z :=
  match b with
  | XflText_Model.BPolygon ps => inl (inl ps)
  | XflText_Model.BComposite cs => inl (inr (map conv_piece cs))
  | BShape i _ _ _ _ => inr i
  end.

(** ECadUnits.h:170-184 and 201-204: coordinates are nanometers *)
Definition coords_per (u : length_unit) : Q := scale2coord (make_units u Nanometer).

Definition conv_file (mats : list (string * string)) (scale : Q) (d : file_db) : xfl_file placement :=
  {| x_scale := db_scale d; x_unit := option_map coords_per (db_unit d);
     x_mats := mats; x_layers := map conv_layer (db_layers d);
     x_templates := map (fun t => (t_id t, conv_shape (t_shape t))) (db_templates d);
     x_padstacks := map conv_padstack (db_padstacks d);
     x_vias := map (conv_via mats) (db_vias d);
     x_nets := map nt_name (db_nets d);
     x_routes := map (fun r => (r_net r, map (conv_obj scale) (r_objects r))) (db_routes d);
     x_board := option_map conv_board (db_board d) |}.

(** The new database: its unit, its materials, what is passed to each layer, and the rest *)
Record loaded (S : Type) := { lo_unit : length_unit; lo_mats : list (string * XflText_Model.material); lo_stack : list stackup; lo_db : imported S }.
Arguments lo_unit {S}. Arguments lo_mats {S}. Arguments lo_stack {S}. Arguments lo_db {S}.

Section Load.
  Context {S : Type} (place : placement -> eshape -> S) (path : Q -> eshape -> S).
  Context (valid : S -> bool) (contour : S -> S) (holes_valid : S -> list S -> bool).
  Context (arcs : pt -> arc_kind -> pt -> pt -> list pt) (boundary0 : option eshape).
  Context (value : string -> Q).

  (** 37-71.  Simplified: with a scale of 0 the quotient is 0 here and infinite there. *)
  Definition load_db (d : file_db) : res (loaded S) :=
    match db_unit d with
    | None => UB
    | Some u =>
        scale <- import_scale (db_scale d) (Some (coords_per u)) ;;
        ms <- import_mats (db_mats d) [] [] ;;
        r <- import_file place path valid contour holes_valid arcs boundary0 (conv_file (snd ms) scale d) ;;
        Ok {| lo_unit := u; lo_mats := fst ms;
              lo_stack := ls_layers (snd (import_layers (snd ms) scale (map conv_layer (db_layers d)))); lo_db := r |}
    end.
  (** 18-36, with a name no database has: [None] is the null pointer *)
  Definition load (text : string) : res (option (loaded S)) :=
    let '(ok, calls) := read value text in
    if ok then r <- load_db (handle_all calls) ;; Ok (Some r) else Ok None.
End Load.
