(** XFL import of layers, nets and routes: src/extension/xfl/ECadExtXflHandler.cpp.

    The parsed file is the input (the Boost.Spirit grammar of EXflParser.h is not modelled).  Lengths are
    rationals.  A shape is opaque here; [valid] stands for EShape::isValid and [contour] for GetContour. *)
From Verif Require Import Base QSum Names_Model Net_Model LayerMap_Model Layers_Model.
Open Scope res_scope.

(** ** Layers *)
Inductive layer_kind := Signal | Dielectric | Power.
(** EXflObjects.h:27-34 *)
Record file_layer := { fl_name : string; fl_thickness : Q; fl_kind : layer_kind; fl_cond : string; fl_diel : string }.
(** What the importer passes to CreateStackupLayer. *)
Record stackup := { su_name : string; su_type : layer_type; su_elev : Q; su_thick : Q; su_cond : string; su_diel : string }.

(** src/basic/ECadAlias.h:72-73 *)
Definition default_cond : string := "copper".
Definition default_diel : string := "silicon".

(** ECadExtXflHandler.cpp:179-209 – the loop of ImportLayers: [id] the last id given, [lyr] and [metal] the next
    XFL layer and metal numbers. *)
Record layers_state := {
  ls_id : Z; ls_lyr : Z; ls_metal : Z; ls_elev : Q;
  ls_layers : list stackup; ls_metal_map : list (Z * Z); ls_layer_map : list (Z * Z)
}.
Definition layers_start : layers_state :=
  {| ls_id := -1; ls_lyr := 1; ls_metal := 1; ls_elev := 0; ls_layers := []; ls_metal_map := []; ls_layer_map := [] |}.
Section Scale.
  Context (mats : list (string * string)) (scale : Q).
  Definition material (default n : string) : string := match alookup String.eqb n mats with Some m => m | None => default end.
  Definition kind_type (k : layer_kind) : layer_type := match k with Dielectric => LDielectric | _ => LConducting end.
  Definition import_layer (s : layers_state) (x : file_layer) : layers_state :=
    let id := (ls_id s + 1)%Z in
    let t := kind_type (fl_kind x) in
    {| ls_id := id;
       ls_lyr := (ls_lyr s + 1)%Z;
       ls_metal := if is_conducting t then (ls_metal s + 1)%Z else ls_metal s;
       ls_elev := (ls_elev s - fl_thickness x)%Q;
       ls_layers := ls_layers s ++ [{| su_name := fl_name x; su_type := t; su_elev := (ls_elev s * scale)%Q; su_thick := (fl_thickness x * scale)%Q;
                                       su_cond := material default_cond (fl_cond x); su_diel := material default_diel (fl_diel x) |}];
       ls_metal_map := if is_conducting t then aemplace Z.eqb (ls_metal s) id (ls_metal_map s) else ls_metal_map s;
       ls_layer_map := aemplace Z.eqb (ls_lyr s) id (ls_layer_map s) |}.
  Definition import_layers_loop (xs : list file_layer) : layers_state := fold_left import_layer xs layers_start.
  (** 208 – AppendLayers on the layout of the new cell, which has no layers. *)
  Definition import_layers (xs : list file_layer) : layers * layers_state :=
    let s := import_layers_loop xs in
    (fst (append_layers ly_init (map (fun u => (su_name u, su_type u)) (ls_layers s))), s).
End Scale.

(** ** Nets: 211-223, a name already in use is passed over. *)
Definition import_nets (names : list string) : netcoll := fold_left (fun c n => fst (nc_create c n)) names nc_init.

(** ** Routes *)
Section Routes.
  Context {S : Type} (valid : S -> bool) (contour : S -> S).
  (** [holes_valid o hs] is EPolygonWithHoles::isValid of the outline [o] with the holes [hs]. *)
  Context (holes_valid : S -> list S -> bool).

  (** The objects of a route.  A path comes as the polyline of its composite ([None] if it is empty), a
      shape as the result of makeEShapeFromInstObject (425-488), [None] if its template is unknown. *)
  Inductive obj :=
  | OPath (layer : Z) (path : option S)
  | OVia (first last : Z) (name : string)
  | OBondwire
  | OAnnular (layer : Z) (s : S)
  | OShape (is_void : bool) (layer : Z) (s : option S).

  (** 420-431 *)
  Definition is_hole (o : obj) : bool := match o with OShape v _ _ => v | _ => false end.

  Inductive item :=
  | IShape (layer net : Z) (s : S)
  | IHoles (layer net : Z) (outline : S) (holes : list S)
  | IPath (layer net : Z) (s : S)
  | IVia (name def : string) (net top bot : Z).

  Context (metal : list (Z * Z)) (via_defs : list string) (net : Z).

  (** 317-323 – the void shapes that belong to the outline *)
  Fixpoint take_holes (lyr : Z) (os : list obj) : list S * list obj :=
    match os with
    | OShape true l (Some s) :: os' => if (l =? lyr)%Z then let '(hs, r) := take_holes lyr os' in (s :: hs, r) else ([], os)
    | _ => ([], os)
    end.

  (** 237-349, one route; [used] is m_padstackInstNames.  The padstack definition and the layer map of a
      via are created together under the same name (ImportPadstackDefs 143, 171); [via_defs] are those. *)
  Fixpoint objects_loop (fuel : nat) (os : list obj) (used : list string) : res (list item * list string) :=
    match os with
    | [] => Ok ([], used)
    | o :: os' =>
        match fuel with
        | O => OutOfFuel
        | Datatypes.S fuel =>
            match o with
            | OPath l p =>
                match alookup Z.eqb l metal, p with
                | Some id, Some s => r <- objects_loop fuel os' used ;; Ok (IPath id net s :: fst r, snd r)
                | _, _ => objects_loop fuel os' used
                end
            | OVia a b name =>
                match alookup Z.eqb a metal, alookup Z.eqb b metal with
                | Some top, Some bot =>
                    if existsb (String.eqb name) via_defs then
                      n <- next_padstack_inst_name (Datatypes.S (List.length used)) used name ;;
                      r <- objects_loop fuel os' (snd n) ;;
                      Ok (IVia (fst n) name net top bot :: fst r, snd r)
                    else objects_loop fuel os' used
                | _, _ => objects_loop fuel os' used
                end
            | OBondwire => objects_loop fuel os' used
            | OAnnular l s =>
                match alookup Z.eqb l metal with
                | Some id => if valid s then r <- objects_loop fuel os' used ;; Ok (IShape id net s :: fst r, snd r) else objects_loop fuel os' used
                | None => objects_loop fuel os' used
                end
            | OShape true _ _ => objects_loop fuel os' used
            | OShape false l so =>
                match alookup Z.eqb l metal, so with
                | Some id, Some s =>
                    let '(hs, rest) := take_holes l os' in
                    match hs with
                    | [] => if valid s then r <- objects_loop fuel rest used ;; Ok (IShape id net s :: fst r, snd r) else objects_loop fuel rest used
                    | _ => let o := contour s in
                           let hs := map contour hs in
                           if holes_valid o hs then r <- objects_loop fuel rest used ;; Ok (IHoles id net o hs :: fst r, snd r) else objects_loop fuel rest used
                    end
                | _, _ => objects_loop fuel os' used
                end
            end
        end
    end.
End Routes.
Arguments obj : clear implicits.
Arguments item : clear implicits.

(** 225-351 – all routes; a route of an unknown net is passed over. *)
Section AllRoutes.
  Context {S : Type} (valid : S -> bool) (contour : S -> S) (holes_valid : S -> list S -> bool).
  Context (metal : list (Z * Z)) (via_defs : list string) (nets : netcoll).
  Fixpoint import_routes (rs : list (string * list (obj S))) (used : list string) : res (list (item S) * list string) :=
    match rs with
    | [] => Ok ([], used)
    | (n, os) :: rs' =>
        match nc_find nets n with
        | None => import_routes rs' used
        | Some x =>
            a <- objects_loop valid contour holes_valid metal via_defs (net_id x) (List.length os) os used ;;
            b <- import_routes rs' (snd a) ;;
            Ok (fst a ++ fst b, snd b)
        end
    end.
End AllRoutes.
