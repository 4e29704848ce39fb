(** XFL import of a whole file: src/extension/xfl/ECadExtXflHandler.cpp:16-71.

    The input is the parsed file.  The placement of a shape (location, rotation, mirror) is an oracle [place].
    Simplified: the shape of an object is built when its route is read, also for a void that no shape takes, for
    an object on a layer that is not metal and for a route whose net is unknown. *)
From Verif Require Import Base QSum Units_Model Names_Model Net_Model Bondwire_Model Padstack_Model LayerMap_Model Layers_Model Xfl_Model XflGeom_Model.
Open Scope res_scope.
Local Open Scope list_scope.

(** An object of a route with its placement [P]. *)
Inductive file_obj (P : Type) :=
| RPath (layer : Z) (w : Q) (cs : list piece)
| RVia (first last : Z) (name : string)
| RBondwire
| RShape (ring is_void : bool) (layer : Z) (f : file_shape) (p : P)
| RTemplate (is_void : bool) (layer id : Z) (p : P).
Arguments RPath {P}. Arguments RVia {P}. Arguments RBondwire {P}. Arguments RShape {P}. Arguments RTemplate {P}.

(** EXflObjects.h:370-385 *)
Record xfl_file (P : Type) := {
  x_scale : option Q; x_unit : option Q;
  x_mats : list (string * string);
  x_layers : list file_layer;
  x_templates : list (Z * file_shape);
  x_padstacks : list (Z * list (Z * Z));
  x_vias : list (string * Z * Z * bool);
  x_nets : list string;
  x_routes : list (string * list (file_obj P));
  x_board : option (list pt + list piece + Z)
}.
Arguments x_scale {P}. Arguments x_unit {P}. Arguments x_mats {P}. Arguments x_layers {P}. Arguments x_templates {P}.
Arguments x_padstacks {P}. Arguments x_vias {P}. Arguments x_nets {P}. Arguments x_routes {P}. Arguments x_board {P}.

Record imported (S : Type) := {
  i_layers : layers; i_vias : list (via_def eshape); i_nets : netcoll; i_items : list (item S); i_boundary : option eshape
}.
Arguments i_layers {S}. Arguments i_vias {S}. Arguments i_nets {S}. Arguments i_items {S}. Arguments i_boundary {S}.

Fixpoint rmapl {A B} (f : A -> res B) (l : list A) : res (list B) :=
  match l with [] => Ok [] | a :: l' => b <- f a ;; r <- rmapl f l' ;; Ok (b :: r) end.

Section File.
  Context {P S : Type} (place : P -> eshape -> S) (path : Q -> eshape -> S).
  Context (valid : S -> bool) (contour : S -> S) (holes_valid : S -> list S -> bool).
  Context (arcs : pt -> arc_kind -> pt -> pt -> list pt) (boundary0 : option eshape).

  Section Scaled.
    Context (scale : Q).
    (** BuildLUTs, EXflObjects.h:401-418: the first template of an id stays *)
    Definition build_templates (ts : list (Z * file_shape)) : res (list (Z * eshape)) :=
      es <- rmapl (fun t => e <- get_shape scale arcs (snd t) ;; Ok (fst t, e)) ts ;;
      Ok (fold_left (fun m t => aemplace Z.eqb (fst t) (snd t) m) es []).
    Definition resolve (ts : list (Z * eshape)) (o : file_obj P) : res (obj S) :=
      match o with
      | RPath l w cs => e <- get_shape scale arcs (FComposite cs) ;; Ok (OPath l (Some (path w e)))
      | RVia a b n => Ok (OVia a b n)
      | RBondwire => Ok OBondwire
      | RShape ring v l f p => e <- get_shape scale arcs f ;; Ok (if ring then OAnnular l (place p e) else OShape v l (Some (place p e)))
      | RTemplate v l id p => Ok (OShape v l (option_map (place p) (alookup Z.eqb id ts)))
      end.
    Definition resolve_via (ts : list (Z * eshape)) (ps : list (Z * list (Z * Z))) (v : string * Z * Z * bool) : file_via eshape :=
      let '(name, padstack, shape, mat) := v in
      {| v_name := name;
         v_pads := option_map (map (fun q => (alookup Z.eqb (fst q) ts, snd q))) (alookup Z.eqb padstack ps);
         v_shape := alookup Z.eqb shape ts; v_mat_known := mat |}.
  End Scaled.

  Definition import_file (f : xfl_file P) : res (imported S) :=
    scale <- import_scale (x_scale f) (x_unit f) ;;
    ts <- build_templates scale (x_templates f) ;;
    let '(ly, s) := import_layers (x_mats f) scale (x_layers f) in
    let metal := ls_metal_map s in
    vias <- import_vias metal (map (resolve_via ts (x_padstacks f)) (x_vias f)) [] ;;
    let nets := import_nets (x_nets f) in
    routes <- rmapl (fun r => os <- rmapl (resolve scale ts) (snd r) ;; Ok (fst r, os)) (x_routes f) ;;
    items <- import_routes valid contour holes_valid metal (map d_name vias) nets routes [] ;;
    b <- import_board scale arcs (match x_board f with
                                  | None => None
                                  | Some (inl (inl ps)) => Some (BPolygon ps)
                                  | Some (inl (inr cs)) => Some (BComposite cs)
                                  | Some (inr id) => Some (BTemplate (option_map snd (find (fun t => (fst t =? id)%Z) (x_templates f))))
                                  end) boundary0 ;;
    Ok {| i_layers := ly; i_vias := vias; i_nets := nets; i_items := fst items; i_boundary := b |}.
End File.
