(** XFL import of padstacks, shapes and the board outline: src/extension/xfl/ECadExtXflHandler.cpp and
    EXflObjects.h.  Lengths are rationals; storing a length in a coordinate truncates (and is taken to be in
    range). *)
From Verif Require Import Base QSum Units_Model Bondwire_Model Padstack_Model LayerMap_Model.
Open Scope res_scope.
Local Open Scope list_scope.

(** ** Padstacks *)
Section Padstacks.
  Context {S : Type} (metal : list (Z * Z)).

  (** A pad of a padstack: the shape of its template if that is known, and the number of its metal layer. *)
  Definition file_pad : Type := option S * Z.

  (** ECadExtXflHandler.cpp:149-169 – the pads of a padstack, numbered from [i]. *)
  Fixpoint import_pads (i : nat) (fps : list file_pad) (lm : lmap) (pads : list (pad (option S))) : res (lmap * list (pad (option S))) :=
    match fps with
    | [] => Ok (lm, pads)
    | (None, _) :: fps' => import_pads (Datatypes.S i) fps' lm pads
    | (Some s, sig) :: fps' =>
        q <- set_pad pads (Z.of_nat i) (Some s) ;;
        import_pads (Datatypes.S i) fps' (match alookup Z.eqb sig metal with Some id => set_mapping (Z.of_nat i, id) lm | None => lm end) (fst q)
    end.
  (** 145-148; the names of the pad layers play no part *)
  Definition import_padstack (fps : list file_pad) : res (lmap * list (pad (option S))) :=
    import_pads 0 fps lm_new (set_layers None [] (map (fun _ => "layer"%string) fps)).

  (** src/design/EPadstackInst.cpp:89-122, without the placement of the instance *)
  Definition layer_shape (lm : lmap) (pads : list (pad (option S))) (via : S) (top bot lyr : Z) : res (option S) :=
    if ((lyr <? Z.min top bot) || (Z.max top bot <? lyr))%Z%bool then Ok None
    else r <- get_pad pads (forward lm lyr) ;;
         Ok (match r with Some (Some s) => Some s | _ => Some via end).

  (** A via of the file: [None] if its padstack, its shape, or its material is unknown. *)
  Record file_via := { v_name : string; v_pads : option (list file_pad); v_shape : option S; v_mat_known : bool }.
  Record via_def := { d_name : string; d_map : lmap; d_pads : list (pad (option S)); d_via : S }.

  (** SetMapping is called on the map of this via *)
  Definition maps_pad (p : file_pad) : bool :=
    match fst p, alookup Z.eqb (snd p) metal with Some _, Some _ => true | _, _ => false end.
  (** 119-176 – all vias; a name already used gives no layer map (a null pointer) and no definition. *)
  Fixpoint import_vias (vs : list file_via) (done : list via_def) : res (list via_def) :=
    match vs with
    | [] => Ok done
    | v :: vs' =>
        match v_pads v, v_shape v, v_mat_known v with
        | Some fps, Some s, true =>
            if existsb (fun d => String.eqb (v_name v) (d_name d)) done
            then if existsb maps_pad fps then UB else Throw
            else r <- import_padstack fps ;;
                 import_vias vs' (done ++ [{| d_name := v_name v; d_map := fst r; d_pads := snd r; d_via := s |}])
        | _, _, _ => import_vias vs' done
        end
    end.
End Padstacks.
Arguments file_via : clear implicits.
Arguments via_def : clear implicits.

(** ** Shapes *)
Definition pt : Type := Q * Q.
(** EXflObjects.h:36-39; [arc_kind] 0, 1, other.  [Half] is the half circle of bullets and fingers; no file has it. *)
Inductive arc_kind := Arc | RArc | Arc3 | Half.
Inductive piece := CPoint (p : pt) | CArc (k : arc_kind) (mid fin : pt).
Inductive file_shape :=
| FPolygon (ps : list pt)
| FComposite (cs : list piece)
| FRectangle (w h : Q)
| FSquare (w : Q)
| FDiamond (w : Q)
| FCircle (d : Q)
| FAnnular (inner outer : Q)
| FOblong (w left right : Q)
| FBullet (w left right : Q)
| FFinger (w left right : Q).
Inductive eshape :=
| EPolygon (ps : list (Z * Z))
| EBox (lx ly hx hy : Z)
| ECircle (r : Z)
| ERing (inner outer : Z).

Section Shapes.
  Context (scale : Q).
  (** geometry::toPolyline of an arc from a start point, in file units, start point included *)
  Context (arc_points : pt -> arc_kind -> pt -> pt -> list pt).

  (** EXflObjects.h:303-306 *)
  Definition to_point (p : pt) : Z * Z := (trunc (fst p * scale), trunc (snd p * scale)).
  (** 308-333; the points of a three point arc are stored in a local variable *)
  Definition to_points (start : pt) (k : arc_kind) (mid fin : pt) : list (Z * Z) :=
    match k with Arc3 => [] | _ => map to_point (arc_points start k mid fin) end.

  (** 173-188; skipping the first point of an empty vector is undefined *)
  Fixpoint composite_loop (cs : list piece) (last : pt) : res (list (Z * Z)) :=
    match cs with
    | [] => Ok []
    | CPoint p :: cs' => r <- composite_loop cs' p ;; Ok (to_point p :: r)
    | CArc k mid fin :: cs' =>
        match to_points last k mid fin with
        | [] => UB
        | _ :: ps => r <- composite_loop cs' fin ;; Ok (ps ++ r)
        end
    end.
  (** 272-275, 288-291, 294-297: the half circle around [(x, 0)] from [(x, y)], in coordinates, without its first point *)
  Definition half_turn (x y : Z) : res (list (Z * Z)) :=
    match arc_points (inject_Z x, inject_Z y) Half (inject_Z x, 0) (inject_Z x, inject_Z (- y)) with
    | [] => UB
    | _ :: ps => Ok (map (fun p => (trunc (fst p), trunc (snd p))) ps)
    end.
  (** 151-300.  The ring of an annular shape is given by its radii, a circle by its radius. *)
  Definition get_shape (f : file_shape) : res eshape :=
    match f with
    | FPolygon ps => Ok (EPolygon (map to_point ps))
    | FComposite [] => UB
    | FComposite (CArc _ _ _ :: _) => Throw
    | FComposite (CPoint p :: cs) => r <- composite_loop cs p ;; Ok (EPolygon (to_point p :: r))
    | FRectangle w h =>
        let halfW := trunc ((1#2) * w * scale) in
        let halfH := trunc ((1#2) * h * scale) in
        Ok (EBox (trunc (- (1#2) * inject_Z halfW)) (trunc (- (1#2) * inject_Z halfH)) (trunc ((1#2) * inject_Z halfW)) (trunc ((1#2) * inject_Z halfH)))
    | FSquare w => let h := trunc ((1#2) * w) in Ok (EBox (- h) (- h) h h)
    | FDiamond w => let h := trunc ((1#2) * w) in Ok (EPolygon [(h, 0); (0, h); (- h, 0); (0, - h)]%Z)
    | FCircle d => Ok (ECircle (trunc ((1#2) * d)))
    | FAnnular i o => Ok (ERing (trunc ((1#2) * i * scale)) (trunc ((1#2) * o * scale)))
    | FOblong w l r => let h := trunc ((1#2) * w * scale) in Ok (EBox (trunc (- l * scale)) (- h) (trunc (r * scale)) h)
    | FBullet w l r =>
        let h := trunc ((1#2) * w * scale) in
        let x := trunc (r * scale - inject_Z h) in
        a <- half_turn x (- h) ;; Ok (EPolygon ((trunc (- l * scale), h) :: (trunc (- l * scale), - h) :: (x, - h) :: a)%Z)
    | FFinger w l r =>
        let h := trunc ((1#2) * w * scale) in
        let x := trunc (r * scale - inject_Z h) in
        let x' := trunc (- l * scale + inject_Z h) in
        a <- half_turn x (- h) ;; b <- half_turn x' h ;; Ok (EPolygon ((x, - h)%Z :: a ++ (x', h) :: b))
    end.

  (** ** Board outline: ECadExtXflHandler.cpp:354-390.
      The shape made from a template is a local variable of the branch; the outer one stays null. *)
  Inductive board := BPolygon (ps : list pt) | BComposite (cs : list piece) | BTemplate (known : option file_shape).
  Definition import_board (b : option board) (boundary : option eshape) : res (option eshape) :=
    match b with
    | None => Ok boundary
    | Some (BPolygon ps) => r <- get_shape (FPolygon ps) ;; Ok (Some r)
    | Some (BComposite cs) => r <- get_shape (FComposite cs) ;; Ok (Some r)
    | Some (BTemplate None) => Ok boundary
    | Some (BTemplate (Some _)) => UB
    end.
End Shapes.

(** ECadExtXflHandler.cpp:40-43 with EXflObjects.h:372-373: [scale] and [unit] are not initialised, so they
    are read indeterminate if the file does not give them. *)
Definition import_scale (file_scale : option Q) (coords_per_unit : option Q) : res Q :=
  match file_scale, coords_per_unit with
  | Some s, Some u => Ok (u / s)%Q
  | _, _ => UB
  end.
