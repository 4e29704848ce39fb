(** Shapes, placements and pins made from lengths in the user unit (src/EDataMgr.cpp).  The lengths are the
    doubles of Units_Model; the shapes are those of Shape_Model, the placed components those of Component_Model. *)
From Verif Require Import Base QSum Units_Model Transform_Model Shape_Model Component_Model.
Open Scope res_scope.
Open Scope Q_scope.

(** ECadUnits.h:238-241 *)
Definition to_coord_pt (cu : coord_units) (p : Q * Q) : res (Z * Z) :=
  x <- to_coord cu (fst p) ;; y <- to_coord cu (snd p) ;; Ok (x, y).

(** ECadUnits.h:248-253 *)
Fixpoint to_coord_pts (cu : coord_units) (ps : list (Q * Q)) : res (list (Z * Z)) :=
  match ps with
  | [] => Ok []
  | p :: ps' => c <- to_coord_pt cu p ;; cs <- to_coord_pts cu ps' ;; Ok (c :: cs)
  end.

(** ECadUnits.h:255-259 *)
Definition to_unit_pt (cu : coord_units) (c : Z * Z) : Q * Q := (to_unit cu (fst c), to_unit cu (snd c)).

(** a stored point *)
Definition zpt (c : Z * Z) : pt := (inject_Z (fst c), inject_Z (snd c)).

(** EDataMgr.cpp:336-339; ECadUnits.h:243-246 is the same for a box *)
Definition create_box (cu : coord_units) (ll ur : Q * Q) : res box :=
  a <- to_coord_pt cu ll ;; b <- to_coord_pt cu ur ;; Ok (zpt a, zpt b).

(** EDataMgr.cpp:248-251, 282-286 *)
Definition shape_rectangle (cu : coord_units) (ll ur : Q * Q) : res shape :=
  a <- to_coord_pt cu ll ;; b <- to_coord_pt cu ur ;; Ok (Rect (zpt a, zpt b)).

(** EDataMgr.cpp:253-256, 288-292; [div] is the circle division of the settings *)
Definition shape_circle (cu : coord_units) (div : nat) (o : Q * Q) (r : Q) : res shape :=
  c <- to_coord_pt cu o ;; k <- to_coord cu r ;; Ok (Circle (zpt c) (inject_Z k) div).

(** EDataMgr.cpp:258-261, 294-300 *)
Definition shape_path (cu : coord_units) (ps : list (Q * Q)) (w : Q) : res shape :=
  cs <- to_coord_pts cu ps ;; k <- to_coord cu w ;; Ok (Path (map zpt cs) (inject_Z k)).

Section Corners.
  (** generic::geometry::RoundCorners *)
  Context (round_corners : list (Q * Q) -> Q -> nat -> list (Q * Q)).

  (** EDataMgr.cpp:263-271, 302-314 *)
  Definition shape_polygon (cu : coord_units) (div : nat) (ps : list (Q * Q)) (cornerR : Q) : res shape :=
    let qs := if Qle_bool cornerR 0 then ps else round_corners ps cornerR div in
    cs <- to_coord_pts cu qs ;; Ok (Poly (map zpt cs)).

  (** EDataMgr.cpp:275-277: the points of a list of coordinates, [size / 2] of them *)
  Definition coords_points (l : list Q) : list (Q * Q) :=
    map (fun i => (nth (i * 2) l 0, nth (i * 2 + 1) l 0)) (seq 0 (List.length l / 2)).

  (** EDataMgr.cpp:273-279 *)
  Definition shape_polygon_coords (cu : coord_units) (div : nat) (l : list Q) (cornerR : Q) : res shape :=
    shape_polygon cu div (coords_points l) cornerR.
End Corners.

(** EDataMgr.cpp:329-334: always without rounding corners *)
Definition create_polygon (cu : coord_units) (ps : list (Q * Q)) : res (list pt) :=
  cs <- to_coord_pts cu ps ;; Ok (map zpt cs).

(** EDataMgr.cpp:341-344, src/basic/ETransform.h:122-130 *)
Definition create_transform (cu : coord_units) (scale rot : Q) (off : Q * Q) (m : mirror2d) : res transform :=
  o <- to_coord_pt cu off ;;
  let t := edit (fun d => mkTD scale (td_rot d) (td_mirror d) (td_off d)) t_new in
  let t := edit (fun d => mkTD (td_scale d) rot (td_mirror d) (td_off d)) t in
  let t := edit (fun d => mkTD (td_scale d) (td_rot d) (td_mirror d) (zpt o)) t in
  Ok (edit (fun d => mkTD (td_scale d) (td_rot d) m (td_off d)) t).

(** EDataMgr.cpp:353-357: on a null definition nothing happens; the answer is whether a pin was made *)
Definition create_def_pin (cu : coord_units) (d : option cdef) (n : string) (loc : Q * Q) : res (option cdef * bool) :=
  match d with
  | None => Ok (None, false)
  | Some d0 => c <- to_coord_pt cu loc ;; Ok (Some (create_pin d0 n (zpt c)), true)
  end.

Section Pins.
  Context (cosQ sinQ : Q -> Q).
  (** what the library does to a transformed coordinate before it is stored in an EPoint2D *)
  Context (rnd : Q -> Z).

  (** EDataMgr.cpp:228-234: the answer and the value of the output argument, which was [loc]; [cu] are the units
      of the database of the component definition *)
  Definition component_pin_location (cu : coord_units) (c : option comp) (n : string) (loc : Q * Q) : res (bool * (Q * Q)) :=
    match c with
    | None => Ok (false, loc)
    | Some c0 =>
        r <- pin_location cosQ sinQ c0 n (0, 0) ;;
        if fst r then Ok (true, to_unit_pt cu (rnd (fst (snd r)), rnd (snd (snd r)))) else Ok (false, loc)
    end.
End Pins.
