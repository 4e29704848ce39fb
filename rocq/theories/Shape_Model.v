(** Shapes (src/basic/EShape.cpp).  Coordinates are rationals; [rnd] is what the geometry library does to a
    transformed coordinate before it is stored.  Matrices are those of Transform_Model.  The outline of a path
    ([stroke]) and of a circle ([inscribed]) come from the library. *)
From Verif Require Import Base QSum.
From Verif Require Import Transform_Model.
Local Open Scope Q_scope.

(** lower left and upper right corner; an empty box (EBox2D()) is [None] where it can occur *)
Definition box : Type := (pt * pt)%type.

(** the points of toPolygon(box) *)
Definition corners (b : box) : list pt :=
  [fst b; (fst (snd b), snd (fst b)); snd b; (fst (fst b), snd (snd b))].

(** Extent of points; box and box union *)
Definition box_union (a b : box) : box :=
  ((Qmin (fst (fst a)) (fst (fst b)), Qmin (snd (fst a)) (snd (fst b))),
   (Qmax (fst (snd a)) (fst (snd b)), Qmax (snd (snd a)) (snd (snd b)))).
Definition extent1 (p : pt) (ps : list pt) : box := fold_left (fun b q => box_union b (q, q)) ps (p, p).
Definition extent (ps : list pt) : option box := match ps with [] => None | p :: ps' => Some (extent1 p ps') end.

(** EShape.h:34-215.  A template is shared and not changed (ECadAlias.h:63), so it is a value here; [None] is a
    null pointer. *)
Inductive shape :=
| Rect (b : box)
| Path (ps : list pt) (w : Q)
| Circle (o : pt) (r : Q) (div : nat)
| Poly (ps : list pt)
| PolyH (o : list pt) (hs : list (list pt))
| Templ (s : option shape) (t : transform).

Section Shape.
  Context (cosQ sinQ rnd : Q -> Q).
  Context (stroke : list pt -> Q -> list pt) (inscribed : pt -> Q -> nat -> list pt).

  (** generic::geometry::Transform of a point *)
  Definition pmap (m : aff) (p : pt) : pt := (rnd (fst (aff_apply m p)), rnd (snd (aff_apply m p))).
  (** Extent(matrix * box) *)
  Definition turn_box (m : aff) (b : box) : box := extent1 (pmap m (fst b)) (map (pmap m) (corners b)).

  (** EShape.cpp:116-119, 154-157, 212-215, 260-263, 310-313, 361-364 *)
  Definition move (t : transform) (s : shape) : shape :=
    let m := get_transform cosQ sinQ t in
    match s with
    | Rect b => Rect (turn_box m b)
    | Path ps w => Path (map (pmap m) ps) w
    | Circle o r d => Circle (pmap m o) r d
    | Poly ps => Poly (map (pmap m) ps)
    | PolyH o hs => PolyH (map (pmap m) o) (map (map (pmap m)) hs)
    | Templ s0 t0 => Templ s0 (append cosQ sinQ t0 t)
    end.

  (** EShape.cpp:126-129, 164-167, 222-225, 270-273, 320-323, 371-375 *)
  Fixpoint valid (s : shape) : bool :=
    match s with
    | Rect b => Qle_bool (fst (fst b)) (fst (snd b)) && Qle_bool (snd (fst b)) (snd (snd b))
    | Path ps w => negb (List.length ps =? 0)%nat && negb (Qeq_bool w 0)
    | Circle _ r d => negb (Qle_bool r 0) && (3 <=? d)%nat
    | Poly ps => (3 <=? List.length ps)%nat
    | PolyH o _ => (3 <=? List.length o)%nat
    | Templ s0 _ => match s0 with Some s1 => valid s1 | None => false end
    end.

  (** EShape.cpp:94-97, 142-145, 200-203, 248-251, 300-303, 345-351 *)
  Fixpoint contour (s : shape) : list pt :=
    match s with
    | Rect b => corners b
    | Path ps w => stroke ps w
    | Circle o r d => inscribed o r d
    | Poly ps => ps
    | PolyH o _ => o
    | Templ s0 t => match s0 with
                    | Some s1 => if valid s1 then map (pmap (get_transform cosQ sinQ t)) (contour s1) else []
                    | None => []
                    end
    end.

  (** EShape.cpp:89-92, 137-140, 194-198, 243-246, 295-298, 338-343 *)
  Fixpoint bbox (s : shape) : option box :=
    match s with
    | Rect b => Some b
    | Path ps w => extent (stroke ps w)
    | Circle o r _ => Some ((fst o - r, snd o - r), (fst o + r, snd o + r))
    | Poly ps => extent ps
    | PolyH o _ => extent o
    | Templ s0 t => match s0 with
                    | Some s1 => if valid s1 then option_map (turn_box (get_transform cosQ sinQ t)) (bbox s1) else None
                    | None => None
                    end
    end.

  (** EShape.cpp:99-104, 147-152, 205-210, 253-258, 305-308, 353-359: outline and holes *)
  Fixpoint with_holes (s : shape) : list pt * list (list pt) :=
    match s with
    | PolyH o hs => (o, hs)
    | Templ s0 t => match s0 with
                    | Some s1 => if valid s1
                                 then (map (pmap (get_transform cosQ sinQ t)) (fst (with_holes s1)),
                                       map (map (pmap (get_transform cosQ sinQ t))) (snd (with_holes s1)))
                                 else ([], [])
                    | None => ([], [])
                    end
    | _ => (contour s, [])
    end.

  (** EShape.cpp:84-87, 132-135, 189-192, 238-241, 290-293, 332-336 *)
  Fixpoint has_hole (s : shape) : bool :=
    match s with
    | PolyH _ hs => negb (List.length hs =? 0)%nat
    | Templ s0 _ => match s0 with Some s1 => if valid s1 then has_hole s1 else false | None => false end
    | _ => false
    end.

  (** Asking for box, contour or outline evaluates and keeps the matrix of a valid shape made from a template
      (EShape.cpp:338-359, ETransform.h:104-116). *)
  Fixpoint queried (s : shape) : shape :=
    match s with
    | Templ (Some s1) t => if valid s1 then Templ (Some (queried s1)) (read cosQ sinQ t) else s
    | _ => s
    end.

  (** EShape.cpp:18-81: written and read back; of a transform only the items are written (ETransform.h:54-60) *)
  Fixpoint archived (s : shape) : shape :=
    match s with
    | Templ s0 t => Templ (match s0 with Some s1 => Some (archived s1) | None => None end) (load (save t))
    | _ => s
    end.

  Inductive s_op := SMove (t : transform) | SQuery.
  Definition s_step (s : shape) (o : s_op) : shape := match o with SMove t => move t s | SQuery => queried s end.
  Definition s_run (s : shape) (ops : list s_op) : shape := fold_left s_step ops s.
End Shape.
