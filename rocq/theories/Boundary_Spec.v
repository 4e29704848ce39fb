(** What is said about the boundary of a layout and about the picture. *)
From Verif Require Import Base QSum.
From Verif Require Import Transform_Model Transform_Spec Shape_Model Shape_Spec Boundary_Model.
Local Open Scope Q_scope.

Section S.
  Context (cosQ sinQ rnd : Q -> Q) (stroke : list pt -> Q -> list pt) (inscribed : pt -> Q -> nat -> list pt).
  Definition rmoves (t : transform) (p : pt) : pt := (rnd (fst (moves cosQ sinQ t p)), rnd (snd (moves cosQ sinQ t p))).

  (** A geometry of the layout on one of its layers. *)
  Definition geometry (l : lay) (s : shape) : Prop := exists k, In (BGeom k (Some s)) (la_prims l) /\ In k (la_layers l).

  (** The points of the geometries of a layout and, moved into place, of the layouts placed in it, at any depth. *)
  Inductive placed (h : list lay) : nat -> pt -> Prop :=
  | pl_geom i l s p : nth_error h i = Some l -> geometry l s -> valid s = true -> In p (contour cosQ sinQ rnd stroke inscribed s) ->
      placed h i p
  | pl_inst i l c d p : nth_error h i = Some l -> In c (la_insts l) -> bi_def c = Some d -> placed h d p ->
      placed h i (rmoves (bi_tr c) p).

  (** The boundary as a function of the contents: the smallest box of the boxes of the geometries and of the
      boundaries of the placed layouts, each moved into place.  [nobox] is the outline of a layout that has none. *)
  Context (nobox : list pt).
  Definition corner_points (b : option box) : list pt :=
    match b with
    | Some ((x0, y0), (x1, y1)) => [(x0, y0); (x1, y0); (x1, y1); (x0, y1)]
    | None => nobox
    end.
  Definition least (P : pt -> Prop) (b : option box) : Prop :=
    match b with
    | None => forall p, ~ P p
    | Some b => exists ps, (forall p, In p ps <-> P p) /\ least_box ps b
    end.
  Inductive bound_of (h : list lay) : nat -> option box -> Prop :=
  | bo i l bs b : nth_error h i = Some l ->
      Forall2 (fun c b' => exists d, bi_def c = Some d /\ bound_of h d b') (la_insts l) bs ->
      least (fun p => (exists s sb, geometry l s /\ bbox cosQ sinQ rnd stroke s = Some sb /\ In p (corner_points (Some sb))) \/
                      (exists k c b' q, nth_error (la_insts l) k = Some c /\ nth_error bs k = Some b' /\
                                        In q (corner_points b') /\ p = rmoves (bi_tr c) q)) b ->
      bound_of h i b.

  (** Two families of layouts with the same contents. *)
  Definition same_contents (h h' : list lay) : Prop :=
    Forall2 (fun a b => la_layers a = la_layers b /\ la_prims a = la_prims b /\ la_insts a = la_insts b) h h'.
  (** No boundary was computed or set yet. *)
  Definition unbounded (h : list lay) : Prop := forall l, In l h -> la_bound l = None.
End S.

(** What a history of edits has put into layout [i]. *)
Definition added_layers (i : nat) (ops : list b_op) : list Z :=
  flat_map (fun o => match o with BAddLayer j l => if (j =? i)%nat then [l] else [] | _ => [] end) ops.
Definition added_insts (i : nat) (ops : list b_op) : list binst :=
  flat_map (fun o => match o with BAddInst j c => if (j =? i)%nat then [c] else [] | _ => [] end) ops.
(** Geometries since they were last cleared *)
Fixpoint added_prims (i : nat) (ops : list b_op) (sofar : list bprim) : list bprim :=
  match ops with
  | [] => sofar
  | BAddPrim j p :: r => added_prims i r (if (j =? i)%nat then sofar ++ [p] else sofar)
  | BClear j :: r => added_prims i r (if (j =? i)%nat then [] else sofar)
  | _ :: r => added_prims i r sofar
  end.
Definition edit (o : b_op) : Prop := match o with BSet _ _ | BGet _ => False | _ => True end.

(** Calls that are not SetBoundary of layout [i]. *)
Definition not_set (i : nat) (o : b_op) : Prop := match o with BSet j _ => j <> i | _ => True end.
