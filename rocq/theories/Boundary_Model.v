(** The boundary of a layout (src/utility/ELayoutRetriever.cpp:279-320, src/design/ELayoutView.cpp:290-300) and
    what is drawn of it (src/utility/ELayoutViewRenderer.cpp).  Layouts are numbered; a cell instance names its
    definition layout. *)
From Verif Require Import Base QSum.
From Verif Require Import Transform_Model Shape_Model.
Local Open Scope Q_scope.
Local Open Scope res_scope.

(** A primitive with its layer: a geometry (its shape may be missing), a text, or a bond wire. *)
Inductive bprim := BGeom (lyr : Z) (s : option shape) | BText (lyr : Z) | BWire (lyr : Z) (p q : pt).
Definition bp_layer (p : bprim) : Z := match p with BGeom l _ => l | BText l => l | BWire l _ _ => l end.

(** src/design/ECellInst.h: the definition layout (may be null) and the placement *)
Record binst := mkBI { bi_def : option nat; bi_tr : transform }.
Record lay := mkLay { la_layers : list Z; la_prims : list bprim; la_insts : list binst; la_bound : option shape }.
Definition set_bound (l : lay) (s : option shape) : lay := mkLay (la_layers l) (la_prims l) (la_insts l) s.

Fixpoint update {A} (l : list A) (i : nat) (f : A -> A) : list A :=
  match l, i with
  | [], _ => []
  | x :: l', O => f x :: l'
  | x :: l', Datatypes.S i' => x :: update l' i' f
  end.

(** EBox2D::operator|= ; [None] is an empty box *)
Definition ounion (a b : option box) : option box :=
  match a, b with None, _ => b | _, None => a | Some x, Some y => Some (box_union x y) end.

Section Boundary.
  Context (cosQ sinQ rnd : Q -> Q) (stroke : list pt -> Q -> list pt).
  (** toPolygon of an empty box; the order in which an unordered map is walked *)
  Context (nobox : list pt) (order : list (Z * option box) -> list (Z * option box)).

  (** bounds[layer] |= box *)
  Fixpoint add_bound (bs : list (Z * option box)) (l : Z) (b : option box) : list (Z * option box) :=
    match bs with
    | [] => []
    | (k, c) :: bs' => if (k =? l)%Z then (k, ounion c b) :: bs' else (k, c) :: add_bound bs' l b
    end.
  (** 283-286 *)
  Definition layer_bounds (ls : list Z) : list (Z * option box) :=
    fold_left (fun bs l => aemplace Z.eqb l None bs) ls [].
  (** 288-305 *)
  Fixpoint prim_bounds (bs : list (Z * option box)) (ps : list bprim) : list (Z * option box) :=
    match ps with
    | [] => bs
    | p :: ps' =>
        prim_bounds (if acount Z.eqb (bp_layer p) bs
                     then match p with
                          | BGeom l (Some s) => add_bound bs l (bbox cosQ sinQ rnd stroke s)
                          | _ => bs
                          end
                     else bs) ps'
    end.
  (** 307-308 *)
  Definition own_bound (l : lay) : option box :=
    fold_left (fun a e => ounion a (snd e)) (order (prim_bounds (layer_bounds (la_layers l)) (la_prims l))) None.

  Definition outline_of (b : option box) : list pt := match b with Some b => corners b | None => nobox end.

  (** ELayoutRetriever.cpp:310-319; [get] is GetBoundary of the definition layouts, which keeps what it computes *)
  Fixpoint place_insts (get : list lay -> nat -> res (list lay * shape)) (i : nat) (h : list lay) (b : option box)
      (is : list binst) : res (list lay * shape) :=
    match is with
    | [] => let s := Poly (outline_of b) in Ok (update h i (fun l => set_bound l (Some s)), s)
    | c :: is' =>
        match bi_def c with
        | None => UB
        | Some d =>
            r <- get h d ;;
            place_insts get i (fst r) (ounion b (bbox cosQ sinQ rnd stroke (move cosQ sinQ rnd (bi_tr c) (snd r)))) is'
        end
    end.
  (** ELayoutView.cpp:295-300, ELayoutRetriever.cpp:279-320: the boundary is computed once and kept. *)
  Fixpoint get_boundary (fuel : nat) (h : list lay) (i : nat) : res (list lay * shape) :=
    match nth_error h i with
    | None => UB
    | Some l =>
        match la_bound l with
        | Some s => Ok (h, s)
        | None =>
            match fuel with
            | O => OutOfFuel
            | Datatypes.S fuel' => place_insts (get_boundary fuel') i h (own_bound l) (la_insts l)
            end
        end
    end.

  (** Edits of layouts and calls of GetBoundary. *)
  Inductive b_op :=
  | BAddLayer (i : nat) (l : Z) | BAddPrim (i : nat) (p : bprim) | BAddInst (i : nat) (c : binst)
  | BClear (i : nat) | BSet (i : nat) (s : option shape) | BGet (i : nat).
  Definition b_step (fuel : nat) (h : list lay) (o : b_op) : res (list lay) :=
    match o with
    | BAddLayer i l => Ok (update h i (fun a => mkLay (la_layers a ++ [l]) (la_prims a) (la_insts a) (la_bound a)))
    | BAddPrim i p => Ok (update h i (fun a => mkLay (la_layers a) (la_prims a ++ [p]) (la_insts a) (la_bound a)))
    | BAddInst i c => Ok (update h i (fun a => mkLay (la_layers a) (la_prims a) (la_insts a ++ [c]) (la_bound a)))
    | BClear i => Ok (update h i (fun a => mkLay (la_layers a) [] (la_insts a) (la_bound a)))
    | BSet i s => Ok (update h i (fun a => set_bound a s))
    | BGet i => r <- get_boundary fuel h i ;; Ok (fst r)
    end.
  Fixpoint b_run (fuel : nat) (h : list lay) (ops : list b_op) : res (list lay) :=
    match ops with [] => Ok h | o :: ops' => h' <- b_step fuel h o ;; b_run fuel h' ops' end.
End Boundary.

(** ** Drawing *)

(** A component: its placement layer and its boundary as outline and holes, if there is one; a primitive with its
    net and layer: bond wire, geometry (outline and holes; a null shape is dereferenced) or other. *)
Definition pwh : Type := (list pt * list (list pt))%type.
Record rcomp := mkRC { rc_layer : Z; rc_bound : option pwh }.
Inductive rkind := RWire (p q : pt) | RGeom (g : option pwh) | ROther.
Record rprim := mkRP { rp_net : Z; rp_layer : Z; rp_kind : rkind }.

Section Render.
  (** src/basic/ECadSettings.h, ELayoutViewRendererSettings: the selections *)
  Context (nets layers : list Z).

  (** ELayoutViewRenderer.cpp:37-52 *)
  Fixpoint draw_comps (cs : list rcomp) : list (list pt) :=
    match cs with
    | [] => []
    | c :: cs' =>
        match rc_bound c with
        | None => draw_comps cs'
        | Some g =>
            if negb (List.length layers =? 0)%nat && existsb (Z.eqb (rc_layer c)) layers then draw_comps cs'
            else fst g :: snd g ++ draw_comps cs'
        end
    end.
  (** 54-79 *)
  Fixpoint draw_prims (ps : list rprim) : res (list (list pt)) :=
    match ps with
    | [] => Ok []
    | p :: ps' =>
        if negb (List.length nets =? 0)%nat && existsb (Z.eqb (rp_net p)) nets then draw_prims ps'
        else if negb (List.length layers =? 0)%nat && existsb (Z.eqb (rp_layer p)) layers then draw_prims ps'
        else match rp_kind p with
             | RWire a b => r <- draw_prims ps' ;; Ok ([a; b] :: r)
             | RGeom None => UB
             | RGeom (Some g) => r <- draw_prims ps' ;; Ok (fst g :: snd g ++ r)
             | ROther => draw_prims ps'
             end
    end.
  (** 26-87: the polygons handed to the picture writer; [bnd] is the contour of the boundary *)
  Definition draw (bnd : list pt) (cs : list rcomp) (ps : list rprim) : res (list (list pt)) :=
    r <- draw_prims ps ;; Ok (bnd :: draw_comps cs ++ r).
End Render.
