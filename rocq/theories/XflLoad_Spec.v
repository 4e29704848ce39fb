(** What the elements of an XFL file ask for. *)
From Coq Require Import Ascii.
From Verif Require Import Base QSum Units_Model Names_Model Net_Model LayerMap_Model Layers_Model Xfl_Model Padstack_Model XflGeom_Model XflGeom_Spec XflFile_Model XflLoad_Model.
From Verif Require Import XflText_Model XflText_Spec.
Local Close Scope Q_scope.
Local Open Scope list_scope.

(** The elements of a kind, in the order of the file *)
Definition units_of (cs : list call) : list string := flat_map (fun c => match c with CUnit u => [u] | _ => [] end) cs.
Definition scales_of (cs : list call) : list QArith_base.Q := flat_map (fun c => match c with CScale q => [q] | _ => [] end) cs.
Definition boards_of (cs : list call) : list board := flat_map (fun c => match c with CBoard b => [b] | _ => [] end) cs.
Definition mats_of (cs : list call) : list material := flat_map (fun c => match c with CMaterial m => [m] | _ => [] end) cs.
Definition layers_of (cs : list call) : list layer := flat_map (fun c => match c with CLayer l => [l] | _ => [] end) cs.
Definition templates_of (cs : list call) : list template := flat_map (fun c => match c with CShape t => [t] | _ => [] end) cs.
Definition padstacks_of (cs : list call) : list padstack := flat_map (fun c => match c with CPadstack p => [p] | _ => [] end) cs.
Definition vias_of (cs : list call) : list via := flat_map (fun c => match c with CVia v => [v] | _ => [] end) cs.
Definition nets_of (cs : list call) : list net := flat_map (fun c => match c with CNet n => [n] | _ => [] end) cs.
Definition routes_of (cs : list call) : list route := flat_map (fun c => match c with CRoute r => [r] | _ => [] end) cs.

(** [x] is the last one *)
Definition is_last {A} (x : A) (l : list A) : Prop := exists before, l = before ++ [x].

(** A via whose padstack and shape the file has, and whose material, if it names one *)
Definition via_complete (cs : list call) (v : via) : Prop :=
  In (v_padstack v) (map ps_id (padstacks_of cs)) /\ In (v_shape v) (map t_id (templates_of cs)) /\
  (v_mat v = ""%string \/ In (v_mat v) (map m_name (mats_of cs))).
(** [sub] is the list of those of [l] for which [f] holds *)
Inductive those {A} (f : A -> Prop) : list A -> list A -> Prop :=
| those_nil : those f [] []
| those_in a l sub : f a -> those f l sub -> those f (a :: l) (a :: sub)
| those_out a l sub : ~ f a -> those f l sub -> those f (a :: l) sub.

(** What a file must have to be imported *)
Record complete (cs : list call) : Prop := {
  co_scale : exists q, In (CScale q) cs;
  co_unit : exists u, In (CUnit u) cs;
  co_vias : forall vs, those (via_complete cs) (vias_of cs) vs -> NoDup (map v_name vs);
  co_board : forall i p r m f, is_last (BShape i p r m f) (boards_of cs) -> ~ In i (map t_id (templates_of cs))
}.

(** [n] was made for the [i]th material: the first material of a name gives its layers and vias their material *)
Definition first_named (name : string) (i : nat) (ms : list material) : Prop :=
  (exists m, nth_error ms i = Some m /\ m_name m = name) /\ forall j m, (j < i)%nat -> nth_error ms j = Some m -> m_name m <> name.

(** ** Objects *)
(** the same shape in the words of the reader and of the importer *)
Inductive same_piece : piece -> XflGeom_Model.piece -> Prop :=
| sp_point p : same_piece (PPoint p) (CPoint p)
| sp_arc fin mid : same_piece (PArc 0 fin mid) (CArc Arc mid fin)
| sp_rarc fin mid : same_piece (PArc 1 fin mid) (CArc RArc mid fin).
Inductive same_shape : shape -> file_shape -> Prop :=
| ss_polygon ps : same_shape (SPolygon ps) (FPolygon ps)
| ss_composite cs ds : Forall2 same_piece cs ds -> same_shape (SComposite cs) (FComposite ds)
| ss_rectangle w h : same_shape (SRectangle w h) (FRectangle w h)
| ss_square w : same_shape (SSquare w) (FSquare w)
| ss_circle d : same_shape (SCircle d) (FCircle d)
| ss_annular outer inner : same_shape (SAnnular outer inner) (FAnnular inner outer)
| ss_oblong w l r : same_shape (SOblong w l r) (FOblong w l r)
| ss_bullet w l r : same_shape (SBullet w l r) (FBullet w l r)
| ss_finger w l r : same_shape (SFinger w l r) (FFinger w l r).

(** layer [i] of the file is its metal layer number [k] *)
Definition metal_number (ls : list layer) (k : Z) (i : nat) : Prop :=
  exists l, nth_error ls i = Some l /\ ly_type l <> "D"%char /\
    k = (1 + Z.of_nat (List.length (filter (fun x => negb (Ascii.eqb (ly_type x) "D")) (firstn i ls))))%Z.

Section Drawn.
  Context {S : Type} (place : placement -> eshape -> S) (path : QArith_base.Q -> eshape -> S).
  Context (arcs : pt -> XflGeom_Model.arc_kind -> pt -> pt -> list pt) (scale : QArith_base.Q) (template : Z -> option eshape).
  Definition becomes (s : shape) (e : eshape) : Prop := exists f, same_shape s f /\ get_shape scale arcs f = Ok e.
  (** the shape of the first template of each number *)
  Definition templates_are (ts : list XflText_Model.template) : Prop := forall id,
    match List.find (fun t => (t_id t =? id)%Z) ts with
    | Some t => exists e, becomes (t_shape t) e /\ template id = Some e
    | None => template id = None
    end.
  (** what an object of a route is for the importer; points are met within one step *)
  Inductive drawn : inst -> obj S -> Prop :=
  | dr_path l w cs e : becomes (SComposite cs) e -> drawn (IPath l w cs) (OPath l (Some (path (w * scale)%Q e)))
  | dr_via first last n loc rot mirror : drawn (IVia first last n loc rot mirror) (OVia first last n)
  | dr_wire first last id a b : drawn (IBondwire first last id a b) OBondwire
  | dr_shape v l s loc z e : becomes s e -> (forall a b, s <> SAnnular a b) -> point_about z (scaled scale loc) ->
      drawn (IShape v l s loc) (OShape v l (Some (place (At z 0%Q "N" true) e)))
  | dr_ring v l outer inner loc z e : becomes (SAnnular outer inner) e -> point_about z (scaled scale loc) ->
      drawn (IShape v l (SAnnular outer inner) loc) (OAnnular l (place (At z 0%Q "N" true) e))
  | dr_outline v l s e : becomes s e -> drawn (IOutline v l s) (OShape v l (Some (place Unplaced e)))
  | dr_template v l id loc rot mirror first z : point_about z (scaled scale loc) ->
      drawn (ITemplate v l id loc rot mirror first) (OShape v l (option_map (place (At z rot mirror first)) (template id))).
  (** what a pad is for the importer: its shape and its metal layer *)
  Definition pad_of (d : pad) : option eshape * Z := (template (p_shape d), p_layer d).
End Drawn.
