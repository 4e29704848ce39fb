(** What the prism model promises, without reference to how it is built. *)
From Verif Require Import Base Prism_Model.
From Coq Require Import QArith.
Close Scope Q_scope.
Open Scope nat_scope.

(** All (layer, element) pairs, layers from top to bottom and elements in order. *)
Fixpoint pairs_from (k : nat) (ns : list nat) : list (nat * nat) :=
  match ns with
  | [] => []
  | n :: r => map (pair k) (seq 0 n) ++ pairs_from (Datatypes.S k) r
  end.
Definition all_prisms (layers : list player) : list (nat * nat) := pairs_from 0 (sizes layers).

(** Prism [e] of layer [l] has number [i]. *)
Definition numbered (layers : list player) (l e i : nat) : Prop := nth_error (all_prisms layers) i = Some (l, e).

(** Height of a horizontal level: the top of a layer, or the bottom of the last one. *)
Definition level_height (layers : list player) (k : nat) : Q :=
  match nth_error layers k with
  | Some y => y_elev y
  | None => match last (map Some layers) None with Some y => y_elev y - y_thick y | None => 0 end
  end%Q.

(** Where template vertex [x] lies on level [k]. *)
Definition corner_at (layers : list player) (t : template) (scale : Q) (k x : nat) (p : pt3) : Prop :=
  exists xy, nth_error (t_pts t) x = Some xy /\
    p = {| px := inject_Z (fst xy) * scale; py := inject_Z (snd xy) * scale; pz := level_height layers k |}%Q.

(** A model ready to be built: one template for all layers, elements on triangles of the template,
    triangles with three existing vertices, neighbours that exist, no prism above the first layer or
    below the last. *)
Definition in_layer (layers : list player) (l : nat) (n : option nat) : Prop :=
  forall k, n = Some k -> exists y, nth_error layers l = Some y /\ k < List.length (y_elems y).
Definition elem_wf (layers : list player) (t : template) (l : nat) (e : elem) : Prop :=
  e_tid e < List.length (t_tris t) /\
  Forall (in_layer layers l) (e_side e) /\
  (forall k, e_top e = Some k -> exists l', l = Datatypes.S l' /\ in_layer layers l' (e_top e)) /\
  in_layer layers (l + 1) (e_bot e).
Definition wf_model (m : pmodel) (t : template) : Prop :=
  alookup Nat.eqb 0 (m_temps m) = Some t /\
  (forall l, l < List.length (m_layers m) -> alookup Nat.eqb l (m_temps m) = Some t) /\
  Forall (fun tri => List.length (t_vs tri) = 3 /\ Forall (fun v => v < List.length (t_pts t)) (t_vs tri)) (t_tris t) /\
  (forall l y e, nth_error (m_layers m) l = Some y -> In e (y_elems y) -> elem_wf (m_layers m) t l e).

(** The numbers stored as neighbours are the numbers of the named prisms. *)
Definition nb_ok (layers : list player) (l : nat) (local global : option nat) : Prop :=
  match local, global with
  | None, None => True
  | Some k, Some g => numbered layers l k g
  | _, _ => False
  end.

(** The chain of [n] lines of one bond wire: numbers following [id], each line tied to the previous
    one (the first to prism [prev]) and to the next one (the last to prism [fin]). *)
Fixpoint path (id prev fin n : nat) : list (nat * list nat * list nat) :=
  match n with
  | 0 => []
  | Datatypes.S n' =>
      (id, [prev], [match n' with 0 => fin | _ => Datatypes.S id end]) :: path (Datatypes.S id) id fin n'
  end.
Definition ties (l : line) : nat * list nat * list nat := (l_id l, l_front l, l_back l).

(** The consecutive pairs of a list of points. *)
Fixpoint segments {A} (pts : list A) : list (A * A) :=
  match pts with
  | a :: ((b :: _) as r) => (a, b) :: segments r
  | _ => []
  end.
