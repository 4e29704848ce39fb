(** What a built stack-up prism model promises, without reference to how it is built. *)
From Verif Require Import Base Prism_Model Prism_Spec Monitor_Spec.
From Coq Require Import QArith Qabs.
Close Scope Q_scope.
Open Scope nat_scope.

(** A stack ready to be built: every layer has a triangulation of its own, its elements are triangles of it with three existing
    vertices, and their side neighbours are elements of the same layer. *)
Definition stack_wf (m : pmodel) : Prop :=
  forall l y, nth_error (m_layers m) l = Some y -> exists t, alookup Nat.eqb l (m_temps m) = Some t /\
    forall e, In e (y_elems y) -> Forall (in_layer (m_layers m) l) (e_side e) /\
      exists tri, nth_error (t_tris t) (e_tid e) = Some tri /\ List.length (t_vs tri) = 3 /\
        Forall (fun v => v < List.length (t_pts t)) (t_vs tri).

(** Prism [p], number [i] of the model [m] with points [pts]: an element of a layer, with six points of its own, three corners of its
    triangle on the upper level of the layer and three on the lower, and with the numbers of its side neighbours. *)
Definition prism_placed (m : pmodel) (scale : Q) (pts : list pt3) (i : nat) (p : inst) : Prop :=
  exists y e t tri, numbered (m_layers m) (i_lyr p) (i_ele p) i /\
    nth_error (m_layers m) (i_lyr p) = Some y /\ nth_error (y_elems y) (i_ele p) = Some e /\
    alookup Nat.eqb (i_lyr p) (m_temps m) = Some t /\ nth_error (t_tris t) (e_tid e) = Some tri /\
    Forall2 (nb_ok (m_layers m) (i_lyr p)) (e_side e) (i_side p) /\
    i_vs p = seq (6 * i) 6 /\
    forall v x, nth_error (t_vs tri) v = Some x ->
      (exists n q, nth_error (i_vs p) v = Some n /\ nth_error pts n = Some q /\ corner_at (m_layers m) t scale (i_lyr p) x q) /\
      (exists n q, nth_error (i_vs p) (3 + v) = Some n /\ nth_error pts n = Some q /\ corner_at (m_layers m) t scale (i_lyr p + 1) x q).

Section Contacts.
  Context (tarea : template -> nat -> Q) (inter : template -> nat -> template -> nat -> Q).
  (** The contacts of triangle [tid] of [t] with layer [l]: every prism of the layer that has a common area with it, once, with the
      part of the triangle it covers. *)
  Definition contacts_with (m : pmodel) (l : nat) (t : template) (tid : nat) (cs : list (nat * Q)) : Prop :=
    NoDup (map fst cs) /\
    forall j r, In (j, r) cs <-> exists t' tid', prism_of m l j t' tid' /\ (0 < inter t tid t' tid')%Q /\ r = (inter t tid t' tid' / tarea t tid)%Q.
  (** Contacts of prism [i] with the layers above and below. *)
  Definition contacts_ok (m : pmodel) (i : nat) (c : list (nat * Q) * list (nat * Q)) : Prop :=
    forall l t tid, prism_of m l i t tid ->
      (match l with 0 => fst c = [] | Datatypes.S l' => contacts_with m l' t tid (fst c) end) /\
      (if l + 1 =? List.length (m_layers m) then snd c = [] else contacts_with m (l + 1) t tid (snd c)).
End Contacts.

(** The neighbours above and below: the prism itself where there is a layer, none at the ends of the stack. *)
Definition marked (m : pmodel) (i : nat) (p : inst) : Prop :=
  i_top p = (if i_lyr p =? 0 then None else Some i) /\
  i_bot p = (if i_lyr p + 1 =? List.length (m_layers m) then None else Some i).

(** The search for prisms finds those whose box meets the given box; triangles with a common area have boxes that meet. *)
Definition boxes_ok {K} (key : template -> nat -> K) (meets : K -> K -> bool) (inter : template -> nat -> template -> nat -> Q) : Prop :=
  forall t tid t' tid', (0 < inter t tid t' tid')%Q -> meets (key t tid) (key t' tid') = true.

(** ** Bond wires *)
(** The whole number nearest to a number, of two equally near ones that away from zero. *)
Definition nearest_whole (q : Q) (z : Z) : Prop :=
  (Qabs (q - inject_Z z) < 1 # 2)%Q \/ ((Qabs (q - inject_Z z) == 1 # 2)%Q /\ (Qabs q < Qabs (inject_Z z))%Q).
(** The plane of the stack at height [h] is number [l], counted from the top. *)
Definition plane_of (order : list Z) (vscale h : Q) (l : nat) : Prop :=
  exists z, nth_error order l = Some z /\ nearest_whole (h * vscale) z.
(** The height is that of the upper plane of a layer with elements. *)
Definition on_layer (m : pmodel) (order : list Z) (vscale h : Q) : Prop :=
  exists l y, plane_of order vscale h l /\ nth_error (m_layers m) l = Some y /\ y_elems y <> [].

Section Wires.
  Context {K : Type} (key : template -> nat -> K) (dist : Z * Z -> K -> Q) (m : pmodel) (order : list Z) (vscale : Q).
  (** Prism [i] is connected to an end at [p] and height [h]: in the layer below that plane, and no other prism of it is nearer. *)
  Definition end_of (h : Q) (p : Z * Z) (i : nat) : Prop :=
    exists l t tid, plane_of order vscale h l /\ prism_of m l i t tid /\
      forall j tid', prism_of m l j t tid' -> (dist p (key t tid) <= dist p (key t tid'))%Q.

  (** A line from one point of a wire to the next. *)
  Definition on_wire (pts : list pt3) (seg : (Z * Z * Q) * (Z * Z * Q)) (l : line) : Prop :=
    exists a b, nth_error pts (fst (l_ends l)) = Some a /\ nth_error pts (snd (l_ends l)) = Some b /\
      a = {| px := inject_Z (fst (fst (fst seg))) * m_scale m; py := inject_Z (snd (fst (fst seg))) * m_scale m; pz := snd (fst seg) |}%Q /\
      b = {| px := inject_Z (fst (fst (snd seg))) * m_scale m; py := inject_Z (snd (fst (snd seg))) * m_scale m; pz := snd (snd seg) |}%Q.

  (** The lines of one wire of points [ps] with heights [hs], numbered from [id]. *)
  Definition wire_drawn (pts : list pt3) (id : nat) (ps : list (Z * Z)) (hs : list Q) (g : list line) : Prop :=
    List.length ps = 1 /\ g = [] \/
    exists p0 p1 h0 h1 f e, nth_error ps 0 = Some p0 /\ nth_error ps (List.length ps - 1) = Some p1 /\
      nth_error hs 0 = Some h0 /\ nth_error hs (List.length hs - 1) = Some h1 /\ end_of h0 p0 f /\ end_of h1 p1 e /\
      map ties g = path id f e (List.length ps - 1) /\ Forall2 (on_wire pts) (segments (combine ps hs)) g.
  (** Those of several wires, one after the other. *)
  Fixpoint wires_drawn (pts : list pt3) (id : nat) (ws : list (list (Z * Z) * list Q)) (ls : list line) : Prop :=
    match ws with
    | [] => ls = []
    | w :: ws' => exists g r, ls = g ++ r /\ wire_drawn pts id (fst w) (snd w) g /\ wires_drawn pts (id + List.length g) ws' r
    end.
  (** A wire that can be added: as many heights as points, a point at least, and if more, both ends on layers. *)
  Definition wire_fits (ps : list (Z * Z)) (hs : list Q) : Prop :=
    List.length ps = List.length hs /\ ps <> [] /\
    (2 <= List.length ps -> forall h, nth_error hs 0 = Some h \/ nth_error hs (List.length hs - 1) = Some h -> on_layer m order vscale h).
End Wires.
