(** What monitored points are promised, without reference to how they are looked up. *)
From Verif Require Import Base Prism_Model Prism_Spec PrismNet_Spec.
From Coq Require Import QArith Qround Permutation.
Close Scope Q_scope.
Open Scope nat_scope.

(** A model that was built once: the prisms are those of the layers in number order, with the running counts as
    offsets, and every layer has a triangulation. *)
Fixpoint counts (acc : nat) (ns : list nat) : list nat :=
  acc :: match ns with [] => [] | n :: r => counts (acc + n) r end.
Definition built (m : pmodel) : Prop :=
  m_offs m = counts 0 (map (fun y => List.length (y_elems y)) (m_layers m)) /\
  map (fun p => (i_lyr p, i_ele p)) (m_prisms m) = all_prisms (m_layers m) /\
  forall l, l < List.length (m_layers m) -> exists t, alookup Nat.eqb l (m_temps m) = Some t.

(** Prism [i] of the model is an element of layer [l] on triangle [tid] of triangulation [t]. *)
Definition prism_of (m : pmodel) (l i : nat) (t : template) (tid : nat) : Prop :=
  exists y k e, nth_error (m_layers m) l = Some y /\ nth_error (y_elems y) k = Some e /\ e_tid e = tid /\
    numbered (m_layers m) l k i /\ alookup Nat.eqb l (m_temps m) = Some t.

(** The layer a height belongs to: the one around it, the first above the stack, the last below. *)
Definition layer_at (ls : list (Q * Q)) (z : Q) (l : nat) : Prop :=
  in_layer_k ls l z \/
  (l = 0 /\ exists e t r, ls = (e, t) :: r /\ (e <= z)%Q) \/
  (below_all ls z /\ ls <> [] /\ l = List.length ls - 1).

(** The grid point of a coordinate: the fraction is dropped, towards zero; it has to be one of 64 bits. *)
Definition whole (q : Q) (z : Z) : Prop :=
  (if Qlt_le_dec q 0 then z = Qceiling q else z = Qfloor q) /\ (- 2 ^ 63 <= z < 2 ^ 63)%Z.

(** Where a monitor can be looked up: in the range of the coordinates, at a height whose layer has elements, and for
    [strict], a prism model, not on the top surface. *)
Definition monitorable (strict : bool) (m : pmodel) (mon : Q * Q * Q) : Prop :=
  let ls := map (fun y => (y_elev y, y_thick y)) (m_layers m) in
  (exists px, whole (fst (fst mon) / m_scale m) px) /\ (exists py, whole (snd (fst mon) / m_scale m) py) /\
  (strict = true -> forall e t r, ls = (e, t) :: r -> ~ (snd mon == e)%Q) /\
  (forall l y, layer_at ls (snd mon) l -> nth_error (m_layers m) l = Some y -> y_elems y <> []).

Section Nearest.
  Context {K : Type} (dist : Z * Z -> K -> Q).
  (** The query for the nearest entry: nothing from an empty tree, else one of those at the least distance. *)
  Definition nearest_ok (nearest : list (K * nat) -> Z * Z -> list (K * nat)) : Prop :=
    forall tr p, match tr with
                 | [] => nearest tr p = []
                 | _ => exists v, nearest tr p = [v] /\ In v tr /\ forall w, In w tr -> (dist p (fst v) <= dist p (fst w))%Q
                 end.
  (** [i] is the prism of monitor [mon]: in the layer of its height, and no prism of that layer is nearer. *)
  Definition attached (key : template -> nat -> K) (m : pmodel) (mon : Q * Q * Q) (i : nat) : Prop :=
    exists l px py t tid,
      layer_at (map (fun y => (y_elev y, y_thick y)) (m_layers m)) (snd mon) l /\
      whole (fst (fst mon) / m_scale m) px /\ whole (snd (fst mon) / m_scale m) py /\
      prism_of m l i t tid /\
      forall j tid', prism_of m l j t tid' -> (dist (px, py) (key t tid) <= dist (px, py) (key t tid'))%Q.
End Nearest.

(** Area queries: every entry that matches, once, and nothing else. *)
Definition select_ok {K A : Type} (matches : A -> K -> bool) (select : A -> list (K * nat) -> list (K * nat)) : Prop :=
  forall a tr, Permutation (select a tr) (filter (fun v => matches a (fst v)) tr).

(** Centres and squared distances of points; boxes as lower left and upper right corner. *)
Definition pt_dist (p q : Z * Z) : Q := inject_Z ((fst p - fst q) * (fst p - fst q) + (snd p - snd q) * (snd p - snd q)).
Definition in_box (p : Z * Z) (b : (Z * Z) * (Z * Z)) : Prop :=
  (fst (fst b) <= fst p <= fst (snd b))%Z /\ (snd (fst b) <= snd p <= snd (snd b))%Z.
Definition gap (lo hi x : Z) : Z := Z.max 0 (Z.max (lo - x) (x - hi)).
Definition box_dist (p : Z * Z) (b : (Z * Z) * (Z * Z)) : Q :=
  let dx := gap (fst (fst b)) (fst (snd b)) (fst p) in
  let dy := gap (snd (fst b)) (snd (snd b)) (snd p) in inject_Z (dx * dx + dy * dy).

(** A point strictly inside a triangle: the same strict side of its three edges. *)
Definition side_of (a b p : Z * Z) : Z := (fst b - fst a) * (snd p - snd a) - (snd b - snd a) * (fst p - fst a).
Definition inside_triangle (t : template) (tid : nat) (p : Z * Z) : Prop :=
  exists tri a b c A B C, nth_error (t_tris t) tid = Some tri /\ t_vs tri = [a; b; c] /\
    nth_error (t_pts t) a = Some A /\ nth_error (t_pts t) b = Some B /\ nth_error (t_pts t) c = Some C /\
    (0 < side_of A B p)%Z /\ (0 < side_of B C p)%Z /\ (0 < side_of C A p)%Z.
