(** What a user may assume about the elements of a prism model. *)
From Verif Require Import Base QSum LayerCut_Model PrismExtract_Model.

Section Spec.
  Context {pt table : Type}.
  (** The contract of the priority queue: an index with the smallest area, or nothing from nothing. *)
  Definition smallest_first (ps : list (pdata pt table)) (pq_top : list nat -> option nat) : Prop :=
    forall l, match pq_top l with
              | None => l = []
              | Some i => In i l /\ forall j p q, In j l -> nth_error ps i = Some p -> nth_error ps j = Some q -> (p_area p <= p_area q)%Q
              end.
  (** Bounding boxes hold their polygons. *)
  Definition boxes_hold (ps : list (pdata pt table)) : Prop := forall p x, In p ps -> p_in p x = true -> p_box p x = true.
  (** Layers that share their index vector list the same polygons. *)
  Definition shares (m : lcm) (shared : nat -> bool) : Prop :=
    forall l, shared (S l) = true -> layer_polygons m (S l) = layer_polygons m l.

  (** Polygon [i] lies in layer [l] and contains [x]. *)
  Definition contains_at (ps : list (pdata pt table)) (m : lcm) (l : nat) (x : pt) (i : nat) : Prop :=
    exists v p, layer_polygons m l = Some v /\ In i v /\ nth_error ps i = Some p /\ p_in p x = true.
  (** It is a smallest of them. *)
  Definition innermost (ps : list (pdata pt table)) (m : lcm) (l : nat) (x : pt) (i : nat) : Prop :=
    contains_at ps m l x i /\
    forall j p q, contains_at ps m l x j -> nth_error ps i = Some p -> nth_error ps j = Some q -> (p_area p <= p_area q)%Q.

  Definition solid (fluids : list Z) (p : pdata pt table) : Prop := p_mat p <> noMaterial /\ ~ In (p_mat p) fluids.

  (** The share of block [b] an element carries. *)
  Definition ratio_of (is_b : Z * table -> bool) (e : element table) : Q :=
    match x_power e with Some (r, b) => if is_b b then r else 0 | None => 0 end.
  Definition all_ratios (is_b : Z * table -> bool) (ls : list (list (element table))) : Q := sumf (fun es => sumf (ratio_of is_b) es) ls.
End Spec.
