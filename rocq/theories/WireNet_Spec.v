(** What the network of a prism model with bond wires should be. *)
From Verif Require Import Base QSum ThermalNetwork_Model PrismNet_Model WireNet_Model.
Open Scope nat_scope.

(** The elements a segment is connected to at its two ends. *)
Definition ends (l : wline) : list nat := w_front l ++ w_back l.

(** Element [i] is in contact with element [j]. *)
Definition touches (m : pmodel) (i j : nat) : Prop :=
  (exists p, nth_error (m_prisms m) i = Some p /\ (In (Some j) (p_side p) \/ p_top p = Some j \/ p_bot p = Some j)) \/
  (exists l, In l (m_lines m) /\ w_id l = i /\ In j (ends l)).

(** Prisms are numbered first, then the segments of the wires; contacts lead to other elements of the model,
    contacts of prisms to prisms, and are mutual among prisms and among segments. *)
Definition connected_well (m : pmodel) : Prop :=
  let np := List.length (m_prisms m) in
  let n := np + List.length (m_lines m) in
  (forall q l, nth_error (m_lines m) q = Some l -> w_id l = np + q) /\
  (forall i j, touches m i j -> j < n /\ j <> i) /\
  (forall i j, i < np -> touches m i j -> j < np) /\
  (forall i j, touches m i j -> (i < np <-> j < np) -> touches m j i) /\
  (forall b i, In b (m_blocks m) -> In i (b_found b) -> i < np).

(** The face of a prism with nothing above (below) has the boundary condition [b]. *)
Definition free_face (m : pmodel) (i : nat) (b : bc) : Prop :=
  exists p, nth_error (m_prisms m) i = Some p /\
    ((p_top p = None /\ m_top m = Some b) \/ (p_bot p = None /\ m_bot m = Some b) \/
     exists q, In q (m_blocks m) /\ In i (b_found q) /\ b_bc q = b /\ (if b_top q then p_top p = None else p_bot p = None)).

(** Element [i] has a way through contacts to a face that exchanges heat with the ambient. *)
Inductive has_way_out (m : pmodel) : nat -> Prop :=
| way_here i v : free_face m i (HTC v) -> has_way_out m i
| way_from i j : touches m i j -> has_way_out m j -> has_way_out m i
| way_to i j : touches m j i -> has_way_out m j -> has_way_out m i.

Definition has_bc (m : pmodel) (b : bc) : Prop :=
  m_top m = Some b \/ m_bot m = Some b \/ exists q, In q (m_blocks m) /\ b_bc q = b.

Definition positive_exchange (k : lookups) (m : pmodel) : Prop :=
  (forall i, i < List.length (m_prisms m) -> (0 < k_harea k i)%Q) /\ (forall v, has_bc m (HTC v) -> (0 < v)%Q).

Definition no_flux (m : pmodel) : Prop := forall v, ~ has_bc m (HeatFlux v).

(** Physical quantities of one segment at temperature [t]. *)
Definition mean_conductivity (k : lookups) (l : wline) (t : Q) : Q :=
  ((fst (fst (k_cond k (w_mat l) t)) + snd (fst (k_cond k (w_mat l) t)) + snd (k_cond k (w_mat l) t)) / 3)%Q.
(** from the middle of the segment to one end *)
Definition half_resistance (k : lookups) (l : wline) (t : Q) : Q :=
  (w_len l / 2 / (mean_conductivity k l t * w_area l))%Q.
(** current squared times electrical resistance *)
Definition joule_heat (k : lookups) (l : wline) (t : Q) : Q :=
  (w_current l * w_current l * (k_resist k (w_mat l) t * w_len l / w_area l))%Q.
Definition heat_capacity (k : lookups) (l : wline) (t : Q) : Q :=
  (k_density k (w_mat l) t * (w_area l * w_len l) * k_heat k (w_mat l) t)%Q.

(** Segments have a size, materials conduct and resist *)
Definition physical (k : lookups) (m : pmodel) : Prop :=
  forall l, In l (m_lines m) -> (0 < w_len l)%Q /\ (0 < w_area l)%Q /\
    forall t, (0 <= k_resist k (w_mat l) t)%Q /\ (0 < mean_conductivity k l t)%Q.

Definition times_named (l : wline) (j : nat) : Q := inject_Z (Z.of_nat (count_occ Nat.eq_dec (ends l) j)).

(** The powers of all prisms. *)
Definition prism_powers (k : lookups) (m : pmodel) (T : list Q) : Q :=
  sumf (fun i => match k_power k T i with Some (p, _) => p | None => 0%Q end) (seq 0 (List.length (m_prisms m))).
Definition joule_heats (k : lookups) (m : pmodel) (T : list Q) : Q :=
  sumf (fun l => joule_heat k l (nth (w_id l) T 0%Q)) (m_lines m).
