(** What the network of a stack-up prism model should be. *)
From Verif Require Import Base QSum ThermalNetwork_Model PrismNet_Model WireNet_Model WireNet_Spec.
Open Scope nat_scope.

(** Prism [i] lies on prism [j] or under it, over some share of its face. *)
Definition stacked_on (m : pmodel) (i j : nat) : Prop :=
  exists p r, nth_error (m_prisms m) i = Some p /\
    ((p_top p <> None /\ In (j, r) (p_ctop p)) \/ (p_bot p <> None /\ In (j, r) (p_cbot p))).
Definition beside (m : pmodel) (i j : nat) : Prop := exists p, nth_error (m_prisms m) i = Some p /\ In (Some j) (p_side p).
Definition wired (m : pmodel) (i j : nat) : Prop := exists l, In l (m_lines m) /\ w_id l = i /\ In j (ends l).
Definition meets (m : pmodel) (i j : nat) : Prop := stacked_on m i j \/ beside m i j \/ wired m i j.

(** As extraction leaves it: the faces of a prism are marked with its own number or free, wires are numbered
    after the prisms, contacts lead to other elements, those of prisms to prisms, and are mutual among prisms
    and among segments. *)
Definition stack_well (m : pmodel) : Prop :=
  let np := List.length (m_prisms m) in
  (forall i p, nth_error (m_prisms m) i = Some p -> (p_top p = None \/ p_top p = Some i) /\ (p_bot p = None \/ p_bot p = Some i)) /\
  (forall q l, nth_error (m_lines m) q = Some l -> w_id l = np + q) /\
  (forall i j, meets m i j -> j < np + List.length (m_lines m) /\ j <> i) /\
  (forall i j, stacked_on m i j \/ beside m i j -> j < np) /\
  (forall i j, stacked_on m i j -> stacked_on m j i) /\
  (forall i j, beside m i j -> beside m j i) /\
  (forall i j, wired m i j -> np <= j -> wired m j i).

(** The share of the top (bottom) face that nothing covers. *)
Definition free_share (marker : option nat) (cs : list (nat * Q)) : Q :=
  match marker with None => 1 | Some _ => 1 - sumf snd cs end.

Definition cooled_prism (m : pmodel) (i : nat) : Prop :=
  exists p v, nth_error (m_prisms m) i = Some p /\
    ((m_top m = Some (HTC v) /\ (0 < free_share (p_top p) (p_ctop p))%Q) \/
     (m_bot m = Some (HTC v) /\ (0 < free_share (p_bot p) (p_cbot p))%Q)).

Inductive drains (m : pmodel) : nat -> Prop :=
| drains_here i : cooled_prism m i -> drains m i
| drains_from i j : meets m i j -> drains m j -> drains m i
| drains_to i j : meets m j i -> drains m j -> drains m i.

(** Coefficients are positive and so are the areas. *)
Definition stack_exchange (k : lookups) (m : pmodel) : Prop :=
  (forall i, i < List.length (m_prisms m) -> (0 < k_harea k i)%Q) /\
  (forall v, m_top m = Some (HTC v) \/ m_bot m = Some (HTC v) -> (0 < v)%Q).
Definition stack_no_flux (m : pmodel) : Prop := forall v, m_top m <> Some (HeatFlux v) /\ m_bot m <> Some (HeatFlux v).
