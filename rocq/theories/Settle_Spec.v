(** How the transient simulation of a prism model should behave in the long run. *)
From Verif Require Import Base QSum ThermalNetwork_Model PrismNet_Model WireNet_Model WireNet_Spec PrismRates_Spec.
Open Scope Q_scope.

Definition elements (m : pmodel) : nat := List.length (m_prisms m) + List.length (m_lines m).

(** every scenario of the model runs at its nominal power at time [t] *)
Definition nominal (k : lookups) (m : pmodel) (T : list Q) (e : option (Q -> Z -> Q)) (t : Q) : Prop :=
  forall f i s, e = Some f -> element_scenario k m T i = Some s -> f t (Z.of_nat s) == 1.

Definition stores (k : lookups) (m : pmodel) (T : list Q) : Prop := forall i, (i < elements m)%nat -> 0 < element_capacity k m T i.

(** how fast the distance of the temperatures [x] and [y], weighted with the capacities, grows when they change at the
    rates [v] and [w] *)
Definition spread (k : lookups) (m : pmodel) (T : list Q) (x y v w : nat -> Q) : Q :=
  sumf (fun i => element_capacity k m T i * (x i - y i) * (v i - w i)) (seq 0 (elements m)).
