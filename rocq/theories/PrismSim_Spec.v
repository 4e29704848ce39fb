(** What a user may assume about the static simulation of a prism model *)
From Verif Require Import Base QSum ThermalNetwork_Model ThermalNetwork_Spec Steady_Spec PrismNet_Model WireNet_Model WireNet_Spec.
Open Scope Q_scope.

Definition elements (m : pmodel) : nat := List.length (m_prisms m) + List.length (m_lines m).

(** well connected, and everything in contact with a face that exchanges heat with the ambient *)
Definition coolable (k : lookups) (m : pmodel) : Prop :=
  connected_well m /\ positive_exchange k m /\ forall i, (i < elements m)%nat -> has_way_out m i.

(** [T] is the steady state of the network built for the temperatures [prev] *)
Definition balanced (minR : Q) (k : lookups) (m : pmodel) (envT : Q) (prev T : list Q) : Prop :=
  List.length T = elements m /\
  exists net M, wire_build k m minR prev = Ok (Some net) /\ make_mna net true [] = Ok M /\
    equilibrium net M envT (fun i => nth i T 0).

(** neither powers nor materials depend on the temperature *)
Definition constant_laws (k : lookups) : Prop :=
  (forall T T' i, k_power k T i = k_power k T' i /\ k_cap k T i = k_cap k T' i /\ k_xy k T i = k_xy k T' i /\ k_z k T i = k_z k T' i) /\
  (forall mat t t', k_cond k mat t = k_cond k mat t' /\ k_density k mat t = k_density k mat t' /\ k_heat k mat t = k_heat k mat t' /\
     k_resist k mat t = k_resist k mat t').

(** no heat flux conditions, so that all heat is produced inside *)
Definition heat_in (k : lookups) (m : pmodel) (T : list Q) : Q := prism_powers k m T + joule_heats k m T.
