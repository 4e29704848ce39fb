(** What a user may assume about the elements of prism models during a transient simulation. *)
From Verif Require Import Base QSum ThermalNetwork_Model PrismNet_Model WireNet_Model WireNet_Spec.
Open Scope Q_scope.

(** Prisms are numbered first, then the segments: what element [i] produces at the temperatures [T] *)
Definition element_heat (k : lookups) (m : pmodel) (T : list Q) (i : nat) : Q :=
  if (i <? List.length (m_prisms m))%nat
  then match k_power k T i with Some (p, _) => p | None => 0 end
  else match nth_error (m_lines m) (i - List.length (m_prisms m)) with Some l => joule_heat k l (nth i T 0) | None => 0 end.

(** the scenario that modulates it *)
Definition element_scenario (k : lookups) (m : pmodel) (T : list Q) (i : nat) : option nat :=
  if (i <? List.length (m_prisms m))%nat then option_map snd (k_power k T i)
  else option_map w_scen (nth_error (m_lines m) (i - List.length (m_prisms m))).

(** the heat it can store *)
Definition element_capacity (k : lookups) (m : pmodel) (T : list Q) (i : nat) : Q :=
  if (i <? List.length (m_prisms m))%nat then k_cap k T i
  else match nth_error (m_lines m) (i - List.length (m_prisms m)) with Some l => heat_capacity k l (nth i T 0) | None => 0 end.

Definition scenarios_bounded (k : lookups) (m : pmodel) (T : list Q) : Prop :=
  forall i s, element_scenario k m T i = Some s -> (Z.of_nat s <= 2 ^ 24)%Z.

(** the heat element [i] produces at time [t] under the excitation [e] *)
Definition heat_at_time (k : lookups) (m : pmodel) (T : list Q) (e : option (Q -> Z -> Q)) (t : Q) (i : nat) : Q :=
  element_heat k m T i * match e, element_scenario k m T i with Some f, Some s => f t (Z.of_nat s) | _, _ => 1 end.
