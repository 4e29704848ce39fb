(** What a user may assume about the static simulation of a stack-up prism model *)
From Verif Require Import Base QSum ThermalNetwork_Model ThermalNetwork_Spec Steady_Spec PrismNet_Model WireNet_Model WireNet_Spec
  StackNet_Model StackNet_Spec PrismSim_Spec.
Open Scope Q_scope.

(** well connected, and everything in contact with a prism that is cooled where nothing covers it *)
Definition stack_coolable (k : lookups) (m : pmodel) : Prop :=
  stack_well m /\ stack_exchange k m /\ forall i, (i < elements m)%nat -> drains m i.

(** [T] is the steady state of the network built for the temperatures [prev] *)
Definition stack_balanced (minR : Q) (k : lookups) (local : nat -> nat) (barea : wblock -> Q) (m : pmodel) (envT : Q) (prev T : list Q) : Prop :=
  List.length T = elements m /\
  exists net M, stack_build k local barea m minR prev = Ok (Some net) /\ make_mna net true [] = Ok M /\
    equilibrium net M envT (fun i => nth i T 0).
