(** The transient simulation of prism and stack-up prism models.
    src/solver/thermal/EThermalNetworkSolver.cpp 101-201, 305-319, 352-365

    The networks are those of WireNet_Model and StackNet_Model, one call of the transient solver is Rates_Model,
    the loop over the steps is Solver_Model.  Build never fails below: the state always has one value per
    element. *)
From Verif Require Import Base QSum ThermalNetwork_Model PrismNet_Model WireNet_Model StackNet_Model Rates_Model.
From Verif Require Solver_Model.
Open Scope res_scope.

Section Run.
  Context (odeint : network -> Q -> Q -> list Q -> list (list Q * Q) * list Q * nat).

  (** EThermalNetworkSolver.cpp:120-145 with the builder [make], order 0 *)
  Definition net_chunk (make : list Q -> res (option network)) (t0 len : Q) (x : list Q) : list (list Q * Q) * list Q * nat :=
    match make x with Ok (Some l) => full_solve odeint l t0 len x | _ => ([], x, 0%nat) end.

  (** the pair returned: [None] is the pair of invalid numbers, a missing extremum an untouched greatest number *)
  Definition range_of (o : Solver_Model.outcome) : option (option Q * option Q) :=
    if Solver_Model.o_ok o then Some (Solver_Model.o_min o, Solver_Model.o_max o) else None.

  (** 101-201 for a prism model; EThermalModelTraits.h 22-26: one value per prism and segment *)
  Definition prism_transient (look : lookups) (m : pmodel) (minR : Q) (st : Solver_Model.trans_settings) (fuel : nat) (envT : Q) : res Solver_Model.outcome :=
    Solver_Model.trans_solve (element_count m) (net_chunk (wire_build look m minR)) (fun x => x) (fun x => x) Solver_Model.Full st fuel envT.
  (** 310-319 *)
  Definition prism_transient_range (look : lookups) (m : pmodel) (minR : Q) (st : Solver_Model.trans_settings) (fuel : nat) (envT : Q)
    : res (option (option Q * option Q)) := rmap range_of (prism_transient look m minR st fuel envT).

  (** 101-201 for a stack-up prism model; EThermalModelTraits.h 29-33 *)
  Definition stack_transient (look : lookups) (local : nat -> nat) (barea : wblock -> Q) (m : pmodel) (minR : Q)
    (st : Solver_Model.trans_settings) (fuel : nat) (envT : Q) : res Solver_Model.outcome :=
    Solver_Model.trans_solve (element_count m) (net_chunk (stack_build look local barea m minR)) (fun x => x) (fun x => x) Solver_Model.Full st fuel envT.
  (** 357-365 *)
  Definition stack_transient_range (look : lookups) (local : nat -> nat) (barea : wblock -> Q) (m : pmodel) (minR : Q)
    (st : Solver_Model.trans_settings) (fuel : nat) (envT : Q) : res (option (option Q * option Q)) :=
    rmap range_of (stack_transient look local barea m minR st fuel envT).
End Run.
