(** The static simulation of stack-up prism models from end to end.
    src/solver/thermal/EThermalNetworkSolver.cpp, src/simulation/thermal/EThermalSimulation.cpp

    The same template as for prism models (PrismSim_Model) with the builder of StackNet_Model. *)
From Verif Require Import Base QSum ThermalNetwork_Model WireNet_Model StackNet_Model Solver_Model GridSim_Model PrismSim_Model.
Open Scope res_scope.
Open Scope Q_scope.

Section Solve.
  Context (lin : nat -> (nat -> nat -> Q) -> (nat -> Q) -> nat -> Q).
  Context (look : lookups) (local : nat -> nat) (barea : wblock -> Q).

  (** EThermalNetworkSolver.cpp:40-74; EThermalModelTraits.h 29-33 *)
  Definition stack_solve (m : pmodel) (minR : Q) (solver_type : nat) (st : static_settings) (envT : Q) (fuel : nat)
    : res (option (list Q) * list (list Q)) :=
    rmap (fun o => (option_map (map (fun t => if in_celsius st then k2c t else t)) (fst o), snd o))
      (net_loop lin (stack_build look local barea m minR) solver_type st envT fuel (iteration st) (repeat envT (element_count m))).

  (** 331-350 called as in EThermalSimulation.cpp:166-178 *)
  Definition stack_static (m : pmodel) (minR : Q) (q : request) (probs : list nat) (fuel : nat)
    : res (option (Q * Q * list Q) * list (string * pfile)) :=
    o <- stack_solve m minR (r_solver q) (r_static q) (r_env q) fuel ;;
    match fst o with
    | None => Ok (None, [])
    | Some results =>
        txt <- values_file q results probs ;;
        rep <- static_report (Some results) probs ;;
        Ok (rep, txt ++ if r_dump_hotmaps q then [((r_work_dir q ++ "/hotmap.vtk")%string, PMesh results)] else [])
    end.
End Solve.
