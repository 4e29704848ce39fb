(** The static simulation of prism models from end to end.
    src/solver/thermal/EThermalNetworkSolver.cpp, src/simulation/thermal/EThermalSimulation.cpp

    One linear solve and the settings are those of GridSim_Model, the network is that of WireNet_Model.  The
    text of the mesh file is Vtk_Model; here a mesh file is the temperatures it is written with.  The files
    are assumed to open. *)
From Verif Require Import Base QSum ThermalNetwork_Model WireNet_Model Solver_Model GridSim_Model.
Open Scope res_scope.
Open Scope Q_scope.

Section Solve.
  Context (lin : nat -> (nat -> nat -> Q) -> (nat -> Q) -> nat -> Q).

  (** EThermalNetworkSolver.cpp:51-71 for the builder [make]; the second component lists the temperatures each
      network was built for *)
  Fixpoint net_loop (make : list Q -> res (option network)) (solver_type : nat) (st : static_settings) (envT : Q)
    (fuel : nat) (max_iteration : N) (results : list Q) : res (option (list Q) * list (list Q)) :=
    match fuel with
    | O => OutOfFuel
    | Datatypes.S fuel' =>
        o <- make results ;;
        match o with
        | None => Ok (None, [results])
        | Some net =>
            next <- network_solve lin solver_type envT net ;;
            r <- residual_of (maximum_res st) next results ;;
            if Qltb (residual st) r
            then let k := dec64 max_iteration in
                 if (0 <? k)%N
                 then rmap (fun o => (fst o, results :: snd o)) (net_loop make solver_type st envT fuel' k next)
                 else Ok (Some next, [results])
            else Ok (Some next, [results])
        end
    end.

  (** EThermalNetworkSolver.cpp:40-74; EThermalModelTraits.h 22-26: one value per prism and segment;
      EPrismThermalModel.h 207: always iterated *)
  Definition prism_solve (look : lookups) (m : pmodel) (minR : Q) (solver_type : nat) (st : static_settings) (envT : Q) (fuel : nat)
    : res (option (list Q) * list (list Q)) :=
    rmap (fun o => (option_map (map (fun t => if in_celsius st then k2c t else t)) (fst o), snd o))
      (net_loop (wire_build look m minR) solver_type st envT fuel (iteration st) (repeat envT (element_count m))).

  (** What is written *)
  Inductive pfile := PText (values : list Q) | PMesh (temperatures : list Q).

  (** 76-86 *)
  Definition values_file (q : request) (results : list Q) (probs : list nat) : res (list (string * pfile)) :=
    if (r_dump_results q && negb (String.eqb (r_work_dir q) ""))%bool
    then vs <- probe_at results probs ;; Ok [((r_work_dir q ++ "/static.txt")%string, PText vs)]
    else Ok [].

  (** 284-303 called as in EThermalSimulation.cpp:127-139 *)
  Definition prism_static (look : lookups) (m : pmodel) (minR : Q) (q : request) (probs : list nat) (fuel : nat)
    : res (option (Q * Q * list Q) * list (string * pfile)) :=
    o <- prism_solve look m minR (r_solver q) (r_static q) (r_env q) fuel ;;
    match fst o with
    | None => Ok (None, [])
    | Some results =>
        txt <- values_file q results probs ;;
        rep <- static_report (Some results) probs ;;
        Ok (rep, txt ++ if r_dump_hotmaps q then [((r_work_dir q ++ "/hotmap.vtk")%string, PMesh results)] else [])
    end.
End Solve.
