(** The static simulation of grid models from end to end: network, linear solve, iteration, results and
    the files written.
    src/solver/thermal/network/ThermalNetworkSolver.h, src/solver/thermal/EThermalNetworkSolver.cpp,
    src/simulation/thermal/EThermalSimulation.cpp, src/basic/ECadSettings.h

    The linear solvers (Eigen) are a parameter; the colour function and the picture writer of the
    third-party library are left out, so a picture is the shade of each of its cells.  Scalars are
    rationals; the single precision of the pictures is not modelled.  A directory that cannot be
    written to is not modelled: the streams of the result files are assumed to open. *)
From Verif Require Import Base QSum ThermalNetwork_Model Grid_Model Solver_Model.
Open Scope res_scope.
Open Scope Q_scope.

(** ** One linear solve *)
Section Solve.
  (** [solver.solve(b)] for a matrix of the given number of rows *)
  Context (lin : nat -> (nat -> nat -> Q) -> (nat -> Q) -> nat -> Q).

  (** product of a matrix with [n] columns and a vector *)
  Definition times (n : nat) (M : nat -> nat -> Q) (v : nat -> Q) (i : nat) : Q := sumf (fun j => M i j * v j) (seq 0 n).

  (** ThermalNetworkSolver.h:57-96, the cases of the switch; ECadSettings.h:431-438 *)
  Definition solver_types : list nat := [0; 1; 2; 3; 10]%nat.

  (** ThermalNetworkSolver.h:34-97, without the dump of the matrices.  The result is resized to the number
      of nodes (56) before it is overwritten. *)
  Definition network_solve (solver_type : nat) (refT : Q) (net : network) : res (list Q) :=
    m <- make_mna net true [] ;;
    rhs <- make_rhs net true refT ;;
    if existsb (Nat.eqb solver_type) solver_types then
      let n := List.length net in
      let b := times (source_count true net) (entry (m_B m)) (fun s => nth s rhs 0) in
      let x := lin n (entry (m_G m)) b in
      Ok (map (times n (entry (m_L m)) x) (seq 0 n))
    else Throw.

  (** ** The iteration over a grid model *)
  (** EThermalNetworkSolver.cpp:51-71; the second component lists the temperatures each network was built for *)
  Fixpoint grid_loop (minR : Q) (g : gmodel) (solver_type : nat) (st : static_settings) (envT : Q)
    (fuel : nat) (max_iteration : N) (results : list Q) : res (option (list Q) * list (list Q)) :=
    match fuel with
    | O => OutOfFuel
    | Datatypes.S fuel' =>
        o <- build minR g results ;;
        match o with
        | None => Ok (None, [results])
        | Some net =>
            next <- network_solve solver_type envT net ;;
            r <- residual_of (maximum_res st) next results ;;
            if Qltb (residual st) r
            then let k := dec64 max_iteration in
                 if (0 <? k)%N
                 then rmap (fun o => (fst o, results :: snd o)) (grid_loop minR g solver_type st envT fuel' k next)
                 else Ok (Some next, [results])
            else Ok (Some next, [results])
        end
    end.

  (** EThermalNetworkSolver.cpp:40-74; EThermalModelTraits.h: a grid model has one value per cell, and
      EGridThermalModel.cpp:373-376 always asks for the iteration *)
  Definition grid_solve (minR : Q) (g : gmodel) (solver_type : nat) (st : static_settings) (envT : Q) (fuel : nat)
    : res (option (list Q) * list (list Q)) :=
    rmap (fun o => (option_map (map (fun t => if in_celsius st then k2c t else t)) (fst o), snd o))
      (grid_loop minR g solver_type st envT fuel (iteration st) (repeat envT (total_grids g))).
End Solve.

(** ** The files *)
(** A cell of a picture has a shade between 0 and 1, or none when it is a division by zero *)
Inductive file := FText (values : list Q) | FPicture (width height : nat) (shades : nat -> nat -> option Q).

(** EThermalNetworkSolver.cpp:231-238: the temperature of every cell in the map of its layer.  The maps
    start with zeros; an index beyond the last layer throws (237). *)
Definition hmaps := list (nat -> nat -> Q).
Definition put_cell (c : nat * nat) (v : Q) (f : nat -> nat -> Q) : nat -> nat -> Q :=
  fun x y => if ((x =? fst c) && (y =? snd c))%nat%bool then v else f x y.
Fixpoint map_at (k : nat) (h : (nat -> nat -> Q) -> nat -> nat -> Q) (maps : hmaps) : hmaps :=
  match maps, k with
  | [], _ => []
  | f :: t, O => h f :: t
  | f :: t, Datatypes.S k' => f :: map_at k' h t
  end.
Fixpoint put_all (g : gmodel) (i : nat) (results : list Q) (maps : hmaps) : res hmaps :=
  match results with
  | [] => Ok maps
  | v :: t =>
      let '(x, y, z) := unflatten g i in
      if (z <? List.length maps)%nat then put_all g (Datatypes.S i) t (map_at z (put_cell (x, y) v) maps) else Throw
  end.

(** the values of one map, in the order of generic::geometry::OccupancyGridMap *)
Definition cells (g : gmodel) (f : nat -> nat -> Q) : list Q :=
  flat_map (fun x => map (fun y => f x y) (seq 0 (g_ny g))) (seq 0 (g_nx g)).

(** EThermalNetworkSolver.cpp:241-250 *)
Definition shade (g : gmodel) (f : nat -> nat -> Q) (x y : nat) : res (option Q) :=
  mn <- min_element (cells g f) ;;
  mx <- max_element (cells g f) ;;
  let range := mx - mn in
  Ok (if Qeqb range 0 then None else Some ((f x y - mn) / range)).
Definition shade_or (g : gmodel) (f : nat -> nat -> Q) (x y : nat) : option Q :=
  match shade g f x y with Ok s => s | _ => None end.

Section Files.
  (** [std::to_string] *)
  Context (to_dec : nat -> string).

  (** EThermalNetworkSolver.cpp:251-253 *)
  Definition map_file (work_dir : string) (k : nat) : string := (work_dir ++ "/" ++ to_dec k ++ ".png")%string.
  Definition hot_maps (work_dir : string) (g : gmodel) (results : list Q) : res (list (string * file)) :=
    maps <- put_all g 0 results (repeat (fun _ _ => 0) (g_nz g)) ;;
    Ok (map (fun kf => (map_file work_dir (fst kf), FPicture (g_nx g) (g_ny g) (shade_or g (snd kf))))
          (combine (seq 0 (List.length maps)) maps)).

  (** What the setup asks for: ECadSettings.h:406-465 *)
  Record request := mkRequest {
    r_work_dir : string;
    r_dump_results : bool;
    r_dump_hotmaps : bool;
    r_solver : nat;
    r_static : static_settings;
    r_env : Q }.

  (** EThermalNetworkSolver.cpp:76-86 *)
  Definition result_file (q : request) (results : list Q) (probs : list nat) : res (list (string * file)) :=
    if (r_dump_results q && negb (String.eqb (r_work_dir q) ""))%bool
    then vs <- probe_at results probs ;; Ok [((r_work_dir q ++ "/static.txt")%string, FText vs)]
    else Ok [].

  (** EThermalNetworkSolver.cpp:214-257 called as in EThermalSimulation.cpp:93-104: the work directory is that
      of the setup, [probs] are the indices found for the monitors.  Result: lowest and highest temperature,
      the temperatures of the monitors and the files. *)
  Definition grid_static lin minR (g : gmodel) (q : request) (probs : list nat) (fuel : nat)
    : res (option (Q * Q * list Q) * list (string * file)) :=
    o <- grid_solve lin minR g (r_solver q) (r_static q) (r_env q) fuel ;;
    match fst o with
    | None => Ok (None, [])
    | Some results =>
        txt <- result_file q results probs ;;
        rep <- static_report (Some results) probs ;;
        pics <- (if (negb (String.eqb (r_work_dir q) "") && r_dump_hotmaps q)%bool
                 then hot_maps (r_work_dir q) g results else Ok []) ;;
        Ok (rep, txt ++ pics)
    end.
End Files.
