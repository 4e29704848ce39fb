(** The right-hand side of the transient solver: how fast every node of a thermal network heats up.

    Models ThermalNetworkTransientSolver of src/solver/thermal/network/ThermalNetworkSolver.h (Intermidiate
    and Solver, 181-231, Solve 241-259) and the run over a grid model (src/solver/thermal/EThermalNetworkSolver.cpp
    101-201, 264-272).  Numbers are rationals, except that the scenario ids pass through a vector of Scalar, which is
    Float32 (EThermalNetworkSolver.h:18), and that rounding is modelled.  The integrators of boost::numeric::odeint
    are an oracle. *)
From Verif Require Import Base QSum ThermalNetwork_Model Grid_Model.
From Verif Require Solver_Model.
Local Open Scope res_scope.

(** the nearest 32 bit float of a non-negative integer below 2^128, ties to even: 24 significant bits *)
Definition f32 (n : Z) : Z :=
  let e := (Z.log2 n - 23)%Z in
  if (e <=? 0)%Z then n
  else
    let u := (2 ^ e)%Z in
    let q := (n / u)%Z in
    let r := (n mod u)%Z in
    let h := (u / 2)%Z in
    let q' := if (r <? h)%Z then q else if (h <? r)%Z then (q + 1)%Z else if Z.even q then q else (q + 1)%Z in
    (q' * u)%Z.

(** a node without scenario keeps the greatest size_t (ThermalNetwork.h:22) *)
Definition scen_id (o : option nat) : Z := match o with Some s => Z.of_nat s | None => (2 ^ 64 - 1)%Z end.

(** The excitation is called with [im.scen[i]]: the float is converted back to size_t, undefined outside its range (line 224);
    [e] is the excitation, [None] a null pointer *)
Definition excite (e : option (Q -> Z -> Q)) (t : Q) (scen : Z) : res Q :=
  match e with
  | None => Ok 1
  | Some f => if (scen <? 2 ^ 64)%Z then Ok (f t scen) else UB
  end.

(** the map rhs2Nodes read through by lines 201-204 *)
Definition source_node (l : network) (m : list (nat * nat)) (s : nat) : node :=
  match alookup Nat.eqb s m with Some i => nth i l node0 | None => node0 end.

(** lines 222-226: the heat flows of the sources [ss] *)
Fixpoint source_heat (l : network) (m : list (nat * nat)) (e : option (Q -> Z -> Q)) (t : Q) (ss : list nat) : res (list Q) :=
  match ss with
  | [] => Ok []
  | s :: ss' =>
      x <- excite e t (f32 (scen_id (n_scen (source_node l m s)))) ;;
      rmap (cons (n_hf (source_node l m s) * x)) (source_heat l m e t ss')
  end.

(** product of matrices with [n] inner indices *)
Definition mmul (n : nat) (A B : nat -> nat -> Q) (i j : nat) : Q := sumf (fun k => A i k * B k j) (seq 0 n).

(** lines 190-206 and 218-228: [dxdt = coeff * x + htcM + hfP * hf] *)
Definition rates (l : network) (refT : Q) (e : option (Q -> Z -> Q)) (t : Q) (x : nat -> Q) : res (nat -> Q) :=
  let n := List.length l in
  let negG := tNegG_from 0 l in
  let invC := entry (tInvC_from 0 l) in
  if negb (in_bounds n n negG) then UB
  else
    let coeff := mmul n invC (entry negG) in
    let htcM := mmul n invC (entry (make_bonds_rhs l refT)) in
    let '(P, m) := make_source_proj l in
    let hfP := mmul n invC (entry P) in
    hf <- source_heat l m e t (seq 0 (List.length m)) ;;
    Ok (fun i => sumf (fun j => coeff i j * x j) (seq 0 n) + htcM i 0%nat
                 + sumf (fun s => hfP i s * nth s hf 0) (seq 0 (List.length m))).

(** the sources of the reduced solver, lines 404-409, where the id goes to the excitation as it is *)
Definition reduced_heat (l : network) (refT : Q) (e : option (Q -> Z -> Q)) (t : Q) : list Q :=
  reduced_input true refT (fun o => match e with Some f => f t (scen_id o) | None => 1 end) l.

Section Run.
  (** integrate_const and integrate_adaptive: network, start time, length and state give the observed states with
      their times, the final state and the number of steps *)
  Context (odeint : network -> Q -> Q -> list Q -> list (list Q * Q) * list Q * nat).

  (** lines 241-259: a state of another size than the network is refused *)
  Definition full_solve (l : network) (t0 len : Q) (x : list Q) : list (list Q * Q) * list Q * nat :=
    if (List.length x =? List.length l)%nat then odeint l t0 len x else ([], x, 0%nat).

  (** EThermalNetworkSolver.cpp:120-145 for a grid model, order 0; Build is called with the state (only used below
      for models whose networks can be built) *)
  Definition grid_chunk (minR : Q) (g : gmodel) (t0 len : Q) (x : list Q) : list (list Q * Q) * list Q * nat :=
    match build minR g x with Ok (Some l) => full_solve l t0 len x | _ => ([], x, 0%nat) end.
  Definition grid_transient (minR : Q) (g : gmodel) (st : Solver_Model.trans_settings) (fuel : nat) (envT : Q) : res Solver_Model.outcome :=
    Solver_Model.trans_solve (total_grids g) (grid_chunk minR g) (fun x => x) (fun x => x) Solver_Model.Full st fuel envT.
  (** EThermalNetworkSolver.cpp:264-272; [None] is the pair of invalid numbers, a missing extremum an untouched
      greatest number *)
  Definition grid_transient_range (minR : Q) (g : gmodel) (st : Solver_Model.trans_settings) (fuel : nat) (envT : Q)
    : res (option (option Q * option Q)) :=
    rmap (fun o => if Solver_Model.o_ok o then Some (Solver_Model.o_min o, Solver_Model.o_max o) else None) (grid_transient minR g st fuel envT).
End Run.
