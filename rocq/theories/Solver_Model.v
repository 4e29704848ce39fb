(** Model of the drivers that turn thermal networks into temperatures:
    src/solver/thermal/EThermalNetworkSolver.cpp and the samplers of
    src/solver/thermal/network/ThermalNetworkSolver.h.

    The linear solve (Eigen), the network builders and the time integration (boost::odeint) are
    parameters; what is modelled is the code around them.  Floating point numbers are rationals. *)
From Verif Require Import Base QSum.
From Coq Require Import Qabs Qround.
Open Scope res_scope.
Open Scope Q_scope.

Definition Qltb (a b : Q) : bool := negb (Qle_bool b a).

(** ** Probe indices *)

(** [std::set<size_t>::insert]; EThermalNetworkSolver.cpp:19. *)
Fixpoint set_insert (k : nat) (s : list nat) : list nat :=
  match s with
  | [] => [k]
  | h :: t => if (k <? h)%nat then k :: s else if (k =? h)%nat then s else h :: set_insert k t
  end.
Definition set_of (l : list nat) : list nat := fold_left (fun s k => set_insert k s) l [].

(** The loop [for (auto prob : probs) indexMap.emplace(prob, index++)]; EThermalNetworkSolver.cpp:18-21. *)
Fixpoint index_map (s : list nat) (index : nat) (m : list (nat * nat)) : list (nat * nat) :=
  match s with
  | [] => m
  | k :: t => index_map t (Datatypes.S index) (aemplace Nat.eqb k index m)
  end.

(** [indexMap.at(index)] for each request; EThermalNetworkSolver.cpp:22-23. *)
Fixpoint permute (m : list (nat * nat)) (l : list nat) : res (list nat) :=
  match l with
  | [] => Ok []
  | k :: t => match alookup Nat.eqb k m with
              | Some i => rmap (cons i) (permute m t)
              | None => Throw
              end
  end.

(** [GetProbsAndPermutation]; EThermalNetworkSolver.cpp:16-25. *)
Definition probs_and_permutation (indices : list nat) : res (list nat * list nat) :=
  let s := set_of indices in
  rmap (pair s) (permute (index_map s 0 []) indices).

(** ** The static iteration *)

(** [CalculateResidual]; EThermalNetworkSolver.cpp:28-38.  The assertion on the sizes throws. *)
Definition residual_step (maximum : bool) (size : Q) (r : Q) (p : Q * Q) : Q :=
  if maximum then let d := Qabs (fst p - snd p) in if Qltb d r then r else d
  else r + Qabs (fst p - snd p) / size.
Definition residual_of (maximum : bool) (v1 v2 : list Q) : res Q :=
  if (List.length v1 =? List.length v2)%nat
  then Ok (fold_left (residual_step maximum (inject_Z (Z.of_nat (List.length v1)))) (combine v1 v2) 0)
  else Throw.

(** [--maxIteration] on [size_t]. *)
Definition dec64 (n : N) : N := if (n =? 0)%N then (2 ^ 64 - 1)%N else (n - 1)%N.

(** [ETemperature::Kelvins2Celsius]; basic/ECadUnits.h. *)
Definition k2c (t : Q) : Q := t - (27315 # 100).

Record static_settings := { iteration : N; residual : Q; maximum_res : bool; in_celsius : bool }.

Section Static.
  (** [builder.Build(prevRes)] followed by [solver.Solve]: [None] is the null network. *)
  Context (build_solve : list Q -> option (list Q)).

  (** The do-while loop; EThermalNetworkSolver.cpp:51-72.  The second component lists what each
      [Build] received. *)
  Fixpoint static_loop (st : static_settings) (fuel : nat) (max_iteration : N) (results : list Q)
    : res (option (list Q) * list (list Q)) :=
    match fuel with
    | O => OutOfFuel
    | Datatypes.S fuel' =>
        match build_solve results with
        | None => Ok (None, [results])
        | Some next =>
            r <- residual_of (maximum_res st) next results ;;
            if Qltb (residual st) r
            then let m := dec64 max_iteration in
                 if (0 <? m)%N
                 then rmap (fun o => (fst o, results :: snd o)) (static_loop st fuel' m next)
                 else Ok (Some next, [results])
            else Ok (Some next, [results])
        end
    end.

  (** [EThermalNetworkStaticSolver::Solve]; EThermalNetworkSolver.cpp:41-75, 87. *)
  Definition static_solve (st : static_settings) (fuel : nat) (need_iteration : bool) (size : nat) (envT : Q)
    : res (option (list Q) * list (list Q)) :=
    rmap (fun o => (option_map (if in_celsius st then map k2c else fun r => r) (fst o), snd o))
      (static_loop st fuel (if need_iteration then iteration st else 1%N) (repeat envT size)).
End Static.

(** [std::min_element] / [std::max_element] dereferenced: the empty range is undefined. *)
Fixpoint min_from (m : Q) (l : list Q) : Q :=
  match l with [] => m | x :: t => min_from (if Qltb x m then x else m) t end.
Fixpoint max_from (m : Q) (l : list Q) : Q :=
  match l with [] => m | x :: t => max_from (if Qltb m x then x else m) t end.
Definition min_element (l : list Q) : res Q := match l with [] => UB | x :: t => Ok (min_from x t) end.
Definition max_element (l : list Q) : res Q := match l with [] => UB | x :: t => Ok (max_from x t) end.

(** [results.at(settings.probs.at(i))] for every probe. *)
Fixpoint probe_at (results : list Q) (probs : list nat) : res (list Q) :=
  match probs with
  | [] => Ok []
  | p :: t => match nth_error results p with
              | Some v => rmap (cons v) (probe_at results t)
              | None => Throw
              end
  end.

(** The end of [EGridThermalNetworkStaticSolver::Solve] and its two prism versions;
    EThermalNetworkSolver.cpp:219-225, 289-295, 336-342.  [None] stands for the pair of invalid
    floats.  Writing hot maps is left out. *)
Definition static_report (o : option (list Q)) (probs : list nat) : res (option (Q * Q * list Q)) :=
  match o with
  | None => Ok None
  | Some results =>
      mn <- min_element results ;;
      mx <- max_element results ;;
      ts <- probe_at results probs ;;
      Ok (Some (mn, mx, ts))
  end.

(** ** Transient sampling *)

(** [TimeWindow]; ThermalNetworkSolver.h:113-133. *)
Record window := { w_start : Q; w_end : Q; w_interval : Q }.
(** The constructor asserts [start < end]. *)
Definition make_window (s e i : Q) : res window :=
  if Qltb s e then Ok {| w_start := s; w_end := e; w_interval := i |} else Throw.
(** [isInside]: both ends belong to the window. *)
Definition inside (w : window) (t : Q) : bool := Qle_bool (w_start w) t && Qle_bool t (w_end w).
(** [EsitimateSamples] and the [reserve] it feeds: dividing by zero gives an infinity, whose
    conversion to [size_t] is undefined, as is that of a number outside the type; a count the vector
    cannot hold throws.  ThermalNetworkSolver.h:129-132, 155. *)
Definition max_samples : Z := ((2 ^ 63 - 1) / 24)%Z.
Definition reserve_samples (w : window) : res unit :=
  if Qeq_bool (w_interval w) 0 then UB
  else
    let q := (w_end w - w_start w) / w_interval w in
    let n := if Qle_bool 0 q then Qfloor q else Qceiling q in
    if (n <? 0)%Z || (2 ^ 64 <=? n)%Z then UB
    else if (max_samples <? n)%Z then Throw
    else Ok tt.

(** A sample: its time and the values at the probes. *)
Definition sample : Type := Q * list Q.

(** [Sampler]: [prev] and [count]; ThermalNetworkSolver.h:140-156, 351-368. *)
Record sampler := { prev : Q; count : Q }.
Definition sampler_new (samples : list sample) : sampler :=
  {| prev := match rev samples with [] => 0 | (t, _) :: _ => t end; count := 0 |}.

(** [Sampler::operator()]; ThermalNetworkSolver.h:158-178, 370-391.  [emit] reads the values.  The copy to
    [lastState] assigns the integrated state to itself and is left out. *)
Definition observe (w : window) (emit : list Q -> res (list Q)) (s : sampler) (samples : list sample)
  (xt : list Q * Q) : res (sampler * list sample) :=
  let '(x, t) := xt in
  if inside w t then
    let c := count s + (t - prev s) in
    if Qltb (w_interval w) c
    then vs <- emit x ;; Ok ({| prev := t; count := 0 |}, samples ++ [(t, vs)])
    else Ok ({| prev := t; count := c |}, samples)
  else Ok (s, samples).

Fixpoint observe_all (w : window) (emit : list Q -> res (list Q)) (s : sampler) (samples : list sample)
  (obs : list (list Q * Q)) : res (list sample) :=
  match obs with
  | [] => Ok samples
  | o :: r => p <- observe w emit s samples o ;; observe_all w emit (fst p) (snd p) r
  end.

(** [x[p]] for every probe: out of range is undefined; ThermalNetworkSolver.h:165. *)
Fixpoint read_probes (probs : list nat) (x : list Q) : res (list Q) :=
  match probs with
  | [] => Ok []
  | p :: t => match nth_error x p with
              | Some v => rmap (cons v) (read_probes t x)
              | None => UB
              end
  end.

Record trans_settings := {
  step : Q; duration : Q; min_sampling_interval : Q; sampling_window : Q;
  temperature_depend : bool; trans_celsius : bool; probs : list nat }.

Section Transient.
  (** Number of nodes of the model, and one integration: start time, length and state give the
      observed states with their times, the final state and the number of steps. *)
  Context (size : nat) (integrate : Q -> Q -> list Q -> list (list Q * Q) * list Q * nat).
  (** The reduced solver's projections ([Input2State], [State2Output]); identities for the full one. *)
  Context (to_state to_out : list Q -> list Q).

  (** How a solver reads samples and hands the state on: full solver, or the reduced one. *)
  Inductive kind := Full | Reduced.
  Definition emit_of (k : kind) (ps : list nat) : list Q -> res (list Q) :=
    match k with Full => read_probes ps | Reduced => fun x => Ok (to_out x) end.
  Definition enter (k : kind) (x : list Q) : list Q := match k with Full => x | Reduced => to_state x end.
  Definition leave (k : kind) (x : list Q) : list Q := match k with Full => x | Reduced => to_out x end.

  (** One build, sampler and integration; EThermalNetworkSolver.cpp:127-132, 155-164.  A state of the
      wrong size makes [Build] return null, which is dereferenced
      (EGridThermalNetworkBuilder.cpp:19, EPrismThermalNetworkBuilder.cpp:24). *)
  Definition chunk (k : kind) (ps : list nat) (w : window) (t0 len : Q) (x : list Q) (samples : list sample)
    : res (list Q * list sample * nat) :=
    if negb (List.length x =? size)%nat then UB
    else
      _ <- reserve_samples w ;;
      let '(obs, fin, steps) := integrate t0 len (enter k x) in
      samples' <- observe_all w (emit_of k ps) (sampler_new samples) samples obs ;;
      Ok (leave k fin, samples', steps).

  (** [while (time < duration) { ...; time += step; }]; EThermalNetworkSolver.cpp:123-134, 152-166.
      The last component lists the start times of the integrations. *)
  Fixpoint trans_loop (k : kind) (st : trans_settings) (w : window) (fuel : nat) (time : Q) (x : list Q)
    (samples : list sample) (steps : nat) : res (list sample * nat * list Q) :=
    if Qltb time (duration st) then
      match fuel with
      | O => OutOfFuel
      | Datatypes.S fuel' =>
          c <- chunk k (probs st) w time (step st) x samples ;;
          let '(x', samples', n) := c in
          rmap (fun o => (fst o, time :: snd o))
            (trans_loop k st w fuel' (time + step st) x' samples' (steps + n))
      end
    else Ok (samples, steps, []).

  (** The conversion and the extrema; EThermalNetworkSolver.cpp:179-187. *)
  Definition extreme (cmp : Q -> Q -> bool) (a b : Q) : Q := if cmp b a then b else a.
  Fixpoint summarise (celsius : bool) (mn mx : option Q) (l : list sample) : res (option Q * option Q * list sample) :=
    match l with
    | [] => Ok (mn, mx, [])
    | (t, vs) :: r =>
        let vs' := if celsius then map k2c vs else vs in
        a <- min_element vs' ;;
        b <- max_element vs' ;;
        let mn' := Some (match mn with None => a | Some m => extreme Qltb m a end) in
        let mx' := Some (match mx with None => b | Some m => extreme (fun x y => Qltb y x) m b end) in
        rmap (fun o => (fst o, (t, vs') :: snd o)) (summarise celsius mn' mx' r)
    end.

  (** What [Solve] leaves behind: the extrema ([None] is the initial ±maxFloat), the samples of
      trans.txt, the returned flag and the start times. *)
  Record outcome := { o_min : option Q; o_max : option Q; o_samples : list sample; o_ok : bool; o_starts : list Q }.

  (** [EThermalNetworkTransientSolver::Solve]; EThermalNetworkSolver.cpp:101-201. *)
  Definition trans_solve (k : kind) (st : trans_settings) (fuel : nat) (envT : Q) : res outcome :=
    w <- make_window (duration st - sampling_window st) (duration st) (min_sampling_interval st) ;;
    run <- (if temperature_depend st
            then trans_loop k st w fuel 0 (repeat envT size) [] 0%nat
            else c <- chunk k (probs st) w 0 (duration st) (repeat envT size) [] ;;
                 Ok (snd (fst c), snd c, [0])) ;;
    let '(samples, steps, starts) := run in
    s <- summarise (trans_celsius st) None None samples ;;
    let '(mn, mx, out) := s in
    Ok {| o_min := mn; o_max := mx; o_samples := out; o_ok := (0 <? steps)%nat; o_starts := starts |}.
End Transient.
