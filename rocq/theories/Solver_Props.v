(** C54, C55, C56: the static iteration, the probes and the transient samples. *)
From Verif Require Import Base QSum Solver_Model Solver_Spec Solver_Proofs.
From Coq Require Import Qabs Qround Sorted.
Open Scope res_scope.
Open Scope Q_scope.

(** ** C54: the static iteration stops within the configured count.

    Missing for the full statement: an iteration count of zero, see the refutation. *)
Definition allowed (need : bool) (st : static_settings) : N := if need then iteration st else 1%N.

Theorem C54_stops_partial build_solve st need size envT fuel :
  (1 <= allowed need st)%N -> (allowed need st <= N.of_nat fuel)%N ->
  (forall y z, build_solve y = Some z -> List.length z = List.length y) ->
  exists o builds, static_solve build_solve st fuel need size envT = Ok (o, builds) /\
    (1 <= List.length builds)%nat /\ (N.of_nat (List.length builds) <= allowed need st)%N /\
    hd_error builds = Some (repeat envT size) /\ chained build_solve builds /\
    match o with
    | None => build_solve (last builds []) = None
    | Some r => exists k, build_solve (last builds []) = Some k /\
        r = (if in_celsius st then map (fun t => t - (27315 # 100)) k else k) /\
        (N.of_nat (List.length builds) = allowed need st \/ agree (maximum_res st) (residual st) k (last builds []))
    end.
Proof.
  intros A F T; unfold static_solve, allowed in *.
  destruct (static_loop_spec build_solve st fuel _ (repeat envT size) A F) as [H|(o & b & H & H1 & H2 & H3 & H4)].
  - exfalso; revert H; apply static_loop_total; auto.
  - rewrite H; cbn [rmap bind fst snd]; exists (option_map (if in_celsius st then map k2c else fun r => r) o), b.
    split; auto; split; [destruct b; simpl in *; [discriminate|lia]|].
    do 3 (split; auto).
    destruct o as [k|]; simpl; auto; exists k; destruct H4 as [H4 H5]; split; auto; split; auto.
    destruct (in_celsius st); auto.
Qed.
Print Assumptions C54_stops_partial.

(** Whatever the solver returns, never more than the allowed number of builds, even without the
    assumption on sizes. *)
Theorem C54_count_partial build_solve st need size envT fuel o builds :
  (1 <= allowed need st)%N -> static_solve build_solve st fuel need size envT = Ok (o, builds) ->
  (1 <= List.length builds)%nat /\ (N.of_nat (List.length builds) <= allowed need st)%N.
Proof.
  intros A; unfold static_solve; fold (allowed need st).
  destruct (static_loop build_solve st fuel (allowed need st) (repeat envT size)) as [[o' b]| | |] eqn:E; simpl; try discriminate.
  intros [= <- <-]; revert A E; generalize (allowed need st) as m, (repeat envT size) as x; revert o' b.
  induction fuel as [|fuel IH]; intros o' b m x A; simpl; [discriminate|].
  destruct (build_solve x) as [next|]; [|intros [= <- <-]; simpl; lia].
  destruct (residual_of _ _ _); cbn [bind]; try discriminate.
  destruct (Qltb _ _); [|intros [= <- <-]; simpl; lia].
  unfold dec64; destruct (m =? 0)%N eqn:Z; [apply N.eqb_eq in Z; lia|].
  destruct (0 <? m - 1)%N eqn:P; [|intros [= <- <-]; simpl; lia].
  apply N.ltb_lt in P.
  destruct (static_loop build_solve st fuel (m - 1) next) as [[o2 b2]| | |] eqn:E; simpl; try discriminate.
  intros [= <- <-]; assert (1 <= m - 1)%N as Q1 by lia; destruct (IH _ _ _ _ Q1 E) as [I1 I2]; cbn [List.length]; split; lia.
Qed.
Print Assumptions C54_count_partial.

(** With an iteration count of zero the decrement wraps: a model that needs iteration and does not
    converge is rebuilt 2^64 times. *)
Definition heating (x : list Q) : option (list Q) := Some (map (fun t => t + 1) x).
Definition zero_iterations : static_settings := {| iteration := 0; residual := 1 # 10; maximum_res := true; in_celsius := true |}.
Lemma heating_fuel fuel : forall m x, (N.of_nat fuel < m)%N -> x <> [] -> static_loop heating zero_iterations fuel m x = OutOfFuel.
Proof.
  induction fuel as [|fuel IH]; intros m x L N; auto; cbn [static_loop]; unfold heating at 1.
  unfold residual_of; rewrite map_length, Nat.eqb_refl; cbn [bind]; change (maximum_res zero_iterations) with true.
  assert (Qltb (residual zero_iterations)
            (fold_left (residual_step true (inject_Z (Z.of_nat (List.length x)))) (combine (map (fun t => t + 1) x) x) 0) = true) as ->.
  { destruct x as [|a x]; [congruence|]; rewrite Qltb_true.
    change (fold_left (residual_step true (inject_Z (Z.of_nat (List.length (a :: x)))))) with (fold_left (residual_step true 0)).
    destruct (residual_max_spec (combine (map (fun t => t + 1) (a :: x)) (a :: x)) 0) as [_ H].
    specialize (H (a + 1, a) (or_introl eq_refl)); cbn [fst snd] in H.
    assert (Qabs (a + 1 - a) == 1) as E by (setoid_replace (a + 1 - a) with 1 by ring; reflexivity).
    cbn [residual zero_iterations]; eapply Qlt_le_trans; [|exact H]; rewrite E; reflexivity. }
  unfold dec64; destruct (m =? 0)%N eqn:Z; [apply N.eqb_eq in Z; lia|].
  destruct (0 <? m - 1)%N eqn:P; [|apply N.ltb_ge in P; lia].
  rewrite IH; auto; [lia|]; destruct x; [congruence|discriminate].
Qed.
Theorem C54_zero_iterations_refuted : exists build_solve st size envT,
  iteration st = 0%N /\ (forall y z, build_solve y = Some z -> List.length z = List.length y) /\
  forall fuel, (N.of_nat fuel < 2 ^ 64)%N -> static_solve build_solve st fuel true size envT = OutOfFuel.
Proof.
  exists heating, zero_iterations, 1%nat, (29815 # 100); split; [reflexivity|]; split.
  - intros y z [= <-]; apply map_length.
  - intros [|fuel] L; [reflexivity|]; unfold static_solve.
    assert (static_loop heating zero_iterations (Datatypes.S fuel) 0 (repeat (29815 # 100) 1) = OutOfFuel) as H;
      [|change (iteration zero_iterations) with 0%N; cbv iota; rewrite H; reflexivity].
    change (static_loop heating zero_iterations (Datatypes.S fuel) 0 (repeat (29815 # 100) 1))
      with (rmap (fun o : option (list Q) * list (list Q) => (fst o, repeat (29815 # 100) 1 :: snd o))
              (static_loop heating zero_iterations fuel (2 ^ 64 - 1)%N (map (fun t => t + 1) (repeat (29815 # 100) 1)))).
    rewrite heating_fuel; [reflexivity| |discriminate].
    lia.
Qed.
Print Assumptions C54_zero_iterations_refuted.

(** Three fields, converging: the third build agrees within 0.1 and the loop stops before ten. *)
Definition halving (x : list Q) : option (list Q) := Some (map (fun t => Qred (t / 10)) x).
Example C54_example :
  static_solve halving {| iteration := 10; residual := 1 # 10; maximum_res := true; in_celsius := false |} 10 true 1 10
  = Ok (Some [1 # 100], [[10]; [1]; [1 # 10]]).
Proof. vm_compute; reflexivity. Qed.
Example C54_capped :
  static_solve halving {| iteration := 2; residual := 1 # 10; maximum_res := true; in_celsius := false |} 10 true 1 10
  = Ok (Some [1 # 10], [[10]; [1]]).
Proof. vm_compute; reflexivity. Qed.

(** ** C55: probe results belong to the requested probes *)
Theorem C55_permutation {A} (d : A) (value : nat -> A) indices :
  exists sorted perm, probs_and_permutation indices = Ok (sorted, perm) /\
    StronglySorted lt sorted /\ (forall k, In k sorted <-> In k indices) /\
    hand_back d (map value sorted) perm = map value indices.
Proof.
  destruct (probs_spec indices) as (perm & E & F), (set_of_spec indices) as [S I].
  exists (set_of indices), perm; split; auto; split; auto; split; auto.
  clear E S I; revert F; generalize (set_of indices) as s; intros s F.
  unfold hand_back; induction F as [|k i l p H F IH]; simpl; auto; f_equal; auto.
  apply map_nth_error with (f := value) in H; erewrite nth_error_nth; eauto.
Qed.
Print Assumptions C55_permutation.

(** The values reported after a static run: one per probe, in the order of the request, each
    within the reported extremes, which are temperatures of the field. *)
Theorem C55_report results probs :
  results <> [] -> (forall p, In p probs -> (p < List.length results)%nat) ->
  exists mn mx ts, static_report (Some results) probs = Ok (Some (mn, mx, ts)) /\
    List.length ts = List.length probs /\
    (forall i p, nth_error probs i = Some p -> nth_error ts i = nth_error results p) /\
    In mn results /\ In mx results /\ (forall x, In x results -> mn <= x /\ x <= mx).
Proof.
  intros N H; destruct results as [|r0 rs] eqn:R; [congruence|]; rewrite <- R in *; unfold static_report.
  assert (min_element results = Ok (min_from r0 rs)) as A by (subst; reflexivity).
  assert (max_element results = Ok (max_from r0 rs)) as B by (subst; reflexivity).
  rewrite A, B, (probe_at_spec _ _ H); cbn [bind].
  apply min_element_spec in A as [A1 A2]; apply max_element_spec in B as [B1 B2].
  do 3 eexists; split; [reflexivity|]; split; [apply map_length|]; split; [|auto].
  intros i p E; rewrite (map_nth_error _ _ _ E).
  symmetry; apply nth_error_nth'; apply H; eapply nth_error_In; eauto.
Qed.
Print Assumptions C55_report.

(** A probe outside the field is refused, an empty field is undefined behaviour. *)
Theorem C55_bad_probe_throws results probs p :
  results <> [] -> In p probs -> (List.length results <= p)%nat -> static_report (Some results) probs = Throw.
Proof. intros N I L; destruct results; [congruence|]; unfold static_report; cbn [min_element max_element bind]; erewrite probe_at_bad; eauto. Qed.
Print Assumptions C55_bad_probe_throws.
Theorem C55_empty_field_is_ub probs : static_report (Some []) probs = UB.
Proof. reflexivity. Qed.
Print Assumptions C55_empty_field_is_ub.

Example C55_example : probs_and_permutation [7; 3; 7; 9; 3]%nat = Ok ([3; 7; 9]%nat, [1; 0; 1; 2; 0]%nat).
Proof. reflexivity. Qed.
Example C55_report_example : static_report (Some [30; 25; 40]) [2; 0; 2]%nat = Ok (Some (25, 40, [40; 30; 40])).
Proof. reflexivity. Qed.

(** ** C56: transient samples are ordered and the run ends *)
Section C56.
  Context (size : nat) (integrate : Q -> Q -> list Q -> list (list Q * Q) * list Q * nat) (to_state to_out : list Q -> list Q).
  Notation solve := (trans_solve size integrate to_state to_out).

  (** How long each integration is. *)
  Definition chunk_length (st : trans_settings) : Q := if temperature_depend st then step st else duration st.
  (** What the integrations of a run observe. *)
  Definition seen (k : kind) (st : trans_settings) (envT : Q) (starts : list Q) : list (list Q * Q) :=
    observed integrate (enter to_state k) (leave to_out k) (chunk_length st) starts (repeat envT size).

  Lemma solve_inv k st fuel envT o : solve k st fuel envT = Ok o ->
    exists w samples steps,
      w = {| w_start := duration st - sampling_window st; w_end := duration st; w_interval := min_sampling_interval st |} /\
      (temperature_depend st = true -> trans_loop size integrate to_state to_out k st w fuel 0 (repeat envT size) [] 0 = Ok (samples, steps, o_starts o)) /\
      (temperature_depend st = false -> o_starts o = [0]) /\
      summarise (trans_celsius st) None None samples = Ok (o_min o, o_max o, o_samples o) /\
      Forall2 (shows (emit_of to_out k (probs st)) false)
        (recorded (min_sampling_interval st) 0 (filter (in_window (duration st - sampling_window st) (duration st)) (seen k st envT (o_starts o)))) samples.
  Proof.
    unfold trans_solve, make_window; destruct (Qltb _ _); cbn [bind]; [|discriminate].
    set (w := {| w_start := _ |}).
    destruct (if temperature_depend st then _ else _) as [[[samples steps] starts]| | |] eqn:R; cbn [bind]; try discriminate.
    destruct (summarise _ _ _ _) as [[[mn mx] out]| | |] eqn:S; cbn [bind]; try discriminate.
    intros [= <-]; cbn [o_min o_max o_samples o_starts].
    exists w, samples, steps; unfold seen, chunk_length; split; auto; destruct (temperature_depend st).
    - split; auto; split; [discriminate|]; split; auto.
      apply trans_loop_spec in R as (new & -> & F); exact F.
    - split; [discriminate|].
      destruct (chunk _ _ _ _ _ _ _ _ _ _ _) as [[[x' s'] n]| | |] eqn:C; cbn [bind fst snd] in R; try discriminate.
      injection R as <- <- <-; split; auto; split; auto.
      apply chunk_spec in C as (_ & obs & fin & Hi & _ & new & -> & F).
      simpl observed; rewrite Hi, app_nil_r; exact F.
  Qed.

  (** The samples are exactly the observed states inside the window that come more than the minimal
      interval after the previous sample, so their times increase by more than that interval. *)
  Theorem C56_samples k st fuel envT o :
    solve k st fuel envT = Ok o ->
    Forall2 (shows (emit_of to_out k (probs st)) (trans_celsius st))
      (recorded (min_sampling_interval st) 0
         (filter (in_window (duration st - sampling_window st) (duration st)) (seen k st envT (o_starts o))))
      (o_samples o) /\
    spaced (min_sampling_interval st) 0 (map fst (o_samples o)) /\
    (forall s, In s (o_samples o) -> duration st - sampling_window st <= fst s /\ fst s <= duration st).
  Proof.
    intros H; apply solve_inv in H as (w & samples & steps & -> & _ & _ & S & F).
    apply (summarise_spec _ _ _ _ _ _ _ _ _ F) in S; split; auto.
    rewrite (shows_times _ _ _ _ S); split; [apply recorded_spaced|].
    intros s I; assert (In (fst s) (map fst (o_samples o))) as J by (apply in_map; auto).
    rewrite (shows_times _ _ _ _ S) in J; apply in_map_iff in J as ([x t] & E & J); simpl in E; subst t.
    apply recorded_incl, filter_In in J as [_ J]; unfold in_window in J; simpl in J.
    apply andb_true_iff in J as [J1 J2]; apply Qle_bool_iff in J1, J2; auto.
  Qed.

  (** The reported extremes are reached by sample values and bound them all. *)
  Theorem C56_extremes k st fuel envT o :
    solve k st fuel envT = Ok o ->
    (o_min o = None <-> o_max o = None) /\
    (forall s v, In s (o_samples o) -> In v (snd s) -> exists a b, o_min o = Some a /\ o_max o = Some b /\ a <= v /\ v <= b) /\
    (forall a, o_min o = Some a \/ o_max o = Some a -> exists s, In s (o_samples o) /\ In a (snd s)).
  Proof.
    intros H; apply solve_inv in H as (w & samples & steps & -> & _ & _ & S & _).
    apply summarise_extrema in S as (S0 & _ & _ & S3 & S4 & S5); [|tauto].
    split; auto; split; auto; intros a [E|E]; [destruct (S4 _ E)|destruct (S5 _ E)]; auto; discriminate.
  Qed.

  Lemma summarise_fuel c l : forall mn mx, summarise c mn mx l <> OutOfFuel.
  Proof.
    induction l as [|[t vs] r IH]; intros mn mx; simpl; [discriminate|].
    destruct (if c then map k2c vs else vs); simpl; [discriminate|].
    match goal with |- rmap _ ?e <> _ => pose proof (IH _ _ : e <> OutOfFuel); destruct e; simpl; congruence end.
  Qed.

  (** For a positive step the run ends after as many integrations as steps are needed to reach the
      duration, whatever the integrator does. *)
  Theorem C56_ends k st fuel envT :
    0 < step st -> (Qceiling (duration st / step st) <= Z.of_nat fuel)%Z ->
    solve k st fuel envT <> OutOfFuel.
  Proof.
    intros P L; unfold trans_solve, make_window; destruct (Qltb _ _); cbn [bind]; [|discriminate].
    set (w := {| w_start := _ |}).
    assert (duration st <= 0 + inject_Z (Z.of_nat fuel) * step st) as D.
    { rewrite Qplus_0_l.
      assert (duration st == duration st / step st * step st) as X by (field; lra).
      rewrite X; apply Qmult_le_compat_r; [|lra].
      eapply Qle_trans; [apply Qle_ceiling|]; rewrite <- Zle_Qle; auto. }
    destruct (temperature_depend st).
    - pose proof (trans_loop_fuel size integrate to_state to_out k st w fuel P 0 (repeat envT size) [] 0%nat D) as T.
      destruct (trans_loop _ _ _ _ _ _ _ _ _ _ _ _) as [[[a b] c]| | |]; cbn [bind]; try discriminate; [|congruence].
      pose proof (summarise_fuel (trans_celsius st) a None None) as S.
      destruct (summarise _ _ _ _) as [[[? ?] ?]| | |]; cbn [bind]; congruence.
    - pose proof (chunk_fuel size integrate to_state to_out k (probs st) w 0 (duration st) (repeat envT size) []) as T.
      destruct (chunk _ _ _ _ _ _ _ _ _ _ _) as [[[a b] c]| | |]; cbn [bind fst snd]; try discriminate; [|congruence].
      pose proof (summarise_fuel (trans_celsius st) b None None) as S.
      destruct (summarise _ _ _ _) as [[[? ?] ?]| | |]; cbn [bind]; congruence.
  Qed.

  (** The integrations start at the multiples of the step below the duration, none is left out. *)
  Theorem C56_starts k st fuel envT o :
    temperature_depend st = true -> solve k st fuel envT = Ok o ->
    (forall j t, nth_error (o_starts o) j = Some t -> t == inject_Z (Z.of_nat j) * step st /\ t < duration st) /\
    duration st <= inject_Z (Z.of_nat (List.length (o_starts o))) * step st.
  Proof.
    intros T H; apply solve_inv in H as (w & samples & steps & -> & L & _).
    apply L, trans_loop_starts in T as [A B]; rewrite Qplus_0_l in B; split; auto.
    intros j t E; apply A in E; rewrite Qplus_0_l in E; auto.
  Qed.

  (** A step that is not positive never completes. *)
  Theorem C56_bad_step_diverges k st fuel envT o :
    temperature_depend st = true -> step st <= 0 -> 0 < duration st -> solve k st fuel envT <> Ok o.
  Proof.
    intros T P D H; apply solve_inv in H as (w & samples & steps & -> & L & _).
    apply L in T; revert T; apply trans_loop_never; auto.
  Qed.

  (** No probes: nothing can have been recorded by a run that returns. *)
  Theorem C56_no_probes_is_ub st fuel envT o :
    probs st = [] -> solve Full st fuel envT = Ok o -> o_samples o = [].
  Proof.
    intros P H; apply solve_inv in H as (w & samples & steps & -> & _ & _ & S & F); rewrite P in F.
    destruct F as [|xt [t vs] l r [H1 (vs' & H2 & H3)] F]; simpl in S; [injection S as _ _ <-; auto|].
    simpl in *; injection H2 as <-; subst; destruct (trans_celsius st); discriminate.
  Qed.

  (** The default settings (no sampling window, no interval) stop at an assertion, and an interval of
      zero is undefined behaviour. *)
  Theorem C56_no_window_throws k st fuel envT : sampling_window st <= 0 -> solve k st fuel envT = Throw.
  Proof.
    intros H; unfold trans_solve, make_window; destruct (Qltb _ _) eqn:E; auto; rewrite Qltb_true in E; lra.
  Qed.
  Theorem C56_no_interval_is_ub k st fuel envT :
    0 < sampling_window st -> min_sampling_interval st == 0 -> 0 < duration st -> (1 <= fuel)%nat -> solve k st fuel envT = UB.
  Proof.
    intros W I D F; unfold trans_solve, make_window; destruct (Qltb _ _) eqn:E; [|rewrite Qltb_false in E; lra]; cbn [bind].
    set (w := {| w_start := _ |}).
    assert (forall t0 len ps, chunk size integrate to_state to_out k ps w t0 len (repeat envT size) [] = UB) as C.
    { intros; unfold chunk; rewrite repeat_length, Nat.eqb_refl; simpl negb; cbv iota.
      unfold reserve_samples; simpl; apply Qeq_bool_iff in I; rewrite I; reflexivity. }
    destruct (temperature_depend st); [|rewrite C; reflexivity].
    destruct fuel as [|fuel]; [lia|]; simpl trans_loop; rewrite C.
    destruct (Qltb 0 (duration st)) eqn:E2; [reflexivity|rewrite Qltb_false in E2; lra].
  Qed.

  (** The reduced solver hands only the probe values to the next build of a temperature dependent
      run: unless the probes are as many as the nodes the second build fails and its null result
      is dereferenced. *)
  Theorem C56_reduced_restart_is_ub st fuel envT :
    temperature_depend st = true -> step st < duration st -> 0 < duration st ->
    (forall x, List.length (to_out x) = List.length (probs st)) -> List.length (probs st) <> size ->
    0 < sampling_window st ->
    reserve_samples {| w_start := duration st - sampling_window st; w_end := duration st; w_interval := min_sampling_interval st |} = Ok tt ->
    (2 <= fuel)%nat -> solve Reduced st fuel envT = UB.
  Proof.
    intros T S D O N W R F; unfold trans_solve, make_window; rewrite T.
    destruct (Qltb _ _) eqn:E; [|rewrite Qltb_false in E; lra]; cbn [bind].
    set (w := {| w_start := _ |}) in *.
    destruct fuel as [|[|fuel]]; [lia|lia|].
    cbn [trans_loop].
    destruct (Qltb 0 (duration st)) eqn:E0; [|rewrite Qltb_false in E0; lra].
    unfold chunk at 1; rewrite repeat_length, Nat.eqb_refl, R; cbn [bind negb].
    destruct (integrate 0 (step st) (enter to_state Reduced (repeat envT size))) as [[obs fin] n].
    assert (forall s samples, exists out, observe_all w (emit_of to_out Reduced (probs st)) s samples obs = Ok out) as Ob.
    { clear; induction obs as [|[x t] obs IH]; intros s samples; simpl; [eexists; reflexivity|].
      destruct (inside w t); cbn [bind fst snd]; [destruct (Qltb _ _)|]; cbn [bind fst snd]; apply IH. }
    destruct (Ob (sampler_new []) []) as [out ->]; cbn [bind].
    destruct (Qltb (0 + step st) (duration st)) eqn:E1; [|rewrite Qltb_false in E1; lra].
    unfold chunk; cbn [leave]; rewrite O.
    destruct (List.length (probs st) =? size)%nat eqn:L; [apply Nat.eqb_eq in L; congruence|].
    reflexivity.
  Qed.

  (** A full run completes for every sensible setting: positive window, interval and step, probes
      inside the model, and an integrator that keeps the number of nodes. *)
  Lemma read_probes_ok ps x : (forall p, In p ps -> (p < List.length x)%nat) ->
    exists vs, read_probes ps x = Ok vs /\ List.length vs = List.length ps.
  Proof.
    induction ps as [|p ps IH]; simpl; intros H; [exists []; auto|].
    destruct (nth_error x p) eqn:E; [|apply nth_error_None in E; specialize (H p (or_introl eq_refl)); lia].
    destruct IH as (vs & -> & L); auto; exists (q :: vs); simpl; auto.
  Qed.
  Lemma observe_all_ok w ps obs : (forall x t p, In (x, t) obs -> In p ps -> (p < List.length x)%nat) ->
    forall s samples, exists new, observe_all w (read_probes ps) s samples obs = Ok (samples ++ new) /\ Forall (fun e => List.length (snd e) = List.length ps) new.
  Proof.
    induction obs as [|[x t] obs IH]; intros H s samples; simpl; [exists []; rewrite app_nil_r; auto|].
    assert (forall x t p, In (x, t) obs -> In p ps -> (p < List.length x)%nat) as H' by (intros; eapply H; eauto; right; eauto).
    destruct (inside w t); cbn [bind fst snd]; [|apply IH; auto].
    destruct (Qltb _ _); cbn [bind fst snd]; [|apply IH; auto].
    destruct (read_probes_ok ps x) as (vs & -> & L); [intros; eapply H; eauto; left; eauto|]; cbn [bind fst snd].
    destruct (IH H' {| prev := t; count := 0 |} (samples ++ [(t, vs)])) as (new & -> & F).
    exists ((t, vs) :: new); rewrite <- app_assoc; auto.
  Qed.
  Definition keeps_size : Prop := forall t len x obs fin n, integrate t len x = (obs, fin, n) -> List.length x = size ->
    List.length fin = size /\ forall y u, In (y, u) obs -> List.length y = size.
  Lemma chunk_ok ps w t0 len x samples : keeps_size -> reserve_samples w = Ok tt -> (forall p, In p ps -> (p < size)%nat) -> List.length x = size ->
    exists x' new n, chunk size integrate to_state to_out Full ps w t0 len x samples = Ok (x', samples ++ new, n) /\ List.length x' = size /\
      Forall (fun e => List.length (snd e) = List.length ps) new.
  Proof.
    intros K R P L; unfold chunk; rewrite L, Nat.eqb_refl, R; cbn [negb bind enter leave emit_of].
    destruct (integrate t0 len x) as [[obs fin] n] eqn:I; destruct (K _ _ _ _ _ _ I L) as [F O].
    destruct (observe_all_ok w ps obs) with (s := sampler_new samples) (samples := samples) as (new & -> & G).
    { intros y t p J; rewrite (O _ _ J); apply P. }
    cbn [bind]; exists fin, new, n; auto.
  Qed.
  Lemma trans_loop_ok st w fuel : keeps_size -> reserve_samples w = Ok tt -> (forall p, In p (probs st) -> (p < size)%nat) ->
    0 < step st -> forall time x samples steps, List.length x = size ->
    duration st <= time + inject_Z (Z.of_nat fuel) * step st ->
    exists new n starts, trans_loop size integrate to_state to_out Full st w fuel time x samples steps = Ok (samples ++ new, n, starts) /\
      Forall (fun e => List.length (snd e) = List.length (probs st)) new.
  Proof.
    intros K R P S; induction fuel as [|fuel IH]; intros time x samples steps L D; cbn [trans_loop].
    - change (inject_Z (Z.of_nat 0)) with 0 in D; destruct (Qltb _ _) eqn:E; [rewrite Qltb_true in E; lra|].
      exists [], steps, []; rewrite app_nil_r; auto.
    - destruct (Qltb _ _); [|exists [], steps, []; rewrite app_nil_r; auto].
      destruct (chunk_ok (probs st) w time (step st) x samples K R P L) as (x' & new & n & -> & L' & F); cbn [bind].
      destruct (IH (time + step st) x' (samples ++ new) (steps + n)%nat L') as (new2 & n2 & st2 & -> & F2).
      { pose proof (inject_S fuel) as J.
        assert (time + step st + inject_Z (Z.of_nat fuel) * step st == time + inject_Z (Z.of_nat (Datatypes.S fuel)) * step st) as X by (rewrite J; ring).
        rewrite X; auto. }
      simpl; exists (new ++ new2), n2, (time :: st2); rewrite app_assoc; split; auto; apply Forall_app; auto.
  Qed.
  Lemma summarise_ok c n l : (0 < n)%nat -> Forall (fun e : sample => List.length (snd e) = n) l -> forall mn mx, exists o, summarise c mn mx l = Ok o.
  Proof.
    intros N; induction 1 as [|[t vs] r H F IH]; intros mn mx; simpl; [eexists; reflexivity|].
    simpl in H; destruct vs as [|v vs]; [simpl in H; lia|].
    destruct c; simpl; match goal with |- exists o, rmap _ (summarise _ ?a ?b r) = _ => destruct (IH a b) as [o ->] end; eexists; reflexivity.
  Qed.

  Theorem C56_completes st fuel envT :
    keeps_size -> probs st <> [] -> (forall p, In p (probs st) -> (p < size)%nat) ->
    0 < step st -> 0 < min_sampling_interval st -> 0 < sampling_window st ->
    (Qfloor (sampling_window st / min_sampling_interval st) <= (2 ^ 63 - 1) / 24)%Z ->
    (Qceiling (duration st / step st) <= Z.of_nat fuel)%Z ->
    exists o, solve Full st fuel envT = Ok o.
  Proof.
    intros K PN P S I W M L; unfold trans_solve, make_window.
    destruct (Qltb _ _) eqn:E; [clear E|rewrite Qltb_false in E; lra]; cbn [bind].
    set (w := {| w_start := _ |}).
    assert (0 < List.length (probs st))%nat as PL by (destruct (probs st); [congruence|simpl; lia]).
    assert (reserve_samples w = Ok tt) as R.
    { unfold reserve_samples; cbn [w_interval w_start w_end w].
      destruct (Qeq_bool _ 0) eqn:Z; [apply Qeq_bool_iff in Z; lra|].
      assert (Qfloor ((duration st - (duration st - sampling_window st)) / min_sampling_interval st) = Qfloor (sampling_window st / min_sampling_interval st)) as X.
      { apply Qfloor_comp; field; lra. }
      assert (0 <= (duration st - (duration st - sampling_window st)) / min_sampling_interval st) as Y.
      { apply Qle_shift_div_l; lra. }
      pose proof Y as Y'; apply Qle_bool_iff in Y; rewrite Y, X.
      assert (0 <= Qfloor (sampling_window st / min_sampling_interval st))%Z as Z0.
      { rewrite <- X; rewrite Zle_Qle. apply Qfloor_resp_le in Y'; rewrite <- Zle_Qle; exact Y'. }
      unfold max_samples.
      destruct (_ <? 0)%Z eqn:B1; [apply Z.ltb_lt in B1; lia|].
      assert ((2 ^ 63 - 1) / 24 < 2 ^ 64)%Z as B0 by (vm_compute; reflexivity).
      destruct (2 ^ 64 <=? _)%Z eqn:B2; [apply Z.leb_le in B2; lia|]; simpl orb; cbv iota.
      destruct (_ <? Qfloor _)%Z eqn:B3; [apply Z.ltb_lt in B3; lia|reflexivity]. }
    assert (duration st <= 0 + inject_Z (Z.of_nat fuel) * step st) as D.
    { rewrite Qplus_0_l.
      assert (duration st == duration st / step st * step st) as X by (field; lra).
      rewrite X; apply Qmult_le_compat_r; [|lra].
      eapply Qle_trans; [apply Qle_ceiling|]; rewrite <- Zle_Qle; auto. }
    destruct (temperature_depend st).
    - destruct (trans_loop_ok st w fuel K R P S 0 (repeat envT size) [] 0%nat) as (new & n & starts & -> & F); [apply repeat_length|auto|].
      cbn [bind app]; destruct (summarise_ok (trans_celsius st) _ _ PL F None None) as [[[? ?] ?] ->]; cbn [bind]; eexists; reflexivity.
    - destruct (chunk_ok (probs st) w 0 (duration st) (repeat envT size) [] K R P) as (x' & new & n & -> & _ & F); [apply repeat_length|].
      cbn [bind app fst snd]; destruct (summarise_ok (trans_celsius st) _ _ PL F None None) as [[[? ?] ?] ->]; cbn [bind]; eexists; reflexivity.
  Qed.
End C56.
Print Assumptions C56_samples.
Print Assumptions C56_extremes.
Print Assumptions C56_ends.
Print Assumptions C56_starts.
Print Assumptions C56_bad_step_diverges.
Print Assumptions C56_no_probes_is_ub.
Print Assumptions C56_no_window_throws.
Print Assumptions C56_no_interval_is_ub.
Print Assumptions C56_reduced_restart_is_ub.
Print Assumptions C56_completes.

(** An integrator that warms every node by one degree per half unit, observed every half unit. *)
Definition warm (t0 len : Q) (x : list Q) : list (list Q * Q) * list Q * nat :=
  ([(x, Qred t0); (map (fun t => Qred (t + 1)) x, Qred (t0 + (1 # 2))); (map (fun t => Qred (t + 2)) x, Qred (t0 + 1))],
   map (fun t => Qred (t + 2)) x, 2%nat).
Definition warm_settings : trans_settings :=
  {| step := 1; duration := 3; min_sampling_interval := 3 # 4; sampling_window := 2; temperature_depend := true;
     trans_celsius := false; probs := [1%nat; 0%nat] |}.
Example C56_example : exists o, trans_solve 2 warm (fun x => x) (fun x => x) Full warm_settings 3 300 = Ok o /\
  map (fun s => (Qred (fst s), snd s)) (o_samples o) = [(1, [302; 302]); (2, [304; 304]); (3, [306; 306])] /\
  o_min o = Some 302 /\ o_max o = Some 306 /\ o_ok o = true /\ map Qred (o_starts o) = [0; 1; 2].
Proof. eexists; vm_compute; repeat split; reflexivity. Qed.
Example C56_example_hypotheses : keeps_size 2 warm /\ 0 < step warm_settings /\
  (Qceiling (duration warm_settings / step warm_settings) <= 3)%Z.
Proof.
  split; [|split; [reflexivity|vm_compute; discriminate]].
  intros t len x obs fin n [= <- <- <-] L; split; [rewrite map_length; auto|].
  simpl; intros y u [H|[H|[H|[]]]]; injection H as <- <-; rewrite ?map_length; auto.
Qed.
(** The reduced variant of the same run with one probe. *)
Example C56_reduced_example :
  trans_solve 2 warm (fun x => x) (fun x => firstn 1 (x ++ [0])) Reduced
    {| step := 1; duration := 3; min_sampling_interval := 3 # 4; sampling_window := 2; temperature_depend := true;
       trans_celsius := false; probs := [1%nat] |} 3 300 = UB.
Proof. vm_compute; reflexivity. Qed.
(** A recorded sample without probes. *)
Example C56_no_probes_example :
  trans_solve 2 warm (fun x => x) (fun x => x) Full
    {| step := 1; duration := 3; min_sampling_interval := 3 # 4; sampling_window := 2; temperature_depend := true;
       trans_celsius := false; probs := [] |} 3 300 = UB.
Proof. vm_compute; reflexivity. Qed.
