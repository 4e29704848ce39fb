From Verif Require Import Base QSum Solver_Model Solver_Spec.
From Coq Require Import Qabs Qround Sorted.
Open Scope res_scope.
Open Scope Q_scope.

Lemma Qltb_true a b : Qltb a b = true <-> a < b.
Proof.
  unfold Qltb; rewrite negb_true_iff; split; intros H.
  - apply Qnot_le_lt; intros L; apply Qle_bool_iff in L; congruence.
  - destruct (Qle_bool b a) eqn:E; auto; apply Qle_bool_iff in E; lra.
Qed.
Lemma Qltb_false a b : Qltb a b = false <-> b <= a.
Proof.
  unfold Qltb; rewrite negb_false_iff; apply Qle_bool_iff.
Qed.
Lemma Qltb_cong a b a' b' : a == a' -> b == b' -> Qltb a b = Qltb a' b'.
Proof.
  intros Ha Hb; destruct (Qltb a b) eqn:E, (Qltb a' b') eqn:E'; auto;
    rewrite ?Qltb_true, ?Qltb_false in *; lra.
Qed.

(** ** Probes *)
Lemma set_insert_in k s x : In x (set_insert k s) <-> x = k \/ In x s.
Proof.
  induction s as [|h t IH]; simpl; [intuition|].
  destruct (k <? h)%nat eqn:L; simpl; [intuition|].
  destruct (k =? h)%nat eqn:E; simpl; [apply Nat.eqb_eq in E; subst; intuition|].
  rewrite IH; intuition.
Qed.
Lemma set_insert_sorted k s : StronglySorted lt s -> StronglySorted lt (set_insert k s).
Proof.
  induction 1 as [|h t Ht IH Hh]; simpl; [repeat constructor|].
  destruct (k <? h)%nat eqn:L.
  - apply Nat.ltb_lt in L; constructor; [constructor; auto|]; constructor; auto.
    eapply Forall_impl; [|exact Hh]; simpl; intros; lia.
  - destruct (k =? h)%nat eqn:E; [constructor; auto|].
    apply Nat.ltb_ge in L; apply Nat.eqb_neq in E; constructor; auto.
    rewrite Forall_forall in *; intros x Hx; apply set_insert_in in Hx as [->|Hx]; [lia|auto].
Qed.
Lemma set_fold l : forall s, StronglySorted lt s ->
  StronglySorted lt (fold_left (fun s k => set_insert k s) l s) /\
  forall x, In x (fold_left (fun s k => set_insert k s) l s) <-> In x s \/ In x l.
Proof.
  induction l as [|k l IH]; intros s Hs; simpl; [split; auto; intuition|].
  destruct (IH (set_insert k s) (set_insert_sorted k s Hs)) as [A B]; split; auto.
  intros x; rewrite B, set_insert_in; intuition.
Qed.
Lemma set_of_spec l : StronglySorted lt (set_of l) /\ forall x, In x (set_of l) <-> In x l.
Proof. destruct (set_fold l [] (SSorted_nil _)) as [A B]; split; auto; intros x; rewrite B; simpl; intuition. Qed.
Lemma sorted_nodup s : StronglySorted lt s -> NoDup s.
Proof.
  induction 1 as [|h t Ht IH Hh]; constructor; auto.
  intros C; rewrite Forall_forall in Hh; apply Hh in C; lia.
Qed.

Lemma alookup_aemplace_same (k v : nat) m : alookup Nat.eqb k m = None -> alookup Nat.eqb k (aemplace Nat.eqb k v m) = Some v.
Proof.
  unfold aemplace, acount; intros H; rewrite H.
  induction m as [|[a b] m IH]; simpl in *; [rewrite Nat.eqb_refl; auto|].
  destruct (k =? a)%nat; [discriminate|auto].
Qed.
Lemma alookup_aemplace_other (k k' v : nat) m : k <> k' -> alookup Nat.eqb k (aemplace Nat.eqb k' v m) = alookup Nat.eqb k m.
Proof.
  unfold aemplace; intros N; destruct (acount Nat.eqb k' m); auto.
  induction m as [|[a b] m IH]; simpl; [apply Nat.eqb_neq in N; rewrite N; auto|].
  destruct (k =? a)%nat; auto.
Qed.
Lemma index_map_old s : forall i m k, ~ In k s -> alookup Nat.eqb k (index_map s i m) = alookup Nat.eqb k m.
Proof.
  induction s as [|h t IH]; simpl; intros i m k N; auto.
  rewrite IH by tauto; apply alookup_aemplace_other; intros ->; tauto.
Qed.
Lemma index_map_new s : forall i m, NoDup s -> (forall k, In k s -> alookup Nat.eqb k m = None) ->
  forall j k, nth_error s j = Some k -> alookup Nat.eqb k (index_map s i m) = Some (i + j)%nat.
Proof.
  induction s as [|h t IH]; intros i m ND F j k E; [destruct j; discriminate|].
  inversion ND; subst; simpl; destruct j as [|j]; simpl in E.
  - injection E as ->; rewrite index_map_old by auto; rewrite alookup_aemplace_same; [f_equal; lia|].
    apply F; left; auto.
  - rewrite (IH (Datatypes.S i) _ H2) with (j := j); auto; [f_equal; lia|].
    intros k' I; rewrite alookup_aemplace_other; [apply F; right; auto|]; intros ->; tauto.
Qed.
Lemma permute_spec m l : (forall k, In k l -> exists i, alookup Nat.eqb k m = Some i) ->
  exists p, permute m l = Ok p /\ Forall2 (fun k i => alookup Nat.eqb k m = Some i) l p.
Proof.
  induction l as [|k l IH]; intros H; simpl; [eexists; split; [reflexivity|constructor]|].
  destruct (H k (or_introl eq_refl)) as [i Hi]; rewrite Hi.
  destruct IH as (p & E & F); [intros; apply H; right; auto|].
  rewrite E; simpl; eexists; split; [reflexivity|]; constructor; auto.
Qed.
Lemma probs_spec indices : exists perm, probs_and_permutation indices = Ok (set_of indices, perm) /\
  Forall2 (fun k i => nth_error (set_of indices) i = Some k) indices perm.
Proof.
  destruct (set_of_spec indices) as [S I]; apply sorted_nodup in S.
  unfold probs_and_permutation; cbv zeta.
  assert (forall j k, nth_error (set_of indices) j = Some k -> alookup Nat.eqb k (index_map (set_of indices) 0 []) = Some j) as M.
  { intros; rewrite (index_map_new _ 0 [] S) with (j := j); auto. }
  destruct (permute_spec (index_map (set_of indices) 0 []) indices) as (p & E & F).
  { intros k Hk; apply I, In_nth_error in Hk as [j Hj]; exists j; auto. }
  exists p; rewrite E; split; [reflexivity|].
  assert (forall k, In k indices -> In k (set_of indices)) as J by (intros; apply I; auto).
  clear E I S; revert M F J; generalize (set_of indices) as ss; intros ss M F J.
  induction F as [|k i l p Hk F IH]; constructor; auto.
  - destruct (In_nth_error _ _ (J k (or_introl eq_refl))) as [j Hj].
    rewrite (M _ _ Hj) in Hk; injection Hk as <-; auto.
  - apply IH; intros; apply J; right; auto.
Qed.

Lemma probe_at_spec results ps : (forall p, In p ps -> (p < List.length results)%nat) ->
  probe_at results ps = Ok (map (fun p => nth p results 0) ps).
Proof.
  induction ps as [|p ps IH]; simpl; intros H; auto.
  destruct (nth_error results p) eqn:E.
  - rewrite IH by auto; simpl; repeat f_equal; symmetry; erewrite nth_error_nth; eauto.
  - apply nth_error_None in E; specialize (H p (or_introl eq_refl)); lia.
Qed.
Lemma probe_at_bad results ps p : In p ps -> (List.length results <= p)%nat -> probe_at results ps = Throw.
Proof.
  induction ps as [|q ps IH]; simpl; [easy|intros [->|I] L].
  - apply nth_error_None in L; rewrite L; auto.
  - destruct (nth_error results q); auto; rewrite IH; auto.
Qed.
Lemma min_from_spec l : forall m, (min_from m l <= m /\ forall x, In x l -> min_from m l <= x) /\ (min_from m l = m \/ In (min_from m l) l).
Proof.
  induction l as [|a l IH]; intros m; simpl; [split; [split; [lra|easy]|auto]|].
  destruct (IH (if Qltb a m then a else m)) as [[A B] C].
  destruct (Qltb a m) eqn:E; rewrite ?Qltb_true, ?Qltb_false in E.
  - split; [split; [lra|intros x [<-|I]; [lra|auto]]|destruct C as [C|C]; auto].
  - split; [split; [lra|intros x [<-|I]; [lra|auto]]|destruct C as [C|C]; auto].
Qed.
Lemma max_from_spec l : forall m, (m <= max_from m l /\ forall x, In x l -> x <= max_from m l) /\ (max_from m l = m \/ In (max_from m l) l).
Proof.
  induction l as [|a l IH]; intros m; simpl; [split; [split; [lra|easy]|auto]|].
  destruct (IH (if Qltb m a then a else m)) as [[A B] C].
  destruct (Qltb m a) eqn:E; rewrite ?Qltb_true, ?Qltb_false in E.
  - split; [split; [lra|intros x [<-|I]; [lra|auto]]|destruct C as [C|C]; auto].
  - split; [split; [lra|intros x [<-|I]; [lra|auto]]|destruct C as [C|C]; auto].
Qed.
Lemma min_element_spec l m : min_element l = Ok m -> In m l /\ forall x, In x l -> m <= x.
Proof.
  destruct l as [|a l]; simpl; [discriminate|intros [= <-]].
  destruct (min_from_spec l a) as [[A B] C]; split; [destruct C; auto|].
  intros x [<-|I]; auto.
Qed.
Lemma max_element_spec l m : max_element l = Ok m -> In m l /\ forall x, In x l -> x <= m.
Proof.
  destruct l as [|a l]; simpl; [discriminate|intros [= <-]].
  destruct (max_from_spec l a) as [[A B] C]; split; [destruct C; auto|].
  intros x [<-|I]; auto.
Qed.

(** ** Static iteration *)
Lemma residual_max_spec l : forall r0,
  let r := fold_left (residual_step true 0) l r0 in
  r0 <= r /\ forall p, In p l -> Qabs (fst p - snd p) <= r.
Proof.
  induction l as [|p l IH]; intros r0; simpl; [split; [lra|easy]|].
  destruct (IH (residual_step true 0 r0 p)) as [A B].
  assert (r0 <= residual_step true 0 r0 p /\ Qabs (fst p - snd p) <= residual_step true 0 r0 p) as [C D].
  { unfold residual_step; destruct (Qltb _ _) eqn:E; rewrite ?Qltb_true, ?Qltb_false in E; lra. }
  unfold residual_step in *; simpl in *.
  split; [lra|]; intros q [<-|I]; [lra|auto].
Qed.
Lemma residual_mean_spec n l : ~ n == 0 -> forall r0,
  fold_left (residual_step false n) l r0 == r0 + sumf (fun p => Qabs (fst p - snd p)) l / n.
Proof.
  intros N; induction l as [|p l IH]; intros r0; cbn [fold_left sumf]; [unfold Qdiv; ring|].
  rewrite IH; unfold residual_step; field; auto.
Qed.
Lemma residual_agree mx eps a b r : residual_of mx a b = Ok r -> Qltb eps r = false -> agree mx eps a b.
Proof.
  unfold residual_of; destruct (List.length a =? List.length b)%nat eqn:L; [|discriminate].
  apply Nat.eqb_eq in L; intros [= <-] E; rewrite Qltb_false in E; destruct mx; unfold agree.
  - intros i x y Hx Hy.
    change (fold_left (residual_step true (inject_Z (Z.of_nat (List.length a)))) (combine a b) 0)
      with (fold_left (residual_step true 0) (combine a b) 0) in E.
    destruct (residual_max_spec (combine a b) 0) as [_ H].
    assert (In (x, y) (combine a b)) as I.
    { clear E H; revert b i L Hx Hy; induction a as [|a0 a IH]; intros [|b0 b] [|i] L Hx Hy; simpl in *; try discriminate.
      - left; congruence.
      - right; eapply IH; eauto. }
    specialize (H _ I); simpl in H; eapply Qle_trans; [exact H|exact E].
  - destruct a as [|a0 a].
    { simpl; unfold Qle; simpl; lia. }
    remember (a0 :: a) as aa.
    assert (0 < inject_Z (Z.of_nat (List.length aa))) as P.
    { change 0 with (inject_Z 0); rewrite <- Zlt_Qlt; subst; simpl; lia. }
    rewrite residual_mean_spec in E by lra.
    rewrite Qplus_0_l in E.
    assert (sumf (fun p => Qabs (fst p - snd p)) (combine aa b) == sumf (fun p => Qabs (fst p - snd p)) (combine aa b) / inject_Z (Z.of_nat (List.length aa)) * inject_Z (Z.of_nat (List.length aa))) as X by (field; lra).
    rewrite X; apply Qmult_le_compat_r; [exact E|lra].
Qed.

Lemma static_loop_spec bs st fuel : forall m x, (1 <= m)%N -> (m <= N.of_nat fuel)%N ->
  static_loop bs st fuel m x = Throw \/
  exists o builds, static_loop bs st fuel m x = Ok (o, builds) /\
    hd_error builds = Some x /\ (N.of_nat (List.length builds) <= m)%N /\ chained bs builds /\
    match o with
    | None => bs (last builds []) = None
    | Some r => bs (last builds []) = Some r /\
        (N.of_nat (List.length builds) = m \/ agree (maximum_res st) (residual st) r (last builds []))
    end.
Proof.
  induction fuel as [|fuel IH]; intros m x L F; [lia|]; simpl.
  destruct (bs x) as [next|] eqn:B.
  2: { right; do 2 eexists; split; [reflexivity|]; simpl; repeat split; auto; lia. }
  destruct (residual_of (maximum_res st) next x) as [r| | |] eqn:R; cbn [bind]; auto;
    try (unfold residual_of in R; destruct (_ =? _)%nat; discriminate).
  destruct (Qltb (residual st) r) eqn:E.
  2: { right; do 2 eexists; split; [reflexivity|]; simpl; repeat split; auto; try lia.
       right; eapply residual_agree; eauto. }
  unfold dec64; destruct (m =? 0)%N eqn:Z; [apply N.eqb_eq in Z; lia|].
  destruct (0 <? m - 1)%N eqn:P.
  - apply N.ltb_lt in P.
    destruct (IH (m - 1)%N next ltac:(lia) ltac:(lia)) as [H|(o & bl & H & H1 & H2 & H3 & H4)]; rewrite H; cbn [bind rmap fst snd]; auto.
    right; do 2 eexists; split; [reflexivity|].
    destruct bl as [|b bl]; simpl in H1; [discriminate|injection H1 as ->].
    split; [reflexivity|]; split; [simpl List.length in *; lia|]; split; [split; auto|].
    change (last (x :: next :: bl) []) with (last (next :: bl) []).
    destruct o; auto; destruct H4 as [H4 [H5|H5]]; split; auto; left; simpl List.length in *; lia.
  - right; do 2 eexists; split; [reflexivity|]; simpl; repeat split; auto; try lia.
    left; apply N.ltb_ge in P; lia.
Qed.

Lemma static_loop_total bs st fuel : forall m x,
  (forall y z, bs y = Some z -> List.length z = List.length y) -> static_loop bs st fuel m x <> Throw.
Proof.
  induction fuel as [|fuel IH]; intros m x H; simpl; [discriminate|].
  destruct (bs x) as [next|] eqn:B; [|discriminate].
  unfold residual_of; rewrite (H _ _ B), Nat.eqb_refl; cbn [bind].
  destruct (Qltb _ _); [|discriminate]; destruct (0 <? _)%N; [|discriminate].
  specialize (IH (dec64 m) next H); destruct (static_loop bs st fuel (dec64 m) next); simpl; congruence.
Qed.

(** ** Sampling *)
Definition last_time (samples : list sample) : Q := match rev samples with [] => 0 | (t, _) :: _ => t end.
Lemma last_time_snoc l t v : last_time (l ++ [(t, v)]) = t.
Proof. unfold last_time; rewrite rev_app_distr; reflexivity. Qed.

(** One integration's observations append the recorded ones. *)
Lemma observe_all_spec w emit obs : forall s samples out,
  observe_all w emit s samples obs = Ok out ->
  prev s - count s == last_time samples ->
  exists new, out = samples ++ new /\
    Forall2 (shows emit false) (recorded (w_interval w) (last_time samples) (filter (in_window (w_start w) (w_end w)) obs)) new.
Proof.
  induction obs as [|[x t] obs IH]; intros s samples out E I; simpl in E.
  - injection E as <-; exists []; rewrite app_nil_r; split; auto; constructor.
  - cbn [filter]; unfold in_window at 1, snd at 1 2.
    fold (inside w t); destruct (inside w t) eqn:W; rewrite ?W in E; unfold inside in W; rewrite ?W.
    + simpl recorded.
      assert (count s + (t - prev s) == t - last_time samples) as C by (rewrite <- I; ring).
      rewrite <- (Qltb_cong (w_interval w) _ (w_interval w) _ (Qeq_refl _) C).
      destruct (Qltb (w_interval w) (count s + (t - prev s))) eqn:G; cbn [bind] in E.
      * destruct (emit x) as [vs| | |] eqn:V; cbn [bind fst snd] in E; try discriminate.
        destruct (IH _ _ _ E) as (new & -> & F); [simpl; rewrite last_time_snoc; ring|].
        rewrite last_time_snoc in F.
        exists ((t, vs) :: new); rewrite <- app_assoc; split; auto.
        constructor; auto; split; auto; exists vs; auto.
      * cbn [fst snd] in E; destruct (IH _ _ _ E) as (new & -> & F); [cbn [prev count]; lra|].
        exists new; auto.
    + cbn [bind fst snd] in E; destruct (IH _ _ _ E I) as (new & -> & F); exists new; auto.
Qed.
Lemma sampler_new_inv samples : prev (sampler_new samples) - count (sampler_new samples) == last_time samples.
Proof. unfold sampler_new, last_time; simpl; destruct (rev samples) as [|[]]; ring. Qed.

Lemma recorded_app gap a b : forall l, recorded gap l (a ++ b) =
  recorded gap l a ++ recorded gap (last (map snd (recorded gap l a)) l) b.
Proof.
  induction a as [|[x t] a IH]; intros l; simpl; auto.
  destruct (Qltb gap (t - l)); simpl; rewrite IH; auto.
  f_equal; f_equal; f_equal.
  destruct (map snd (recorded gap t a)) eqn:M; simpl; auto.
  clear; revert q; induction l0; intros; simpl; auto.
Qed.
Lemma recorded_spaced gap l : forall a, spaced gap a (map snd (recorded gap a l)).
Proof.
  induction l as [|[x t] l IH]; intros a; simpl; auto.
  destruct (Qltb gap (t - a)) eqn:E; simpl; auto; rewrite Qltb_true in E; split; auto; lra.
Qed.
Lemma recorded_incl gap l : forall a p, In p (recorded gap a l) -> In p l.
Proof.
  induction l as [|[x t] l IH]; intros a p; simpl; auto.
  destruct (Qltb gap (t - a)); simpl; [intros [<-|H]; eauto|eauto].
Qed.
Lemma shows_times emit c l s : Forall2 (shows emit c) l s -> map fst s = map snd l.
Proof. induction 1 as [|[x t] [t' v] l s [H _] F IH]; simpl in *; congruence. Qed.
Lemma shows_last emit l s a : Forall2 (shows emit false) l s -> last_time (a ++ s) = last (map snd l) (last_time a).
Proof.
  intros F; rewrite <- (shows_times _ _ _ _ F); clear.
  induction s as [|[t v] s IH] using rev_ind; [rewrite app_nil_r; auto|].
  rewrite app_assoc, last_time_snoc, map_app; simpl; rewrite last_last; auto.
Qed.

Section Trans.
  Context (size : nat) (integrate : Q -> Q -> list Q -> list (list Q * Q) * list Q * nat) (to_state to_out : list Q -> list Q).
  Notation chunk := (chunk size integrate to_state to_out).
  Notation trans_loop := (trans_loop size integrate to_state to_out).
  Notation observed k := (observed integrate (enter to_state k) (leave to_out k)).

  Lemma chunk_spec k ps w t0 len x samples x' out n :
    chunk k ps w t0 len x samples = Ok (x', out, n) ->
    List.length x = size /\
    exists obs fin, integrate t0 len (enter to_state k x) = (obs, fin, n) /\ x' = leave to_out k fin /\
    exists new, out = samples ++ new /\
      Forall2 (shows (emit_of to_out k ps) false)
        (recorded (w_interval w) (last_time samples) (filter (in_window (w_start w) (w_end w)) obs)) new.
  Proof.
    unfold Solver_Model.chunk; destruct (List.length x =? size)%nat eqn:L; simpl negb; [|discriminate]; cbv iota.
    apply Nat.eqb_eq in L.
    destruct (reserve_samples w); cbn [bind]; try discriminate.
    destruct (integrate t0 len (enter to_state k x)) as [[obs fin] steps].
    destruct (observe_all _ _ _ _ _) eqn:O; cbn [bind]; try discriminate.
    intros [= <- <- <-]; split; auto; exists obs, fin; do 2 (split; auto).
    apply observe_all_spec in O; [exact O|apply sampler_new_inv].
  Qed.

  Lemma trans_loop_spec k st w fuel : forall time x samples steps out n starts,
    trans_loop k st w fuel time x samples steps = Ok (out, n, starts) ->
    exists new, out = samples ++ new /\
      Forall2 (shows (emit_of to_out k (probs st)) false)
        (recorded (w_interval w) (last_time samples) (filter (in_window (w_start w) (w_end w)) (observed k (step st) starts x))) new.
  Proof.
    induction fuel as [|fuel IH]; intros time x samples steps out n starts; simpl.
    - destruct (Qltb _ _); [discriminate|intros [= <- <- <-]]; exists []; rewrite app_nil_r; split; [auto|constructor].
    - destruct (Qltb _ _); [|intros [= <- <- <-]; exists []; rewrite app_nil_r; split; [auto|constructor]].
      destruct (chunk _ _ _ _ _ _ _) as [[[x' s'] c]| | |] eqn:C; cbn [bind]; try discriminate.
      destruct (trans_loop k st w fuel (time + step st) x' s' (steps + c)) as [[[o2 n2] st2]| | |] eqn:T; simpl; try discriminate.
      intros [= <- <- <-].
      apply chunk_spec in C as (_ & obs & fin & Hi & -> & new & -> & F).
      apply IH in T as (new2 & -> & F2).
      exists (new ++ new2); rewrite app_assoc; split; auto.
      simpl; rewrite Hi, filter_app, recorded_app.
      apply Forall2_app; auto.
      rewrite <- (shows_last _ _ _ samples F); exact F2.
  Qed.

  Lemma inject_S j : inject_Z (Z.of_nat (Datatypes.S j)) == inject_Z (Z.of_nat j) + 1.
  Proof. rewrite Nat2Z.inj_succ; unfold Z.succ; rewrite inject_Z_plus; reflexivity. Qed.
  Lemma inject_nonneg j : 0 <= inject_Z (Z.of_nat j).
  Proof. change 0 with (inject_Z 0); rewrite <- Zle_Qle; lia. Qed.

  Lemma trans_loop_starts k st w fuel : forall time x samples steps out n starts,
    trans_loop k st w fuel time x samples steps = Ok (out, n, starts) ->
    (forall j t, nth_error starts j = Some t -> t == time + inject_Z (Z.of_nat j) * step st /\ t < duration st) /\
    duration st <= time + inject_Z (Z.of_nat (List.length starts)) * step st.
  Proof.
    induction fuel as [|fuel IH]; intros time x samples steps out n starts; simpl.
    - destruct (Qltb _ _) eqn:E; [discriminate|intros [= <- <- <-]]; rewrite Qltb_false in E.
      split; [intros [|] ? ?; discriminate|simpl; change (inject_Z 0) with 0; lra].
    - destruct (Qltb _ _) eqn:E.
      + destruct (chunk _ _ _ _ _ _ _) as [[[x' s'] c]| | |] eqn:C; cbn [bind]; try discriminate.
        destruct (trans_loop k st w fuel (time + step st) x' s' (steps + c)) as [[[o2 n2] st2]| | |] eqn:T; simpl; try discriminate.
        intros [= <- <- <-]; apply IH in T as [A B]; rewrite Qltb_true in E.
        split.
        * intros [|j] t; simpl; [intros [= <-]; change (inject_Z 0) with 0; lra|].
          intros H; apply A in H as [H1 H2]; split; auto.
          change (Z.pos (Pos.of_succ_nat j)) with (Z.of_nat (Datatypes.S j)); rewrite inject_S, H1; ring.
        * pose proof (inject_S (List.length st2)) as J; change (List.length (time :: st2)) with (Datatypes.S (List.length st2)).
          assert (time + inject_Z (Z.of_nat (Datatypes.S (List.length st2))) * step st == time + step st + inject_Z (Z.of_nat (List.length st2)) * step st) as X by (rewrite J; ring).
          rewrite X; auto.
      + intros [= <- <- <-]; rewrite Qltb_false in E.
        split; [intros [|] ? ?; discriminate|simpl; change (inject_Z 0) with 0; lra].
  Qed.

  Lemma observe_all_fuel w emit obs : (forall x, emit x <> OutOfFuel) -> forall s samples, observe_all w emit s samples obs <> OutOfFuel.
  Proof.
    intros H; induction obs as [|[x t] obs IH]; intros s samples; simpl; [discriminate|].
    destruct (inside w t); cbn [bind]; [|apply IH].
    destruct (Qltb _ _); cbn [bind]; [|apply IH].
    specialize (H x); destruct (emit x); cbn [bind]; try discriminate; [apply IH|congruence].
  Qed.
  Lemma read_probes_fuel ps x : read_probes ps x <> OutOfFuel.
  Proof.
    induction ps as [|p ps IH]; simpl; [discriminate|].
    destruct (nth_error x p); [|discriminate]; destruct (read_probes ps x); simpl; congruence.
  Qed.
  Lemma chunk_fuel k ps w t0 len x samples : chunk k ps w t0 len x samples <> OutOfFuel.
  Proof.
    unfold Solver_Model.chunk; destruct (negb _); [discriminate|].
    unfold reserve_samples; destruct (Qeq_bool _ _); cbn [bind]; [discriminate|].
    destruct (_ || _); cbn [bind]; [discriminate|]; destruct (_ <? _)%Z; cbn [bind]; [discriminate|].
    destruct (integrate _ _ _) as [[obs fin] c].
    assert (observe_all w (emit_of to_out k ps) (sampler_new samples) samples obs <> OutOfFuel) as H.
    { apply observe_all_fuel; intros y; destruct k; simpl; [apply read_probes_fuel|discriminate]. }
    destruct (observe_all _ _ _ _ _); simpl; congruence.
  Qed.

  (** Enough fuel: as many chunks as steps fit. *)
  Lemma trans_loop_fuel k st w fuel : 0 < step st -> forall time x samples steps,
    duration st <= time + inject_Z (Z.of_nat fuel) * step st ->
    trans_loop k st w fuel time x samples steps <> OutOfFuel.
  Proof.
    intros P; induction fuel as [|fuel IH]; intros time x samples steps H; simpl.
    - change (inject_Z (Z.of_nat 0)) with 0 in H.
      destruct (Qltb _ _) eqn:E; [rewrite Qltb_true in E; lra|discriminate].
    - destruct (Qltb _ _); [|discriminate].
      pose proof (chunk_fuel k (probs st) w time (step st) x samples) as C.
      destruct (chunk _ _ _ _ _ _ _) as [[[x' s'] c]| | |]; cbn [bind]; try discriminate; [|congruence].
      assert (trans_loop k st w fuel (time + step st) x' s' (steps + c) <> OutOfFuel) as D.
      { apply IH; rewrite inject_S in H; 
        assert (time + step st + inject_Z (Z.of_nat fuel) * step st == time + (inject_Z (Z.of_nat fuel) + 1) * step st) as X by ring.
        rewrite X; auto. }
      destruct (trans_loop k st w fuel (time + step st) x' s' (steps + c)); simpl; congruence.
  Qed.

  Lemma trans_loop_never k st w fuel : step st <= 0 -> forall time x samples steps o,
    time < duration st -> trans_loop k st w fuel time x samples steps <> Ok o.
  Proof.
    intros P; induction fuel as [|fuel IH]; intros time x samples steps o L; simpl;
      destruct (Qltb time (duration st)) eqn:E; rewrite ?Qltb_false in E; try lra; [discriminate|].
    destruct (chunk _ _ _ _ _ _ _) as [[[x' s'] c]| | |]; cbn [bind]; try discriminate.
    assert (time + step st < duration st) as L' by lra.
    destruct (trans_loop k st w fuel (time + step st) x' s' (steps + c)) eqn:T; simpl; try discriminate.
    exfalso; eapply IH; eauto.
  Qed.
End Trans.

(** ** The summary *)
Lemma summarise_spec c emit l : forall samples mn mx mn' mx' out,
  Forall2 (shows emit false) l samples ->
  summarise c mn mx samples = Ok (mn', mx', out) -> Forall2 (shows emit c) l out.
Proof.
  intros samples; revert l; induction samples as [|[t vs] r IH]; intros l mn mx mn' mx' out F; simpl.
  - intros [= <- <- <-]; inversion F; constructor.
  - inversion F as [|xt s l' r' H F' E1 E2]; subst.
    destruct (min_element _) eqn:A; cbn [bind]; try discriminate.
    destruct (max_element _) eqn:B; cbn [bind]; try discriminate.
    destruct (summarise c _ _ r) as [[[a1 a2] o2]| | |] eqn:S; simpl; try discriminate.
    intros [= <- <- <-]; constructor; [|eapply IH; eauto].
    destruct H as (H1 & vs' & H2 & H3); simpl in *; subst; split; auto; exists vs'; split; auto.
Qed.
Definition extrema (mn mx : option Q) (vs : list Q) : Prop :=
  match mn, mx with
  | Some a, Some b => (forall v, In v vs -> a <= v /\ v <= b)
  | None, None => vs = []
  | _, _ => False
  end.
Lemma summarise_extrema c samples : forall mn mx mn' mx' out,
  summarise c mn mx samples = Ok (mn', mx', out) ->
  ((mn = None <-> mx = None) ->
   (mn' = None <-> mx' = None) /\
   (forall a, mn = Some a -> exists b, mn' = Some b /\ b <= a) /\
   (forall a, mx = Some a -> exists b, mx' = Some b /\ a <= b) /\
   (forall s v, In s out -> In v (snd s) -> exists a b, mn' = Some a /\ mx' = Some b /\ a <= v /\ v <= b) /\
   (forall a, mn' = Some a -> mn = Some a \/ exists s, In s out /\ In a (snd s)) /\
   (forall a, mx' = Some a -> mx = Some a \/ exists s, In s out /\ In a (snd s))).
Proof.
  induction samples as [|[t vs] r IH]; intros mn mx mn' mx' out; simpl.
  - intros [= <- <- <-] I; split; [auto|]; repeat split; try (intros a ->; exists a; split; [auto|lra]); try easy; auto.
  - destruct (min_element _) as [a| | |] eqn:A; cbn [bind]; try discriminate.
    destruct (max_element _) as [b| | |] eqn:B; cbn [bind]; try discriminate.
    destruct (summarise c _ _ r) as [[[a1 a2] o2]| | |] eqn:S; simpl; try discriminate.
    intros [= <- <- <-] I; 
    assert (forall a b : Q, Some a = None <-> Some b = None) as J by (split; discriminate).
    pose proof (IH _ _ _ _ _ S (J _ _)) as (S0 & S1 & S2 & S3 & S4 & S5); clear IH S.
    apply min_element_spec in A as [A1 A2]; apply max_element_spec in B as [B1 B2].
    destruct (S1 _ eq_refl) as (m & -> & M); destruct (S2 _ eq_refl) as (m2 & -> & M2).
    assert ((match mn with None => a | Some m0 => extreme Qltb m0 a end) <= a) as Ea.
    { destruct mn; [unfold extreme; destruct (Qltb _ _) eqn:X; rewrite ?Qltb_true, ?Qltb_false in X; lra|lra]. }
    assert (b <= (match mx with None => b | Some m0 => extreme (fun x y => Qltb y x) m0 b end)) as Eb.
    { destruct mx; [unfold extreme; destruct (Qltb _ _) eqn:X; rewrite ?Qltb_true, ?Qltb_false in X; lra|lra]. }
    split; [auto|]; split; [|split; [|split; [|split]]].
    + intros q ->; exists m; split; auto.
      eapply Qle_trans; [exact M|]; unfold extreme; destruct (Qltb _ _) eqn:X; rewrite ?Qltb_true, ?Qltb_false in X; lra.
    + intros q ->; exists m2; split; auto.
      eapply Qle_trans; [|exact M2]; unfold extreme; destruct (Qltb _ _) eqn:X; rewrite ?Qltb_true, ?Qltb_false in X; lra.
    + intros s v [<-|Hs] Hv; [|eauto]; simpl in Hv; exists m, m2; repeat split; auto; [specialize (A2 _ Hv)|specialize (B2 _ Hv)]; lra.
    + intros q [= <-]; destruct (S4 _ eq_refl) as [E|(s & H1 & H2)]; [|right; exists s; split; [right; exact H1|exact H2]].
      injection E as E; destruct mn as [m0|]; [unfold extreme in E; destruct (Qltb _ _); subst|subst]; try (left; reflexivity);
        (right; exists (t, if c then map k2c vs else vs); split; [left; reflexivity|assumption]).
    + intros q [= <-]; destruct (S5 _ eq_refl) as [E|(s & H1 & H2)]; [|right; exists s; split; [right; exact H1|exact H2]].
      injection E as E; destruct mx as [m0|]; [unfold extreme in E; destruct (Qltb _ _); subst|subst]; try (left; reflexivity);
        (right; exists (t, if c then map k2c vs else vs); split; [left; reflexivity|assumption]).
Qed.
