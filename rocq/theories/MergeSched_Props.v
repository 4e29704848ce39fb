(** C188: merging the layers of a layout in parallel. *)
From Verif Require Import Base MergeSched_Model MergeSched_Spec.
Open Scope nat_scope.

Section Proofs.
  Context {M : Type} (turn : nat -> M -> option M).

  Lemma merged_unique per m r n : merged turn per m r n -> forall r' n', merged turn per m r' n' -> r = r' /\ n = n'.
  Proof.
    induction 1 as [m E|m m' r n E H IH]; intros r' n' H'; inversion H'; subst; try congruence; auto.
    assert (m'0 = m') by congruence; subst; destruct (IH _ _ H1); subst; auto.
  Qed.
  Lemma run_layer_spec per fuel m r : run_layer turn per fuel m = Ok r -> comes_to turn per m r.
  Proof.
    revert m; induction fuel as [|f IH]; intros m H; [discriminate|]; cbn in H; destruct (turn per m) as [m'|] eqn:E.
    - destruct (IH m' H) as [n Hn]; exists (S n); econstructor; eauto.
    - injection H as <-; exists 0; constructor; exact E.
  Qed.
  Lemma run_layer_fuel per m r n : merged turn per m r n -> forall fuel, n < fuel -> run_layer turn per fuel m = Ok r.
  Proof.
    induction 1 as [m E|m m' r n E H IH]; intros [|f] Hf; try lia; cbn; rewrite E; [reflexivity|apply IH; lia].
  Qed.
  Lemma run_layers_spec per fuel ms rs : run_layers turn per fuel ms = Ok rs -> Forall2 (comes_to turn per) ms rs.
  Proof.
    revert rs; induction ms as [|m r IH]; intros rs H; cbn in H; [injection H as <-; constructor|].
    destruct (run_layer turn per fuel m) as [m'| | |] eqn:E; try discriminate.
    destruct (run_layers turn per fuel r) as [r'| | |] eqn:E'; try discriminate; injection H as <-.
    constructor; [exact (run_layer_spec _ _ _ _ E)|apply IH; reflexivity].
  Qed.

  Lemma replace_length i (m : M) ms : List.length (replace i m ms) = List.length ms.
  Proof. revert i; induction ms as [|x r IH]; intros [|i]; cbn; auto. Qed.
  Lemma replace_nth i (m : M) ms j : i < List.length ms -> nth_error (replace i m ms) j = if j =? i then Some m else nth_error ms j.
  Proof.
    revert i j; induction ms as [|x r IH]; intros [|i] [|j] H; cbn in *; try lia; auto.
    apply IH; lia.
  Qed.
  Lemma remove_length_in i l : NoDup l -> In i l -> S (List.length (remove Nat.eq_dec i l)) = List.length l.
  Proof.
    induction l as [|x r IH]; intros Hd Hi; [destruct Hi|]; destruct Hi as [->|H]; inversion Hd; subst; cbn.
    - destruct (Nat.eq_dec i i); [|tauto]; rewrite notin_remove; auto.
    - destruct (Nat.eq_dec i x); [subst; tauto|cbn; rewrite IH; auto].
  Qed.
  Lemma remove_nodup i l : NoDup l -> NoDup (remove Nat.eq_dec i l).
  Proof.
    induction 1 as [|x r H Hd IH]; cbn; [constructor|]; destruct (Nat.eq_dec i x); auto; constructor; auto.
    intros H'; apply in_remove in H' as [H' _]; auto.
  Qed.

  (** what holds of every pool on the way from [ms]: a merger that waits is untouched, one that is worked on is on its way, and
      one that is neither is finished *)
  Definition on_way (per : nat) (ms : list M) (p : pool) : Prop :=
    List.length (store p) = List.length ms /\ NoDup (running p) /\ NoDup (waiting p) /\
    (forall i, In i (running p) -> ~ In i (waiting p)) /\
    (forall i, In i (waiting p) \/ In i (running p) -> i < List.length ms) /\
    (forall i m, nth_error ms i = Some m -> exists x, nth_error (store p) i = Some x /\
       (In i (waiting p) -> x = m) /\
       (forall r, comes_to turn per x r -> comes_to turn per m r) /\
       (~ In i (waiting p) -> ~ In i (running p) -> comes_to turn per m x)).

  Lemma start_on_way per ms : on_way per ms (submitted ms).
  Proof.
    unfold on_way, submitted; cbn; split; [auto|split; [constructor|split; [apply seq_NoDup|split; [tauto|split]]]].
    - intros i [H|[]]; apply in_seq in H; lia.
    - intros i m H; exists m; split; [exact H|split; [auto|split; [auto|]]].
      intros H'; exfalso; apply H', in_seq; assert (i < List.length ms) by (apply nth_error_Some; congruence); lia.
  Qed.
  Lemma existsb_in i l : existsb (Nat.eqb i) l = true <-> In i l.
  Proof.
    rewrite existsb_exists; split; [intros (x & H & E); apply Nat.eqb_eq in E; subst; auto|intros H; exists i; split; [auto|apply Nat.eqb_refl]].
  Qed.
  Lemma step_on_way threads per ms p e q : on_way per ms p -> pool_step turn threads per e p = Some q -> on_way per ms q.
  Proof.
    intros (Hl & Hr & Hw & Hd & Hb & Hs) H; destruct e as [|i]; unfold pool_step in H.
    - destruct (waiting p) as [|i w] eqn:Ew; [discriminate|].
      destruct (List.length (running p) <? threads); [|discriminate]; injection H as <-.
      apply NoDup_cons_iff in Hw as [Hn Hw']; unfold on_way; cbn [waiting running store]; split; [auto|split; [|split; [auto|split; [|split]]]].
      + constructor; [intros H'; apply (Hd i H'); left; reflexivity|auto].
      + intros j [<-|H']; [auto|intros H''; apply (Hd j H'); right; auto].
      + intros j [H'|[<-|H']]; apply Hb; cbn; auto.
      + intros j m Hm; destruct (Hs j m Hm) as (x & E & A & B & C); exists x; split; [auto|split; [intros; apply A; cbn; auto|split; [auto|]]].
        intros N1 N2; apply C; [intros [->|N]; [apply N2; left; auto|tauto]|intros N; apply N2; right; exact N].
    - destruct (existsb (Nat.eqb i) (running p)) eqn:Ei; [|discriminate]; apply existsb_in in Ei.
      destruct (nth_error (store p) i) as [x|] eqn:Ex; [|discriminate].
      assert (Li : i < List.length (store p)) by (apply nth_error_Some; congruence).
      destruct (turn per x) as [x'|] eqn:Et; injection H as <-; unfold on_way; cbn.
      + split; [rewrite replace_length; auto|split; [auto|split; [auto|split; [auto|split; [auto|]]]]].
        intros j m Hm; destruct (Hs j m Hm) as (y & E & A & B & C); rewrite replace_nth by auto.
        destruct (j =? i) eqn:Eji; [|exists y; auto].
        apply Nat.eqb_eq in Eji; subst j; assert (y = x) by congruence; subst y.
        exists x'; split; [auto|split; [intros W; exfalso; exact (Hd i Ei W)|split; [|tauto]]].
        intros r [n Hn]; apply B; exists (S n); econstructor; eauto.
      + split; [auto|split; [apply remove_nodup; auto|split; [auto|split; [intros j H'; apply in_remove in H' as [H' _]; auto|split]]]].
        * intros j [H'|H']; [auto|apply in_remove in H' as [H' _]; auto].
        * intros j m Hm; destruct (Hs j m Hm) as (y & E & A & B & C); exists y; split; [auto|split; [auto|split; [auto|]]].
          intros N1 N2; destruct (Nat.eq_dec j i) as [->|Ne].
          { assert (y = x) by congruence; subst y; apply B; exists 0; constructor; exact Et. }
          apply C; [auto|intros N; apply N2, in_in_remove; auto].
  Qed.
  Lemma run_on_way threads per ms es : forall p q, on_way per ms p -> pool_run turn threads per es p = Some q -> on_way per ms q.
  Proof.
    induction es as [|e r IH]; intros p q Hp H; cbn in H; [injection H as <-; auto|].
    destruct (pool_step turn threads per e p) as [p'|] eqn:E; [|discriminate]; exact (IH p' q (step_on_way _ _ _ _ _ _ Hp E) H).
  Qed.
  Lemma forall2_nth (R : M -> M -> Prop) ms : forall rs, List.length rs = List.length ms ->
    (forall i m, nth_error ms i = Some m -> exists x, nth_error rs i = Some x /\ R m x) -> Forall2 R ms rs.
  Proof.
    induction ms as [|m r IH]; intros [|x rs] Hl H; try discriminate; constructor.
    - destruct (H 0 m eq_refl) as (y & [= ->] & Hy); exact Hy.
    - apply IH; [cbn in Hl; lia|]; intros i m' E; exact (H (S i) m' E).
  Qed.

  (** ** C188 *)
  (** Whatever the number of threads and the order in which they work: when the call returns, every layer is what merging it on
      its own yields. *)
  Theorem C188_every_schedule : forall by_layer threads fuel es ms rs,
    merge_layers turn by_layer threads fuel es ms = Some (Ok rs) ->
    Forall2 (comes_to turn (if by_layer then 1 else threads)) ms rs.
  Proof.
    intros by_layer threads fuel es ms rs H; unfold merge_layers in H; fold (per_layer by_layer threads).
    destruct (1 <? threads); [|injection H as H; exact (run_layers_spec _ _ _ _ H)].
    destruct (pool_run turn threads (per_layer by_layer threads) es (submitted ms)) as [p|] eqn:E; [|discriminate].
    destruct (idle p) eqn:Ei; [|discriminate]; injection H as <-.
    destruct (run_on_way _ _ ms es _ _ (start_on_way _ ms) E) as (Hl & _ & _ & _ & _ & Hs).
    unfold idle in Ei; destruct (waiting p) eqn:Ew; [|discriminate]; destruct (running p) eqn:Er; [|discriminate].
    apply forall2_nth; [exact Hl|]; intros i m Hm; destruct (Hs i m Hm) as (x & E1 & _ & _ & C); exists x; split; [exact E1|apply C; auto].
  Qed.
  (** So with one thread per layer the result does not depend on the number of threads or the schedule. *)
  Theorem C188_threads_irrelevant : forall threads threads' fuel fuel' es es' ms rs rs',
    merge_layers turn true threads fuel es ms = Some (Ok rs) -> merge_layers turn true threads' fuel' es' ms = Some (Ok rs') -> rs = rs'.
  Proof.
    intros threads threads' fuel fuel' es es' ms rs rs' H H'; apply C188_every_schedule in H, H'; cbn in H, H'.
    revert rs' H'; induction H as [|m r ms rs [n Hn] H IH]; intros rs' H'; inversion H'; subst; [reflexivity|].
    destruct H2 as [n' Hn']; destruct (merged_unique _ _ _ _ Hn _ _ Hn'); subst; f_equal; apply IH; auto.
  Qed.

  Lemma never_stuck threads per ms p : 0 < threads -> on_way per ms p -> idle p = true \/ exists e q, pool_step turn threads per e p = Some q.
  Proof.
    intros Ht (Hl & _ & _ & _ & Hb & _).
    unfold idle; destruct (running p) as [|i r] eqn:Er.
    - destruct (waiting p) as [|j w] eqn:Ew; [auto|right]; exists Take; unfold pool_step; rewrite Ew, Er; cbn [List.length].
      replace (0 <? threads) with true by (symmetry; apply Nat.ltb_lt; lia); eauto.
    - right; exists (Move i); unfold pool_step; rewrite Er; cbn [existsb]; rewrite Nat.eqb_refl; cbn [orb].
      destruct (nth_error (store p) i) as [x|] eqn:Ex; [destruct (turn per x); eauto|].
      apply nth_error_None in Ex; assert (i < List.length ms) by (apply Hb; cbn; auto); lia.
  Qed.
  (** The pool is never stuck: until it is idle, a task can be taken or a step made. *)
  Theorem C188_no_deadlock : forall threads per es ms p, 0 < threads ->
    pool_run turn threads per es (submitted ms) = Some p -> idle p = true \/ exists e q, pool_step turn threads per e p = Some q.
  Proof. intros threads per es ms p Ht H; exact (never_stuck _ _ ms p Ht (run_on_way _ _ ms es _ _ (start_on_way _ ms) H)). Qed.

  (** steps that are left *)
  Definition total (l : list nat) : nat := fold_right Nat.add 0 l.
  Inductive left_over (per : nat) (p : pool) : nat -> Prop :=
  | left_intro ks : List.length ks = List.length (store p) ->
      (forall i x, nth_error (store p) i = Some x -> exists r, merged turn per x r (nth i ks 0)) ->
      left_over per p (total ks + List.length (running p) + 2 * List.length (waiting p)).
  Lemma total_replace ks i k : i < List.length ks -> nth i ks 0 = S k -> S (total (firstn i ks ++ k :: skipn (S i) ks)) = total ks.
  Proof.
    revert i; induction ks as [|x r IH]; intros [|i] Hi E; cbn in *; try lia.
    pose proof (IH i ltac:(lia) E) as K; unfold total in *; cbn in *; lia.
  Qed.
  Lemma nth_replace ks i (k : nat) j : i < List.length ks -> nth j (firstn i ks ++ k :: skipn (S i) ks) 0 = if j =? i then k else nth j ks 0.
  Proof. revert i j; induction ks as [|x r IH]; intros [|i] [|j] Hi; cbn in *; try lia; auto; apply IH; lia. Qed.
  Lemma length_replace ks i (k : nat) : i < List.length ks -> List.length (firstn i ks ++ k :: skipn (S i) ks) = List.length ks.
  Proof. revert i; induction ks as [|x r IH]; intros [|i] Hi; cbn in *; try lia; rewrite IH; lia. Qed.

  Lemma step_left threads per ms p e q n : on_way per ms p -> left_over per p n -> pool_step turn threads per e p = Some q ->
    exists n', left_over per q n' /\ n' < n.
  Proof.
    intros (Hl & Hr & Hw & Hd & Hb & Hs) [ks Hk Hm] H; destruct e as [|i]; unfold pool_step in H.
    - destruct (waiting p) as [|i w] eqn:Ew; [discriminate|].
      destruct (List.length (running p) <? threads); [|discriminate]; injection H as <-.
      eexists; split; [apply (left_intro per _ ks); cbn; auto|cbn; lia].
    - destruct (existsb (Nat.eqb i) (running p)) eqn:Ei; [|discriminate]; apply existsb_in in Ei.
      destruct (nth_error (store p) i) as [x|] eqn:Ex; [|discriminate].
      assert (Li : i < List.length (store p)) by (apply nth_error_Some; congruence).
      destruct (turn per x) as [x'|] eqn:Et; injection H as <-.
      + destruct (Hm i x Ex) as [r Hx]; inversion Hx as [? E0|? m' ? k E0 Hk']; subst; [congruence|].
        assert (m' = x') by congruence; subst m'.
        eexists; split; [apply (left_intro per _ (firstn i ks ++ k :: skipn (S i) ks)); cbn [store running waiting]|cbn [store running waiting]].
        * rewrite length_replace by lia; rewrite replace_length; auto.
        * intros j y Hj; rewrite replace_nth in Hj by auto; rewrite nth_replace by lia; destruct (j =? i); [injection Hj as <-; eauto|auto].
        * pose proof (total_replace ks i k ltac:(lia) ltac:(congruence)); lia.
      + eexists; split; [apply (left_intro per _ ks); cbn; auto|cbn; pose proof (remove_length_in i _ Hr Ei); lia].
  Qed.
  Lemma start_left per ms : (forall m, In m ms -> exists r, comes_to turn per m r) -> exists n, left_over per (submitted ms) n.
  Proof.
    intros Hf; assert (K : exists ks, List.length ks = List.length ms /\ forall i x, nth_error ms i = Some x -> exists r, merged turn per x r (nth i ks 0)).
    { clear -Hf; induction ms as [|m r IH]; [exists []; split; [auto|intros [|i] x H; discriminate]|].
      destruct IH as (ks & Hk & H); [intros; apply Hf; right; auto|]; destruct (Hf m (or_introl eq_refl)) as (y & n & Hn).
      exists (n :: ks); split; [cbn; auto|]; intros [|i] x E; cbn in *; [injection E as <-; eauto|auto]. }
    destruct K as (ks & Hk & Hm); eexists; exact (left_intro per (submitted ms) ks Hk Hm).
  Qed.
  Lemma finish threads per ms : 0 < threads -> forall n p, on_way per ms p -> left_over per p n ->
    exists es q, pool_run turn threads per es p = Some q /\ idle q = true.
  Proof.
    intros Ht n; induction n as [n IH] using lt_wf_ind; intros p W L.
    destruct (never_stuck threads per ms p Ht W) as [Hi|(e & q & E)]; [exists [], p; auto|].
    destruct (step_left _ _ _ _ _ _ _ W L E) as (n' & L' & Hn).
    destruct (IH n' Hn q (step_on_way _ _ _ _ _ _ W E) L') as (es & r & H & Hr); exists (e :: es), r; cbn; rewrite E; auto.
  Qed.
  (** Every schedule ends if every layer can be merged on its own. *)
  Theorem C188_terminates : forall per ms, (forall m, In m ms -> exists r, comes_to turn per m r) ->
    exists bound, forall threads es p, pool_run turn threads per es (submitted ms) = Some p -> List.length es <= bound.
  Proof.
    intros per ms Hf; destruct (start_left per ms Hf) as [n L].
    exists n; intros threads es; pose proof (start_on_way per ms) as W; revert W L; generalize (submitted ms); revert n.
    induction es as [|e r IH]; intros n p0 W L p H; cbn in *; [lia|].
    destruct (pool_step turn threads per e p0) as [p'|] eqn:E; [|discriminate].
    destruct (step_left _ _ _ _ _ _ _ W L E) as (n' & L' & Hn).
    pose proof (IH n' p' (step_on_way _ _ _ _ _ _ W E) L' p H); lia.
  Qed.

  (** Then the call can return, with any number of threads. *)
  Theorem C188_completes : forall (by_layer : bool) threads ms, (forall m, In m ms -> exists r, comes_to turn (if by_layer then 1 else threads) m r) ->
    exists fuel es rs, merge_layers turn by_layer threads fuel es ms = Some (Ok rs).
  Proof.
    intros by_layer threads ms Hf; unfold merge_layers; fold (per_layer by_layer threads) in Hf; set (per := per_layer by_layer threads) in *.
    destruct (1 <? threads) eqn:Et.
    - apply Nat.ltb_lt in Et; destruct (start_left per ms Hf) as [n L].
      destruct (finish threads per ms ltac:(lia) n _ (start_on_way per ms) L) as (es & q & H & Hi); exists 0, es, (store q); rewrite H, Hi; reflexivity.
    - assert (K : exists fuel0, forall fuel, fuel0 <= fuel -> exists rs, run_layers turn per fuel ms = Ok rs).
      { clear Et; induction ms as [|m r IH]; [exists 0; intros; eexists; reflexivity|].
        destruct IH as [f IH]; [intros; apply Hf; right; auto|]; destruct (Hf m (or_introl eq_refl)) as (y & n & Hn).
        exists (f + S n); intros fuel Hle; destruct (IH fuel ltac:(lia)) as [rs E]; exists (y :: rs); cbn.
        rewrite (run_layer_fuel per m y n Hn fuel ltac:(lia)), E; reflexivity. }
      destruct K as [f K]; destruct (K f (le_n f)) as [rs E]; exists f, [], rs; rewrite E; reflexivity.
  Qed.

  (** At most as many layers as threads are merged at a time, and with one thread per layer no more threads than asked for are
      at work. *)
  Theorem C188_threads_partial : forall threads per es ms p, pool_run turn threads per es (submitted ms) = Some p ->
    List.length (running p) <= threads /\ List.length (running p) * per_layer true threads <= threads.
  Proof.
    intros threads per es ms p H; cut (List.length (running p) <= threads); [intros L; split; [exact L|cbn; lia]|].
    assert (L0 : List.length (@running M (submitted ms)) <= threads) by (cbn; lia); revert L0 H; generalize (submitted ms).
    induction es as [|e r IH]; intros p0 L0 H; cbn in H; [injection H as <-; auto|].
    destruct (pool_step turn threads per e p0) as [p'|] eqn:E; [|discriminate]; apply (IH p'); [|exact H]; clear IH H.
    destruct e as [|i]; unfold pool_step in E.
    - destruct (waiting p0); [discriminate|]; destruct (List.length (running p0) <? threads) eqn:F; [|discriminate]; injection E as <-; cbn.
      apply Nat.ltb_lt in F; lia.
    - destruct (existsb (Nat.eqb i) (running p0)); [|discriminate]; destruct (nth_error (store p0) i); [|discriminate].
      destruct (turn per m); injection E as <-; cbn; [auto|]; pose proof (remove_length_le Nat.eq_dec (running p0) i); lia.
  Qed.
End Proofs.
Print Assumptions C188_every_schedule.
Print Assumptions C188_threads_irrelevant.
Print Assumptions C188_no_deadlock.
Print Assumptions C188_terminates.
Print Assumptions C188_completes.
Print Assumptions C188_threads_partial.

(** ** Layers that count down to 0 in steps of one *)
Definition down (per m : nat) : option nat := match m with 0 => None | S k => Some k end.
Example C188_example :
  merge_layers down true 2 0 [Take; Move 0; Take; Move 1; Move 0; Move 1; Move 1; Move 0; Take; Move 2; Move 2] [2; 2; 1] = Some (Ok [0; 0; 0]) /\
  merge_layers down true 1 5 [] [2; 2; 1] = Some (Ok [0; 0; 0]) /\ merge_layers down true 2 0 [Take; Move 0] [2; 2; 1] = None.
Proof. repeat split. Qed.
Example C188_finishes : forall m, In m [2; 2; 1] -> exists r, comes_to down 1 m r.
Proof.
  intros m _; exists 0; exists m; induction m; [constructor|econstructor]; try reflexivity; exact IHm.
Qed.

(** When the threads are not to be spent on layers, they are spent twice: all layers are merged at a time, each with all
    threads. *)
Theorem C188_threads_refuted : exists threads es (ms : list nat) p, 1 < threads /\
  pool_run down threads (per_layer false threads) es (submitted ms) = Some p /\ threads < List.length (running p) * per_layer false threads /\
  List.length (running p) * per_layer false threads = threads * threads.
Proof.
  exists 4, [Take; Take; Take; Take], [1; 1; 1; 1]; eexists; split; [lia|split; [reflexivity|split; cbn; [lia|reflexivity]]].
Qed.
Print Assumptions C188_threads_refuted.
