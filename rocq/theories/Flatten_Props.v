(** C20–C23: flattening *)
From Verif Require Import Base Flatten_Model Flatten_Spec Flatten_Proofs.
From Coq Require Import Permutation.

Section Props.
  Context {Ob T : Type} (place : T -> Ob -> Ob) (replace : T -> T -> T).
  Notation db := (db Ob T).
  Notation run := (run_tasks place replace).

  Lemma consistent_init (H : db) : consistent place H H.
  Proof. intros e; left; auto. Qed.

  Lemma run_mono f k : forall (st : db) sched st', run f st sched = Ok st' -> run (f + k) st sched = Ok st'.
  Proof.
    intros st sched; revert st; unfold run_tasks; induction sched as [|d l IH]; simpl; auto; intros st st'.
    destruct (flatten_shape place replace f st d) as [E|[s E]]; rewrite E.
    - intros X; exfalso; clear - X; induction l; simpl in X; [discriminate|auto].
    - rewrite (flatten_mono place replace _ _ _ _ k E); apply IH.
  Qed.

  Lemma run_det f g (st : db) sched s1 s2 : run f st sched = Ok s1 -> run g st sched = Ok s2 -> s1 = s2.
  Proof.
    intros H1 H2; apply (run_mono _ g) in H1; apply (run_mono _ f) in H2.
    rewrite Nat.add_comm in H2; congruence.
  Qed.

  Lemma run_wf (H : db) : forall sched f st s, weak_inv H st -> run f st sched = Ok s ->
    forall c, In c sched -> well_founded_at H c.
  Proof.
    unfold run_tasks; induction sched as [|d l IH]; simpl; intros f st s Hw E c; [intros []|].
    destruct (flatten_shape place replace f st d) as [E1|[s1 E1]]; rewrite E1 in E.
    - exfalso; clear - E; induction l; simpl in E; [discriminate|auto].
    - destruct (flatten_acc place replace H f _ _ _ Hw E1) as [Hw1 Hwf].
      intros [<-|Hc]; auto; eapply IH; eauto.
  Qed.

  Lemma weak_init (H : db) : weak_inv H H.
  Proof. intros e; right; exists []; rewrite app_nil_r; auto. Qed.

  (** C20: whatever was flattened before, flattening a cell leaves no instance in it and exactly one copy of every
      object per instantiation path, placed by every instance on the path; the result is the same as flattening it
      first. *)
  Theorem C20_flatten_conserves (H : db) before c f st' :
    run f H (before ++ [c]) = Ok st' ->
    l_insts (st' c) = [] /\ once_per_path place H c (l_objs (st' c)) /\
    forall g st1, run g H [c] = Ok st1 -> st1 c = st' c.
  Proof.
    intros E.
    assert (Hw : forall d, In d (before ++ [c]) -> well_founded_at H d) by (eapply run_wf; eauto using weak_init).
    assert (Hc : In c (before ++ [c])) by (rewrite in_app_iff; simpl; auto).
    destruct (run_tasks_spec place replace H _ Hw H (consistent_init H)) as (f' & s & E' & _ & _ & F & _).
    assert (s = st') by (eapply run_det; eauto); subst s.
    destruct (F c c Hc (reach_refl H c)) as (os & Hos & ->).
    split; auto; split; [apply flat_keys, Hos|].
    intros g st1 E1.
    destruct (run_tasks_spec place replace H [c]) with (st := H) as (f1 & s1 & E1' & _ & _ & F1 & _).
    { intros d [<-|[]]; auto. } { apply consistent_init. }
    assert (s1 = st1) by (eapply run_det; eauto); subst s1.
    destruct (F1 c c (or_introl eq_refl) (reach_refl H c)) as (os1 & Hos1 & ->).
    rewrite (proj1 (flat_det place H) _ _ Hos _ Hos1); auto.
  Qed.

  (** C20: cells that are not below a flattened cell are untouched *)
  Theorem C20_flatten_frame (H : db) sched f st' e :
    run f H sched = Ok st' -> (forall c, In c sched -> ~ reach H c e) -> st' e = H e.
  Proof.
    intros E Hn.
    assert (Hw : forall d, In d sched -> well_founded_at H d) by (eapply run_wf; eauto using weak_init).
    destruct (run_tasks_spec place replace H _ Hw H (consistent_init H)) as (f' & s & E' & _ & F & _).
    assert (s = st') by (eapply run_det; eauto); subst s.
    destruct (F e) as [G|[(c & Hc & Hr) _]]; auto; exfalso; exact (Hn c Hc Hr).
  Qed.

  (** C21: flattening a cell terminates exactly when no infinite chain of instances starts at it; scheduling likewise *)
  Theorem C21_flatten_terminates_iff (H : db) c :
    (exists f st', flatten place replace f H c = Ok st') <-> well_founded_at H c.
  Proof.
    split.
    - intros (f & st' & E); eapply flatten_acc; eauto using weak_init.
    - intros Hw; destruct (flatten_spec place replace H c Hw H) as (f & st' & E & _); [intros; left; auto|eauto].
  Qed.

  Theorem C21_schedule_terminates_iff (H : db) c : (exists f l, tasks f H c = Ok l) <-> well_founded_at H c.
  Proof.
    split; [intros (f & l & E); eapply tasks_diverge; eauto|apply tasks_wf].
  Qed.

  (** in a finite database: exactly the cells from which no cycle is reachable *)
  Theorem C21_flatten_terminates_acyclic (H : db) cells c :
    (forall c d, In c cells -> child H c d -> In d cells) -> In c cells ->
    ((exists f st', flatten place replace f H c = Ok st') <-> (forall e, reach H c e -> ~ below H e e)).
  Proof.
    intros Hcl Hin; rewrite C21_flatten_terminates_iff; split.
    - intros Hw e Hr Hb; eapply cyclic_not_wf; eauto.
    - apply (acyclic_wf H cells); auto.
  Qed.

  (** recursive hierarchies recurse for ever – the guard "layout == other" in Merge is never reached *)
  Theorem C21_cycle_diverges (H : db) c e : reach H c e -> below H e e ->
    forall f, flatten place replace f H c = OutOfFuel /\ tasks f H c = OutOfFuel.
  Proof.
    intros Hr Hb f; pose proof (cyclic_not_wf H c e Hr Hb) as Hn; split.
    - destruct (flatten_shape place replace f H c) as [E|[s E]]; auto; exfalso; apply Hn.
      apply C21_flatten_terminates_iff; eauto.
    - destruct (tasks_shape f H c) as [E|[s E]]; auto; exfalso; apply Hn.
      apply C21_schedule_terminates_iff; eauto.
  Qed.

  (** C22: the schedule contains the cells reachable from the flattened one; executing its tasks in any two orders
      (linear extensions of the task graph in particular) gives the same layouts in every cell, and running every task
      is the same as flattening the top cell alone. *)
  Theorem C22_schedule_independent (H : db) c f l sched1 sched2 f1 f2 s1 s2 :
    tasks f H c = Ok l -> Permutation l sched1 -> Permutation l sched2 ->
    run f1 H sched1 = Ok s1 -> run f2 H sched2 = Ok s2 ->
    forall e, s1 e = s2 e.
  Proof.
    intros Ht P1 P2 E1 E2 e.
    assert (W1 : forall d, In d sched1 -> well_founded_at H d) by (eapply run_wf; eauto using weak_init).
    assert (W2 : forall d, In d sched2 -> well_founded_at H d) by (eapply run_wf; eauto using weak_init).
    destruct (run_tasks_spec place replace H _ W1 H (consistent_init H)) as (g1 & t1 & G1 & _ & A1 & B1 & _).
    destruct (run_tasks_spec place replace H _ W2 H (consistent_init H)) as (g2 & t2 & G2 & _ & A2 & B2 & _).
    assert (t1 = s1) by (eapply run_det; eauto); assert (t2 = s2) by (eapply run_det; eauto); subst t1 t2.
    assert (In1 : forall x, In x sched1 <-> In x sched2).
    { intros x; split; intros Hx.
      - apply (Permutation_in x P2), (Permutation_in x (Permutation_sym P1)), Hx.
      - apply (Permutation_in x P1), (Permutation_in x (Permutation_sym P2)), Hx. }
    assert (D : forall d, In d sched1 -> reach H d e -> s1 e = s2 e).
    { intros d Hd Hr; destruct (B1 d e Hd Hr) as (o1 & Ho1 & ->).
      destruct (B2 d e (proj1 (In1 d) Hd) Hr) as (o2 & Ho2 & ->).
      rewrite (proj1 (flat_det place H) _ _ Ho1 _ Ho2); auto. }
    destruct (A1 e) as [X1|[(d & Hd & Hr) _]]; [|eapply D; eauto].
    destruct (A2 e) as [X2|[(d & Hd & Hr) _]]; [congruence|apply In1 in Hd; eapply D; eauto].
  Qed.

  Theorem C22_tasks_cover (H : db) c f l : tasks f H c = Ok l -> forall e, In e l <-> reach H c e.
  Proof. apply tasks_in. Qed.

  Theorem C22_schedule_runs (H : db) c f l sched : tasks f H c = Ok l -> Permutation l sched ->
    exists g s, run g H sched = Ok s /\
      forall h s1, run h H [c] = Ok s1 -> forall e, s e = s1 e.
  Proof.
    intros Ht P.
    assert (Hwc : well_founded_at H c) by (eapply tasks_diverge; eauto).
    assert (Hin : forall e, In e sched <-> reach H c e).
    { intros e; rewrite <- (tasks_in _ _ _ _ Ht); split; apply Permutation_in; auto using Permutation_sym. }
    assert (W : forall d, In d sched -> well_founded_at H d) by (intros d Hd; apply Hin in Hd; eapply acc_reach; eauto).
    destruct (run_tasks_spec place replace H _ W H (consistent_init H)) as (g & s & G & _ & A & B & _).
    exists g, s; split; auto; intros h s1 E1 e.
    destruct (run_tasks_spec place replace H [c]) with (st := H) as (h' & t1 & E1' & _ & A1 & B1 & _).
    { intros d [<-|[]]; auto. } { apply consistent_init. }
    assert (t1 = s1) by (eapply run_det; eauto); subst t1.
    assert (D : reach H c e -> s e = s1 e).
    { intros Hr; destruct (B1 c e (or_introl eq_refl) Hr) as (o1 & Ho1 & ->).
      destruct (B e e (proj2 (Hin e) Hr) (reach_refl H e)) as (o2 & Ho2 & ->).
      rewrite (proj1 (flat_det place H) _ _ Ho1 _ Ho2); auto. }
    destruct (A e) as [X|[(d & Hd & Hr) _]].
    - destruct (A1 e) as [X1|[(d & [<-|[]] & Hr) _]]; [congruence|auto].
    - apply D; apply Hin in Hd; eapply reach_trans; eauto.
  Qed.

  (** C23 *)
  Lemma used_in (H : db) cells d : In d (flat_map (defs H) cells) <-> exists c, In c cells /\ child H c d.
  Proof.
    rewrite in_flat_map; unfold defs, child; split.
    - intros (c & Hc & Hd); apply in_map_iff in Hd as (i & <- & Hi); eauto 6.
    - intros (c & Hc & i & Hi & <-); exists c; split; auto; apply in_map; auto.
  Qed.

  Lemma existsb_nat x l : existsb (Nat.eqb x) l = true <-> In x l.
  Proof.
    rewrite existsb_exists; split; [intros (y & Hy & E); apply Nat.eqb_eq in E; subst; auto|].
    intros; exists x; split; auto; apply Nat.eqb_refl.
  Qed.

  Theorem C23_top_cells (H : db) cells b tops : NoDup cells -> get_top_cells H cells = Ok (b, tops) ->
    (forall c, In c tops <-> In c cells /\ forall d, In d cells -> ~ child H d c) /\
    NoDup tops /\ (b = true <-> exists c, In c cells /\ forall d, In d cells -> ~ child H d c).
  Proof.
    intros Hnd; unfold get_top_cells; destruct forallb; [|discriminate]; intros [= <- <-].
    set (tops := filter _ cells).
    assert (Ht : forall c, In c tops <-> In c cells /\ forall d, In d cells -> ~ child H d c).
    { intros c; unfold tops; rewrite filter_In, negb_true_iff, <- not_true_iff_false, existsb_nat, used_in; split.
      - intros [H1 H2]; split; auto; intros d Hd Hc; apply H2; eauto.
      - intros [H1 H2]; split; auto; intros (d & Hd & Hc); eapply H2; eauto. }
    split; auto; split; [apply NoDup_filter; auto|].
    destruct tops as [|t tops]; simpl; split; try congruence; auto.
    - intros (c & Hc); apply Ht in Hc; destruct Hc.
    - intros _; exists t; apply Ht; simpl; auto.
  Qed.

  (** it throws exactly when some instance's definition is not a cell of the database *)
  Theorem C23_throws_iff (H : db) cells :
    get_top_cells H cells = Throw <-> exists c d, In c cells /\ child H c d /\ ~ In d cells.
  Proof.
    unfold get_top_cells; destruct (forallb _ _) eqn:E.
    - split; [discriminate|]; intros (c & d & Hc & Hd & Hn); exfalso; apply Hn.
      rewrite forallb_forall in E; apply existsb_nat, E, used_in; eauto.
    - split; auto; intros _.
      assert (G : exists d, In d (flat_map (defs H) cells) /\ existsb (Nat.eqb d) cells = false).
      { revert E; induction (flat_map (defs H) cells) as [|d l IH]; simpl; [discriminate|].
        destruct (existsb (Nat.eqb d) cells) eqn:E1; simpl; [|eauto].
        intros E; destruct (IH E) as (x & Hx & Ex); eauto. }
      destruct G as (d & Hd & Ed); apply used_in in Hd as (c & Hc & Hch); exists c, d; split; auto; split; auto.
      rewrite <- existsb_nat, Ed; discriminate.
  Qed.

  (** every non-empty acyclic database has a top cell *)
  Theorem C23_acyclic_has_top (H : db) cells b tops : cells <> [] -> NoDup cells ->
    (forall e, In e cells -> ~ below H e e) -> get_top_cells H cells = Ok (b, tops) -> b = true.
  Proof.
    intros Hne Hnd Hac E; destruct (C23_top_cells H cells b tops Hnd E) as (Ht & _ & Hb).
    destruct b; auto; exfalso.
    assert (tops = []).
    { destruct tops as [|t tops]; auto; exfalso.
      assert (false = true); [|discriminate]; apply Hb; exists t; apply Ht; simpl; auto. }
    subst tops.
    assert (Hp : forall c, In c cells -> exists d, In d cells /\ child H d c).
    { intros c Hc; unfold get_top_cells in E; destruct forallb; [|discriminate]; injection E as _ E.
      assert (G : ~ In c (filter (fun c => negb (existsb (Nat.eqb c) (flat_map (defs H) cells))) cells))
        by (rewrite E; intros []).
      rewrite filter_In in G; destruct (existsb (Nat.eqb c) (flat_map (defs H) cells)) eqn:E1.
      - apply existsb_nat, used_in in E1; exact E1.
      - exfalso; apply G; auto. }
    assert (G : forall n, exists vis c, List.length vis = n /\ NoDup vis /\ incl vis cells /\ In c cells /\
                forall v, In v vis -> below H c v).
    { induction n as [|n (vis & c & Hl & Hv & Hi & Hc & Hb')].
      - destruct cells as [|c cells']; [congruence|]; exists [], c.
        split; auto; split; [constructor|]; split; [intros ? []|]; split; [left; auto|intros ? []].
      - destruct (Hp c Hc) as (d & Hd & Hch); exists (c :: vis), d.
        split; [simpl; auto|]; split; [constructor; auto; intros Hx; exact (Hac c Hc (Hb' c Hx))|].
        split; [intros x [<-|Hx]; auto|]; split; auto.
        intros v [<-|Hx]; [exists c; split; auto; constructor|].
        destruct (Hb' v Hx) as (y & Hy & Hr); exists c; split; auto; econstructor; eauto. }
    destruct (G (S (List.length cells))) as (vis & c & Hl & Hv & Hi & _).
    pose proof (NoDup_incl_length Hv Hi); lia.
  Qed.
End Props.
Print Assumptions C20_flatten_conserves.
Print Assumptions C20_flatten_frame.
Print Assumptions C21_flatten_terminates_iff.
Print Assumptions C21_schedule_terminates_iff.
Print Assumptions C21_flatten_terminates_acyclic.
Print Assumptions C21_cycle_diverges.
Print Assumptions C22_schedule_independent.
Print Assumptions C22_tasks_cover.
Print Assumptions C22_schedule_runs.
Print Assumptions C23_top_cells.
Print Assumptions C23_throws_iff.
Print Assumptions C23_acyclic_has_top.

(** A diamond: 0 instantiates 1 (shift 10), 2 (shift 20) ; 1 and 2 instantiate 3 (shift 1 and 2). *)
Definition diamond : db Z Z := fun c =>
  match c with
  | 0%nat => mkL [100%Z] [mkInst 1 10%Z; mkInst 2 20%Z]
  | 1%nat => mkL [] [mkInst 3 1%Z]
  | 2%nat => mkL [50%Z] [mkInst 3 2%Z]
  | 3%nat => mkL [7%Z; 8%Z] []
  | _ => mkL [] []
  end.

Example diamond_ex :
  match run_tasks Z.add Z.add 5 diamond ([2] ++ [0]) with
  | Ok st => (st 0, st 2, st 3)
  | _ => (mkL [] [], mkL [] [], mkL [] [])
  end = (mkL [100; 18; 19; 70; 29; 30]%Z [], mkL [50; 9; 10]%Z [], mkL [7; 8]%Z []).
Proof. vm_compute; reflexivity. Qed.

Example diamond_tasks : tasks 5 diamond 0 = Ok [0; 1; 3; 2; 3].
Proof. vm_compute; reflexivity. Qed.

Example diamond_orders :
  match run_tasks Z.add Z.add 5 diamond [3; 3; 2; 1; 0], run_tasks Z.add Z.add 5 diamond [0; 1; 3; 2; 3] with
  | Ok s1, Ok s2 => (s1 0, s1 1) = (s2 0, s2 1)
  | _, _ => False
  end.
Proof. vm_compute; reflexivity. Qed.

Example diamond_tops : get_top_cells diamond [0; 1; 2; 3] = Ok (true, [0]).
Proof. vm_compute; reflexivity. Qed.

Example diamond_wf : well_founded_at diamond 0.
Proof. apply (C21_schedule_terminates_iff diamond 0); exists 5, [0; 1; 3; 2; 3]; exact diamond_tasks. Qed.

Definition loop2 : db Z Z := fun c => mkL [] [mkInst (1 - c) 0%Z].
Example loop_below : reach loop2 0 0 /\ below loop2 0 0.
Proof.
  split; [constructor|]; exists 1; split; [exists (mkInst 1 0%Z); simpl; auto|].
  apply reach_step with (d := 0); [exists (mkInst 0 0%Z); simpl; auto|constructor].
Qed.
Example loop_no_top : get_top_cells loop2 [0; 1] = Ok (false, []).
Proof. vm_compute; reflexivity. Qed.
Example top_missing : get_top_cells diamond [0; 1; 2] = Throw.
Proof. vm_compute; reflexivity. Qed.
