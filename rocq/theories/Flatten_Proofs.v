From Verif Require Import Base Flatten_Model Flatten_Spec.

Section P.
  Context {Ob T : Type} (place : T -> Ob -> Ob) (replace : T -> T -> T).
  Notation db := (db Ob T).
  Notation flatten := (flatten place replace).
  Notation merge := (merge place replace).

  (** the flat contents of a cell, by recursion over the original hierarchy *)
  Inductive flat (H : db) : nat -> list Ob -> Prop :=
  | flat_intro c os : flats H (l_insts (H c)) os -> flat H c (l_objs (H c) ++ os)
  with flats (H : db) : list (inst T) -> list Ob -> Prop :=
  | flats_nil : flats H [] []
  | flats_cons i l os1 os2 : flat H (i_def i) os1 -> flats H l os2 ->
      flats H (i :: l) (map (place (i_tag i)) os1 ++ os2).

  Scheme flat_ind2 := Induction for flat Sort Prop
    with flats_ind2 := Induction for flats Sort Prop.
  Combined Scheme flat_flats_ind from flat_ind2, flats_ind2.

  Lemma flat_det H : (forall c os, flat H c os -> forall os', flat H c os' -> os = os') /\
                     (forall l os, flats H l os -> forall os', flats H l os' -> os = os').
  Proof.
    split.
    - intros c os Hf; induction Hf as [c os Hs IH| |i l os1 os2 H1 IH1 H2 IH2] using flat_ind2
        with (P0 := fun l os _ => forall os', flats H l os' -> os = os').
      + intros os' H'; inversion H'; subst; f_equal; apply IH; auto.
      + intros os' H'; inversion H'; auto.
      + intros os' H'; inversion H'; subst; f_equal; [f_equal; apply IH1; auto|apply IH2; auto].
    - intros l os Hf; induction Hf as [c os Hs IH| |i l os1 os2 H1 IH1 H2 IH2] using flats_ind2
        with (P := fun c os _ => forall os', flat H c os' -> os = os').
      + intros os' H'; inversion H'; subst; f_equal; apply IH; auto.
      + intros os' H'; inversion H'; auto.
      + intros os' H'; inversion H'; subst; f_equal; [f_equal; apply IH1; auto|apply IH2; auto].
  Qed.

  Lemma flat_acc H c os : flat H c os -> well_founded_at H c.
  Proof.
    intros Hf; induction Hf as [c os Hs IH| |i l os1 os2 H1 IH1 H2 IH2] using flat_ind2
      with (P0 := fun l os _ => forall i, In i l -> well_founded_at H (i_def i)).
    - constructor; intros d (i & Hi & <-); apply IH; auto.
    - intros i [].
    - intros j [<-|Hj]; auto.
  Qed.

  Lemma acc_flat H c : well_founded_at H c -> exists os, flat H c os.
  Proof.
    intros Ha; induction Ha as [c _ IH].
    assert (G : forall l, (forall i, In i l -> In i (l_insts (H c))) -> exists os, flats H l os).
    { induction l as [|i l IHl]; intros Hl; [exists []; constructor|].
      destruct (IH (i_def i)) as [os1 H1]; [exists i; split; auto; apply Hl; simpl; auto|].
      destruct IHl as [os2 H2]; [intros; apply Hl; simpl; auto|].
      eexists; econstructor; eauto. }
    destruct (G (l_insts (H c))) as [os Hos]; auto; eexists; constructor; eauto.
  Qed.

  Lemma reach_trans (H : db) a b c : reach H a b -> reach H b c -> reach H a c.
  Proof. induction 1; auto; intros; econstructor; eauto. Qed.

  Lemma acc_reach (H : db) c e : well_founded_at H c -> reach H c e -> well_founded_at H e.
  Proof. intros Ha Hr; revert Ha; induction Hr as [|c d e Hc Hr IH]; auto; intros Ha; apply IH; apply (Acc_inv Ha); exact Hc. Qed.

  Lemma acc_irrefl (H : db) c : well_founded_at H c -> ~ below H c c.
  Proof.
    intros Ha; induction Ha as [c _ IH]; intros (d & Hc & Hr).
    apply (IH d Hc); inversion Hr as [|? d' ? Hc' Hr']; subst.
    - exists c; split; auto; constructor.
    - exists d'; split; auto; eapply reach_trans; [exact Hr'|]; econstructor; [exact Hc|constructor].
  Qed.

  Definition flat_at (H st : db) (e : nat) : Prop := exists os, flat H e os /\ st e = mkL os [].

  Definition cons_at (H st : db) (e : nat) : Prop :=
    st e = H e \/ forall e', reach H e e' -> flat_at H st e'.

  (** what one flatten does to the state *)
  Definition flattened_from (H st st' : db) (c : nat) : Prop :=
    (forall e, st' e = st e \/ (reach H c e /\ flat_at H st' e)) /\ (forall e, reach H c e -> flat_at H st' e).

  Definition step (fuel : nat) (c : nat) (r : res db) (i : inst T) : res db :=
    bind r (fun st => bind (flatten fuel st (i_def i)) (fun st' => Ok (merge st' c i))).

  Lemma flatten_S fuel st c : flatten (S fuel) st c =
    bind (fold_left (step fuel c) (l_insts (st c)) (Ok st)) (fun st' => Ok (upd st' c (mkL (l_objs (st' c)) []))).
  Proof. reflexivity. Qed.

  Lemma fold_out fuel c l : fold_left (step fuel c) l OutOfFuel = OutOfFuel.
  Proof. induction l; simpl; auto. Qed.

  Lemma flatten_shape fuel : forall st c, flatten fuel st c = OutOfFuel \/ exists st', flatten fuel st c = Ok st'.
  Proof.
    induction fuel as [|fuel IH]; intros st c; [left; auto|].
    rewrite flatten_S; generalize (l_insts (st c)); intros l.
    enough (G : forall st, fold_left (step fuel c) l (Ok st) = OutOfFuel \/
                exists st', fold_left (step fuel c) l (Ok st) = Ok st').
    { destruct (G st) as [->|[st' ->]]; simpl; eauto. }
    induction l as [|i l IHl]; intros st0; simpl; eauto.
    destruct (IH st0 (i_def i)) as [->|[st' ->]]; simpl; [left; apply fold_out|apply IHl].
  Qed.

  Lemma flatten_mono fuel : forall st c st' k, flatten fuel st c = Ok st' -> flatten (fuel + k) st c = Ok st'.
  Proof.
    induction fuel as [|fuel IH]; intros st c st' k H; [discriminate|].
    simpl Nat.add; rewrite flatten_S in *.
    assert (G : forall l st, forall s, fold_left (step fuel c) l (Ok st) = Ok s ->
                fold_left (step (fuel + k) c) l (Ok st) = Ok s).
    { induction l as [|i l IHl]; simpl; auto; intros st0 s.
      destruct (flatten_shape fuel st0 (i_def i)) as [E|[s1 E]]; rewrite E; simpl.
      - rewrite fold_out; discriminate.
      - rewrite (IH _ _ _ k E); simpl; apply IHl. }
    destruct (fold_left (step fuel c) (l_insts (st c)) (Ok st)) as [s| | |] eqn:E; simpl in H; try discriminate.
    rewrite (G _ _ _ E); simpl; auto.
  Qed.

  Lemma upd_same (st : db) c l : upd st c l c = l.
  Proof. unfold upd; rewrite Nat.eqb_refl; auto. Qed.
  Lemma upd_other (st : db) c l d : d <> c -> upd st c l d = st d.
  Proof. unfold upd; destruct (Nat.eqb_spec d c); congruence. Qed.

  (** main lemma *)
  Lemma flatten_spec H c : well_founded_at H c -> forall st,
    (forall e, reach H c e -> cons_at H st e) ->
    exists fuel st', flatten fuel st c = Ok st' /\ flattened_from H st st' c.
  Proof.
    intros Ha; induction Ha as [c Hacc IH]; intros st Hst.
    assert (Hwf : well_founded_at H c) by (constructor; auto).
    destruct (Hst c (reach_refl H c)) as [Hc|Hc].
    - (* not yet flattened *)
      assert (Hno : forall d, child H c d -> ~ reach H d c).
      { intros d Hd Hr; apply (acc_irrefl H c Hwf); exists d; auto. }
      (* loop over the instances *)
      assert (L : forall l, (forall i, In i l -> In i (l_insts (H c))) ->
        forall st0, (forall e, e <> c -> reach H c e -> cons_at H st0 e) ->
        l_insts (st0 c) = l_insts (H c) ->
        exists fuel st1 os, fold_left (step fuel c) l (Ok st0) = Ok st1 /\ flats H l os /\
          st1 c = mkL (l_objs (st0 c) ++ os) (l_insts (H c)) /\
          (forall e, e <> c -> st1 e = st0 e \/ (reach H c e /\ flat_at H st1 e)) /\
          (forall e, e <> c -> reach H c e -> cons_at H st1 e) /\
          (forall i e, In i l -> reach H (i_def i) e -> flat_at H st1 e) /\
          (forall e, e <> c -> flat_at H st0 e -> flat_at H st1 e)).
      { induction l as [|i l IHl]; intros Hl st0 Hcons Hins.
        - exists 0, st0, []; simpl; rewrite app_nil_r; split; auto; split; [constructor|].
          split; [destruct (st0 c); simpl in *; congruence|]; split; auto; split; auto; split; [intros ? ? []|auto].
        - assert (Hch : child H c (i_def i)) by (exists i; split; auto; apply Hl; simpl; auto).
          assert (Hnc : ~ reach H (i_def i) c) by (apply Hno; auto).
          assert (Hdc : i_def i <> c) by (intros E; apply Hnc; rewrite E; constructor).
          destruct (IH (i_def i) Hch st0) as (f1 & s1 & E1 & F1 & F2).
          { intros e He; apply Hcons; [intros ->; auto|econstructor; eauto]. }
          destruct (F2 (i_def i) (reach_refl H _)) as (os1 & Hos1 & Es1).
          assert (Ec : s1 c = st0 c) by (destruct (F1 c) as [E|[E _]]; auto; contradiction).
          set (s2 := merge s1 c i).
          assert (Es2c : s2 c = mkL (l_objs (st0 c) ++ map (place (i_tag i)) os1) (l_insts (H c))).
          { unfold s2, Flatten_Model.merge; destruct (Nat.eqb_spec (i_def i) c); [contradiction|].
            rewrite upd_same, Es1, Ec; simpl; rewrite app_nil_r, Hins; auto. }
          assert (Es2o : forall e, e <> c -> s2 e = s1 e).
          { intros e He; unfold s2, Flatten_Model.merge; destruct (Nat.eqb_spec (i_def i) c); auto; apply upd_other; auto. }
          assert (Hfl : forall e, e <> c -> flat_at H s1 e -> flat_at H s2 e).
          { intros e He (os & Ho & E); exists os; split; auto; rewrite Es2o; auto. }
          assert (Hcons2 : forall e, e <> c -> reach H c e -> cons_at H s2 e).
          { intros e He Hre.
            assert (Hne : forall e', reach H e e' -> e' <> c).
            { intros e' Hr' ->; inversion Hre as [|? d' ? Hc' Hr'']; subst; [congruence|].
              apply (Hno d' Hc'); eapply reach_trans; eauto. }
            destruct (F1 e) as [E|[E _]].
            - destruct (Hcons e He Hre) as [E'|E'].
              + left; rewrite Es2o; congruence.
              + right; intros e' He'; apply Hfl; [apply Hne; auto|].
                destruct (F1 e') as [G|[G1 G2]]; [|auto].
                destruct (E' e' He') as (os & Ho & Eo); exists os; split; auto; congruence.
            - right; intros e' He'; apply Hfl; [apply Hne; auto|]; apply F2; eapply reach_trans; eauto. }
          destruct (IHl) with (st0 := s2) as (f2 & s3 & os2 & E3 & Ho2 & Es3 & G1 & G2 & G3 & G4).
          { intros; apply Hl; simpl; auto. }
          { exact Hcons2. }
          { rewrite Es2c; auto. }
          exists (f1 + f2), s3, (map (place (i_tag i)) os1 ++ os2); cbn [fold_left].
          assert (Estep : step (f1 + f2) c (Ok st0) i = Ok s2)
            by (unfold step; simpl; rewrite (flatten_mono _ _ _ _ f2 E1); reflexivity).
          rewrite Estep; split.
          { clearbody s2; clear - E3; rewrite Nat.add_comm; revert E3; generalize s2 as s; induction l as [|j l IHl]; simpl; auto.
            intros s; destruct (flatten_shape f2 s (i_def j)) as [E|[s' E]]; rewrite E; simpl.
            - rewrite fold_out; discriminate.
            - rewrite (flatten_mono _ _ _ _ f1 E); simpl; apply IHl. }
          split; [constructor; auto|].
          split; [rewrite Es3, Es2c; simpl; rewrite app_assoc; auto|].
          split; [|split; [exact G2|split]].
          + intros e He; destruct (G1 e He) as [E|E]; auto.
            rewrite Es2o in E by auto; destruct (F1 e) as [E'|[E' E'']]; [left; congruence|].
            right; split; [econstructor; eauto|].
            apply G4; auto; apply Hfl; auto.
          + intros j e [<-|Hj] Hr; [|eapply G3; eauto].
            assert (He : e <> c) by (intros ->; auto).
            apply G4; auto; apply Hfl; auto; apply F2; auto.
          + intros e He Hf; apply G4; auto; apply Hfl; auto.
            destruct (F1 e) as [E|[_ E]]; auto; destruct Hf as (os & Ho & Eo); exists os; split; auto; congruence. }
      destruct (L (l_insts (H c))) with (st0 := st) as (f & s1 & os & E1 & Ho & Ec & G1 & G2 & G3 & G4); auto.
      { rewrite Hc; auto. }
      exists (S f); rewrite flatten_S, Hc, E1; simpl.
      set (s2 := upd s1 c (mkL (l_objs (s1 c)) [])).
      assert (Efc : flat_at H s2 c).
      { exists (l_objs (H c) ++ os); split; [constructor; auto|].
        unfold s2; rewrite upd_same, Ec, Hc; auto. }
      assert (Hfl : forall e, e <> c -> flat_at H s1 e -> flat_at H s2 e).
      { intros e He (os' & Ho' & E'); exists os'; split; auto; unfold s2; rewrite upd_other; auto. }
      exists s2; split; auto; split.
      + intros e; destruct (Nat.eq_dec e c) as [->|He]; [right; split; auto; constructor|].
        destruct (G1 e He) as [E|[E1' E2']]; [left; unfold s2; rewrite upd_other; auto|right; auto].
      + intros e Hr; destruct (Nat.eq_dec e c) as [->|He]; auto; apply Hfl; auto.
        inversion Hr as [|? d ? (i & Hi & <-) Hr']; subst; [congruence|eapply G3; eauto].
    - (* already flattened *)
      destruct (Hc c (reach_refl H c)) as (os & Ho & E).
      exists 1; rewrite flatten_S, E; simpl; eexists; split; [reflexivity|].
      assert (Eu : forall e, upd st c (mkL (l_objs (st c)) []) e = st e).
      { intros e; destruct (Nat.eq_dec e c) as [->|He]; [rewrite upd_same, E; auto|apply upd_other; auto]. }
      split; [left; auto|].
      intros e He; destruct (Hc e He) as (os' & Ho' & E'); exists os'; split; auto; rewrite Eu; auto.
  Qed.

  (** consistent states: every state reached by flatten calls *)
  Definition consistent (H st : db) : Prop := forall e, cons_at H st e.

  Lemma flattened_consistent H st st' c : consistent H st -> flattened_from H st st' c -> consistent H st'.
  Proof.
    intros Hs [F1 F2] e; destruct (F1 e) as [E|[Hr Hf]].
    - destruct (Hs e) as [E'|E']; [left; congruence|right].
      intros e' Hr'; destruct (F1 e') as [G|[_ G]]; auto.
      destruct (E' e' Hr') as (os & Ho & Eo); exists os; split; auto; congruence.
    - right; intros e' Hr'; apply F2; eapply reach_trans; eauto.
  Qed.

  Lemma run_tasks_spec H sched : (forall c, In c sched -> well_founded_at H c) -> forall st, consistent H st ->
    exists fuel st', run_tasks place replace fuel st sched = Ok st' /\ consistent H st' /\
      (forall e, st' e = st e \/ (exists c, In c sched /\ reach H c e) /\ flat_at H st' e) /\
      (forall c e, In c sched -> reach H c e -> flat_at H st' e) /\
      (forall e, flat_at H st e -> flat_at H st' e).
  Proof.
    unfold run_tasks; induction sched as [|c sched IH]; intros Hw st Hs.
    - exists 0, st; simpl; split; auto; split; auto; split; auto; split; [intros ? ? []|auto].
    - destruct (flatten_spec H c (Hw c (or_introl eq_refl)) st) as (f1 & s1 & E1 & HF); [intros; apply Hs|].
      pose proof (flattened_consistent _ _ _ _ Hs HF) as Hc1; destruct HF as [F1 F2].
      destruct (IH (fun c H => Hw c (or_intror H)) s1 Hc1) as (f2 & s2 & E2 & Hc2 & G1 & G2 & G3).
      exists (f1 + f2), s2; cbn [fold_left bind]; rewrite (flatten_mono _ _ _ _ f2 E1); split.
      { clear - E2; rewrite Nat.add_comm; revert E2; generalize s1 as s; induction sched as [|d l IHl]; simpl; auto.
        intros s; destruct (flatten_shape f2 s d) as [E|[s' E]]; rewrite E.
        - intros X; exfalso; clear - X; induction l; simpl in X; [discriminate|auto].
        - rewrite (flatten_mono _ _ _ _ f1 E); apply IHl. }
      split; auto.
      assert (K : forall e, flat_at H st e -> flat_at H s1 e).
      { intros e (os & Ho & Eo); destruct (F1 e) as [E|[_ E]]; auto; exists os; split; auto; congruence. }
      split; [|split].
      + intros e; destruct (G1 e) as [E|[(d & Hd & Hr) Hf]]; [|right; split; auto; exists d; simpl; auto].
        destruct (F1 e) as [E'|[E' E'']]; [left; congruence|right; split; auto].
        exists c; simpl; auto.
      + intros d e [<-|Hd] Hr; [apply G3, F2; auto|eapply G2; eauto].
      + intros e He; apply G3, K, He.
  Qed.

  (** termination implies well-foundedness: states between any two calls, even re-entrant ones *)
  Definition weak_inv (H st : db) : Prop :=
    forall e, well_founded_at H e \/ exists tl, l_insts (st e) = l_insts (H e) ++ tl.

  Lemma weak_merge H st c i : weak_inv H st -> weak_inv H (merge st c i).
  Proof.
    intros Hs e; unfold Flatten_Model.merge; destruct (Nat.eqb_spec (i_def i) c); [apply Hs|].
    destruct (Nat.eq_dec e c) as [->|He]; [rewrite upd_same; simpl|rewrite upd_other by auto; apply Hs].
    destruct (Hs c) as [A|[tl ->]]; auto; right; rewrite <- app_assoc; eauto.
  Qed.

  Lemma flatten_acc H fuel : forall st c st', weak_inv H st -> flatten fuel st c = Ok st' ->
    weak_inv H st' /\ well_founded_at H c.
  Proof.
    induction fuel as [|fuel IH]; intros st c st' Hs E; [discriminate|].
    rewrite flatten_S in E.
    destruct (fold_left (step fuel c) (l_insts (st c)) (Ok st)) as [s| | |] eqn:EF; try discriminate.
    injection E as <-.
    assert (G : forall l st0 s, weak_inv H st0 -> fold_left (step fuel c) l (Ok st0) = Ok s ->
      weak_inv H s /\ forall i, In i l -> well_founded_at H (i_def i)).
    { clear - IH; induction l as [|i l IHl]; intros st0 s Hs; simpl.
      - intros [= <-]; split; auto; intros ? [].
      - destruct (flatten_shape fuel st0 (i_def i)) as [E|[s1 E]]; rewrite E; simpl; [rewrite fold_out; discriminate|].
        intros E2; destruct (IH _ _ _ Hs E) as [H1 H2].
        destruct (IHl _ _ (weak_merge _ _ c i H1) E2) as [H3 H4]; split; auto.
        intros j [<-|Hj]; auto. }
    destruct (G _ _ _ Hs EF) as [H1 H2].
    assert (Hw : well_founded_at H c).
    { destruct (Hs c) as [A|[tl Etl]]; auto; constructor; intros d (i & Hi & <-); apply H2; rewrite Etl, in_app_iff; auto. }
    split; auto; intros e; destruct (Nat.eq_dec e c) as [->|He]; auto; rewrite upd_other by auto; apply H1.
  Qed.

  (** finite databases *)
  Lemma acyclic_wf (H : db) cells c : (forall c d, In c cells -> child H c d -> In d cells) ->
    In c cells -> (forall e, reach H c e -> ~ below H e e) -> well_founded_at H c.
  Proof.
    intros Hcl Hin Hac.
    assert (G : forall n vis c, List.length cells - List.length vis <= n -> NoDup vis -> incl vis cells ->
      (forall v, In v vis -> below H v c) -> In c cells -> (forall e, reach H c e -> ~ below H e e) ->
      well_founded_at H c).
    { clear c Hin Hac; induction n as [|n IH]; intros vis c Hn Hnd Hi Hv Hin Hac.
      - exfalso.
        assert (~ In c vis) by (intros Hc; apply (Hac c (reach_refl _ _)), Hv, Hc).
        assert (NoDup (c :: vis)) by (constructor; auto).
        assert (incl (c :: vis) cells) by (intros x [<-|Hx]; auto).
        pose proof (NoDup_incl_length H1 H2); simpl in *; lia.
      - assert (Hnc : ~ In c vis) by (intros Hc; apply (Hac c (reach_refl _ _)), Hv, Hc).
        assert (Hnd' : NoDup (c :: vis)) by (constructor; auto).
        assert (Hi' : incl (c :: vis) cells) by (intros x [<-|Hx]; auto).
        pose proof (NoDup_incl_length Hnd' Hi') as Hle; simpl in Hle.
        constructor; intros d Hd; apply (IH (c :: vis) d); auto.
        + simpl; lia.
        + intros v [<-|Hv']; [exists d; split; auto; constructor|].
          destruct (Hv v Hv') as (x & Hx & Hr); exists x; split; auto; eapply reach_trans; [exact Hr|].
          econstructor; [exact Hd|constructor].
        + eapply Hcl; eauto.
        + intros e He; apply Hac; econstructor; eauto. }
    apply (G (List.length cells) [] c); auto; [simpl; lia|constructor|intros ? []|intros ? []].
  Qed.

  Lemma cyclic_not_wf (H : db) c e : reach H c e -> below H e e -> ~ well_founded_at H c.
  Proof. intros Hr Hb Hw; exact (acc_irrefl H e (acc_reach _ _ _ Hw Hr) Hb). Qed.

  (** keys *)
  Definition via (H : db) (l : list (inst T)) (k : nat) (key : list nat * nat) : option Ob :=
    match fst key with
    | [] => None
    | i :: p' => if (i <? k)%nat then None else
        match nth_error l (i - k) with
        | None => None
        | Some t => option_map (place (i_tag t)) (resolve place H (i_def t) p' (snd key))
        end
    end.

  Lemma nodup_app {A} (l1 l2 : list A) : NoDup l1 -> NoDup l2 -> (forall x, In x l1 -> ~ In x l2) -> NoDup (l1 ++ l2).
  Proof.
    induction l1 as [|a l1 IH]; simpl; auto; intros H1 H2 H; inversion H1; subst; constructor.
    - rewrite in_app_iff; intros [Ha|Ha]; auto; apply (H a); auto.
    - apply IH; auto.
  Qed.

  Lemma nth_error_map_seq {A} (l : list A) : map Some l = map (fun j => nth_error l j) (seq 0 (List.length l)).
  Proof.
    induction l as [|a l IH]; simpl; auto; f_equal; rewrite <- seq_shift, map_map; simpl; auto.
  Qed.

  Lemma flat_keys H :
    (forall c os, flat H c os -> once_per_path place H c os) /\
    (forall l os, flats H l os -> forall k, exists keys, NoDup keys /\
       (forall key, In key keys <-> via H l k key <> None) /\
       map Some os = map (via H l k) keys).
  Proof.
    apply flat_flats_ind.
    - intros c os Hs IH; destruct (IH 0) as (keys & Hnd & Hin & Hm).
      exists (map (pair []) (seq 0 (List.length (l_objs (H c)))) ++ keys); split; [|split].
      + apply nodup_app; auto.
        * apply FinFun.Injective_map_NoDup; [intros x y [= ->]; auto|apply seq_NoDup].
        * intros x Hx Hk; apply in_map_iff in Hx as (j & <- & _); apply Hin in Hk; apply Hk; reflexivity.
      + intros p j; rewrite in_app_iff, in_map_iff, Hin; unfold via; simpl; split.
        * intros [(x & [= <- <-] & Hx)|Hx].
          -- apply in_seq in Hx; simpl; apply nth_error_Some; lia.
          -- destruct p as [|i p]; [congruence|]; simpl in *; rewrite Nat.sub_0_r in Hx; auto.
        * destruct p as [|i p]; simpl; intros Hx.
          -- left; exists j; split; auto; apply in_seq; apply nth_error_Some in Hx; lia.
          -- right; rewrite Nat.sub_0_r; auto.
      + rewrite !map_app, map_map; cbn [fst snd resolve]; f_equal; [apply nth_error_map_seq|].
        rewrite Hm; apply map_ext_in; intros [p j] Hk; apply Hin in Hk; revert Hk; unfold via; cbn [fst snd].
        destruct p as [|i p]; [congruence|]; intros _; cbn [resolve]; rewrite Nat.sub_0_r; auto.
    - intros k; exists []; split; [constructor|split; auto].
      intros [p j]; unfold via; simpl; split; [intros []|].
      destruct p as [|i p]; [congruence|]; destruct (i <? k); [congruence|].
      destruct (i - k); simpl; congruence.
    - intros i l os1 os2 H1 (keys1 & Hnd1 & Hin1 & Hm1) H2 IH2 k.
      destruct (IH2 (S k)) as (keys2 & Hnd2 & Hin2 & Hm2).
      assert (Hvia : forall key, via H l (S k) key <> None -> via H (i :: l) k key = via H l (S k) key).
      { intros [p j]; unfold via; cbn [fst snd]; destruct p as [|x p]; [congruence|].
        destruct (Nat.ltb_spec x (S k)); [congruence|]; intros _.
        destruct (Nat.ltb_spec x k); [lia|].
        replace (x - k) with (S (x - S k)) by lia; reflexivity. }
      exists (map (fun key => (k :: fst key, snd key)) keys1 ++ keys2); split; [|split].
      + apply nodup_app; auto.
        * apply FinFun.Injective_map_NoDup; auto; intros [x1 x2] [y1 y2]; simpl; congruence.
        * intros x Hx Hk; apply in_map_iff in Hx as (j & <- & _); apply Hin2 in Hk; apply Hk; unfold via; cbn [fst snd].
          destruct (Nat.ltb_spec k (S k)); [auto|lia].
      + intros [p j]; rewrite in_app_iff, in_map_iff; split.
        * intros [([p' j'] & [= <- <-] & Hk)|Hk].
          -- apply Hin1 in Hk; unfold via; cbn [fst snd].
             rewrite Nat.ltb_irrefl, Nat.sub_diag; cbn [nth_error].
             destruct (resolve place H (i_def i) p' j'); simpl; congruence.
          -- apply Hin2 in Hk; rewrite Hvia; auto.
        * intros Hv; destruct p as [|x p]; [unfold via in Hv; simpl in Hv; congruence|].
          destruct (Nat.lt_trichotomy x k) as [Hlt|[->|Hgt]].
          -- unfold via in Hv; cbn [fst snd] in Hv; apply Nat.ltb_lt in Hlt; rewrite Hlt in Hv; congruence.
          -- left; exists (p, j); split; auto; apply Hin1.
             unfold via in Hv; cbn [fst snd] in Hv; rewrite Nat.ltb_irrefl, Nat.sub_diag in Hv; cbn [nth_error] in Hv.
             intros E; rewrite E in Hv; simpl in Hv; congruence.
          -- right; apply Hin2; intros E; apply Hv; revert E; unfold via; cbn [fst snd].
             destruct (Nat.ltb_spec x (S k)); [lia|]; destruct (Nat.ltb_spec x k); [lia|].
             replace (x - k) with (S (x - S k)) by lia; auto.
      + rewrite !map_app, !map_map; f_equal.
        * transitivity (map (option_map (place (i_tag i))) (map Some os1)); [rewrite map_map; reflexivity|].
          rewrite Hm1, map_map; apply map_ext; intros [p j]; unfold via; cbn [fst snd].
          rewrite Nat.ltb_irrefl, Nat.sub_diag; reflexivity.
        * rewrite Hm2; apply map_ext_in; intros key Hk; symmetry; apply Hvia, Hin2; auto.
  Qed.

  (** tasks *)
  Definition tstep (fuel : nat) (st : db) (r : res (list nat)) (i : inst T) : res (list nat) :=
    bind r (fun l => bind (tasks fuel st (i_def i)) (fun l' => Ok (l ++ l'))).

  Lemma tasks_S fuel (st : db) c : tasks (S fuel) st c =
    bind (fold_left (tstep fuel st) (l_insts (st c)) (Ok [])) (fun l => Ok (c :: l)).
  Proof. reflexivity. Qed.

  Lemma tfold_out fuel st l : fold_left (tstep fuel st) l OutOfFuel = OutOfFuel.
  Proof. induction l; simpl; auto. Qed.

  Lemma tasks_shape fuel (st : db) : forall c, tasks fuel st c = OutOfFuel \/ exists l, tasks fuel st c = Ok l.
  Proof.
    induction fuel as [|fuel IH]; intros c; [left; auto|].
    rewrite tasks_S; generalize (l_insts (st c)); intros l.
    enough (G : forall a, fold_left (tstep fuel st) l (Ok a) = OutOfFuel \/
                exists s', fold_left (tstep fuel st) l (Ok a) = Ok s').
    { destruct (G []) as [->|[st' ->]]; simpl; eauto. }
    induction l as [|i l IHl]; intros a; simpl; eauto.
    destruct (IH (i_def i)) as [->|[st' ->]]; simpl; [left; apply tfold_out|apply IHl].
  Qed.

  Lemma tfold_in fuel (st : db) : (forall c l, tasks fuel st c = Ok l -> forall e, In e l <-> reach st c e) ->
    forall l a r, fold_left (tstep fuel st) l (Ok a) = Ok r ->
    forall e, In e r <-> In e a \/ exists i, In i l /\ reach st (i_def i) e.
  Proof.
    intros IH; induction l as [|i l IHl]; simpl; intros a r.
    - intros [= <-] e; split; auto; intros [|(? & [] & _)]; auto.
    - destruct (tasks_shape fuel st (i_def i)) as [E|[s E]]; rewrite E; simpl; [rewrite tfold_out; discriminate|].
      intros Hf e; rewrite (IHl _ _ Hf), in_app_iff, (IH _ _ E); split.
      + intros [[Ha|Hr]|(j & Hj & Hr)]; eauto 6.
      + intros [Ha|(j & [<-|Hj] & Hr)]; eauto 6.
  Qed.

  Lemma tasks_in fuel (st : db) : forall c l, tasks fuel st c = Ok l -> forall e, In e l <-> reach st c e.
  Proof.
    induction fuel as [|fuel IH]; intros c l; [discriminate|].
    rewrite tasks_S; destruct (fold_left (tstep fuel st) (l_insts (st c)) (Ok [])) as [r| | |] eqn:E; try discriminate.
    cbn [bind]; intros [= <-] e; simpl; rewrite (tfold_in fuel st IH _ _ _ E); split.
    - intros [<-|[[]|(i & Hi & Hr)]]; [constructor|econstructor; [exists i; eauto|exact Hr]].
    - intros Hr; inversion Hr as [|? d ? (i & Hi & <-) Hr']; subst; eauto 6.
  Qed.

  Lemma tasks_mono fuel (st : db) : forall c l k, tasks fuel st c = Ok l -> tasks (fuel + k) st c = Ok l.
  Proof.
    induction fuel as [|fuel IH]; intros c l k H; [discriminate|].
    simpl Nat.add; rewrite tasks_S in *.
    assert (G : forall il a, forall s, fold_left (tstep fuel st) il (Ok a) = Ok s ->
                fold_left (tstep (fuel + k) st) il (Ok a) = Ok s).
    { induction il as [|i il IHl]; simpl; auto; intros a s.
      destruct (tasks_shape fuel st (i_def i)) as [E|[s1 E]]; rewrite E; simpl.
      - rewrite tfold_out; discriminate.
      - rewrite (IH _ _ k E); simpl; apply IHl. }
    destruct (fold_left (tstep fuel st) (l_insts (st c)) (Ok [])) as [s| | |] eqn:E; simpl in H; try discriminate.
    rewrite (G _ _ _ E); simpl; auto.
  Qed.

  Lemma tasks_wf (st : db) c : well_founded_at st c -> exists fuel l, tasks fuel st c = Ok l.
  Proof.
    intros Ha; induction Ha as [c _ IH].
    assert (G : forall il, (forall i, In i il -> In i (l_insts (st c))) -> exists fuel, forall a, exists r,
                fold_left (tstep fuel st) il (Ok a) = Ok r).
    { induction il as [|i il IHl]; intros Hl; [exists 0; simpl; eauto|].
      destruct (IH (i_def i)) as (f1 & l1 & E1); [exists i; split; auto; apply Hl; simpl; auto|].
      destruct IHl as [f2 H2]; [intros; apply Hl; simpl; auto|].
      exists (f1 + f2); intros a; simpl; rewrite (tasks_mono _ _ _ _ f2 E1); simpl.
      destruct (H2 (a ++ l1)) as [r Hr]; exists r; clear - Hr; rewrite Nat.add_comm; revert Hr; generalize (a ++ l1).
      induction il as [|j il IH]; simpl; auto; intros b.
      destruct (tasks_shape f2 st (i_def j)) as [E|[s1 E]]; rewrite E; simpl.
      - rewrite tfold_out; discriminate.
      - rewrite (tasks_mono _ _ _ _ f1 E); simpl; apply IH. }
    destruct (G (l_insts (st c))) as [f Hf]; auto; destruct (Hf []) as [r Hr].
    exists (S f), (c :: r); rewrite tasks_S, Hr; auto.
  Qed.

  Lemma tasks_diverge (st : db) fuel : forall c l, tasks fuel st c = Ok l -> well_founded_at st c.
  Proof.
    induction fuel as [|fuel IH]; intros c l; [discriminate|].
    rewrite tasks_S; destruct (fold_left (tstep fuel st) (l_insts (st c)) (Ok [])) as [r| | |] eqn:E; try discriminate.
    intros _; constructor; intros d (i & Hi & <-).
    revert E; generalize (@nil nat); revert i Hi; generalize (l_insts (st c)); intros il.
    induction il as [|j il IHl]; intros i Hi a; [destruct Hi|].
    cbn [fold_left]; unfold tstep at 2; cbn [bind].
    destruct (tasks_shape fuel st (i_def j)) as [E|[s1 E]]; rewrite E; cbn [bind]; [rewrite tfold_out; discriminate|].
    intros Hf; destruct Hi as [<-|Hi]; [eapply IH; eauto|eapply IHl; eauto].
  Qed.
End P.
