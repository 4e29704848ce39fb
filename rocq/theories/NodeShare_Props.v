(** C59, second part: which nodes share a boundary node, and what it carries.
    Model: [reduce] in ThermalNetwork_Model (BoundaryNodeReduction.h:18-37). *)
From Verif Require Import Base QSum ThermalNetwork_Model ThermalNetwork_Spec ThermalNetwork_Proofs NodeReduction_Props.
From Coq Require Import Qround.

(** ** Specification *)
(** The range of temperatures is cut into [d] slots of equal width; the slot [k] of a temperature in range. *)
Definition slot_width (minT maxT : Q) (d : nat) : Q := (maxT - minT) / inject_Z (Z.of_nat d).
Definition in_slot (minT maxT : Q) (d k : nat) (n : node) : Prop :=
  exists t, n_t n = Some t /\ minT <= t /\ t <= maxT /\
    minT + inject_Z (Z.of_nat k) * slot_width minT maxT d <= t /\ t < minT + inject_Z (Z.of_nat (Datatypes.S k)) * slot_width minT maxT d.
Definition in_slotb (minT maxT : Q) (d k : nat) (n : node) : bool :=
  match n_t n with
  | Some t => Qle_bool minT t && Qle_bool t maxT && Qle_bool (minT + inject_Z (Z.of_nat k) * slot_width minT maxT d) t &&
              negb (Qle_bool (minT + inject_Z (Z.of_nat (Datatypes.S k)) * slot_width minT maxT d) t)
  | None => false
  end.

(** ** Proofs *)
Lemma in_slotb_spec minT maxT d k n : in_slotb minT maxT d k n = true <-> in_slot minT maxT d k n.
Proof.
  unfold in_slotb, in_slot; destruct (n_t n) as [t|]; [|split; [discriminate|intros (t & H & _); discriminate]].
  rewrite !andb_true_iff, negb_true_iff, !Qle_bool_iff, <- not_true_iff_false, Qle_bool_iff; split.
  - intros [[[H1 H2] H3] H4]; exists t; repeat split; auto; apply Qnot_le_lt; exact H4.
  - intros (t' & [= <-] & H1 & H2 & H3 & H4); repeat split; auto; apply Qlt_not_le; exact H4.
Qed.

Lemma bucket_slot minT range t k : 0 < range -> minT <= t ->
  (bucket minT range t = k <-> minT + inject_Z (Z.of_nat k) * range <= t /\ t < minT + inject_Z (Z.of_nat (Datatypes.S k)) * range).
Proof.
  intros Hr Ht; unfold bucket.
  assert (F : (Qnum ((t - minT) / range) / Zpos (Qden ((t - minT) / range)))%Z = Qfloor ((t - minT) / range)) by (destruct ((t - minT) / range); reflexivity).
  rewrite ?F; set (x := (t - minT) / range).
  assert (X : x * range == t - minT) by (unfold x; field; lra).
  assert (X0 : 0 <= x) by (apply Qle_shift_div_l; lra).
  pose proof (Qfloor_le x) as L; pose proof (Qlt_floor x) as U.
  assert (P : (0 <= Qfloor x)%Z) by (change 0%Z with (Qfloor 0); apply Qfloor_resp_le; exact X0).
  split.
  - intros <-; rewrite Nat2Z.inj_succ, Z2Nat.id by exact P; unfold Z.succ.
    assert (inject_Z (Qfloor x) * range <= x * range) by (apply Qmult_le_compat_r; lra).
    assert (x * range < inject_Z (Qfloor x + 1) * range) by (apply Qmult_lt_compat_r; auto).
    lra.
  - rewrite Nat2Z.inj_succ; intros [H1 H2].
    assert (A : inject_Z (Z.of_nat k) <= x) by (apply Qle_shift_div_l; lra).
    assert (B : x < inject_Z (Z.succ (Z.of_nat k))) by (apply Qlt_shift_div_r; lra).
    assert (Z.of_nat k <= Qfloor x)%Z by (rewrite <- (Qfloor_Z (Z.of_nat k)); apply Qfloor_resp_le; exact A).
    assert (Qfloor x < Z.succ (Z.of_nat k))%Z by (rewrite Zlt_Qlt; eapply Qle_lt_trans; [exact L|exact B]).
    lia.
Qed.

Section Share.
  Context (minR fakeR fakeC : Q).
  Notation reduce := (reduce minR fakeR fakeC).
  Notation reduce_step := (reduce_step minR fakeR fakeC).
  Notation reduce_loop := (reduce_loop minR fakeR fakeC).

  Definition member (minT maxT range : Q) (k : nat) (n : node) : bool :=
    match n_t n with
    | Some t => negb (Qltb t minT || Qltb maxT t) && (bucket minT range t =? k)%nat
    | None => false
    end.

  Definition htc_at (l : network) (j : nat) : Q := n_htc (nth j l node0).

  Definition inv2 (minT maxT range : Q) (l0 : network) (done : nat) (st : network * list (nat * nat)) : Prop :=
    let '(l, m) := st in
    NoDup (map snd m) /\
    (forall j, In j (map snd m) <-> (List.length l0 <= j < List.length l)%nat) /\
    (forall i n t, (i < done)%nat -> nth_error l0 i = Some n -> n_t n = Some t -> minT <= t -> t <= maxT ->
       exists nid n', alookup Nat.eqb (bucket minT range t) m = Some nid /\ nth_error l i = Some n' /\
         alookup Nat.eqb nid (n_ns n') = Some (Qmax fakeR minR) /\
         forall j, (List.length l0 <= j)%nat -> alookup Nat.eqb j (n_ns n') <> None -> j = nid) /\
    (forall k nid, alookup Nat.eqb k m = Some nid -> htc_at l nid == sumf n_htc (filter (member minT maxT range k) (firstn done l0))) /\
    (forall k nid, alookup Nat.eqb k m = Some nid -> exists i n, (i < done)%nat /\ nth_error l0 i = Some n /\ member minT maxT range k n = true) /\
    (forall k, alookup Nat.eqb k m = None -> filter (member minT maxT range k) (firstn done l0) = []) /\
    (forall j, In j (map snd m) -> exists k, alookup Nat.eqb k m = Some j).

  Lemma move_eq i nid l l' n : nth_error l i = Some n -> (i < nid)%nat ->
    run minR l [SetC nid fakeC; SetR nid i fakeR; AddHTC nid (n_htc n); SetHTC i 0] = Ok l' ->
    exists b, nth_error l nid = Some b /\
      List.length l' = List.length l /\
      (forall j, j <> i -> j <> nid -> nth_error l' j = nth_error l j) /\
      nth_error l' i = Some (with_htc 0 (with_ns (add_neighbor nid (Qmax fakeR minR) (n_ns n)) n)) /\
      nth_error l' nid = Some (with_htc (n_htc b + n_htc n) (with_c fakeC b)).
  Proof.
    intros Hn Hi; cbn [run step].
    destruct (at_node nid (with_c fakeC) l) as [l1| | |] eqn:E1; cbn [bind]; try discriminate.
    destruct (set_r minR nid i fakeR l1) as [l2| | |] eqn:E2; cbn [bind]; try discriminate.
    destruct (at_node nid _ l2) as [l3| | |] eqn:E3; cbn [bind]; try discriminate.
    destruct (at_node i _ l3) as [l4| | |] eqn:E4; cbn [bind]; try discriminate.
    intros [= <-].
    apply at_node_ok in E1 as [-> L1]; apply set_r_ok in E2 as [-> L2].
    apply at_node_ok in E3 as [-> L3]; apply at_node_ok in E4 as [-> L4].
    rewrite Nat.min_r, Nat.max_l in * by lia.
    destruct (nth_error l nid) as [b|] eqn:Eb; [|apply nth_error_None in Eb; lia].
    exists b; split; [reflexivity|]; split; [rewrite !upd_length; reflexivity|]; split; [|split].
    - intros j H1 H2; rewrite !upd_nth; destruct (Nat.eqb_spec i j), (Nat.eqb_spec nid j); try lia; reflexivity.
    - rewrite !upd_nth, Nat.eqb_refl; destruct (Nat.eqb_spec nid i); [lia|]; rewrite Hn; reflexivity.
    - rewrite !upd_nth, Nat.eqb_refl; destruct (Nat.eqb_spec i nid); [lia|]; rewrite Eb; reflexivity.
  Qed.

  Lemma firstn_next {A} (l : list A) i x : nth_error l i = Some x -> firstn (Datatypes.S i) l = firstn i l ++ [x].
  Proof.
    revert i; induction l as [|a l IH]; intros [|i]; cbn [nth_error firstn app]; try discriminate.
    - intros [= ->]; reflexivity.
    - intros H; rewrite <- (IH _ H); reflexivity.
  Qed.

  Lemma alookup_added k r (m : list (nat * Q)) : alookup Nat.eqb k m = None -> alookup Nat.eqb k (add_neighbor k r m) = Some r.
  Proof. intros H; unfold add_neighbor; rewrite H, alookup_app, H; cbn [alookup]; rewrite Nat.eqb_refl; reflexivity. Qed.

  Lemma alookup_fst_in {V} k (v : V) m : alookup Nat.eqb k m = Some v -> In v (map snd m).
  Proof. intros H; apply (alookup_in _ Nat.eqb_spec) in H; apply in_map_iff; exists (k, v); auto. Qed.

  Lemma alookup_inj k k' (v : nat) m : NoDup (map snd m) -> alookup Nat.eqb k m = Some v -> alookup Nat.eqb k' m = Some v -> k = k'.
  Proof.
    induction m as [|[a b] m IH]; cbn [alookup map snd]; [discriminate|]; intros N; inversion N as [|? ? N1 N2]; subst.
    destruct (Nat.eqb_spec k a), (Nat.eqb_spec k' a); subst; auto.
    - intros [= ->] H; apply alookup_fst_in in H; contradiction.
    - intros H [= ->]; apply alookup_fst_in in H; contradiction.
  Qed.

  Lemma htc_at_some l j n : nth_error l j = Some n -> htc_at l j = n_htc n.
  Proof. intros H; unfold htc_at; rewrite (nth_error_nth _ j node0 H); reflexivity. Qed.

  Lemma step_inv2 cap minT maxT range l0 i st st' : (i < List.length l0)%nat ->
    (forall n k, In n l0 -> alookup Nat.eqb k (n_ns n) <> None -> (k < List.length l0)%nat) ->
    inv minT maxT l0 i st -> inv2 minT maxT range l0 i st ->
    reduce_step cap minT maxT range i st = Ok st' -> inv2 minT maxT range l0 (Datatypes.S i) st'.
  Proof.
    intros Hi Hkeys; destruct st as [l m]; unfold inv, ThermalNetwork_Model.reduce_step; intros (Hlen & _ & _ & Hn) (D & J & T & H & W & Z & K).
    destruct (nth_error l0 i) as [n0|] eqn:E0; [|apply nth_error_None in E0; lia].
    destruct (Hn i n0 E0) as (n & En & _ & Hid & _); rewrite En; specialize (Hid (le_n _)); subst n.
    assert (Skip : (forall k, member minT maxT range k n0 = false) -> (forall t, n_t n0 = Some t -> ~ (minT <= t /\ t <= maxT)) ->
      Ok (l, m) = Ok st' -> inv2 minT maxT range l0 (Datatypes.S i) st').
    { intros Hm Ht [= <-]; unfold inv2; split; [auto|]; split; [auto|]; split; [|split; [|split; [|split; [|exact K]]]].
      - intros j n t Hj Ej Et H1 H2; destruct (Nat.eq_dec j i) as [->|Hne].
        + rewrite E0 in Ej; injection Ej as <-; exfalso; apply (Ht t Et); auto.
        + apply (T j n t); auto; lia.
      - intros k nid Hk; rewrite (H k nid Hk), (firstn_next _ _ _ E0), filter_app; cbn [filter]; rewrite Hm, app_nil_r; reflexivity.
      - intros k nid Hk; destruct (W k nid Hk) as (j & n & Hj & R); exists j, n; split; [lia|exact R].
      - intros k Hk; rewrite (firstn_next _ _ _ E0), filter_app; cbn [filter]; rewrite Hm, app_nil_r; auto. }
    destruct (n_t n0) as [t|] eqn:Et.
    2:{ apply Skip; [intros k; unfold member; rewrite Et; reflexivity|discriminate]. }
    destruct (Qltb t minT || Qltb maxT t)%bool eqn:Er.
    { apply Skip; [intros k; unfold member; rewrite Et, Er; reflexivity|].
      intros t' [= <-] Hr; apply range_dec in Hr; congruence. }
    assert (Mem : forall k, member minT maxT range k n0 = (bucket minT range t =? k)%nat).
    { intros k; unfold member; rewrite Et, Er; reflexivity. }
    assert (Hk0 : forall k, (List.length l0 <= k)%nat -> alookup Nat.eqb k (n_ns n0) = None).
    { intros k Hk; destruct (alookup Nat.eqb k (n_ns n0)) eqn:E; [|reflexivity].
      assert (k < List.length l0)%nat by (apply (Hkeys n0); [eapply nth_error_In; eauto|congruence]); lia. }
    assert (Fn : forall nid n', (List.length l0 <= nid)%nat -> n' = with_htc 0 (with_ns (add_neighbor nid (Qmax fakeR minR) (n_ns n0)) n0) ->
      alookup Nat.eqb nid (n_ns n') = Some (Qmax fakeR minR) /\
      forall j, (List.length l0 <= j)%nat -> alookup Nat.eqb j (n_ns n') <> None -> j = nid).
    { intros nid n' Hnid ->; cbn [n_ns with_htc with_ns]; split; [apply alookup_added; auto|].
      intros j Hj Hj'; destruct (Nat.eq_dec j nid) as [|Hne]; [auto|].
      rewrite alookup_add_neighbor in Hj' by auto; exfalso; apply Hj'; auto. }
    apply range_dec in Er; cbv zeta; set (b := bucket minT range t) in *.
    destruct (alookup Nat.eqb b m) as [nid|] eqn:El.
    - destruct (run minR l _) as [l'| | |] eqn:Erun; cbn [bind]; try discriminate; intros [= <-].
      assert (Hnid : (List.length l0 <= nid < List.length l)%nat) by (apply J; eapply alookup_fst_in; eauto).
      destruct (move_eq i nid l l' n0 En ltac:(lia) Erun) as (bn & Eb & Ll & Oth & Ei & Enid).
      unfold inv2; split; [auto|]; split; [rewrite Ll; auto|]; split; [|split; [|split; [|split; [|exact K]]]].
      + intros j n t' Hj Ej Et' H1 H2; destruct (Nat.eq_dec j i) as [->|Hne].
        * rewrite E0 in Ej; injection Ej as <-; rewrite Et in Et'; injection Et' as <-; fold b.
          eexists nid, _; split; [exact El|split; [exact Ei|]]; apply Fn; [lia|reflexivity].
        * destruct (T j n t') as (nid' & n' & R1 & R2 & R3); auto; [lia|]; exists nid', n'; split; [auto|split; [|exact R3]].
          rewrite Oth; auto; assert (j < List.length l0)%nat by (apply nth_error_Some; congruence); lia.
      + intros k nid' Hk; rewrite (firstn_next _ _ _ E0), filter_app, sumf_app; cbn [filter]; rewrite Mem.
        destruct (Nat.eqb_spec b k) as [<-|Hne].
        * rewrite El in Hk; injection Hk as <-; rewrite (htc_at_some _ _ _ Enid); cbn [n_htc with_htc with_c sumf].
          rewrite <- (H b nid El), (htc_at_some _ _ _ Eb); ring.
        * cbn [sumf]; rewrite <- (H k nid' Hk).
          assert (nid' <> nid) by (intros ->; apply Hne; eapply alookup_inj; eauto).
          assert (List.length l0 <= nid' < List.length l)%nat by (apply J; eapply alookup_fst_in; eauto).
          assert (X : nth_error l' nid' = nth_error l nid') by (apply Oth; lia).
          destruct (nth_error l nid') as [y|] eqn:Ey; [|apply nth_error_None in Ey; lia].
          rewrite (htc_at_some _ _ _ X), (htc_at_some _ _ _ Ey); ring.
      + intros k nid' Hk; destruct (W k nid' Hk) as (j & n & Hj & R); exists j, n; split; [lia|exact R].
      + intros k Hk; rewrite (firstn_next _ _ _ E0), filter_app; cbn [filter]; rewrite Mem.
        destruct (Nat.eqb_spec b k); [congruence|rewrite app_nil_r; auto].
    - destruct (List.length l <? cap)%nat; [|discriminate].
      set (nid := List.length l) in *.
      change [AppendNode None; SetC nid fakeC; SetR nid i fakeR; AddHTC nid (n_htc n0); SetHTC i 0]
        with ([AppendNode None] ++ [SetC nid fakeC; SetR nid i fakeR; AddHTC nid (n_htc n0); SetHTC i 0]).
      set (la := l ++ [with_t None node0]).
      rewrite run_app; change (run minR l [AppendNode None]) with (Ok la); unfold bind at 2.
      destruct (run minR la _) as [l'| | |] eqn:Erun; cbn [bind]; try discriminate; intros [= <-].
      assert (Ena : nth_error la i = Some n0) by (unfold la; rewrite nth_error_app1; [exact En|]; lia).
      destruct (move_eq i nid la l' n0 Ena ltac:(unfold nid; lia) Erun) as (bn & Eb & Ll & Oth & Ei & Enid).
      assert (Eb' : bn = with_t None node0).
      { unfold la in Eb; rewrite nth_error_app2 in Eb by (unfold nid; lia); unfold nid in Eb; rewrite Nat.sub_diag in Eb; injection Eb as <-; reflexivity. }
      assert (La : List.length la = Datatypes.S nid) by (unfold la; rewrite app_length; cbn [List.length]; unfold nid; lia).
      assert (Old : forall j, (j < nid)%nat -> nth_error la j = nth_error l j) by (intros j Hj; unfold la; apply nth_error_app1; exact Hj).
      assert (Nin : ~ In nid (map snd m)) by (intros Hin; apply J in Hin; unfold nid in Hin; lia).
      unfold inv2; rewrite map_app; cbn [map snd]; split; [|split; [|split; [|split; [|split; [|split]]]]].
      + apply (Permutation.Permutation_NoDup (l := nid :: map snd m)); [apply Permutation.Permutation_cons_append|constructor; auto].
      + intros j; rewrite in_app_iff, J, Ll, La; cbn [In]; unfold nid; lia.
      + intros j n t' Hj Ej Et' H1 H2; destruct (Nat.eq_dec j i) as [->|Hne].
        * rewrite E0 in Ej; injection Ej as <-; rewrite Et in Et'; injection Et' as <-; fold b.
          eexists nid, _; split; [rewrite alookup_app, El; cbn [alookup]; rewrite Nat.eqb_refl; reflexivity|].
          split; [exact Ei|]; apply Fn; [unfold nid; lia|reflexivity].
        * destruct (T j n t') as (nid' & n' & R1 & R2 & R3); auto; [lia|]; exists nid', n'; split; [rewrite alookup_app, R1; reflexivity|split; [|exact R3]].
          assert (j < List.length l0)%nat by (apply nth_error_Some; congruence).
          rewrite Oth, Old; auto; unfold nid; lia.
      + intros k nid'; rewrite alookup_app, (firstn_next _ _ _ E0), filter_app, sumf_app; cbn [filter]; rewrite Mem; cbn [alookup].
        destruct (Nat.eqb_spec b k) as [<-|Hne].
        * rewrite El, Nat.eqb_refl; intros [= <-]; rewrite (htc_at_some _ _ _ Enid), Eb'; cbn [n_htc with_htc with_c with_t node0 sumf].
          rewrite (Z b El); cbn [sumf]; ring.
        * destruct (alookup Nat.eqb k m) as [v|] eqn:Ek; [|destruct (Nat.eqb_spec k b); [congruence|discriminate]].
          intros [= ->]; cbn [sumf]; rewrite <- (H k nid' Ek).
          assert (List.length l0 <= nid' < List.length l)%nat by (apply J; eapply alookup_fst_in; eauto).
          assert (X : nth_error l' nid' = nth_error l nid') by (rewrite Oth, Old; auto; unfold nid; lia).
          destruct (nth_error l nid') as [y|] eqn:Ey; [|apply nth_error_None in Ey; lia].
          rewrite (htc_at_some _ _ _ X), (htc_at_some _ _ _ Ey); ring.
      + intros k nid'; rewrite alookup_app; destruct (alookup Nat.eqb k m) as [v|] eqn:Ek.
        * intros _; destruct (W k v Ek) as (j & n & Hj & R); exists j, n; split; [lia|exact R].
        * cbn [alookup]; destruct (Nat.eqb_spec k b) as [->|]; [|discriminate]; intros _; exists i, n0; split; [lia|split; [auto|]].
          rewrite Mem; apply Nat.eqb_refl.
      + intros k; rewrite alookup_app; destruct (alookup Nat.eqb k m) as [v|] eqn:Ek; [discriminate|]; cbn [alookup].
        destruct (Nat.eqb_spec k b); [discriminate|]; intros _; rewrite (firstn_next _ _ _ E0), filter_app; cbn [filter]; rewrite Mem.
        destruct (Nat.eqb_spec b k); [congruence|rewrite app_nil_r; auto].
      + intros j Hj; apply in_app_or in Hj as [Hj|[<-|[]]].
        * destruct (K j Hj) as [k Hk]; exists k; rewrite alookup_app, Hk; reflexivity.
        * exists b; rewrite alookup_app, El; cbn [alookup]; rewrite Nat.eqb_refl; reflexivity.
  Qed.

  Lemma loop_inv2 cap minT maxT range l0 k i st st' : (i + k <= List.length l0)%nat ->
    (forall n j, In n l0 -> alookup Nat.eqb j (n_ns n) <> None -> (j < List.length l0)%nat) ->
    inv minT maxT l0 i st -> inv2 minT maxT range l0 i st ->
    reduce_loop cap minT maxT range (seq i k) st = Ok st' -> inv2 minT maxT range l0 (i + k) st'.
  Proof.
    intros Hk Hkeys; revert i st Hk; induction k as [|k IH]; intros i st Hk I1 I2; cbn [seq ThermalNetwork_Model.reduce_loop].
    - intros [= <-]; rewrite Nat.add_0_r; auto.
    - destruct (reduce_step cap minT maxT range i st) as [st1| | |] eqn:E; cbn [bind]; try discriminate.
      intros H; rewrite Nat.add_succ_r; apply (IH (Datatypes.S i) st1); auto; [lia| |].
      + eapply step_inv; eauto; lia.
      + eapply step_inv2; eauto; lia.
  Qed.

  (** The nodes whose temperature lies in the range are connected, each by one resistor, to the added nodes, and to no
      other added node: those of one slot to one and the same, those of different slots to different ones.  Every
      added node serves a slot some node is in, and carries the coefficients of all nodes of its slot. *)
  Theorem C59_shared_by_slot cap minT maxT d l l' : reduce cap minT maxT d l = Ok l' ->
    (forall n j, In n l -> alookup Nat.eqb j (n_ns n) <> None -> (j < List.length l)%nat) ->
    exists shared : nat -> nat,
      (forall i n, nth_error l i = Some n -> temp_in_range minT maxT n ->
         exists k n', in_slot minT maxT d k n /\ nth_error l' i = Some n' /\
           alookup Nat.eqb (shared k) (n_ns n') = Some (Qmax fakeR minR) /\
           forall j, (List.length l <= j)%nat -> alookup Nat.eqb j (n_ns n') <> None -> j = shared k) /\
      (forall k k' n n', In n l -> In n' l -> in_slot minT maxT d k n -> in_slot minT maxT d k' n' -> shared k = shared k' -> k = k') /\
      (forall j, (List.length l <= j < List.length l')%nat <-> exists k n, In n l /\ in_slot minT maxT d k n /\ shared k = j) /\
      (forall k n, In n l -> in_slot minT maxT d k n ->
         exists b, nth_error l' (shared k) = Some b /\ n_htc b == sumf n_htc (filter (in_slotb minT maxT d k) l)).
  Proof.
    unfold ThermalNetwork_Model.reduce; set (range := (maxT - minT) / inject_Z (Z.of_nat d)); intros Hred Hkeys.
    destruct (Qeqb range 0) eqn:Eq; [discriminate|].
    destruct (reduce_loop cap minT maxT range (seq 0 (List.length l)) (l, [])) as [[lf m]| | |] eqn:E; cbn [rmap bind fst] in Hred; try discriminate.
    injection Hred as <-.
    assert (I0 : inv minT maxT l 0 (l, [])).
    { split; [auto|split; [discriminate|split; [reflexivity|]]].
      intros i n Hn; exists n; split; [auto|split; [unfold same_but_htc; auto 6|]].
      split; [auto|split; [auto|lia]]. }
    assert (J0 : inv2 minT maxT range l 0 (l, [])).
    { unfold inv2; split; [constructor|]; split; [intros j; cbn [map In]; lia|]; split; [intros; lia|]; repeat split; try discriminate; try reflexivity; intros j []. }
    apply loop_inv2 with (l0 := l) in E; [|lia|exact Hkeys|exact I0|exact J0].
    destruct E as (D & J & T & H & W & Z & K); rewrite Nat.add_0_l, firstn_all in *.
    assert (Pos : forall n, temp_in_range minT maxT n -> 0 < range).
    { intros n (t & _ & H1 & H2); unfold range in *; destruct d as [|d'].
      - exfalso; apply not_true_iff_false in Eq; apply Eq; unfold Qeqb; apply Qeq_bool_iff; cbn [Z.of_nat]; unfold Qdiv; change (/ inject_Z 0) with 0; ring.
      - assert (Hd : 0 < inject_Z (Z.of_nat (Datatypes.S d'))) by (replace 0 with (inject_Z 0) by reflexivity; rewrite <- Zlt_Qlt; lia).
        apply Qlt_shift_div_l; [exact Hd|]; rewrite Qmult_0_l.
        destruct (Qlt_le_dec 0 (maxT - minT)) as [L|L]; [exact L|exfalso].
        assert (Ez : maxT - minT == 0) by lra.
        apply not_true_iff_false in Eq; apply Eq; unfold Qeqb; apply Qeq_bool_iff; rewrite Ez; unfold Qdiv; ring. }
    assert (Ms : forall k n, member minT maxT range k n = true <-> in_slot minT maxT d k n).
    { intros k n; unfold member, in_slot; fold range; split.
      - destruct (n_t n) as [t|] eqn:Et; [|discriminate]; rewrite andb_true_iff, negb_true_iff; intros [H1 H2].
        apply range_dec in H1; apply Nat.eqb_eq in H2; exists t; destruct H1 as [H1 H3].
        assert (0 < range) by (apply (Pos n); exists t; auto).
        apply bucket_slot in H2; auto; unfold slot_width; fold range; tauto.
      - intros (t & Et & H1 & H2 & H3 & H4); rewrite Et; apply andb_true_iff; split.
        + apply negb_true_iff, range_dec; auto.
        + apply Nat.eqb_eq, bucket_slot; auto; apply (Pos n); exists t; auto. }
    assert (Mb : forall k n, member minT maxT range k n = in_slotb minT maxT d k n).
    { intros k n; destruct (in_slotb minT maxT d k n) eqn:B.
      - apply Ms, in_slotb_spec; exact B.
      - apply not_true_iff_false; intros M; apply Ms, in_slotb_spec in M; congruence. }
    assert (Used : forall k n, In n l -> in_slot minT maxT d k n -> exists nid, alookup Nat.eqb k m = Some nid).
    { intros k n Hin Hs; destruct (alookup Nat.eqb k m) as [nid|] eqn:Ek; [eauto|].
      exfalso; specialize (Z k Ek); assert (X : In n (filter (member minT maxT range k) l)) by (apply filter_In; split; [exact Hin|apply Ms; exact Hs]).
      rewrite Z in X; destruct X. }
    exists (fun k => match alookup Nat.eqb k m with Some nid => nid | None => 0%nat end); split; [|split; [|split]].
    - intros i n Hn (t & Et & H1 & H2).
      destruct (T i n t) as (nid & n' & R1 & R2 & R3); auto; [apply nth_error_Some; congruence|].
      exists (bucket minT range t), n'; rewrite R1; split; [|auto].
      apply Ms; unfold member; rewrite Et; apply andb_true_iff; split; [apply negb_true_iff, range_dec; auto|apply Nat.eqb_refl].
    - intros k k' n n' Hn Hn' Hs Hs'; destruct (Used k n Hn Hs) as [v Ev]; destruct (Used k' n' Hn' Hs') as [v' Ev']; rewrite Ev, Ev'; intros ->.
      eapply alookup_inj; eauto.
    - intros j; rewrite <- J; split.
      + intros Hin; destruct (K j Hin) as [k Ek]; destruct (W k j Ek) as (i & n & _ & Hn & Hm).
        exists k, n; split; [eapply nth_error_In; eauto|split; [apply Ms; exact Hm|rewrite Ek; reflexivity]].
      + intros (k & n & Hin & Hs & Ej); destruct (Used k n Hin Hs) as [v Ev]; rewrite Ev in Ej; subst; eapply alookup_fst_in; eauto.
    - intros k n Hin Hs; destruct (Used k n Hin Hs) as [v Ev]; rewrite Ev.
      assert (Hv : (List.length l <= v < List.length lf)%nat) by (apply J; eapply alookup_fst_in; eauto).
      destruct (nth_error lf v) as [b|] eqn:Eb; [|apply nth_error_None in Eb; lia].
      exists b; split; [reflexivity|]; rewrite <- (htc_at_some _ _ _ Eb), (H k v Ev).
      rewrite (filter_ext _ _ (Mb k)); reflexivity.
  Qed.
End Share.
Print Assumptions C59_shared_by_slot.

(** Three nodes in two slots and one out of range: two nodes are added. *)
Example C59_shared_ex : exists l',
  reduce (1#1000000) (1#100) (1#100) 8 20 30 10
    [mkNode None (Some 25) 1 2 3 [(1%nat, 5)]; mkNode None (Some (51#2)) 1 0 4 []; mkNode None (Some 40) 1 0 7 []; mkNode None (Some 20) 1 0 9 []] = Ok l' /\
  map n_htc l' = [0; 0; 7; 0; 0 + 3 + 4; 0 + 9] /\
  map (fun n => map fst (n_ns n)) l' = [[1; 4]; [4]; []; [5]; []; []]%nat.
Proof. eexists; split; [vm_compute; reflexivity|]; vm_compute; auto. Qed.
Example C59_slot_ex : in_slot 20 30 10 5 (mkNode None (Some (51#2)) 1 0 4 []).
Proof. exists (51#2); repeat split; vm_compute; discriminate || reflexivity. Qed.
