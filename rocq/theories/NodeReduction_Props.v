(** C59: replacing per-node boundary coefficients by shared boundary nodes.
    Model: [reduce] in ThermalNetwork_Model (BoundaryNodeReduction.h:18-37). *)
From Verif Require Import Base QSum ThermalNetwork_Model ThermalNetwork_Spec ThermalNetwork_Proofs.

(** ** Specification *)
Definition total_htc (l : network) : Q := sumf n_htc l.
Definition temp_in_range (minT maxT : Q) (n : node) : Prop :=
  exists t, n_t n = Some t /\ minT <= t /\ t <= maxT.

(** everything of an original node that the reduction must leave alone *)
Definition same_but_htc (n0 : nat) (a b : node) : Prop :=
  n_scen b = n_scen a /\ n_t b = n_t a /\ n_c b = n_c a /\ n_hf b = n_hf a /\
  forall k, (k < n0)%nat -> alookup Nat.eqb k (n_ns b) = alookup Nat.eqb k (n_ns a).

(** ** Proofs *)
Lemma sumf_upd i f l n : nth_error l i = Some n -> sumf n_htc (upd i f l) == sumf n_htc l - n_htc n + n_htc (f n).
Proof.
  revert i; induction l as [|x l IH]; intros [|i]; simpl; try discriminate.
  - intros [= ->]; lra.
  - intros H; rewrite (IH i H); lra.
Qed.

Lemma alookup_aset k v m k' : k' <> k -> alookup Nat.eqb k' (aset k v m) = alookup Nat.eqb k' m.
Proof.
  intros Hne; induction m as [|[a b] m IH]; simpl; auto.
  destruct (Nat.eqb_spec a k) as [->|]; simpl.
  - destruct (Nat.eqb_spec k' k); [tauto|auto].
  - destruct (k' =? a)%nat; auto.
Qed.

Lemma alookup_add_neighbor k r m k' : k' <> k -> alookup Nat.eqb k' (add_neighbor k r m) = alookup Nat.eqb k' m.
Proof.
  intros Hne; unfold add_neighbor; destruct (alookup Nat.eqb k m); [now apply alookup_aset|].
  rewrite alookup_app; simpl; destruct (Nat.eqb_spec k' k); [tauto|]; now destruct (alookup Nat.eqb k' m).
Qed.

Section Reduce.
  Context (minR fakeR fakeC : Q).
  Notation reduce := (reduce minR fakeR fakeC).
  Notation reduce_step := (reduce_step minR fakeR fakeC).
  Notation reduce_loop := (reduce_loop minR fakeR fakeC).

  Lemma move_spec N i nid l l' n : (i < N)%nat -> (N <= nid)%nat -> nth_error l i = Some n ->
    run minR l [SetC nid fakeC; SetR nid i fakeR; AddHTC nid (n_htc n); SetHTC i 0] = Ok l' ->
    List.length l' = List.length l /\ total_htc l' == total_htc l /\
    (forall j, (j < N)%nat -> j <> i -> nth_error l' j = nth_error l j) /\
    nth_error l' i = Some (with_htc 0 (with_ns (add_neighbor nid (Qmax fakeR minR) (n_ns n)) n)).
  Proof.
    intros Hi Hnid Hn; simpl.
    destruct (at_node nid (with_c fakeC) l) as [l1| | |] eqn:E1; simpl; try discriminate.
    destruct (set_r minR nid i fakeR l1) as [l2| | |] eqn:E2; simpl; try discriminate.
    destruct (at_node nid _ l2) as [l3| | |] eqn:E3; simpl; try discriminate.
    destruct (at_node i _ l3) as [l4| | |] eqn:E4; simpl; try discriminate.
    intros [= <-].
    apply at_node_ok in E1 as [-> L1]; apply set_r_ok in E2 as [-> L2].
    apply at_node_ok in E3 as [-> L3]; apply at_node_ok in E4 as [-> L4].
    rewrite Nat.min_r, Nat.max_l in * by lia.
    rewrite !upd_length in *; split; [auto|].
    destruct (nth_error l nid) as [b|] eqn:Eb; [|apply nth_error_None in Eb; lia].
    assert (Q1 : nth_error (upd nid (with_c fakeC) l) i = Some n).
    { rewrite upd_nth; destruct (Nat.eqb_spec nid i); [lia|auto]. }
    assert (Q1' : nth_error (upd nid (with_c fakeC) l) nid = Some (with_c fakeC b)).
    { rewrite upd_nth, Nat.eqb_refl, Eb; auto. }
    set (l1 := upd nid (with_c fakeC) l) in *.
    set (g := fun n => with_ns (add_neighbor nid (Qmax fakeR minR) (n_ns n)) n).
    assert (Q2 : nth_error (upd i g l1) i = Some (g n)).
    { rewrite upd_nth, Nat.eqb_refl, Q1; auto. }
    assert (Q2' : nth_error (upd i g l1) nid = Some (with_c fakeC b)).
    { rewrite upd_nth; destruct (Nat.eqb_spec i nid); [lia|auto]. }
    set (l2 := upd i g l1) in *.
    set (h := fun x => with_htc (n_htc x + n_htc n) x).
    assert (Q3 : nth_error (upd nid h l2) i = Some (g n)).
    { rewrite upd_nth; destruct (Nat.eqb_spec nid i); [lia|auto]. }
    split; [|split].
    - unfold total_htc; rewrite (sumf_upd _ _ _ _ Q3), (sumf_upd _ _ _ _ Q2').
      unfold l2; rewrite (sumf_upd _ _ _ _ Q1); unfold l1; rewrite (sumf_upd _ _ _ _ Eb); simpl; ring.
    - intros j Hj Hne; rewrite upd_nth; destruct (Nat.eqb_spec i j); [lia|].
      rewrite upd_nth; destruct (Nat.eqb_spec nid j); [lia|].
      unfold l2; rewrite upd_nth; destruct (Nat.eqb_spec i j); [lia|].
      unfold l1; rewrite upd_nth; destruct (Nat.eqb_spec nid j); [lia|auto].
    - rewrite upd_nth, Nat.eqb_refl, Q3; reflexivity.
  Qed.

  Definition inv (minT maxT : Q) (l0 : network) (done : nat) (st : network * list (nat * nat)) : Prop :=
    let '(l, m) := st in
    (List.length l0 <= List.length l)%nat /\
    (forall id nid, alookup Nat.eqb id m = Some nid -> (List.length l0 <= nid)%nat) /\
    total_htc l == total_htc l0 /\
    forall i n, nth_error l0 i = Some n -> exists n', nth_error l i = Some n' /\
      same_but_htc (List.length l0) n n' /\
      ((done <= i)%nat -> n' = n) /\
      (~ temp_in_range minT maxT n -> n_htc n' = n_htc n) /\
      ((i < done)%nat -> temp_in_range minT maxT n -> n_htc n' = 0).

  Lemma range_dec minT maxT t : (Qltb t minT || Qltb maxT t)%bool = false <-> minT <= t /\ t <= maxT.
  Proof.
    unfold Qltb; rewrite orb_false_iff, !negb_false_iff, !Qle_bool_iff; tauto.
  Qed.

  Lemma run_app l os1 os2 : run minR l (os1 ++ os2) = bind (run minR l os1) (fun l' => run minR l' os2).
  Proof. revert l; induction os1 as [|o os1 IH]; intros l; simpl; auto; destruct (step minR l o); simpl; auto. Qed.

  Lemma step_inv cap minT maxT range l0 i st st' : (i < List.length l0)%nat ->
    inv minT maxT l0 i st -> reduce_step cap minT maxT range i st = Ok st' -> inv minT maxT l0 (Datatypes.S i) st'.
  Proof.
    intros Hi; destruct st as [l m]; unfold inv, ThermalNetwork_Model.reduce_step; intros (Hlen & Hm & Hsum & Hn).
    destruct (nth_error l0 i) as [n0|] eqn:E0; [|apply nth_error_None in E0; lia].
    destruct (Hn i n0 E0) as (n & En & Hsame & Hid & _ & _); rewrite En.
    specialize (Hid (le_n _)); subst n0.
    assert (Hskip : ~ temp_in_range minT maxT n -> Ok (l, m) = Ok st' ->
      let '(l', m') := st' in
      (List.length l0 <= List.length l')%nat /\ (forall id nid, alookup Nat.eqb id m' = Some nid -> (List.length l0 <= nid)%nat) /\
      total_htc l' == total_htc l0 /\
      forall j x, nth_error l0 j = Some x -> exists n', nth_error l' j = Some n' /\ same_but_htc (List.length l0) x n' /\
        ((Datatypes.S i <= j)%nat -> n' = x) /\ (~ temp_in_range minT maxT x -> n_htc n' = n_htc x) /\
        ((j < Datatypes.S i)%nat -> temp_in_range minT maxT x -> n_htc n' = 0)).
    { intros Hnr [= <-]; repeat (split; [auto|]).
      intros j x Ej; destruct (Hn j x Ej) as (n' & E' & S1 & S2 & S3 & S4); exists n'; split; [auto|split; [auto|]].
      split; [intros; apply S2; lia|split; [auto|]].
      intros Hj Hr; destruct (Nat.eq_dec j i) as [->|]; [rewrite E0 in Ej; injection Ej as ->; tauto|apply S4; auto; lia]. }
    destruct (n_t n) as [t|] eqn:Et.
    2:{ apply Hskip; intros (t & Ht & _); congruence. }
    destruct (Qltb t minT || Qltb maxT t)%bool eqn:Er.
    { apply Hskip; intros (t' & Ht & Hr); rewrite Et in Ht; injection Ht as <-; apply (proj2 (range_dec _ _ _)) in Hr; congruence. }
    apply range_dec in Er.
    (* the common part of both branches *)
    assert (Hmove : forall la l' nid m', (List.length l0 <= List.length la)%nat -> (List.length l0 <= nid)%nat ->
      total_htc la == total_htc l -> (forall j, (j < List.length l0)%nat -> nth_error la j = nth_error l j) ->
      (forall id nid, alookup Nat.eqb id m' = Some nid -> (List.length l0 <= nid)%nat) ->
      run minR la [SetC nid fakeC; SetR nid i fakeR; AddHTC nid (n_htc n); SetHTC i 0] = Ok l' -> inv minT maxT l0 (Datatypes.S i) (l', m')).
    { intros la l' nid m' La Hnid Hta Hla Hm' Hrun.
      destruct (move_spec (List.length l0) i nid la l' n Hi Hnid) as (M1 & M2 & M3 & M4); [rewrite Hla; auto|auto|].
      split; [lia|split; [auto|split; [lra|]]].
      intros j x Ej; assert (Hj : (j < List.length l0)%nat) by (apply nth_error_Some; congruence).
      destruct (Nat.eq_dec j i) as [->|Hne].
      - rewrite E0 in Ej; injection Ej as <-; eexists; split; [exact M4|].
        split.
        { unfold same_but_htc; simpl; repeat (split; [auto|]); intros k Hk; apply alookup_add_neighbor; lia. }
        split; [lia|split; [|auto]].
        intros Hnr; exfalso; apply Hnr; exists t; auto.
      - destruct (Hn j x Ej) as (n' & E' & S1 & S2 & S3 & S4); exists n'.
        rewrite M3, Hla by auto; split; [auto|split; [auto|]].
        split; [intros; apply S2; lia|split; [auto|]]; intros; apply S4; auto; lia. }
    destruct (alookup Nat.eqb (bucket minT range t) m) as [nid|] eqn:El.
    - cbv zeta; destruct (run minR l _) as [l'| | |] eqn:Erun; simpl; try discriminate; intros [= <-].
      apply (Hmove l l' nid m); eauto; reflexivity.
    - cbv zeta; destruct (List.length l <? cap)%nat; [|discriminate].
      set (nid := List.length l) in *.
      change [AppendNode None; SetC nid fakeC; SetR nid i fakeR; AddHTC nid (n_htc n); SetHTC i 0]
        with ([AppendNode None] ++ [SetC nid fakeC; SetR nid i fakeR; AddHTC nid (n_htc n); SetHTC i 0]).
      set (la := l ++ [with_t None node0]).
      rewrite run_app; change (run minR l [AppendNode None]) with (Ok la); unfold bind at 2.
      destruct (run minR la _) as [l'| | |] eqn:Erun; simpl; try discriminate; intros [= <-].
      apply (Hmove la l' nid); auto.
      + unfold la; rewrite app_length; simpl; lia.
      + unfold total_htc, la; rewrite sumf_app; simpl; lra.
      + intros j Hj; unfold la; rewrite nth_error_app1; auto; lia.
      + intros id' nid'; rewrite alookup_app; simpl.
        destruct (alookup Nat.eqb id' m) eqn:Em; [intros [= <-]; eauto|].
        destruct (id' =? bucket minT range t)%nat; [intros [= <-]; auto|discriminate].
  Qed.

  Lemma loop_inv cap minT maxT range l0 k i st st' : (i + k <= List.length l0)%nat ->
    inv minT maxT l0 i st -> reduce_loop cap minT maxT range (seq i k) st = Ok st' -> inv minT maxT l0 (i + k) st'.
  Proof.
    revert i st; induction k as [|k IH]; intros i st Hk Hinv; simpl.
    - intros [= <-]; rewrite Nat.add_0_r; auto.
    - destruct (reduce_step cap minT maxT range i st) as [st1| | |] eqn:E; simpl; try discriminate.
      intros H; rewrite Nat.add_succ_r; apply (IH (Datatypes.S i) st1); auto; [lia|].
      eapply step_inv; eauto; lia.
  Qed.

  (** Proved: whenever the call is defined, the total coefficient to ambient is conserved, exactly the
      nodes whose temperature lies in the range lose their own coefficient, and of every original
      node the scenario, temperature, capacity, heat flow and resistors to original nodes are
      untouched.  Missing: the same conductance to ambient for each single node, which is false
      ([C59_per_node_conductance_refuted]). *)
  Theorem C59_total_htc_and_frame_partial cap minT maxT d l l' : reduce cap minT maxT d l = Ok l' ->
    total_htc l' == total_htc l /\
    (List.length l <= List.length l')%nat /\
    forall i n, nth_error l i = Some n -> exists n', nth_error l' i = Some n' /\
      same_but_htc (List.length l) n n' /\
      (temp_in_range minT maxT n -> n_htc n' = 0) /\
      (~ temp_in_range minT maxT n -> n_htc n' = n_htc n).
  Proof.
    unfold ThermalNetwork_Model.reduce; destruct (Qeqb _ 0); [discriminate|].
    destruct (reduce_loop cap minT maxT _ (seq 0 (List.length l)) (l, [])) as [[lf mf]| | |] eqn:E; simpl; try discriminate.
    intros [= <-].
    assert (I0 : inv minT maxT l 0 (l, [])).
    { split; [auto|split; [discriminate|split; [reflexivity|]]].
      intros i n Hn; exists n; split; [auto|split; [unfold same_but_htc; auto 6|]].
      split; [auto|split; [auto|lia]]. }
    apply loop_inv with (l0 := l) in E; [|simpl; lia|exact I0].
    destruct E as (H1 & _ & H2 & H3); split; [auto|split; [auto|]].
    intros i n Hn; destruct (H3 i n Hn) as (n' & E' & S1 & S2 & S3 & S4); exists n'.
    split; [auto|split; [auto|split; [|auto]]].
    apply S4; simpl; apply nth_error_Some; congruence.
  Qed.

  (** A full node vector (for instance the one a network is constructed with): as soon as some node
      is in range, the node vector is reallocated under the reference the loop still reads. *)
  Theorem C59_full_vector_is_ub minT maxT d (l : network) : minT < maxT -> (0 < d)%nat ->
    (exists n, In n l /\ temp_in_range minT maxT n) ->
    reduce (List.length l) minT maxT d l = UB.
  Proof.
    intros Hlt Hd (n & Hin & Hr); unfold ThermalNetwork_Model.reduce.
    set (range := (maxT - minT) / inject_Z (Z.of_nat d)).
    assert (Hrange : Qeqb range 0 = false).
    { unfold Qeqb; apply not_true_iff_false; rewrite Qeq_bool_iff; intros H.
      assert (Hd' : 0 < inject_Z (Z.of_nat d)).
      { replace 0 with (inject_Z 0) by reflexivity; rewrite <- Zlt_Qlt; lia. }
      unfold range, Qdiv in H; apply Qmult_integral in H as [H|H]; [lra|].
      pose proof (Qinv_lt_0_compat _ Hd'); lra. }
    rewrite Hrange.
    apply In_nth_error in Hin as (i & Hi).
    assert (G : forall k i0, (i0 <= i)%nat -> (i < i0 + k)%nat -> (forall j, (j < i0)%nat -> True) ->
              reduce_loop (List.length l) minT maxT range (seq i0 k) (l, []) = UB).
    { induction k as [|k IH]; intros i0 H1 H2 _; [lia|].
      cbn [seq ThermalNetwork_Model.reduce_loop].
      unfold ThermalNetwork_Model.reduce_step at 1.
      destruct (nth_error l i0) as [x|] eqn:Ex; [|reflexivity].
      destruct (n_t x) as [t|] eqn:Et.
      - destruct (Qltb t minT || Qltb maxT t)%bool eqn:Er.
        + destruct (Nat.eq_dec i0 i) as [->|].
          * rewrite Hi in Ex; injection Ex as ->; destruct Hr as (t' & Ht & Hr); rewrite Et in Ht; injection Ht as <-.
            apply (proj2 (range_dec _ _ _)) in Hr; congruence.
          * cbn [bind]; apply IH; auto; lia.
        + cbn [alookup]; cbv zeta; rewrite Nat.ltb_irrefl; reflexivity.
      - destruct (Nat.eq_dec i0 i) as [->|].
        + rewrite Hi in Ex; injection Ex as ->; destruct Hr as (t' & Ht & _); congruence.
        + cbn [bind]; apply IH; auto; lia. }
    rewrite G with (k := List.length l) (i0 := 0%nat); auto; [lia|].
    simpl; apply nth_error_Some; congruence.
  Qed.
End Reduce.

(** One node with coefficient 1 to ambient; afterwards it reaches ambient only through the added
    resistor of 0.01 in series with the shared coefficient. *)
Theorem C59_per_node_conductance_refuted :
  exists l l' n b r, reduce (1#1000000) (1#100) (1#100) 4 20 30 10 l = Ok l' /\
    l = [n] /\ n_htc n == 1 /\
    l' = [with_htc 0 (with_ns [(1%nat, r)] n); b] /\
    ~ 1 / (r + 1 / n_htc b) == n_htc n.
Proof.
  exists [mkNode None (Some 25) 0 0 1 []]; do 4 eexists.
  split; [vm_compute; reflexivity|split; [reflexivity|split; [reflexivity|split; [reflexivity|]]]].
  vm_compute; discriminate.
Qed.

(** Two nodes of one bucket, and one outside the range, with room for the new node. *)
Example demo_reduce : exists l',
  reduce (1#1000000) (1#100) (1#100) 8 20 30 10
    [mkNode None (Some 25) 1 2 3 [(1%nat, 5)]; mkNode None (Some (51#2)) 1 0 4 []; mkNode None (Some 40) 1 0 7 []] = Ok l' /\
  List.length l' = 4%nat /\ total_htc l' == 14 /\ map n_htc l' = [0; 0; 7; 0 + 3 + 4].
Proof. eexists; split; [vm_compute; reflexivity|]; vm_compute; auto. Qed.

Print Assumptions C59_total_htc_and_frame_partial.
Print Assumptions C59_full_vector_is_ub.
Print Assumptions C59_per_node_conductance_refuted.
