(** C27, C28, C29: assembly of the thermal network system. *)
From Coq Require Import Qabs.
From Verif Require Import Base QSum ThermalNetwork_Model ThermalNetwork_Spec ThermalNetwork_Proofs.

Lemma make_mna_ok l bonds ps m : make_mna l bonds ps = Ok m ->
  m = mkMna (tG_from 0 l) (tC_from 0 l) (tB_from bonds 0 0 l) (tL (List.length l) ps) /\
  in_bounds (List.length l) (List.length l) (tG_from 0 l) = true /\
  in_bounds (List.length l) (source_count bonds l) (tB_from bonds 0 0 l) = true.
Proof.
  unfold make_mna; simpl.
  destruct (in_bounds _ _ (tG_from 0 l)), (in_bounds _ _ (tC_from 0 l)), (in_bounds _ _ (tB_from bonds 0 0 l)); simpl; try discriminate.
  destruct (forallb _ ps); simpl; intros [= <-]; auto.
Qed.

Section Network.
  Context (minR : Q) (HminR : 0 < minR).

  (** Every network obtained by the public mutators from a fresh one. *)
  Definition reachable (l : network) : Prop := exists n0 os, run minR (net_new n0) os = Ok l.

  Lemma reachable_wf l : reachable l -> net_wf l.
  Proof. intros (n0 & os & H); eapply run_wf; eauto using net_new_wf. Qed.

  (** ** C27 *)
  Theorem C27_g_symmetric l bonds ps m : reachable l -> make_mna l bonds ps = Ok m ->
    forall i j, (i < List.length l)%nat -> (j < List.length l)%nat ->
    entry (m_G m) i j == entry (m_G m) j i.
  Proof.
    intros _ H i j Hi Hj; apply make_mna_ok in H as (-> & _); cbn [m_G].
    rewrite !G_entry by auto; rewrite (Nat.eqb_sym j i).
    rewrite (esum_ext (wstamp i j) (wstamp j i)).
    - destruct (Nat.eqb_spec i j); subst; reflexivity.
    - intros a b g _; unfold wstamp.
      destruct (a =? i)%nat, (a =? j)%nat, (b =? i)%nat, (b =? j)%nat; simpl; reflexivity.
  Qed.

  Theorem C27_g_offdiagonal_nonpositive l bonds ps m : reachable l -> make_mna l bonds ps = Ok m ->
    forall i j, (i < List.length l)%nat -> (j < List.length l)%nat -> i <> j -> entry (m_G m) i j <= 0.
  Proof.
    intros Hr H i j Hi Hj Hne; apply make_mna_ok in H as (-> & _); cbn [m_G].
    rewrite G_entry by auto; apply Nat.eqb_neq in Hne as Hne'; rewrite Hne'.
    assert (0 <= - esum (wstamp i j) l); [|lra].
    unfold esum; rewrite <- sumf_opp; apply sumf_nonneg; intros [[a b] g] Hin.
    destruct (edges_pos l (reachable_wf l Hr) _ _ _ Hin) as [Hg _].
    unfold wstamp; destruct (Nat.eqb_spec a i), (Nat.eqb_spec a j), (Nat.eqb_spec b i), (Nat.eqb_spec b j); simpl; subst;
      try tauto; lra.
  Qed.

  Theorem C27_g_row_sum_is_htc l bonds ps m : make_mna l bonds ps = Ok m ->
    forall i, (i < List.length l)%nat -> row_sum (List.length l) (entry (m_G m)) i == get_htc l i.
  Proof.
    intros H i Hi; apply make_mna_ok in H as (-> & Hb & _); cbn [m_G].
    pose proof (G_mulv l (fun _ => 1) i Hb Hi) as E; unfold mulv in E; unfold row_sum.
    rewrite (sumf_ext _ (fun j => entry (tG_from 0 l) i j * 1)) by (intros; ring); rewrite E.
    rewrite esum_zero by (intros; ring); ring.
  Qed.

  (** diagonal dominance, strict at nodes with a positive coefficient *)
  Theorem C27_g_diagonally_dominant l bonds ps m : reachable l -> make_mna l bonds ps = Ok m ->
    forall i, (i < List.length l)%nat -> 0 <= get_htc l i ->
    let off := sumf (fun j => if (j =? i)%nat then 0 else Qabs (entry (m_G m) i j)) (seq 0 (List.length l)) in
    off <= entry (m_G m) i i /\ (0 < get_htc l i -> off < entry (m_G m) i i).
  Proof.
    intros Hr H i Hi Hh off.
    pose proof (C27_g_row_sum_is_htc l bonds ps m H i Hi) as Hs; unfold row_sum in Hs.
    rewrite (sumf_split_at _ i) in Hs by auto.
    assert (E : off == - sumf (fun j => if (j =? i)%nat then 0 else entry (m_G m) i j) (seq 0 (List.length l))).
    { unfold off; rewrite <- sumf_opp; apply sumf_ext; intros j Hj; apply in_seq in Hj.
      destruct (Nat.eqb_spec j i) as [->|Hne]; [lra|].
      rewrite Qabs_neg; [reflexivity|].
      apply (C27_g_offdiagonal_nonpositive l bonds ps m); auto; lia. }
    split; [|intros]; rewrite E; lra.
  Qed.

  (** At a steady state the heat leaving through the boundary is the total injected power. *)
  Theorem C27_energy_balance l bonds ps m refT T : make_mna l bonds ps = Ok m ->
    steady (List.length l) (entry (m_G m)) (fun i => nth i (make_full_rhs l refT) 0) T ->
    sumf (fun i => get_htc l i * (T i - refT)) (seq 0 (List.length l)) == total_hf l.
  Proof.
    intros H Hs; apply make_mna_ok in H as (-> & Hb & _); cbn [m_G] in Hs.
    pose proof (G_form l T (fun _ => 1) Hb) as E; cbv zeta in E.
    rewrite esum_zero in E by (intros; ring).
    assert (Hfull : forall i, (i < List.length l)%nat -> nth i (make_full_rhs l refT) 0 == get_hf l i + get_htc l i * refT).
    { intros i Hi; unfold make_full_rhs, get_hf, get_htc.
      rewrite (nth_indep _ 0 ((fun n => n_hf n + n_htc n * refT) node0)) by (rewrite map_length; auto).
      rewrite (map_nth (fun n => n_hf n + n_htc n * refT)); reflexivity. }
    rewrite (sumf_ext _ (fun i => get_hf l i + get_htc l i * refT)) in E.
    2:{ intros i Hi; apply in_seq in Hi; rewrite (Hs i) by lia; rewrite Hfull by lia; ring. }
    rewrite sumf_plus in E.
    assert (Et : total_hf l == sumf (fun i => get_hf l i) (seq 0 (List.length l))).
    { unfold total_hf, get_hf; clear.
      assert (G : forall a, fold_left (fun a n => a + n_hf n) l a == a + sumf (fun i => n_hf (nth i l node0)) (seq 0 (List.length l))).
      { induction l as [|n l IH]; intros a; [simpl; lra|].
        cbn [fold_left List.length seq sumf]; rewrite IH, sumf_seq_shift; cbn [nth].
        lra. }
      rewrite G; lra. }
    rewrite Et.
    rewrite (sumf_ext _ (fun i => get_htc l i * T i + - (get_htc l i * refT))) by (intros; ring).
    rewrite sumf_plus, sumf_opp.
    rewrite (sumf_ext (fun i => get_htc l i * T i * 1) (fun i => get_htc l i * T i)) in E by (intros; ring).
    change (sumf (fun i => get_hf l i)) with (sumf (get_hf l)); lra.
  Qed.

  Lemma edge_of_entry l i j : (i < List.length l)%nat -> i <> j -> ~ entry (tG_from 0 l) i j == 0 ->
    exists a b g, In (a, b, g) (edges_from 0 l) /\ (a = i /\ b = j \/ a = j /\ b = i).
  Proof.
    intros Hi Hne H; rewrite G_entry in H by auto; apply Nat.eqb_neq in Hne as Hne'; rewrite Hne' in H.
    destruct (existsb (fun '(a, b, g) => ((a =? i) && (b =? j) || (a =? j) && (b =? i))%nat%bool) (edges_from 0 l)) eqn:E.
    - apply existsb_exists in E as ([[a b] g] & Hin & E).
      apply orb_true_iff in E as [E|E]; apply andb_true_iff in E as [E1 E2];
        apply Nat.eqb_eq in E1; apply Nat.eqb_eq in E2; subst; eauto 10.
    - exfalso; apply H; rewrite esum_zero; [lra|].
      intros a b g Hin.
      assert (E' : ((a =? i) && (b =? j) || (a =? j) && (b =? i))%nat%bool = false).
      { apply not_true_iff_false; intros E'; apply not_true_iff_false in E; apply E.
        apply existsb_exists; exists (a, b, g); auto. }
      unfold wstamp; destruct (Nat.eqb_spec a i), (Nat.eqb_spec a j), (Nat.eqb_spec b i), (Nat.eqb_spec b j);
        simpl in *; subst; try congruence; try tauto; lra.
  Qed.

  (** When every node reaches the ambient, the steady state is unique. *)
  Theorem C27_steady_state_unique l bonds ps m rhs T T' : reachable l -> make_mna l bonds ps = Ok m ->
    (forall i, (i < List.length l)%nat -> 0 <= get_htc l i) ->
    (forall i, (i < List.length l)%nat -> grounded (List.length l) (entry (m_G m)) (get_htc l) i) ->
    steady (List.length l) (entry (m_G m)) rhs T -> steady (List.length l) (entry (m_G m)) rhs T' ->
    forall i, (i < List.length l)%nat -> T i == T' i.
  Proof.
    intros Hr H Hh Hg H1 H2; apply make_mna_ok in H as (-> & Hb & _); cbn [m_G] in *.
    set (x := fun i => T i - T' i).
    assert (Hx : forall i, (i < List.length l)%nat -> mulv (List.length l) (entry (tG_from 0 l)) x i == 0).
    { intros i Hi; specialize (H1 i Hi); specialize (H2 i Hi); unfold mulv, x in *.
      rewrite (sumf_ext _ (fun j => entry (tG_from 0 l) i j * T j + - (entry (tG_from 0 l) i j * T' j))) by (intros; ring).
      rewrite sumf_plus, sumf_opp; lra. }
    pose proof (G_form l x x Hb) as E; cbv zeta in E.
    rewrite sumf_zero in E by (intros i Hi; apply in_seq in Hi; rewrite Hx by lia; ring).
    pose proof (edges_pos l (reachable_wf l Hr)) as Hpos.
    assert (N1 : forall e, In e (edges_from 0 l) -> 0 <= (fun '(a, b, g) => (x a - x b) * (x a - x b) * g) e).
    { intros [[a b] g] Hin; destruct (Hpos _ _ _ Hin) as [Hgp _]; pose proof (Qsq_nonneg (x a - x b)); nra. }
    assert (N2 : forall i, In i (seq 0 (List.length l)) -> 0 <= get_htc l i * x i * x i).
    { intros i Hi; apply in_seq in Hi; specialize (Hh i ltac:(lia)); pose proof (Qsq_nonneg (x i)); nra. }
    assert (S1 := sumf_nonneg _ _ N1); assert (S2 := sumf_nonneg _ _ N2); unfold esum in E; cbv beta in E, S1, S2.
    assert (Z1 : forall a b g, In (a, b, g) (edges_from 0 l) -> x a == x b).
    { intros a b g Hin; destruct (Hpos _ _ _ Hin) as [Hgp _].
      assert (Z := sumf_zero_inv _ _ N1 ltac:(lra) _ Hin); cbv beta iota in Z.
      assert (x a - x b == 0) by (apply (Qmult_zero_sq g); auto; rewrite <- Z; ring); lra. }
    assert (Z2 : forall i, (i < List.length l)%nat -> 0 < get_htc l i -> x i == 0).
    { intros i Hi Hp; assert (Z := sumf_zero_inv _ _ N2 ltac:(lra) i ltac:(apply in_seq; lia)).
      apply (Qmult_zero_sq (get_htc l i)); auto; rewrite <- Z; ring. }
    assert (Z3 : forall i, grounded (List.length l) (entry (tG_from 0 l)) (get_htc l) i -> x i == 0).
    { induction 1 as [i Hi Hp|i j Hi Hj Hne He Hgj IH]; [auto|].
      apply edge_of_entry in He as (a & b & g & Hin & [[-> ->]|[-> ->]]); auto; apply Z1 in Hin; lra. }
    intros i Hi; specialize (Z3 i (Hg i Hi)); unfold x in Z3; lra.
  Qed.

  (** Without cooling sources no node is colder than the ambient. *)
  Theorem C27_no_node_below_ambient l bonds ps m refT T : reachable l -> make_mna l bonds ps = Ok m ->
    (forall i, (i < List.length l)%nat -> 0 <= get_htc l i /\ 0 <= get_hf l i) ->
    (forall i, (i < List.length l)%nat -> grounded (List.length l) (entry (m_G m)) (get_htc l) i) ->
    steady (List.length l) (entry (m_G m)) (fun i => get_hf l i + get_htc l i * refT) T ->
    forall i, (i < List.length l)%nat -> refT <= T i.
  Proof.
    intros Hr H Hh Hg Hs; apply make_mna_ok in H as (-> & Hb & _); cbn [m_G] in *.
    intros i0 Hi0; destruct (argmin T (List.length l)) as (k & Hk & Hmin); [lia|].
    destruct (Qlt_le_dec (T k) refT) as [Hcold|Hok]; [|specialize (Hmin i0 Hi0); lra].
    exfalso; clear i0 Hi0.
    pose proof (edges_pos l (reachable_wf l Hr)) as Hpos.
    assert (Hrow : forall i, (i < List.length l)%nat -> T i == T k ->
              get_htc l i == 0 /\ forall a b g, In (a, b, g) (edges_from 0 l) -> a = i \/ b = i -> T a == T b).
    { intros i Hi HT; specialize (Hs i Hi); rewrite G_mulv in Hs by auto; destruct (Hh i Hi) as [Hh1 Hh2].
      assert (N : forall e, In e (edges_from 0 l) -> 0 <= (fun '(a, b, g) => - ((ind (a =? i)%nat - ind (b =? i)%nat) * (T a - T b) * g)) e).
      { intros [[a b] g] Hin; destruct (Hpos _ _ _ Hin) as [Hgp _]; destruct (edges_in_bounds l Hb _ _ _ Hin) as [Ha Hb'].
        pose proof (Hmin a Ha); pose proof (Hmin b Hb').
        unfold ind; destruct (Nat.eqb_spec a i) as [->|], (Nat.eqb_spec b i) as [->|]; nra. }
      assert (S1 := sumf_nonneg _ _ N).
      assert (S2 : sumf (fun '(a, b, g) => - ((ind (a =? i)%nat - ind (b =? i)%nat) * (T a - T b) * g)) (edges_from 0 l)
                   == - esum (fun a b => (ind (a =? i)%nat - ind (b =? i)%nat) * (T a - T b)) l).
      { unfold esum; rewrite <- sumf_opp; apply sumf_ext; intros [[a b] g] _; reflexivity. }
      assert (Hneg : get_htc l i * (T i - refT) <= 0) by nra.
      assert (S3 : sumf (fun '(a, b, g) => - ((ind (a =? i)%nat - ind (b =? i)%nat) * (T a - T b) * g)) (edges_from 0 l) == 0) by lra.
      split.
      - assert (Z : get_htc l i * (T i - refT) == 0) by lra.
        apply Qmult_integral in Z as [Z|Z]; [auto|lra].
      - intros a b g Hin Hab; assert (Z := sumf_zero_inv _ _ N S3 _ Hin); cbv beta iota in Z.
        destruct (Hpos _ _ _ Hin) as [Hgp _].
        unfold ind in Z; destruct (Nat.eqb_spec a i) as [Ea|], (Nat.eqb_spec b i) as [Eb|].
        + subst; reflexivity.
        + assert (Z' : (T a - T b) * g == 0) by lra; apply Qmult_integral in Z' as [Z'|Z']; lra.
        + assert (Z' : (T a - T b) * g == 0) by lra; apply Qmult_integral in Z' as [Z'|Z']; lra.
        + tauto. }
    assert (Hno : forall i, grounded (List.length l) (entry (tG_from 0 l)) (get_htc l) i -> ~ T i == T k).
    { induction 1 as [i Hi Hp|i j Hi Hj Hne He Hgj IH]; intros HT.
      - destruct (Hrow i Hi HT) as [Z _]; lra.
      - destruct (Hrow i Hi HT) as [_ Z].
        apply edge_of_entry in He as (a & b & g & Hin & [[-> ->]|[-> ->]]); auto;
          apply Z in Hin; auto; apply IH; lra. }
    apply (Hno k); auto; reflexivity.
  Qed.

  (** The assembly is defined whenever the ends of every resistor are nodes of the network. *)
  Theorem C27_assembly_defined n0 os l bonds ps : run minR (net_new n0) os = Ok l ->
    Forall (ends_below (List.length l)) os -> Forall (fun p => (p < List.length l)%nat) ps ->
    exists m, make_mna l bonds ps = Ok m.
  Proof.
    intros Hrun Hends Hps.
    assert (Hwf : net_wf l) by (eapply run_wf; eauto using net_new_wf).
    set (w := fun a b => if ((a <? List.length l) && (b <? List.length l))%nat%bool then 0 else 1).
    assert (Hw : esum w l == 0).
    { rewrite (run_esum minR HminR w os _ _ Hrun) by apply net_new_wf.
      unfold esum at 1; rewrite edges_new; simpl; rewrite sumf_zero; [lra|].
      intros o Ho; rewrite Forall_forall in Hends; specialize (Hends o Ho); destruct o; simpl in *; try lra.
      unfold w; destruct (Nat.ltb_spec (Nat.min a b) (List.length l)), (Nat.ltb_spec (Nat.max a b) (List.length l)); try lia.
      simpl; ring. }
    assert (Hedges : forall a b g, In (a, b, g) (edges_from 0 l) -> (a < List.length l)%nat /\ (b < List.length l)%nat).
    { intros a b g Hin; destruct (edges_pos l Hwf _ _ _ Hin) as [Hg _].
      assert (Z : w a b * g == 0).
      { apply (sumf_zero_inv (fun '(a, b, g) => w a b * g) (edges_from 0 l)) with (a := (a, b, g)); auto.
        intros [[a' b'] g'] Hin'; destruct (edges_pos l Hwf _ _ _ Hin') as [Hg' _]; unfold w; destruct (_ && _)%bool; lra. }
      cbv beta iota in Z; unfold w in Z.
      destruct (Nat.ltb_spec a (List.length l)), (Nat.ltb_spec b (List.length l)); auto; simpl in Z; lra. }
    assert (HG : in_bounds (List.length l) (List.length l) (tG_from 0 l) = true).
    { apply in_bounds_spec; apply (tG_bounds _ 0 l); auto. }
    assert (HC : in_bounds (List.length l) (List.length l) (tC_from 0 l) = true).
    { apply in_bounds_spec; apply (tC_bounds _ 0 l); auto. }
    assert (HB : in_bounds (List.length l) (source_count bonds l) (tB_from bonds 0 0 l) = true).
    { apply in_bounds_spec; apply (tB_bounds bonds _ _ 0 0 l); auto. }
    unfold make_mna; cbn [m_G m_C m_B]; rewrite HG, HC, HB; cbn [andb negb].
    assert (HP : forallb (fun p => (p <? List.length l)%nat) ps = true).
    { apply forallb_forall; intros p Hp; rewrite Forall_forall in Hps; apply Nat.ltb_lt; auto. }
    rewrite HP; cbn [negb]; eauto.
  Qed.

  (** The transient solver's matrices are the steady-state ones: minus G, and the reciprocal of C. *)
  Theorem C27_transient_matrices l i j : (i < List.length l)%nat ->
    entry (tNegG_from 0 l) i j == - entry (tG_from 0 l) i j /\
    (0 < get_c l i -> entry (tInvC_from 0 l) i i * entry (tC_from 0 l) i i == 1).
  Proof.
    intros Hi; split.
    - clear Hi; generalize 0%nat as k; induction l as [|n l IH]; intros k; [reflexivity|].
      cbn [tNegG_from tG_from]; unfold entry in *; rewrite !sumf_app, IH.
      assert (E : sumf (fun '(a, b, v) => if ((a =? i) && (b =? j))%nat%bool then v else 0) (tNegG_node k n)
                == - sumf (fun '(a, b, v) => if ((a =? i) && (b =? j))%nat%bool then v else 0) (tG_node k n)); [|lra].
      unfold tNegG_node, tG_node; rewrite !sumf_app, !sumf_flat_map.
      rewrite (sumf_ext _ (fun e => - sumf (fun '(a, b, v) => if ((a =? i) && (b =? j))%nat%bool then v else 0) (stamp2 k (fst e) (1 / snd e)))).
      + rewrite sumf_opp; destruct (negb _); simpl; [destruct (_ && _)%bool|]; lra.
      + intros [x r] _; simpl.
        destruct (k =? i)%nat, (k =? j)%nat, (x =? i)%nat, (x =? j)%nat; simpl; ring.
    - unfold get_c; intros Hc.
      assert (G : forall (h : Q -> Q) (tr : nat -> network -> list triplet),
        (forall k, tr k [] = []) ->
        (forall k n l, tr k (n :: l) = (if Qltb 0 (n_c n) then stamp1 k (h (n_c n)) else []) ++ tr (Datatypes.S k) l) ->
        forall l k i, (i < List.length l)%nat -> 0 < n_c (nth i l node0) ->
        entry (tr k l) (k + i) (k + i) == h (n_c (nth i l node0)) /\ forall q, (q < k)%nat -> entry (tr k l) q q == 0).
      { clear; intros h tr H0 H1 l; induction l as [|n l IH]; intros k i Hi Hc; [simpl in Hi; lia|].
        rewrite H1; unfold entry in *; rewrite sumf_app.
        assert (Hlow : forall l k q, (q < k)%nat -> sumf (fun '(a, b, v) => if ((a =? q) && (b =? q))%nat%bool then v else 0) (tr k l) == 0).
        { clear - H0 H1; induction l as [|n l IH]; intros k q Hq; [rewrite H0; reflexivity|].
          rewrite H1, sumf_app, IH by lia; destruct (Qltb _ _); simpl; [|lra].
          destruct (Nat.eqb_spec k q); [lia|]; simpl; lra. }
        split.
        2:{ intros q Hq; rewrite sumf_app, Hlow by lia; destruct (Qltb _ _); simpl; [|lra].
            destruct (Nat.eqb_spec k q); [lia|]; simpl; lra. }
        destruct i as [|i].
        - simpl in Hc; assert (E : Qltb 0 (n_c n) = true).
          { unfold Qltb; apply negb_true_iff, not_true_iff_false; rewrite Qle_bool_iff; lra. }
          rewrite E, Nat.add_0_r, Hlow by lia; simpl; rewrite Nat.eqb_refl; simpl; lra.
        - simpl in Hi, Hc; destruct (IH (Datatypes.S k) i ltac:(lia) Hc) as [E _].
          rewrite Nat.add_succ_r; simpl in E; rewrite E; cbn [nth].
          destruct (Qltb _ _); simpl; [|lra].
          destruct (Nat.eqb_spec k (Datatypes.S (k + i))); [lia|]; simpl; lra. }
      pose proof (proj1 (G (fun c => c) tC_from (fun _ => eq_refl) (fun _ _ _ => eq_refl) l 0%nat i Hi Hc)) as E1.
      pose proof (proj1 (G (fun c => 1 / c) tInvC_from (fun _ => eq_refl) (fun _ _ _ => eq_refl) l 0%nat i Hi Hc)) as E2.
      simpl in E1, E2; rewrite E1, E2; field; lra.
  Qed.

  (** ** C28 *)
  Theorem C28_pair_conductance n0 os l bonds ps m : run minR (net_new n0) os = Ok l -> make_mna l bonds ps = Ok m ->
    forall a b, (a < List.length l)%nat -> (b < List.length l)%nat -> a <> b ->
    - entry (m_G m) a b == sumf (call_conductance minR a b) os.
  Proof.
    intros Hrun H a b Ha Hb Hne; apply make_mna_ok in H as (-> & _); cbn [m_G].
    rewrite G_entry by auto; apply Nat.eqb_neq in Hne as Hne'; rewrite Hne'.
    rewrite (run_esum minR HminR _ os _ _ Hrun) by apply net_new_wf.
    unfold esum; rewrite edges_new; cbn [sumf].
    assert (E : sumf (op_weight minR (wstamp a b)) os == - sumf (call_conductance minR a b) os); [|lra].
    rewrite <- sumf_opp; apply sumf_ext; intros o _; destruct o; simpl; try lra.
    unfold wstamp.
    assert (Hmm : (Nat.min a0 b0 = a0 /\ Nat.max a0 b0 = b0) \/ (Nat.min a0 b0 = b0 /\ Nat.max a0 b0 = a0)) by lia.
    destruct Hmm as [[-> ->]|[-> ->]];
      destruct (Nat.eqb_spec a0 a), (Nat.eqb_spec b0 b), (Nat.eqb_spec a0 b), (Nat.eqb_spec b0 a);
      subst; simpl; try tauto; try ring.
  Qed.

  Definition set_rs (rs : list (nat * nat * Q)) : list op := map (fun '(a, b, r) => SetR a b r) rs.

  Lemma set_rs_scalars rs l l' : run minR l (set_rs rs) = Ok l' -> same_scalars l l'.
  Proof.
    revert l; induction rs as [|[[a b] r] rs IH]; intros l; simpl; [now intros [= <-]|].
    destruct (set_r minR a b r l) as [l1| | |] eqn:E; simpl; try discriminate; intros H.
    apply set_r_scalars in E; apply IH in H; unfold same_scalars in *; congruence.
  Qed.

  (** Any permutation of a batch of resistors, applied to any reachable network, is accepted and
      gives the same matrix and the same node data. *)
  Theorem C28_resistor_order_irrelevant l0 rs rs' l1 : reachable l0 -> Permutation rs rs' ->
    run minR l0 (set_rs rs) = Ok l1 ->
    exists l2, run minR l0 (set_rs rs') = Ok l2 /\
      same_scalars l1 l2 /\
      forall i j, (i < List.length l0)%nat -> entry (tG_from 0 l1) i j == entry (tG_from 0 l2) i j.
  Proof.
    intros Hr Hp H1.
    assert (Hdef : forall rs l, (exists l', run minR l (set_rs rs) = Ok l') <->
              Forall (fun '(a, b, _) => (Nat.min a b < List.length l)%nat) rs).
    { clear; induction rs as [|[[a b] r] rs IH]; intros l; simpl; [split; eauto|].
      rewrite Forall_cons_iff; split.
      - intros (l' & H); destruct (set_r minR a b r l) as [l1| | |] eqn:E; simpl in H; try discriminate.
        apply set_r_ok in E as [-> Hlt]; split; auto.
        assert (Hx := proj1 (IH _) (ex_intro _ _ H)); rewrite upd_length in Hx; exact Hx.
      - intros [Hlt Hx].
        assert (E : exists l1, set_r minR a b r l = Ok l1).
        { unfold set_r, at_node; destruct (Nat.ltb_spec b a) as [Hba|Hba].
          - destruct (Nat.ltb_spec b (List.length l)); [eauto|lia].
          - destruct (Nat.ltb_spec a (List.length l)); [eauto|lia]. }
        destruct E as [l1 E]; rewrite E; simpl; apply IH.
        apply set_r_ok in E as [-> _]; rewrite upd_length; exact Hx. }
    assert (Hf : Forall (fun '(a, b, _) => (Nat.min a b < List.length l0)%nat) rs') .
    { eapply Permutation_Forall; [exact Hp|]; apply Hdef; eauto. }
    apply Hdef in Hf as [l2 H2]; exists l2; split; auto.
    pose proof (set_rs_scalars _ _ _ H1) as S1; pose proof (set_rs_scalars _ _ _ H2) as S2.
    split; [unfold same_scalars in *; congruence|].
    intros i j Hi.
    destruct (scalars_htc l0 l1 i S1) as (E1 & _ & L1); destruct (scalars_htc l0 l2 i S2) as (E2 & _ & L2).
    rewrite !G_entry by congruence; rewrite E1, E2.
    rewrite (run_esum minR HminR _ _ _ _ H1) by (now apply reachable_wf).
    rewrite (run_esum minR HminR _ _ _ _ H2) by (now apply reachable_wf).
    rewrite (sumf_perm _ (set_rs rs) (set_rs rs')); [reflexivity|].
    unfold set_rs; now apply Permutation_map.
  Qed.
End Network.

(** ** C29 *)
Lemma rhs_values_length bonds refT l : List.length (rhs_values bonds refT l) = source_count bonds l.
Proof.
  unfold source_count; induction l as [|n l IH]; simpl; auto; destruct (selected bonds n); simpl; auto.
Qed.

Lemma reduced_input_length bonds refT exc l : List.length (reduced_input bonds refT exc l) = source_count bonds l.
Proof.
  unfold source_count; induction l as [|n l IH]; simpl; auto; destruct (selected bonds n); simpl; auto.
Qed.

Lemma rhs_values_reduced bonds refT l : Forall2 Qeq (rhs_values bonds refT l) (reduced_input bonds refT (fun _ => 1) l).
Proof.
  induction l as [|n l IH]; simpl; [constructor|]; destruct (selected bonds n); auto; constructor; auto; ring.
Qed.

(** scattering by B, from node [k] and column [s] on *)
Lemma scatter_low bonds k s l i x : (i < k)%nat ->
  sumf (fun '(a, b, v) => if (a =? i)%nat then v * x b else 0) (tB_from bonds k s l) == 0.
Proof.
  revert k s; induction l as [|n l IH]; intros k s Hi; simpl; [reflexivity|].
  destruct (selected bonds n); simpl; [|apply IH; lia].
  rewrite IH by lia; destruct (Nat.eqb_spec k i); [lia|lra].
Qed.

Lemma scatter bonds refT exc k s l i x :
  (forall q, (q < source_count bonds l)%nat -> x (s + q)%nat == nth q (reduced_input bonds refT exc l) 0) ->
  (i < List.length l)%nat ->
  sumf (fun '(a, b, v) => if (a =? k + i)%nat then v * x b else 0) (tB_from bonds k s l) ==
  (if selected bonds (nth i l node0)
   then n_hf (nth i l node0) * exc (n_scen (nth i l node0)) + n_htc (nth i l node0) * refT else 0).
Proof.
  unfold source_count; revert k s i; induction l as [|n l IH]; intros k s i Hx Hi; [simpl in Hi; lia|].
  cbn [tB_from]; destruct i as [|i].
  - rewrite Nat.add_0_r; cbn [nth]; destruct (selected bonds n) eqn:E.
    + cbn [sumf]; rewrite Nat.eqb_refl, scatter_low by lia.
      specialize (Hx 0%nat); cbn [filter] in Hx; rewrite E in Hx; cbn [List.length] in Hx.
      specialize (Hx ltac:(lia)); cbn [reduced_input] in Hx; rewrite E in Hx; cbn [nth] in Hx.
      rewrite Nat.add_0_r in Hx; rewrite Hx; ring.
    + apply scatter_low; lia.
  - cbn [nth]; simpl in Hi; rewrite Nat.add_succ_r; destruct (selected bonds n) eqn:E.
    + cbn [sumf]; destruct (Nat.eqb_spec k (Datatypes.S (k + i))); [lia|].
      rewrite <- (IH (Datatypes.S k) (Datatypes.S s) i).
      * simpl; lra.
      * intros q Hq; specialize (Hx (Datatypes.S q)); cbn [filter reduced_input] in Hx; rewrite E in Hx; simpl in Hx.
        rewrite Nat.add_succ_r in Hx; apply Hx; lia.
      * lia.
    + rewrite <- (IH (Datatypes.S k) s i); [simpl; lra| |lia].
      intros q Hq; specialize (Hx q); cbn [filter reduced_input] in Hx; rewrite E in Hx; apply Hx; auto.
Qed.

Lemma selected_false n bonds : selected bonds n = false -> n_hf n == 0 /\ (bonds = true -> n_htc n == 0).
Proof.
  unfold selected, Qeqb; intros H; apply orb_false_iff in H as [H1 H2].
  apply negb_false_iff in H1; apply Qeq_bool_iff in H1; split; auto.
  intros ->; simpl in H2; apply negb_false_iff in H2; now apply Qeq_bool_iff.
Qed.

Lemma full_rhs_nth l refT i : (i < List.length l)%nat ->
  nth i (make_full_rhs l refT) 0 = get_hf l i + get_htc l i * refT.
Proof.
  intros Hi; unfold make_full_rhs, get_hf, get_htc.
  rewrite (nth_indep _ 0 ((fun n => n_hf n + n_htc n * refT) node0)) by (rewrite map_length; auto).
  rewrite (map_nth (fun n => n_hf n + n_htc n * refT)); reflexivity.
Qed.

Lemma tB_mulv bonds l x i : (i < List.length l)%nat ->
  mulv (source_count bonds l) (entry (tB_from bonds 0 0 l)) x i ==
  sumf (fun '(a, b, v) => if (a =? i)%nat then v * x b else 0) (tB_from bonds 0 0 l).
Proof.
  intros Hi; apply mulv_triplets; intros a b v Hin.
  apply (tB_bounds bonds (List.length l) (source_count bonds l) 0 0 l) in Hin; [tauto|auto|auto].
Qed.

(** The source vector is always defined, has one element per column of B, and scattered by B it is
    the full right-hand side. *)
Theorem C29_sources_scatter_to_full_rhs l refT :
  exists rhs, make_rhs l true refT = Ok rhs /\ List.length rhs = source_count true l /\
  forall i, (i < List.length l)%nat ->
    mulv (source_count true l) (entry (tB_from true 0 0 l)) (fun s => nth s rhs 0) i == nth i (make_full_rhs l refT) 0.
Proof.
  exists (rhs_values true refT l); unfold make_rhs; rewrite rhs_values_length, Nat.leb_refl.
  split; [auto|split; [auto|]]; intros i Hi; rewrite tB_mulv by auto.
  rewrite (scatter true refT (fun _ => 1) 0 0 l i) by
    (auto; intros q Hq; pose proof (rhs_values_reduced true refT l) as F; simpl;
     clear - F; revert q; induction F; intros [|q]; simpl; auto; reflexivity).
  rewrite full_rhs_nth by auto; unfold get_hf, get_htc.
  destruct (selected true (nth i l node0)) eqn:E; [ring|].
  apply selected_false in E as [E1 E2]; rewrite E1, E2 by auto; ring.
Qed.

(** every triplet of B lies within [source_count] columns and every column is used once *)
Theorem C29_source_count_is_columns bonds l :
  (forall a b v, In (a, b, v) (tB_from bonds 0 0 l) -> (a < List.length l)%nat /\ (b < source_count bonds l)%nat /\ v == 1) /\
  map (fun t => snd (fst t)) (tB_from bonds 0 0 l) = seq 0 (source_count bonds l).
Proof.
  split.
  - intros a b v Hin; pose proof (tB_bounds bonds (List.length l) (source_count bonds l) 0 0 l (le_n _) (le_n _) _ _ _ Hin) as [H1 H2].
    repeat split; auto; clear - Hin; revert Hin; generalize 0%nat at 1 as k; generalize 0%nat as s.
    induction l as [|n l IH]; intros s k; simpl; [tauto|].
    destruct (selected bonds n); simpl; [intros [H|H]; [injection H as <- <- <-; reflexivity|]|intros H]; eapply IH; eauto.
  - unfold source_count; generalize 0%nat at 1 as k; generalize 0%nat as s.
    induction l as [|n l IH]; intros s k; simpl; auto.
    destruct (selected bonds n); simpl; [f_equal|]; auto.
Qed.

(** Source projection: the same columns as B without boundary sources, and the map from column to node. *)
Lemma proj_is_B k s l : fst (proj_from k s l) = tB_from false k s l /\
  snd (proj_from k s l) = map (fun t => (snd (fst t), fst (fst t))) (tB_from false k s l).
Proof.
  revert k s; induction l as [|n l IH]; intros k s; simpl; auto.
  unfold selected; simpl; rewrite orb_false_r; destruct (negb (Qeqb (n_hf n) 0)); [|apply IH].
  specialize (IH (Datatypes.S k) (Datatypes.S s)); destruct (proj_from (Datatypes.S k) (Datatypes.S s) l); simpl in *.
  destruct IH as [-> ->]; auto.
Qed.

Lemma bonds_entry k l i refT : (i < List.length l)%nat ->
  entry (bonds_from refT k l) (k + i) 0 == n_htc (nth i l node0) * refT.
Proof.
  assert (Hlow : forall l k q, (q < k)%nat -> entry (bonds_from refT k l) q 0 == 0).
  { clear; unfold entry; induction l as [|n l IH]; intros k q Hq; [reflexivity|].
    cbn [bonds_from]; rewrite sumf_app, IH by lia; destruct (negb _); simpl; [|lra].
    destruct (Nat.eqb_spec k q); [lia|]; simpl; lra. }
  revert k i; induction l as [|n l IH]; intros k i Hi; [simpl in Hi; lia|].
  cbn [bonds_from]; unfold entry in *; rewrite sumf_app; destruct i as [|i].
  - rewrite Nat.add_0_r, Hlow by lia; cbn [nth]; unfold Qeqb.
    destruct (Qeq_bool (n_htc n) 0) eqn:E; simpl.
    + apply Qeq_bool_iff in E; rewrite E; ring.
    + rewrite Nat.eqb_refl; simpl; ring.
  - simpl in Hi; rewrite Nat.add_succ_r; specialize (IH (Datatypes.S k) i ltac:(lia)); simpl in IH; rewrite IH; cbn [nth].
    destruct (negb _); simpl; [|lra]; destruct (Nat.eqb_spec k (Datatypes.S (k + i))); [lia|]; simpl; lra.
Qed.

(** The full transient solver's input (projected heat flow under an excitation plus the boundary
    column) and the reduced solver's input scattered by B are the same vector, and with a constant
    excitation both are the full right-hand side of the steady solver. *)
Definition source_scen (l : network) (m : list (nat * nat)) (s : nat) : option nat :=
  match alookup Nat.eqb s m with
  | Some i => match nth_error l i with Some n => n_scen n | None => None end
  | None => None
  end.

Lemma source_lookup k s l q : forall (pre : network), List.length pre = k ->
  (q < source_count false l)%nat ->
  let m := snd (proj_from k s l) in
  exists n, (exists i, alookup Nat.eqb (s + q)%nat m = Some (k + i)%nat /\ nth_error l i = Some n) /\
            forall refT exc, nth q (reduced_input false refT exc l) 0 = n_hf n * exc (n_scen n) + n_htc n * refT.
Proof.
  unfold source_count; revert k s q; induction l as [|n l IH]; intros k s q pre Hpre Hq; [simpl in Hq; lia|].
  cbv zeta; cbn [proj_from reduced_input filter] in *.
  assert (Esel : selected false n = negb (Qeqb (n_hf n) 0)) by (unfold selected; simpl; apply orb_false_r).
  rewrite Esel in *; destruct (negb (Qeqb (n_hf n) 0)).
  - destruct (proj_from (Datatypes.S k) (Datatypes.S s) l) as [ts m] eqn:E; cbn [snd].
    destruct q as [|q].
    + exists n; split; [exists 0%nat|]; simpl; rewrite ?Nat.add_0_r, ?Nat.eqb_refl; auto.
    + simpl in Hq; destruct (IH (Datatypes.S k) (Datatypes.S s) q (pre ++ [n])) as (n' & (i & Hi & Hn) & Hv).
      { rewrite app_length; simpl; lia. }
      { lia. }
      exists n'; split; [exists (Datatypes.S i)|intros; apply Hv].
      rewrite E in Hi; simpl in Hi; simpl; rewrite Nat.add_succ_r.
      destruct (Nat.eqb_spec (Datatypes.S (s + q)) s); [lia|].
      rewrite Hi, Nat.add_succ_r; auto.
  - destruct (IH (Datatypes.S k) s q (pre ++ [n])) as (n' & (i & Hi & Hn) & Hv); auto.
    { rewrite app_length; simpl; lia. }
    exists n'; split; [exists (Datatypes.S i)|intros; apply Hv].
    rewrite Hi, Nat.add_succ_r; auto.
Qed.

Theorem C29_transient_inputs_agree l refT (exc : option nat -> Q) i : (i < List.length l)%nat ->
  let '(P, m) := make_source_proj l in
  mulv (List.length m) (entry P) (fun s => source_hf l m s * exc (source_scen l m s)) i
    + entry (make_bonds_rhs l refT) i 0
  == mulv (source_count true l) (entry (tB_from true 0 0 l)) (fun s => nth s (reduced_input true refT exc l) 0) i.
Proof.
  intros Hi; unfold make_source_proj; destruct (proj_is_B 0 0 l) as [EP EM].
  assert (Hlook := source_lookup 0 0 l).
  destruct (proj_from 0 0 l) as [P m]; cbn [fst snd] in *; subst P.
  assert (Hlen : List.length m = source_count false l).
  { rewrite EM, map_length, <- (map_length (fun t => snd (fst t))), (proj2 (C29_source_count_is_columns false l)); apply seq_length. }
  rewrite Hlen, !tB_mulv by auto; unfold make_bonds_rhs; rewrite (bonds_entry 0 l i refT Hi).
  rewrite (scatter false 0 exc 0 0 l i); auto.
  2:{ intros q Hq; destruct (Hlook q [] eq_refl Hq) as (n & (j & Hj & Hn) & Hv); simpl in *.
      unfold source_hf, source_scen; rewrite Hj, Hn, Hv; ring. }
  rewrite (scatter true refT exc 0 0 l i); auto; [|intros; reflexivity].
  destruct (selected false (nth i l node0)) eqn:E1, (selected true (nth i l node0)) eqn:E2; try ring.
  - unfold selected in E1, E2; destruct (negb (Qeqb (n_hf (nth i l node0)) 0)); simpl in *; congruence.
  - apply selected_false in E1 as [-> _]; ring.
  - apply selected_false in E2 as [_ E]; rewrite E by auto; ring.
Qed.

Theorem C29_projection_plus_boundary_is_full_rhs l refT i : (i < List.length l)%nat ->
  let '(P, m) := make_source_proj l in
  mulv (List.length m) (entry P) (source_hf l m) i + entry (make_bonds_rhs l refT) i 0
  == nth i (make_full_rhs l refT) 0.
Proof.
  intros Hi; pose proof (C29_transient_inputs_agree l refT (fun _ => 1) i Hi) as H.
  destruct (make_source_proj l) as [P m].
  assert (E : mulv (List.length m) (entry P) (source_hf l m) i == mulv (List.length m) (entry P) (fun s => source_hf l m s * 1) i).
  { apply sumf_ext; intros; ring. }
  rewrite E, H, tB_mulv by auto; rewrite (scatter true refT (fun _ => 1) 0 0 l i); auto; [|intros; reflexivity].
  rewrite full_rhs_nth by auto; unfold get_hf, get_htc.
  destruct (selected true (nth i l node0)) eqn:E2; [ring|].
  apply selected_false in E2 as [E3 E4]; rewrite E3, E4 by auto; ring.
Qed.

(** Without boundary sources, a heated node with a coefficient still carries its boundary term in
    the source vector, so adding the boundary column counts it twice. *)
Theorem C29_without_bonds_counts_boundary_twice :
  exists l refT rhs i, (i < List.length l)%nat /\ make_rhs l false refT = Ok rhs /\
  ~ mulv (source_count false l) (entry (tB_from false 0 0 l)) (fun s => nth s rhs 0) i + entry (make_bonds_rhs l refT) i 0
    == nth i (make_full_rhs l refT) 0.
Proof.
  exists [mkNode None None 0 1 1 []], 1, [1 + 1 * 1], 0%nat.
  split; [simpl; lia|split; [reflexivity|]].
  vm_compute; discriminate.
Qed.

(** ** Examples *)
Definition demo_ops : list op :=
  [SetR 0 1 (1#2); SetR 1 2 (1#4); SetR 2 1 (1#4); SetHF 0 3; SetHTC 2 2; SetC 1 5; SetR 1 0 (1#2); AppendNode None; SetR 3 2 1].
Example demo_runs : exists l m, run (1#1000) (net_new 3) demo_ops = Ok l /\ make_mna l true [] = Ok m /\ List.length l = 4%nat /\
  entry (m_G m) 0 1 == -(4) /\ entry (m_G m) 1 2 == -(8) /\ entry (m_G m) 2 2 == 11 /\ entry (m_G m) 0 2 == 0.
Proof. do 2 eexists; split; [vm_compute; reflexivity|split; [vm_compute; reflexivity|]]; vm_compute; intuition congruence. Qed.

(** the demo network's steady state: 3 W through 2 W/K gives 1.5 K over ambient at node 2 *)
Example demo_steady : exists l m, run (1#1000) (net_new 3) demo_ops = Ok l /\ make_mna l true [] = Ok m /\
  steady (List.length l) (entry (m_G m)) (fun i => nth i (make_full_rhs l 20) 0)
    (fun i => match i with 0%nat => 20 + (3#2) + (3#8) + (3#4) | 1%nat => 20 + (3#2) + (3#8) | _ => 20 + (3#2) end).
Proof.
  do 2 eexists; split; [vm_compute; reflexivity|split; [vm_compute; reflexivity|]].
  intros i Hi; simpl in Hi.
  destruct i as [|[|[|[|i]]]]; [vm_compute; reflexivity..|lia].
Qed.

Example demo_grounded : exists l m, run (1#1000) (net_new 3) demo_ops = Ok l /\ make_mna l true [] = Ok m /\
  forall i, (i < List.length l)%nat -> grounded (List.length l) (entry (m_G m)) (get_htc l) i /\ 0 <= get_htc l i /\ 0 <= get_hf l i.
Proof.
  do 2 eexists; split; [vm_compute; reflexivity|split; [vm_compute; reflexivity|]].
  match goal with |- forall i, (i < List.length ?l)%nat -> grounded _ (entry (m_G ?m)) _ _ /\ _ => set (L := l); set (M := m) end.
  assert (G2 : grounded (List.length L) (entry (m_G M)) (get_htc L) 2) by (apply grounded_here; vm_compute; auto; lia).
  assert (G1 : grounded (List.length L) (entry (m_G M)) (get_htc L) 1).
  { apply (grounded_via _ _ _ 1 2); [vm_compute; lia|vm_compute; lia|lia|vm_compute; discriminate|auto]. }
  assert (G0 : grounded (List.length L) (entry (m_G M)) (get_htc L) 0).
  { apply (grounded_via _ _ _ 0 1); [vm_compute; lia|vm_compute; lia|lia|vm_compute; discriminate|auto]. }
  assert (G3 : grounded (List.length L) (entry (m_G M)) (get_htc L) 3).
  { apply (grounded_via _ _ _ 3 2); [vm_compute; lia|vm_compute; lia|lia|vm_compute; discriminate|auto]. }
  intros i Hi; split; [|].
  - destruct i as [|[|[|[|i]]]]; auto; simpl in Hi; lia.
  - destruct i as [|[|[|[|i]]]]; try (split; vm_compute; discriminate); simpl in Hi; lia.
Qed.

Example demo_permuted : Permutation [(0%nat, 1%nat, 1#2); (1%nat, 2%nat, 1#4); (1%nat, 0%nat, 1#3)]
                                    [(1%nat, 0%nat, 1#3); (0%nat, 1%nat, 1#2); (1%nat, 2%nat, 1#4)] /\
  exists l, run (1#1000) (net_new 3) (set_rs [(0%nat, 1%nat, 1#2); (1%nat, 2%nat, 1#4); (1%nat, 0%nat, 1#3)]) = Ok l.
Proof.
  split; [|eexists; vm_compute; reflexivity].
  symmetry; apply Permutation_cons_app with (l1 := [_; _]) (l2 := []); apply Permutation_refl.
Qed.

Print Assumptions C27_g_symmetric.
Print Assumptions C27_g_offdiagonal_nonpositive.
Print Assumptions C27_g_row_sum_is_htc.
Print Assumptions C27_g_diagonally_dominant.
Print Assumptions C27_energy_balance.
Print Assumptions C27_steady_state_unique.
Print Assumptions C27_no_node_below_ambient.
Print Assumptions C27_assembly_defined.
Print Assumptions C27_transient_matrices.
Print Assumptions C28_pair_conductance.
Print Assumptions C28_resistor_order_irrelevant.
Print Assumptions C29_sources_scatter_to_full_rhs.
Print Assumptions C29_source_count_is_columns.
Print Assumptions C29_transient_inputs_agree.
Print Assumptions C29_projection_plus_boundary_is_full_rhs.
Print Assumptions C29_without_bonds_counts_boundary_twice.

(** ** C27, the outputs: multiplying the node temperatures with the transposed L gives, in order,
    the temperatures of the probes asked for, or all of them when none are asked for. *)
Definition swap_t (ts : list triplet) : list triplet := map (fun '(a, b, v) => (b, a, v)) ts.
Lemma entry_swap ts i j : entry ts i j == entry (swap_t ts) j i.
Proof.
  unfold entry, swap_t; induction ts as [|[[a b] v] ts IH]; cbn [map sumf]; [reflexivity|].
  rewrite IH, (andb_comm (b =? j)%nat); reflexivity.
Qed.

Lemma out_triplets n ts x k : (forall a b v, In (a, b, v) ts -> (a < n)%nat) ->
  mulv n (fun j i => entry ts i j) x k == sumf (fun '(a, b, v) => if (b =? k)%nat then v * x a else 0) ts.
Proof.
  intros H; unfold mulv.
  rewrite (sumf_ext _ (fun i => entry (swap_t ts) k i * x i)) by (intros; rewrite entry_swap; reflexivity).
  fold (mulv n (entry (swap_t ts)) x k); rewrite mulv_triplets.
  - unfold swap_t; clear H; induction ts as [|[[a b] v] ts IH]; cbn [map sumf]; [reflexivity|]; rewrite IH; reflexivity.
  - intros a b v Hin; unfold swap_t in Hin; apply in_map_iff in Hin as ([[a' b'] v'] & [= <- <- <-] & Hin); eauto.
Qed.

Lemma tL_from_out x ps : forall j k,
  sumf (fun '(a, b, v) => if (b =? j + k)%nat then v * x a else 0) (tL_from j ps) ==
  (if (k <? List.length ps)%nat then x (nth k ps 0%nat) else 0).
Proof.
  assert (Z : forall ps j k, (k < j)%nat -> sumf (fun '(a, b, v) => if (b =? k)%nat then v * x a else 0) (tL_from j ps) == 0).
  { clear ps; induction ps as [|p ps IH]; intros j k H; cbn [tL_from sumf]; [reflexivity|].
    destruct (Nat.eqb_spec j k); [lia|]; rewrite IH by lia; ring. }
  induction ps as [|p ps IH]; intros j k; cbn [tL_from sumf List.length]; [reflexivity|].
  destruct k as [|k].
  - rewrite Nat.add_0_r, Nat.eqb_refl, Z by lia; cbn; ring.
  - destruct (Nat.eqb_spec j (j + Datatypes.S k)); [lia|].
    replace (j + Datatypes.S k)%nat with (Datatypes.S j + k)%nat by lia; rewrite IH.
    change (Datatypes.S k <? Datatypes.S (List.length ps))%nat with (k <? List.length ps)%nat; cbn [nth]; ring.
Qed.

Theorem C27_outputs_are_the_probes l bonds ps m T : make_mna l bonds ps = Ok m ->
  (forall k, (k < List.length ps)%nat -> mulv (List.length l) (fun j i => entry (m_L m) i j) T k == T (nth k ps 0%nat)) /\
  (ps = [] -> forall k, (k < List.length l)%nat -> mulv (List.length l) (fun j i => entry (m_L m) i j) T k == T k).
Proof.
  intros H; assert (Hp : forall p, In p ps -> (p < List.length l)%nat).
  { unfold make_mna in H; destruct (negb _); [discriminate|]; destruct (forallb _ ps) eqn:E; [|discriminate].
    intros p Hin; rewrite forallb_forall in E; apply Nat.ltb_lt; apply E; assumption. }
  apply make_mna_ok in H as (-> & _); cbn [m_L]; split.
  - intros k Hk; destruct ps as [|p ps]; [cbn [List.length] in Hk; lia|]; unfold tL.
    rewrite out_triplets.
    + rewrite (tL_from_out T (p :: ps) 0 k); apply Nat.ltb_lt in Hk; rewrite Hk; reflexivity.
    + intros a b v; generalize 0%nat; clear Hk; induction (p :: ps) as [|q qs IH]; intros j0; cbn [tL_from]; [intros []|].
      intros [[= <- _ _]|Hin]; [apply Hp; now left|]; eapply IH; [intros; apply Hp; now right|exact Hin].
  - intros -> k Hk; unfold tL; rewrite out_triplets.
    + assert (E : forall s, sumf (fun '(a, b, v) => if (b =? k)%nat then v * T a else 0) (map (fun i => (i, i, 1)) s) ==
                          sumf (fun i => if (i =? k)%nat then T i else 0) s).
      { induction s as [|a s IH]; cbn [map sumf]; [reflexivity|]; rewrite IH; destruct (a =? k)%nat; ring. }
      rewrite E; apply (sumf_delta T); auto.
    + intros a b v Hin; apply in_map_iff in Hin as (i & [= <- _ _] & Hi); apply in_seq in Hi; lia.
Qed.
Print Assumptions C27_outputs_are_the_probes.
Example C27_outputs_case : exists m, make_mna (net_new 3) true [2; 0; 2]%nat = Ok m /\
  mulv 3 (fun j i => entry (m_L m) i j) (fun i => inject_Z (Z.of_nat i) + 5) 1 == 5.
Proof. eexists; split; vm_compute; reflexivity. Qed.
