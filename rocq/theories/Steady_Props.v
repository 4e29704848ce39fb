(** C165, C166: the steady temperatures of a thermal network. *)
From Verif Require Import Base QSum ThermalNetwork_Model ThermalNetwork_Spec ThermalNetwork_Proofs ThermalNetwork_Props
  Grid_Model Grid_Spec Steady_Spec Steady_Proofs.

Lemma full_rhs l refT i : (i < List.length l)%nat -> nth i (make_full_rhs l refT) 0 == get_hf l i + get_htc l i * refT.
Proof.
  intros Hi; unfold make_full_rhs, get_hf, get_htc.
  rewrite (nth_indep _ 0 ((fun n => n_hf n + n_htc n * refT) node0)) by (rewrite map_length; auto).
  rewrite (map_nth (fun n => n_hf n + n_htc n * refT)); reflexivity.
Qed.

Section Network.
  Context (minR : Q) (HminR : 0 < minR).

  Lemma rise_equation l bonds ps m refT T : make_mna l bonds ps = Ok m -> equilibrium l m refT T ->
    forall i, (i < List.length l)%nat -> mulv (List.length l) (entry (m_G m)) (fun j => T j - refT) i == get_hf l i.
  Proof.
    intros Hm HT i Hi; rewrite (mulv_minus _ _ T (fun _ => refT)), mulv_const.
    rewrite (C27_g_row_sum_is_htc l bonds ps m Hm i Hi), (HT i Hi), (full_rhs l refT i Hi); ring.
  Qed.

  (** ** C165 *)
  Theorem C165_exactly_one l bonds ps m refT : reachable minR l -> make_mna l bonds ps = Ok m -> dissipates l m ->
    exactly_one l m refT.
  Proof.
    intros Hr Hm (Hh & Hg).
    destruct (solvable (List.length l) (entry (m_G m))) with (b := fun i => nth i (make_full_rhs l refT) 0) as [T HT].
    { intros x Hx; apply (only_zero (List.length l) (entry (m_G m)) (get_htc l)); auto.
      - exact (C27_g_offdiagonal_nonpositive minR HminR l bonds ps m Hr Hm).
      - exact (C27_g_row_sum_is_htc l bonds ps m Hm). }
    exists T; split; [exact HT|]; intros T' HT' i Hi.
    exact (C27_steady_state_unique minR HminR l bonds ps m _ T' T Hr Hm Hh Hg HT' HT i Hi).
  Qed.

  (** A part of the network without a way to the ambient: its powers must cancel, and its level is not determined. *)
  Theorem C165_island l bonds ps m refT I : reachable minR l -> make_mna l bonds ps = Ok m -> island l m I ->
    (~ sumf (fun i => if I i then get_hf l i else 0) (seq 0 (List.length l)) == 0 -> forall T, ~ equilibrium l m refT T) /\
    (forall T c, equilibrium l m refT T -> equilibrium l m refT (fun i => if I i then T i + c else T i)).
  Proof.
    intros Hr Hm HI.
    pose proof (C27_g_symmetric minR l bonds ps m Hr Hm) as Hsym.
    pose proof (C27_g_row_sum_is_htc l bonds ps m Hm) as Hrow.
    set (n := List.length l) in *; set (M := entry (m_G m)) in *.
    assert (Hcol : forall i, (i < n)%nat -> sumf (fun j => if I j then M i j else 0) (seq 0 n) == 0).
    { intros i Hi; destruct (I i) eqn:Ei.
      - destruct (HI i Hi Ei) as [Hz Hc].
        rewrite <- Hz, <- (Hrow i Hi); apply sumf_ext; intros j Hj; apply in_seq in Hj.
        destruct (I j) eqn:Ej; [reflexivity|]; symmetry; apply Hc; auto; lia.
      - apply sumf_zero; intros j Hj; apply in_seq in Hj; destruct (I j) eqn:Ej; [|reflexivity].
        rewrite (Hsym i j) by lia; apply (HI j ltac:(lia) Ej); auto. }
    split.
    - intros Hne T HT; apply Hne.
      pose proof (rise_equation l bonds ps m refT T Hm HT) as Hrise; fold n M in Hrise.
      rewrite (sumf_ext _ (fun i => sumf (fun j => (T j - refT) * (if I i then M i j else 0)) (seq 0 n))).
      + rewrite sumf_swap; apply sumf_zero; intros j Hj; apply in_seq in Hj.
        rewrite sumf_scal, (sumf_ext _ (fun i => if I i then M j i else 0)).
        * rewrite Hcol by lia; ring.
        * intros i Hi; apply in_seq in Hi; destruct (I i); [apply Hsym; lia|reflexivity].
      + intros i Hi; apply in_seq in Hi; destruct (I i).
        * rewrite <- (Hrise i) by lia; apply sumf_ext; intros; ring.
        * symmetry; apply sumf_zero; intros; ring.
    - intros T c HT i Hi; rewrite <- (HT i Hi); fold n M; fold n in Hi; unfold mulv.
      rewrite (sumf_ext _ (fun j => M i j * T j + c * (if I j then M i j else 0))).
      + rewrite sumf_plus, sumf_scal, Hcol by auto; ring.
      + intros j _; destruct (I j); ring.
  Qed.

  (** ** C166 *)
  (** Ambient: every temperature moves with it. *)
  Theorem C166_ambient l bonds ps m refT d T : make_mna l bonds ps = Ok m -> equilibrium l m refT T ->
    equilibrium l m (refT + d) (fun i => T i + d).
  Proof.
    intros Hm HT i Hi; rewrite (mulv_plus _ _ T (fun _ => d)), mulv_const, (HT i Hi).
    rewrite (C27_g_row_sum_is_htc l bonds ps m Hm i Hi), !full_rhs by auto; ring.
  Qed.

  Lemma same_passive_G l l' : same_passive l l' -> forall k, tG_from k l = tG_from k l'.
  Proof.
    induction 1 as [|a b l l' [E1 E2] _ IH]; intros k; [reflexivity|].
    cbn [tG_from]; unfold tG_node; rewrite E1, E2, IH; reflexivity.
  Qed.
  Lemma same_passive_length l l' : same_passive l l' -> List.length l = List.length l'.
  Proof. induction 1; cbn [List.length]; auto. Qed.
  Lemma same_passive_htc l l' : same_passive l l' -> forall i, get_htc l i = get_htc l' i.
  Proof.
    unfold get_htc; induction 1 as [|a b l l' [E1 E2] _ IH]; intros [|i]; cbn [nth]; auto.
  Qed.
  Lemma same_passive_m l l' bonds ps m bonds' ps' m' : same_passive l l' -> make_mna l bonds ps = Ok m -> make_mna l' bonds' ps' = Ok m' ->
    m_G m = m_G m'.
  Proof.
    intros Hs H H'; apply make_mna_ok in H as (-> & _); apply make_mna_ok in H' as (-> & _); cbn [m_G].
    apply same_passive_G; auto.
  Qed.

  (** Superposition: the rises over the ambient of two power assignments add up and scale. *)
  Theorem C166_superposition l l1 l2 bonds ps m m1 m2 refT a b T1 T2 T :
    reachable minR l -> same_passive l l1 -> same_passive l l2 ->
    make_mna l bonds ps = Ok m -> make_mna l1 bonds ps = Ok m1 -> make_mna l2 bonds ps = Ok m2 -> dissipates l m ->
    (forall i, (i < List.length l)%nat -> get_hf l i == a * get_hf l1 i + b * get_hf l2 i) ->
    equilibrium l1 m1 refT T1 -> equilibrium l2 m2 refT T2 -> equilibrium l m refT T ->
    forall i, (i < List.length l)%nat -> T i - refT == a * (T1 i - refT) + b * (T2 i - refT).
  Proof.
    intros Hr S1 S2 Hm Hm1 Hm2 (Hh & Hg) Hp H1 H2 H i Hi.
    pose proof (rise_equation _ _ _ _ _ _ Hm1 H1) as E1; pose proof (rise_equation _ _ _ _ _ _ Hm2 H2) as E2.
    pose proof (rise_equation _ _ _ _ _ _ Hm H) as E.
    rewrite <- (same_passive_length _ _ S1), <- (same_passive_m _ _ _ _ _ _ _ _ S1 Hm Hm1) in E1.
    rewrite <- (same_passive_length _ _ S2), <- (same_passive_m _ _ _ _ _ _ _ _ S2 Hm Hm2) in E2.
    assert (Z : (fun j => (T j - refT) - (a * (T1 j - refT) + b * (T2 j - refT))) i == 0); [|cbv beta in Z; lra].
    apply (only_zero (List.length l) (entry (m_G m)) (get_htc l)
             (C27_g_offdiagonal_nonpositive minR HminR l bonds ps m Hr Hm)
             (C27_g_row_sum_is_htc l bonds ps m Hm) Hh (fun j => (T j - refT) - (a * (T1 j - refT) + b * (T2 j - refT)))); auto.
    intros k Hk; rewrite (mulv_minus _ _ (fun j => T j - refT) (fun j => a * (T1 j - refT) + b * (T2 j - refT))).
    rewrite (mulv_plus _ _ (fun j => a * (T1 j - refT)) (fun j => b * (T2 j - refT))).
    rewrite (mulv_scal _ _ a (fun j => T1 j - refT)), (mulv_scal _ _ b (fun j => T2 j - refT)).
    rewrite E, E1, E2, Hp by auto; ring.
  Qed.

  (** the effect of one SetHF call on the getters *)
  Lemma set_hf_passive l k v l' : step minR l (SetHF k v) = Ok l' ->
    same_passive l l' /\ (k < List.length l)%nat /\
    forall i, get_hf l' i = if (i =? k)%nat then v else get_hf l i.
  Proof.
    cbn [step]; intros H; apply at_node_ok in H as [-> Hlt]; split; [|split; [auto|]].
    - revert k Hlt; unfold same_passive; induction l as [|n l IH]; intros k Hlt; [cbn [List.length] in Hlt; lia|].
      assert (Hrefl : forall l0 : network, Forall2 (fun a b => n_ns a = n_ns b /\ n_htc a = n_htc b) l0 l0)
        by (induction l0; constructor; auto).
      destruct k as [|k]; cbn [upd]; constructor; auto; apply IH; cbn [List.length] in Hlt; lia.
    - revert k Hlt; unfold get_hf; induction l as [|n l IH]; intros k Hlt i; [cbn [List.length] in Hlt; lia|].
      cbn [List.length] in Hlt; destruct k as [|k], i as [|i]; cbn [upd nth Nat.eqb]; auto; apply IH; lia.
  Qed.

  Lemma hf_difference l bonds ps m refT T k v l' m' T' :
    step minR l (SetHF k v) = Ok l' -> make_mna l bonds ps = Ok m -> make_mna l' bonds ps = Ok m' ->
    equilibrium l m refT T -> equilibrium l' m' refT T' ->
    forall i, (i < List.length l)%nat ->
    mulv (List.length l) (entry (m_G m)) (fun j => T' j - T j) i == if (i =? k)%nat then v - get_hf l k else 0.
  Proof.
    intros Hs Hm Hm' HT HT' i Hi; destruct (set_hf_passive _ _ _ _ Hs) as (Hp & Hk & Hhf).
    pose proof (rise_equation _ _ _ _ _ _ Hm HT i Hi) as E.
    pose proof (rise_equation _ _ _ _ _ _ Hm' HT') as E'.
    rewrite <- (same_passive_length _ _ Hp), <- (same_passive_m _ _ _ _ _ _ _ _ Hp Hm Hm') in E'.
    specialize (E' i Hi); rewrite Hhf in E'.
    rewrite mulv_minus in E, E' |- *.
    destruct (Nat.eqb_spec i k) as [->|]; lra.
  Qed.

  (** More power at one node heats that node and cools none. *)
  Theorem C166_more_power l bonds ps m refT T k v l' m' T' : reachable minR l -> dissipates l m ->
    step minR l (SetHF k v) = Ok l' -> make_mna l bonds ps = Ok m -> make_mna l' bonds ps = Ok m' ->
    equilibrium l m refT T -> equilibrium l' m' refT T' -> get_hf l k < v ->
    (forall i, (i < List.length l)%nat -> T i <= T' i) /\ T k < T' k.
  Proof.
    intros Hr (Hh & Hg) Hs Hm Hm' HT HT' Hv.
    pose proof (hf_difference _ _ _ _ _ _ _ _ _ _ _ Hs Hm Hm' HT HT') as E.
    destruct (set_hf_passive _ _ _ _ Hs) as (_ & Hk & _).
    pose proof (C27_g_offdiagonal_nonpositive minR HminR l bonds ps m Hr Hm) as Hoff.
    pose proof (C27_g_row_sum_is_htc l bonds ps m Hm) as Hrow.
    assert (A : forall i, (i < List.length l)%nat -> 0 <= (fun j => T' j - T j) i).
    { apply (min_principle (List.length l) (entry (m_G m)) (get_htc l) Hoff Hrow Hh (fun j => T' j - T j)); auto.
      intros i Hi; rewrite E by auto; destruct (i =? k)%nat; lra. }
    cbv beta in A; split; [intros i Hi; specialize (A i Hi); lra|].
    destruct (Qlt_le_dec (T k) (T' k)) as [|Hle]; [auto|exfalso].
    specialize (E k Hk); rewrite Nat.eqb_refl in E.
    rewrite (mulv_differences (List.length l) (entry (m_G m)) (get_htc l) Hrow) in E by auto; cbv beta in E.
    pose proof (A k Hk) as Ak.
    assert (Ez : T' k - T k == 0) by lra; rewrite Ez in E.
    assert (N : 0 <= sumf (fun j => - (if (j =? k)%nat then 0 else entry (m_G m) k j * (T' j - T j - 0))) (seq 0 (List.length l))).
    { apply sumf_nonneg; intros j Hj; apply in_seq in Hj; destruct (Nat.eqb_spec j k); [lra|].
      pose proof (Hoff k j Hk ltac:(lia) ltac:(lia)); pose proof (A j ltac:(lia)); nra. }
    rewrite sumf_opp in N.
    rewrite (sumf_ext _ (fun j => if (j =? k)%nat then 0 else entry (m_G m) k j * (T' j - T j - 0))) in E; [lra|].
    intros j _; destruct (j =? k)%nat; [reflexivity|rewrite Ez; reflexivity].
  Qed.

  (** Reciprocity: a watt at [a] heats [b] as much as a watt at [b] heats [a]. *)
  Theorem C166_reciprocity l bonds ps m refT T a b p la ma Ta lb mb Tb : reachable minR l -> dissipates l m ->
    make_mna l bonds ps = Ok m -> equilibrium l m refT T ->
    step minR l (SetHF a (get_hf l a + p)) = Ok la -> make_mna la bonds ps = Ok ma -> equilibrium la ma refT Ta ->
    step minR l (SetHF b (get_hf l b + p)) = Ok lb -> make_mna lb bonds ps = Ok mb -> equilibrium lb mb refT Tb ->
    Ta b - T b == Tb a - T a.
  Proof.
    intros Hr (Hh & Hg) Hm HT Hsa Hma HTa Hsb Hmb HTb.
    pose proof (hf_difference _ _ _ _ _ _ _ _ _ _ _ Hsa Hm Hma HT HTa) as Ea.
    pose proof (hf_difference _ _ _ _ _ _ _ _ _ _ _ Hsb Hm Hmb HT HTb) as Eb.
    destruct (set_hf_passive _ _ _ _ Hsa) as (_ & Ka & _); destruct (set_hf_passive _ _ _ _ Hsb) as (_ & Kb & _).
    pose proof (C27_g_symmetric minR l bonds ps m Hr Hm) as Hsym.
    destruct (Qeq_dec p 0) as [Ep|Ep].
    { pose proof (only_zero (List.length l) (entry (m_G m)) (get_htc l)
        (C27_g_offdiagonal_nonpositive minR HminR l bonds ps m Hr Hm) (C27_g_row_sum_is_htc l bonds ps m Hm) Hh) as Hz.
      assert (Za : (fun j => Ta j - T j) b == 0).
      { apply (Hz (fun j => Ta j - T j)); auto; intros i Hi; rewrite Ea by auto; destruct (i =? a)%nat; lra. }
      assert (Zb : (fun j => Tb j - T j) a == 0).
      { apply (Hz (fun j => Tb j - T j)); auto; intros i Hi; rewrite Eb by auto; destruct (i =? b)%nat; lra. }
      cbv beta in Za, Zb; lra. }
    set (n := List.length l) in *; set (M := entry (m_G m)) in *.
    set (xa := fun j => Ta j - T j) in *; set (xb := fun j => Tb j - T j) in *.
    assert (S : sumf (fun i => xb i * mulv n M xa i) (seq 0 n) == sumf (fun i => xa i * mulv n M xb i) (seq 0 n)).
    { unfold mulv.
      rewrite (sumf_ext _ (fun i => sumf (fun j => xb i * (M i j * xa j)) (seq 0 n))) by (intros; rewrite sumf_scal; reflexivity).
      rewrite sumf_swap; apply sumf_ext; intros j Hj; apply in_seq in Hj; rewrite <- sumf_scal.
      apply sumf_ext; intros i Hi; apply in_seq in Hi; rewrite (Hsym i j) by lia; ring. }
    rewrite (sumf_ext (fun i => xb i * mulv n M xa i) (fun i => if (i =? a)%nat then p * xb i else 0)) in S.
    2:{ intros i Hi; apply in_seq in Hi; rewrite Ea by lia; destruct (i =? a)%nat; ring. }
    rewrite (sumf_ext (fun i => xa i * mulv n M xb i) (fun i => if (i =? b)%nat then p * xa i else 0)) in S.
    2:{ intros i Hi; apply in_seq in Hi; rewrite Eb by lia; destruct (i =? b)%nat; ring. }
    rewrite (sumf_delta (fun i => p * xb i)), (sumf_delta (fun i => p * xa i)) in S by auto.
    unfold xa, xb in S; apply (Qmult_inj_l _ _ p Ep); lra.
  Qed.

  (** A larger coefficient at one node heats no node, when no power is negative. *)
  Theorem C166_more_cooling l bonds ps m refT T k v l' m' T' : reachable minR l -> dissipates l m ->
    (forall i, (i < List.length l)%nat -> 0 <= get_hf l i) ->
    step minR l (SetHTC k v) = Ok l' -> make_mna l bonds ps = Ok m -> make_mna l' bonds ps = Ok m' ->
    equilibrium l m refT T -> equilibrium l' m' refT T' -> get_htc l k <= v ->
    forall i, (i < List.length l)%nat -> T' i <= T i.
  Proof.
    intros Hr (Hh & Hg) Hp Hs Hm Hm' HT HT' Hv.
    assert (Hcold : forall i, (i < List.length l)%nat -> 0 <= T i - refT).
    { pose proof (rise_equation _ _ _ _ _ _ Hm HT) as E.
      apply (min_principle (List.length l) (entry (m_G m)) (get_htc l)
        (C27_g_offdiagonal_nonpositive minR HminR l bonds ps m Hr Hm) (C27_g_row_sum_is_htc l bonds ps m Hm) Hh
        (fun j => T j - refT)); auto.
      intros i Hi; rewrite E; auto. }
    assert (Hr' : reachable minR l').
    { destruct Hr as (n0 & os & Hrun); exists n0, (os ++ [SetHTC k v]); clear - Hrun Hs.
      revert Hrun; generalize (net_new n0); induction os as [|o os IH]; intros l0; cbn [run app].
      - intros [= ->]; rewrite Hs; reflexivity.
      - destruct (step minR l0 o); cbn [bind]; try discriminate; apply IH. }
    cbn [step] in Hs; apply at_node_ok in Hs as [El Hk].
    assert (Hlen : List.length l' = List.length l) by (subst l'; apply upd_length).
    assert (Hget : forall i, get_htc l' i = (if (i =? k)%nat then v else get_htc l i) /\ get_hf l' i = get_hf l i).
    { subst l'; clear - Hk; unfold get_htc, get_hf; revert k Hk; induction l as [|n l IH]; intros k Hk i; [cbn [List.length] in Hk; lia|].
      cbn [List.length] in Hk; destruct k as [|k], i as [|i]; cbn [upd nth Nat.eqb]; auto; apply IH; lia. }
    assert (HG : forall i j, (i < List.length l)%nat -> entry (m_G m') i j == entry (m_G m) i j +
                   if ((i =? k) && (j =? k))%nat%bool then v - get_htc l k else 0).
    { intros i j Hi; apply make_mna_ok in Hm as (-> & _); apply make_mna_ok in Hm' as (-> & _); cbn [m_G].
      rewrite !G_entry by lia; rewrite (proj1 (Hget i)).
      assert (Ew : esum (wstamp i j) l' == esum (wstamp i j) l).
      { apply (at_node_esum (wstamp i j) k (with_htc v) l l'); [|reflexivity].
        unfold at_node; apply Nat.ltb_lt in Hk; rewrite Hk; subst; reflexivity. }
      rewrite Ew; destruct (Nat.eqb_spec i k) as [->|]; cbn [andb]; [|destruct (i =? j)%nat; lra].
      rewrite (Nat.eqb_sym j k); destruct (k =? j)%nat; lra. }
    assert (Hh' : forall i, (i < List.length l')%nat -> 0 <= get_htc l' i).
    { intros i Hi; rewrite (proj1 (Hget i)); pose proof (Hh k Hk); destruct (i =? k)%nat; [lra|apply Hh; lia]. }
    assert (Hg' : forall i, (i < List.length l')%nat -> grounded (List.length l') (entry (m_G m')) (get_htc l') i).
    { rewrite Hlen; intros i Hi; specialize (Hg i Hi); clear Hi.
      induction Hg as [i Hi Hpos|i j Hi Hj Hne He Hgj IH].
      - apply grounded_here; auto; rewrite (proj1 (Hget i)); destruct (Nat.eqb_spec i k) as [->|]; lra.
      - apply (grounded_via _ _ _ i j); auto; rewrite HG by auto.
        destruct (Nat.eqb_spec i k), (Nat.eqb_spec j k); cbn [andb]; subst; try tauto; intros E; apply He; lra. }
    pose proof (rise_equation _ _ _ _ _ _ Hm HT) as E; pose proof (rise_equation _ _ _ _ _ _ Hm' HT') as E'.
    intros i Hi.
    assert (A : 0 <= (fun j => (T j - refT) - (T' j - refT)) i); [|cbv beta in A; lra].
    apply (min_principle (List.length l') (entry (m_G m')) (get_htc l')
      (C27_g_offdiagonal_nonpositive minR HminR l' bonds ps m' Hr' Hm') (C27_g_row_sum_is_htc l' bonds ps m' Hm') Hh'
      (fun j => (T j - refT) - (T' j - refT))); auto; [|lia].
    intros q Hq; rewrite (mulv_minus _ _ (fun j => T j - refT) (fun j => T' j - refT)), E' by auto.
    rewrite (proj2 (Hget q)), <- (E q) by lia; rewrite Hlen in *; unfold mulv.
    rewrite (sumf_ext (fun j => entry (m_G m') q j * (T j - refT))
      (fun j => entry (m_G m) q j * (T j - refT) + (if (j =? k)%nat then (if (q =? k)%nat then (v - get_htc l k) * (T j - refT) else 0) else 0))).
    2:{ intros j _; rewrite HG by auto; destruct (q =? k)%nat, (j =? k)%nat; cbn [andb]; ring. }
    rewrite sumf_plus, (sumf_delta (fun j => if (q =? k)%nat then (v - get_htc l k) * (T j - refT) else 0)) by auto.
    destruct (q =? k)%nat; [|lra]; pose proof (Hcold k Hk); assert (0 <= (v - get_htc l k) * (T k - refT)) by (apply Qmult_le_0_compat; lra); lra.
  Qed.

  (** Above the ambient, the hottest temperature is found at a node with power. *)
  Theorem C166_hottest_is_powered l bonds ps m refT T : reachable minR l -> dissipates l m ->
    make_mna l bonds ps = Ok m -> equilibrium l m refT T ->
    (exists i, (i < List.length l)%nat /\ refT < T i) ->
    exists k, (k < List.length l)%nat /\ 0 < get_hf l k /\ forall i, (i < List.length l)%nat -> T i <= T k.
  Proof.
    intros Hr (Hh & Hg) Hm HT (i0 & Hi0 & Hhot).
    destruct (argmin (fun j => - T j) (List.length l)) as (k & Hk & Hmax); [lia|]; cbv beta in Hmax.
    assert (Hkpos : 0 < T k - refT) by (specialize (Hmax i0 Hi0); lra).
    pose proof (rise_equation _ _ _ _ _ _ Hm HT) as E.
    pose proof (C27_g_offdiagonal_nonpositive minR HminR l bonds ps m Hr Hm) as Hoff.
    pose proof (C27_g_row_sum_is_htc l bonds ps m Hm) as Hrow.
    assert (Hgo : forall i, grounded (List.length l) (entry (m_G m)) (get_htc l) i -> T i == T k ->
      exists q, (q < List.length l)%nat /\ 0 < get_hf l q /\ T q == T k).
    { assert (Hstep : forall i, (i < List.length l)%nat -> T i == T k -> get_hf l i <= 0 ->
        get_htc l i == 0 /\ forall j, (j < List.length l)%nat -> j <> i -> ~ entry (m_G m) i j == 0 -> T j == T k).
      { intros i Hi Ei Hp; specialize (E i Hi).
        rewrite (mulv_differences (List.length l) (entry (m_G m)) (get_htc l) Hrow) in E by auto; cbv beta in E.
        assert (N : forall j, In j (seq 0 (List.length l)) -> 0 <= (if (j =? i)%nat then 0 else entry (m_G m) i j * (T j - refT - (T i - refT)))).
        { intros j Hj; apply in_seq in Hj; destruct (Nat.eqb_spec j i); [lra|].
          specialize (Hoff i j Hi ltac:(lia) ltac:(lia)); specialize (Hmax j ltac:(lia)); nra. }
        pose proof (sumf_nonneg _ _ N) as S1; specialize (Hh i Hi).
        assert (P : 0 <= get_htc l i * (T i - refT)) by (apply Qmult_le_0_compat; lra).
        assert (Z : get_htc l i * (T i - refT) == 0) by lra.
        split; [apply Qmult_integral in Z as [Z|Z]; lra|].
        intros j Hj Hne Hmij.
        pose proof (sumf_zero_inv _ _ N ltac:(lra) j ltac:(apply in_seq; lia)) as Zj; cbv beta in Zj.
        destruct (Nat.eqb_spec j i); [tauto|]; apply Qmult_integral in Zj as [Zj|Zj]; [tauto|lra]. }
      induction 1 as [i Hi Hpos|i j Hi Hj Hne He Hgj IH]; intros Ei;
        (destruct (Qlt_le_dec 0 (get_hf l i)) as [Hp|Hp]; [exists i; auto|]); destruct (Hstep i Hi Ei Hp) as [Z1 Z2]; [lra|].
      apply IH, Z2; auto. }
    destruct (Hgo k (Hg k Hk) ltac:(reflexivity)) as (q & Hq & Hqp & Eq).
    exists q; split; [auto|split; [auto|]]; intros i Hi; specialize (Hmax i Hi); lra.
  Qed.

  (** Some node is at least as hot, and some node at most as hot, as the total power over the total coefficient. *)
  Theorem C166_mean_rise l bonds ps m refT T : make_mna l bonds ps = Ok m ->
    (forall i, (i < List.length l)%nat -> 0 <= get_htc l i) -> (0 < List.length l)%nat -> equilibrium l m refT T ->
    (exists i, (i < List.length l)%nat /\ total_hf l <= total_htc l * (T i - refT)) /\
    (exists i, (i < List.length l)%nat /\ total_htc l * (T i - refT) <= total_hf l).
  Proof.
    intros Hm Hh Hn HT.
    pose proof (C27_energy_balance l bonds ps m refT T Hm HT) as E.
    destruct (argmin (fun j => - T j) (List.length l) Hn) as (k & Hk & Hmax).
    destruct (argmin T (List.length l) Hn) as (q & Hq & Hmin).
    assert (Hfac : forall c, total_htc l * c == sumf (fun i => get_htc l i * c) (seq 0 (List.length l))).
    { intros c; unfold total_htc; rewrite Qmult_comm, <- sumf_scal; apply sumf_ext; intros; ring. }
    split; [exists k|exists q]; (split; [auto|]); rewrite <- E, Hfac; apply sumf_le; intros i Hi; apply in_seq in Hi;
      specialize (Hh i ltac:(lia)); specialize (Hmax i ltac:(lia)); specialize (Hmin i ltac:(lia)); cbv beta in Hmax.
    - rewrite !(Qmult_comm (get_htc l i)); apply Qmult_le_compat_r; lra.
    - rewrite !(Qmult_comm (get_htc l i)); apply Qmult_le_compat_r; lra.
  Qed.
End Network.
Print Assumptions C165_exactly_one.
Print Assumptions C165_island.
Print Assumptions C166_ambient.
Print Assumptions C166_superposition.
Print Assumptions C166_more_power.
Print Assumptions C166_reciprocity.
Print Assumptions C166_more_cooling.
Print Assumptions C166_hottest_is_powered.
Print Assumptions C166_mean_rise.

(** Two nodes joined by two ohms, the first cooled; three watts at the second. *)
Definition pair_calls (p0 p1 : Q) : list op := [SetR 0 1 2; SetHTC 0 1; SetHF 0 p0; SetHF 1 p1].
Example C165_case : exists l m, run (1#1000) (net_new 2) (pair_calls 0 3) = Ok l /\ make_mna l true [] = Ok m /\
  dissipates l m /\ equilibrium l m 25 (fun i => if (i =? 0)%nat then 28 else 34).
Proof.
  do 2 eexists; split; [vm_compute; reflexivity|split; [vm_compute; reflexivity|]].
  assert (Hg : forall i, (i < 2)%nat -> i = 0%nat \/ i = 1%nat) by (intros; lia).
  split; [split|]; intros i Hi; cbn [List.length] in Hi; destruct (Hg i Hi) as [->| ->]; try (vm_compute; discriminate).
  - apply grounded_here; [auto|vm_compute; reflexivity].
  - apply (grounded_via _ _ _ _ 0%nat); [auto|simpl; lia|discriminate|vm_compute; discriminate|].
    apply grounded_here; [simpl; lia|vm_compute; reflexivity].
  - vm_compute; reflexivity.
  - vm_compute; reflexivity.
Qed.
Example C165_island_case : exists l m, run (1#1000) (net_new 3) [SetR 0 1 2; SetHTC 0 1; SetHF 2 5] = Ok l /\
  make_mna l true [] = Ok m /\ island l m (fun i => i =? 2)%nat.
Proof.
  do 2 eexists; split; [vm_compute; reflexivity|split; [vm_compute; reflexivity|]].
  intros i Hi Ei; apply Nat.eqb_eq in Ei; subst i; split; [vm_compute; reflexivity|].
  intros j Hj Ej; destruct j as [|[|[|j]]]; [vm_compute; reflexivity|vm_compute; reflexivity|discriminate|cbn in Hj; lia].
Qed.
(** One more watt at either node heats the other by one degree. *)
Example C166_case : exists l la lb m ma mb, run (1#1000) (net_new 2) (pair_calls 0 3) = Ok l /\
  step (1#1000) l (SetHF 0 (get_hf l 0 + 1)) = Ok la /\ step (1#1000) l (SetHF 1 (get_hf l 1 + 1)) = Ok lb /\
  make_mna l true [] = Ok m /\ make_mna la true [] = Ok ma /\ make_mna lb true [] = Ok mb /\
  equilibrium l m 25 (fun i => if (i =? 0)%nat then 28 else 34) /\
  equilibrium la ma 25 (fun i => if (i =? 0)%nat then 29 else 35) /\
  equilibrium lb mb 25 (fun i => if (i =? 0)%nat then 29 else 37).
Proof.
  do 6 eexists; do 6 (split; [vm_compute; reflexivity|]).
  split; [|split]; intros i Hi; cbn [List.length] in Hi; (destruct i as [|[|i]]; [vm_compute; reflexivity|vm_compute; reflexivity|lia]).
Qed.
Example C166_passive_case l k v l' : step (1#1000) l (SetHF k v) = Ok l' -> same_passive l l'.
Proof. intros H; apply (set_hf_passive _ _ _ _ _ H). Qed.
