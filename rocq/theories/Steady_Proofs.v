(** Linear algebra and the discrete maximum principle behind the steady states of a network. *)
From Verif Require Import Base QSum ThermalNetwork_Model ThermalNetwork_Spec ThermalNetwork_Proofs ThermalNetwork_Props.

(** * More unknowns than equations *)
Lemma kernel {A} n : forall (vec : A -> nat -> Q) (cols : list A), (n < List.length cols)%nat ->
  exists l : list (Q * A), map snd l = cols /\ (exists e, In e l /\ ~ fst e == 0) /\
    forall i, (i < n)%nat -> sumf (fun e => fst e * vec (snd e) i) l == 0.
Proof.
  induction n as [|n IH]; intros vec cols Hlen.
  { destruct cols as [|a cols]; [simpl in Hlen; lia|].
    exists (map (fun a => (1, a)) (a :: cols)); split; [rewrite map_map; apply map_id|].
    split; [exists (1, a); split; [now left|cbn [fst]; lra]|intros; lia]. }
  assert (Hsplit : (exists l1 p l2, cols = l1 ++ p :: l2 /\ ~ vec p n == 0) \/ (forall a, In a cols -> vec a n == 0)).
  { clear Hlen; induction cols as [|a cols IHc]; [right; simpl; tauto|].
    destruct (Qeq_dec (vec a n) 0) as [E|E]; [|left; exists [], a, cols; auto].
    destruct IHc as [(l1 & p & l2 & -> & Hp)|H]; [left; exists (a :: l1), p, l2; auto|].
    right; intros b [<-|Hb]; auto. }
  destruct Hsplit as [(l1 & p & l2 & -> & Hp)|Hz].
  - set (vec' := fun a i => vec a i - vec a n / vec p n * vec p i).
    destruct (IH vec' (l1 ++ l2)) as (l & Hl & (e & He & Hne) & Hsum).
    { rewrite app_length in *; simpl in Hlen; lia. }
    apply map_eq_app in Hl as (la & lb & -> & Ha & Hb).
    set (F := sumf (fun e => fst e * vec (snd e) n) (la ++ lb)).
    exists (la ++ (- F / vec p n, p) :: lb); split; [rewrite map_app; cbn [map snd]; rewrite Ha, Hb; reflexivity|].
    split.
    { exists e; split; auto; apply in_app_iff in He; apply in_app_iff; cbn [In]; tauto. }
    intros i Hi.
    assert (E : sumf (fun e => fst e * vec (snd e) i) (la ++ (- F / vec p n, p) :: lb) ==
                sumf (fun e => fst e * vec (snd e) i) (la ++ lb) - F / vec p n * vec p i).
    { rewrite !sumf_app; cbn [sumf fst snd]; field; auto. }
    rewrite E; clear E.
    destruct (Nat.eq_dec i n) as [->|Hin].
    { fold F; field; auto. }
    specialize (Hsum i ltac:(lia)); unfold vec' in Hsum.
    rewrite (sumf_ext _ (fun e => fst e * vec (snd e) i + - (vec p i / vec p n * (fst e * vec (snd e) n)))) in Hsum
      by (intros; field; auto).
    rewrite sumf_plus, sumf_opp, sumf_scal in Hsum; fold F in Hsum.
    assert (E : vec p i / vec p n * F == F / vec p n * vec p i) by (field; auto).
    lra.
  - destruct (IH vec cols ltac:(lia)) as (l & Hl & Hne & Hsum); exists l; split; [auto|split; [auto|]].
    intros i Hi; destruct (Nat.eq_dec i n) as [->|Hin]; [|apply Hsum; lia].
    apply sumf_zero; intros e He; rewrite (Hz (snd e)); [ring|].
    rewrite <- Hl; apply in_map; auto.
Qed.

Lemma sumf_indexed (f : Q * nat -> Q) k : forall l s, map snd l = seq s k ->
  sumf f l == sumf (fun j => f (fst (nth (j - s) l (0, 0%nat)), j)) (seq s k).
Proof.
  induction k as [|k IH]; intros l s H; destruct l as [|[c j] l]; cbn [map seq] in H; try discriminate; [reflexivity|].
  injection H as Hj H; cbn [snd] in Hj; subst j.
  cbn [sumf seq]; rewrite Nat.sub_diag; cbn [nth fst].
  rewrite (IH l (Datatypes.S s) H).
  apply Qplus_comp; [reflexivity|apply sumf_ext; intros j Hj; apply in_seq in Hj].
  replace (j - s)%nat with (Datatypes.S (j - Datatypes.S s)) by lia; reflexivity.
Qed.

(** A square system with no other solution of the homogeneous equations is solvable. *)
Lemma solvable n M : (forall x, (forall i, (i < n)%nat -> mulv n M x i == 0) -> forall i, (i < n)%nat -> x i == 0) ->
  forall b, exists x, forall i, (i < n)%nat -> mulv n M x i == b i.
Proof.
  intros Hinj b.
  destruct (kernel n (fun j i => if (j <? n)%nat then M i j else - b i) (seq 0 (Datatypes.S n))) as (l & Hl & (e & He & Hne) & Hs).
  { rewrite seq_length; lia. }
  set (c := fun j => fst (nth j l (0, 0%nat))).
  assert (Hrow : forall i, (i < n)%nat -> mulv n M c i == c n * b i).
  { intros i Hi; specialize (Hs i Hi); rewrite (sumf_indexed _ _ l 0 Hl) in Hs.
    rewrite seq_S, sumf_app in Hs; cbn [sumf fst snd Nat.add] in Hs; rewrite Nat.sub_0_r, Nat.ltb_irrefl in Hs; fold (c n) in Hs.
    unfold mulv; rewrite (sumf_ext _ (fun j => c j * M i j)) by (intros; ring).
    rewrite (sumf_ext _ (fun j => c j * M i j)) in Hs; [lra|].
    intros j Hj; apply in_seq in Hj; rewrite Nat.sub_0_r; fold (c j); destruct (Nat.ltb_spec j n); [reflexivity|lia]. }
  destruct (Qeq_dec (c n) 0) as [E|E].
  - exfalso; apply Hne.
    destruct (In_nth l e (0, 0%nat) He) as (j & Hj & Ej).
    assert (Hlen : List.length l = Datatypes.S n) by (rewrite <- (map_length snd), Hl, seq_length; auto).
    rewrite <- Ej; fold (c j); destruct (Nat.eq_dec j n) as [->|Hjn]; [auto|].
    apply Hinj; [|lia]; intros i Hi; rewrite Hrow, E by auto; ring.
  - exists (fun j => c j / c n); intros i Hi.
    assert (E2 : mulv n M (fun j => c j / c n) i == (1 / c n) * mulv n M c i).
    { unfold mulv; rewrite <- sumf_scal; apply sumf_ext; intros; field; auto. }
    rewrite E2, Hrow by auto; field; auto.
Qed.

(** * The discrete maximum principle *)
Section Principle.
  Context (n : nat) (M : nat -> nat -> Q) (h : nat -> Q).
  Context (Hoff : forall i j, (i < n)%nat -> (j < n)%nat -> i <> j -> M i j <= 0).
  Context (Hrow : forall i, (i < n)%nat -> row_sum n M i == h i).
  Context (Hh : forall i, (i < n)%nat -> 0 <= h i).

  Lemma mulv_differences x i : (i < n)%nat ->
    mulv n M x i == h i * x i + sumf (fun j => if (j =? i)%nat then 0 else M i j * (x j - x i)) (seq 0 n).
  Proof.
    intros Hi; rewrite <- (Hrow i Hi); unfold mulv, row_sum.
    rewrite (Qmult_comm _ (x i)), <- sumf_scal, <- sumf_plus; apply sumf_ext; intros j _.
    destruct (Nat.eqb_spec j i) as [->|]; ring.
  Qed.

  Lemma min_principle x : (forall i, (i < n)%nat -> grounded n M h i) ->
    (forall i, (i < n)%nat -> 0 <= mulv n M x i) -> forall i, (i < n)%nat -> 0 <= x i.
  Proof.
    intros Hg Hx i0 Hi0; destruct (argmin x n) as (k & Hk & Hmin); [lia|].
    destruct (Qlt_le_dec (x k) 0) as [Hneg|]; [|specialize (Hmin i0 Hi0); lra].
    exfalso.
    assert (Hstep : forall i, (i < n)%nat -> x i == x k ->
      h i == 0 /\ forall j, (j < n)%nat -> j <> i -> ~ M i j == 0 -> x j == x k).
    { intros i Hi E; specialize (Hx i Hi); rewrite (mulv_differences x i Hi) in Hx.
      assert (N : forall j, In j (seq 0 n) -> 0 <= - (if (j =? i)%nat then 0 else M i j * (x j - x i))).
      { intros j Hj; apply in_seq in Hj; destruct (Nat.eqb_spec j i); [lra|].
        specialize (Hoff i j Hi ltac:(lia) ltac:(lia)); specialize (Hmin j ltac:(lia)); nra. }
      pose proof (sumf_nonneg _ _ N) as S1; rewrite sumf_opp in S1; specialize (Hh i Hi).
      assert (P : 0 <= h i * - x i) by (apply Qmult_le_0_compat; lra).
      assert (Z : h i * x i == 0) by lra.
      split; [apply Qmult_integral in Z as [Z|Z]; lra|].
      intros j Hj Hne Hm.
      assert (S2 : sumf (fun j => - (if (j =? i)%nat then 0 else M i j * (x j - x i))) (seq 0 n) == 0) by (rewrite sumf_opp; lra).
      pose proof (sumf_zero_inv _ _ N S2 j ltac:(apply in_seq; lia)) as Zj; cbv beta in Zj.
      destruct (Nat.eqb_spec j i); [tauto|].
      assert (Zj' : M i j * (x j - x i) == 0) by lra.
      apply Qmult_integral in Zj' as [Zj'|Zj']; [tauto|lra]. }
    assert (Hno : forall i, grounded n M h i -> ~ x i == x k).
    { induction 1 as [i Hi Hp|i j Hi Hj Hne He Hgj IH]; intros E; destruct (Hstep i Hi E) as [Z1 Z2]; [lra|].
      apply IH, Z2; auto. }
    exact (Hno k (Hg k Hk) ltac:(reflexivity)).
  Qed.

  Lemma only_zero x : (forall i, (i < n)%nat -> grounded n M h i) ->
    (forall i, (i < n)%nat -> mulv n M x i == 0) -> forall i, (i < n)%nat -> x i == 0.
  Proof.
    intros Hg Hx i Hi.
    pose proof (min_principle x Hg ltac:(intros; rewrite Hx; auto; lra) i Hi) as A.
    assert (B : 0 <= (fun j => - x j) i).
    { apply (min_principle (fun j => - x j)); auto; intros j Hj; specialize (Hx j Hj); unfold mulv in *.
      rewrite (sumf_ext _ (fun k => - (M j k * x k))) by (intros; ring); rewrite sumf_opp; lra. }
    cbv beta in B; lra.
  Qed.
End Principle.

Lemma mulv_minus n M x y i : mulv n M (fun j => x j - y j) i == mulv n M x i - mulv n M y i.
Proof.
  unfold mulv; rewrite (sumf_ext _ (fun j => M i j * x j + - (M i j * y j))) by (intros; ring).
  rewrite sumf_plus, sumf_opp; ring.
Qed.
Lemma mulv_plus n M x y i : mulv n M (fun j => x j + y j) i == mulv n M x i + mulv n M y i.
Proof. unfold mulv; rewrite <- sumf_plus; apply sumf_ext; intros; ring. Qed.
Lemma mulv_scal n M c x i : mulv n M (fun j => c * x j) i == c * mulv n M x i.
Proof. unfold mulv; rewrite <- sumf_scal; apply sumf_ext; intros; ring. Qed.
Lemma mulv_const n M c i : mulv n M (fun _ => c) i == c * row_sum n M i.
Proof. unfold mulv, row_sum; rewrite <- sumf_scal; apply sumf_ext; intros; ring. Qed.
