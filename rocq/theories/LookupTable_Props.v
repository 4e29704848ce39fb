From Verif Require Import Base LookupTable_Model LookupTable_Spec LookupTable_Proofs.
From Coq Require Import Lqa.
Local Open Scope Q_scope.

(** A lookup always returns: no query on any table dereferences end(); an empty table answers 0. *)
Theorem C14_lookup_returns :
  forall hist x, exists q, lookup (table_of hist) x = Ok q.
Proof.
  intros hist x; pose proof (table_of_sorted hist); destruct (table_of hist); [exists 0; auto|].
  eexists; apply lookup_interp; auto.
Qed.
Print Assumptions C14_lookup_returns.

Theorem C14_lookup_empty : forall x, lookup (table_of []) x = Ok 0.
Proof. reflexivity. Qed.
Print Assumptions C14_lookup_empty.

(** The samples are kept sorted, whatever the order they were added in. *)
Theorem C14_samples_sorted : forall hist : list (Q * Q), sorted (table_of hist).
Proof. exact table_of_sorted. Qed.
Print Assumptions C14_samples_sorted.

(** exact at every sample *)
Theorem C14_exact_at_samples :
  forall hist k v, first_write hist k = Some v -> answers (table_of hist) k v.
Proof.
  intros hist k v H; rewrite <- value_at_history in H.
  apply value_at_in in H as (k' & E & Hin); pose proof (table_of_sorted hist) as Hs.
  destruct (table_of hist) as [|a r]; [destruct Hin|].
  exists (interp a r k); split; [apply lookup_interp; auto|].
  apply (interp_at_sample a r k' v); auto; symmetry; auto.
Qed.
Print Assumptions C14_exact_at_samples.

(** clamping outside the range *)
Theorem C14_clamps_below :
  forall hist a r x, table_of hist = a :: r -> x <= fst a -> answers (table_of hist) x (snd a).
Proof.
  intros hist a r x E H; pose proof (table_of_sorted hist) as Hs; rewrite E in *.
  exists (interp a r x); split; [apply lookup_interp; auto|rewrite interp_below; auto; reflexivity].
Qed.
Print Assumptions C14_clamps_below.

Theorem C14_clamps_above :
  forall hist a r x, table_of hist = r ++ [a] -> fst a <= x -> answers (table_of hist) x (snd a).
Proof.
  intros hist a r x E H; pose proof (table_of_sorted hist) as Hs.
  assert (Hl : last (table_of hist) (0, 0) = a) by (rewrite E; apply last_last).
  assert (Hin : In (fst a, snd a) (table_of hist))
    by (rewrite E, <- surjective_pairing; apply in_or_app; right; simpl; auto).
  destruct (table_of hist) as [|b l]; [destruct r; discriminate|].
  exists (interp b l x); split; [apply lookup_interp; auto|].
  destruct (qltb_spec (fst a) x) as [Hx|Hx].
  - rewrite interp_above; auto; [rewrite Hl; reflexivity|unfold last_key; rewrite Hl; auto].
  - apply (interp_at_sample b l (fst a) (snd a)); auto; lra.
Qed.
Print Assumptions C14_clamps_above.

(** linear between neighbouring samples *)
Theorem C14_linear_between :
  forall hist a b x, neighbours (table_of hist) a b -> fst a <= x <= fst b ->
    answers (table_of hist) x (snd a + (x - fst a) * (snd b - snd a) / (fst b - fst a)).
Proof.
  intros hist a b x Hn [H1 H2]; pose proof (table_of_sorted hist) as Hs.
  destruct (table_of hist) as [|c l] eqn:E; [destruct Hn as ([|? ?] & ? & ?); discriminate|].
  exists (interp c l x); split; [apply lookup_interp; auto|].
  apply interp_neighbours; auto.
Qed.
Print Assumptions C14_linear_between.

Lemma neighbours_lt : forall (t : table) a b, sorted t -> neighbours t a b -> fst a < fst b.
Proof.
  intros t a b Hs (pre & post & ->); induction pre as [|c pre IH]; [destruct Hs; auto|].
  apply IH, (sorted_tail c), Hs.
Qed.

(** and between them in value *)
Theorem C14_between_neighbours :
  forall hist a b x, neighbours (table_of hist) a b -> fst a <= x <= fst b ->
    exists q, lookup (table_of hist) x = Ok q /\
      ((snd a <= snd b -> snd a <= q <= snd b) /\ (snd b <= snd a -> snd b <= q <= snd a)).
Proof.
  intros hist a b x Hn [H1 H2].
  destruct (C14_linear_between hist a b x Hn (conj H1 H2)) as (q & Hq & E); exists q; split; auto.
  pose proof (neighbours_lt _ _ _ (table_of_sorted hist) Hn) as Hlt.
  destruct (lin_between a b x Hlt H1 H2) as [L1 L2]; unfold lin in *.
  split; intros H; rewrite E; auto.
Qed.
Print Assumptions C14_between_neighbours.

(** every query falls in one of the cases above *)
Theorem C14_cases_cover :
  forall hist x, table_of hist = [] \/ (exists a r, table_of hist = a :: r /\ x <= fst a) \/
    (exists a r, table_of hist = r ++ [a] /\ fst a <= x) \/
    (exists a b, neighbours (table_of hist) a b /\ fst a <= x <= fst b).
Proof.
  intros hist x; generalize (table_of hist); intros t; destruct t as [|a r]; auto; right.
  destruct (Qlt_le_dec (fst a) x) as [H|H]; [|left; eauto].
  right; revert a H; induction r as [|b r IH]; intros a H.
  - left; exists a, []; split; auto; lra.
  - destruct (Qlt_le_dec (fst b) x) as [H'|H'].
    + destruct (IH b H') as [(c & l & E & Hc)|(c & d & (p & q & E) & Hc)].
      * left; exists c, (a :: l); simpl; rewrite E; auto.
      * right; exists c, d; split; auto; exists (a :: p), q; simpl; rewrite E; auto.
    + right; exists a, b; split; [exists [], r; auto|lra].
Qed.
Print Assumptions C14_cases_cover.

(** monotone when the samples are *)
Theorem C14_monotone :
  forall hist x y qx qy, nondecreasing (table_of hist) -> x <= y ->
    lookup (table_of hist) x = Ok qx -> lookup (table_of hist) y = Ok qy -> qx <= qy.
Proof.
  intros hist x y qx qy Hn Hxy Hx Hy; pose proof (table_of_sorted hist) as Hs.
  destruct (table_of hist) as [|a r]; [simpl in *; injection Hx as <-; injection Hy as <-; lra|].
  rewrite lookup_interp in Hx, Hy by auto; injection Hx as <-; injection Hy as <-.
  apply interp_mono; auto.
Qed.
Print Assumptions C14_monotone.

Example C14_case :
  let h := [(10, 5); (0, 1); (20, 6); (10, 99)] in
  table_of h = [(0, 1); (10, 5); (20, 6)] /\ nondecreasing (table_of h) /\
  neighbours (table_of h) (0, 1) (10, 5) /\
  answers (table_of h) (5 # 2) 2 /\ answers (table_of h) 10 5 /\ answers (table_of h) (-3) 1 /\ answers (table_of h) 25 6.
Proof.
  cbv zeta; split; [reflexivity|split; [vm_compute; intuition discriminate|]].
  split; [exists [], [(20, 6)]; reflexivity|].
  split; [|split; [|split]]; eexists; split; try reflexivity; vm_compute; reflexivity.
Qed.

(** C15 for lookup tables: the value stored at a key is that of the first write. *)
Theorem C15_lookup_table_first_write_wins :
  forall hist k v, first_write hist k = Some v -> answers (table_of hist) k v.
Proof. exact C14_exact_at_samples. Qed.
Print Assumptions C15_lookup_table_first_write_wins.

(** Finding: the second write to a key is dropped. *)
Theorem C15_lookup_table_last_write_refuted :
  exists hist k v, last_write hist k = Some v /\ ~ answers (table_of hist) k v.
Proof.
  exists [(1, 2); (1, 3)], 1, 3; split; [reflexivity|].
  intros (q & H & E); vm_compute in H; injection H as <-; vm_compute in E; discriminate.
Qed.
Print Assumptions C15_lookup_table_last_write_refuted.
