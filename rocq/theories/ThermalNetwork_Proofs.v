From Verif Require Import Base QSum ThermalNetwork_Model ThermalNetwork_Spec.

(** * Indexed views of the network *)
Notation edge := (nat * nat * Q)%type.
Fixpoint edges_from (i : nat) (l : network) : list edge :=
  match l with
  | [] => []
  | n :: l' => map (fun e => (i, fst e, 1 / snd e)) (n_ns n) ++ edges_from (Datatypes.S i) l'
  end.

Definition esum (w : nat -> nat -> Q) (l : network) : Q :=
  sumf (fun '(a, b, g) => w a b * g) (edges_from 0 l).

Definition hsum (F : nat -> Q -> Q) (k : nat) (l : network) : Q :=
  sumf (fun i => F i (n_htc (nth (i - k) l node0))) (seq k (List.length l)).

Lemma sumf_seq_shift f k n : sumf f (seq (Datatypes.S k) n) == sumf (fun i => f (Datatypes.S i)) (seq k n).
Proof. rewrite <- seq_shift, sumf_map; reflexivity. Qed.

Lemma hsum_cons F k a l : hsum F k (a :: l) == F k (n_htc a) + hsum F (Datatypes.S k) l.
Proof.
  unfold hsum; cbn [List.length seq sumf]; rewrite Nat.sub_diag; cbn [nth].
  assert (E : forall a b c, b == c -> a + b == a + c) by (intros; lra); apply E.
  apply sumf_ext; intros i Hi; apply in_seq in Hi.
  replace (i - k)%nat with (Datatypes.S (i - Datatypes.S k)) by lia; reflexivity.
Qed.

Lemma tG_sum (F : triplet -> Q) k l : (forall i v, v == 0 -> F (i, i, v) == 0) ->
  sumf F (tG_from k l) ==
  sumf (fun '(a, b, g) => sumf F (stamp2 a b g)) (edges_from k l) + hsum (fun i v => F (i, i, v)) k l.
Proof.
  intros HF; revert k; induction l as [|n l IH]; intros k; [simpl; unfold hsum; simpl; lra|].
  cbn [tG_from edges_from]; rewrite !sumf_app, hsum_cons, IH; unfold tG_node.
  rewrite sumf_app, sumf_flat_map, sumf_map.
  assert (E : sumf F (if negb (Qeqb (n_htc n) 0) then stamp1 k (n_htc n) else []) == F (k, k, n_htc n)).
  { unfold Qeqb; destruct (Qeq_bool (n_htc n) 0) eqn:E; simpl.
    - apply Qeq_bool_iff in E; rewrite HF; auto; lra.
    - lra. }
  rewrite E; lra.
Qed.

(** * Entries of the conductance matrix *)
Definition ind (b : bool) : Q := if b then 1 else 0.

Definition wstamp (i j a b : nat) : Q :=
  ind ((a =? i) && (a =? j)) + ind ((b =? i) && (b =? j)) - ind ((a =? i) && (b =? j)) - ind ((b =? i) && (a =? j)).

Lemma stamp_entry a b g i j : entry (stamp2 a b g) i j == wstamp i j a b * g.
Proof.
  unfold entry, stamp2, wstamp, ind; simpl.
  destruct (a =? i)%nat, (a =? j)%nat, (b =? i)%nat, (b =? j)%nat; simpl; ring.
Qed.

Lemma hsum_delta (f : nat -> Q -> Q) l i : (i < List.length l)%nat ->
  hsum (fun k v => if (k =? i)%nat then f k v else 0) 0 l == f i (get_htc l i).
Proof.
  intros H; unfold hsum, get_htc.
  rewrite (sumf_delta (fun k => f k (n_htc (nth (k - 0) l node0))) i _ H), Nat.sub_0_r; reflexivity.
Qed.

Lemma hsum_ext F G k l : (forall i v, F i v == G i v) -> hsum F k l == hsum G k l.
Proof. intros H; apply sumf_ext; intros; apply H. Qed.

Lemma G_entry l i j : (i < List.length l)%nat ->
  entry (tG_from 0 l) i j == esum (wstamp i j) l + (if (i =? j)%nat then get_htc l i else 0).
Proof.
  intros Hi; unfold entry at 1; rewrite tG_sum.
  2:{ intros k v Hv; destruct (_ && _)%bool; lra. }
  assert (E1 : sumf (fun '(a, b, g) => sumf (fun '(a0, b0, v) => if ((a0 =? i) && (b0 =? j))%nat%bool then v else 0) (stamp2 a b g)) (edges_from 0 l)
               == esum (wstamp i j) l).
  { apply sumf_ext; intros [[a b] g] _; apply stamp_entry. }
  rewrite E1.
  rewrite (hsum_ext _ (fun k v => if (k =? i)%nat then (if (k =? j)%nat then v else 0) else 0)).
  2:{ intros k v; destruct (k =? i)%nat, (k =? j)%nat; simpl; reflexivity. }
  rewrite (hsum_delta (fun k v => if (k =? j)%nat then v else 0)) by auto; lra.
Qed.

(** * Matrix-vector products *)
Definition bounded (c : nat) (ts : list triplet) : Prop := forall a b v, In (a, b, v) ts -> (b < c)%nat.

Lemma mulv_triplets c ts x i : bounded c ts ->
  mulv c (entry ts) x i == sumf (fun '(a, b, v) => if (a =? i)%nat then v * x b else 0) ts.
Proof.
  intros Hb; unfold mulv, entry.
  rewrite (sumf_ext _ (fun j => sumf (fun '(a, b, v) => if ((a =? i) && (b =? j))%nat%bool then v * x j else 0) ts)).
  2:{ intros j _; rewrite Qmult_comm, <- sumf_scal; apply sumf_ext; intros [[a b] v] _.
      destruct (_ && _)%bool; ring. }
  rewrite sumf_swap; apply sumf_ext; intros [[a b] v] Hin; pose proof (Hb _ _ _ Hin) as Hlt.
  destruct (a =? i)%nat; simpl.
  - rewrite (sumf_ext _ (fun j => if (j =? b)%nat then v * x j else 0)).
    + now rewrite (sumf_delta (fun j => v * x j)).
    + intros j _; rewrite (Nat.eqb_sym b j); reflexivity.
  - apply sumf_zero; reflexivity.
Qed.

Lemma in_bounds_spec r c ts : in_bounds r c ts = true <-> forall a b v, In (a, b, v) ts -> (a < r)%nat /\ (b < c)%nat.
Proof.
  unfold in_bounds; rewrite forallb_forall; split.
  - intros H a b v Hin; specialize (H _ Hin); cbn in H; apply andb_true_iff in H as [H1 H2].
    apply Nat.ltb_lt in H1; apply Nat.ltb_lt in H2; auto.
  - intros H [[a b] v] Hin; specialize (H _ _ _ Hin); apply andb_true_iff; split; apply Nat.ltb_lt; tauto.
Qed.

Lemma in_bounds_bounded r c ts : in_bounds r c ts = true -> bounded c ts.
Proof. intros H a b v Hin; apply (proj1 (in_bounds_spec r c ts) H _ _ _ Hin). Qed.

Lemma edges_stamped k l a b g : In (a, b, g) (edges_from k l) -> forall t, In t (stamp2 a b g) -> In t (tG_from k l).
Proof.
  revert k; induction l as [|n l IH]; intros k; simpl; [tauto|].
  rewrite in_app_iff; intros [H|H] t Ht; apply in_or_app.
  - left; unfold tG_node; apply in_or_app; left; apply in_flat_map.
    apply in_map_iff in H as ([m r] & E & H); injection E as <- <- <-; exists (m, r); auto.
  - right; eapply IH; eauto.
Qed.

Lemma edges_in_bounds l : in_bounds (List.length l) (List.length l) (tG_from 0 l) = true ->
  forall a b g, In (a, b, g) (edges_from 0 l) -> (a < List.length l)%nat /\ (b < List.length l)%nat.
Proof.
  intros H a b g Hin; pose proof (proj1 (in_bounds_spec _ _ _) H) as H'.
  apply (H' a b (- g)); eapply edges_stamped; eauto; simpl; auto.
Qed.

Lemma G_mulv l x i : in_bounds (List.length l) (List.length l) (tG_from 0 l) = true -> (i < List.length l)%nat ->
  mulv (List.length l) (entry (tG_from 0 l)) x i ==
  esum (fun a b => (ind (a =? i)%nat - ind (b =? i)%nat) * (x a - x b)) l + get_htc l i * x i.
Proof.
  intros Hb Hi; rewrite mulv_triplets by (eapply in_bounds_bounded; eauto).
  rewrite tG_sum.
  2:{ intros k v Hv; destruct (k =? i)%nat; [rewrite Hv; ring|reflexivity]. }
  rewrite (hsum_delta (fun k v => v * x k)) by auto.
  assert (E : forall a b c, a == b -> a + c == b + c) by (intros; lra); apply E.
  apply sumf_ext; intros [[a b] g] _; unfold ind; simpl.
  destruct (a =? i)%nat, (b =? i)%nat; ring.
Qed.

Lemma esum_ext w w' l : (forall a b g, In (a, b, g) (edges_from 0 l) -> w a b == w' a b) -> esum w l == esum w' l.
Proof. intros H; apply sumf_ext; intros [[a b] g] Hin; rewrite (H a b g Hin); reflexivity. Qed.

Lemma esum_zero w l : (forall a b g, In (a, b, g) (edges_from 0 l) -> w a b == 0) -> esum w l == 0.
Proof. intros H; apply sumf_zero; intros [[a b] g] Hin; rewrite (H a b g Hin); ring. Qed.

(** the bilinear form of G *)
Lemma G_form l x y : in_bounds (List.length l) (List.length l) (tG_from 0 l) = true ->
  let n := List.length l in
  sumf (fun i => y i * mulv n (entry (tG_from 0 l)) x i) (seq 0 n) ==
  esum (fun a b => (y a - y b) * (x a - x b)) l + sumf (fun i => get_htc l i * x i * y i) (seq 0 n).
Proof.
  intros Hb n; subst n.
  rewrite (sumf_ext _ (fun i => sumf (fun '(a, b, g) => y i * ((ind (a =? i)%nat - ind (b =? i)%nat) * (x a - x b) * g)) (edges_from 0 l)
                                + get_htc l i * x i * y i)).
  2:{ intros i Hi; apply in_seq in Hi; rewrite G_mulv by (auto; lia); unfold esum.
      rewrite Qmult_plus_distr_r, <- sumf_scal.
      assert (E : forall a b c d, a == b -> c == d -> a + c == b + d) by (intros; lra); apply E; [|ring].
      apply sumf_ext; intros [[a b] g] _; ring. }
  rewrite sumf_plus, sumf_swap.
  assert (E : forall a b c, a == b -> a + c == b + c) by (intros; lra); apply E.
  apply sumf_ext; intros [[a b] g] Hin; destruct (edges_in_bounds l Hb _ _ _ Hin) as [Ha Hb'].
  rewrite (sumf_ext _ (fun i => (if (i =? a)%nat then y i * ((x a - x b) * g) else 0)
                                + - (if (i =? b)%nat then y i * ((x a - x b) * g) else 0))).
  2:{ intros i _; rewrite (Nat.eqb_sym i a), (Nat.eqb_sym i b); unfold ind.
      destruct (a =? i)%nat, (b =? i)%nat; ring. }
  rewrite sumf_plus, sumf_opp, (sumf_delta (fun i => y i * ((x a - x b) * g))), (sumf_delta (fun i => y i * ((x a - x b) * g))) by auto.
  ring.
Qed.

(** * Well-formed networks *)
Definition node_wf (i : nat) (n : node) : Prop :=
  NoDup (akeys (n_ns n)) /\ forall k r, In (k, r) (n_ns n) -> (i <= k)%nat /\ 0 < r.
Definition net_wf (l : network) : Prop := forall i n, nth_error l i = Some n -> node_wf i n.

Lemma edges_from_in k l a b g : In (a, b, g) (edges_from k l) <->
  exists i n r, nth_error l i = Some n /\ a = (k + i)%nat /\ In (b, r) (n_ns n) /\ g = 1 / r.
Proof.
  revert k; induction l as [|n l IH]; intros k; simpl.
  - split; [tauto|]; intros (i & n & r & H & _); destruct i; discriminate.
  - rewrite in_app_iff, in_map_iff, IH; split.
    + intros [([m r] & E & H)|(i & n' & r & H & -> & Hin & ->)].
      * injection E as <- <- <-; exists 0%nat, n, r; rewrite Nat.add_0_r; auto.
      * exists (Datatypes.S i), n', r; rewrite Nat.add_succ_r; auto.
    + intros ([|i] & n' & r & H & -> & Hin & ->); simpl in H.
      * injection H as <-; left; exists (b, r); rewrite Nat.add_0_r; auto.
      * right; exists i, n', r; rewrite Nat.add_succ_r; auto.
Qed.

Lemma edges_pos l : net_wf l -> forall a b g, In (a, b, g) (edges_from 0 l) -> 0 < g /\ (a <= b)%nat.
Proof.
  intros Hwf a b g H; apply edges_from_in in H as (i & n & r & Hn & -> & Hin & ->); simpl.
  destruct (Hwf _ _ Hn) as [_ H']; destruct (H' _ _ Hin) as [Hle Hr]; split; auto.
  unfold Qdiv; rewrite Qmult_1_l; now apply Qinv_lt_0_compat.
Qed.

Lemma upd_length i f l : List.length (upd i f l) = List.length l.
Proof. revert i; induction l as [|n l IH]; intros [|i]; simpl; auto. Qed.

Lemma upd_nth i f l j : nth_error (upd i f l) j = if (i =? j)%nat then option_map f (nth_error l j) else nth_error l j.
Proof.
  revert i j; induction l as [|n l IH]; intros [|i] [|j]; simpl; auto.
  destruct (i =? j)%nat; auto.
Qed.

Lemma aset_keys k v m : akeys (aset k v m) = akeys m.
Proof.
  unfold akeys, aset; rewrite map_map; apply map_ext; intros [a b]; simpl.
  destruct (Nat.eqb_spec a k); auto.
Qed.

Lemma aset_in k v m a b : In (a, b) (aset k v m) -> (a = k /\ b = v) \/ In (a, b) m.
Proof.
  unfold aset; rewrite in_map_iff; intros ([x y] & E & H); simpl in E.
  destruct (x =? k)%nat; [injection E as <- <-; auto|injection E as <- <-; auto].
Qed.

Section Run.
  Context (minR : Q) (HminR : 0 < minR).

  Lemma clamp_pos r : 0 < Qmax r minR.
  Proof. pose proof (Q.le_max_r r minR); lra. Qed.

  Lemma add_neighbor_wf i k r m : (i <= k)%nat -> 0 < r ->
    (NoDup (akeys m) /\ forall k r, In (k, r) m -> (i <= k)%nat /\ 0 < r) ->
    (NoDup (akeys (add_neighbor k r m)) /\ forall k' r', In (k', r') (add_neighbor k r m) -> (i <= k')%nat /\ 0 < r').
  Proof.
    intros Hk Hr [Hnd H]; unfold add_neighbor; destruct (alookup Nat.eqb k m) as [r0|] eqn:E.
    - split; [rewrite aset_keys; auto|].
      intros k' r' Hin; apply aset_in in Hin as [[-> ->]|Hin]; [split; auto|auto].
      apply (alookup_in Nat.eqb nat_eqb_reflect) in E; destruct (H _ _ E) as [_ Hr0].
      assert (0 < / r) by (now apply Qinv_lt_0_compat); assert (0 < / r0) by (now apply Qinv_lt_0_compat).
      unfold Qdiv; rewrite Qmult_1_l; apply Qinv_lt_0_compat; lra.
    - apply (alookup_none Nat.eqb nat_eqb_reflect) in E; split.
      + unfold akeys in *; rewrite map_app; apply nodup_snoc; auto.
      + intros k' r' Hin; apply in_app_iff in Hin as [Hin|[Hin|[]]]; [auto|injection Hin as <- <-; auto].
  Qed.

  Lemma at_node_ok i f l l' : at_node i f l = Ok l' -> l' = upd i f l /\ (i < List.length l)%nat.
  Proof. unfold at_node; destruct (Nat.ltb_spec i (List.length l)); intros [=]; auto. Qed.

  Lemma at_node_wf i f l l' : at_node i f l = Ok l' -> (forall n, n_ns (f n) = n_ns n) -> net_wf l -> net_wf l'.
  Proof.
    intros H Hf Hwf; apply at_node_ok in H as [-> _]; intros j n; rewrite upd_nth.
    destruct (Nat.eqb_spec i j) as [->|]; [|apply Hwf].
    destruct (nth_error l j) as [n'|] eqn:E; simpl; [|discriminate]; intros [= <-].
    unfold node_wf; rewrite Hf; apply Hwf; auto.
  Qed.

  Lemma set_r_ok a b r l l' : set_r minR a b r l = Ok l' ->
    l' = upd (Nat.min a b) (fun n => with_ns (add_neighbor (Nat.max a b) (Qmax r minR) (n_ns n)) n) l /\
    (Nat.min a b < List.length l)%nat.
  Proof.
    unfold set_r; destruct (Nat.ltb_spec b a).
    - intros E; apply at_node_ok in E; rewrite Nat.min_r, Nat.max_l by lia; exact E.
    - intros E; apply at_node_ok in E; rewrite Nat.min_l, Nat.max_r by lia; exact E.
  Qed.

  Lemma step_wf l o l' : step minR l o = Ok l' -> net_wf l -> net_wf l'.
  Proof.
    destruct o; simpl; intros H Hwf; try (eapply at_node_wf; [exact H| |auto]; reflexivity).
    - injection H as <-; intros i n Hn.
      destruct (Nat.ltb_spec i (List.length l)) as [Hlt|Hge].
      + rewrite nth_error_app1 in Hn by auto; auto.
      + rewrite nth_error_app2 in Hn by auto; destruct (i - List.length l)%nat; simpl in Hn;
          [injection Hn as <-; split; [constructor|simpl; tauto]|destruct n0; discriminate].
    - apply set_r_ok in H as [-> _]; intros i n; rewrite upd_nth.
      destruct (Nat.eqb_spec (Nat.min a b) i) as [<-|]; [|apply Hwf].
      destruct (nth_error l (Nat.min a b)) as [n'|] eqn:E; simpl; [|discriminate]; intros [= <-].
      apply (add_neighbor_wf (Nat.min a b)); [lia|apply clamp_pos|apply Hwf; auto].
  Qed.

  Lemma run_wf os l l' : run minR l os = Ok l' -> net_wf l -> net_wf l'.
  Proof.
    revert l; induction os as [|o os IH]; intros l; simpl; [now intros [= <-]|].
    destruct (step minR l o) eqn:E; simpl; try discriminate; eauto using step_wf.
  Qed.

  Lemma net_new_wf n : net_wf (net_new n).
  Proof.
    intros i x H; apply nth_error_In in H; apply repeat_spec in H as ->; split; [constructor|simpl; tauto].
  Qed.

  (** ** Conductances *)
  Lemma add_neighbor_sum (w : nat -> Q) k r m : NoDup (akeys m) -> (forall k r, In (k, r) m -> 0 < r) -> 0 < r ->
    sumf (fun e => w (fst e) * (1 / snd e)) (add_neighbor k r m) ==
    sumf (fun e => w (fst e) * (1 / snd e)) m + w k * (1 / r).
  Proof.
    intros Hnd Hpos Hr; unfold add_neighbor; destruct (alookup Nat.eqb k m) as [r0|] eqn:E.
    2:{ rewrite sumf_app; simpl; lra. }
    unfold aset; rewrite sumf_map.
    assert (Hr0 : 0 < r0) by (apply (Hpos k); apply (alookup_in Nat.eqb nat_eqb_reflect); auto).
    induction m as [|[a b] m IH]; simpl in *; [discriminate|].
    inversion Hnd as [|? ? Hn Hnd']; subst.
    rewrite (Nat.eqb_sym a k); destruct (Nat.eqb_spec k a) as [->|Hne]; simpl.
    - injection E as ->.
      assert (Er : 1 / (1 / (1 / r + 1 / r0)) == 1 / r + 1 / r0).
      { field; repeat split; lra. }
      rewrite Er.
      rewrite (sumf_ext _ (fun e => w (fst e) * (1 / snd e))); [lra|].
      intros [x y] Hin; simpl; destruct (Nat.eqb_spec x a) as [->|]; [|reflexivity].
      exfalso; apply Hn; apply (in_map fst) in Hin; exact Hin.
    - rewrite IH; auto; [lra|]; intros; eapply Hpos; eauto.
  Qed.

  Lemma edges_upd w k i f l n : nth_error l i = Some n ->
    sumf (fun '(a, b, g) => w a b * g) (edges_from k (upd i f l)) ==
    sumf (fun '(a, b, g) => w a b * g) (edges_from k l)
    - sumf (fun e => w (k + i)%nat (fst e) * (1 / snd e)) (n_ns n)
    + sumf (fun e => w (k + i)%nat (fst e) * (1 / snd e)) (n_ns (f n)).
  Proof.
    revert k i; induction l as [|x l IH]; intros k [|i]; simpl; try discriminate.
    - intros [= ->]; rewrite !sumf_app, !sumf_map, Nat.add_0_r; simpl; lra.
    - intros H; rewrite !sumf_app, (IH (Datatypes.S k) i H), Nat.add_succ_r; simpl; lra.
  Qed.

  Lemma set_r_esum w a b r l l' : set_r minR a b r l = Ok l' -> net_wf l ->
    esum w l' == esum w l + w (Nat.min a b) (Nat.max a b) * (1 / Qmax r minR).
  Proof.
    intros H Hwf; apply set_r_ok in H as [-> Hlt].
    destruct (nth_error l (Nat.min a b)) as [n|] eqn:E; [|apply nth_error_None in E; lia].
    unfold esum; rewrite (edges_upd w 0 _ _ _ n E); simpl.
    destruct (Hwf _ _ E) as [Hnd Hr].
    rewrite (add_neighbor_sum (w (Nat.min a b))); [lra|auto|apply Hr|apply clamp_pos].
  Qed.

  Lemma at_node_esum w i f l l' : at_node i f l = Ok l' -> (forall n, n_ns (f n) = n_ns n) -> esum w l' == esum w l.
  Proof.
    intros H Hf; apply at_node_ok in H as [-> Hlt].
    destruct (nth_error l i) as [n|] eqn:E; [|apply nth_error_None in E; lia].
    unfold esum; rewrite (edges_upd w 0 i f l n E), Hf; lra.
  Qed.

  Lemma edges_from_app k l1 l2 : edges_from k (l1 ++ l2) = edges_from k l1 ++ edges_from (k + List.length l1) l2.
  Proof.
    revert k; induction l1 as [|n l1 IH]; intros k; simpl; [rewrite Nat.add_0_r; auto|].
    rewrite IH, <- app_assoc, Nat.add_succ_r; reflexivity.
  Qed.

  Definition op_weight (w : nat -> nat -> Q) (o : op) : Q :=
    match o with SetR a b r => w (Nat.min a b) (Nat.max a b) * (1 / Qmax r minR) | _ => 0 end.

  Lemma step_esum w l o l' : step minR l o = Ok l' -> net_wf l -> esum w l' == esum w l + op_weight w o.
  Proof.
    destruct o; simpl; intros H Hwf; try (rewrite (at_node_esum w _ _ _ _ H); [lra|reflexivity]).
    - injection H as <-; unfold esum; rewrite edges_from_app, sumf_app; simpl; lra.
    - now apply set_r_esum.
  Qed.

  Lemma run_esum w os l l' : run minR l os = Ok l' -> net_wf l -> esum w l' == esum w l + sumf (op_weight w) os.
  Proof.
    revert l; induction os as [|o os IH]; intros l; simpl; [intros [= <-] _; lra|].
    destruct (step minR l o) as [l1| | |] eqn:E; simpl; try discriminate; intros H Hwf.
    rewrite (IH l1 H (step_wf _ _ _ E Hwf)), (step_esum w _ _ _ E Hwf); lra.
  Qed.

  Lemma edges_new k n : edges_from k (net_new n) = [].
  Proof. revert k; unfold net_new; induction n as [|n IH]; intros k; simpl; auto. Qed.

  (** ** Frames *)
  Lemma set_r_frame a b r l l' : set_r minR a b r l = Ok l' ->
    List.length l' = List.length l /\
    forall i, match nth_error l i, nth_error l' i with
              | Some n, Some n' => n_scen n' = n_scen n /\ n_t n' = n_t n /\ n_c n' = n_c n /\ n_hf n' = n_hf n /\ n_htc n' = n_htc n
              | None, None => True
              | _, _ => False
              end.
  Proof.
    intros H; apply set_r_ok in H as [-> Hlt]; rewrite upd_length; split; auto.
    intros i; rewrite upd_nth; destruct (_ =? i)%nat; destruct (nth_error l i); simpl; auto 6.
  Qed.

  Definition same_scalars (l l' : network) : Prop :=
    map (fun n => (n_scen n, n_t n, n_c n, n_hf n, n_htc n)) l' = map (fun n => (n_scen n, n_t n, n_c n, n_hf n, n_htc n)) l.

  Lemma set_r_scalars a b r l l' : set_r minR a b r l = Ok l' -> same_scalars l l'.
  Proof.
    intros H; apply set_r_ok in H as [-> _]; unfold same_scalars.
    generalize (Nat.min a b); induction l as [|n l IH]; intros [|i]; simpl; auto; f_equal; auto.
  Qed.

  Lemma scalars_htc l l' i : same_scalars l l' -> get_htc l' i = get_htc l i /\ get_hf l' i = get_hf l i /\ List.length l' = List.length l.
  Proof.
    unfold same_scalars, get_htc, get_hf; intros H.
    set (F := fun n => (n_scen n, n_t n, n_c n, n_hf n, n_htc n)) in H.
    assert (E : F (nth i l' node0) = F (nth i l node0)) by (rewrite <- !(map_nth F), H; reflexivity).
    injection E as _ _ _ E1 E2; split; [exact E2|split; [exact E1|]].
    apply (f_equal (@List.length _)) in H; rewrite !map_length in H; exact H.
  Qed.
End Run.

Lemma argmin (x : nat -> Q) n : (0 < n)%nat -> exists i, (i < n)%nat /\ forall j, (j < n)%nat -> x i <= x j.
Proof.
  induction n as [|n IH]; [lia|]; intros _; destruct n as [|n].
  - exists 0%nat; split; auto; intros j Hj; replace j with 0%nat by lia; lra.
  - destruct IH as (i & Hi & Hm); [lia|].
    destruct (Qlt_le_dec (x (Datatypes.S n)) (x i)) as [Hlt|Hle].
    + exists (Datatypes.S n); split; auto; intros j Hj.
      destruct (Nat.eq_dec j (Datatypes.S n)) as [->|]; [lra|]; specialize (Hm j ltac:(lia)); lra.
    + exists i; split; auto; intros j Hj.
      destruct (Nat.eq_dec j (Datatypes.S n)) as [->|]; [lra|]; apply Hm; lia.
Qed.

Lemma tG_bounds N k l : (k + List.length l <= N)%nat ->
  (forall a b g, In (a, b, g) (edges_from k l) -> (a < N)%nat /\ (b < N)%nat) ->
  forall a b v, In (a, b, v) (tG_from k l) -> (a < N)%nat /\ (b < N)%nat.
Proof.
  revert k; induction l as [|n l IH]; intros k Hk He a b v; simpl in *; [tauto|].
  rewrite in_app_iff; intros [H|H].
  - unfold tG_node in H; apply in_app_iff in H as [H|H].
    + apply in_flat_map in H as ([m r] & Hin & H).
      destruct (He k m (1 / r)) as [H1 H2].
      { apply in_or_app; left; apply in_map_iff; exists (m, r); auto. }
      simpl in H; destruct H as [H|[H|[H|[H|[]]]]]; injection H as <- <- <-; auto.
    + destruct (negb _); simpl in H; [|tauto]; destruct H as [H|[]]; injection H as <- <- <-; lia.
  - apply (IH (Datatypes.S k)) with v; auto; [lia|].
    intros a' b' g' Hin; apply (He a' b' g'); apply in_or_app; auto.
Qed.

Lemma tC_bounds N k l : (k + List.length l <= N)%nat -> forall a b v, In (a, b, v) (tC_from k l) -> (a < N)%nat /\ (b < N)%nat.
Proof.
  revert k; induction l as [|n l IH]; intros k Hk a b v; simpl in *; [tauto|].
  rewrite in_app_iff; intros [H|H].
  - destruct (Qltb _ _); simpl in H; [|tauto]; destruct H as [H|[]]; injection H as <- <- <-; lia.
  - apply (IH (Datatypes.S k)) with v; auto; lia.
Qed.

Lemma tB_bounds bonds N S k s l : (k + List.length l <= N)%nat -> (s + source_count bonds l <= S)%nat ->
  forall a b v, In (a, b, v) (tB_from bonds k s l) -> (a < N)%nat /\ (b < S)%nat.
Proof.
  unfold source_count; revert k s; induction l as [|n l IH]; intros k s Hk Hs a b v; simpl in *; [tauto|].
  destruct (selected bonds n); simpl in *.
  - intros [H|H]; [injection H as <- <- <-; lia|].
    apply (IH (Datatypes.S k) (Datatypes.S s)) with v; auto; lia.
  - apply (IH (Datatypes.S k) s); auto; lia.
Qed.
