From Verif Require Import Base LookupTable_Model LookupTable_Spec.
From Coq Require Import Qring Qfield Setoid Lqa.
Local Open Scope Q_scope.

Lemma qltb_spec a b : reflect (a < b) (qltb a b).
Proof.
  unfold qltb; destruct (Qle_bool b a) eqn:E; constructor.
  - apply Qle_bool_iff in E; lra.
  - apply Qnot_le_lt; intros H; apply Qle_bool_iff in H; congruence.
Qed.

(** the same function by structural recursion over neighbours *)
Fixpoint interp (a : Q * Q) (r : table) (x : Q) : Q :=
  match r with
  | [] => snd a
  | b :: r' => if qltb (fst b) x then interp b r' x else if qltb (fst a) x then lin a b x else snd a
  end.

Definition last_key (a : Q * Q) (r : table) : Q := fst (last (a :: r) (0, 0)).

Lemma last_cons {A} (a b : A) r d : last (a :: b :: r) d = last (b :: r) d.
Proof. reflexivity. Qed.

Lemma sorted_tail {V} (a : Q * V) r : sorted (a :: r) -> sorted r.
Proof. destruct r; simpl; tauto. Qed.

Lemma sorted_last a r : sorted (a :: r) -> fst a <= last_key a r.
Proof.
  revert a; induction r as [|b r IH]; intros a H; [unfold last_key; simpl; lra|].
  destruct H as [H1 H2]; specialize (IH b H2).
  assert (last_key a (b :: r) = last_key b r) as -> by reflexivity; lra.
Qed.

Lemma lb_from_interp a r x : sorted (a :: r) -> fst a < x -> x <= last_key a r ->
  r <> [] -> lb_from a r x = Ok (interp a r x).
Proof.
  revert a; induction r as [|b r IH]; intros a Hs Hx Hl Hn; [congruence|].
  cbn [lb_from interp]; destruct (qltb_spec (fst b) x) as [Hb|Hb].
  - destruct r as [|c r].
    + unfold last_key in Hl; simpl in Hl; lra.
    + apply IH; auto; [apply (sorted_tail a), Hs|discriminate].
  - destruct (qltb_spec (fst a) x); [reflexivity|lra].
Qed.

Lemma interp_above a r x : last_key a r < x -> sorted (a :: r) -> interp a r x = snd (last (a :: r) (0, 0)).
Proof.
  revert a; induction r as [|b r IH]; intros a Hx Hs; auto.
  cbn [interp]; assert (Hb : fst b < x).
  { pose proof (sorted_last b r (sorted_tail a _ Hs)).
    assert (last_key a (b :: r) = last_key b r) as E by reflexivity; rewrite E in Hx; lra. }
  destruct (qltb_spec (fst b) x); [|lra]; apply IH; auto; apply (sorted_tail a), Hs.
Qed.

Lemma interp_below a r x : x <= fst a -> sorted (a :: r) -> interp a r x = snd a.
Proof.
  destruct r as [|b r]; intros Hx Hs; auto; destruct Hs as [H _]; cbn [interp].
  destruct (qltb_spec (fst b) x); [lra|]; destruct (qltb_spec (fst a) x); [lra|auto].
Qed.

Lemma lookup_interp a r x : sorted (a :: r) -> lookup (a :: r) x = Ok (interp a r x).
Proof.
  intros Hs; destruct r as [|b r]; [destruct a; reflexivity|].
  destruct a as [k0 v0]; unfold lookup.
  destruct (last ((k0, v0) :: b :: r) (0, 0)) as [kn vn] eqn:El.
  destruct (qltb_spec x k0) as [H1|H1].
  - rewrite interp_below; simpl; auto; lra.
  - destruct (qltb_spec kn x) as [H2|H2].
    + rewrite interp_above; auto; [rewrite El; auto|unfold last_key; rewrite El; auto].
    + destruct (qltb_spec k0 x) as [H3|H3].
      * apply lb_from_interp; auto; [|discriminate]; unfold last_key; rewrite El; simpl; lra.
      * rewrite interp_below; simpl; auto; lra.
Qed.

Lemma lin_at_left a b x : fst a < fst b -> x == fst a -> lin a b x == snd a.
Proof. intros H E; unfold lin; rewrite E; field; lra. Qed.

Lemma lin_at_right a b x : fst a < fst b -> x == fst b -> lin a b x == snd b.
Proof. intros H E; unfold lin; rewrite E; field; lra. Qed.

Lemma interp_neighbours a r x b c : sorted (a :: r) -> neighbours (a :: r) b c ->
  fst b <= x -> x <= fst c -> interp a r x == lin b c x.
Proof.
  revert a; induction r as [|d r IH]; intros a Hs (pre & post & E) H1 H2.
  - destruct pre as [|? [|? ?]]; discriminate.
  - destruct pre as [|p pre].
    + injection E as -> -> ->; destruct Hs as [Hbc _]; cbn [interp].
      destruct (qltb_spec (fst c) x); [lra|].
      destruct (qltb_spec (fst b) x); [reflexivity|].
      symmetry; apply lin_at_left; auto; lra.
    + injection E as -> E.
      assert (Hd : fst d <= fst b).
      { clear - E Hs; apply sorted_tail in Hs; rewrite E in Hs; clear - E Hs.
        destruct pre as [|e pre]; injection E as -> _; [lra|].
        simpl in Hs.
        assert (G : forall (pre : table) e b r, sorted (e :: pre ++ b :: r) -> fst e < fst b).
        { clear; induction pre as [|f pre IH]; simpl; intros e b r [H1 H2]; auto.
          apply IH in H2; lra. }
        apply (G pre e b (c :: post)) in Hs; lra. }
      cbn [interp]; destruct (qltb_spec (fst d) x) as [Hx|Hx].
      * apply IH; auto; [apply (sorted_tail p), Hs|exists pre, post; auto].
      * assert (x == fst d) by lra.
        assert (fst d == fst b) by lra.
        destruct pre as [|e pre].
        { injection E as -> ->; destruct Hs as [Hpd [Hbc _]].
          destruct (qltb_spec (fst p) x); [|lra].
          rewrite lin_at_right, lin_at_left; auto; reflexivity. }
        { injection E as -> ->.
          assert (G : forall (pre : table) e b r, sorted (e :: pre ++ b :: r) -> fst e < fst b).
          { clear; induction pre as [|f pre IH]; simpl; intros e b r [H1 H2]; auto.
            apply IH in H2; lra. }
          apply sorted_tail, (G pre e b (c :: post)) in Hs; lra. }
Qed.

Lemma lin_between a b x : fst a < fst b -> fst a <= x -> x <= fst b ->
  (snd a <= snd b -> snd a <= lin a b x <= snd b) /\ (snd b <= snd a -> snd b <= lin a b x <= snd a).
Proof.
  intros Hab H1 H2.
  assert (E : lin a b x == snd a + ((x - fst a) / (fst b - fst a)) * (snd b - snd a)) by (unfold lin; field; lra).
  assert (Ht : 0 <= (x - fst a) / (fst b - fst a) <= 1).
  { split; [apply Qle_shift_div_l; lra|apply Qle_shift_div_r; lra]. }
  set (s := (x - fst a) / (fst b - fst a)) in *.
  split; intros H; rewrite E; split; nra.
Qed.

Lemma lin_mono a b x y : fst a < fst b -> snd a <= snd b -> x <= y -> lin a b x <= lin a b y.
Proof.
  intros Hab Hv Hxy.
  assert (Ex : lin a b x == snd a + (x - fst a) * ((snd b - snd a) / (fst b - fst a))) by (unfold lin; field; lra).
  assert (Ey : lin a b y == snd a + (y - fst a) * ((snd b - snd a) / (fst b - fst a))) by (unfold lin; field; lra).
  assert (0 <= (snd b - snd a) / (fst b - fst a)) by (apply Qle_shift_div_l; lra).
  rewrite Ex, Ey; set (s := (snd b - snd a) / (fst b - fst a)) in *; nra.
Qed.

Lemma interp_ge a r x : sorted (a :: r) -> nondecreasing (a :: r) -> snd a <= interp a r x.
Proof.
  revert a; induction r as [|b r IH]; intros a Hs Hn; [simpl; lra|].
  destruct Hs as [H1 H2], Hn as [H3 H4]; cbn [interp].
  destruct (qltb_spec (fst b) x) as [Hb|Hb].
  - specialize (IH b H2 H4); lra.
  - destruct (qltb_spec (fst a) x) as [Ha|Ha]; [|lra].
    apply lin_between; auto; lra.
Qed.

Lemma interp_mono a r x y : sorted (a :: r) -> nondecreasing (a :: r) -> x <= y -> interp a r x <= interp a r y.
Proof.
  revert a; induction r as [|b r IH]; intros a Hs Hn Hxy; [simpl; lra|].
  pose proof Hs as Hs0; pose proof Hn as Hn0.
  destruct Hs as [H1 H2], Hn as [H3 H4]; cbn [interp].
  destruct (qltb_spec (fst b) x) as [Hb|Hb].
  - destruct (qltb_spec (fst b) y) as [Hy|Hy]; [apply IH; auto|lra].
  - destruct (qltb_spec (fst b) y) as [Hy|Hy].
    + pose proof (interp_ge b r y H2 H4).
      destruct (qltb_spec (fst a) x) as [Ha|Ha]; [|lra].
      assert (lin a b x <= snd b) by (apply lin_between; auto; lra); lra.
    + destruct (qltb_spec (fst a) x) as [Ha|Ha]; destruct (qltb_spec (fst a) y) as [Ha'|Ha']; try lra.
      * apply lin_mono; auto.
      * apply lin_between; auto; lra.
Qed.

(** AddSample keeps the table sorted, first write wins *)
Definition head_above {V} (k : Q) (l : list (Q * V)) : Prop := match l with [] => True | (k', _) :: _ => k < k' end.

Lemma sorted_cons {V} (a : Q * V) l : sorted (a :: l) <-> head_above (fst a) l /\ sorted l.
Proof. destruct l as [|[k v] l]; simpl; tauto. Qed.

Lemma emplace_head {V} k0 k (v : V) l : k0 < k -> head_above k0 l -> head_above k0 (tbl_emplace k v l).
Proof.
  destruct l as [|[k' v'] l]; simpl; intros H1 H2; auto.
  destruct (qltb_spec k k'); simpl; auto; destruct (qltb_spec k' k); simpl; auto.
Qed.

Lemma emplace_sorted {V} k (v : V) l : sorted l -> sorted (tbl_emplace k v l).
Proof.
  induction l as [|[k' v'] l IH]; intros Hs; [simpl; auto|].
  cbn [tbl_emplace]; destruct (qltb_spec k k').
  - apply sorted_cons; split; simpl; auto.
  - destruct (qltb_spec k' k); auto.
    apply sorted_cons in Hs as [H1 H2]; apply sorted_cons; split; auto; apply emplace_head; auto.
Qed.

Lemma table_of_sorted {V} (hist : list (Q * V)) : sorted (table_of hist).
Proof.
  unfold table_of; enough (G : forall t, sorted t -> sorted (fold_left add_sample hist t)) by (apply G; simpl; auto).
  induction hist as [|s hist IH]; simpl; auto; intros t Ht; apply IH, emplace_sorted, Ht.
Qed.

(** the stored value at a key *)
Fixpoint value_at {V} (t : list (Q * V)) (k : Q) : option V :=
  match t with
  | [] => None
  | (k', v) :: r => if Qeq_bool k' k then Some v else value_at r k
  end.

Lemma Qeq_bool_spec a b : reflect (a == b) (Qeq_bool a b).
Proof.
  destruct (Qeq_bool a b) eqn:E; constructor; [apply Qeq_bool_iff, E|].
  intros H; apply Qeq_bool_iff in H; congruence.
Qed.

Lemma value_at_above {V} k (l : list (Q * V)) : head_above k l -> sorted l -> forall k', k' <= k -> value_at l k' = None.
Proof.
  revert k; induction l as [|[k1 v1] l IH]; intros k H Hs k' E; auto.
  cbn [value_at]; simpl in H; destruct (Qeq_bool_spec k1 k'); [lra|].
  apply sorted_cons in Hs as [H1 H2]; apply (IH k1); auto; lra.
Qed.

Lemma value_at_emplace {V} k (v : V) l k' : sorted l ->
  value_at (tbl_emplace k v l) k' =
  match value_at l k' with Some w => Some w | None => if Qeq_bool k k' then Some v else None end.
Proof.
  induction l as [|[k1 v1] l IH]; intros Hs; [reflexivity|].
  cbn [tbl_emplace]; destruct (qltb_spec k k1) as [H|H].
  - cbn [value_at]; destruct (Qeq_bool_spec k k') as [E|E].
    + destruct (Qeq_bool_spec k1 k'); [lra|].
      apply sorted_cons in Hs as [H1 H2]; rewrite (value_at_above k1 l H1 H2); [reflexivity|lra].
    + destruct (Qeq_bool k1 k'); auto; destruct (value_at l k'); auto.
  - destruct (qltb_spec k1 k) as [H'|H'].
    + cbn [value_at]; destruct (Qeq_bool k1 k'); auto; apply IH; apply sorted_cons in Hs; tauto.
    + assert (E : k == k1) by lra; cbn [value_at].
      destruct (Qeq_bool_spec k1 k') as [E1|E1]; auto.
      destruct (Qeq_bool_spec k k') as [E2|E2]; [lra|]; destruct (value_at l k'); auto.
Qed.

Lemma value_at_history {V} (hist : list (Q * V)) k : value_at (table_of hist) k = first_write hist k.
Proof.
  unfold table_of.
  enough (G : forall t, sorted t -> value_at (fold_left add_sample hist t) k =
              match value_at t k with Some w => Some w | None => first_write hist k end) by (apply (G []); simpl; auto).
  induction hist as [|[k' v] hist IH]; intros t Ht; simpl; [destruct (value_at t k); auto|].
  rewrite IH by apply emplace_sorted, Ht; unfold add_sample; simpl.
  rewrite value_at_emplace by auto; destruct (value_at t k); auto.
  destruct (Qeq_bool k' k); auto.
Qed.

Lemma value_at_in {V} (t : list (Q * V)) k v : value_at t k = Some v -> exists k', k' == k /\ In (k', v) t.
Proof.
  induction t as [|[k1 v1] t IH]; simpl; intros H; [discriminate|].
  destruct (Qeq_bool_spec k1 k) as [E|E].
  - injection H as ->; exists k1; auto.
  - destruct (IH H) as (k' & H1 & H2); exists k'; auto.
Qed.

Lemma interp_at_sample a r k v x : sorted (a :: r) -> In (k, v) (a :: r) -> x == k -> interp a r x == v.
Proof.
  intros Hs [->|Hin] E.
  - rewrite interp_below; simpl; auto; [reflexivity|simpl; lra].
  - apply in_split in Hin as (l1 & l2 & Hr).
    assert (Hn : exists b, neighbours (a :: r) b (k, v) /\ fst b < k).
    { subst r; clear E; revert a Hs; induction l1 as [|c l1 IH]; intros a Hs.
      - exists a; split; [exists [], l2; reflexivity|destruct Hs; auto].
      - destruct (IH c) as (b & (p & q & Hb) & Hlt); [apply (sorted_tail a), Hs|].
        exists b; split; auto; exists (a :: p), q; simpl; f_equal; exact Hb. }
    destruct Hn as (b & Hb & Hlt).
    rewrite (interp_neighbours a r x b (k, v)); auto; [apply lin_at_right; auto|lra|simpl; lra].
Qed.
