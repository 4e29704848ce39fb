From Verif Require Import Base QSum LookupTable_Model LookupTable_Spec LookupTable_Proofs Keyed_Model Reduction_Model Reduction_Spec.

Lemma half_floor_range x n : (x < n)%nat -> (half_floor x < half_ceil n)%nat.
Proof.
  intros H; unfold half_floor, half_ceil.
  pose proof (Nat.div_mod x 2 ltac:(lia)); pose proof (Nat.mod_upper_bound x 2 ltac:(lia)).
  pose proof (Nat.div_mod (n + 1) 2 ltac:(lia)); pose proof (Nat.mod_upper_bound (n + 1) 2 ltac:(lia)). lia.
Qed.
Lemma half_floor_spec x X : half_floor x = X <-> (x = 2 * X \/ x = 2 * X + 1)%nat.
Proof.
  unfold half_floor; pose proof (Nat.div_mod x 2 ltac:(lia)); pose proof (Nat.mod_upper_bound x 2 ltac:(lia)); lia.
Qed.
Lemma half_ceil_spec n : (n <= 2 * half_ceil n < n + 2)%nat.
Proof.
  unfold half_ceil; pose proof (Nat.div_mod (n + 1) 2 ltac:(lia)); pose proof (Nat.mod_upper_bound (n + 1) 2 ltac:(lia)); lia.
Qed.

Lemma in_all_cells w h x y : In (x, y) (all_cells w h) <-> (x < w /\ y < h)%nat.
Proof.
  unfold all_cells; rewrite in_flat_map; split.
  - intros (x' & Hx & Hin); apply in_map_iff in Hin as (y' & [= <- <-] & Hy); apply in_seq in Hx; apply in_seq in Hy; lia.
  - intros [Hx Hy]; exists x; split; [apply in_seq; lia|]; apply in_map_iff; exists y; split; auto; apply in_seq; lia.
Qed.

Definition maps (X Y : nat) (c : nat * nat) : bool := ((half_floor (fst c) =? X) && (half_floor (snd c) =? Y))%nat%bool.

Lemma accumulate_ok comb d cs : forall g, (forall x y, In (x, y) cs -> (half_floor x < gr_w g /\ half_floor y < gr_h g)%nat) ->
  exists g', accumulate comb d cs g = Ok g' /\ gr_w g' = gr_w g /\ gr_h g' = gr_h g /\
  forall X Y, gr_at g' X Y = fold_left comb (map (fun c => gr_at d (fst c) (snd c)) (filter (maps X Y) cs)) (gr_at g X Y).
Proof.
  induction cs as [|[x y] cs IH]; intros g H; [exists g; repeat split|].
  cbn [accumulate]; destruct (H x y (or_introl eq_refl)) as [Hx Hy].
  unfold grid_put; apply Nat.ltb_lt in Hx, Hy; rewrite Hx, Hy; cbn [andb bind].
  match goal with |- context [accumulate comb d cs ?g1] => destruct (IH g1) as (g' & E & E1 & E2 & E3) end.
  { intros x' y' Hin; simpl; apply H; now right. }
  exists g'; split; [exact E|split; [exact E1|split; [exact E2|]]].
  intros X Y; rewrite E3; cbn [gr_at filter]; unfold maps at 2; cbn [fst snd].
  rewrite (Nat.eqb_sym (half_floor x) X), (Nat.eqb_sym (half_floor y) Y).
  destruct (Nat.eqb_spec X (half_floor x)) as [->|], (Nat.eqb_spec Y (half_floor y)) as [->|]; cbn [andb]; auto.
Qed.

Lemma fold_plus (l : list Q) : forall a, fold_left Qplus l a == a + sumf (fun q => q) l.
Proof. induction l as [|q l IH]; intros a; simpl; [lra|]; rewrite IH; lra. Qed.

Lemma count_ok sy size cs : forall c, (forall x y, In (x, y) cs -> (half_floor x * sy + half_floor y < size)%nat) ->
  exists c', count_cells sy size cs c = Ok c' /\
  forall i, c' i = (c i + List.length (filter (fun p => (half_floor (fst p) * sy + half_floor (snd p) =? i)%nat) cs))%nat.
Proof.
  induction cs as [|[x y] cs IH]; intros c H; [exists c; split; [reflexivity|intros; simpl; lia]|].
  cbn [count_cells]; cbv zeta; pose proof (H x y (or_introl eq_refl)) as Hlt; apply Nat.ltb_lt in Hlt; rewrite Hlt.
  match goal with |- context [count_cells sy size cs ?c1] => destruct (IH c1) as (c' & E & E1) end.
  { intros; apply H; now right. }
  exists c'; split; [exact E|]; intros i; rewrite E1; cbn [filter fst snd].
  rewrite (Nat.eqb_sym _ i); destruct (i =? half_floor x * sy + half_floor y)%nat; cbn [List.length]; lia.
Qed.

Lemma flat_inj sy a b a' b' : (b < sy)%nat -> (b' < sy)%nat -> (a * sy + b = a' * sy + b')%nat -> a = a' /\ b = b'.
Proof.
  intros Hb Hb' E; destruct (lt_eq_lt_dec a a') as [[H|H]|H].
  - pose proof (Nat.mul_le_mono_r (Datatypes.S a) a' sy ltac:(lia)); simpl in *; lia.
  - subst; lia.
  - pose proof (Nat.mul_le_mono_r (Datatypes.S a') a sy ltac:(lia)); simpl in *; lia.
Qed.

Definition fine (d : grid) (X Y : nat) : list (nat * nat) := filter (maps X Y) (all_cells (gr_w d) (gr_h d)).

Lemma in_fine d X Y x y : In (x, y) (fine d X Y) <-> child d X Y x y.
Proof.
  unfold fine, child; rewrite filter_In, in_all_cells; unfold maps; cbn [fst snd].
  rewrite andb_true_iff, !Nat.eqb_eq, !half_floor_spec; tauto.
Qed.

Lemma fine_nonempty d X Y : (X < half_ceil (gr_w d))%nat -> (Y < half_ceil (gr_h d))%nat -> child d X Y (2 * X) (2 * Y).
Proof.
  intros HX HY; pose proof (half_ceil_spec (gr_w d)); pose proof (half_ceil_spec (gr_h d)); unfold child; lia.
Qed.

Lemma cells_in_range d x y : In (x, y) (all_cells (gr_w d) (gr_h d)) ->
  (half_floor x < half_ceil (gr_w d) /\ half_floor y < half_ceil (gr_h d))%nat.
Proof. rewrite in_all_cells; intros [Hx Hy]; split; now apply half_floor_range. Qed.

Lemma reduce_accumulate comb d : exists g, accumulate comb d (all_cells (gr_w d) (gr_h d)) (mkGrid (half_ceil (gr_w d)) (half_ceil (gr_h d)) (fun _ _ => 0)) = Ok g /\
  gr_w g = half_ceil (gr_w d) /\ gr_h g = half_ceil (gr_h d) /\
  forall X Y, gr_at g X Y = fold_left comb (map (fun c => gr_at d (fst c) (snd c)) (fine d X Y)) 0.
Proof.
  destruct (accumulate_ok comb d (all_cells (gr_w d) (gr_h d)) (mkGrid (half_ceil (gr_w d)) (half_ceil (gr_h d)) (fun _ _ => 0))) as (g & E & E1 & E2 & E3).
  { intros x y H; simpl; now apply cells_in_range. }
  exists g; repeat split; auto.
Qed.

Lemma reduce_average d : exists g, reduce_grid Average d = Ok g /\ gr_w g = half_ceil (gr_w d) /\ gr_h g = half_ceil (gr_h d) /\
  forall X Y, (X < gr_w g)%nat -> (Y < gr_h g)%nat ->
  gr_at g X Y == sumf (fun c => gr_at d (fst c) (snd c)) (fine d X Y) / of_nat (List.length (fine d X Y)).
Proof.
  unfold reduce_grid; cbv zeta; cbn [gr_w gr_h].
  destruct (reduce_accumulate Qplus d) as (s & E & E1 & E2 & E3); rewrite E; cbn [bind].
  destruct (count_ok (half_ceil (gr_h d)) (half_ceil (gr_w d) * half_ceil (gr_h d)) (all_cells (gr_w d) (gr_h d)) (fun _ => 0%nat)) as (c & Ec & Ec').
  { intros x y H; apply cells_in_range in H as [Hx Hy].
    pose proof (Nat.mul_le_mono_r (Datatypes.S (half_floor x)) _ (half_ceil (gr_h d)) Hx); simpl in *; lia. }
  rewrite Ec; cbn [bind]; eexists; split; [reflexivity|]; cbn [gr_w gr_h gr_at]; split; [auto|split; [auto|]].
  intros X Y HX HY; rewrite E3, Ec', Nat.add_0_l.
  assert (F : filter (fun p => (half_floor (fst p) * half_ceil (gr_h d) + half_floor (snd p) =? X * half_ceil (gr_h d) + Y)%nat) (all_cells (gr_w d) (gr_h d)) = fine d X Y).
  { unfold fine; apply filter_ext_in; intros [x y] Hin; apply cells_in_range in Hin as [Hx Hy]; unfold maps; cbn [fst snd].
    destruct (Nat.eqb_spec (half_floor x * half_ceil (gr_h d) + half_floor y) (X * half_ceil (gr_h d) + Y)) as [Eq|Ne].
    - apply flat_inj in Eq as [E4 E5]; auto; rewrite E4, E5, !Nat.eqb_refl; reflexivity.
    - symmetry; apply andb_false_iff; destruct (Nat.eqb_spec (half_floor x) X) as [E4|]; [|auto].
      destruct (Nat.eqb_spec (half_floor y) Y) as [E5|]; [congruence|auto]. }
  rewrite F, fold_plus, sumf_map, Qplus_0_l; reflexivity.
Qed.

(** sum over the coarse cells of the sums over their fine cells *)
Lemma sumf_all_cells (f : nat * nat -> Q) w h : sumf f (all_cells w h) == sumf (fun x => sumf (fun y => f (x, y)) (seq 0 h)) (seq 0 w).
Proof. unfold all_cells; rewrite sumf_flat_map; apply sumf_ext; intros x _; rewrite sumf_map; reflexivity. Qed.

Lemma fine_total d :
  sumf (fun X => sumf (fun Y => sumf (fun c => gr_at d (fst c) (snd c)) (fine d X Y)) (seq 0 (half_ceil (gr_h d)))) (seq 0 (half_ceil (gr_w d)))
  == sumf (fun c => gr_at d (fst c) (snd c)) (all_cells (gr_w d) (gr_h d)).
Proof.
  set (v := fun c : nat * nat => gr_at d (fst c) (snd c)); set (L := all_cells (gr_w d) (gr_h d)).
  rewrite (sumf_ext _ (fun X => sumf (fun Y => sumf (fun c => if maps X Y c then v c else 0) L) (seq 0 (half_ceil (gr_h d))))).
  2:{ intros X _; apply sumf_ext; intros Y _; unfold fine; rewrite sumf_filter; reflexivity. }
  rewrite (sumf_ext _ (fun X => sumf (fun c => sumf (fun Y => if maps X Y c then v c else 0) (seq 0 (half_ceil (gr_h d)))) L)).
  2:{ intros X _; rewrite sumf_swap; reflexivity. }
  rewrite sumf_swap; apply sumf_ext; intros [x y] Hin; apply cells_in_range in Hin as [Hx Hy].
  rewrite (sumf_ext _ (fun X => if (X =? half_floor x)%nat then v (x, y) else 0)).
  - apply (sumf_delta (fun _ => v (x, y))); auto.
  - intros X _; unfold maps; cbn [fst snd]; rewrite (Nat.eqb_sym X).
    destruct (half_floor x =? X)%nat; cbn [andb].
    + rewrite (sumf_ext _ (fun Y => if (Y =? half_floor y)%nat then v (x, y) else 0)) by (intros Y _; rewrite (Nat.eqb_sym Y); reflexivity).
      apply (sumf_delta (fun _ => v (x, y))); auto.
    + apply sumf_zero; intros; reflexivity.
Qed.

Lemma fold_max_spec (l : list Q) : forall a, (a <= fold_left Qmax l a) /\ (forall q, In q l -> q <= fold_left Qmax l a) /\
  (fold_left Qmax l a == a \/ exists q, In q l /\ fold_left Qmax l a == q).
Proof.
  induction l as [|q l IH]; intros a; simpl; [repeat split; [lra|tauto|left; lra]|].
  destruct (IH (Qmax a q)) as (H1 & H2 & H3).
  pose proof (Q.le_max_l a q); pose proof (Q.le_max_r a q).
  split; [lra|split].
  - intros p [<-|Hp]; [lra|auto].
  - destruct H3 as [H3|(p & Hp & H3)]; [|right; exists p; auto].
    destruct (Q.max_spec a q) as [[_ E]|[_ E]]; [right; exists q; split; [auto|lra]|left; lra].
Qed.
Lemma fold_min_spec (l : list Q) : forall a, (fold_left Qmin l a <= a) /\ (forall q, In q l -> fold_left Qmin l a <= q) /\
  (fold_left Qmin l a == a \/ exists q, In q l /\ fold_left Qmin l a == q).
Proof.
  induction l as [|q l IH]; intros a; simpl; [repeat split; [lra|tauto|left; lra]|].
  destruct (IH (Qmin a q)) as (H1 & H2 & H3).
  pose proof (Q.le_min_l a q); pose proof (Q.le_min_r a q).
  split; [lra|split].
  - intros p [<-|Hp]; [lra|auto].
  - destruct H3 as [H3|(p & Hp & H3)]; [|right; exists p; auto].
    destruct (Q.min_spec a q) as [[_ E]|[_ E]]; [left; lra|right; exists q; split; [auto|lra]].
Qed.

(** tables *)
Definition table_ok (t : gtable) : Prop :=
  sorted (gt_data t) /\ forall k d, In (k, d) (gt_data t) -> gr_w d = gt_w t /\ gr_h d = gt_h t.

Lemma reduce_grid_size meth d : exists g, reduce_grid meth d = Ok g /\ gr_w g = half_ceil (gr_w d) /\ gr_h g = half_ceil (gr_h d).
Proof.
  destruct meth; [destruct (reduce_average d) as (g & E & E1 & E2 & _); eauto| | |];
    unfold reduce_grid; cbv zeta;
    [destruct (reduce_accumulate Qplus d) as (g & E & E1 & E2 & _)
    |destruct (reduce_accumulate Qmax d) as (g & E & E1 & E2 & _)
    |destruct (reduce_accumulate Qmin d) as (g & E & E1 & E2 & _)]; eauto.
Qed.

Lemma emplace_last {V} k (v : V) l : (forall k' v', In (k', v') l -> k' < k) -> tbl_emplace k v l = l ++ [(k, v)].
Proof.
  induction l as [|[k' v'] l IH]; intros H; simpl; auto.
  pose proof (H k' v' (or_introl eq_refl)) as Hlt.
  destruct (qltb_spec k k') as [Hc|_]; [lra|]; destruct (qltb_spec k' k) as [_|Hc]; [|lra].
  rewrite IH; auto; intros; eapply H; right; eauto.
Qed.

Lemma sorted_all {V} (a : Q * V) l : sorted (a :: l) -> forall k v, In (k, v) l -> fst a < k.
Proof.
  revert a; induction l as [|b l IH]; intros a H k v; [simpl; tauto|].
  destruct H as [H1 H2]; intros [->|Hin]; [exact H1|].
  specialize (IH b H2 k v Hin); lra.
Qed.

Lemma get_table_in t k d : sorted (gt_data t) -> In (k, d) (gt_data t) -> gt_get_table t k = Some d.
Proof.
  unfold gt_get_table; induction (gt_data t) as [|[k' d'] l IH]; intros Hs Hin; [destruct Hin|].
  destruct Hin as [[= -> ->]|Hin].
  - destruct (Qeq_bool k k) eqn:E; [reflexivity|]; exfalso; assert (k == k) as Hk by reflexivity; apply Qeq_bool_iff in Hk; congruence.
  - pose proof (sorted_all _ _ Hs _ _ Hin) as Hlt; simpl in Hlt.
    destruct (Qeq_bool k' k) eqn:E; [apply Qeq_bool_iff in E; lra|].
    apply IH; auto; eapply sorted_tail; eauto.
Qed.

(** the reduced table holds, in order, the reduced samples *)
Lemma reduce_samples_spec meth src rest : forall done,
  gt_data src = done ++ rest -> table_ok src ->
  forall t, gt_w t = half_ceil (gt_w src) -> gt_h t = half_ceil (gt_h src) -> map fst (gt_data t) = map fst done ->
  exists t', reduce_samples meth src (map fst rest) t = Ok t' /\ gt_w t' = gt_w t /\ gt_h t' = gt_h t /\
  exists new, gt_data t' = gt_data t ++ new /\ Forall2 (fun a b => fst b = fst a /\ reduce_grid meth (snd a) = Ok (snd b)) rest new.
Proof.
  induction rest as [|[k d] rest IH]; intros done Hd Hok t Hw Hh Hk.
  - exists t; repeat split; auto; exists []; rewrite app_nil_r; split; [auto|constructor].
  - cbn [map fst reduce_samples]; destruct Hok as [Hs Hsz].
    assert (Hin : In (k, d) (gt_data src)) by (rewrite Hd, in_app_iff; right; now left).
    rewrite (get_table_in src k d Hs Hin).
    destruct (reduce_grid_size meth d) as (d' & Ed & Ew & Eh); rewrite Ed; cbn [bind].
    destruct (Hsz _ _ Hin) as [Dw Dh].
    unfold gt_add; rewrite Ew, Eh, Dw, Dh, Hw, Hh, !Nat.eqb_refl; cbn [negb orb fst].
    assert (Hlast : tbl_emplace k d' (gt_data t) = gt_data t ++ [(k, d')]).
    { apply emplace_last; intros k' v' Hin'.
      assert (Hk' : In k' (map fst done)) by (rewrite <- Hk; apply in_map_iff; exists (k', v'); auto).
      apply in_map_iff in Hk' as ([k1 d1] & E & Hin1); simpl in E; subst k1.
      rewrite Hd in Hs; clear - Hs Hin1.
      induction done as [|a done IHd]; [destruct Hin1|].
      destruct Hin1 as [->|Hin1].
      - apply (sorted_all _ _ Hs k d); apply in_app_iff; right; now left.
      - apply IHd; auto; eapply sorted_tail; exact Hs. }
    edestruct (IH (done ++ [(k, d)])) as (t' & Et & W & H & new & En & F).
    + rewrite Hd, <- app_assoc; reflexivity.
    + split; eauto.
    + instantiate (1 := mkGT (half_ceil (gt_w src)) (half_ceil (gt_h src)) (tbl_emplace k d' (gt_data t)) None); reflexivity.
    + reflexivity.
    + cbn [gt_data]; rewrite Hlast, !map_app, Hk; reflexivity.
    + exists t'; split; [exact Et|]; cbn [gt_w gt_h] in W, H; split; [congruence|split; [congruence|]].
      exists ((k, d') :: new); split.
      * rewrite En; cbn [gt_data]; rewrite Hlast, <- app_assoc; reflexivity.
      * constructor; auto.
Qed.

Lemma reduce_table_spec meth t : table_ok t -> exists t', reduce_table meth t = Ok t' /\
  gt_w t' = half_ceil (gt_w t) /\ gt_h t' = half_ceil (gt_h t) /\
  Forall2 (fun a b => fst b = fst a /\ reduce_grid meth (snd a) = Ok (snd b)) (gt_data t) (gt_data t').
Proof.
  intros Hok; unfold reduce_table, gt_keys.
  destruct (reduce_samples_spec meth t (gt_data t) [] eq_refl Hok (gt_new (half_ceil (gt_w t)) (half_ceil (gt_h t)))) as (t' & E & W & H & new & En & F); try reflexivity.
  exists t'; repeat split; auto; rewrite En; exact F.
Qed.

Lemma reduced_table_ok meth t t' : table_ok t -> reduce_table meth t = Ok t' -> table_ok t'.
Proof.
  intros Hok E; destruct (reduce_table_spec meth t Hok) as (t'' & E' & W & H & F); rewrite E in E'; injection E' as <-.
  destruct Hok as [Hs Hsz]; split.
  - clear - F Hs; revert Hs; induction F as [|[k d] [k' d'] l l' [E1 E2] F IH]; intros Hs; [exact I|].
    simpl in E1; subst k'; destruct F as [|[k1 d1] [k1' d1'] l l' [E1 E3] F]; [exact I|].
    simpl in E1; subst k1'; destruct Hs as [H1 H2]; split; [exact H1|exact (IH H2)].
  - intros k d Hin; rewrite W, H; clear - F Hsz Hin; induction F as [|[k1 d1] [k1' d1'] l l' [E1 E2] F IH]; [destruct Hin|].
    destruct Hin as [[= -> ->]|Hin].
    + destruct (reduce_grid_size meth d1) as (g & Eg & Gw & Gh); simpl in E2; rewrite Eg in E2; injection E2 as <-.
      destruct (Hsz k1 d1 (or_introl eq_refl)) as [A B]; rewrite Gw, Gh, A, B; auto.
    + apply IH; auto; intros k2 d2 H2; eapply Hsz; right; eauto.
Qed.
