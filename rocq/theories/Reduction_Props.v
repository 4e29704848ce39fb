(** C35: model reduction. *)
From Verif Require Import Base QSum LookupTable_Model LookupTable_Spec LookupTable_Proofs Keyed_Model Reduction_Model Reduction_Spec Reduction_Proofs.

(** Accumulation preserves the total for every size. *)
Theorem C35_accumulation_preserves_total d :
  exists g, reduce_grid Accumulation d = Ok g /\ covers (gr_w d) (gr_w g) /\ covers (gr_h d) (gr_h g) /\ grid_total g == grid_total d.
Proof.
  unfold reduce_grid; cbv zeta; destruct (reduce_accumulate Qplus d) as (g & E & E1 & E2 & E3).
  exists g; split; [exact E|]; rewrite E1, E2; split; [apply half_ceil_spec|split; [apply half_ceil_spec|]].
  unfold grid_total; rewrite E1, E2, <- (sumf_all_cells (fun c => gr_at d (fst c) (snd c))), <- fine_total.
  apply sumf_ext; intros X _; apply sumf_ext; intros Y _; rewrite E3, fold_plus, sumf_map; lra.
Qed.
Print Assumptions C35_accumulation_preserves_total.

(** Averaging stays within the range of the merged cells; it is their mean. *)
Lemma sumf_bounds {A} (f : A -> Q) l lo hi : (forall a, In a l -> lo <= f a <= hi) ->
  lo * of_nat (List.length l) <= sumf f l <= hi * of_nat (List.length l).
Proof.
  intros H; assert (E1 : sumf (fun _ => lo) l <= sumf f l) by (apply sumf_le; intros a Ha; apply H; auto).
  assert (E2 : sumf f l <= sumf (fun _ => hi) l) by (apply sumf_le; intros a Ha; apply H; auto).
  rewrite sumf_const in E1; rewrite sumf_const in E2; unfold of_nat.
  set (n := inject_Z (Z.of_nat (List.length l))) in *; split; nra.
Qed.

Lemma of_nat_pos n : (0 < n)%nat -> 0 < of_nat n.
Proof. intros H; unfold of_nat; change 0 with (inject_Z 0); rewrite <- Zlt_Qlt; lia. Qed.

Theorem C35_average_between d : exists g, reduce_grid Average d = Ok g /\ covers (gr_w d) (gr_w g) /\ covers (gr_h d) (gr_h g) /\
  forall X Y lo hi, (X < gr_w g)%nat -> (Y < gr_h g)%nat ->
  (forall x y, child d X Y x y -> lo <= gr_at d x y <= hi) -> lo <= gr_at g X Y <= hi.
Proof.
  destruct (reduce_average d) as (g & E & E1 & E2 & E3); exists g; split; [exact E|].
  rewrite E1, E2 in *; split; [apply half_ceil_spec|split; [apply half_ceil_spec|]].
  intros X Y lo hi HX HY H; rewrite (E3 X Y HX HY).
  assert (Hne : (0 < List.length (fine d X Y))%nat).
  { pose proof (proj2 (in_fine d X Y _ _) (fine_nonempty d X Y HX HY)) as Hin.
    destruct (fine d X Y); simpl in *; [tauto|lia]. }
  apply of_nat_pos in Hne.
  destruct (sumf_bounds (fun c => gr_at d (fst c) (snd c)) (fine d X Y) lo hi) as [A B].
  { intros [x y] Hin; apply in_fine in Hin; apply H; auto. }
  split; [apply Qle_shift_div_l; auto|apply Qle_shift_div_r; auto].
Qed.
Print Assumptions C35_average_between.

(** number of fine cells *)
Lemma filter_axis n X : (X < half_ceil n)%nat -> filter (fun x => (half_floor x =? X)%nat) (seq 0 n) = seq (2 * X) (merged n X).
Proof.
  intros HX; pose proof (half_ceil_spec n) as Hc.
  assert (Hsplit : seq 0 n = seq 0 (2 * X) ++ seq (2 * X) (merged n X) ++ seq (2 * X + merged n X) (n - 2 * X - merged n X)).
  { rewrite <- seq_app; replace (2 * X)%nat with (0 + 2 * X)%nat at 2 by lia; rewrite <- seq_app; f_equal.
    unfold merged; destruct (Nat.ltb_spec (2 * X + 1) n); lia. }
  assert (Hnone : forall l, (forall x, In x l -> half_floor x <> X) -> filter (fun x => (half_floor x =? X)%nat) l = []).
  { induction l as [|a l IH]; intros H; simpl; auto.
    destruct (Nat.eqb_spec (half_floor a) X) as [Ea|_]; [exfalso; eapply H; [now left|exact Ea]|]; apply IH; intros; apply H; now right. }
  assert (Hall : forall l, (forall x, In x l -> half_floor x = X) -> filter (fun x => (half_floor x =? X)%nat) l = l).
  { induction l as [|a l IH]; intros H; simpl; auto.
    destruct (Nat.eqb_spec (half_floor a) X) as [_|Ne]; [f_equal; apply IH; intros; apply H; now right|exfalso; apply Ne, H; now left]. }
  rewrite Hsplit, !filter_app, (Hnone (seq 0 (2 * X))), (Hall (seq (2 * X) (merged n X))), Hnone; [rewrite app_nil_r; reflexivity| | |].
  - intros x Hx; apply in_seq in Hx; rewrite half_floor_spec; unfold merged in Hx; destruct (Nat.ltb_spec (2 * X + 1) n); lia.
  - intros x Hx; apply in_seq in Hx; rewrite half_floor_spec; unfold merged in Hx; destruct (Nat.ltb_spec (2 * X + 1) n); lia.
  - intros x Hx; apply in_seq in Hx; rewrite half_floor_spec; lia.
Qed.

Lemma filter_flat_map {A B} (f : A -> list B) p l : filter p (flat_map f l) = flat_map (fun a => filter p (f a)) l.
Proof. induction l; simpl; auto; rewrite filter_app; congruence. Qed.
Lemma flat_map_filter {A B} (f : A -> list B) (p : A -> bool) l : flat_map (fun a => if p a then f a else []) l = flat_map f (filter p l).
Proof. induction l as [|a l IH]; simpl; auto; destruct (p a); simpl; congruence. Qed.
Lemma filter_map {A B} (f : A -> B) p l : filter p (map f l) = map f (filter (fun a => p (f a)) l).
Proof. induction l as [|a l IH]; simpl; auto; destruct (p (f a)); simpl; congruence. Qed.

Lemma fine_block d X Y : (X < half_ceil (gr_w d))%nat -> (Y < half_ceil (gr_h d))%nat ->
  fine d X Y = flat_map (fun x => map (fun y => (x, y)) (seq (2 * Y) (merged (gr_h d) Y))) (seq (2 * X) (merged (gr_w d) X)).
Proof.
  intros HX HY; unfold fine, all_cells; rewrite filter_flat_map, <- (filter_axis (gr_w d) X HX), <- (filter_axis (gr_h d) Y HY), <- flat_map_filter.
  apply flat_map_ext; intros x; rewrite filter_map; unfold maps; cbn [fst snd].
  destruct (half_floor x =? X)%nat; cbn [andb]; [reflexivity|].
  induction (seq 0 (gr_h d)); simpl; auto.
Qed.

(** exactly the arithmetic mean of the merged block *)
Theorem C35_average_is_mean d g X Y : reduce_grid Average d = Ok g -> (X < gr_w g)%nat -> (Y < gr_h g)%nat ->
  gr_at g X Y * of_nat (merged (gr_w d) X * merged (gr_h d) Y) ==
  sumf (fun x => sumf (fun y => gr_at d x y) (seq (2 * Y) (merged (gr_h d) Y))) (seq (2 * X) (merged (gr_w d) X)).
Proof.
  intros E HX HY; destruct (reduce_average d) as (g' & E' & E1 & E2 & E3); rewrite E in E'; injection E' as <-.
  rewrite (E3 X Y HX HY); rewrite E1 in HX; rewrite E2 in HY; rewrite fine_block by auto.
  rewrite sumf_flat_map.
  assert (EL : List.length (flat_map (fun x => map (fun y => (x, y)) (seq (2 * Y) (merged (gr_h d) Y))) (seq (2 * X) (merged (gr_w d) X))) = (merged (gr_w d) X * merged (gr_h d) Y)%nat).
  { generalize (2 * X)%nat as a; induction (merged (gr_w d) X) as [|n IH]; intros a; simpl; auto.
    rewrite app_length, map_length, seq_length, IH; reflexivity. }
  rewrite EL, (sumf_ext _ (fun x => sumf (fun y => gr_at d x y) (seq (2 * Y) (merged (gr_h d) Y)))).
  - assert (Hp : 0 < of_nat (merged (gr_w d) X * merged (gr_h d) Y)).
    { apply of_nat_pos; unfold merged; destruct (_ <? _)%nat, (_ <? _)%nat; simpl; lia. }
    field; lra.
  - intros x _; rewrite sumf_map; reflexivity.
Qed.
Print Assumptions C35_average_is_mean.

(** Maximum and minimum start from 0: exact for data of one sign only. *)
Theorem C35_maximum_of_nonnegative_partial d : (forall x y, (x < gr_w d)%nat -> (y < gr_h d)%nat -> 0 <= gr_at d x y) ->
  exists g, reduce_grid Maximum d = Ok g /\ covers (gr_w d) (gr_w g) /\ covers (gr_h d) (gr_h g) /\
  forall X Y, (X < gr_w g)%nat -> (Y < gr_h g)%nat ->
  (forall x y, child d X Y x y -> gr_at d x y <= gr_at g X Y) /\ exists x y, child d X Y x y /\ gr_at g X Y == gr_at d x y.
Proof.
  intros Hpos; unfold reduce_grid; cbv zeta; destruct (reduce_accumulate Qmax d) as (g & E & E1 & E2 & E3).
  exists g; split; [exact E|]; rewrite E1, E2; split; [apply half_ceil_spec|split; [apply half_ceil_spec|]].
  intros X Y HX HY; rewrite E3.
  destruct (fold_max_spec (map (fun c => gr_at d (fst c) (snd c)) (fine d X Y)) 0) as (H1 & H2 & H3); split.
  - intros x y Hc; apply H2, in_map_iff; exists (x, y); split; auto; now apply in_fine.
  - destruct H3 as [H3|(q & Hq & H3)].
    + exists (2 * X)%nat, (2 * Y)%nat; pose proof (fine_nonempty d X Y HX HY) as Hc; split; [auto|].
      assert (A : gr_at d (2 * X) (2 * Y) <= fold_left Qmax (map (fun c => gr_at d (fst c) (snd c)) (fine d X Y)) 0).
      { apply H2, in_map_iff; exists (2 * X, 2 * Y)%nat; split; auto; now apply in_fine. }
      destruct Hc as (A1 & A2 & _); pose proof (Hpos _ _ A1 A2); lra.
    + apply in_map_iff in Hq as ([x y] & <- & Hin); exists x, y; split; [now apply in_fine|exact H3].
Qed.
Print Assumptions C35_maximum_of_nonnegative_partial.

Theorem C35_minimum_of_nonpositive_partial d : (forall x y, (x < gr_w d)%nat -> (y < gr_h d)%nat -> gr_at d x y <= 0) ->
  exists g, reduce_grid Minimum d = Ok g /\ covers (gr_w d) (gr_w g) /\ covers (gr_h d) (gr_h g) /\
  forall X Y, (X < gr_w g)%nat -> (Y < gr_h g)%nat ->
  (forall x y, child d X Y x y -> gr_at g X Y <= gr_at d x y) /\ exists x y, child d X Y x y /\ gr_at g X Y == gr_at d x y.
Proof.
  intros Hneg; unfold reduce_grid; cbv zeta; destruct (reduce_accumulate Qmin d) as (g & E & E1 & E2 & E3).
  exists g; split; [exact E|]; rewrite E1, E2; split; [apply half_ceil_spec|split; [apply half_ceil_spec|]].
  intros X Y HX HY; rewrite E3.
  destruct (fold_min_spec (map (fun c => gr_at d (fst c) (snd c)) (fine d X Y)) 0) as (H1 & H2 & H3); split.
  - intros x y Hc; apply H2, in_map_iff; exists (x, y); split; auto; now apply in_fine.
  - destruct H3 as [H3|(q & Hq & H3)].
    + exists (2 * X)%nat, (2 * Y)%nat; pose proof (fine_nonempty d X Y HX HY) as Hc; split; [auto|].
      assert (A : fold_left Qmin (map (fun c => gr_at d (fst c) (snd c)) (fine d X Y)) 0 <= gr_at d (2 * X) (2 * Y)).
      { apply H2, in_map_iff; exists (2 * X, 2 * Y)%nat; split; auto; now apply in_fine. }
      destruct Hc as (A1 & A2 & _); pose proof (Hneg _ _ A1 A2); lra.
    + apply in_map_iff in Hq as ([x y] & <- & Hin); exists x, y; split; [now apply in_fine|exact H3].
Qed.
Print Assumptions C35_minimum_of_nonpositive_partial.

(** On all-positive data the minimum is never found: every coarse cell is 0; and the maximum of
    all-negative data is 0. *)
Theorem C35_minimum_refuted d g : (forall x y, (x < gr_w d)%nat -> (y < gr_h d)%nat -> 0 < gr_at d x y) ->
  reduce_grid Minimum d = Ok g -> forall X Y, (X < gr_w g)%nat -> (Y < gr_h g)%nat -> gr_at g X Y == 0.
Proof.
  intros Hpos; unfold reduce_grid; cbv zeta; destruct (reduce_accumulate Qmin d) as (g' & E & E1 & E2 & E3); rewrite E.
  intros [= <-] X Y HX HY; rewrite E3.
  destruct (fold_min_spec (map (fun c => gr_at d (fst c) (snd c)) (fine d X Y)) 0) as (H1 & H2 & [H3|(q & Hq & H3)]); [exact H3|].
  apply in_map_iff in Hq as ([x y] & <- & Hin); apply in_fine in Hin as (A1 & A2 & _); pose proof (Hpos _ _ A1 A2); simpl in H3; lra.
Qed.
Print Assumptions C35_minimum_refuted.
Theorem C35_maximum_refuted : exists d g x y, child d 0 0 x y /\ reduce_grid Maximum d = Ok g /\
  (forall x y, gr_at d x y < 0) /\ gr_at g 0 0 == 0.
Proof.
  exists (mkGrid 2 2 (fun _ _ => -(1))).
  eexists; exists 0%nat, 0%nat; split; [unfold child; simpl; lia|].
  split; [reflexivity|split; [intros; reflexivity|reflexivity]].
Qed.
Print Assumptions C35_maximum_refuted.

(** Tables: every sample of a power table is reduced under its own key, with its total. *)
Theorem C35_table_total meth t : table_ok t -> exists t', reduce_table meth t = Ok t' /\ table_ok t' /\
  covers (gt_w t) (gt_w t') /\ covers (gt_h t) (gt_h t') /\ gt_keys t' = gt_keys t /\
  (meth = Accumulation -> forall k d, In (k, d) (gt_data t) -> exists d', gt_get_table t' k = Some d' /\ grid_total d' == grid_total d).
Proof.
  intros Hok; destruct (reduce_table_spec meth t Hok) as (t' & E & W & H & F); exists t'.
  pose proof (reduced_table_ok meth t t' Hok E) as Hok'.
  split; [exact E|split; [exact Hok'|]].
  rewrite W, H; split; [apply half_ceil_spec|split; [apply half_ceil_spec|split]].
  - unfold gt_keys; clear - F; induction F as [|a b l l' [E1 _] F IH]; simpl; congruence.
  - intros -> k d Hin.
    assert (Hd : exists d', In (k, d') (gt_data t') /\ reduce_grid Accumulation d = Ok d').
    { clear - F Hin; induction F as [|a b l l' [E1 E2] F IH]; [destruct Hin|]; destruct b as [k' d'].
      destruct Hin as [->|Hin]; [simpl in *; subst; exists d'; split; [now left|auto]|].
      destruct (IH Hin) as (d2 & H1 & H2); exists d2; split; [now right|auto]. }
    destruct Hd as (d' & Hin' & Ed); exists d'; split; [apply get_table_in; [apply Hok'|auto]|].
    destruct (C35_accumulation_preserves_total d) as (g & Eg & _ & _ & Et); rewrite Ed in Eg; injection Eg as <-; exact Et.
Qed.
Print Assumptions C35_table_total.

(** The chip model. *)
Definition chip_ok (c : chip) : Prop := match c_powers c with Some t => table_ok t | None => True end.

Lemma reduce_dens_ok ds : exists ds', reduce_dens ds = Ok ds' /\ map fst ds' = map fst ds.
Proof.
  induction ds as [|[n [d|]] ds (ds' & E & E')]; cbn [reduce_dens]; [exists []; auto| |].
  - destruct (reduce_grid_size Average d) as (g & Eg & _); rewrite Eg; cbn [bind]; rewrite E; cbn [rmap]; eexists; split; [reflexivity|simpl; congruence].
  - rewrite E; simpl; eexists; split; [reflexivity|simpl; congruence].
Qed.

Lemma reduce_chip_spec c : chip_ok c ->
  if ((c_tx c <=? 1) || (c_ty c <=? 1))%nat%bool then reduce_chip c = Ok None
  else exists c', reduce_chip c = Ok (Some c') /\ chip_ok c' /\ c_tx c' = half_ceil (c_tx c) /\ c_ty c' = half_ceil (c_ty c) /\ c_res c' == c_res c * 2.
Proof.
  intros Hok; unfold reduce_chip; destruct ((c_tx c <=? 1) || (c_ty c <=? 1))%nat%bool; [reflexivity|].
  destruct (reduce_dens_ok (c_dens c)) as (ds & Ed & _).
  unfold chip_ok in Hok; destruct (c_powers c) as [t|].
  - destruct (C35_table_total Accumulation t Hok) as (t' & Et & Hok' & _); rewrite Et; simpl; rewrite Ed; simpl.
    eexists; split; [reflexivity|]; unfold chip_ok; cbn [c_powers c_tx c_ty c_res]; split; [exact Hok'|repeat split; reflexivity].
  - simpl; rewrite Ed; simpl; eexists; split; [reflexivity|]; unfold chip_ok; simpl; repeat split.
Qed.

Lemma half_ceil_pow n p : (p < half_ceil n <-> 2 * p < n)%nat.
Proof. pose proof (half_ceil_spec n); lia. Qed.

(** Reduction of any order always returns: a model exactly while both sides stay above one, with
    sides ceil(n / 2^order). *)
Theorem C35_reduction_terminates order : forall c, chip_ok c ->
  exists r, make_reduction c order = Ok r /\
  match r with
  | Some c' => (order = 0 \/ (2 ^ (order - 1) < c_tx c /\ 2 ^ (order - 1) < c_ty c))%nat /\
               (c_tx c <= 2 ^ order * c_tx c' < c_tx c + 2 ^ order)%nat /\ (c_ty c <= 2 ^ order * c_ty c' < c_ty c + 2 ^ order)%nat
  | None => order <> 0%nat /\ (c_tx c <= 2 ^ (order - 1) \/ c_ty c <= 2 ^ (order - 1))%nat
  end.
Proof.
  induction order as [|k IH]; intros c Hok.
  - exists (Some c); split; [reflexivity|]; simpl; split; [auto|lia].
  - cbn [make_reduction]; pose proof (reduce_chip_spec c Hok) as H.
    replace (Datatypes.S k - 1)%nat with k by lia.
    assert (Hp : (1 <= 2 ^ k)%nat) by (pose proof (Nat.pow_nonzero 2 k); lia).
    destruct ((c_tx c <=? 1) || (c_ty c <=? 1))%nat%bool eqn:Eb.
    + rewrite H; cbn [bind]; exists None; split; [reflexivity|split; [lia|]].
      apply orb_true_iff in Eb; rewrite !Nat.leb_le in Eb; lia.
    + apply orb_false_iff in Eb; rewrite !Nat.leb_gt in Eb; destruct Eb as [Ex Ey].
      destruct H as (c' & E & Hok' & Tx & Ty & _); rewrite E; cbn [bind].
      destruct (IH c' Hok') as (r & Er & Hr); exists r; split; [exact Er|].
      pose proof (half_ceil_spec (c_tx c)) as Sx; pose proof (half_ceil_spec (c_ty c)) as Sy; rewrite <- Tx in Sx; rewrite <- Ty in Sy.
      replace (2 ^ Datatypes.S k)%nat with (2 * 2 ^ k)%nat by (simpl; lia).
      destruct r as [c2|].
      * destruct Hr as (H0 & H1 & H2); split; [|split; lia].
        right; destruct k as [|k]; [simpl; lia|].
        replace (Datatypes.S k - 1)%nat with k in H0 by lia; replace (2 ^ Datatypes.S k)%nat with (2 * 2 ^ k)%nat by (simpl; lia); lia.
      * destruct Hr as (H0 & H1); split; [lia|].
        destruct k as [|k]; [lia|]; replace (Datatypes.S k - 1)%nat with k in H1 by lia.
        replace (2 ^ Datatypes.S k)%nat with (2 * 2 ^ k)%nat by (simpl; lia); lia.
Qed.
Print Assumptions C35_reduction_terminates.

(** The power of a chip model is the same after any number of reductions. *)
Theorem C35_chip_power_preserved order : forall c c' t k d, chip_ok c -> make_reduction c order = Ok (Some c') ->
  c_powers c = Some t -> In (k, d) (gt_data t) ->
  exists t' d', c_powers c' = Some t' /\ gt_get_table t' k = Some d' /\ grid_total d' == grid_total d.
Proof.
  induction order as [|n IH]; intros c c' t k d Hok Hr Hp Hin; cbn [make_reduction] in Hr.
  - injection Hr as <-; unfold chip_ok in Hok; rewrite Hp in Hok; exists t, d; split; [auto|split; [apply get_table_in; [apply Hok|auto]|reflexivity]].
  - pose proof (reduce_chip_spec c Hok) as H.
    destruct ((c_tx c <=? 1) || (c_ty c <=? 1))%nat%bool eqn:Eb; [rewrite H in Hr; discriminate|].
    destruct H as (c1 & E & Hok1 & _); rewrite E in Hr; cbn [bind] in Hr.
    unfold reduce_chip in E; rewrite Eb, Hp in E; unfold chip_ok in Hok; rewrite Hp in Hok.
    destruct (C35_table_total Accumulation t Hok) as (t1 & Et & Hok' & _ & _ & _ & Htot); rewrite Et in E; simpl in E.
    destruct (reduce_dens_ok (c_dens c)) as (ds & Ed & _); rewrite Ed in E; simpl in E; injection E as <-.
    destruct (Htot eq_refl k d Hin) as (d1 & G1 & T1).
    assert (Hin1 : exists k1, k1 == k /\ In (k1, d1) (gt_data t1)).
    { clear - G1; unfold gt_get_table in G1; induction (gt_data t1) as [|[k' d'] l IHl]; [discriminate|].
      destruct (Qeq_bool k' k) eqn:E; [injection G1 as ->; exists k'; split; [now apply Qeq_bool_iff|now left]|].
      destruct (IHl G1) as (k1 & H1 & H2); exists k1; split; [auto|now right]. }
    destruct Hin1 as (k1 & Ek & Hin1).
    destruct (IH _ c' t1 k1 d1 Hok1 Hr eq_refl Hin1) as (t' & d' & H1 & H2 & H3).
    exists t', d'; split; [auto|split; [|lra]].
    rewrite <- H2; unfold gt_get_table; clear - Ek; induction (gt_data t') as [|[k' v] l IHl]; [reflexivity|].
    rewrite IHl; replace (Qeq_bool k' k) with (Qeq_bool k' k1); [reflexivity|].
    destruct (Qeq_bool k' k1) eqn:A, (Qeq_bool k' k) eqn:B; auto; exfalso.
    + apply Qeq_bool_iff in A; assert (k' == k) as C by lra; apply Qeq_bool_iff in C; congruence.
    + apply Qeq_bool_iff in B; assert (k' == k1) as C by lra; apply Qeq_bool_iff in C; congruence.
Qed.
Print Assumptions C35_chip_power_preserved.

(** Blocks: the reduced corners stay inside the reduced grid unless the block touches the last line
    of a grid with an even number of lines, when they are always outside. *)
Theorem C35_block_index_partial n u : (u < n)%nat ->
  ((half_ceil u < half_ceil n)%nat <-> ~ (u = n - 1 /\ Nat.even n = true)%nat).
Proof.
  intros Hu; pose proof (half_ceil_spec n) as Hn; pose proof (half_ceil_spec u) as Hs.
  destruct (Nat.even n) eqn:Ev.
  - apply Nat.even_spec in Ev as [m ->]; lia.
  - assert (Ho : Nat.odd n = true) by (unfold Nat.odd; rewrite Ev; reflexivity).
    apply Nat.odd_spec in Ho as [m ->]; lia.
Qed.
Print Assumptions C35_block_index_partial.

Theorem C35_block_leaves_grid_refuted :
  exists m m' l l' urx, reduce_model m = Ok (Some m') /\ r_layers m = [l] /\ r_power l = [PBox 0 0 urx 0 1] /\ (urx < r_nx m)%nat /\
  r_layers m' = [l'] /\ exists urx', In (PBox 0 0 urx' 0 1) (r_power l') /\ (r_nx m' <= urx')%nat.
Proof.
  exists (mkRM 4 4 1 1 [mkRL [PBox 0 0 3 0 1] 2 None]); do 3 eexists; exists 3%nat; split; [reflexivity|].
  split; [reflexivity|split; [reflexivity|split; [simpl; lia|split; [reflexivity|]]]].
  exists 2%nat; split; [simpl; tauto|simpl; auto].
Qed.
Print Assumptions C35_block_leaves_grid_refuted.

(** The reduction of a grid model returns nothing exactly when a side has no two lines left; otherwise the
    sides are halved, rounding up, and the cells doubled. *)
Theorem C35_grid_model_sides m r : reduce_model m = Ok r ->
  match r with
  | None => (r_nx m <= 1 \/ r_ny m <= 1)%nat
  | Some m' => (1 < r_nx m /\ 1 < r_ny m)%nat /\ covers (r_nx m) (r_nx m') /\ covers (r_ny m) (r_ny m') /\
               r_resx m' == 2 * r_resx m /\ r_resy m' == 2 * r_resy m /\ List.length (r_layers m') = List.length (r_layers m)
  end.
Proof.
  unfold reduce_model; destruct (Nat.leb_spec (r_nx m) 1), (Nat.leb_spec (r_ny m) 1); cbn [orb]; try (intros [= <-]; lia).
  destruct (reduce_layers (r_layers m)) as [ls| | |] eqn:E; cbn [bind]; try discriminate; intros [= <-]; cbn [r_nx r_ny r_resx r_resy r_layers].
  split; [lia|split; [apply half_ceil_spec|split; [apply half_ceil_spec|split; [ring|split; [ring|]]]]].
  revert ls E; clear; induction (r_layers m) as [|l ls' IH]; intros ls; cbn [reduce_layers]; [intros [= <-]; reflexivity|].
  destruct (reduce_powers _ _ _) as [ps| | |]; cbn [bind]; try discriminate.
  destruct (reduce_mf _) as [mf| | |]; cbn [bind]; try discriminate.
  destruct (reduce_layers ls') as [k| | |]; cbn [rmap bind]; try discriminate; intros [= <-]; cbn [List.length]; f_equal; apply IH; reflexivity.
Qed.
Print Assumptions C35_grid_model_sides.
Example C35_grid_model_sides_ex : exists m, reduce_model (mkRM 5 4 1 3 [mkRL [] 0 None]) = Ok (Some m) /\ r_nx m = 3%nat /\ r_ny m = 2%nat.
Proof. eexists; split; [vm_compute; reflexivity|split; reflexivity]. Qed.

(** Grid model: the loop appends to the vector it iterates.  With power models present the outcome is
    undefined unless the vector happens to have room for twice as many; then the fine models stay
    in the layer beside the coarse ones. *)
Lemma reduce_powers_spec cap todo : forall v, (forall p t, In p todo -> p = PTable t -> table_ok t) ->
  if (List.length v + List.length todo <=? Nat.max cap (List.length v))%nat
  then exists new, reduce_powers cap todo v = Ok (v ++ new) /\ Forall2 (fun p q => reduce_power p = Ok q) todo new
  else reduce_powers cap todo v = UB.
Proof.
  induction todo as [|p todo IH]; intros v Hok; cbn [List.length reduce_powers].
  - destruct (Nat.leb_spec (List.length v + 0) (Nat.max cap (List.length v))); [|lia].
    exists []; rewrite app_nil_r; split; [reflexivity|constructor].
  - assert (Hp : exists q, reduce_power p = Ok q).
    { destruct p as [t|]; cbn [reduce_power]; [|eauto]; destruct (C35_table_total Accumulation t) as (t' & E & _); [eapply Hok; [now left|eauto]|rewrite E; simpl; eauto]. }
    destruct Hp as (q & Eq); rewrite Eq; cbn [bind].
    destruct (Nat.ltb_spec (List.length v) cap) as [Hlt|Hge].
    + specialize (IH (v ++ [q])); rewrite app_length in IH; cbn [List.length] in IH.
      assert (Hok' : forall p t, In p todo -> p = PTable t -> table_ok t) by (intros; eapply Hok; [right; eauto|eauto]).
      specialize (IH Hok').
      destruct (Nat.leb_spec (List.length v + 1 + List.length todo) (Nat.max cap (List.length v + 1)));
      destruct (Nat.leb_spec (List.length v + Datatypes.S (List.length todo)) (Nat.max cap (List.length v))); try lia; [|exact IH].
      destruct IH as (new & E & F); exists (q :: new); rewrite E, <- app_assoc; split; [reflexivity|constructor; auto].
    + destruct (Nat.leb_spec (List.length v + Datatypes.S (List.length todo)) (Nat.max cap (List.length v))); [lia|reflexivity].
Qed.

Theorem C35_grid_model_powers_refuted cap ps : ps <> [] -> (List.length ps <= cap)%nat ->
  (forall p t, In p ps -> p = PTable t -> table_ok t) ->
  reduce_powers cap ps ps = UB \/
  exists new, reduce_powers cap ps ps = Ok (ps ++ new) /\ List.length new = List.length ps.
Proof.
  intros Hne Hcap Hok; pose proof (reduce_powers_spec cap ps ps Hok) as H.
  destruct (_ <=? _)%nat; [|left; exact H]; destruct H as (new & E & F); right; exists new; split; [exact E|].
  clear - F; induction F; simpl; congruence.
Qed.
Print Assumptions C35_grid_model_powers_refuted.

Theorem C35_grid_model_reduction_is_ub : exists m, reduce_model m = UB.
Proof. exists (mkRM 2 2 1 1 [mkRL [PBox 0 0 0 0 1] 1 None]); reflexivity. Qed.
Print Assumptions C35_grid_model_reduction_is_ub.

Example C35_example :
  let d := mkGrid 3 5 (fun x y => of_nat (x * 5 + y)) in
  match reduce_grid Accumulation d, reduce_grid Average d with
  | Ok a, Ok b => gr_w a = 2%nat /\ gr_h a = 3%nat /\ gr_at a 0 0 == 12 /\ gr_at a 1 2 == 14 /\ gr_at b 0 0 == 3 /\ gr_at b 1 0 == 21 # 2
  | _, _ => False
  end.
Proof. vm_compute; repeat split. Qed.
Definition chip0 : chip :=
  mkChip 5 4 1 (Some (mkGT 5 4 [(25, mkGrid 5 4 (fun _ _ => 1)); (80, mkGrid 5 4 (fun x _ => of_nat x))] None)) [("m1"%string, Some (mkGrid 5 4 (fun _ _ => 1#2)))].
Example C35_chip_example : chip_ok chip0 /\ (exists c, make_reduction chip0 2 = Ok (Some c) /\ c_tx c = 2%nat /\ c_ty c = 1%nat) /\ make_reduction chip0 3 = Ok None.
Proof.
  assert (Hok : chip_ok chip0).
  { split; [simpl; split; [reflexivity|exact I]|intros k d [H|[H|[]]]; injection H as <- <-; split; reflexivity]. }
  split; [exact Hok|split].
  - destruct (C35_reduction_terminates 2 chip0 Hok) as ([c|] & E & Hr); simpl in Hr; [|lia].
    exists c; split; [exact E|lia].
  - destruct (C35_reduction_terminates 3 chip0 Hok) as ([c|] & E & Hr); [simpl in Hr; lia|exact E].
Qed.
