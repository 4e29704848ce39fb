From Verif Require Import Base QSum Fraction_Model Fraction_Spec.
From Coq Require Import Qround.
Open Scope res_scope.
Open Scope Q_scope.

Lemma qlt_true a b : qlt a b = true <-> a < b.
Proof.
  unfold qlt; rewrite negb_true_iff; split; intros H.
  - apply Qnot_le_lt; intros L; apply Qle_bool_iff in L; congruence.
  - destruct (Qle_bool b a) eqn:E; auto; apply Qle_bool_iff in E; lra.
Qed.
Lemma qlt_false a b : qlt a b = false <-> b <= a.
Proof. unfold qlt; rewrite negb_false_iff; apply Qle_bool_iff. Qed.

Definition at_cell (i j : nat) (c : nat * nat) : bool := ((fst c =? i) && (snd c =? j))%nat%bool.
Lemma at_cell_true i j c : at_cell i j c = true <-> c = (i, j).
Proof.
  unfold at_cell; destruct c as [a b]; simpl; rewrite andb_true_iff, !Nat.eqb_eq; split; [intros [-> ->]; auto|intros [= -> ->]; auto].
Qed.

Section Map.
  Context {polygon : Type} (cover : polygon -> list (nat * nat * Q)).

  Lemma map2grid_cells blend (sgn : Q) (B : forall v r, blend v r == v + sgn * r) i j cells : forall g,
    fold_left (fun (g : grid) (c : nat * nat * Q) => let '(a, b, r) := c in update g a b (fun v => blend v r)) cells g i j
    == g i j + sgn * sumf (fun c => if ((fst (fst c) =? i) && (snd (fst c) =? j))%nat%bool then snd c else 0) cells.
  Proof.
    induction cells as [|[[a b] r] cells IH]; intros g; cbn [fold_left sumf]; [ring|].
    rewrite IH; unfold update; cbn [fst snd]; rewrite (Nat.eqb_sym i a), (Nat.eqb_sym j b).
    destruct ((a =? i) && (b =? j))%nat%bool; [rewrite B|]; ring.
  Qed.
  Lemma map2grid_value blend sgn (B : forall v r, blend v r == v + sgn * r) polys g i j :
    map2grid cover blend g polys i j == g i j + sgn * sumf (covered cover i j) polys.
  Proof.
    unfold map2grid; rewrite (map2grid_cells blend sgn B).
    assert (sumf (fun c : nat * nat * Q => if ((fst (fst c) =? i) && (snd (fst c) =? j))%nat%bool then snd c else 0) (List.concat (map cover polys))
            == sumf (covered cover i j) polys) as ->; [|reflexivity].
    induction polys as [|p ps IH]; simpl; [reflexivity|]; rewrite sumf_app, IH; reflexivity.
  Qed.

  Lemma collect_sums layer nets i j ps : layer <> (-1)%Z -> forall solids holes s h,
    collect layer nets ps solids holes = (s, h) ->
    sumf (covered cover i j) s - sumf (covered cover i j) h ==
    sumf (covered cover i j) solids - sumf (covered cover i j) holes + sumf (metal cover i j) (filter (counts layer nets) ps).
  Proof.
    intros N; induction ps as [|p ps IH]; intros solids holes s h; cbn [collect filter]; [intros [= <- <-]; simpl; ring|].
    assert (chosen layer nets p = if counts layer nets p then pr_shape p else None) as ->.
    { unfold chosen, counts; destruct (pr_layer p =? -1)%Z eqn:A.
      - apply Z.eqb_eq in A; destruct (pr_layer p =? layer)%Z eqn:B; [apply Z.eqb_eq in B; lia|reflexivity].
      - destruct (pr_layer p =? layer)%Z; simpl; auto; destruct nets as [|n nets]; simpl; auto.
        destruct ((pr_net p =? n)%Z || existsb (Z.eqb (pr_net p)) nets); reflexivity. }
    destruct (counts layer nets p); [|intros H; apply IH in H; exact H].
    cbn [sumf]; unfold metal at 1; destruct (pr_shape p) as [[o hs]|]; intros H; apply IH in H; rewrite H.
    - rewrite !sumf_app; simpl; ring.
    - ring.
  Qed.
End Map.

Lemma clamp_cell_spec v : is_clamp v (clamp_cell v).
Proof.
  unfold clamp_cell, is_clamp; cbv zeta; destruct (qlt v 0) eqn:A.
  - apply qlt_true in A; destruct (qlt 1 0) eqn:B; [apply qlt_true in B; lra|]; left; split; [auto|reflexivity].
  - apply qlt_false in A; destruct (qlt 1 v) eqn:B; rewrite ?qlt_true, ?qlt_false in B; [right; left; split; [auto|reflexivity]|right; right; repeat split; auto; reflexivity].
Qed.
Lemma clamp_cells cells i j : NoDup cells -> forall g,
  fold_left (fun (g : grid) c => update g (fst c) (snd c) clamp_cell) cells g i j =
  if existsb (at_cell i j) cells then clamp_cell (g i j) else g i j.
Proof.
  induction 1 as [|[a b] cells N ND IH]; intros g; simpl; auto.
  rewrite IH; unfold update; simpl; unfold at_cell at 2; simpl.
  rewrite (Nat.eqb_sym i a), (Nat.eqb_sym j b); destruct ((a =? i) && (b =? j))%nat%bool eqn:E; simpl; auto.
  apply andb_true_iff in E as [E1 E2]; apply Nat.eqb_eq in E1, E2; subst.
  destruct (existsb (at_cell i j) cells) eqn:X; auto.
  apply existsb_exists in X as (c & I & X); apply at_cell_true in X; subst; tauto.
Qed.
Lemma nodup_app {A} (l1 l2 : list A) : NoDup l1 -> NoDup l2 -> (forall x, In x l1 -> ~ In x l2) -> NoDup (l1 ++ l2).
Proof.
  induction 1 as [|a l N ND IH]; intros H D; simpl; auto; constructor.
  - rewrite in_app_iff; intros [I|I]; [tauto|apply (D a); [left; auto|auto]].
  - apply IH; auto; intros x I; apply D; right; auto.
Qed.
Lemma prod_nodup {A B} (l1 : list A) (l2 : list B) : NoDup l1 -> NoDup l2 -> NoDup (list_prod l1 l2).
Proof.
  induction 1 as [|a l N ND IH]; intros H; simpl; [constructor|].
  apply nodup_app; auto.
  - apply FinFun.Injective_map_NoDup; auto; intros x y [= ->]; auto.
  - intros [x y] I J; apply in_map_iff in I as (z & [= <- <-] & I); apply in_prod_iff in J; tauto.
Qed.
Lemma cells_nodup nx ny : NoDup (list_prod (seq 0 nx) (seq 0 ny)).
Proof. apply prod_nodup; apply seq_NoDup. Qed.
Lemma cells_in nx ny i j : (i < nx)%nat -> (j < ny)%nat -> existsb (at_cell i j) (list_prod (seq 0 nx) (seq 0 ny)) = true.
Proof.
  intros; apply existsb_exists; exists (i, j); split; [apply in_prod; apply in_seq; lia|apply at_cell_true; auto].
Qed.

(** ** Axes *)
Lemma round_away_near q : inject_Z (round_away q) - q <= 1 # 2 /\ q - inject_Z (round_away q) <= 1 # 2.
Proof.
  unfold round_away; destruct (Qle_bool 0 q).
  - pose proof (Qfloor_le (q + (1 # 2))); pose proof (Qlt_floor (q + (1 # 2))) as H0.
    rewrite inject_Z_plus in H0; change (inject_Z 1) with 1 in H0; split; lra.
  - pose proof (Qle_ceiling (q - (1 # 2))); pose proof (Qceiling_lt (q - (1 # 2))) as H0.
    unfold Z.sub in H0; rewrite inject_Z_plus in H0; change (inject_Z (- (1))) with (-(1)) in H0; split; lra.
Qed.
Lemma get_index_inside a p : proper a -> inside a p ->
  exists i, get_index a p = Ok (Some i) /\ (0 <= i < a_tiles a)%Z /\ tile_holds a i p.
Proof.
  intros (S & T & H) [L U]; unfold get_index.
  assert ((a_lo a <=? p) && (p <=? a_hi a) = true)%Z as -> by (apply andb_true_iff; split; apply Z.leb_le; lia).
  destruct (a_stride a =? 0)%Z eqn:E; [apply Z.eqb_eq in E; lia|].
  exists (Z.quot (p - a_lo a) (a_stride a)); split; auto.
  rewrite Z.quot_div_nonneg by lia.
  assert (0 <= p - a_lo a)%Z as N by lia.
  pose proof (Z.div_mod (p - a_lo a) (a_stride a) ltac:(lia)) as D.
  pose proof (Z.mod_pos_bound (p - a_lo a) (a_stride a) S) as M.
  pose proof (Z.div_pos (p - a_lo a) (a_stride a) N S).
  assert ((p - a_lo a) / a_stride a < a_tiles a)%Z by (apply Z.div_lt_upper_bound; lia).
  unfold tile_holds; repeat split; auto; nia.
Qed.
Lemma get_index_upper a : proper a -> get_index a (a_hi a) = Ok (Some (a_tiles a)).
Proof.
  intros (S & T & H); unfold get_index.
  assert ((a_lo a <=? a_hi a) && (a_hi a <=? a_hi a) = true)%Z as -> by (apply andb_true_iff; split; apply Z.leb_le; nia).
  destruct (a_stride a =? 0)%Z eqn:E; [apply Z.eqb_eq in E; lia|].
  do 2 f_equal; rewrite Z.quot_div_nonneg by nia.
  replace (a_hi a - a_lo a)%Z with (a_tiles a * a_stride a)%Z by lia; apply Z.div_mul; lia.
Qed.
Lemma get_index_mono a p q i j : proper a -> (p <= q)%Z -> get_index a p = Ok (Some i) -> get_index a q = Ok (Some j) -> (i <= j)%Z.
Proof.
  intros (S & T & H) L; unfold get_index.
  destruct (_ && _)%bool eqn:A; [|discriminate]; destruct (_ =? 0)%Z; [discriminate|]; intros [= <-].
  destruct ((a_lo a <=? q) && (q <=? a_hi a))%Z eqn:B; [|discriminate]; intros [= <-].
  apply andb_true_iff in A as [A _], B as [B _]; apply Z.leb_le in A, B.
  rewrite !Z.quot_div_nonneg by lia; apply Z.div_le_mono; lia.
Qed.

(** ** Powers *)
Lemma zrange_in a b x : In x (zrange a b) <-> (a <= x <= b)%Z.
Proof.
  unfold zrange; rewrite in_map_iff; split.
  - intros (k & <- & I); apply in_seq in I; lia.
  - intros H; exists (Z.to_nat (x - a)); split; [lia|apply in_seq; lia].
Qed.
Lemma zrange_nodup a b : NoDup (zrange a b).
Proof. unfold zrange; apply FinFun.Injective_map_NoDup; [intros x y H; lia|apply seq_NoDup]. Qed.
Lemma zrange_length a b : (a <= b)%Z -> Z.of_nat (List.length (zrange a b)) = (b - a + 1)%Z.
Proof. intros; unfold zrange; rewrite map_length, seq_length; lia. Qed.

Definition in_grid (nx ny : Z) (c : Z * Z) : Prop := (0 <= fst c < nx /\ 0 <= snd c < ny)%Z.
Lemma add_cells nx ny power cells : Forall (in_grid nx ny) cells -> NoDup cells -> forall g,
  exists g', fold_left (add_cell nx ny power) cells (Ok g) = Ok g' /\
    forall i j, g' i j == g i j + if existsb (fun c => (fst c =? Z.of_nat i) && (snd c =? Z.of_nat j))%Z cells then power else 0.
Proof.
  intros F; induction F as [|[x y] cells H F IH]; intros ND g; cbn [fold_left].
  - exists g; split; auto; intros; simpl; ring.
  - inversion ND; subst; unfold in_grid in H; cbn [fst snd] in H; unfold add_cell at 2; cbn [bind fst snd].
    assert ((0 <=? x) && (x <? nx) && (0 <=? y) && (y <? ny) = true)%Z as ->.
    { rewrite !andb_true_iff, !Z.leb_le, !Z.ltb_lt; lia. }
    edestruct IH as (g' & -> & V); auto; exists g'; split; auto.
    intros i j; rewrite V; unfold update; cbn [existsb fst snd].
    assert (((i =? Z.to_nat x) && (j =? Z.to_nat y))%nat%bool = ((x =? Z.of_nat i) && (y =? Z.of_nat j))%Z%bool) as ->.
    { apply eq_true_iff_eq; rewrite !andb_true_iff, !Nat.eqb_eq, !Z.eqb_eq; lia. }
    destruct ((x =? Z.of_nat i) && (y =? Z.of_nat j))%Z%bool eqn:E; cbn [orb]; [|ring].
    apply andb_true_iff in E as [E1 E2]; apply Z.eqb_eq in E1, E2; subst.
    destruct (existsb _ cells) eqn:X; [|ring].
    apply existsb_exists in X as ([a b] & I & X); cbn [fst snd] in X.
    apply andb_true_iff in X as [X1 X2]; apply Z.eqb_eq in X1, X2; subst; tauto.
Qed.
Lemma add_cells_bad nx ny power cells g : Exists (fun c => ~ in_grid nx ny c) cells ->
  fold_left (add_cell nx ny power) cells (Ok g) = UB.
Proof.
  intros E; revert g; induction E as [[x y] cells H|[x y] cells E IH]; intros g; cbn [fold_left]; unfold add_cell at 2; cbn [bind fst snd].
  - destruct ((0 <=? x) && (x <? nx) && (0 <=? y) && (y <? ny))%Z eqn:X.
    + exfalso; apply H; rewrite !andb_true_iff, !Z.leb_le, !Z.ltb_lt in X; unfold in_grid; simpl; lia.
    + clear; induction cells; simpl; auto.
  - destruct (_ && _)%Z; [apply IH|clear; induction cells; simpl; auto].
Qed.

(** How many cells of the grid are in a list of distinct cells of the grid. *)
Lemma sumf_indicator {A} (f : A -> bool) (p : Q) l :
  sumf (fun a => if f a then p else 0) l == inject_Z (Z.of_nat (List.length (filter f l))) * p.
Proof.
  induction l as [|a l IH]; cbn [sumf filter]; [cbn; unfold inject_Z; ring|]; rewrite IH.
  destruct (f a); [|ring]; cbn [List.length]; rewrite Nat2Z.inj_succ; unfold Z.succ; rewrite inject_Z_plus.
  change (inject_Z 1) with 1; ring.
Qed.
Lemma count_cells (nx ny : nat) (cells : list (Z * Z)) : NoDup cells -> Forall (in_grid (Z.of_nat nx) (Z.of_nat ny)) cells ->
  List.length (filter (fun c => existsb (fun d => (fst d =? Z.of_nat (fst c)) && (snd d =? Z.of_nat (snd c)))%Z cells) (list_prod (seq 0 nx) (seq 0 ny))) = List.length cells.
Proof.
  intros ND F; set (f := fun c : nat * nat => (Z.of_nat (fst c), Z.of_nat (snd c))).
  rewrite <- (map_length f); apply Permutation_length, NoDup_Permutation; auto.
  - apply FinFun.Injective_map_NoDup; [|apply NoDup_filter, cells_nodup].
    intros [a b] [c d]; unfold f; simpl; intros [= H1 H2]; f_equal; lia.
  - intros [x y]; rewrite in_map_iff; split.
    + intros ([a b] & E & I); apply filter_In in I as [_ I]; apply existsb_exists in I as ([c d] & I & X).
      unfold f in E; cbn [fst snd] in *; apply andb_true_iff in X as [X1 X2]; apply Z.eqb_eq in X1, X2; congruence.
    + intros I; pose proof (proj1 (Forall_forall _ _) F _ I) as G; unfold in_grid in G; cbn [fst snd] in G.
      exists (Z.to_nat x, Z.to_nat y); unfold f; cbn [fst snd]; rewrite !Z2Nat.id by lia; split; auto.
      apply filter_In; split; [apply in_prod; apply in_seq; lia|].
      apply existsb_exists; exists (x, y); split; auto; cbn [fst snd]; rewrite !Z2Nat.id by lia; rewrite !Z.eqb_refl; auto.
Qed.
Lemma in_grid_Forall nx ny x0 x1 y0 y1 : (0 <= x0 -> x1 < nx -> 0 <= y0 -> y1 < ny ->
  Forall (in_grid nx ny) (list_prod (zrange x0 x1) (zrange y0 y1)))%Z.
Proof.
  intros; apply Forall_forall; intros [x y] I; apply in_prod_iff in I as [I J]; apply zrange_in in I, J; unfold in_grid; simpl; lia.
Qed.
