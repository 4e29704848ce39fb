(** C57: metal fractions and grid look-ups. *)
From Verif Require Import Base QSum Fraction_Model Fraction_Spec Fraction_Proofs.
From Coq Require Import Qround.
Open Scope res_scope.
Open Scope Q_scope.

(** Every cell holds the metal of the selected shapes of its layer, outlines less holes, forced into
    the unit interval. *)
Theorem C57_value {polygon} (cover : polygon -> list (nat * nat * Q)) nx ny layer nets ps i j :
  layer <> (-1)%Z -> (i < nx)%nat -> (j < ny)%nat ->
  is_clamp (sumf (metal cover i j) (filter (counts layer nets) ps)) (layer_fraction cover nx ny layer nets ps i j).
Proof.
  intros N I J; unfold layer_fraction; destruct (collect layer nets ps [] []) as [s h] eqn:C.
  apply (collect_sums cover layer nets i j ps N) in C; simpl in C.
  unfold clamp_all; rewrite clamp_cells by apply cells_nodup; rewrite cells_in by auto.
  set (g := map2grid cover Qminus (map2grid cover Qplus (fun _ _ => 0) s) h i j).
  assert (g == sumf (metal cover i j) (filter (counts layer nets) ps)) as E.
  { unfold g; rewrite (map2grid_value cover Qminus (-(1))) by (intros; ring).
    rewrite (map2grid_value cover Qplus 1) by (intros; ring).
    transitivity (sumf (covered cover i j) s - sumf (covered cover i j) h); [ring|]; rewrite C; ring. }
  pose proof (clamp_cell_spec g) as K; destruct K as [[? ?]|[[? ?]|(? & ? & ?)]]; [left|right; left|right; right]; repeat split; lra.
Qed.
Print Assumptions C57_value.

Theorem C57_fraction {polygon} (cover : polygon -> list (nat * nat * Q)) nx ny layer nets ps i j :
  (i < nx)%nat -> (j < ny)%nat -> 0 <= layer_fraction cover nx ny layer nets ps i j <= 1.
Proof.
  intros I J; unfold layer_fraction; destruct (collect layer nets ps [] []) as [s h].
  unfold clamp_all; rewrite clamp_cells by apply cells_nodup; rewrite cells_in by auto.
  destruct (clamp_cell_spec (map2grid cover Qminus (map2grid cover Qplus (fun _ _ => 0) s) h i j)) as [[? H]|[[? H]|(? & ? & H)]]; rewrite H; lra.
Qed.
Print Assumptions C57_fraction.

(** A point of the mapped region below its upper bound gets the number of the tile that holds it.
    Missing for the full statement: the upper bound itself, see the refutation. *)
Theorem C57_index_partial a p : proper a -> inside a p ->
  exists i, get_index a p = Ok (Some i) /\ (0 <= i < a_tiles a)%Z /\ tile_holds a i p.
Proof. apply get_index_inside. Qed.
Print Assumptions C57_index_partial.

(** Nothing outside the region gets an index. *)
Theorem C57_outside a p : (p < a_lo a \/ a_hi a < p)%Z -> get_index a p = Ok None.
Proof.
  intros H; unfold get_index; destruct ((a_lo a <=? p) && (p <=? a_hi a))%Z eqn:E; auto.
  apply andb_true_iff in E as [E1 E2]; apply Z.leb_le in E1, E2; lia.
Qed.
Print Assumptions C57_outside.

(** The upper bound of every region counts as inside and gets a tile past the last. *)
Theorem C57_upper_bound_refuted : forall a, proper a -> (a_lo a <= a_hi a)%Z /\ get_index a (a_hi a) = Ok (Some (a_tiles a)).
Proof. intros a H; split; [destruct H as (? & ? & ?); nia|apply get_index_upper; auto]. Qed.
Print Assumptions C57_upper_bound_refuted.

(** The region built for a layout of at least half a coordinate per tile is proper ... *)
Theorem C57_region lo hi el eh tiles a :
  (0 < tiles)%Z -> (tiles <= 2 * ((hi + eh) - (lo - el)))%Z -> make_axis lo hi el eh tiles = Ok a ->
  proper a /\ a_lo a = (lo - el)%Z /\ a_tiles a = tiles /\ (2 * Z.abs (a_hi a - (hi + eh)) <= tiles)%Z.
Proof.
  intros T L; unfold make_axis; destruct (tiles =? 0)%Z eqn:E; [discriminate|].
  intros [= <-]; cbn [a_lo a_hi a_tiles a_stride].
  set (len := ((hi + eh) - (lo - el))%Z) in *.
  destruct (round_away_near (inject_Z len / inject_Z tiles)) as [A B].
  set (r := round_away (inject_Z len / inject_Z tiles)) in *.
  assert (0 < inject_Z tiles) as P by (change 0 with (inject_Z 0); rewrite <- Zlt_Qlt; auto).
  set (q := inject_Z len / inject_Z tiles) in *.
  assert (q * inject_Z tiles == inject_Z len) as Q by (unfold q; field; lra).
  assert (2 * (r * tiles) - 2 * len <= tiles)%Z as A'.
  { rewrite Zle_Qle; unfold Z.sub; rewrite inject_Z_plus, inject_Z_opp, !inject_Z_mult, <- Q.
    change (inject_Z 2) with 2.
    assert (2 * (inject_Z r * inject_Z tiles) + - (2 * (q * inject_Z tiles)) == 2 * (inject_Z r - q) * inject_Z tiles) as -> by ring.
    assert (inject_Z tiles == 1 * inject_Z tiles) as X by ring; rewrite X at 2; apply Qmult_le_compat_r; lra. }
  assert (2 * len - 2 * (r * tiles) <= tiles)%Z as B'.
  { rewrite Zle_Qle; unfold Z.sub; rewrite inject_Z_plus, inject_Z_opp, !inject_Z_mult, <- Q.
    change (inject_Z 2) with 2.
    assert (2 * (q * inject_Z tiles) + - (2 * (inject_Z r * inject_Z tiles)) == 2 * (q - inject_Z r) * inject_Z tiles) as -> by ring.
    assert (inject_Z tiles == 1 * inject_Z tiles) as X by ring; rewrite X at 2; apply Qmult_le_compat_r; lra. }
  assert (0 < r)%Z as R.
  { assert (0 <= q) as Q0 by (apply Qle_shift_div_l; auto; rewrite Qmult_0_l; change 0 with (inject_Z 0); rewrite <- Zle_Qle; lia).
    assert ((1 # 2) <= q) as Q1.
    { apply Qle_shift_div_l; auto.
      assert (inject_Z tiles <= inject_Z (2 * len)) as Y by (rewrite <- Zle_Qle; lia).
      rewrite inject_Z_mult in Y; change (inject_Z 2) with 2 in Y; lra. }
    unfold r, round_away; apply Qle_bool_iff in Q0; rewrite Q0.
    assert (1 <= q + (1 # 2)) as Q2 by lra; apply Qfloor_resp_le in Q2; change (Qfloor 1) with 1%Z in Q2; lia. }
  unfold proper; cbn [a_lo a_hi a_tiles a_stride].
  split; [split; [exact R|split; [exact T|reflexivity]]|]; split; [reflexivity|split; [reflexivity|]].
  unfold len in A', B'; revert A' B'; generalize (r * tiles)%Z as rt; intros rt A' B'; lia.
Qed.
Print Assumptions C57_region.

(** ... but it need not reach the layout's own edge: with tiles rounded down the last shapes fall
    outside the map. *)
Theorem C57_region_short_refuted : exists lo hi tiles a,
  (0 < tiles /\ lo < hi)%Z /\ make_axis lo hi 0 0 tiles = Ok a /\ (a_hi a < hi)%Z /\ get_index a (hi - 1) = Ok None.
Proof.
  exists 0%Z, 14%Z, 10%Z, {| a_lo := 0; a_hi := 10; a_tiles := 10; a_stride := 1 |}.
  repeat split; reflexivity.
Qed.
Print Assumptions C57_region_short_refuted.

(** More than two tiles per coordinate: tiles of no width, and every look-up divides by zero. *)
Theorem C57_flat_tiles_is_ub lo hi tiles p :
  (lo <= hi)%Z -> (2 * (hi - lo) < tiles)%Z ->
  exists a, make_axis lo hi 0 0 tiles = Ok a /\ (p = lo -> get_index a p = UB).
Proof.
  intros L T; unfold make_axis; destruct (tiles =? 0)%Z eqn:E; [apply Z.eqb_eq in E; lia|].
  rewrite Z.sub_0_r, Z.add_0_r.
  assert (round_away (inject_Z (hi - lo) / inject_Z tiles) = 0%Z) as R.
  { assert (0 < inject_Z tiles) as P by (change 0 with (inject_Z 0); rewrite <- Zlt_Qlt; lia).
    assert (0 <= inject_Z (hi - lo) / inject_Z tiles) as Q0.
    { apply Qle_shift_div_l; auto; rewrite Qmult_0_l; change 0 with (inject_Z 0); rewrite <- Zle_Qle; lia. }
    assert (inject_Z (hi - lo) / inject_Z tiles < 1 # 2) as Q1.
    { apply Qlt_shift_div_r; auto.
      assert (inject_Z (2 * (hi - lo)) < inject_Z tiles) as Y by (rewrite <- Zlt_Qlt; lia).
      rewrite inject_Z_mult in Y; change (inject_Z 2) with 2 in Y; lra. }
    unfold round_away; pose proof Q0 as Q0'; apply Qle_bool_iff in Q0; rewrite Q0.
    set (q := inject_Z (hi - lo) / inject_Z tiles) in *.
    pose proof (Qfloor_le (q + (1 # 2))) as F1; pose proof (Qlt_floor (q + (1 # 2))) as F2.
    assert (inject_Z (Qfloor (q + (1 # 2))) < inject_Z 1) as G1 by (change (inject_Z 1) with 1; lra).
    assert (inject_Z (-1) < inject_Z (Qfloor (q + (1 # 2)))) as G2.
    { rewrite inject_Z_plus in F2; change (inject_Z 1) with 1 in F2; change (inject_Z (-1)) with (-(1)); lra. }
    rewrite <- Zlt_Qlt in G1, G2; lia. }
  eexists; split; [reflexivity|]; rewrite R; intros ->.
  unfold get_index; cbn [a_lo a_hi a_stride]; rewrite Z.mul_0_l, Z.add_0_r, Z.leb_refl; reflexivity.
Qed.
Print Assumptions C57_flat_tiles_is_ub.

(** ** The powers of components spread over the map *)

(** A component inside the region: its power is spread evenly over the tiles its box touches. *)
Theorem C57_power ax ay g c :
  proper ax -> proper ay -> box_ok c ->
  inside ax (fst (c_ll c)) -> inside ay (snd (c_ll c)) -> inside ax (fst (c_ur c)) -> inside ay (snd (c_ur c)) ->
  exists g', spread ax ay g c = Ok g' /\
    total (Z.to_nat (a_tiles ax)) (Z.to_nat (a_tiles ay)) g' == total (Z.to_nat (a_tiles ax)) (Z.to_nat (a_tiles ay)) g + c_power c /\
    exists x0 x1 y0 y1,
      (tile_holds ax x0 (fst (c_ll c)) /\ tile_holds ax x1 (fst (c_ur c)) /\ tile_holds ay y0 (snd (c_ll c)) /\ tile_holds ay y1 (snd (c_ur c))) /\
      forall i j, g' i j == g i j +
        if ((x0 <=? Z.of_nat i) && (Z.of_nat i <=? x1) && (y0 <=? Z.of_nat j) && (Z.of_nat j <=? y1))%Z
        then c_power c / inject_Z ((x1 - x0 + 1) * (y1 - y0 + 1)) else 0.
Proof.
  intros Px Py [Bx By] I1 I2 I3 I4.
  destruct (get_index_inside _ _ Px I1) as (x0 & E1 & R1 & H1), (get_index_inside _ _ Py I2) as (y0 & E2 & R2 & H2),
           (get_index_inside _ _ Px I3) as (x1 & E3 & R3 & H3), (get_index_inside _ _ Py I4) as (y1 & E4 & R4 & H4).
  pose proof (get_index_mono _ _ _ _ _ Px Bx E1 E3) as Mx; pose proof (get_index_mono _ _ _ _ _ Py By E2 E4) as My.
  unfold spread; rewrite E1, E2, E3, E4; cbn [bind].
  set (cells := list_prod (zrange x0 x1) (zrange y0 y1)).
  set (pw := c_power c / inject_Z ((y1 - y0 + 1) * (x1 - x0 + 1))).
  assert (Forall (in_grid (a_tiles ax) (a_tiles ay)) cells) as F by (apply in_grid_Forall; lia).
  assert (NoDup cells) as ND by (apply prod_nodup; apply zrange_nodup).
  destruct (add_cells _ _ pw cells F ND g) as (g' & -> & V); exists g'; split; auto; split.
  - unfold total.
    rewrite (sumf_ext _ (fun c => g (fst c) (snd c) + if existsb (fun d => (fst d =? Z.of_nat (fst c)) && (snd d =? Z.of_nat (snd c)))%Z cells then pw else 0)) by (intros [i j] _; apply V).
    rewrite sumf_plus, sumf_indicator, count_cells; auto; [|rewrite !Z2Nat.id by lia; auto].
    apply Qplus_comp; [reflexivity|].
    assert (Z.of_nat (List.length cells) = ((y1 - y0 + 1) * (x1 - x0 + 1))%Z) as ->.
    { unfold cells; rewrite prod_length, Nat2Z.inj_mul, !zrange_length by auto; lia. }
    unfold pw; field; intros X; change 0 with (inject_Z 0) in X; rewrite inject_Z_injective in X; nia.
  - exists x0, x1, y0, y1; split; auto; intros i j; rewrite V; apply Qplus_comp; [reflexivity|].
    assert (existsb (fun d : Z * Z => (fst d =? Z.of_nat i)%Z && (snd d =? Z.of_nat j)%Z) cells =
            ((x0 <=? Z.of_nat i) && (Z.of_nat i <=? x1) && (y0 <=? Z.of_nat j) && (Z.of_nat j <=? y1))%Z) as ->.
    { apply eq_true_iff_eq; rewrite existsb_exists, !andb_true_iff, !Z.leb_le; split.
      - intros ([x y] & I & X); cbn [fst snd] in X; apply andb_true_iff in X as [X1 X2]; apply Z.eqb_eq in X1, X2; subst.
        apply in_prod_iff in I as [I J]; apply zrange_in in I, J; lia.
      - intros H; exists (Z.of_nat i, Z.of_nat j); cbn [fst snd]; rewrite !Z.eqb_refl; split; auto.
        apply in_prod_iff; rewrite !zrange_in; lia. }
    destruct (_ && _)%bool; [|reflexivity]; unfold pw; rewrite Z.mul_comm; reflexivity.
Qed.
Print Assumptions C57_power.

(** All components together: no power is lost or invented. *)
Theorem C57_total_power ax ay cs : proper ax -> proper ay ->
  Forall (fun c => box_ok c /\ inside ax (fst (c_ll c)) /\ inside ay (snd (c_ll c)) /\ inside ax (fst (c_ur c)) /\ inside ay (snd (c_ur c))) cs ->
  exists g, spread_all ax ay (fun _ _ => 0) cs = Ok g /\
    total (Z.to_nat (a_tiles ax)) (Z.to_nat (a_tiles ay)) g == sumf c_power cs.
Proof.
  intros Px Py F.
  assert (forall g, exists g', spread_all ax ay g cs = Ok g' /\
    total (Z.to_nat (a_tiles ax)) (Z.to_nat (a_tiles ay)) g' == total (Z.to_nat (a_tiles ax)) (Z.to_nat (a_tiles ay)) g + sumf c_power cs) as G.
  { induction F as [|c cs (B & I1 & I2 & I3 & I4) F IH]; intros g; cbn [spread_all sumf]; [exists g; split; auto; ring|].
    destruct (C57_power ax ay g c Px Py B I1 I2 I3 I4) as (g1 & -> & T & _); cbn [bind].
    destruct (IH g1) as (g2 & -> & T2); exists g2; split; auto; rewrite T2, T; ring. }
  destruct (G (fun _ _ => 0)) as (g & E & T); exists g; split; auto; rewrite T.
  unfold total at 1; rewrite (sumf_zero (fun _ => 0)) by (intros; reflexivity); ring.
Qed.
Print Assumptions C57_total_power.

(** A component that reaches the upper edge of the region writes outside the grid. *)
Theorem C57_power_edge_is_ub ax ay g c :
  proper ax -> proper ay -> box_ok c ->
  inside ax (fst (c_ll c)) -> inside ay (snd (c_ll c)) -> fst (c_ur c) = a_hi ax -> inside ay (snd (c_ur c)) ->
  spread ax ay g c = UB.
Proof.
  intros Px Py [Bx By] I1 I2 I3 I4.
  destruct (get_index_inside _ _ Px I1) as (x0 & E1 & R1 & H1), (get_index_inside _ _ Py I2) as (y0 & E2 & R2 & H2),
           (get_index_inside _ _ Py I4) as (y1 & E4 & R4 & H4).
  pose proof (get_index_upper _ Px) as E3; pose proof (get_index_mono _ _ _ _ _ Py By E2 E4) as My.
  unfold spread; rewrite I3, E1, E2, E3, E4; cbn [bind].
  apply add_cells_bad, Exists_exists; exists (a_tiles ax, y1); split.
  - apply in_prod_iff; rewrite !zrange_in; lia.
  - unfold in_grid; simpl; lia.
Qed.
Print Assumptions C57_power_edge_is_ub.

(** A region of ten by four tiles of ten, a solid of layer 3 over one and a half tiles with a hole, and a
    shape of another net. *)
Definition cover_ex (p : nat) : list (nat * nat * Q) :=
  match p with
  | 0%nat => [(0%nat, 0%nat, 1); (1%nat, 0%nat, 1 # 2)]
  | 1%nat => [(0%nat, 0%nat, 1 # 4)]
  | _ => [(2%nat, 1%nat, 1)]
  end.
Definition prims_ex : list (primitive (polygon := nat)) :=
  [ {| pr_layer := 3; pr_net := 7; pr_shape := Some (0%nat, [1%nat]) |};
    {| pr_layer := 3; pr_net := 8; pr_shape := Some (2%nat, []) |};
    {| pr_layer := 4; pr_net := 7; pr_shape := Some (2%nat, []) |} ].
Example C57_value_example :
  map (fun c => Qred (layer_fraction cover_ex 10 4 3 [7%Z] prims_ex (fst c) (snd c))) [(0, 0); (1, 0); (2, 1)]%nat = [3 # 4; 1 # 2; 0].
Proof. vm_compute; reflexivity. Qed.
Definition axis_x : axis := {| a_lo := -5; a_hi := 95; a_tiles := 10; a_stride := 10 |}.
Definition axis_y : axis := {| a_lo := 0; a_hi := 40; a_tiles := 4; a_stride := 10 |}.
Definition chip : component := {| c_ll := (0, 5)%Z; c_ur := (20, 12)%Z; c_power := 12 |}.
Example C57_region_example : make_axis 0 90 5 3 10 = Ok axis_x.
Proof. reflexivity. Qed.
Example C57_power_example : proper axis_x /\ proper axis_y /\ box_ok chip /\ inside axis_x 0 /\ inside axis_x 20 /\ inside axis_y 5 /\ inside axis_y 12 /\
  match spread axis_x axis_y (fun _ _ => 0) chip with
  | Ok g => (Qred (g 1%nat 1%nat), Qred (g 3%nat 1%nat), Qred (total 10 4 g)) = (2, 0, 12)
  | _ => False
  end.
Proof.
  do 7 (split; [repeat split; simpl; lia|]); vm_compute; reflexivity.
Qed.
