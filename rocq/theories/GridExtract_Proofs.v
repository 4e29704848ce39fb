From Verif Require Import Base QSum LookupTable_Model LookupTable_Spec LookupTable_Proofs LookupTable_Props
  Fraction_Model Fraction_Spec Fraction_Proofs Fraction_Props GridExtract_Model GridExtract_Spec.
Open Scope res_scope.
Open Scope Q_scope.

(** * Tiles met by an interval *)
Lemma meets_range a lo hi x0 x1 i : proper a -> tile_holds a x0 lo -> tile_holds a x1 hi ->
  meets a lo hi i = ((x0 <=? Z.of_nat i) && (Z.of_nat i <=? x1))%Z.
Proof.
  intros (S & _ & _) H0 H1; unfold tile_holds, meets in *; apply eq_true_iff_eq; rewrite !andb_true_iff, !Z.leb_le, Z.ltb_lt.
  split; intros [A B]; split; nia.
Qed.

Lemma filter_range n x0 x1 : (0 <= x0)%Z -> (x0 <= x1)%Z -> (x1 < Z.of_nat n)%Z ->
  Z.of_nat (List.length (filter (fun i => ((x0 <=? Z.of_nat i) && (Z.of_nat i <=? x1))%Z) (seq 0 n))) = (x1 - x0 + 1)%Z.
Proof.
  intros H0 H1 H2.
  assert (G : forall n s, Z.of_nat (List.length (filter (fun i => ((x0 <=? Z.of_nat i) && (Z.of_nat i <=? x1))%Z) (seq s n))) =
    Z.max 0 (Z.min (x1 + 1) (Z.of_nat s + Z.of_nat n) - Z.max x0 (Z.of_nat s))).
  { clear - H1; induction n as [|n IH]; intros s; cbn [seq filter]; [cbn [List.length]; lia|].
    destruct (Z.leb_spec x0 (Z.of_nat s)), (Z.leb_spec (Z.of_nat s) x1); cbn [andb List.length]; specialize (IH (Datatypes.S s)); lia. }
  rewrite G; lia.
Qed.

Lemma met_range a lo hi x0 x1 : proper a -> tile_holds a x0 lo -> tile_holds a x1 hi -> (0 <= x0)%Z -> (x0 <= x1)%Z -> (x1 < a_tiles a)%Z ->
  Z.of_nat (met a lo hi) = (x1 - x0 + 1)%Z.
Proof.
  intros P H0 H1 L0 L1 L2; unfold met; rewrite (filter_ext _ _ (fun i => meets_range a lo hi x0 x1 i P H0 H1)).
  apply filter_range; auto; rewrite Z2Nat.id; lia.
Qed.

Lemma tile_unique a i i' p : proper a -> tile_holds a i p -> tile_holds a i' p -> i = i'.
Proof. intros (S & _ & _) H H'; unfold tile_holds in *; nia. Qed.

(** * One component *)
Lemma spread_share ax ay g ll ur p : proper ax -> proper ay -> (fst ll <= fst ur)%Z -> (snd ll <= snd ur)%Z ->
  inside ax (fst ll) -> inside ay (snd ll) -> inside ax (fst ur) -> inside ay (snd ur) ->
  exists g', spread ax ay g {| c_ll := ll; c_ur := ur; c_power := p |} = Ok g' /\
    forall i j, g' i j == g i j + share ax ay (ll, ur) p i j.
Proof.
  intros Px Py Bx By I1 I2 I3 I4.
  destruct (C57_power ax ay g {| c_ll := ll; c_ur := ur; c_power := p |} Px Py (conj Bx By) I1 I2 I3 I4) as (g' & E & _ & x0 & x1 & y0 & y1 & (T1 & T2 & T3 & T4) & V).
  cbn [c_ll c_ur c_power] in *; exists g'; split; [exact E|].
  destruct (get_index_inside _ _ Px I1) as (a0 & F1 & R1 & U1), (get_index_inside _ _ Py I2) as (b0 & F2 & R2 & U2),
           (get_index_inside _ _ Px I3) as (a1 & F3 & R3 & U3), (get_index_inside _ _ Py I4) as (b1 & F4 & R4 & U4).
  pose proof (get_index_mono _ _ _ _ _ Px Bx F1 F3) as Mx; pose proof (get_index_mono _ _ _ _ _ Py By F2 F4) as My.
  assert (a0 = x0) by exact (tile_unique _ _ _ _ Px U1 T1); assert (b0 = y0) by exact (tile_unique _ _ _ _ Py U2 T3).
  assert (a1 = x1) by exact (tile_unique _ _ _ _ Px U3 T2); assert (b1 = y1) by exact (tile_unique _ _ _ _ Py U4 T4); subst.
  intros i j; rewrite V; apply Qplus_comp; [reflexivity|]; destruct ll as [lx ly], ur as [ux uy]; cbn [fst snd] in *; unfold share.
  rewrite (meets_range ax lx ux x0 x1 i Px T1 T2), (meets_range ay ly uy y0 y1 j Py T3 T4).
  rewrite (met_range ax lx ux x0 x1), (met_range ay ly uy y0 y1) by (first [assumption|lia]).
  rewrite !andb_assoc; destruct (_ && _)%bool; [|reflexivity].
  rewrite inject_Z_mult; reflexivity.
Qed.

Lemma spread_temps_share ax ay ll ur loss : proper ax -> proper ay -> (fst ll <= fst ur)%Z -> (snd ll <= snd ur)%Z ->
  inside ax (fst ll) -> inside ay (snd ll) -> inside ax (fst ur) -> inside ay (snd ur) ->
  forall ts gs, List.length gs = List.length ts ->
  exists gs', spread_temps ax ay ll ur loss ts gs = Ok gs' /\ List.length gs' = List.length ts /\
    forall n t g, nth_error ts n = Some t -> nth_error gs n = Some g -> exists g', nth_error gs' n = Some g' /\
      forall i j, g' i j == g i j + share ax ay (ll, ur) (match lookup (table_of loss) t with Ok p => p | _ => 0 end) i j.
Proof.
  intros Px Py Bx By I1 I2 I3 I4; induction ts as [|t ts IH]; intros gs Hl; destruct gs as [|g gs]; cbn [List.length] in Hl; try discriminate.
  - exists []; split; [reflexivity|]; split; [reflexivity|]; intros [|n]; discriminate.
  - cbn [spread_temps]; destruct (C14_lookup_returns loss t) as [p Ep]; rewrite Ep; cbn [bind].
    destruct (spread_share ax ay g ll ur p Px Py Bx By I1 I2 I3 I4) as (g' & -> & V); cbn [bind].
    destruct (IH gs) as (gs' & -> & L & H); [lia|]; cbn [bind]; exists (g' :: gs'); split; [reflexivity|]; split; [cbn [List.length]; lia|].
    intros [|n] t' g0; cbn [nth_error]; [|apply H].
    intros [= <-] [= <-]; exists g'; rewrite Ep; split; [reflexivity|exact V].
Qed.

Lemma table_of_nil (h : list (Q * Q)) : table_of h = [] <-> h = [].
Proof.
  split; [|intros ->; reflexivity]; destruct h as [|s h]; [auto|]; unfold table_of; cbn [fold_left].
  assert (G : forall (h : list (Q * Q)) t, t <> [] -> fold_left add_sample h t <> []).
  { induction h0 as [|s0 h0 IH]; intros t Ht; [exact Ht|]; cbn [fold_left]; apply IH.
    unfold add_sample; destruct t as [|[k v] t]; [congruence|]; cbn [tbl_emplace]; destruct (qltb (fst s0) k); [discriminate|]; destruct (qltb k (fst s0)); discriminate. }
  intros E; exfalso; revert E; apply G; unfold add_sample; cbn [tbl_emplace]; discriminate.
Qed.

Lemma put_lookup {V} k (v : V) m k' : alookup Nat.eqb k' (put k v m) = if (k' =? k)%nat then Some v else alookup Nat.eqb k' m.
Proof.
  unfold put; destruct (alookup Nat.eqb k m) as [w|] eqn:E.
  - revert E; induction m as [|[a b] m IH]; cbn [alookup map fst]; [discriminate|].
    destruct (Nat.eqb_spec k a) as [->|Hk]; intros E.
    + rewrite Nat.eqb_refl; cbn [alookup]; destruct (Nat.eqb_spec k' a) as [->|Hk']; [reflexivity|].
      clear IH E; induction m as [|[c d] m IH]; cbn [map alookup fst]; [reflexivity|].
      destruct (Nat.eqb_spec c a) as [->|]; cbn [alookup]; [destruct (Nat.eqb_spec k' a); [congruence|exact IH]|destruct (k' =? c)%nat; [reflexivity|exact IH]].
    + destruct (Nat.eqb_spec a k); [congruence|]; cbn [alookup]; destruct (Nat.eqb_spec k' a) as [->|]; [destruct (Nat.eqb_spec a k); [congruence|reflexivity]|exact (IH E)].
  - rewrite alookup_app; cbn [alookup]; destruct (Nat.eqb_spec k' k) as [->|]; [rewrite E; reflexivity|destruct (alookup Nat.eqb k' m); reflexivity].
Qed.

(** * All components *)
Definition good (lm : list (Z * nat)) (ax ay : axis) (gm : list (nat * list grid)) (done : list xcomp) : Prop :=
  forall k, (alookup Nat.eqb k gm = None <-> filter (on_layer lm k) done = []) /\
    forall gs, alookup Nat.eqb k gm = Some gs -> List.length gs = List.length temps /\
      forall n t g, nth_error temps n = Some t -> nth_error gs n = Some g ->
        forall i j, g i j == sumf (share_of ax ay t i j) (filter (on_layer lm k) done).

Lemma add_component_good lm ax ay gm done c : proper ax -> proper ay -> (lossy c = true -> placed lm ax ay c) -> good lm ax ay gm done ->
  exists gm', add_component lm ax ay gm c = Ok gm' /\ good lm ax ay gm' (done ++ [c]).
Proof.
  intros Px Py Hp G; unfold add_component; destruct (table_of (xc_loss c)) as [|s r] eqn:Et.
  - apply (proj1 (table_of_nil _)) in Et; exists gm; split; [reflexivity|]; intros k.
    assert (E : filter (on_layer lm k) (done ++ [c]) = filter (on_layer lm k) done).
    { rewrite filter_app; cbn [filter]; unfold on_layer at 2, lossy; rewrite Et; cbn [andb]; apply app_nil_r. }
    rewrite E; apply G.
  - assert (Hl : lossy c = true) by (unfold lossy; destruct (xc_loss c); [discriminate|reflexivity]).
    destruct (Hp Hl) as (ll & ur & Eb & Ek & [Bx By] & I1 & I2 & I3 & I4).
    destruct (alookup Z.eqb (xc_layer c) lm) as [k|] eqn:El; [|congruence]; rewrite Eb; clear Et s r.
    set (gs0 := match alookup Nat.eqb k gm with Some gs => gs | None => map (fun _ => (fun _ _ => 0) : grid) temps end).
    assert (L0 : List.length gs0 = List.length temps).
    { unfold gs0; destruct (alookup Nat.eqb k gm) as [gs|] eqn:E; [apply (G k); exact E|apply map_length]. }
    destruct (spread_temps_share ax ay ll ur (xc_loss c) Px Py Bx By I1 I2 I3 I4 temps gs0 L0) as (gs' & E' & L' & V).
    cbv zeta; fold gs0; rewrite E'; cbn [bind]; eexists; split; [reflexivity|]; intros k'; rewrite put_lookup, filter_app; cbn [filter].
    assert (On : on_layer lm k' c = (k' =? k)%nat).
    { unfold on_layer; rewrite Hl, El; cbn [andb]; apply Nat.eqb_sym. }
    rewrite On; destruct (Nat.eqb_spec k' k) as [Ekk|Hne]; [clear On; rewrite Ekk in *; clear Ekk k'|rewrite app_nil_r; apply G].
    split; [split; [discriminate|intros H; apply app_eq_nil in H as [_ H]; discriminate]|].
    intros gs [= <-]; split; [exact L'|]; intros n t g Hn Hg i j.
    destruct (nth_error gs0 n) as [g0|] eqn:E0.
    + destruct (V n t g0 Hn E0) as (g1 & Hg1 & Hv); rewrite Hg in Hg1; injection Hg1 as <-.
      rewrite Hv, sumf_app; cbn [sumf]; unfold share_of at 2, loss_at; rewrite Eb.
      assert (A : g0 i j == sumf (share_of ax ay t i j) (filter (on_layer lm k) done)); [|rewrite A; ring].
      unfold gs0 in E0; destruct (alookup Nat.eqb k gm) as [gs|] eqn:E.
      * exact (proj2 (proj2 (G k) gs E) n t g0 Hn E0 i j).
      * apply (proj1 (G k)) in E; rewrite E; rewrite nth_error_map, Hn in E0; injection E0 as <-; reflexivity.
    + apply nth_error_None in E0; assert (n < List.length gs')%nat by (apply nth_error_Some; congruence); lia.
Qed.

Lemma extract_powers_good lm ax ay : proper ax -> proper ay -> forall cs gm done, (forall c, In c cs -> lossy c = true -> placed lm ax ay c) ->
  good lm ax ay gm done -> exists gm', extract_powers lm ax ay gm cs = Ok gm' /\ good lm ax ay gm' (done ++ cs).
Proof.
  intros Px Py; induction cs as [|c cs IH]; intros gm done Hp G; cbn [extract_powers].
  - rewrite app_nil_r; eauto.
  - destruct (add_component_good lm ax ay gm done c Px Py (Hp c (or_introl eq_refl)) G) as (gm1 & -> & G1); cbn [bind].
    destruct (IH gm1 (done ++ [c])) as (gm2 & E & G2); [intros; apply Hp; [right|]; auto|auto|].
    rewrite <- app_assoc in G2; eauto.
Qed.
