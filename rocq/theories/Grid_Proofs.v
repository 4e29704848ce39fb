From Verif Require Import Base QSum ThermalNetwork_Model ThermalNetwork_Spec ThermalNetwork_Proofs Grid_Model Grid_Spec.

(** * Indices *)
Lemma flatten_lt m c : in_grid m c -> (flatten m c < total_grids m)%nat.
Proof.
  destruct c as [[x y] z]; unfold in_grid, flatten, total_grids; intros (Hx & Hy & Hz).
  set (nx := g_nx m) in *; set (ny := g_ny m) in *; set (nz := g_nz m) in *; clearbody nx ny nz.
  pose proof (Nat.mul_le_mono_l (Datatypes.S x) nx ny ltac:(lia)) as A.
  pose proof (Nat.mul_le_mono_l (Datatypes.S z) nz (nx * ny) ltac:(lia)) as B.
  rewrite Nat.mul_succ_r in A, B; rewrite (Nat.mul_comm ny nx) in A; lia.
Qed.

Lemma unflatten_flatten m c : in_grid m c -> unflatten m (flatten m c) = c.
Proof.
  destruct c as [[x y] z]; unfold in_grid, flatten, unflatten; intros (Hx & Hy & Hz).
  set (nx := g_nx m) in *; set (ny := g_ny m) in *; clearbody nx ny.
  assert (Hr : (ny * x + y < nx * ny)%nat).
  { pose proof (Nat.mul_le_mono_l (Datatypes.S x) nx ny ltac:(lia)) as A.
    rewrite Nat.mul_succ_r, (Nat.mul_comm ny nx) in A; lia. }
  assert (E1 : ((nx * ny * z + ny * x + y) / (nx * ny) = z)%nat).
  { symmetry; apply (Nat.div_unique _ _ z (ny * x + y)); lia. }
  assert (E2 : ((nx * ny * z + ny * x + y) mod (nx * ny) = ny * x + y)%nat).
  { symmetry; apply (Nat.mod_unique _ _ z (ny * x + y)); lia. }
  cbv zeta; rewrite E1, E2.
  assert (E3 : ((ny * x + y) mod ny = y)%nat) by (symmetry; apply (Nat.mod_unique _ _ x y); lia).
  assert (E4 : ((ny * x + y) / ny = x)%nat) by (symmetry; apply (Nat.div_unique _ _ x y); lia).
  rewrite E3, E4; reflexivity.
Qed.

Lemma flatten_unflatten m i : (i < total_grids m)%nat -> in_grid m (unflatten m i) /\ flatten m (unflatten m i) = i.
Proof.
  unfold total_grids, unflatten, in_grid, flatten; cbv zeta.
  set (nx := g_nx m); set (ny := g_ny m); set (nz := g_nz m); clearbody nx ny nz; intros Hi.
  assert (Hxy : (nx * ny <> 0)%nat) by (intros E; rewrite E in Hi; lia).
  assert (Hy : ny <> 0%nat) by (intros ->; rewrite Nat.mul_0_r in Hxy; lia).
  pose proof (Nat.div_mod i (nx * ny) Hxy) as E1.
  pose proof (Nat.mod_upper_bound i (nx * ny) Hxy) as B1.
  set (z := (i / (nx * ny))%nat) in *; set (r := (i mod (nx * ny))%nat) in *; clearbody z r.
  pose proof (Nat.div_mod r ny Hy) as E2.
  pose proof (Nat.mod_upper_bound r ny Hy) as B2.
  set (x := (r / ny)%nat) in *; set (y := (r mod ny)%nat) in *; clearbody x y.
  split; [|lia]; repeat split; auto.
  - apply (Nat.mul_lt_mono_pos_l ny); [lia|]; rewrite (Nat.mul_comm ny nx); lia.
  - apply (Nat.mul_lt_mono_pos_l (nx * ny)); lia.
Qed.

Lemma flatten_inj m a b : in_grid m a -> in_grid m b -> flatten m a = flatten m b -> a = b.
Proof.
  intros Ha Hb H; rewrite <- (unflatten_flatten m a Ha), <- (unflatten_flatten m b Hb), H; reflexivity.
Qed.

Lemma neighbor_valid m c o c' : in_grid m c -> neighbor m c o = Some c' -> in_grid m c' /\ neighbor m c' (opposite o) = Some c.
Proof.
  destruct c as [[x y] z]; intros (Hx & Hy & Hz); unfold neighbor, opposite.
  destruct o.
  - destruct z as [|z]; [discriminate|]; intros [= <-]; split; [unfold in_grid; lia|].
    destruct (Nat.eqb_spec z (g_nz m - 1)); [lia|reflexivity].
  - destruct (Nat.eqb_spec z (g_nz m - 1)); [discriminate|]; intros [= <-]; split; [unfold in_grid; lia|reflexivity].
  - destruct x as [|x]; [discriminate|]; intros [= <-]; split; [unfold in_grid; lia|].
    destruct (Nat.eqb_spec x (g_nx m - 1)); [lia|reflexivity].
  - destruct (Nat.eqb_spec x (g_nx m - 1)); [discriminate|]; intros [= <-]; split; [unfold in_grid; lia|reflexivity].
  - destruct y as [|y]; [discriminate|]; intros [= <-]; split; [unfold in_grid; lia|].
    destruct (Nat.eqb_spec y (g_ny m - 1)); [lia|reflexivity].
  - destruct (Nat.eqb_spec y (g_ny m - 1)); [discriminate|]; intros [= <-]; split; [unfold in_grid; lia|reflexivity].
Qed.

(** * Resistors between cells *)
Section Pair.
  Context (m : gmodel) (f : Q -> Q).

  Definition pairF (i j : nat) (o : op) : Q := if on_pair i j o then match o with SetR _ _ r => f r | _ => 0 end else 0.

  Definition rx a b := get_res (cell_k m a) ((1#2) * xlen m) (cell_k m b) (xlen m) (xarea m (snd a)).
  Definition ry a b := get_res (cell_k m a) ((1#2) * ylen m) (cell_k m b) ((1#2) * ylen m) (yarea m (snd a)).
  Definition rz a b := get_res (cell_k m a) ((1#2) * zlen m (snd a)) (cell_k m b) ((1#2) * zlen m (snd b)) (zarea m).

  Definition cell_eqb (a b : cell) : bool :=
    let '(x, y, z) := a in let '(x', y', z') := b in ((x =? x') && (y =? y') && (z =? z'))%nat%bool.

  Lemma cell_eqb_spec a b : reflect (a = b) (cell_eqb a b).
  Proof.
    destruct a as [[x y] z], b as [[x' y'] z']; simpl.
    destruct (Nat.eqb_spec x x'), (Nat.eqb_spec y y'), (Nat.eqb_spec z z'); simpl; constructor; congruence.
  Qed.

  Definition towards (a b : cell) (o : orientation) (r : cell -> cell -> Q) : Q :=
    match neighbor m a o with Some c => if cell_eqb c b then f (r a b) else 0 | None => 0 end.
  Definition dsum (a b : cell) : Q := towards a b Right rx + towards a b End_ ry + towards a b Bot rz.

  Lemma cell_ops_pair i a b : (i < total_grids m)%nat -> in_grid m a -> in_grid m b -> a <> b ->
    sumf (pairF (flatten m a) (flatten m b)) (cell_ops m i) ==
    (if (i =? flatten m a)%nat then dsum a b else 0) + (if (i =? flatten m b)%nat then dsum b a else 0).
  Proof.
    intros Hi Ha Hb Hne; destruct (flatten_unflatten m i Hi) as [Hg Hf].
    unfold cell_ops; cbv zeta; set (g := unflatten m i) in *.
    assert (Hab : flatten m a <> flatten m b) by (intros E; apply Hne; eapply flatten_inj; eauto).
    rewrite <- Hf.
    assert (Hdir : forall o (r : cell -> cell -> Q),
      sumf (pairF (flatten m a) (flatten m b)) (opt_list (neighbor m g o) (fun g2 => SetR (flatten m g) (flatten m g2) (r g g2))) ==
      (if (flatten m g =? flatten m a)%nat then towards a b o r else 0) + (if (flatten m g =? flatten m b)%nat then towards b a o r else 0)).
    { intros o r; unfold towards.
      destruct (Nat.eqb_spec (flatten m g) (flatten m a)) as [E1|N1];
      destruct (Nat.eqb_spec (flatten m g) (flatten m b)) as [E2|N2]; try congruence.
      - assert (g = a) by (eapply flatten_inj; eauto); subst a.
        destruct (neighbor m g o) as [c|] eqn:En; cbn [opt_list sumf]; [|lra].
        destruct (neighbor_valid _ _ _ _ Hg En) as [Hc _].
        unfold pairF, on_pair; rewrite Nat.eqb_refl.
        destruct (Nat.eqb_spec (flatten m g) (flatten m b)); [congruence|].
        destruct (cell_eqb_spec c b) as [->|Hcb].
        + rewrite Nat.eqb_refl; simpl; lra.
        + destruct (Nat.eqb_spec (flatten m c) (flatten m b)) as [E|]; [exfalso; apply Hcb; eapply flatten_inj; eauto|].
          simpl; lra.
      - assert (g = b) by (eapply flatten_inj; eauto); subst b.
        destruct (neighbor m g o) as [c|] eqn:En; cbn [opt_list sumf]; [|lra].
        destruct (neighbor_valid _ _ _ _ Hg En) as [Hc _].
        unfold pairF, on_pair; rewrite Nat.eqb_refl.
        destruct (Nat.eqb_spec (flatten m g) (flatten m a)); [congruence|].
        destruct (cell_eqb_spec c a) as [->|Hca].
        + rewrite Nat.eqb_refl; simpl; lra.
        + destruct (Nat.eqb_spec (flatten m c) (flatten m a)) as [E|]; [exfalso; apply Hca; eapply flatten_inj; eauto|].
          simpl; lra.
      - destruct (neighbor m g o) as [c|] eqn:En; cbn [opt_list sumf]; [|lra].
        unfold pairF, on_pair.
        destruct (Nat.eqb_spec (flatten m g) (flatten m a)); [congruence|].
        destruct (Nat.eqb_spec (flatten m g) (flatten m b)); [congruence|].
        simpl; lra. }
    cbn [sumf]; rewrite !sumf_app.
    rewrite (Hdir Right rx), (Hdir End_ ry), (Hdir Bot rz).
    unfold pairF at 1; cbn [on_pair]; unfold dsum.
    destruct (flatten m g =? flatten m a)%nat, (flatten m g =? flatten m b)%nat; lra.
  Qed.

  Lemma cells_pair a b : in_grid m a -> in_grid m b -> a <> b ->
    sumf (pairF (flatten m a) (flatten m b)) (flat_map (cell_ops m) (seq 0 (total_grids m))) == dsum a b + dsum b a.
  Proof.
    intros Ha Hb Hne; rewrite sumf_flat_map.
    rewrite (sumf_ext _ (fun i => (if (i =? flatten m a)%nat then dsum a b else 0) + (if (i =? flatten m b)%nat then dsum b a else 0))).
    - rewrite sumf_plus, (sumf_delta (fun _ => dsum a b)), (sumf_delta (fun _ => dsum b a)) by (now apply flatten_lt); reflexivity.
    - intros i Hi; apply in_seq in Hi; apply cell_ops_pair; auto; lia.
  Qed.

  (** explicit values *)
  Lemma towards_right a b r : in_grid m a -> in_grid m b -> towards a b Right r == if cell_eqb b (let '(x, y, z) := a in (Datatypes.S x, y, z)) then f (r a b) else 0.
  Proof.
    destruct a as [[x y] z], b as [[x' y'] z']; intros (Hx & Hy & Hz) (Hx' & Hy' & Hz'); unfold towards, neighbor.
    destruct (Nat.eqb_spec x (g_nx m - 1)); simpl.
    - destruct (Nat.eqb_spec x' (Datatypes.S x)); [lia|]; simpl; reflexivity.
    - rewrite (Nat.eqb_sym y), (Nat.eqb_sym z); destruct x' as [|x']; simpl; [reflexivity|].
      rewrite (Nat.eqb_sym x); reflexivity.
  Qed.
  Lemma towards_end a b r : in_grid m a -> in_grid m b -> towards a b End_ r == if cell_eqb b (let '(x, y, z) := a in (x, Datatypes.S y, z)) then f (r a b) else 0.
  Proof.
    destruct a as [[x y] z], b as [[x' y'] z']; intros (Hx & Hy & Hz) (Hx' & Hy' & Hz'); unfold towards, neighbor.
    destruct (Nat.eqb_spec y (g_ny m - 1)).
    - simpl; destruct (Nat.eqb_spec y' (Datatypes.S y)); [lia|]; rewrite andb_false_r; reflexivity.
    - simpl; rewrite (Nat.eqb_sym x), (Nat.eqb_sym z); destruct y' as [|y']; simpl; [reflexivity|].
      rewrite (Nat.eqb_sym y); reflexivity.
  Qed.
  Lemma towards_bot a b r : in_grid m a -> in_grid m b -> towards a b Bot r == if cell_eqb b (let '(x, y, z) := a in (x, y, Datatypes.S z)) then f (r a b) else 0.
  Proof.
    destruct a as [[x y] z], b as [[x' y'] z']; intros (Hx & Hy & Hz) (Hx' & Hy' & Hz'); unfold towards, neighbor.
    destruct (Nat.eqb_spec z (g_nz m - 1)).
    - simpl; destruct (Nat.eqb_spec z' (Datatypes.S z)); [lia|]; rewrite andb_false_r; reflexivity.
    - simpl; rewrite (Nat.eqb_sym x), (Nat.eqb_sym y); destruct z' as [|z']; simpl; [reflexivity|].
      rewrite (Nat.eqb_sym z); reflexivity.
  Qed.

  Lemma dsum_next_x a b : in_grid m a -> in_grid m b -> next_x a b -> dsum a b == f (rx a b) /\ dsum b a == 0.
  Proof.
    intros Ha Hb H; unfold dsum; rewrite !towards_right, !towards_end, !towards_bot by auto.
    destruct a as [[x y] z]; simpl in H; subst b; simpl; rewrite ?Nat.eqb_refl; simpl.
    destruct (Nat.eqb_spec x (Datatypes.S (Datatypes.S x))); [lia|]; simpl.
    assert (Hs : forall n, (Datatypes.S n =? n)%nat = false) by (intros n'; apply Nat.eqb_neq; lia).
    assert (Hs' : forall n, (n =? Datatypes.S n)%nat = false) by (intros n'; apply Nat.eqb_neq; lia).
    destruct x; simpl; rewrite ?Hs, ?Hs'; simpl; rewrite ?andb_false_r; simpl; split; try lra.
  Qed.
  Lemma dsum_next_y a b : in_grid m a -> in_grid m b -> next_y a b -> dsum a b == f (ry a b) /\ dsum b a == 0.
  Proof.
    intros Ha Hb H; unfold dsum; rewrite !towards_right, !towards_end, !towards_bot by auto.
    assert (Hs : forall n, (Datatypes.S n =? n)%nat = false) by (intros n'; apply Nat.eqb_neq; lia).
    assert (Hs' : forall n, (n =? Datatypes.S n)%nat = false) by (intros n'; apply Nat.eqb_neq; lia).
    assert (Hs2 : forall n, (n =? Datatypes.S (Datatypes.S n))%nat = false) by (intros n'; apply Nat.eqb_neq; lia).
    destruct a as [[x y] z]; simpl in H; subst b; unfold cell_eqb; rewrite ?Hs, ?Hs', ?Hs2, ?Nat.eqb_refl; simpl.
    split; lra.
  Qed.
  Lemma dsum_next_z a b : in_grid m a -> in_grid m b -> next_z a b -> dsum a b == f (rz a b) /\ dsum b a == 0.
  Proof.
    intros Ha Hb H; unfold dsum; rewrite !towards_right, !towards_end, !towards_bot by auto.
    assert (Hs : forall n, (Datatypes.S n =? n)%nat = false) by (intros n'; apply Nat.eqb_neq; lia).
    assert (Hs' : forall n, (n =? Datatypes.S n)%nat = false) by (intros n'; apply Nat.eqb_neq; lia).
    assert (Hs2 : forall n, (n =? Datatypes.S (Datatypes.S n))%nat = false) by (intros n'; apply Nat.eqb_neq; lia).
    destruct a as [[x y] z]; simpl in H; subst b; unfold cell_eqb; rewrite ?Hs, ?Hs', ?Hs2, ?Nat.eqb_refl; simpl.
    split; lra.
  Qed.
  Lemma dsum_none a b : in_grid m a -> in_grid m b -> ~ share_face a b -> dsum a b == 0.
  Proof.
    intros Ha Hb H; unfold dsum; rewrite towards_right, towards_end, towards_bot by auto.
    unfold share_face in H; destruct a as [[x y] z].
    destruct (cell_eqb_spec b (Datatypes.S x, y, z)); [exfalso; apply H; left; auto|].
    destruct (cell_eqb_spec b (x, Datatypes.S y, z)); [exfalso; apply H; right; right; left; auto|].
    destruct (cell_eqb_spec b (x, y, Datatypes.S z)); [exfalso; apply H; do 4 right; left; auto|].
    lra.
  Qed.
End Pair.

Lemma share_face_sym a b : share_face a b -> share_face b a.
Proof. unfold share_face; tauto. Qed.

(** no call outside the cell loop touches a pair of cells *)
Definition touches_cells (N : nat) (o : op) : Prop :=
  match o with SetR a b _ => (a < N /\ b < N)%nat | _ => False end.

Lemma layer_power_nodes m T z ps : forall node os n, layer_power_ops m T z node ps = (os, n) -> (node <= n)%nat /\
  forall o N, (N <= node)%nat -> In o os -> ~ touches_cells N o.
Proof.
  induction ps as [|[q|llx lly urx ury tot] ps IH]; intros node os n; cbn [layer_power_ops].
  - intros [= <- <-]; split; auto.
  - destruct (layer_power_ops m T z node ps) as [os' n'] eqn:E; intros [= <- <-].
    destruct (IH _ _ _ E) as [H1 H2]; split; auto; intros o N HN Hin.
    apply in_app_iff in Hin as [Hin|Hin]; [|eauto].
    unfold grid_power_ops in Hin; apply in_flat_map in Hin as (x & _ & Hin); apply in_flat_map in Hin as (y & _ & Hin).
    destruct (q _ x y); simpl in Hin; [destruct Hin as [<-|[]]|tauto]; simpl; auto.
  - destruct (layer_power_ops m T z (Datatypes.S node) ps) as [os' n'] eqn:E; intros [= <- <-].
    destruct (IH _ _ _ E) as [H1 H2]; split; [lia|]; intros o N HN Hin.
    destruct Hin as [<-|[<-|Hin]]; simpl; auto.
    apply in_app_iff in Hin as [Hin|Hin]; [|apply H2; auto].
    apply in_flat_map in Hin as (x & _ & Hin); apply in_map_iff in Hin as (y & <- & _); simpl; lia.
Qed.

Lemma power_nodes m T ls : forall z node N o, (N <= node)%nat -> In o (power_ops m T z node ls) -> ~ touches_cells N o.
Proof.
  induction ls as [|l ls IH]; intros z node N o HN; cbn [power_ops]; [simpl; tauto|].
  destruct (layer_power_ops m T z node (l_power l)) as [os n] eqn:E; intros Hin.
  destruct (layer_power_nodes _ _ _ _ _ _ _ E) as [H1 H2].
  apply in_app_iff in Hin as [Hin|Hin]; [eauto|]; eapply IH; [|eauto]; lia.
Qed.

Lemma bc_op_cells m b i N o : In o (bc_op m b i) -> ~ touches_cells N o.
Proof. destruct b; simpl; intuition (subst; simpl; auto). Qed.

Lemma uniform_bc_cells m b z N o : In o (uniform_bc_ops m b z) -> ~ touches_cells N o.
Proof.
  destruct b as [b|]; simpl; [|tauto]; intros H.
  apply in_flat_map in H as (x & _ & H); apply in_flat_map in H as (y & _ & H); eapply bc_op_cells; eauto.
Qed.
Lemma block_bc_cells m bs z N o : In o (block_bc_ops m bs z) -> ~ touches_cells N o.
Proof.
  unfold block_bc_ops; intros H; apply in_flat_map in H as ([[[llx lly] [urx ury]] b] & _ & H).
  apply in_flat_map in H as (x & _ & H); apply in_flat_map in H as (y & _ & H); eapply bc_op_cells; eauto.
Qed.

Lemma pairF_other f i j N o : (i < N)%nat -> (j < N)%nat -> ~ touches_cells N o -> pairF f i j o == 0.
Proof.
  intros Hi Hj H; unfold pairF; destruct o; simpl in *; try reflexivity.
  destruct (Nat.eqb_spec a i), (Nat.eqb_spec b j), (Nat.eqb_spec a j), (Nat.eqb_spec b i); simpl; try reflexivity; subst; lia.
Qed.

Lemma build_pair m T f a b : g_jumps m = [] -> in_grid m a -> in_grid m b -> a <> b ->
  sumf (pairF f (flatten m a) (flatten m b)) (build_ops m T) == dsum m f a b + dsum m f b a.
Proof.
  intros Hj Ha Hb Hne; unfold build_ops, jump_ops; rewrite Hj; cbn [flat_map]; rewrite app_nil_l.
  rewrite sumf_app, cells_pair by auto.
  assert (Z : sumf (pairF f (flatten m a) (flatten m b))
     (power_ops m T 0 (total_grids m) (g_layers m) ++ uniform_bc_ops m (g_top m) 0 ++ uniform_bc_ops m (g_bottom m) (g_nz m - 1) ++
      block_bc_ops m (g_topblocks m) 0 ++ block_bc_ops m (g_botblocks m) (g_nz m - 1)) == 0); [|lra].
  apply sumf_zero; intros o Ho; apply (pairF_other f _ _ (total_grids m)); try (now apply flatten_lt).
  rewrite !in_app_iff in Ho; destruct Ho as [Ho|[Ho|[Ho|[Ho|Ho]]]];
    eauto using uniform_bc_cells, block_bc_cells, power_nodes.
Qed.

Lemma pairF_conductance minR i j o : pairF (fun r => 1 / Qmax r minR) i j o == call_conductance minR i j o.
Proof. unfold pairF, call_conductance; destruct o; simpl; try reflexivity. Qed.

Lemma pairF_count i j os : sumf (pairF (fun _ => 1) i j) os == inject_Z (Z.of_nat (List.length (filter (on_pair i j) os))).
Proof.
  induction os as [|o os IH]; [reflexivity|]; cbn [sumf filter]; rewrite IH; unfold pairF.
  destruct (on_pair i j o) eqn:E.
  - destruct o; simpl in E; try discriminate.
    cbn [List.length]; rewrite Nat2Z.inj_succ; unfold Z.succ; rewrite inject_Z_plus; simpl; ring.
  - lra.
Qed.

Lemma inject_nat_inj a b : inject_Z (Z.of_nat a) == inject_Z (Z.of_nat b) -> a = b.
Proof. intros H; apply (proj1 (inject_Z_injective _ _)) in H; lia. Qed.

(** * Heat flow *)
Lemma sumf_seq_shift (g : nat -> Q) n : forall a, sumf g (seq (Datatypes.S a) n) == sumf (fun k => g (Datatypes.S k)) (seq a n).
Proof. induction n as [|n IH]; intros a; simpl; [reflexivity|]; rewrite IH; reflexivity. Qed.

Definition hf_targets (os : list op) : list nat :=
  flat_map (fun o => match o with SetHF i _ => [i] | _ => [] end) os.
Definition hf_value (o : op) : Q := match o with SetHF _ v => v | _ => 0 end.
Definition no_add (o : op) : Prop := match o with AddHF _ _ => False | _ => True end.

Lemma total_hf_sum l : total_hf l == sumf n_hf l.
Proof.
  unfold total_hf; assert (G : forall a, fold_left (fun a n => a + n_hf n) l a == a + sumf n_hf l).
  { induction l as [|n l IH]; intros a; simpl; [lra|]; rewrite IH; lra. }
  rewrite G; lra.
Qed.

Lemma sumf_hf_upd i f l n : nth_error l i = Some n -> sumf n_hf (upd i f l) == sumf n_hf l - n_hf n + n_hf (f n).
Proof.
  revert i; induction l as [|x l IH]; intros [|i]; simpl; try discriminate.
  - intros [= ->]; lra.
  - intros H; rewrite (IH i H); lra.
Qed.

Lemma at_node_hf i f l l' : at_node i f l = Ok l' -> (forall n, n_hf (f n) = n_hf n) ->
  sumf n_hf l' == sumf n_hf l /\ forall j, get_hf l' j = get_hf l j.
Proof.
  intros H Hf; apply at_node_ok in H as [-> Hlt].
  destruct (nth_error l i) as [n|] eqn:E; [|apply nth_error_None in E; lia].
  split; [rewrite (sumf_hf_upd _ _ _ _ E), Hf; lra|].
  intros j; unfold get_hf.
  destruct (nth_error l j) as [x|] eqn:Ej.
  - rewrite (nth_error_nth l j node0 Ej).
    assert (E' : nth_error (upd i f l) j = Some (if (i =? j)%nat then f x else x)) by (rewrite upd_nth, Ej; destruct (i =? j)%nat; auto).
    rewrite (nth_error_nth _ j node0 E'); destruct (i =? j)%nat; auto.
  - apply nth_error_None in Ej; rewrite !nth_overflow; auto; rewrite upd_length; auto.
Qed.

Lemma run_total_hf minR os l l' : run minR l os = Ok l' -> Forall no_add os -> NoDup (hf_targets os) ->
  (forall i, In i (hf_targets os) -> get_hf l i == 0) ->
  sumf n_hf l' == sumf n_hf l + sumf hf_value os.
Proof.
  revert l; induction os as [|o os IH]; intros l; simpl; [intros [= <-] _ _ _; lra|].
  destruct (step minR l o) as [l1| | |] eqn:E; simpl; try discriminate; intros H Hna Hnd Hz.
  apply Forall_cons_iff in Hna as [Hno Hna].
  assert (Hframe : (forall i, In i (hf_targets os) -> get_hf l1 i == 0) -> NoDup (hf_targets os) ->
     sumf n_hf l1 == sumf n_hf l + hf_value o -> sumf n_hf l' == sumf n_hf l + (hf_value o + sumf hf_value os)).
  { intros H1 H2 H3; rewrite (IH l1); auto; lra. }
  assert (Hsame : forall i f, at_node i f l = Ok l1 -> (forall n, n_hf (f n) = n_hf n) ->
     (forall i, In i (hf_targets os) -> get_hf l i == 0) -> NoDup (hf_targets os) -> hf_value o == 0 ->
     sumf n_hf l' == sumf n_hf l + (hf_value o + sumf hf_value os)).
  { intros i f Hat Hf Hz' Hnd' Hv; destruct (at_node_hf _ _ _ _ Hat Hf) as [A B]; apply Hframe; auto; [|lra].
    intros j Hj; rewrite B; auto. }
  destruct o; simpl in *; try tauto; try (eapply Hsame; eauto; reflexivity).
  - injection E as <-; apply Hframe; auto; [|rewrite sumf_app; simpl; lra].
    intros j Hj; unfold get_hf; destruct (Nat.ltb_spec j (List.length l)).
    + rewrite app_nth1 by auto; apply Hz; auto.
    + rewrite app_nth2 by auto; destruct (j - List.length l)%nat as [|[|]]; reflexivity.
  - inversion Hnd as [|? ? Hn Hnd']; subst.
    apply at_node_ok in E as [-> Hlt].
    destruct (nth_error l i) as [n|] eqn:En; [|apply nth_error_None in En; lia].
    apply Hframe; auto.
    + intros j Hj; unfold get_hf; specialize (Hz j (or_intror Hj)); unfold get_hf in Hz.
      destruct (nth_error l j) as [x|] eqn:Ej.
      * assert (E' : nth_error (upd i (with_hf v) l) j = Some x).
        { rewrite upd_nth, Ej; destruct (Nat.eqb_spec i j); [subst; tauto|auto]. }
        rewrite (nth_error_nth _ j node0 E'), <- (nth_error_nth l j node0 Ej); auto.
      * apply nth_error_None in Ej; rewrite nth_overflow; [reflexivity|rewrite upd_length; auto].
    + rewrite (sumf_hf_upd _ _ _ _ En); simpl.
      specialize (Hz i (or_introl eq_refl)); unfold get_hf in Hz; rewrite (nth_error_nth l i node0 En) in Hz; lra.
  - unfold set_r in E; destruct (b <? a)%nat; (eapply Hsame; eauto; reflexivity).
Qed.

Lemma summary_heat_sum os : fst (summary_heat os) + snd (summary_heat os) == sumf hf_value os.
Proof.
  unfold summary_heat.
  set (F := fun '(i, o) op => match op with SetHF _ v => if Qltb 0 v then (i + v, o) else (i, o + v) | _ => (i, o) end).
  assert (G : forall os i o, fst (fold_left F os (i, o)) + snd (fold_left F os (i, o)) == i + o + sumf hf_value os).
  { clear; induction os as [|op os IH]; intros i o; simpl; [lra|].
    destruct op; simpl; try (rewrite IH; lra).
    destruct (Qltb 0 v); rewrite IH; lra. }
  rewrite (G os 0 0); lra.
Qed.

Lemma hf_targets_app a b : hf_targets (a ++ b) = hf_targets a ++ hf_targets b.
Proof. unfold hf_targets; apply flat_map_app. Qed.

Lemma hf_targets_nil os : (forall o, In o os -> match o with SetHF _ _ => False | _ => True end) -> hf_targets os = [].
Proof.
  induction os as [|o os IH]; intros H; simpl; auto.
  rewrite IH by (intros; apply H; now right); specialize (H o (or_introl eq_refl)); destruct o; tauto.
Qed.

Lemma NoDup_app_intro {A} (l1 l2 : list A) : NoDup l1 -> NoDup l2 -> (forall a, In a l1 -> ~ In a l2) -> NoDup (l1 ++ l2).
Proof.
  induction l1 as [|a l1 IH]; intros H1 H2 H; simpl; auto.
  inversion H1; subst; constructor.
  - rewrite in_app_iff; intros [?|?]; [auto|eapply H; [left; eauto|auto]].
  - apply IH; auto; intros b Hb; apply H; now right.
Qed.

Lemma grid_power_targets m T q z i : In i (hf_targets (grid_power_ops m T q z)) ->
  exists x y, (x < g_nx m)%nat /\ (y < g_ny m)%nat /\ i = flatten m (x, y, z).
Proof.
  unfold hf_targets, grid_power_ops; intros H; apply in_flat_map in H as (o & Ho & Hi).
  apply in_flat_map in Ho as (x & Hx & Ho); apply in_flat_map in Ho as (y & Hy & Ho).
  apply in_seq in Hx; apply in_seq in Hy.
  destruct (q _ x y); simpl in Ho; [destruct Ho as [<-|[]]|tauto]; simpl in Hi; destruct Hi as [<-|[]].
  exists x, y; repeat split; lia.
Qed.

Lemma NoDup_flat_map {A B} (f : A -> list B) (l : list A) : NoDup l -> (forall a, In a l -> NoDup (f a)) ->
  (forall a a' b, In a l -> In a' l -> In b (f a) -> In b (f a') -> a = a') -> NoDup (flat_map f l).
Proof.
  induction l as [|a l IH]; intros Hnd H1 H2; simpl; [constructor|].
  inversion Hnd; subst; apply NoDup_app_intro.
  - apply H1; now left.
  - apply IH; auto; [intros; apply H1; now right|intros a1 a2 b I1 I2; apply H2; now right].
  - intros b Hb Hb'; apply in_flat_map in Hb' as (a' & Ha' & Hb').
    assert (a = a') by (eapply H2; [now left|now right|eauto|eauto]); subst; tauto.
Qed.

Lemma hf_targets_flat_map {A} (f : A -> list op) l : hf_targets (flat_map f l) = flat_map (fun a => hf_targets (f a)) l.
Proof. induction l; simpl; auto; rewrite hf_targets_app; congruence. Qed.

Lemma grid_power_nodup m T q z : (z < g_nz m)%nat -> NoDup (hf_targets (grid_power_ops m T q z)).
Proof.
  intros Hz; unfold grid_power_ops; rewrite hf_targets_flat_map.
  assert (Hone : forall x y, hf_targets (opt_list (q (T (flatten m (x, y, z))) x y) (fun v => SetHF (flatten m (x, y, z)) v)) =
            match q (T (flatten m (x, y, z))) x y with Some _ => [flatten m (x, y, z)] | None => [] end).
  { intros x y; destruct (q _ x y); reflexivity. }
  apply NoDup_flat_map; [apply seq_NoDup| |].
  - intros x Hx; apply in_seq in Hx; rewrite hf_targets_flat_map; apply NoDup_flat_map; [apply seq_NoDup| |].
    + intros y _; cbv zeta; rewrite Hone; destruct (q _ x y); repeat constructor; simpl; tauto.
    + intros y y' b Hy Hy'; apply in_seq in Hy; apply in_seq in Hy'; cbv zeta; rewrite !Hone.
      destruct (q _ x y), (q _ x y'); simpl; try tauto; intros [<-|[]] [E|[]].
      assert (E' : (x, y', z) = (x, y, z)) by (eapply flatten_inj; eauto; unfold in_grid; lia); congruence.
  - intros x x' b Hx Hx'; apply in_seq in Hx; apply in_seq in Hx'; rewrite !hf_targets_flat_map; intros H H'.
    apply in_flat_map in H as (y & Hy & H); apply in_flat_map in H' as (y' & Hy' & H').
    apply in_seq in Hy; apply in_seq in Hy'; cbv zeta in H, H'; rewrite Hone in H, H'.
    destruct (q _ x y), (q _ x' y'); simpl in *; try tauto.
    destruct H as [<-|[]], H' as [E|[]].
    assert (E' : (x', y', z) = (x, y, z)) by (eapply flatten_inj; eauto; unfold in_grid; lia); congruence.
Qed.

(** targets of the power section: cells of the layer for grid models, fresh nodes for blocks *)
Definition cell_of_layer (m : gmodel) (z i : nat) : Prop := exists x y, (x < g_nx m)%nat /\ (y < g_ny m)%nat /\ i = flatten m (x, y, z).

Lemma layer_power_targets m T z ps : (z < g_nz m)%nat -> forall node os n,
  layer_power_ops m T z node ps = (os, n) -> (total_grids m <= node)%nat ->
  (node <= n)%nat /\
  (forall i, In i (hf_targets os) -> (cell_of_layer m z i /\ existsb is_grid_power ps = true) \/ (node <= i < n)%nat) /\
  ((List.length (filter is_grid_power ps) <= 1)%nat -> NoDup (hf_targets os)) /\
  sumf hf_value os == sumf (power_total m T z) ps.
Proof.
  intros Hz; induction ps as [|[q|llx lly urx ury tot] ps IH]; intros node os n; cbn [layer_power_ops].
  - intros [= <- <-] _; repeat split; simpl; auto; try tauto; try constructor; lra.
  - destruct (layer_power_ops m T z node ps) as [os' n'] eqn:E; intros [= <- <-] HN.
    destruct (IH _ _ _ E HN) as (H1 & H2 & H3 & H4); split; [auto|split; [|split]].
    + intros i; rewrite hf_targets_app, in_app_iff; intros [Hi|Hi].
      * left; split; [apply grid_power_targets in Hi; exact Hi|reflexivity].
      * apply H2 in Hi as [[Hi _]|Hi]; [left; split; auto|right; auto].
    + simpl; intros Hle; rewrite hf_targets_app.
      assert (Hnone : existsb is_grid_power ps = false).
      { apply not_true_iff_false; intros Hex; apply existsb_exists in Hex as (p & Hp & Hg).
        assert (Hin : In p (filter is_grid_power ps)) by (apply filter_In; auto).
        destruct (filter is_grid_power ps); simpl in *; [tauto|lia]. }
      apply NoDup_app_intro; [now apply grid_power_nodup|apply H3; lia|].
      intros i Hi Hi'; apply H2 in Hi' as [[_ Hi']|Hi']; [congruence|].
      apply grid_power_targets in Hi as (x & y & Hx & Hy & ->).
      assert (flatten m (x, y, z) < total_grids m)%nat by (apply flatten_lt; unfold in_grid; auto); lia.
    + rewrite sumf_app, H4; cbn [sumf power_total].
      assert (Eg : sumf hf_value (grid_power_ops m T q z) ==
        sumf (fun x => sumf (fun y => match q (T (flatten m (x, y, z))) x y with Some v => v | None => 0 end) (seq 0 (g_ny m))) (seq 0 (g_nx m))).
      { unfold grid_power_ops; rewrite sumf_flat_map; apply sumf_ext; intros x _.
        rewrite sumf_flat_map; apply sumf_ext; intros y _; cbv zeta; destruct (q _ x y); simpl; lra. }
      rewrite Eg; reflexivity.
  - destruct (layer_power_ops m T z (Datatypes.S node) ps) as [os' n'] eqn:E; intros [= <- <-] HN.
    destruct (IH _ _ _ E ltac:(lia)) as (H1 & H2 & H3 & H4).
    set (blk := flat_map (fun x => map (fun y => SetR (flatten m (x, y, z)) node thermal_rd) (range lly ury)) (range llx urx)).
    assert (Hblk : forall o, In o blk -> exists a b r, o = SetR a b r).
    { intros o Ho; apply in_flat_map in Ho as (x & _ & Ho); apply in_map_iff in Ho as (y & <- & _); eauto. }
    assert (Hb0 : hf_targets blk = []).
    { apply hf_targets_nil; intros o Ho; destruct (Hblk o Ho) as (a & b & r & ->); auto. }
    assert (Hb1 : sumf hf_value blk == 0).
    { apply sumf_zero; intros o Ho; destruct (Hblk o Ho) as (a & b & r & ->); reflexivity. }
    assert (Et : forall X, X = AppendNode None :: SetHF node tot :: blk ++ os' -> hf_targets X = node :: hf_targets os').
    { intros X ->; change (node :: hf_targets (blk ++ os') = node :: hf_targets os'); rewrite hf_targets_app, Hb0; reflexivity. }
    split; [lia|split; [|split]].
    + intros i Hi0; assert (Hi : In i (node :: hf_targets os')) by (rewrite <- (Et _ eq_refl); exact Hi0); destruct Hi as [<-|Hi]; [right; lia|].
      apply H2 in Hi as [[Hi Hg]|Hi]; [left; split; auto|right; lia].
    + cbn [filter is_grid_power]; intros Hle; assert (Hnd : NoDup (node :: hf_targets os')); [|rewrite <- (Et _ eq_refl) in Hnd; exact Hnd]. constructor; [|auto].
      intros Hi; apply H2 in Hi as [[(x & y & Hx & Hy & Ei) _]|Hi]; [|lia].
      assert (flatten m (x, y, z) < total_grids m)%nat by (apply flatten_lt; unfold in_grid; auto); lia.
    + change (0 + (tot + sumf hf_value (blk ++ os')) == tot + sumf (power_total m T z) ps); rewrite sumf_app, Hb1, H4; lra.
Qed.

Lemma cell_of_layer_inj m z z' i : (z < g_nz m)%nat -> (z' < g_nz m)%nat -> cell_of_layer m z i -> cell_of_layer m z' i -> z = z'.
Proof.
  intros Hz Hz' (x & y & Hx & Hy & ->) (x' & y' & Hx' & Hy' & E).
  assert (E' : (x, y, z) = (x', y', z')) by (eapply flatten_inj; eauto; unfold in_grid; lia); congruence.
Qed.

Lemma cell_of_layer_lt m z i : (z < g_nz m)%nat -> cell_of_layer m z i -> (i < total_grids m)%nat.
Proof. intros Hz (x & y & Hx & Hy & ->); apply flatten_lt; unfold in_grid; auto. Qed.

Lemma power_targets m T ls : forall z node, (z + List.length ls <= g_nz m)%nat -> (total_grids m <= node)%nat ->
  (forall l, In l ls -> (List.length (filter is_grid_power (l_power l)) <= 1)%nat) ->
  (forall i, In i (hf_targets (power_ops m T z node ls)) -> (exists z', (z <= z' < z + List.length ls)%nat /\ cell_of_layer m z' i) \/ (node <= i)%nat) /\
  NoDup (hf_targets (power_ops m T z node ls)) /\
  sumf hf_value (power_ops m T z node ls) == sumf (fun k => sumf (power_total m T (z + k)) (l_power (nth k ls layer0))) (seq 0 (List.length ls)).
Proof.
  induction ls as [|l ls IH]; intros z node Hz HN Hone; cbn [power_ops].
  - simpl; split; [tauto|split; [constructor|reflexivity]].
  - destruct (layer_power_ops m T z node (l_power l)) as [os n] eqn:E; simpl in Hz.
    destruct (layer_power_targets m T z (l_power l) ltac:(lia) _ _ _ E HN) as (H1 & H2 & H3 & H4).
    destruct (IH (Datatypes.S z) n ltac:(lia) ltac:(lia)) as (I1 & I2 & I3).
    { intros l' Hl'; apply Hone; now right. }
    rewrite hf_targets_app; split; [|split].
    + intros i Hi; apply in_app_iff in Hi as [Hi|Hi].
      * apply H2 in Hi as [[Hi _]|Hi]; [left; exists z; split; [simpl; lia|auto]|right; lia].
      * apply I1 in Hi as [(z' & Hz' & Hi)|Hi]; [left; exists z'; split; [simpl; lia|auto]|right; lia].
    + apply NoDup_app_intro; [apply H3, Hone; now left|auto|].
      intros i Hi Hi'; apply H2 in Hi; apply I1 in Hi'.
      destruct Hi as [[Hi _]|Hi], Hi' as [(z' & Hz' & Hi')|Hi'].
      * assert (z = z') by (eapply cell_of_layer_inj; eauto; lia); lia.
      * apply cell_of_layer_lt in Hi; lia.
      * apply cell_of_layer_lt in Hi'; lia.
      * lia.
    + rewrite sumf_app, H4, I3; cbn [List.length seq sumf nth]; rewrite Nat.add_0_r, sumf_seq_shift.
      assert (E' : forall a b c, b == c -> a + b == a + c) by (intros; lra); apply E'.
      apply sumf_ext; intros k _; cbn [nth]; rewrite Nat.add_succ_r; reflexivity.
Qed.

Lemma build_no_add m T : Forall no_add (build_ops m T).
Proof.
  apply Forall_forall; intros o Ho; unfold build_ops in Ho; rewrite !in_app_iff in Ho.
  assert (Hbc : forall b i, In o (bc_op m b i) -> no_add o) by (intros [v|v|] i; simpl; intuition (subst; simpl; auto)).
  destruct Ho as [Ho|[Ho|[Ho|[Ho|[Ho|[Ho|Ho]]]]]].
  - apply in_flat_map in Ho as (i & _ & Ho); unfold cell_ops in Ho; cbv zeta in Ho.
    destruct Ho as [<-|Ho]; [simpl; auto|]; rewrite !in_app_iff in Ho.
    destruct Ho as [Ho|[Ho|Ho]]; destruct (neighbor _ _ _); simpl in Ho; intuition (subst; simpl; auto).
  - unfold jump_ops in Ho; apply in_flat_map in Ho as ([[a b] al] & _ & Ho); destruct (_ =? _)%nat; simpl in Ho; intuition (subst; simpl; auto).
  - revert Ho; generalize 0%nat as z; generalize (total_grids m) as node; induction (g_layers m) as [|l ls IH]; intros node z; cbn [power_ops]; [simpl; tauto|].
    assert (G : forall ps node os n, layer_power_ops m T z node ps = (os, n) -> In o os -> no_add o).
    { clear; induction ps as [|[q|llx lly urx ury tot] ps IH]; intros node os n; cbn [layer_power_ops].
      - intros [= <- <-]; simpl; tauto.
      - destruct (layer_power_ops m T z node ps) as [os' n'] eqn:E; intros [= <- <-] Hin.
        apply in_app_iff in Hin as [Hin|Hin]; [|eauto].
        unfold grid_power_ops in Hin; apply in_flat_map in Hin as (x & _ & Hin); apply in_flat_map in Hin as (y & _ & Hin).
        destruct (q _ x y); simpl in Hin; intuition (subst; simpl; auto).
      - destruct (layer_power_ops m T z (Datatypes.S node) ps) as [os' n'] eqn:E; intros [= <- <-] Hin.
        destruct Hin as [<-|[<-|Hin]]; simpl; auto; apply in_app_iff in Hin as [Hin|Hin]; [|eauto].
        apply in_flat_map in Hin as (x & _ & Hin); apply in_map_iff in Hin as (y & <- & _); simpl; auto. }
    destruct (layer_power_ops m T z node (l_power l)) as [os n] eqn:E; rewrite in_app_iff; intros [Hin|Hin]; [eauto|eapply IH; eauto].
  - destruct (g_top m); simpl in Ho; [|tauto]; apply in_flat_map in Ho as (x & _ & Ho); apply in_flat_map in Ho as (y & _ & Ho); eauto.
  - destruct (g_bottom m); simpl in Ho; [|tauto]; apply in_flat_map in Ho as (x & _ & Ho); apply in_flat_map in Ho as (y & _ & Ho); eauto.
  - unfold block_bc_ops in Ho; apply in_flat_map in Ho as ([[[llx lly] [urx ury]] b] & _ & Ho).
    apply in_flat_map in Ho as (x & _ & Ho); apply in_flat_map in Ho as (y & _ & Ho); eauto.
  - unfold block_bc_ops in Ho; apply in_flat_map in Ho as ([[[llx lly] [urx ury]] b] & _ & Ho).
    apply in_flat_map in Ho as (x & _ & Ho); apply in_flat_map in Ho as (y & _ & Ho); eauto.
Qed.

(** sections without heat flow *)
Definition heatless (os : list op) : Prop := forall o, In o os -> match o with SetHF _ _ => False | _ => True end.

Lemma heatless_spec os : heatless os -> hf_targets os = [] /\ sumf hf_value os == 0.
Proof.
  intros H; split; [apply hf_targets_nil; auto|].
  apply sumf_zero; intros o Ho; specialize (H o Ho); destruct o; simpl; tauto || reflexivity.
Qed.

Lemma cells_heatless m : heatless (flat_map (cell_ops m) (seq 0 (total_grids m))).
Proof.
  intros o Ho; apply in_flat_map in Ho as (i & _ & Ho); unfold cell_ops in Ho; cbv zeta in Ho.
  destruct Ho as [<-|Ho]; [auto|]; rewrite !in_app_iff in Ho.
  destruct Ho as [Ho|[Ho|Ho]]; destruct (neighbor _ _ _); simpl in Ho; intuition (subst; simpl; auto).
Qed.
Lemma jumps_heatless m : heatless (jump_ops m).
Proof.
  intros o Ho; unfold jump_ops in Ho; apply in_flat_map in Ho as ([[a b] al] & _ & Ho); destruct (_ =? _)%nat; simpl in Ho; intuition (subst; simpl; auto).
Qed.
Lemma bc_heatless m b i o : is_flux b = false -> In o (bc_op m b i) -> match o with SetHF _ _ => False | _ => True end.
Proof. destruct b; simpl; try discriminate; intros _ [<-|[]] || intros _ []; auto. Qed.
Lemma uniform_heatless m b z : (forall b', b = Some b' -> is_flux b' = false) -> heatless (uniform_bc_ops m b z).
Proof.
  intros H o Ho; destruct b as [b|]; simpl in Ho; [|tauto].
  apply in_flat_map in Ho as (x & _ & Ho); apply in_flat_map in Ho as (y & _ & Ho); eapply bc_heatless; eauto.
Qed.
Lemma block_heatless m bs z : (forall r b, In (r, b) bs -> is_flux b = false) -> heatless (block_bc_ops m bs z).
Proof.
  intros H o Ho; unfold block_bc_ops in Ho; apply in_flat_map in Ho as ([[[llx lly] [urx ury]] b] & Hb & Ho).
  apply in_flat_map in Ho as (x & _ & Ho); apply in_flat_map in Ho as (y & _ & Ho); eapply bc_heatless; eauto.
Qed.

(** * Layers *)
Definition layer_ok (m : gmodel) (l : glayer) : Prop := l_size l = (g_nx m, g_ny m) /\ 0 <= l_thick l.

(** * Every call is in range *)
Lemma step_length minR l o l' : step minR l o = Ok l' -> (List.length l <= List.length l')%nat.
Proof.
  assert (H : forall i f, at_node i f l = Ok l' -> (List.length l <= List.length l')%nat).
  { intros i f H; apply at_node_ok in H as [-> _]; rewrite upd_length; auto. }
  destruct o; simpl; eauto.
  - intros [= <-]; rewrite app_length; lia.
  - unfold set_r; destruct (b <? a)%nat; eauto.
Qed.
Lemma run_length minR os : forall l l', run minR l os = Ok l' -> (List.length l <= List.length l')%nat.
Proof.
  induction os as [|o os IH]; intros l l'; simpl; [intros [= <-]; auto|].
  destruct (step minR l o) as [l1| | |] eqn:E; simpl; try discriminate; intros H.
  apply step_length in E; apply IH in H; lia.
Qed.

Definition op_ok (n : nat) (o : op) : Prop :=
  match o with
  | AppendNode _ => True
  | SetScenario i _ | SetT i _ | SetHF i _ | AddHF i _ | SetHTC i _ | AddHTC i _ | SetC i _ => (i < n)%nat
  | SetR a b _ => (a < n)%nat /\ (b < n)%nat
  end.
Fixpoint ok_ops (n : nat) (os : list op) : Prop :=
  match os with
  | [] => True
  | AppendNode _ :: os' => ok_ops (Datatypes.S n) os'
  | o :: os' => op_ok n o /\ ok_ops n os'
  end.
Lemma at_node_defined i f l : (i < List.length l)%nat -> at_node i f l = Ok (upd i f l).
Proof. unfold at_node; intros H; apply Nat.ltb_lt in H; rewrite H; reflexivity. Qed.
Lemma ok_ops_run minR os : forall l, ok_ops (List.length l) os -> exists l', run minR l os = Ok l'.
Proof.
  induction os as [|o os IH]; intros l H; [simpl; eauto|].
  assert (G : forall i f, step minR l o = at_node i f l -> (i < List.length l)%nat -> ok_ops (List.length l) os -> exists l', run minR l (o :: os) = Ok l').
  { intros i f E Hi Hok; cbn [run]; rewrite E, at_node_defined by auto; cbn [bind]; apply IH; rewrite upd_length; auto. }
  destruct o; cbn [ok_ops op_ok] in H;
    try (destruct H as [H1 H2]; eapply G; [reflexivity|eauto|eauto]; fail).
  - cbn [run step bind]; apply IH; rewrite app_length, Nat.add_1_r; auto.
  - destruct H as [[H1 H2] H3]; destruct (Nat.ltb_spec b a) as [Hlt|Hlt].
    + eapply (G b); [unfold step, set_r; apply Nat.ltb_lt in Hlt; rewrite Hlt; reflexivity|auto|auto].
    + eapply (G a); [unfold step, set_r; apply Nat.ltb_ge in Hlt; rewrite Hlt; reflexivity|auto|auto].
Qed.
Definition static_ok (n : nat) (os : list op) : Prop :=
  forall o, In o os -> match o with AppendNode _ => False | _ => op_ok n o end.
Lemma static_app n a b : static_ok n a -> ok_ops n b -> ok_ops n (a ++ b).
Proof.
  induction a as [|o a IH]; intros H Hb; simpl; auto.
  assert (Ha : ok_ops n (a ++ b)) by (apply IH; auto; intros o' Ho'; apply H; now right).
  specialize (H o (or_introl eq_refl)); destruct o; simpl in *; tauto.
Qed.
