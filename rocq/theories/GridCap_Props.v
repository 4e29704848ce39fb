(** C86: the heat capacity of the nodes of a grid network.
    Model: [cell_cap], [cell_ops], [build] in Grid_Model (EGridThermalNetworkBuilder.cpp:15-68, 201-205, 256-298). *)
From Verif Require Import Base QSum ThermalNetwork_Model ThermalNetwork_Spec ThermalNetwork_Proofs Grid_Model Grid_Spec Grid_Proofs.

(** ** Specification *)
(** Volume of a cell, from the resolution of the grid and the thickness of its layer. *)
Definition cell_volume (m : gmodel) (c : cell) : Q :=
  let '(_, _, z) := c in
  match nth_error (g_layers m) z with
  | Some l => g_resx m * g_scale m * (g_resy m * g_scale m) * l_thick l
  | None => 0
  end.
(** The share of metal of a cell. *)
Definition cell_metal (m : gmodel) (c : cell) : Q :=
  let '(x, y, z) := c in match nth_error (g_layers m) z with Some l => l_mf l x y | None => 0 end.
(** Specific heat and density of the two materials, as the builder has them (272-298). *)
Definition metal_c : Q := 380.       Definition metal_rho : Q := 8850.
Definition dielectric_c : Q := 691.  Definition dielectric_rho : Q := 2400.

(** ** Proofs *)
(** the value of the last [SetC] on a node *)
Fixpoint last_c (i : nat) (os : list op) (c : Q) : Q :=
  match os with
  | [] => c
  | SetC j v :: os' => last_c i os' (if (j =? i)%nat then v else c)
  | _ :: os' => last_c i os' c
  end.

Lemma upd_get_c i f l j : (i < List.length l)%nat -> (forall n, n_c (f n) = n_c n) -> get_c (upd i f l) j = get_c l j.
Proof.
  intros Hi Hf; unfold get_c; destruct (nth_error l j) as [n|] eqn:E.
  - assert (E' : nth_error (upd i f l) j = Some (if (i =? j)%nat then f n else n)) by (rewrite upd_nth, E; destruct (i =? j)%nat; reflexivity).
    rewrite (nth_error_nth _ j node0 E'), (nth_error_nth _ j node0 E); destruct (i =? j)%nat; auto.
  - assert (List.length l <= j)%nat by (apply nth_error_None; auto).
    rewrite !nth_overflow; auto; rewrite upd_length; auto.
Qed.

Lemma step_get_c minR l o l' i : step minR l o = Ok l' -> get_c l' i = last_c i [o] (get_c l i).
Proof.
  intros H; destruct o; cbn [step last_c] in *;
    try (apply at_node_ok in H as [-> L]; apply upd_get_c; [exact L|reflexivity]).
  - injection H as <-; unfold get_c; destruct (Nat.lt_ge_cases i (List.length l)) as [L|L].
    + rewrite app_nth1 by auto; reflexivity.
    + rewrite app_nth2 by auto; rewrite (nth_overflow l) by auto; destruct (i - List.length l)%nat as [|[|]]; reflexivity.
  - apply at_node_ok in H as [-> L]; unfold get_c; destruct (nth_error l i) as [n|] eqn:E.
    + assert (E' : nth_error (upd i0 (with_c v) l) i = Some (if (i0 =? i)%nat then with_c v n else n)) by (rewrite upd_nth, E; destruct (i0 =? i)%nat; reflexivity).
      rewrite (nth_error_nth _ i node0 E'), (nth_error_nth _ i node0 E); destruct (i0 =? i)%nat; reflexivity.
    + assert (List.length l <= i)%nat by (apply nth_error_None; auto).
      destruct (Nat.eqb_spec i0 i); [lia|]; rewrite !nth_overflow; auto; rewrite upd_length; auto.
  - apply set_r_ok in H as [-> L]; apply upd_get_c; [exact L|reflexivity].
Qed.

Lemma last_c_app i a b c : last_c i (a ++ b) c = last_c i b (last_c i a c).
Proof. revert c; induction a as [|o a IH]; intros c; [reflexivity|]; destruct o; cbn [last_c app]; apply IH. Qed.

Lemma run_get_c minR os : forall l l' i, run minR l os = Ok l' -> get_c l' i = last_c i os (get_c l i).
Proof.
  induction os as [|o os IH]; intros l l' i; cbn [run]; [intros [= <-]; reflexivity|].
  destruct (step minR l o) as [l1| | |] eqn:E; cbn [bind]; try discriminate; intros H.
  rewrite (IH _ _ i H), (step_get_c _ _ _ _ i E); change (o :: os) with ([o] ++ os); rewrite last_c_app; reflexivity.
Qed.

Definition no_c (os : list op) : Prop := forall o, In o os -> match o with SetC _ _ => False | _ => True end.
Lemma last_c_none i os c : no_c os -> last_c i os c = c.
Proof.
  induction os as [|o os IH]; intros H; [reflexivity|].
  specialize (IH (fun o' H' => H o' (or_intror H'))); specialize (H o (or_introl eq_refl)); destruct o; cbn [last_c]; tauto.
Qed.
Lemma no_c_flat_map {A} (f : A -> list op) l : (forall a, In a l -> no_c (f a)) -> no_c (flat_map f l).
Proof. intros H o Ho; apply in_flat_map in Ho as (a & Ha & Ho); exact (H a Ha o Ho). Qed.
Lemma no_c_app a b : no_c a -> no_c b -> no_c (a ++ b).
Proof. intros H1 H2 o Ho; apply in_app_or in Ho as [Ho|Ho]; [exact (H1 o Ho)|exact (H2 o Ho)]. Qed.

Lemma bc_no_c m b i : no_c (bc_op m b i).
Proof. destruct b; intros o Ho; simpl in Ho; intuition (subst; auto). Qed.

Lemma layer_power_no_c m T z ps : forall node os n, layer_power_ops m T z node ps = (os, n) -> no_c os.
Proof.
  induction ps as [|[q|llx lly urx ury tot] ps IH]; intros node os n; cbn [layer_power_ops].
  - intros [= <- _]; intros o [].
  - destruct (layer_power_ops m T z node ps) as [os' n'] eqn:E; intros [= <- _].
    apply no_c_app; [|eauto]; apply no_c_flat_map; intros x _; apply no_c_flat_map; intros y _ o Ho; cbv zeta in Ho; destruct (q _ x y); simpl in Ho; intuition (subst; auto).
  - destruct (layer_power_ops m T z (Datatypes.S node) ps) as [os' n'] eqn:E; intros [= <- _].
    intros o [<-|[<-|Ho]]; auto; apply in_app_or in Ho as [Ho|Ho]; [|exact (IH _ _ _ E o Ho)].
    apply in_flat_map in Ho as (x & _ & Ho); apply in_map_iff in Ho as (y & <- & _); auto.
Qed.
Lemma power_no_c m T ls : forall z node, no_c (power_ops m T z node ls).
Proof.
  induction ls as [|l ls IH]; intros z node; cbn [power_ops]; [intros o []|].
  destruct (layer_power_ops m T z node (l_power l)) as [os n] eqn:E; apply no_c_app; [exact (layer_power_no_c _ _ _ _ _ _ _ E)|apply IH].
Qed.

Lemma tail_no_c m T : no_c (jump_ops m ++ power_ops m T 0 (total_grids m) (g_layers m) ++ uniform_bc_ops m (g_top m) 0 ++
  uniform_bc_ops m (g_bottom m) (g_nz m - 1) ++ block_bc_ops m (g_topblocks m) 0 ++ block_bc_ops m (g_botblocks m) (g_nz m - 1)).
Proof.
  assert (U : forall b z, no_c (uniform_bc_ops m b z)).
  { intros [b|] z; [|intros o []]; apply no_c_flat_map; intros x _; apply no_c_flat_map; intros y _; apply bc_no_c. }
  assert (B : forall bs z, no_c (block_bc_ops m bs z)).
  { intros bs z; apply no_c_flat_map; intros [[[llx lly] [urx ury]] b] _; apply no_c_flat_map; intros x _; apply no_c_flat_map; intros y _; apply bc_no_c. }
  repeat apply no_c_app; auto using power_no_c.
  apply no_c_flat_map; intros [[a b] al] _ o Ho; cbv zeta in Ho; destruct (_ =? _)%nat; simpl in Ho; intuition (subst; auto).
Qed.

Lemma cells_last_c m i : forall n k c, last_c i (flat_map (cell_ops m) (seq k n)) c =
  if ((k <=? i) && (i <? k + n))%nat then cell_cap m (unflatten m i) else c.
Proof.
  induction n as [|n IH]; intros k c; cbn [seq flat_map].
  - destruct (Nat.leb_spec k i), (Nat.ltb_spec i (k + 0)); cbn; try reflexivity; lia.
  - rewrite last_c_app, IH.
    assert (E : last_c i (cell_ops m k) c = if (k =? i)%nat then cell_cap m (unflatten m k) else c).
    { unfold cell_ops; cbv zeta; cbn [last_c]; apply last_c_none; intros o Ho; rewrite !in_app_iff in Ho.
      destruct Ho as [Ho|[Ho|Ho]]; destruct (neighbor _ _ _); simpl in Ho; intuition (subst; auto). }
    rewrite E.
    destruct (Nat.leb_spec (Datatypes.S k) i), (Nat.ltb_spec i (Datatypes.S k + n)), (Nat.leb_spec k i), (Nat.ltb_spec i (k + Datatypes.S n));
      destruct (Nat.eqb_spec k i); subst; cbn [andb]; try reflexivity; lia.
Qed.

Lemma build_get_c minR m T l i : build minR m T = Ok (Some l) -> get_c l i = if (i <? total_grids m)%nat then cell_cap m (unflatten m i) else 0.
Proof.
  unfold build; destruct (_ =? _)%nat; [|discriminate].
  destruct (run minR _ _) as [l'| | |] eqn:E; cbn [rmap]; try discriminate; intros [= <-].
  rewrite (run_get_c _ _ _ _ i E); unfold build_ops; rewrite last_c_app, (last_c_none _ _ _ (tail_no_c m _)), cells_last_c; cbn [Nat.leb andb Nat.add].
  assert (Z : get_c (net_new (total_grids m)) i = 0).
  { unfold get_c, net_new; destruct (nth_in_or_default i (repeat node0 (total_grids m)) node0) as [H|H]; [apply repeat_spec in H|]; rewrite H; reflexivity. }
  rewrite Z; reflexivity.
Qed.

(** ** Theorems *)
(** The capacity of every cell, as the builder computes it: both materials count with the density of the metal. *)
Theorem C86_capacity_of_cell : forall minR m T l c, build minR m T = Ok (Some l) -> in_grid m c ->
  get_c l (flatten m c) == cell_volume m c * (cell_metal m c * (metal_c * metal_rho) + (1 - cell_metal m c) * (dielectric_c * metal_rho)).
Proof.
  intros minR m T l c H Hc; rewrite (build_get_c _ _ _ _ _ H).
  destruct (Nat.ltb_spec (flatten m c) (total_grids m)) as [_|L]; [|pose proof (flatten_lt m c Hc); lia].
  rewrite (unflatten_flatten m c Hc); destruct c as [[x y] z]; destruct Hc as (_ & _ & Hz).
  unfold cell_cap, cell_volume, cell_metal, metal_fraction, zlen, zarea, xlen, ylen, metal_c, metal_rho, dielectric_c.
  destruct (nth_error (g_layers m) z) as [ly|] eqn:E; [|apply nth_error_None in E; unfold g_nz in Hz; lia].
  rewrite (nth_error_nth _ z layer0 E); ring.
Qed.
Print Assumptions C86_capacity_of_cell.

(** Nodes added for block power models have no capacity. *)
Theorem C86_other_nodes : forall minR m T l i, build minR m T = Ok (Some l) -> (total_grids m <= i)%nat -> get_c l i = 0.
Proof.
  intros minR m T l i H Hi; rewrite (build_get_c _ _ _ _ _ H); destruct (Nat.ltb_spec i (total_grids m)); [lia|reflexivity].
Qed.
Print Assumptions C86_other_nodes.

(** Proved: cells all of metal store volume times specific heat times density of the metal.  Missing: any cell with a
    share of dielectric, for which it is false ([C86_dielectric_capacity_refuted]). *)
Theorem C86_metal_capacity_partial : forall minR m T l c, build minR m T = Ok (Some l) -> in_grid m c -> cell_metal m c == 1 ->
  get_c l (flatten m c) == cell_volume m c * metal_c * metal_rho.
Proof.
  intros minR m T l c H Hc H1; rewrite (C86_capacity_of_cell _ _ _ _ _ H Hc), H1; ring.
Qed.
Print Assumptions C86_metal_capacity_partial.

(** A cell of dielectric only does not store volume times specific heat times density of the dielectric: it stores
    more than three times as much. *)
Theorem C86_dielectric_capacity_refuted : exists m T l c, build (1#1000000) m T = Ok (Some l) /\ in_grid m c /\ cell_metal m c == 0 /\
  0 < cell_volume m c /\ 3 * (cell_volume m c * dielectric_c * dielectric_rho) < get_c l (flatten m c).
Proof.
  exists (mkGrid 2 1 1 1 1 [mkLayer "d" 1 "" "" (2%nat, 1%nat) (fun x _ => if (x =? 0)%nat then 0 else 1) []] [] None None [] []), [25; 25].
  eexists; exists (0%nat, 0%nat, 0%nat); split; [vm_compute; reflexivity|]; split; [vm_compute; auto|split; [reflexivity|split; reflexivity]].
Qed.
Print Assumptions C86_dielectric_capacity_refuted.

Example C86_ex : exists m l, build (1#1000000) m [25; 25] = Ok (Some l) /\ in_grid m (1%nat, 0%nat, 0%nat) /\
  cell_metal m (1%nat, 0%nat, 0%nat) == 1 /\ get_c l (flatten m (1%nat, 0%nat, 0%nat)) == 2 * 380 * 8850.
Proof.
  exists (mkGrid 2 1 1 1 1 [mkLayer "d" 2 "" "" (2%nat, 1%nat) (fun x _ => if (x =? 0)%nat then 0 else 1) []] [] None None [] []).
  eexists; split; [vm_compute; reflexivity|]; split; [vm_compute; auto|split; reflexivity].
Qed.
