(** C25: equal settings agree on what influences the model *)
From Verif Require Import Base Settings_Model Settings_Spec.
From Coq Require Import QArith Qabs Lqa.

Section Props.
  Context (eps : Q).

  Lemma feq_near a b : feq eps a b = true <-> near eps a b.
  Proof. unfold feq, near; apply Qle_bool_iff. Qed.

  Lemma nets_same a b : nets_eqb a b = true <-> same_nets a b.
  Proof.
    unfold nets_eqb, subset, same_nets; rewrite andb_true_iff, !forallb_forall; split.
    - intros [H1 H2] n; split; intros Hn; [apply H1 in Hn|apply H2 in Hn]; apply existsb_exists in Hn as (x & Hx & E);
        apply Z.eqb_eq in E; subst; auto.
    - intros H; split; intros n Hn; apply H in Hn; apply existsb_exists; exists n; split; auto; apply Z.eqb_refl.
  Qed.

  Lemma box_same a b : box_eqb a b = true <-> same_box a b.
  Proof.
    destruct a as [[a1 a2] [a3 a4]], b as [[b1 b2] [b3 b4]]; unfold box_eqb, same_box; simpl.
    rewrite !andb_true_iff, !Qeq_bool_iff; tauto.
  Qed.

  Lemma bc_same a b : bc_eqb eps a b = true <-> same_bc eps a b.
  Proof. unfold bc_eqb, same_bc; rewrite andb_true_iff, eqb_true_iff, feq_near; tauto. Qed.

  Lemma block_same a b : block_eqb eps a b = true <-> same_block eps a b.
  Proof. unfold block_eqb, same_block; rewrite andb_true_iff, box_same, bc_same; tauto. Qed.

  Lemma list_same {A} (e : A -> A -> bool) (R : A -> A -> Prop) : (forall a b, e a b = true <-> R a b) ->
    forall a b, list_eqb e a b = true <-> Forall2 R a b.
  Proof.
    intros H; induction a as [|x a IH]; intros [|y b]; simpl; split; intros E; try discriminate; try inversion E; auto.
    - apply andb_true_iff in E as [E1 E2]; constructor; [apply H|apply IH]; auto.
    - subst; apply andb_true_iff; split; [apply H|apply IH]; auto.
  Qed.

  Lemma merge_same a b : merge_eqb a b = true <-> same_merge a b.
  Proof. unfold merge_eqb, same_merge; rewrite !andb_true_iff, !eqb_true_iff, nets_same; tauto. Qed.

  Lemma thermal_same a b : thermal_eqb eps a b = true <-> same_thermal eps a b.
  Proof.
    unfold thermal_eqb, same_thermal; rewrite !andb_true_iff, !bc_same, eqb_true_iff, feq_near.
    rewrite !(list_same _ _ block_same); tauto.
  Qed.

  Lemma mesh_same a b : mesh_eqb eps a b = true <-> same_mesh eps a b.
  Proof. unfold mesh_eqb, same_mesh; rewrite !andb_true_iff, !feq_near, Nat.eqb_eq, !eqb_true_iff; tauto. Qed.

  Lemma cut_same a b : cut_eqb a b = true <-> same_cut a b.
  Proof.
    unfold cut_eqb, same_cut; rewrite !andb_true_iff, Nat.eqb_eq, eqb_true_iff, Qeq_bool_iff.
    rewrite (list_same _ _ box_same); tauto.
  Qed.

  Lemma frac_region a b : frac_eqb eps a b = true <-> same_region eps a b.
  Proof.
    unfold frac_eqb, same_region; rewrite !andb_true_iff, !feq_near, !eqb_true_iff, !Nat.eqb_eq, nets_same, merge_same.
    destruct (fs_grid a), (fs_grid b); simpl; split.
    - intros H; decompose [and] H; repeat split; auto; congruence.
    - intros (H1 & H2 & H3 & H4 & H5 & [= -> ->]); repeat split; auto; tauto.
  Qed.

  (** Prism (and stackup prism) extraction: equality is exactly agreement on every field that influences the model. *)
  Theorem C25_prism_settings_equal (a b : prism_settings) :
    settings_eqb eps (Prism a) (Prism b) = true <-> same_prism eps a b.
  Proof.
    unfold settings_eqb, same_prism; rewrite !andb_true_iff, thermal_same, mesh_same, merge_same, cut_same; tauto.
  Qed.

  Theorem C25_layer_cut_settings_equal (a b : cut_settings) : cut_eqb a b = true <-> same_cut a b.
  Proof. apply cut_same. Qed.

  Theorem C25_kinds_differ a b : settings_eqb eps (Grid a) (Prism b) = false /\ settings_eqb eps (Prism b) (Grid a) = false.
  Proof. split; reflexivity. Qed.

  (** Grid extraction: equality guarantees agreement on every field except the set of selected nets. *)
  Theorem C25_grid_settings_equal_partial (a b : grid_settings) :
    settings_eqb eps (Grid a) (Grid b) = true <-> same_grid_but_nets eps a b.
  Proof.
    unfold settings_eqb, same_grid_but_nets; rewrite andb_true_iff, thermal_same, frac_region; tauto.
  Qed.

  (** Adding a block condition to equal settings keeps them equal; different blocks make them different. *)
  Theorem C25_add_block_bc top (b : box) (c : bc) (s t : settings) : 0 <= eps ->
    settings_eqb eps s t = true -> settings_eqb eps (add_block_bc top b c s) (add_block_bc top b c t) = true.
  Proof.
    intros He.
    assert (Hn : near eps (bc_value c) (bc_value c)).
    { unfold near; setoid_replace (bc_value c - bc_value c) with 0 by ring; exact He. }
    assert (Hb : same_block eps (b, c) (b, c)) by (split; [repeat split; reflexivity|split; auto]).
    assert (Ht : forall x y, same_thermal eps x y -> same_thermal eps (add_block top b c x) (add_block top b c y)).
    { intros x y (H1 & H2 & H3 & H4 & H5 & H6); unfold add_block, same_thermal; simpl.
      repeat (split; auto); destruct top; auto; apply Forall2_app; auto. }
    destruct s as [s|s], t as [t|t]; simpl add_block_bc; try discriminate.
    - rewrite !C25_grid_settings_equal_partial; intros [H1 H2]; split; auto; apply Ht; auto.
    - rewrite !C25_prism_settings_equal; intros (H1 & H2 & H3 & (H4 & H5 & H6 & H7)); split; [apply Ht; auto|].
      split; auto; split; auto; unfold same_cut; simpl; repeat (split; auto).
      apply Forall2_app; auto; constructor; auto; repeat split; reflexivity.
  Qed.

  (** Block conditions are kept in the order they were added, each on its own side, and nothing else of the thermal
      settings changes. *)
  Definition thermal_of (s : settings) : thermal_settings := match s with Grid x => g_base x | Prism x => p_base x end.
  Theorem C25_blocks_kept (adds : list (bool * box * bc)) : forall s : settings,
    let s' := fold_left (fun s a => add_block_bc (fst (fst a)) (snd (fst a)) (snd a) s) adds s in
    let on side := map (fun a => (snd (fst a), snd a)) (filter (fun a => Bool.eqb (fst (fst a)) side) adds) in
    let t := thermal_of s in let t' := thermal_of s' in
    th_topBlocks t' = th_topBlocks t ++ on true /\ th_botBlocks t' = th_botBlocks t ++ on false /\
    th_force t' = th_force t /\ th_threads t' = th_threads t /\ th_workDir t' = th_workDir t /\
    th_top t' = th_top t /\ th_bot t' = th_bot t /\ th_env t' = th_env t /\
    match s, s' with
    | Grid x, Grid y => g_dumps y = g_dumps x /\ g_frac y = g_frac x
    | Prism x, Prism y => p_mesh y = p_mesh x /\ p_merge y = p_merge x /\
        cu_imprint (p_cut y) = cu_imprint (p_cut x) ++ map (fun a => snd (fst a)) adds
    | _, _ => False
    end.
  Proof.
    induction adds as [|[[top b] c] adds IH]; intros s; cbv zeta in *.
    - cbn [fold_left filter map]; rewrite !app_nil_r; repeat (split; [reflexivity|]); destruct s; cbn; rewrite ?app_nil_r; auto.
    - cbn [fold_left fst snd]; specialize (IH (add_block_bc top b c s)).
      set (s' := fold_left _ adds _) in *; clearbody s'.
      destruct IH as (H1 & H2 & H3 & H4 & H5 & H6 & H7 & H8 & H9); rewrite H1, H2, H3, H4, H5, H6, H7, H8.
      destruct s as [s|s], s' as [s'|s']; try contradiction; destruct top; cbn in *;
        rewrite <- ?app_assoc; cbn; repeat (split; auto); try tauto; destruct H9 as (? & ? & ->);
        rewrite <- app_assoc; auto.
  Qed.
End Props.
Print Assumptions C25_prism_settings_equal.
Print Assumptions C25_layer_cut_settings_equal.
Print Assumptions C25_kinds_differ.
Print Assumptions C25_grid_settings_equal_partial.
Print Assumptions C25_add_block_bc.
Print Assumptions C25_blocks_kept.

Definition ex_merge (nets : list Z) : merge_settings := mkMS 1 "" true true true false nets.
Definition ex_thermal : thermal_settings := mkTS false 1 "" (mkBC true 10) (mkBC false 0) [] [] (25, true).
Definition ex_grid (nets : list Z) : grid_settings :=
  mkGS ex_thermal (false, false, false) (mkFS 1 "" 0 0 0 0 true (10, 10)%nat nets (ex_merge nets)).

(** ECadSettings.h:118: the selected nets are compared with themselves. *)
Theorem C25_grid_settings_equal_refuted :
  exists a b : grid_settings, forall eps, 0 <= eps ->
    settings_eqb eps (Grid a) (Grid b) = true /\ ~ same_grid eps a b /\
    In 1%Z (fs_nets (g_frac a)) /\ ~ In 1%Z (fs_nets (g_frac b)) /\ In 2%Z (fs_nets (g_frac b)).
Proof.
  exists (ex_grid [1%Z]), (ex_grid [2%Z]); intros eps He; split; [|split; [|simpl; intuition lia]].
  - apply C25_grid_settings_equal_partial; unfold same_grid_but_nets, same_thermal, same_region, same_bc, near; simpl.
    assert (Hq : forall q : Q, Qabs (q - q) <= eps) by
      (intros q; setoid_replace (q - q) with 0 by ring; exact He).
    repeat (split; auto).
  - intros [_ H]; destruct (H 1%Z) as [H1 _]; simpl in H1; specialize (H1 (or_introl eq_refl)); lia.
Qed.
Print Assumptions C25_grid_settings_equal_refuted.

Example prism_ex :
  let m := mkMesh 20 0 1000 0 3 false false false in
  let c := mkCut true 6 2 false [] in
  let s := Prism (mkPS ex_thermal m (ex_merge [1%Z; 2%Z]) c) in
  let t := Prism (mkPS (mkTS true 8 "tmp" (mkBC true 10) (mkBC false 0) [] [] (25, true)) m (ex_merge [2%Z; 1%Z; 1%Z]) c) in
  let u := Prism (mkPS ex_thermal m (ex_merge [1%Z; 3%Z]) c) in
  settings_eqb (1 # 1000) s t = true /\ settings_eqb (1 # 1000) s u = false.
Proof. vm_compute; auto. Qed.
