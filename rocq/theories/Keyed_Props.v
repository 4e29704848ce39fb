From Verif Require Import Base LookupTable_Model LookupTable_Spec LookupTable_Proofs Keyed_Model Keyed_Spec Keyed_Proofs.
From Coq Require Import QArith Lqa.
Local Open Scope Q_scope.

(** Material properties: the first property set for an id stays, for every history. *)
Theorem C15_material_property_first_set_wins :
  forall V (hist : list (nat * V)) id, get_property (properties_of hist) id = first_set hist id.
Proof. intros; apply emplace_history. Qed.
Print Assumptions C15_material_property_first_set_wins.

Theorem C15_uniform_bc_first_set_wins :
  forall V (valid : V -> bool) (hist : list (nat * V)) o bc,
    get_uniform_bc valid (bcs_of hist) o = Some bc <-> first_set hist o = Some bc /\ valid bc = true.
Proof.
  intros V valid hist o bc; unfold get_uniform_bc, bcs_of, set_uniform_bc; rewrite emplace_history.
  destruct (first_set hist o) as [b|]; [|split; [discriminate|intros [H _]; discriminate]].
  destruct (valid b) eqn:E; split; [intros H|intros [H _]|intros H|intros [H H']]; try congruence.
  injection H as <-; auto.
Qed.
Print Assumptions C15_uniform_bc_first_set_wins.

(** A key written at most once reads back what was written: the claim holds for such histories. *)
Theorem C15_set_once_reads_back_partial :
  forall V (hist : list (nat * V)) k, set_once hist k ->
    get_property (properties_of hist) k = last_set hist k.
Proof. intros; rewrite set_once_last by auto; apply emplace_history. Qed.
Print Assumptions C15_set_once_reads_back_partial.

Example C15_set_once_case : set_once [(1%nat, 10); (2%nat, 20); (1%nat, 30)] 2 /\
  get_property (properties_of [(1%nat, 10); (2%nat, 20); (1%nat, 30)]) 2 = Some 20.
Proof. split; vm_compute; auto. Qed.

(** Findings: setting again has no effect. *)
Theorem C15_material_property_last_set_refuted :
  exists hist : list (nat * Q), exists id, get_property (properties_of hist) id <> last_set hist id.
Proof. exists [(0%nat, 1); (0%nat, 2)], 0%nat; vm_compute; discriminate. Qed.
Print Assumptions C15_material_property_last_set_refuted.

(** In particular an invalid first boundary condition can never be repaired: no later call makes one readable. *)
Theorem C15_invalid_bc_sticks_refuted :
  forall V (valid : V -> bool) (bad : V) o later,
    valid bad = false -> get_uniform_bc valid (bcs_of ((o, bad) :: later)) o = None.
Proof.
  intros V valid bad o later H; destruct (get_uniform_bc _ _ o) as [bc|] eqn:E; auto.
  apply C15_uniform_bc_first_set_wins in E as [E1 E2]; simpl in E1; rewrite Nat.eqb_refl in E1; congruence.
Qed.
Print Assumptions C15_invalid_bc_sticks_refuted.

(** Grid tables: GetTable returns the first accepted sample of that key. *)
Theorem C15_grid_table_first_sample_wins :
  forall pchip w h ops k,
    gt_get_table (fst (gt_run pchip (gt_new w h) ops)) k = first_write (accepted w h ops) k.
Proof.
  intros; rewrite get_table_value.
  destruct (run_ok pchip ops (gt_new w h) I) as [_ E]; rewrite E.
  exact (value_at_history (accepted w h ops) k).
Qed.
Print Assumptions C15_grid_table_first_sample_wins.

Definition g22 (v : Q) : grid := mkGrid 2 2 (fun _ _ => v).

Theorem C15_grid_table_last_sample_refuted :
  exists ops k, forall pchip,
    gt_get_table (fst (gt_run pchip (gt_new 2 2) ops)) k <> last_write (accepted 2 2 ops) k.
Proof.
  exists [GAdd 1 (g22 5); GAdd 1 (g22 6)], 1; intros pchip H.
  vm_compute in H; injection H as H; apply (f_equal (fun f => f 0%nat 0%nat)) in H; discriminate.
Qed.
Print Assumptions C15_grid_table_last_sample_refuted.

(** Grid tables: every answer, at every point of every history of samples and queries, is the one determined by
    the samples accepted so far – clamped outside the key range, interpolated over all of them inside – so a cached
    interpolator is never stale; samples of the wrong size are refused without effect. *)
Theorem C65_grid_queries_use_current_samples :
  forall pchip w h ops, outputs_spec pchip w h [] ops (snd (gt_run pchip (gt_new w h) ops)).
Proof. intros; exact (proj1 (run_ok pchip ops (gt_new w h) I)). Qed.
Print Assumptions C65_grid_queries_use_current_samples.

Theorem C65_grid_samples_sorted :
  forall pchip w h ops, sorted (gt_data (fst (gt_run pchip (gt_new w h) ops))).
Proof.
  intros; destruct (run_ok pchip ops (gt_new w h) I) as [_ E]; rewrite E.
  exact (table_of_sorted (accepted w h ops)).
Qed.
Print Assumptions C65_grid_samples_sorted.

Example C65_case :
  let sum := fun (xs ys : list Q) (_ : Q) => Ok (fold_left Qplus ys 0) in
  snd (gt_run sum (gt_new 2 2)
    [GQuery 1 0 0; GAdd 0 (g22 5); GAdd 2 (g22 7); GQuery 1 0 0; GAdd 3 (mkGrid 1 1 (fun _ _ => 0));
     GAdd 4 (g22 8); GQuery 1 0 0; GQuery 9 1 1; GQuery 1 2 0])
  = [OQuery false (Ok 0); OAdd true; OAdd true; OQuery true (Ok 12); OAdd false; OAdd true;
     OQuery true (Ok 20); OQuery true (Ok 8); OQuery false (Ok 0)].
Proof. vm_compute; reflexivity. Qed.
