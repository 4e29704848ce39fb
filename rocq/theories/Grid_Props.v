(** Theorems C30-C34 and C61 about grid thermal models. *)
From Verif Require Import Base QSum ThermalNetwork_Model ThermalNetwork_Spec ThermalNetwork_Proofs ThermalNetwork_Props Grid_Model Grid_Spec Grid_Proofs.

(** * C30 *)
Theorem C30_flat_index_bijection m :
  (forall c, in_grid m c -> (flatten m c < total_grids m)%nat /\ unflatten m (flatten m c) = c) /\
  (forall i, (i < total_grids m)%nat -> in_grid m (unflatten m i) /\ flatten m (unflatten m i) = i).
Proof.
  split; [intros c Hc; split; [now apply flatten_lt|now apply unflatten_flatten]|apply flatten_unflatten].
Qed.
Print Assumptions C30_flat_index_bijection.

(** the validity test agrees, and a neighbour is valid, adjacent in the asked direction, and sees the
    cell in the opposite direction; there is none exactly when no valid cell lies in that direction *)
Definition toward (o : orientation) (a b : cell) : Prop :=
  match o with
  | Right => next_x a b | Left => next_x b a
  | End_ => next_y a b | Front => next_y b a
  | Bot => next_z a b | Top => next_z b a
  end.

Theorem C30_neighbors m c o : in_grid m c ->
  match neighbor m c o with
  | Some c' => in_grid m c' /\ toward o c c' /\ neighbor m c' (opposite o) = Some c
  | None => forall c', in_grid m c' -> ~ toward o c c'
  end.
Proof.
  intros Hc; destruct (neighbor m c o) as [c'|] eqn:E.
  - destruct (neighbor_valid _ _ _ _ Hc E) as [H1 H2]; split; [auto|split; [|auto]].
    destruct c as [[x y] z]; unfold neighbor in E; destruct o; simpl.
    + destruct z; [discriminate|]; injection E as <-; reflexivity.
    + destruct (z =? _)%nat; [discriminate|]; injection E as <-; reflexivity.
    + destruct x; [discriminate|]; injection E as <-; reflexivity.
    + destruct (x =? _)%nat; [discriminate|]; injection E as <-; reflexivity.
    + destruct y; [discriminate|]; injection E as <-; reflexivity.
    + destruct (y =? _)%nat; [discriminate|]; injection E as <-; reflexivity.
  - intros [[x' y'] z'] (Hx' & Hy' & Hz'); destruct c as [[x y] z]; destruct Hc as (Hx & Hy & Hz).
    unfold neighbor in E; destruct o; simpl; intros [= ]; subst; try discriminate.
    + destruct (Nat.eqb_spec z (g_nz m - 1)); [lia|discriminate].
    + destruct (Nat.eqb_spec x (g_nx m - 1)); [lia|discriminate].
    + destruct (Nat.eqb_spec y (g_ny m - 1)); [lia|discriminate].
Qed.
Print Assumptions C30_neighbors.

Theorem C30_valid_is_in_grid m c : valid m c = true <-> in_grid m c.
Proof.
  destruct c as [[x y] z]; unfold valid, in_grid; rewrite !andb_true_iff, !Nat.ltb_lt; tauto.
Qed.
Print Assumptions C30_valid_is_in_grid.

Definition lay (t : Q) (ps : list power) : glayer := mkLayer "l"%string t ""%string ""%string (2%nat, 3%nat) (fun _ _ => 1#2) ps.
Definition m23 (ps : list power) : gmodel := mkGrid 2 3 1 2 (1#10) [lay 1 ps; lay 2 []] [] (Some (HTC 5)) None [] [].
Example C30_example : in_grid (m23 []) (1, 2, 1)%nat /\ flatten (m23 []) (1, 2, 1)%nat = 11%nat /\ unflatten (m23 []) 11 = (1, 2, 1)%nat
  /\ neighbor (m23 []) (1, 2, 1)%nat Left = Some (0, 2, 1)%nat /\ neighbor (m23 []) (1, 2, 1)%nat Right = None.
Proof. split; [unfold in_grid, g_nz; simpl; lia|repeat split]. Qed.

(** * C31 *)
Theorem C31_faces_exactly_once m T a b : g_jumps m = [] -> in_grid m a -> in_grid m b -> a <> b ->
  let n := List.length (filter (on_pair (flatten m a) (flatten m b)) (build_ops m T)) in
  (share_face a b -> n = 1%nat) /\ (~ share_face a b -> n = 0%nat).
Proof.
  intros Hj Ha Hb Hne n.
  assert (E : inject_Z (Z.of_nat n) == dsum m (fun _ => 1) a b + dsum m (fun _ => 1) b a).
  { unfold n; rewrite <- pairF_count; apply build_pair; auto. }
  clearbody n; split; intros H.
  - apply inject_nat_inj; rewrite E; change (inject_Z (Z.of_nat 1)) with 1.
    destruct H as [H|[H|[H|[H|[H|H]]]]].
    + destruct (dsum_next_x m (fun _ => 1) a b Ha Hb H) as [A B]; lra.
    + destruct (dsum_next_x m (fun _ => 1) b a Hb Ha H) as [A B]; lra.
    + destruct (dsum_next_y m (fun _ => 1) a b Ha Hb H) as [A B]; lra.
    + destruct (dsum_next_y m (fun _ => 1) b a Hb Ha H) as [A B]; lra.
    + destruct (dsum_next_z m (fun _ => 1) a b Ha Hb H) as [A B]; lra.
    + destruct (dsum_next_z m (fun _ => 1) b a Hb Ha H) as [A B]; lra.
  - apply inject_nat_inj; rewrite E; change (inject_Z (Z.of_nat 0)) with 0.
    rewrite !dsum_none; auto; [lra|intros H'; apply H, share_face_sym, H'].
Qed.
Print Assumptions C31_faces_exactly_once.

(** In the assembled conductance matrix of the built network, two cells are coupled iff they share a face. *)
Theorem C31_matrix_couples_exactly_faces minR m T net bonds ps mna a b : 0 < minR ->
  g_jumps m = [] -> in_grid m a -> in_grid m b -> a <> b ->
  build minR m T = Ok (Some net) -> make_mna net bonds ps = Ok mna ->
  (share_face a b -> entry (m_G mna) (flatten m a) (flatten m b) < 0) /\
  (~ share_face a b -> entry (m_G mna) (flatten m a) (flatten m b) == 0).
Proof.
  intros HminR Hj Ha Hb Hne Hbuild Hmna; unfold build in Hbuild.
  destruct (List.length T =? total_grids m)%nat; [|discriminate].
  set (Tf := fun i => nth i T 0) in *.
  destruct (run minR (net_new (total_grids m)) (build_ops m Tf)) as [l| | |] eqn:Hrun; simpl in Hbuild; try discriminate.
  injection Hbuild as <-.
  assert (Hab : flatten m a <> flatten m b) by (intros E; apply Hne; eapply flatten_inj; eauto).
  assert (Hlen : (total_grids m <= List.length l)%nat).
  { pose proof (run_length minR _ _ _ Hrun) as Hl; unfold net_new in Hl; rewrite repeat_length in Hl; exact Hl. }
  pose proof (flatten_lt m a Ha) as La; pose proof (flatten_lt m b Hb) as Lb.
  pose proof (C28_pair_conductance minR HminR (total_grids m) (build_ops m Tf) l bonds ps mna Hrun Hmna (flatten m a) (flatten m b)) as E.
  specialize (E ltac:(lia) ltac:(lia) Hab).
  assert (E' : - entry (m_G mna) (flatten m a) (flatten m b) == dsum m (fun r => 1 / Qmax r minR) a b + dsum m (fun r => 1 / Qmax r minR) b a).
  { rewrite E, <- (build_pair m Tf) by auto; apply sumf_ext; intros o _; symmetry; apply pairF_conductance. }
  assert (Hpos : forall r, 0 < 1 / Qmax r minR).
  { intros r; apply Qlt_shift_div_l; [|lra]; eapply Qlt_le_trans; [exact HminR|apply Q.le_max_r]. }
  split; intros H.
  - destruct H as [H|[H|[H|[H|[H|H]]]]].
    + destruct (dsum_next_x m (fun r => 1 / Qmax r minR) a b Ha Hb H) as [A B]; pose proof (Hpos (rx m a b)); lra.
    + destruct (dsum_next_x m (fun r => 1 / Qmax r minR) b a Hb Ha H) as [A B]; pose proof (Hpos (rx m b a)); lra.
    + destruct (dsum_next_y m (fun r => 1 / Qmax r minR) a b Ha Hb H) as [A B]; pose proof (Hpos (ry m a b)); lra.
    + destruct (dsum_next_y m (fun r => 1 / Qmax r minR) b a Hb Ha H) as [A B]; pose proof (Hpos (ry m b a)); lra.
    + destruct (dsum_next_z m (fun r => 1 / Qmax r minR) a b Ha Hb H) as [A B]; pose proof (Hpos (rz m a b)); lra.
    + destruct (dsum_next_z m (fun r => 1 / Qmax r minR) b a Hb Ha H) as [A B]; pose proof (Hpos (rz m b a)); lra.
  - rewrite !dsum_none in E'; auto; [lra|intros H'; apply H, share_face_sym, H'].
Qed.
Print Assumptions C31_matrix_couples_exactly_faces.

(** The builder accesses no node out of range and never fails, whenever the blocks and jumps are inside the grid. *)
Definition box_in_grid (m : gmodel) (urx ury : nat) : Prop := (urx < g_nx m /\ ury < g_ny m)%nat.
Definition blocks_in_grid (m : gmodel) : Prop :=
  (forall l q llx lly urx ury, In l (g_layers m) -> In (PBlock llx lly urx ury q) (l_power l) -> box_in_grid m urx ury) /\
  (forall llx lly urx ury b, In (llx, lly, (urx, ury), b) (g_topblocks m ++ g_botblocks m) -> box_in_grid m urx ury) /\
  (forall a b al, In (a, b, al) (g_jumps m) -> in_grid m a /\ in_grid m b).

Lemma build_ok_ops m Tf : g_layers m <> [] -> blocks_in_grid m -> ok_ops (total_grids m) (build_ops m Tf).
Proof.
  intros Hl (Hp & Hb & Hjmp).
  assert (Hnz : (0 < g_nz m)%nat) by (unfold g_nz; destruct (g_layers m); simpl; [tauto|lia]).
  unfold build_ops.
  assert (Hbc : forall z llx lly urx ury b n, (z < g_nz m)%nat -> (urx < g_nx m)%nat -> (ury < g_ny m)%nat -> (total_grids m <= n)%nat ->
     static_ok n (flat_map (fun x => flat_map (fun y => bc_op m b (flatten m (x, y, z))) (range lly ury)) (range llx urx))).
  { intros z llx lly urx ury b n Hz Hx Hy Hn o Ho; apply in_flat_map in Ho as (x & Ix & Ho); apply in_flat_map in Ho as (y & Iy & Ho).
    unfold range in *; apply in_seq in Ix; apply in_seq in Iy.
    assert (flatten m (x, y, z) < total_grids m)%nat by (apply flatten_lt; unfold in_grid; lia).
    destruct b; cbn [bc_op In] in Ho; intuition (subst; cbn [op_ok]; lia). }
  assert (Huni : forall z b n, (z < g_nz m)%nat -> (total_grids m <= n)%nat -> static_ok n (uniform_bc_ops m b z)).
  { intros z b n Hz Hn o Ho; destruct b as [b|]; cbn [uniform_bc_ops] in Ho; [|destruct Ho].
    apply in_flat_map in Ho as (x & Ix & Ho); apply in_flat_map in Ho as (y & Iy & Ho); apply in_seq in Ix; apply in_seq in Iy.
    assert (flatten m (x, y, z) < total_grids m)%nat by (apply flatten_lt; unfold in_grid; lia).
    destruct b; cbn [bc_op In] in Ho; intuition (subst; cbn [op_ok]; lia). }
  assert (Hblk : forall z bs n, (z < g_nz m)%nat -> (total_grids m <= n)%nat ->
     (forall llx lly urx ury b, In (llx, lly, (urx, ury), b) bs -> box_in_grid m urx ury) -> static_ok n (block_bc_ops m bs z)).
  { intros z bs n Hz Hn Hin o Ho; unfold block_bc_ops in Ho; apply in_flat_map in Ho as ([[[llx lly] [urx ury]] b] & Ib & Ho).
    destruct (Hin _ _ _ _ _ Ib) as [Hux Huy]; eapply Hbc; eauto. }
  apply static_app.
  { intros o Ho; apply in_flat_map in Ho as (i & Ii & Ho); apply in_seq in Ii.
    destruct (flatten_unflatten m i ltac:(lia)) as [Hg _].
    unfold cell_ops in Ho; cbv zeta in Ho; destruct Ho as [<-|Ho]; [cbn [op_ok]; lia|]; rewrite !in_app_iff in Ho.
    destruct Ho as [Ho|[Ho|Ho]];
      (destruct (neighbor m (unflatten m i) _) as [c|] eqn:En; cbn [opt_list In] in Ho; [|tauto]; destruct Ho as [<-|[]]; cbn [op_ok];
       destruct (neighbor_valid _ _ _ _ Hg En) as [Hc _]; apply flatten_lt in Hc; lia). }
  apply static_app.
  { intros o Ho; unfold jump_ops in Ho; apply in_flat_map in Ho as ([[a b] al] & Ia & Ho).
    destruct (Hjmp _ _ _ Ia) as [Ga Gb]; apply flatten_lt in Ga; apply flatten_lt in Gb.
    destruct (_ =? _)%nat; cbn [In] in Ho; intuition (subst; cbn [op_ok]; lia). }
  assert (Hpow : forall ls z node, (z + List.length ls <= g_nz m)%nat -> (total_grids m <= node)%nat ->
    (forall l q llx lly urx ury, In l ls -> In (PBlock llx lly urx ury q) (l_power l) -> box_in_grid m urx ury) ->
    forall rest, (forall n, (total_grids m <= n)%nat -> ok_ops n rest) -> ok_ops node (power_ops m Tf z node ls ++ rest)).
  { induction ls as [|l ls IH]; intros z node Hz Hn Hin rest Hrest; cbn [power_ops]; [simpl; auto|].
    destruct (layer_power_ops m Tf z node (l_power l)) as [os n] eqn:E; rewrite <- app_assoc; simpl in Hz.
    assert (G : forall ps node os n, layer_power_ops m Tf z node ps = (os, n) -> (total_grids m <= node)%nat ->
       (forall q llx lly urx ury, In (PBlock llx lly urx ury q) ps -> box_in_grid m urx ury) ->
       forall rest', ((total_grids m <= n)%nat -> ok_ops n rest') -> ok_ops node (os ++ rest')).
    { clear - Hz; induction ps as [|[q|llx lly urx ury tot] ps IH]; intros node os n; cbn [layer_power_ops].
      - intros [= <- <-] Hn _ rest' Hr; simpl; auto.
      - destruct (layer_power_ops m Tf z node ps) as [os' n'] eqn:E; intros [= <- <-] Hn Hin rest' Hr.
        rewrite <- app_assoc; apply static_app.
        + intros o Ho; unfold grid_power_ops in Ho; apply in_flat_map in Ho as (x & Ix & Ho); apply in_flat_map in Ho as (y & Iy & Ho).
          apply in_seq in Ix; apply in_seq in Iy.
          assert (flatten m (x, y, z) < total_grids m)%nat by (apply flatten_lt; unfold in_grid; lia).
          destruct (q _ x y); cbn [opt_list In] in Ho; intuition (subst; cbn [op_ok]; lia).
        + eapply IH; eauto; intros; eapply Hin; right; eauto.
      - destruct (layer_power_ops m Tf z (Datatypes.S node) ps) as [os' n'] eqn:E; intros [= <- <-] Hn Hin rest' Hr.
        cbn [app ok_ops op_ok]; split; [lia|]; rewrite <- app_assoc; apply static_app.
        + destruct (Hin tot llx lly urx ury (or_introl eq_refl)) as [Hux Huy].
          intros o Ho; apply in_flat_map in Ho as (x & Ix & Ho); apply in_map_iff in Ho as (y & <- & Iy).
          unfold range in *; apply in_seq in Ix; apply in_seq in Iy.
          assert (flatten m (x, y, z) < total_grids m)%nat by (apply flatten_lt; unfold in_grid; lia); unfold flatten in *; simpl; lia.
        + eapply IH; [exact E|lia|intros; eapply Hin; right; eauto|exact Hr]. }
    eapply G; eauto; [intros; eapply Hin; [now left|eauto]|].
    intros Hn'; apply IH; auto; [lia|intros; eapply Hin; [right; eauto|eauto]]. }
  apply Hpow; auto.
  intros n Hn; apply static_app; [apply Huni; auto|].
  apply static_app; [apply Huni; auto; lia|].
  apply static_app.
  { apply Hblk; auto; intros; eapply Hb; apply in_app_iff; left; eauto. }
  rewrite <- (app_nil_r (block_bc_ops m (g_botblocks m) (g_nz m - 1))); apply static_app; [|simpl; auto].
  apply Hblk; auto; [lia|]; intros; eapply Hb; apply in_app_iff; right; eauto.
Qed.

Theorem C31_build_defined minR m T : g_layers m <> [] -> blocks_in_grid m -> List.length T = total_grids m ->
  exists net, build minR m T = Ok (Some net).
Proof.
  intros Hl Hb HT; unfold build; rewrite HT, Nat.eqb_refl.
  destruct (ok_ops_run minR (build_ops m (fun i => nth i T 0)) (net_new (total_grids m))) as [l El].
  2:{ rewrite El; simpl; eauto. }
  unfold net_new; rewrite repeat_length; apply build_ok_ops; auto.
Qed.
Print Assumptions C31_build_defined.

Definition block_model : gmodel := m23 [PBlock 0 1 1 2 7; PGrid (fun _ x y => if (x =? y)%nat then Some 2 else None)].
Example C31_example :
  exists net mna, build (1#1000) block_model (repeat 25 12) = Ok (Some net) /\ make_mna net true [] = Ok mna /\
  share_face (0, 0, 0)%nat (0, 0, 1)%nat /\ ~ share_face (0, 0, 0)%nat (1, 1, 0)%nat /\
  List.length net = 13%nat /\ entry (m_G mna) 0 6 < 0 /\ entry (m_G mna) 0 4 == 0.
Proof.
  destruct (build (1#1000) block_model (repeat 25 12)) as [[net|]| | |] eqn:E; try (vm_compute in E; discriminate).
  destruct (make_mna net true []) as [mna| | |] eqn:Em; try (vm_compute in E; injection E as <-; vm_compute in Em; discriminate).
  exists net, mna; split; [auto|split; [auto|]].
  vm_compute in E; injection E as <-; vm_compute in Em; injection Em as <-.
  split; [unfold share_face; simpl; tauto|].
  split; [unfold share_face; simpl; intuition discriminate|].
  split; [reflexivity|split; reflexivity].
Qed.

(** * C32 *)
(** y and z follow pitch over conductivity times area *)
Definition resistance_between (m : gmodel) (T : nat -> Q) (a b : cell) (r : Q) : Prop :=
  exists r', In (SetR (flatten m a) (flatten m b) r') (build_ops m T) /\ r' == r.

Lemma uniform_k m f c : uniform m f -> in_grid m c -> cell_k m c == f * conducting_k + (1 - f) * dielectric_k.
Proof. intros H Hc; unfold cell_k; rewrite (H c Hc); reflexivity. Qed.

Lemma in_cells m T a o : in_grid m a -> In o (cell_ops m (flatten m a)) -> In o (build_ops m T).
Proof.
  intros Ha Ho; unfold build_ops; apply in_app_iff; left; apply in_flat_map; exists (flatten m a); split; auto.
  apply in_seq; pose proof (flatten_lt m a Ha); lia.
Qed.

Definition mix (f : Q) : Q := f * conducting_k + (1 - f) * dielectric_k.
Lemma mix_pos f : 0 <= f -> 0 < mix f.
Proof. unfold mix, conducting_k, dielectric_k; intros; lra. Qed.

Lemma width_z_zlen m c : in_grid m c -> width_z m (snd c) = zlen m (snd c).
Proof.
  destruct c as [[x y] z]; intros (_ & _ & Hz); unfold width_z, zlen, g_nz in *; cbn [snd].
  destruct (nth_error (g_layers m) z) as [l|] eqn:E; [rewrite (nth_error_nth _ _ layer0 E); reflexivity|].
  apply nth_error_None in E; lia.
Qed.

Theorem C32_y_and_z_follow_the_law_partial m T f a b : 0 <= f -> uniform m f -> in_grid m a -> in_grid m b ->
  0 < width_x m -> 0 < width_y m -> 0 < width_z m (snd a) -> 0 < width_z m (snd b) ->
  (next_y a b -> resistance_between m T a b (width_y m / (mix f * (width_x m * width_z m (snd a))))) /\
  (next_z a b -> resistance_between m T a b (((width_z m (snd a) + width_z m (snd b)) / 2) / (mix f * (width_x m * width_y m)))).
Proof.
  intros Hf Hu Ha Hb; rewrite !width_z_zlen by auto; change (width_x m) with (xlen m); change (width_y m) with (ylen m).
  intros Hx Hy Hza Hzb; pose proof (mix_pos f Hf) as Hk; split; intros Hn.
  - exists (ry m a b); split.
    + apply (in_cells m T a); auto; unfold cell_ops; rewrite unflatten_flatten by auto.
      right; apply in_app_iff; right; apply in_app_iff; left.
      assert (En : neighbor m a End_ = Some b).
      { destruct a as [[x y] z]; simpl in Hn; subst b; unfold neighbor; simpl in Hb.
        destruct (Nat.eqb_spec y (g_ny m - 1)); [lia|reflexivity]. }
      rewrite En; left; reflexivity.
    + unfold ry, get_res; rewrite !(uniform_k m f) by auto; fold (mix f).
      unfold yarea; field; repeat split; lra.
  - exists (rz m a b); split.
    + apply (in_cells m T a); auto; unfold cell_ops; rewrite unflatten_flatten by auto.
      right; apply in_app_iff; right; apply in_app_iff; right.
      assert (En : neighbor m a Bot = Some b).
      { destruct a as [[x y] z]; simpl in Hn; subst b; unfold neighbor; simpl in Hb.
        destruct (Nat.eqb_spec z (g_nz m - 1)); [lia|reflexivity]. }
      rewrite En; left; reflexivity.
    + unfold rz, get_res; rewrite !(uniform_k m f) by auto; fold (mix f).
      unfold zarea; field; repeat split; lra.
Qed.
Print Assumptions C32_y_and_z_follow_the_law_partial.

(** along x the far half cell is taken with its full length: half as much again *)
Theorem C32_x_resistance_is_half_too_large m T f a b : 0 <= f -> uniform m f -> in_grid m a -> in_grid m b ->
  0 < width_x m -> 0 < width_y m -> 0 < width_z m (snd a) -> next_x a b ->
  resistance_between m T a b ((3#2) * (width_x m / (mix f * (width_y m * width_z m (snd a))))).
Proof.
  intros Hf Hu Ha Hb; rewrite !width_z_zlen by auto; change (width_x m) with (xlen m); change (width_y m) with (ylen m).
  intros Hx Hy Hza Hn; pose proof (mix_pos f Hf) as Hk.
  exists (rx m a b); split.
  - apply (in_cells m T a); auto; unfold cell_ops; rewrite unflatten_flatten by auto.
    right; apply in_app_iff; left.
    assert (En : neighbor m a Right = Some b).
    { destruct a as [[x y] z]; simpl in Hn; subst b; unfold neighbor; simpl in Hb.
      destruct (Nat.eqb_spec x (g_nx m - 1)); [lia|reflexivity]. }
    rewrite En; left; reflexivity.
  - unfold rx, get_res; rewrite !(uniform_k m f) by auto; fold (mix f).
    unfold xarea; field; repeat split; lra.
Qed.
Print Assumptions C32_x_resistance_is_half_too_large.

(** so a square uniform plate is not symmetric in x and y *)
Definition square : gmodel :=
  mkGrid 2 2 1 1 1 [mkLayer "l"%string 1 ""%string ""%string (2%nat, 2%nat) (fun _ _ => 1) []] [] (Some (HTC 1)) None [] [].
Theorem C32_isotropy_refuted :
  exists m T net mna f, uniform m f /\ xlen m == ylen m /\ build (1#1000000) m T = Ok (Some net) /\ make_mna net true [] = Ok mna /\
  in_grid m (1, 1, 0)%nat /\
  ~ entry (m_G mna) (flatten m (0, 0, 0)%nat) (flatten m (1, 0, 0)%nat) == entry (m_G mna) (flatten m (0, 0, 0)%nat) (flatten m (0, 1, 0)%nat).
Proof.
  destruct (build (1#1000000) square (repeat 25 4)) as [[net|]| | |] eqn:E; try (vm_compute in E; discriminate).
  destruct (make_mna net true []) as [mna| | |] eqn:Em; try (vm_compute in E; injection E as <-; vm_compute in Em; discriminate).
  exists square, (repeat 25 4), net, mna, 1.
  split; [intros [[x y] z] (_ & _ & Hz); unfold g_nz in Hz; simpl in Hz; assert (z = 0)%nat by lia; subst z; reflexivity|].
  split; [reflexivity|split; [auto|split; [auto|split; [unfold in_grid, g_nz; simpl; lia|]]]].
  vm_compute in E; injection E as <-; vm_compute in Em; injection Em as <-; vm_compute; discriminate.
Qed.
Print Assumptions C32_isotropy_refuted.

(** Every bond wire enters the network with the product of conductivity and cross section over
    length as its resistance - the reciprocal of what it is, except where that product is one. *)
Theorem C32_bondwire_resistance_inverted : forall m T a b alpha, in_grid m a -> in_grid m b -> a <> b -> 0 < alpha ->
  In (a, b, alpha) (g_jumps m) ->
  resistance_between m T a b (400 * alpha) /\ (400 * alpha == 1 / (400 * alpha) -> 400 * alpha == 1).
Proof.
  intros m T a b alpha Ha Hb Hne Hp Hin; split.
  - exists (conducting_k * alpha); split; [|unfold conducting_k; ring].
    unfold build_ops; apply in_app_iff; right; apply in_app_iff; left; unfold jump_ops; apply in_flat_map; exists (a, b, alpha); split; [exact Hin|].
    destruct (Nat.eqb_spec (flatten m a) (flatten m b)) as [E|]; [|now left].
    exfalso; apply Hne; rewrite <- (unflatten_flatten m a Ha), <- (unflatten_flatten m b Hb), E; reflexivity.
  - intros E; assert (S : (400 * alpha) * (400 * alpha) == 1) by (rewrite E at 2; field; lra).
    set (q := 400 * alpha) in *; assert (Hq : 0 < q) by (unfold q; lra).
    destruct (Qlt_le_dec q 1) as [L|L]; [assert (q * q < 1) by nra; lra|]; destruct (Qlt_le_dec 1 q) as [L'|L']; [assert (1 < q * q) by nra; lra|lra].
Qed.
Print Assumptions C32_bondwire_resistance_inverted.

(** a bond wire of conductivity k, cross section over length alpha, should conduct k*alpha; the
    builder passes that number as a resistance, so better wires conduct less *)
Definition bridged (alpha : Q) : gmodel :=
  mkGrid 2 2 1 1 1 [mkLayer "l"%string 1 ""%string ""%string (2%nat, 2%nat) (fun _ _ => 1) []]
         [((0, 0, 0)%nat, (1, 1, 0)%nat, alpha)] (Some (HTC 1)) None [] [].
Theorem C32_thicker_bondwire_conducts_less :
  exists n1 n2 g1 g2, build (1#1000000) (bridged 1) (repeat 25 4) = Ok (Some n1) /\ build (1#1000000) (bridged 2) (repeat 25 4) = Ok (Some n2) /\   make_mna n1 true [] = Ok g1 /\ make_mna n2 true [] = Ok g2 /\ - entry (m_G g2) 0 3 < - entry (m_G g1) 0 3.
Proof.
  destruct (build (1#1000000) (bridged 1) (repeat 25 4)) as [[n1|]| | |] eqn:E1; try (vm_compute in E1; discriminate).
  destruct (build (1#1000000) (bridged 2) (repeat 25 4)) as [[n2|]| | |] eqn:E2; try (vm_compute in E2; discriminate).
  vm_compute in E1; injection E1 as <-; vm_compute in E2; injection E2 as <-.
  do 4 eexists; repeat split; vm_compute; reflexivity.
Qed.
Print Assumptions C32_thicker_bondwire_conducts_less.

Example C32_example : uniform square 1 /\ in_grid square (0, 0, 0)%nat /\ in_grid square (0, 1, 0)%nat /\
  next_y (0, 0, 0)%nat (0, 1, 0)%nat /\ 0 < xlen square /\ 0 < ylen square /\ 0 < zlen square 0 /\
  resistance_between square (fun _ => 25) (0, 0, 0)%nat (0, 1, 0)%nat (1 # 400).
Proof.
  assert (Hu : uniform square 1).
  { intros [[x y] z] (_ & _ & Hz); unfold g_nz in Hz; simpl in Hz; assert (z = 0)%nat by lia; subst z; reflexivity. }
  assert (G0 : in_grid square (0, 0, 0)%nat) by (unfold in_grid, g_nz; simpl; lia).
  assert (G1 : in_grid square (0, 1, 0)%nat) by (unfold in_grid, g_nz; simpl; lia).
  split; [exact Hu|split; [exact G0|split; [exact G1|split; [reflexivity|]]]].
  split; [reflexivity|split; [reflexivity|split; [reflexivity|]]].
  destruct (C32_y_and_z_follow_the_law_partial square (fun _ => 25) 1 (0, 0, 0)%nat (0, 1, 0)%nat) as [H _];
    auto; try reflexivity; try lra.
  destruct (H eq_refl) as (r & Hr & E); exists r; split; [exact Hr|rewrite E; reflexivity].
Qed.

(** * C33 *)
Lemma net_new_hf n : sumf n_hf (net_new n) == 0 /\ forall i, get_hf (net_new n) i == 0.
Proof.
  split.
  - apply sumf_zero; intros x Hx; apply repeat_spec in Hx; subst; reflexivity.
  - intros i; unfold get_hf, net_new; destruct (nth_in_or_default i (repeat node0 n) node0) as [H|H].
    + apply repeat_spec in H; rewrite H; reflexivity.
    + rewrite H; reflexivity.
Qed.

(** Without heat-flux boundaries and with at most one table power model per layer, the network carries
    exactly the power of the model, and so does the report. *)
Theorem C33_power_reaches_network_partial minR m T net :
  (forall l, In l (g_layers m) -> (List.length (filter is_grid_power (l_power l)) <= 1)%nat) -> no_flux m ->
  build minR m T = Ok (Some net) ->
  let Tf := fun i => nth i T 0 in
  total_hf net == model_power m Tf /\
  fst (summary_heat (build_ops m Tf)) + snd (summary_heat (build_ops m Tf)) == model_power m Tf.
Proof.
  intros Hone (F1 & F2 & F3 & F4) Hb Tf; unfold build in Hb; destruct (_ =? _)%nat; [|discriminate]; fold Tf in Hb.
  destruct (run minR (net_new (total_grids m)) (build_ops m Tf)) as [l| | |] eqn:Hrun; simpl in Hb; try discriminate.
  injection Hb as <-.
  destruct (power_targets m Tf (g_layers m) 0 (total_grids m)) as (P1 & P2 & P3); auto.
  destruct (heatless_spec _ (cells_heatless m)) as [A1 A2], (heatless_spec _ (jumps_heatless m)) as [B1 B2],
    (heatless_spec _ (uniform_heatless m (g_top m) 0 F1)) as [C1 C2],
    (heatless_spec _ (uniform_heatless m (g_bottom m) (g_nz m - 1) F2)) as [D1 D2],
    (heatless_spec _ (block_heatless m (g_topblocks m) 0 F3)) as [E1 E2],
    (heatless_spec _ (block_heatless m (g_botblocks m) (g_nz m - 1) F4)) as [G1 G2].
  assert (Et : hf_targets (build_ops m Tf) = hf_targets (power_ops m Tf 0 (total_grids m) (g_layers m))).
  { unfold build_ops; rewrite !hf_targets_app, A1, B1, C1, D1, E1, G1, !app_nil_r; reflexivity. }
  assert (Ev : sumf hf_value (build_ops m Tf) == model_power m Tf).
  { unfold build_ops; rewrite !sumf_app, A2, B2, C2, D2, E2, G2; assert (P3' : sumf hf_value (power_ops m Tf 0 (total_grids m) (g_layers m)) == model_power m Tf) by exact P3; lra. }
  destruct (net_new_hf (total_grids m)) as [N1 N2].
  split.
  - rewrite total_hf_sum, (run_total_hf minR _ _ _ Hrun), N1, Ev; [lra|apply build_no_add|rewrite Et; auto|intros; apply N2].
  - rewrite summary_heat_sum; exact Ev.
Qed.
Print Assumptions C33_power_reaches_network_partial.

(** With heat-flux boundaries too, as long as no cell receives heat twice. *)
Theorem C33_disjoint_sources_partial minR m T net :
  let Tf := fun i => nth i T 0 in
  NoDup (hf_targets (build_ops m Tf)) -> build minR m T = Ok (Some net) ->
  total_hf net == fst (summary_heat (build_ops m Tf)) + snd (summary_heat (build_ops m Tf)).
Proof.
  intros Tf Hnd Hb; unfold build in Hb; destruct (_ =? _)%nat; [|discriminate]; fold Tf in Hb.
  destruct (run minR (net_new (total_grids m)) (build_ops m Tf)) as [l| | |] eqn:Hrun; simpl in Hb; try discriminate.
  injection Hb as <-; destruct (net_new_hf (total_grids m)) as [N1 N2].
  rewrite total_hf_sum, (run_total_hf minR _ _ _ Hrun), N1, summary_heat_sum; [lra|apply build_no_add|auto|intros; apply N2].
Qed.
Print Assumptions C33_disjoint_sources_partial.

(** Two table power models on one layer: the second overwrites the first, the report counts both. *)
Definition one_watt : power := PGrid (fun _ x y => if ((x =? 0) && (y =? 0))%nat%bool then Some 1 else None).
Theorem C33_second_power_model_overwrites_refuted :
  exists m T net, no_flux m /\ build (1#1000) m T = Ok (Some net) /\
  ~ total_hf net == model_power m (fun i => nth i T 0) /\
  fst (summary_heat (build_ops m (fun i => nth i T 0))) == model_power m (fun i => nth i T 0).
Proof.
  destruct (build (1#1000) (m23 [one_watt; one_watt]) (repeat 25 12)) as [[net|]| | |] eqn:E; try (vm_compute in E; discriminate).
  exists (m23 [one_watt; one_watt]), (repeat 25 12), net; split.
  { split; [intros b [= <-]; reflexivity|split; [intros b [=]|split; intros r b []]]. }
  split; [exact E|]; vm_compute in E; injection E as <-; split; vm_compute; [discriminate|reflexivity].
Qed.
Print Assumptions C33_second_power_model_overwrites_refuted.

(** A heat-flux boundary on a powered cell replaces its power. *)
Definition fluxed : gmodel := mkGrid 2 3 1 2 (1#10) [lay 1 [one_watt]; lay 2 []] [] (Some (HeatFlux 0)) (Some (HTC 1)) [] [].
Theorem C33_heat_flux_boundary_erases_power_refuted :
  exists net, build (1#1000) fluxed (repeat 25 12) = Ok (Some net) /\
  total_hf net == 0 /\ model_power fluxed (fun i => nth i (repeat 25 12) 0) == 1.
Proof.
  destruct (build (1#1000) fluxed (repeat 25 12)) as [[net|]| | |] eqn:E; try (vm_compute in E; discriminate).
  exists net; split; [reflexivity|]; vm_compute in E; injection E as <-; split; reflexivity.
Qed.
Print Assumptions C33_heat_flux_boundary_erases_power_refuted.

Example C33_example : no_flux block_model /\ model_power block_model (fun _ => 25) == 11 /\
  (forall l, In l (g_layers block_model) -> (List.length (filter is_grid_power (l_power l)) <= 1)%nat).
Proof.
  split; [split; [intros b [= <-]; reflexivity|split; [intros b [=]|split; intros r b []]]|].
  split; [reflexivity|]; intros l [<-|[<-|[]]]; simpl; lia.
Qed.

(** * C34 *)
Lemma sumf_range (c : Q) a b n : (a <= b)%nat -> (b < n)%nat ->
  sumf (fun k => if ((a <=? k) && (k <=? b))%nat%bool then c else 0) (seq 0 n) == inject_Z (Z.of_nat (b - a + 1)) * c.
Proof.
  intros Hab Hbn; replace n with (a + ((b - a + 1) + (n - b - 1)))%nat by lia.
  rewrite seq_app, sumf_app, seq_app, sumf_app.
  rewrite (sumf_zero _ (seq 0 a)), (sumf_zero _ (seq _ (n - b - 1))).
  - rewrite (sumf_ext _ (fun _ => c)), sumf_const, seq_length; [lra|].
    intros k Hk; apply in_seq in Hk.
    destruct (Nat.leb_spec a k), (Nat.leb_spec k b); simpl; try lra; lia.
  - intros k Hk; apply in_seq in Hk; destruct (Nat.leb_spec a k), (Nat.leb_spec k b); simpl; try lra; lia.
  - intros k Hk; apply in_seq in Hk; destruct (Nat.leb_spec a k), (Nat.leb_spec k b); simpl; try lra; lia.
Qed.

Theorem C34_block_power_total llx lly urx ury total nx ny :
  (llx <= urx < nx)%nat -> (lly <= ury < ny)%nat ->
  sumf (fun x => sumf (fun y => block_query llx lly urx ury total x y) (seq 0 ny)) (seq 0 nx) == total /\
  (forall x y, ~ (llx <= x <= urx /\ lly <= y <= ury)%nat -> block_query llx lly urx ury total x y == 0) /\
  (forall x y x' y', (llx <= x <= urx /\ lly <= y <= ury)%nat -> (llx <= x' <= urx /\ lly <= y' <= ury)%nat ->
     block_query llx lly urx ury total x y == block_query llx lly urx ury total x' y').
Proof.
  intros Hx Hy; split; [|split].
  - set (A := ((ury - lly + 1) * (urx - llx + 1))%nat).
    rewrite (sumf_ext _ (fun x => if ((llx <=? x) && (x <=? urx))%nat%bool
              then inject_Z (Z.of_nat (ury - lly + 1)) * (total / inject_Z (Z.of_nat A)) else 0)).
    + rewrite sumf_range by lia; unfold A; rewrite Nat2Z.inj_mul, inject_Z_mult.
      set (p := inject_Z (Z.of_nat (urx - llx + 1))); set (q := inject_Z (Z.of_nat (ury - lly + 1))).
      assert (Hp : ~ p == 0) by (unfold p; intros E; change 0 with (inject_Z 0) in E; apply (proj1 (inject_Z_injective _ _)) in E; lia).
      assert (Hq : ~ q == 0) by (unfold q; intros E; change 0 with (inject_Z 0) in E; apply (proj1 (inject_Z_injective _ _)) in E; lia).
      field; auto.
    + intros x _; unfold block_query; fold A; destruct ((llx <=? x) && (x <=? urx))%nat%bool; simpl.
      * rewrite sumf_range by lia; reflexivity.
      * apply sumf_zero; intros; reflexivity.
  - intros x y H; unfold block_query.
    destruct (Nat.leb_spec llx x), (Nat.leb_spec x urx), (Nat.leb_spec lly y), (Nat.leb_spec y ury); simpl; try reflexivity; lia.
  - intros x y x' y' H H'; unfold block_query.
    assert (E : forall x y, (llx <= x <= urx /\ lly <= y <= ury)%nat -> ((llx <=? x) && (x <=? urx) && (lly <=? y) && (y <=? ury))%nat%bool = true)
      by (intros u v Huv; rewrite !andb_true_iff, !Nat.leb_le; lia).
    rewrite !E by auto; reflexivity.
Qed.
Print Assumptions C34_block_power_total.

Example C34_example : block_query 1 1 2 3 12 2 2 == 2 /\ block_query 1 1 2 3 12 0 2 == 0.
Proof. split; reflexivity. Qed.

(** * C61 *)
Definition consistent (m : gmodel) : Prop :=
  (forall l, In l (g_layers m) -> l_size l = (g_nx m, g_ny m) /\ 0 <= l_thick l) /\ linked (g_layers m).

Lemma append_layer_consistent m l : consistent m -> consistent (fst (append_layer m l)).
Proof.
  intros [H1 H2]; unfold append_layer.
  destruct (Qltb (l_thick l) 0) eqn:Et; [split; auto|].
  assert (Ht : 0 <= l_thick l) by (apply Qle_bool_iff; unfold Qltb in Et; apply negb_false_iff in Et; exact Et).
  destruct (Nat.eqb_spec (fst (l_size l)) (g_nx m)) as [Ex|]; [|split; auto].
  destruct (Nat.eqb_spec (snd (l_size l)) (g_ny m)) as [Ey|]; [|split; auto].
  assert (Es : l_size l = (g_nx m, g_ny m)) by (destruct (l_size l); simpl in *; congruence).
  cbn [andb negb]; destruct (rev (g_layers m)) as [|b rest] eqn:Er; cbn [fst].
  - assert (E0 : g_layers m = []) by (rewrite <- (rev_involutive (g_layers m)), Er; reflexivity).
    rewrite E0; split; simpl.
    + intros x [<-|[]]; auto.
    + intros [|i] a c; simpl; [discriminate|destruct i; discriminate].
  - assert (E0 : g_layers m = rev rest ++ [b]) by (rewrite <- (rev_involutive (g_layers m)), Er; reflexivity).
    rewrite E0 in H1, H2; split; simpl.
    + intros x Hx; apply in_app_iff in Hx as [Hx|[<-|[<-|[]]]]; simpl.
      * apply H1, in_app_iff; auto.
      * apply H1, in_app_iff; right; left; auto.
      * auto.
    + set (r := rev rest) in *; clearbody r.
      intros i a c Ha Hc; destruct (lt_eq_lt_dec (Datatypes.S i) (List.length r)) as [[Hlt|Heq]|Hgt].
      * rewrite nth_error_app1 in Ha by lia; rewrite nth_error_app1 in Hc by lia.
        apply (H2 i); rewrite nth_error_app1 by lia; auto.
      * rewrite nth_error_app1 in Ha by lia; rewrite nth_error_app2 in Hc by lia.
        replace (Datatypes.S i - List.length r)%nat with 0%nat in Hc by lia; injection Hc as <-; simpl.
        apply (H2 i); [rewrite nth_error_app1 by lia; auto|rewrite nth_error_app2 by lia].
        replace (Datatypes.S i - List.length r)%nat with 0%nat by lia; reflexivity.
      * rewrite nth_error_app2 in Ha by lia; rewrite nth_error_app2 in Hc by lia.
        destruct (i - List.length r)%nat as [|k] eqn:Ek.
        -- replace (Datatypes.S i - List.length r)%nat with 1%nat in Hc by lia.
           injection Ha as <-; injection Hc as <-; auto.
        -- replace (Datatypes.S i - List.length r)%nat with (Datatypes.S (Datatypes.S k)) in Hc by lia.
           destruct k; discriminate.
Qed.

Theorem C61_layers_stay_consistent m ls : g_layers m = [] -> consistent (append_layers m ls).
Proof.
  intros H0; assert (Hc : consistent m).
  { split; rewrite H0; [intros l []|intros [|i]; discriminate]. }
  clear H0; revert m Hc; induction ls as [|l ls IH]; intros m Hc; simpl; auto.
  apply IH, append_layer_consistent, Hc.
Qed.
Print Assumptions C61_layers_stay_consistent.

(** A layer is rejected exactly for a negative thickness or another grid size, and then nothing
    changes; an accepted one is last, its position is returned, and earlier layers only have their
    bottom neighbour name rewritten, the last one's. *)
Definition same_but_neighbors (a b : glayer) : Prop :=
  l_name a = l_name b /\ l_thick a = l_thick b /\ l_size a = l_size b /\ l_mf a = l_mf b /\ l_power a = l_power b.
Theorem C61_append_result m l :
  match append_layer m l with
  | (m', None) => m' = m /\ (l_thick l < 0 \/ l_size l <> (g_nx m, g_ny m))
  | (m', Some i) => 0 <= l_thick l /\ l_size l = (g_nx m, g_ny m) /\
      i = List.length (g_layers m) /\ List.length (g_layers m') = Datatypes.S i /\
      g_nx m' = g_nx m /\ g_ny m' = g_ny m /\
      (exists l', nth_error (g_layers m') i = Some l' /\ same_but_neighbors l' l) /\
      forall k x, nth_error (g_layers m) k = Some x -> exists x', nth_error (g_layers m') k = Some x' /\ same_but_neighbors x' x /\
        l_top x' = l_top x /\ ((Datatypes.S k < i)%nat -> x' = x)
  end.
Proof.
  assert (Hr : forall x, same_but_neighbors x x) by (intros; repeat split).
  unfold append_layer; destruct (Qltb (l_thick l) 0) eqn:Et.
  { split; auto; left; unfold Qltb in Et; apply negb_true_iff in Et; apply Qnot_le_lt; intros Hle; apply Qle_bool_iff in Hle; congruence. }
  assert (Ht : 0 <= l_thick l) by (apply Qle_bool_iff; unfold Qltb in Et; apply negb_false_iff in Et; exact Et).
  destruct (Nat.eqb_spec (fst (l_size l)) (g_nx m)) as [Ex|Nx]; cbn [andb negb]; [|split; auto; right; intros E; rewrite E in Nx; auto].
  destruct (Nat.eqb_spec (snd (l_size l)) (g_ny m)) as [Ey|Ny]; cbn [andb negb]; [|split; auto; right; intros E; rewrite E in Ny; auto].
  assert (Es : l_size l = (g_nx m, g_ny m)) by (destruct (l_size l); simpl in *; congruence).
  destruct (rev (g_layers m)) as [|b rest] eqn:Er.
  - assert (E0 : g_layers m = []) by (rewrite <- (rev_involutive (g_layers m)), Er; reflexivity).
    rewrite E0; simpl; repeat split; auto; [exists l; split; auto|].
    intros [|k] x; discriminate.
  - assert (E0 : g_layers m = rev rest ++ [b]) by (rewrite <- (rev_involutive (g_layers m)), Er; reflexivity).
    rewrite E0; set (r := rev rest); clearbody r; cbn [g_layers g_nx g_ny]; rewrite !app_length; simpl.
    repeat split; auto; try lia.
    + rewrite nth_error_app2 by lia; replace (_ - _)%nat with 1%nat by lia; simpl; eexists; split; [reflexivity|repeat split].
    + intros k x Hk; destruct (Nat.ltb_spec k (List.length r)).
      * rewrite nth_error_app1 in Hk by auto; exists x; rewrite nth_error_app1 by auto; repeat split; auto.
      * rewrite nth_error_app2 in Hk by auto; rewrite nth_error_app2 by auto.
        destruct (k - List.length r)%nat as [|[|j]] eqn:Ek; simpl in Hk; try discriminate.
        injection Hk as ->; simpl; eexists; split; [reflexivity|repeat split; lia].
Qed.
Print Assumptions C61_append_result.

Example C61_example :
  let e := mkGrid 2 3 1 1 1 [] [] None None [] [] in
  let n s := mkLayer s 1 ""%string ""%string (2%nat, 3%nat) (fun _ _ => 0) [] in
  let bad := mkLayer "bad"%string 1 ""%string ""%string (3%nat, 3%nat) (fun _ _ => 0) [] in
  map (fun l => (l_top l, l_name l, l_bot l)) (g_layers (append_layers e [n "a"%string; bad; n "b"%string; n "c"%string]))
  = [(""%string, "a"%string, "b"%string); ("a"%string, "b"%string, "c"%string); ("b"%string, "c"%string, ""%string)].
Proof. reflexivity. Qed.
