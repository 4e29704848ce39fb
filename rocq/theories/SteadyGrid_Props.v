(** C167: the steady temperatures of a grid model. *)
From Verif Require Import Base QSum ThermalNetwork_Model ThermalNetwork_Spec ThermalNetwork_Proofs ThermalNetwork_Props
  Grid_Model Grid_Spec Grid_Proofs Grid_Props Steady_Spec Steady_Proofs Steady_Props.

(** * Calls and the network they leave *)
Definition appended (os : list op) : nat :=
  List.length (filter (fun o => match o with AppendNode _ => true | _ => false end) os).

Lemma appended_app a b : appended (a ++ b) = (appended a + appended b)%nat.
Proof. unfold appended; rewrite filter_app, app_length; reflexivity. Qed.

Lemma run_appended minR os : forall l l', run minR l os = Ok l' -> List.length l' = (List.length l + appended os)%nat.
Proof.
  induction os as [|o os IH]; intros l l'; cbn [run]; [intros [= <-]; unfold appended; simpl; lia|].
  destruct (step minR l o) as [l1| | |] eqn:E; cbn [bind]; try discriminate; intros H; rewrite (IH _ _ H).
  assert (G : forall i f, at_node i f l = Ok l1 -> List.length l1 = List.length l)
    by (intros i f H'; apply at_node_ok in H' as [-> _]; apply upd_length).
  destruct o; cbn [step] in E; unfold appended; cbn [filter List.length];
    try (rewrite (G _ _ E); lia).
  - injection E as <-; rewrite app_length; cbn [List.length]; lia.
  - apply set_r_ok in E as [-> _]; rewrite upd_length; lia.
Qed.

Lemma ok_ops_ends minR os : forall l l', ok_ops (List.length l) os -> run minR l os = Ok l' ->
  Forall (ends_below (List.length l')) os.
Proof.
  induction os as [|o os IH]; intros l l' Hok Hrun; [constructor|].
  pose proof Hrun as Hlen; apply run_appended in Hlen.
  cbn [run] in Hrun; destruct (step minR l o) as [l1| | |] eqn:E; cbn [bind] in Hrun; try discriminate.
  assert (G : forall i f, at_node i f l = Ok l1 -> List.length l1 = List.length l)
    by (intros i f H'; apply at_node_ok in H' as [-> _]; apply upd_length).
  destruct o; cbn [ok_ops op_ok] in Hok; cbn [step] in E;
    try (constructor; [exact I|apply (IH l1 l'); auto; rewrite (G _ _ E); tauto]).
  - constructor; [exact I|]; apply (IH l1 l'); auto; injection E as <-; rewrite app_length; cbn [List.length].
    rewrite Nat.add_1_r; exact Hok.
  - constructor; [cbn [ends_below]; lia|]; apply (IH l1 l'); auto.
    apply set_r_ok in E as [-> _]; rewrite upd_length; tauto.
Qed.

Lemma resistor_couples minR n0 os l bonds ps m a b r : 0 < minR -> run minR (net_new n0) os = Ok l ->
  make_mna l bonds ps = Ok m -> (a < List.length l)%nat -> (b < List.length l)%nat -> a <> b ->
  In (SetR a b r) os -> ~ entry (m_G m) a b == 0 /\ ~ entry (m_G m) b a == 0.
Proof.
  intros HminR Hrun Hm Ha Hb Hne Hin.
  assert (P : forall r, 0 < 1 / Qmax r minR).
  { intros r'; apply Qlt_shift_div_l; [|lra]; eapply Qlt_le_trans; [exact HminR|apply Q.le_max_r]. }
  assert (N : forall i j o, 0 <= call_conductance minR i j o).
  { intros i j o; destruct o; cbn [call_conductance]; try lra; destruct (_ || _)%bool; [|lra].
    pose proof (P r0); lra. }
  assert (G : forall i j, (i < List.length l)%nat -> (j < List.length l)%nat -> i <> j ->
    0 < call_conductance minR i j (SetR a b r) -> ~ entry (m_G m) i j == 0).
  { intros i j Hi Hj Hij Hp E.
    pose proof (C28_pair_conductance minR HminR n0 os l bonds ps m Hrun Hm i j Hi Hj Hij) as S.
    assert (Z := sumf_zero_inv (call_conductance minR i j) os (fun o _ => N i j o) ltac:(lra) _ Hin); lra. }
  split; apply G; auto; cbn [call_conductance]; rewrite !Nat.eqb_refl; rewrite ?orb_true_r; cbn [andb orb]; apply P.
Qed.

(** the coefficients left by calls that only set positive ones *)
Definition positive_htc (o : op) : Prop :=
  match o with SetHTC _ v => 0 < v | AddHTC _ _ => False | _ => True end.

Lemma get_htc_upd f l k i : (k < List.length l)%nat -> get_htc (upd k f l) i = if (i =? k)%nat then n_htc (f (nth k l node0)) else get_htc l i.
Proof.
  unfold get_htc; revert k i; induction l as [|n l IH]; intros k i Hk; cbn [List.length] in Hk; [lia|].
  destruct k as [|k], i as [|i]; cbn [upd nth Nat.eqb]; auto; apply IH; lia.
Qed.

Lemma step_htc minR l o l' : step minR l o = Ok l' -> positive_htc o ->
  (forall i, 0 <= get_htc l i -> 0 <= get_htc l' i) /\
  (forall i, 0 < get_htc l i -> 0 < get_htc l' i) /\
  (forall i v, o = SetHTC i v -> 0 < get_htc l' i).
Proof.
  intros H Hp.
  assert (G : forall k f, at_node k f l = Ok l' -> (forall n, n_htc (f n) = n_htc n) -> forall i, get_htc l' i = get_htc l i).
  { intros k f H' Hf i; apply at_node_ok in H' as [-> Hk]; rewrite get_htc_upd by auto.
    destruct (Nat.eqb_spec i k) as [->|]; [rewrite Hf; reflexivity|reflexivity]. }
  destruct o; cbn [step positive_htc] in H, Hp;
    try (assert (E : forall i, get_htc l' i = get_htc l i) by (apply (G _ _ H); reflexivity); clear G H Hp; split; [intros j Hj; rewrite E; auto|split; [intros j Hj; rewrite E; auto|intros ? ? [=]]]);
    try tauto.
  - injection H as <-.
    assert (E : forall i, get_htc (l ++ [with_t t node0]) i = get_htc l i).
    { intros i; unfold get_htc; destruct (Nat.lt_ge_cases i (List.length l)) as [Hi|Hi]; [rewrite app_nth1; auto|].
      rewrite app_nth2, (nth_overflow l) by lia; destruct (i - List.length l)%nat as [|[|k]]; reflexivity. }
    split; [intros j Hj; rewrite E; auto|split; [intros j Hj; rewrite E; auto|intros ? ? [=]]].
  - apply at_node_ok in H as [-> Hk].
    assert (E : forall j, get_htc (upd i (with_htc v) l) j = if (j =? i)%nat then v else get_htc l j)
      by (intros j; rewrite get_htc_upd by auto; reflexivity).
    split; [intros j Hj; rewrite E; destruct (j =? i)%nat; lra|].
    split; [intros j Hj; rewrite E; destruct (j =? i)%nat; lra|].
    intros j w [= <- <-]; rewrite E, Nat.eqb_refl; auto.
  - assert (E : forall i, get_htc l' i = get_htc l i).
    { intros i; apply set_r_ok in H as [-> Hk]; rewrite get_htc_upd by auto.
      destruct (Nat.eqb_spec i (Nat.min a b)) as [->|]; reflexivity. }
    split; [intros j Hj; rewrite E; auto|split; [intros j Hj; rewrite E; auto|intros ? ? [=]]].
Qed.

Lemma run_htc minR os : forall l l', run minR l os = Ok l' -> Forall positive_htc os ->
  (forall i, 0 <= get_htc l i -> 0 <= get_htc l' i) /\
  (forall i, 0 < get_htc l i -> 0 < get_htc l' i) /\
  (forall i v, In (SetHTC i v) os -> 0 < get_htc l' i).
Proof.
  induction os as [|o os IH]; intros l l'; cbn [run].
  { intros [= <-] _; split; [auto|split; [auto|intros i v []]]. }
  destruct (step minR l o) as [l1| | |] eqn:E; cbn [bind]; try discriminate; intros H HF.
  inversion HF as [|? ? H1 H2]; subst.
  destruct (step_htc _ _ _ _ E H1) as (A1 & A2 & A3); destruct (IH _ _ H H2) as (B1 & B2 & B3).
  split; [auto|split; [auto|]]; intros i v [->|Hin]; eauto.
Qed.

(** calls that set no coefficient leave them all at zero *)
Lemma run_no_htc minR os : forall l l', run minR l os = Ok l' ->
  Forall (fun o => match o with SetHTC _ _ | AddHTC _ _ => False | _ => True end) os ->
  (forall i, get_htc l i == 0) -> forall i, get_htc l' i == 0.
Proof.
  induction os as [|o os IH]; intros l l'; cbn [run]; [intros [= <-] _; auto|].
  destruct (step minR l o) as [l1| | |] eqn:E; cbn [bind]; try discriminate; intros H HF Hz.
  inversion HF as [|? ? H1 H2]; subst; apply (IH l1 l' H H2); clear H IH.
  assert (G : forall k f, at_node k f l = Ok l1 -> (forall n, n_htc (f n) = n_htc n) -> forall i, get_htc l1 i == 0).
  { intros k f H' Hf i; apply at_node_ok in H' as [-> Hk]; rewrite get_htc_upd by auto.
    destruct (Nat.eqb_spec i k) as [->|]; [rewrite Hf; apply (Hz k)|apply Hz]. }
  destruct o; cbn [step] in E; try (apply (G _ _ E); reflexivity); try tauto.
  - injection E as <-; intros i; unfold get_htc.
    destruct (Nat.lt_ge_cases i (List.length l)) as [Hi|Hi]; [rewrite app_nth1 by auto; apply Hz|].
    rewrite app_nth2 by lia; destruct (i - List.length l)%nat as [|[|k]]; reflexivity.
  - intros i; apply set_r_ok in E as [-> Hk]; rewrite get_htc_upd by auto.
    destruct (Nat.eqb_spec i (Nat.min a b)) as [->|]; [apply (Hz (Nat.min a b))|apply Hz].
Qed.

Lemma net_new_htc n i : get_htc (net_new n) i == 0.
Proof.
  unfold get_htc, net_new; destruct (nth_in_or_default i (repeat node0 n) node0) as [H|H].
  - apply repeat_spec in H; rewrite H; reflexivity.
  - rewrite H; reflexivity.
Qed.

(** * The calls of the grid builder *)
Lemma layer_power_blocks m T z ps : forall node os n, layer_power_ops m T z node ps = (os, n) ->
  (forall llx lly urx ury q, In (PBlock llx lly urx ury q) ps -> (llx <= urx /\ lly <= ury /\ urx < g_nx m /\ ury < g_ny m)%nat) ->
  n = (node + appended os)%nat /\
  forall k, (node <= k < n)%nat -> exists x y r, (x < g_nx m)%nat /\ (y < g_ny m)%nat /\ In (SetR (flatten m (x, y, z)) k r) os.
Proof.
  induction ps as [|[q|llx lly urx ury tot] ps IH]; intros node os n; cbn [layer_power_ops].
  - intros [= <- <-] _; split; [unfold appended; simpl; lia|intros; lia].
  - destruct (layer_power_ops m T z node ps) as [os' n'] eqn:E; intros [= <- <-] Hin.
    destruct (IH _ _ _ E ltac:(intros; eapply Hin; right; eauto)) as [H1 H2]; split.
    + rewrite appended_app.
      assert (Z : appended (grid_power_ops m T q z) = 0%nat).
      { unfold appended; destruct (filter _ _) as [|o os] eqn:F; [reflexivity|exfalso].
        assert (Ho : In o (o :: os)) by now left.
        rewrite <- F in Ho; apply filter_In in Ho as [Ho Hf]; unfold grid_power_ops in Ho.
        apply in_flat_map in Ho as (x & _ & Ho); apply in_flat_map in Ho as (y & _ & Ho).
        destruct (q _ x y); cbn [opt_list In] in Ho; [destruct Ho as [<-|[]]; discriminate|tauto]. }
      lia.
    + intros k Hk; destruct (H2 k Hk) as (x & y & r & Hx & Hy & Hr); exists x, y, r.
      split; [auto|split; [auto|apply in_app_iff; auto]].
  - destruct (layer_power_ops m T z (Datatypes.S node) ps) as [os' n'] eqn:E; intros Ho Hin.
    pose proof (f_equal fst Ho) as Eo; pose proof (f_equal snd Ho) as En; cbn [fst snd] in Eo, En; subst os n; clear Ho.
    destruct (IH _ _ _ E ltac:(intros; eapply Hin; right; eauto)) as [H1 H2].
    destruct (Hin llx lly urx ury tot (or_introl eq_refl)) as (O1 & O2 & O3 & O4).
    set (rs := flat_map (fun x => map (fun y => SetR (flatten m (x, y, z)) node thermal_rd) (range lly ury)) (range llx urx)) in *.
    split.
    + rewrite !appended_app; change (appended [AppendNode None; SetHF node tot]) with 1%nat.
      assert (Z : appended rs = 0%nat).
      { unfold appended; destruct (filter _ _) as [|o os] eqn:F; [reflexivity|exfalso].
        assert (Ho : In o (o :: os)) by now left.
        rewrite <- F in Ho; apply filter_In in Ho as [Ho Hf]; unfold rs in Ho.
        apply in_flat_map in Ho as (x & _ & Ho); apply in_map_iff in Ho as (y & <- & _); discriminate. }
      lia.
    + intros k Hk; destruct (Nat.eq_dec k node) as [->|Hne].
      * exists llx, lly, thermal_rd; split; [lia|split; [lia|]].
        cbn [app]; right; right; apply in_app_iff; left; apply in_flat_map; exists llx; split.
        { unfold range; apply in_seq; lia. }
        apply in_map_iff; exists lly; split; [reflexivity|unfold range; apply in_seq; lia].
      * destruct (H2 k ltac:(lia)) as (x & y & r & Hx & Hy & Hr); exists x, y, r.
        split; [auto|split; [auto|cbn [app]; right; right; apply in_app_iff; auto]].
Qed.

Lemma power_blocks m T ls : forall z node,
  (forall l llx lly urx ury q, In l ls -> In (PBlock llx lly urx ury q) (l_power l) -> (llx <= urx /\ lly <= ury /\ urx < g_nx m /\ ury < g_ny m)%nat) ->
  forall k, (node <= k < node + appended (power_ops m T z node ls))%nat ->
  exists x y z' r, (x < g_nx m)%nat /\ (y < g_ny m)%nat /\ (z <= z' < z + List.length ls)%nat /\ In (SetR (flatten m (x, y, z')) k r) (power_ops m T z node ls).
Proof.
  induction ls as [|l ls IH]; intros z node Hin k; cbn [power_ops]; [unfold appended; simpl; lia|].
  destruct (layer_power_ops m T z node (l_power l)) as [os n] eqn:E.
  destruct (layer_power_blocks m T z _ _ _ _ E) as [H1 H2]; [intros; eapply Hin; [now left|eauto]|].
  rewrite appended_app; intros Hk; destruct (Nat.lt_ge_cases k n) as [Hlt|Hge].
  - destruct (H2 k ltac:(lia)) as (x & y & r & Hx & Hy & Hr); exists x, y, z, r.
    split; [auto|split; [auto|split; [cbn [List.length]; lia|apply in_app_iff; auto]]].
  - destruct (IH (Datatypes.S z) n) with (k := k) as (x & y & z' & r & Hx & Hy & Hz & Hr); [intros; eapply Hin; [right|]; eauto|lia|].
    exists x, y, z', r; split; [auto|split; [auto|split; [cbn [List.length]; lia|apply in_app_iff; auto]]].
Qed.

Lemma not_appended (P : op -> Prop) os : (forall o, In o os -> P o) -> (forall o, P o -> match o with AppendNode _ => False | _ => True end) ->
  appended os = 0%nat.
Proof.
  intros H H'; unfold appended; destruct (filter _ _) as [|o os'] eqn:F; [reflexivity|exfalso].
  assert (Ho : In o (o :: os')) by now left.
  rewrite <- F in Ho; apply filter_In in Ho as [Ho Hf]; specialize (H' o (H o Ho)); destruct o; try discriminate; tauto.
Qed.

Lemma bc_calls m b i o : In o (bc_op m b i) ->
  (exists v, b = HTC v /\ o = SetHTC i (zarea m * v)) \/ (exists v, b = HeatFlux v /\ o = SetHF i (zarea m * v)).
Proof. destruct b; cbn [bc_op In]; intros H; [destruct H as [<-|[]]; eauto..|tauto]. Qed.
Lemma uniform_calls m b z o : In o (uniform_bc_ops m b z) -> exists b' i, b = Some b' /\ In o (bc_op m b' i).
Proof.
  destruct b as [b|]; cbn [uniform_bc_ops]; [|intros []]; intros H.
  apply in_flat_map in H as (x & _ & H); apply in_flat_map in H as (y & _ & H); eauto.
Qed.
Lemma block_calls m bs z o : In o (block_bc_ops m bs z) -> exists r b i, In (r, b) bs /\ In o (bc_op m b i).
Proof.
  intros H; unfold block_bc_ops in H; apply in_flat_map in H as ([[[llx lly] [urx ury]] b] & Hb & H).
  apply in_flat_map in H as (x & _ & H); apply in_flat_map in H as (y & _ & H); eauto.
Qed.

Lemma boundary_calls m o :
  In o (uniform_bc_ops m (g_top m) 0 ++ uniform_bc_ops m (g_bottom m) (g_nz m - 1) ++
        block_bc_ops m (g_topblocks m) 0 ++ block_bc_ops m (g_botblocks m) (g_nz m - 1)) ->
  exists b i, has_bc m b /\ In o (bc_op m b i).
Proof.
  rewrite !in_app_iff; unfold has_bc; intros [H|[H|[H|H]]].
  - apply uniform_calls in H as (b & i & E & H); eauto 6.
  - apply uniform_calls in H as (b & i & E & H); eauto 6.
  - apply block_calls in H as (r & b & i & E & H); eauto 8.
  - apply block_calls in H as (r & b & i & E & H); eauto 8.
Qed.

(** what the calls before the boundary conditions are *)
Definition inner_call (o : op) : Prop :=
  match o with SetC _ _ | SetR _ _ _ | SetHF _ _ | AppendNode _ => True | _ => False end.
Lemma inner_calls m T o :
  In o (flat_map (cell_ops m) (seq 0 (total_grids m)) ++ jump_ops m ++ power_ops m T 0 (total_grids m) (g_layers m)) -> inner_call o.
Proof.
  rewrite !in_app_iff; intros [H|[H|H]].
  - apply in_flat_map in H as (i & _ & H); unfold cell_ops in H; cbv zeta in H; destruct H as [<-|H]; [exact I|].
    rewrite !in_app_iff in H; destruct H as [H|[H|H]]; (destruct (neighbor m _ _); cbn [opt_list In] in H; [destruct H as [<-|[]]; exact I|tauto]).
  - unfold jump_ops in H; apply in_flat_map in H as ([[a b] al] & _ & H); destruct (_ =? _)%nat; cbn [In] in H; [tauto|destruct H as [<-|[]]; exact I].
  - revert H; generalize 0%nat, (total_grids m); induction (g_layers m) as [|l ls IH]; intros z node; cbn [power_ops]; [intros []|].
    destruct (layer_power_ops m T z node (l_power l)) as [os n] eqn:E; rewrite in_app_iff; intros [H|H]; [|eauto].
    clear IH; revert node os n E H; induction (l_power l) as [|[q|llx lly urx ury tot] ps IH]; intros node os n; cbn [layer_power_ops].
    + intros [= <- <-] [].
    + destruct (layer_power_ops m T z node ps) as [os' n'] eqn:E; intros [= <- <-]; rewrite in_app_iff; intros [H|H]; [|eauto].
      unfold grid_power_ops in H; apply in_flat_map in H as (x & _ & H); apply in_flat_map in H as (y & _ & H).
      destruct (q _ x y); cbn [opt_list In] in H; [destruct H as [<-|[]]; exact I|tauto].
    + destruct (layer_power_ops m T z (Datatypes.S node) ps) as [os' n'] eqn:E; intros [= <- <-] [<-|[<-|H]]; [exact I|exact I|].
      apply in_app_iff in H as [H|H]; [|eauto].
      apply in_flat_map in H as (x & _ & H); apply in_map_iff in H as (y & <- & _); exact I.
Qed.

Lemma build_split m T o : In o (build_ops m T) -> inner_call o \/ exists b i, has_bc m b /\ In o (bc_op m b i).
Proof.
  unfold build_ops; intros H.
  rewrite !in_app_iff in H.
  destruct H as [H|[H|[H|H]]]; [left; apply (inner_calls m T); rewrite !in_app_iff; auto..|].
  right; apply boundary_calls; rewrite !in_app_iff; exact H.
Qed.

Lemma build_appended m T : appended (build_ops m T) = appended (power_ops m T 0 (total_grids m) (g_layers m)).
Proof.
  unfold build_ops; rewrite !appended_app.
  assert (Z1 : appended (flat_map (cell_ops m) (seq 0 (total_grids m))) = 0%nat).
  { apply (not_appended (fun o => match o with AppendNode _ => False | _ => True end)); [|auto].
    intros o H; apply in_flat_map in H as (i & _ & H); unfold cell_ops in H; cbv zeta in H; destruct H as [<-|H]; [exact I|].
    rewrite !in_app_iff in H; destruct H as [H|[H|H]]; (destruct (neighbor m _ _); cbn [opt_list In] in H; [destruct H as [<-|[]]; exact I|tauto]). }
  assert (Z2 : appended (jump_ops m) = 0%nat).
  { apply (not_appended (fun o => match o with AppendNode _ => False | _ => True end)); [|auto].
    intros o H; unfold jump_ops in H; apply in_flat_map in H as ([[a b] al] & _ & H); destruct (_ =? _)%nat; cbn [In] in H; [tauto|destruct H as [<-|[]]; exact I]. }
  assert (Z3 : appended (uniform_bc_ops m (g_top m) 0 ++ uniform_bc_ops m (g_bottom m) (g_nz m - 1) ++
        block_bc_ops m (g_topblocks m) 0 ++ block_bc_ops m (g_botblocks m) (g_nz m - 1)) = 0%nat).
  { apply (not_appended (fun o => match o with AppendNode _ => False | _ => True end)); [|auto].
    intros o H; apply boundary_calls in H as (b & i & _ & H); apply bc_calls in H as [(v & _ & ->)|(v & _ & ->)]; exact I. }
  rewrite !appended_app in Z3; lia.
Qed.

Lemma vertical_call m T x y z : (x < g_nx m)%nat -> (y < g_ny m)%nat -> (Datatypes.S z < g_nz m)%nat ->
  exists r, In (SetR (flatten m (x, y, z)) (flatten m (x, y, Datatypes.S z)) r) (build_ops m T).
Proof.
  intros Hx Hy Hz; assert (Hg : in_grid m (x, y, z)) by (unfold in_grid; lia).
  eexists; apply (in_cells m T (x, y, z)); [exact Hg|].
  unfold cell_ops; cbv zeta; rewrite (unflatten_flatten m _ Hg); right; rewrite !in_app_iff; right; right.
  unfold neighbor; destruct (Nat.eqb_spec z (g_nz m - 1)); [lia|]; cbn [opt_list In]; left; reflexivity.
Qed.

(** ** C167 *)
(** A grid model whose top or bottom face is cooled everywhere has a network, and that network has exactly
    one equilibrium at every ambient temperature. *)
Theorem C167_exactly_one minR m T refT bonds : 0 < minR -> (0 < g_nx m)%nat -> (0 < g_ny m)%nat -> g_layers m <> [] ->
  blocks_in_grid m -> blocks_ordered m -> 0 < width_x m * width_y m -> cooled m -> List.length T = total_grids m ->
  exists net mna, build minR m T = Ok (Some net) /\ make_mna net bonds [] = Ok mna /\
    dissipates net mna /\ exactly_one net mna refT.
Proof.
  intros HminR Hnx Hny Hl Hb Ho Harea ((v & Hv) & Hpos) HT.
  set (Tf := fun i => nth i T 0).
  pose proof (build_ok_ops m Tf Hl Hb) as Hok.
  destruct (ok_ops_run minR (build_ops m Tf) (net_new (total_grids m))) as [net Hrun].
  { unfold net_new; rewrite repeat_length; exact Hok. }
  assert (Hbuild : build minR m T = Ok (Some net)).
  { unfold build; rewrite HT, Nat.eqb_refl; fold Tf; rewrite Hrun; reflexivity. }
  assert (Hends : Forall (ends_below (List.length net)) (build_ops m Tf)).
  { apply (ok_ops_ends minR _ (net_new (total_grids m))); auto; unfold net_new; rewrite repeat_length; exact Hok. }
  destruct (C27_assembly_defined minR HminR _ _ net bonds [] Hrun Hends (Forall_nil _)) as [mna Hm].
  assert (Hreach : reachable minR net) by (exists (total_grids m), (build_ops m Tf); exact Hrun).
  assert (Hlen : List.length net = (total_grids m + appended (power_ops m Tf 0 (total_grids m) (g_layers m)))%nat).
  { rewrite (run_appended _ _ _ _ Hrun), build_appended; unfold net_new; rewrite repeat_length; reflexivity. }
  assert (Hz : 0 < zarea m) by exact Harea.
  assert (HF : Forall positive_htc (build_ops m Tf)).
  { apply Forall_forall; intros o Hin; apply build_split in Hin as [H|(b & i & Hbc & H)].
    - destruct o; cbn in *; tauto.
    - apply bc_calls in H as [(w & -> & ->)|(w & -> & ->)]; cbn [positive_htc]; [|exact I].
      specialize (Hpos w Hbc); nra. }
  destruct (run_htc minR _ _ _ Hrun HF) as (Hge & _ & Hset).
  assert (Hnn : forall i, 0 <= get_htc net i) by (intros i; apply Hge; rewrite net_new_htc; lra).
  assert (Hnz : (0 < g_nz m)%nat) by (unfold g_nz; destruct (g_layers m); simpl; [tauto|lia]).
  assert (Hflat : forall x y z, (x < g_nx m)%nat -> (y < g_ny m)%nat -> (z < g_nz m)%nat ->
    (flatten m (x, y, z) < total_grids m)%nat) by (intros; apply flatten_lt; unfold in_grid; lia).
  set (grd := grounded (List.length net) (entry (m_G mna)) (get_htc net)).
  assert (Hvert : forall x y z, (x < g_nx m)%nat -> (y < g_ny m)%nat -> (Datatypes.S z < g_nz m)%nat ->
    ~ entry (m_G mna) (flatten m (x, y, z)) (flatten m (x, y, Datatypes.S z)) == 0 /\
    ~ entry (m_G mna) (flatten m (x, y, Datatypes.S z)) (flatten m (x, y, z)) == 0 /\
    flatten m (x, y, z) <> flatten m (x, y, Datatypes.S z)).
  { intros x y z Hx Hy Hzz.
    assert (Hne : flatten m (x, y, z) <> flatten m (x, y, Datatypes.S z)).
    { intros E; apply flatten_inj in E; [injection E; lia|unfold in_grid; lia|unfold in_grid; lia]. }
    destruct (vertical_call m Tf x y z Hx Hy Hzz) as [r Hr].
    pose proof (Hflat x y z Hx Hy ltac:(lia)); pose proof (Hflat x y (Datatypes.S z) Hx Hy Hzz).
    destruct (resistor_couples minR _ _ net bonds [] mna (flatten m (x, y, z)) (flatten m (x, y, Datatypes.S z)) r HminR Hrun Hm ltac:(lia) ltac:(lia) Hne Hr); auto. }
  assert (Hface : (forall x y, (x < g_nx m)%nat -> (y < g_ny m)%nat -> grd (flatten m (x, y, 0%nat))) \/
                  (forall x y, (x < g_nx m)%nat -> (y < g_ny m)%nat -> grd (flatten m (x, y, (g_nz m - 1)%nat)))).
  { assert (Huni : forall x y z b, (x < g_nx m)%nat -> (y < g_ny m)%nat -> b = Some (HTC v) ->
        In (SetHTC (flatten m (x, y, z)) (zarea m * v)) (uniform_bc_ops m b z)).
    { intros x y z b Hx Hy ->; cbn [uniform_bc_ops]; apply in_flat_map; exists x; split; [apply in_seq; lia|].
      apply in_flat_map; exists y; split; [apply in_seq; lia|now left]. }
    destruct Hv as [Hv|Hv]; [left|right]; intros x y Hx Hy; apply grounded_here.
    - pose proof (Hflat x y 0%nat Hx Hy Hnz); lia.
    - apply (Hset _ (zarea m * v)); unfold build_ops; rewrite !in_app_iff; right; right; right; left; apply Huni; auto.
    - pose proof (Hflat x y (g_nz m - 1)%nat Hx Hy ltac:(lia)); lia.
    - apply (Hset _ (zarea m * v)); unfold build_ops; rewrite !in_app_iff; right; right; right; right; left; apply Huni; auto. }
  assert (Hcell : forall x y z, (x < g_nx m)%nat -> (y < g_ny m)%nat -> (z < g_nz m)%nat -> grd (flatten m (x, y, z))).
  { intros x y z Hx Hy; destruct Hface as [Hf|Hf].
    - induction z as [|z IH]; intros Hzz; [auto|].
      destruct (Hvert x y z Hx Hy Hzz) as (_ & E & Hne).
      apply (grounded_via _ _ _ _ (flatten m (x, y, z))); auto; [| |apply IH; lia];
        [pose proof (Hflat x y (Datatypes.S z) Hx Hy Hzz)|pose proof (Hflat x y z Hx Hy ltac:(lia))]; lia.
    - intros Hzz; remember (g_nz m - 1 - z)%nat as d eqn:Ed; revert z Hzz Ed; induction d as [|d IH]; intros z Hzz Ed.
      { replace z with (g_nz m - 1)%nat by lia; auto. }
      destruct (Hvert x y z Hx Hy ltac:(lia)) as (E & _ & Hne).
      apply (grounded_via _ _ _ _ (flatten m (x, y, Datatypes.S z))); auto; [| |apply IH; lia];
        [pose proof (Hflat x y z Hx Hy Hzz)|pose proof (Hflat x y (Datatypes.S z) Hx Hy ltac:(lia))]; lia. }
  assert (Hdis : dissipates net mna).
  { split; [auto|]; intros i Hi; destruct (Nat.lt_ge_cases i (total_grids m)) as [Hc|Hc].
    - destruct (flatten_unflatten m i Hc) as [Hg E]; destruct (unflatten m i) as [[x y] z]; rewrite <- E; apply Hcell; apply Hg.
    - destruct (power_blocks m Tf (g_layers m) 0 (total_grids m)) with (k := i) as (x & y & z & r & Hx & Hy & Hzz & Hr).
      + intros l llx lly urx ury q Hinl Hinp; destruct Hb as (Hb & _).
        destruct (Hb _ _ _ _ _ _ Hinl Hinp); destruct (Ho _ _ _ _ _ _ Hinl Hinp); auto.
      + lia.
      + assert (Hzn : (z < g_nz m)%nat) by (unfold g_nz; lia).
        pose proof (Hflat x y z Hx Hy Hzn) as Hf.
        assert (Hin : In (SetR (flatten m (x, y, z)) i r) (build_ops m Tf)).
        { unfold build_ops; rewrite !in_app_iff; right; right; left; exact Hr. }
        destruct (resistor_couples minR _ _ net bonds [] mna (flatten m (x, y, z)) i r HminR Hrun Hm ltac:(lia) Hi ltac:(lia) Hin) as [_ E].
        apply (grounded_via _ _ _ _ (flatten m (x, y, z))); auto; [lia|lia|apply Hcell; auto]. }
  exists net, mna; split; [auto|split; [auto|split; [auto|]]].
  exact (C165_exactly_one minR HminR net bonds [] mna refT Hreach Hm Hdis).
Qed.
Print Assumptions C167_exactly_one.

(** At equilibrium the heat leaving through the faces is the power of the model, when that power reaches the network. *)
Theorem C167_heat_out_partial minR m T refT net mna bonds temp :
  (forall l, In l (g_layers m) -> (List.length (filter is_grid_power (l_power l)) <= 1)%nat) -> no_flux m ->
  build minR m T = Ok (Some net) -> make_mna net bonds [] = Ok mna -> equilibrium net mna refT temp ->
  sumf (fun i => get_htc net i * (temp i - refT)) (seq 0 (List.length net)) == model_power m (fun i => nth i T 0).
Proof.
  intros H1 H2 Hb Hm He.
  rewrite (C27_energy_balance net bonds [] mna refT temp Hm He).
  exact (proj1 (C33_power_reaches_network_partial minR m T net H1 H2 Hb)).
Qed.
Print Assumptions C167_heat_out_partial.

(** Without any coefficient there is no equilibrium unless the heat put in is taken out again. *)
Theorem C167_uncooled_has_none minR m T refT net mna bonds temp : (forall v, ~ has_bc m (HTC v)) ->
  build minR m T = Ok (Some net) -> make_mna net bonds [] = Ok mna -> ~ total_hf net == 0 -> ~ equilibrium net mna refT temp.
Proof.
  intros Hno Hb Hm Hp He; apply Hp; unfold build in Hb; destruct (_ =? _)%nat; [|discriminate].
  set (Tf := fun i => nth i T 0) in *.
  destruct (run minR (net_new (total_grids m)) (build_ops m Tf)) as [l| | |] eqn:Hrun; cbn [rmap] in Hb; try discriminate.
  injection Hb as <-.
  assert (Hz : forall i, get_htc l i == 0).
  { apply (run_no_htc minR _ _ _ Hrun); [|intros; apply net_new_htc].
    apply Forall_forall; intros o Hin; apply build_split in Hin as [H|(b & i & Hbc & H)]; [destruct o; cbn in *; tauto|].
    apply bc_calls in H as [(w & -> & ->)|(w & -> & ->)]; [exact (Hno w Hbc)|exact I]. }
  rewrite <- (C27_energy_balance l bonds [] mna refT temp Hm He).
  apply sumf_zero; intros i _; rewrite Hz; ring.
Qed.
Print Assumptions C167_uncooled_has_none.

Example C167_example : exists net mna, build (1#1000) block_model (repeat 25 12) = Ok (Some net) /\
  make_mna net true [] = Ok mna /\ dissipates net mna /\ exactly_one net mna 25.
Proof.
  apply C167_exactly_one; try reflexivity; try (simpl; lia); try discriminate.
  - split; [|split].
    + intros l q llx lly urx ury Hl Hp; destruct Hl as [<-|[<-|[]]]; [|destruct Hp].
      destruct Hp as [H|[H|[]]]; [|discriminate].
      injection H; intros; subst; unfold box_in_grid; simpl; lia.
    + intros llx lly urx ury b [].
    + intros a b al [].
  - intros l llx lly urx ury q Hl Hp; destruct Hl as [<-|[<-|[]]]; [|destruct Hp].
    destruct Hp as [H|[H|[]]]; [|discriminate]; injection H; intros; subst; lia.
  - split; [exists 5; left; reflexivity|].
    intros v [H|[H|(r & [[]|[]])]]; [injection H as <-; reflexivity|discriminate].
Qed.

(** Two corners given in the wrong order leave the power of the block on a node without resistors: the model is
    cooled and inside the grid, and yet nothing solves the system. *)
Definition swapped_model : gmodel := m23 [PBlock 1 2 0 1 7].
Theorem C167_swapped_corners_refuted :
  blocks_in_grid swapped_model /\ cooled swapped_model /\
  exists net mna, build (1#1000) swapped_model (repeat 25 12) = Ok (Some net) /\ make_mna net true [] = Ok mna /\
  forall refT temp, ~ equilibrium net mna refT temp.
Proof.
  split; [split; [|split]|].
  - intros l q llx lly urx ury Hl Hp; destruct Hl as [<-|[<-|[]]]; [|destruct Hp]; destruct Hp as [H|[]].
    injection H; intros; subst; unfold box_in_grid; simpl; lia.
  - intros llx lly urx ury b [].
  - intros a b al [].
  - split; [split; [exists 5; left; reflexivity|]|].
    { intros v [H|[H|(r & [[]|[]])]]; [injection H as <-; reflexivity|discriminate]. }
    destruct (build (1#1000) swapped_model (repeat 25 12)) as [[net|]| | |] eqn:E; try (vm_compute in E; discriminate).
    assert (Hreach : reachable (1#1000) net).
    { exists 12%nat, (build_ops swapped_model (fun i => nth i (repeat 25 12) 0)); unfold build in E.
      change (List.length (repeat 25 12) =? total_grids swapped_model)%nat with true in E; cbv iota in E.
      change (total_grids swapped_model) with 12%nat in E.
      destruct (run _ _ _) as [l| | |]; cbn [rmap] in E; try discriminate; injection E as ->; reflexivity. }
    destruct (make_mna net true []) as [mna| | |] eqn:Em; try (vm_compute in E; injection E as <-; vm_compute in Em; discriminate).
    exists net, mna; split; [reflexivity|split; [exact Em|]]; intros refT temp.
    destruct (C165_island (1#1000) net true [] mna refT (fun i => i =? 12)%nat Hreach Em) as [H _].
    + clear Hreach; vm_compute in E; injection E as <-; vm_compute in Em; injection Em as <-.
      intros i Hi Ei; apply Nat.eqb_eq in Ei; subst i; split; [reflexivity|].
      intros j Hj Ej; cbn [List.length] in Hj.
      do 12 (destruct j as [|j]; [vm_compute; reflexivity|]).
      destruct j as [|j]; [discriminate|lia].
    + apply H; clear - E; vm_compute in E; injection E as <-; vm_compute; discriminate.
Qed.
Print Assumptions C167_swapped_corners_refuted.

(** Sealed model with one powered block. *)
Definition sealed_model : gmodel := mkGrid 2 3 1 2 (1#10) [lay 1 [PBlock 0 1 1 2 7]; lay 2 []] [] None None [] [].
Example C167_uncooled_case : (forall v, ~ has_bc sealed_model (HTC v)) /\
  exists net mna, build (1#1000) sealed_model (repeat 25 12) = Ok (Some net) /\ make_mna net true [] = Ok mna /\ total_hf net == 7.
Proof.
  split; [intros v [H|[H|(r & [[]|[]])]]; discriminate|].
  do 2 eexists; split; [vm_compute; reflexivity|split; [vm_compute; reflexivity|vm_compute; reflexivity]].
Qed.
