(** C168, C169, C170: the static simulation of grid models, its results and its files. *)
From Verif Require Import Base QSum ThermalNetwork_Model ThermalNetwork_Spec ThermalNetwork_Props Grid_Model Grid_Spec Grid_Proofs Grid_Props
  Steady_Spec Steady_Props SteadyGrid_Props Solver_Model Solver_Spec Solver_Proofs Solver_Props GridSim_Model GridSim_Spec GridSim_Proofs.
From Coq Require Import Qabs Lqa.
Open Scope res_scope.
Open Scope Q_scope.

Lemma one_step_of_none lin minR g t envT y z : step_or_none lin minR g t envT y = Some z ->
  List.length y = total_grids g.
Proof.
  unfold step_or_none, one_step, build; destruct (Nat.eqb_spec (List.length y) (total_grids g)); [auto|discriminate].
Qed.

Lemma chain_balanced lin minR g t envT : (forall y, List.length y = total_grids g ->
    exists z, one_step lin minR g t envT y = Ok (Some z) /\ balance_of minR g envT y z) ->
  forall builds, chained (step_or_none lin minR g t envT) builds ->
  forall i a b, nth_error builds i = Some a -> nth_error builds (Datatypes.S i) = Some b -> balance_of minR g envT a b.
Proof.
  intros Hok; induction builds as [|x [|y bs] IH]; intros Hc i a b Ha Hb; cbn [chained] in Hc.
  - destruct i; discriminate.
  - destruct i as [|[|i]]; cbn [nth_error] in *; discriminate.
  - destruct Hc as [Hxy Hc]; destruct i as [|i]; [|exact (IH Hc i a b Ha Hb)].
    cbn [nth_error] in Ha, Hb; injection Ha as <-; injection Hb as <-.
    destruct (Hok x (one_step_of_none _ _ _ _ _ _ _ Hxy)) as (z & Hz & Bz).
    unfold step_or_none in Hxy; rewrite Hz in Hxy; injection Hxy as <-; exact Bz.
Qed.

Section Static.
  Context (lin : nat -> (nat -> nat -> Q) -> (nat -> Q) -> nat -> Q) (Hlin : solves_exactly lin).

  (** ** C168: the simulation of a cooled model ends within the allowed number of networks.  The first network is built for the
      ambient temperature, every other for the temperatures of the one before, and the temperatures returned are the steady state
      of the last network; unless the count is used up they agree with the temperatures it was built for. *)
  Theorem C168_self_consistent minR g t st envT fuel : 0 < minR -> solvable_model g -> tables_only g -> In t [0; 1; 2; 3; 10]%nat ->
    (1 <= iteration st)%N -> (iteration st <= N.of_nat fuel)%N ->
    exists T builds, grid_solve lin minR g t st envT fuel = Ok (Some (map (reported (in_celsius st)) T), builds) /\
      (1 <= List.length builds)%nat /\ (N.of_nat (List.length builds) <= iteration st)%N /\
      hd_error builds = Some (repeat envT (total_grids g)) /\
      (forall i a b, nth_error builds i = Some a -> nth_error builds (Datatypes.S i) = Some b -> balance_of minR g envT a b) /\
      balance_of minR g envT (last builds []) T /\
      (N.of_nat (List.length builds) = iteration st \/ agree (maximum_res st) (residual st) T (last builds [])).
  Proof.
    intros HminR Hg Htab Ht Hi Hf.
    pose proof (one_step_ok lin minR g t envT Hlin Ht HminR Hg Htab) as Hok.
    assert (Hsome : forall y z, step_or_none lin minR g t envT y = Some z -> balance_of minR g envT y z).
    { intros y z Hy; pose proof (one_step_of_none _ _ _ _ _ _ _ Hy) as Ly.
      destruct (Hok y Ly) as (z' & Hz & Bz); unfold step_or_none in Hy; rewrite Hz in Hy; injection Hy as <-; exact Bz. }
    assert (Hlen : forall y z, step_or_none lin minR g t envT y = Some z -> List.length z = List.length y).
    { intros y z Hy; destruct (Hsome y z Hy) as [-> _]; rewrite (one_step_of_none _ _ _ _ _ _ _ Hy); reflexivity. }
    unfold grid_solve; rewrite grid_loop_static; [|intros y Ly; destruct (Hok y Ly) as (z & Hz & Bz & _); eauto|apply repeat_length].
    destruct (static_loop_spec (step_or_none lin minR g t envT) st fuel _ (repeat envT (total_grids g)) Hi Hf) as [H|(o & builds & H & H1 & H2 & H3 & H4)].
    { exfalso; revert H; apply static_loop_total; exact Hlen. }
    rewrite H; cbn [rmap bind fst snd]; pose proof (chain_balanced lin minR g t envT Hok builds H3) as Hch.
    assert (Hlast : List.length (last builds []) = total_grids g).
    { destruct builds as [|b bs]; [discriminate|]; injection H1 as ->; clear - Hch.
      assert (G : forall bs y, List.length y = total_grids g ->
        (forall i a b, nth_error (y :: bs) i = Some a -> nth_error (y :: bs) (Datatypes.S i) = Some b -> balance_of minR g envT a b) ->
        List.length (last (y :: bs) []) = total_grids g); [|apply G; [apply repeat_length|exact Hch]].
      clear; induction bs as [|z bs IH]; intros y Ly Hch; [exact Ly|]; change (last (y :: z :: bs) []) with (last (z :: bs) []).
      apply IH; [destruct (Hch 0%nat y z eq_refl eq_refl) as [L _]; exact L|].
      intros i a b Ha Hb; exact (Hch (Datatypes.S i) a b Ha Hb). }
    destruct o as [T|].
    - destruct H4 as [HT Hend]; exists T, builds; split; [reflexivity|].
      split; [destruct builds; [discriminate|cbn [List.length]; lia]|]; auto 8.
    - exfalso; unfold step_or_none in H4; destruct (Hok _ Hlast) as (z & Hz & _); rewrite Hz in H4; discriminate.
  Qed.

  (** When no power depends on the temperature at most two networks are built, and the result is the one steady state
      of the model whatever temperatures the network is built for. *)
  Lemma residual_zero mx a b : List.length a = List.length b -> (forall i, (i < List.length a)%nat -> nth i a 0 == nth i b 0) ->
    exists r, residual_of mx a b = Ok r /\ r == 0.
  Proof.
    intros L H; unfold residual_of; rewrite L, Nat.eqb_refl; eexists; split; [reflexivity|].
    generalize (inject_Z (Z.of_nat (List.length b))) as s; intros s.
    assert (G : forall a b r, List.length a = List.length b -> (forall i, (i < List.length a)%nat -> nth i a 0 == nth i b 0) -> r == 0 ->
      fold_left (residual_step mx s) (combine a b) r == 0); [|apply G; auto; reflexivity].
    clear; induction a as [|x a IH]; intros [|y b] r L H Hr; cbn [List.length] in L; try discriminate; [exact Hr|].
    cbn [combine fold_left]; apply IH; [lia|intros i Hi; exact (H (Datatypes.S i) ltac:(cbn [List.length]; lia))|].
    assert (E : Qabs (x - y) == 0).
    { specialize (H 0%nat ltac:(cbn [List.length]; lia)); cbn [nth] in H; rewrite H; setoid_replace (y - y) with 0 by ring; reflexivity. }
    unfold residual_step; cbn [fst snd]; destruct mx; [cbv zeta; destruct (Qltb _ _); auto|].
    rewrite E, Hr; unfold Qdiv; ring.
  Qed.

  Theorem C168_constant_power minR g t st envT fuel : 0 < minR -> solvable_model g -> tables_only g -> constant_power g ->
    In t [0; 1; 2; 3; 10]%nat -> (1 <= iteration st)%N -> (iteration st <= N.of_nat fuel)%N -> 0 <= residual st ->
    exists T builds, grid_solve lin minR g t st envT fuel = Ok (Some (map (reported (in_celsius st)) T), builds) /\
      (List.length builds <= 2)%nat /\
      (forall prev, List.length prev = total_grids g -> balance_of minR g envT prev T) /\
      (forall prev T', balance_of minR g envT prev T' -> forall i, (i < total_grids g)%nat -> nth i T' 0 == nth i T 0).
  Proof.
    intros HminR Hg Htab Hc Ht Hi Hf Hres.
    pose proof (one_step_ok lin minR g t envT Hlin Ht HminR Hg Htab) as Hok.
    set (y0 := repeat envT (total_grids g)).
    assert (L0 : List.length y0 = total_grids g) by apply repeat_length.
    assert (Hall : forall y T prev, List.length y = total_grids g -> balance_of minR g envT y T -> List.length prev = total_grids g ->
      balance_of minR g envT prev T).
    { intros y T prev Ly [LT (net & m & Hb & Hm & He)] Lp; split; [exact LT|]; exists net, m; split; [|auto].
      rewrite (constant_build minR g prev y Hc Lp Ly); exact Hb. }
    assert (Huni : forall T prev T', balance_of minR g envT y0 T -> balance_of minR g envT prev T' ->
      forall i, (i < total_grids g)%nat -> nth i T' 0 == nth i T 0).
    { intros T prev T' [LT (net & m & Hb & Hm & He)] [LT' (net' & m' & Hb' & Hm' & He')] i Hi'.
      assert (Lp : List.length prev = total_grids g).
      { unfold build in Hb'; destruct (Nat.eqb_spec (List.length prev) (total_grids g)); [auto|discriminate]. }
      rewrite (constant_build minR g prev y0 Hc Lp L0), Hb in Hb'; injection Hb' as <-; rewrite Hm in Hm'; injection Hm' as <-.
      destruct Hg as (H1 & H2 & H3 & H4 & H5 & H6 & H7).
      destruct (C167_exactly_one minR g y0 envT true HminR H1 H2 H3 H4 H5 H6 H7 L0) as (net2 & m2 & Hb2 & Hm2 & _ & (U & _ & HU)).
      rewrite Hb in Hb2; injection Hb2 as <-; rewrite Hm in Hm2; injection Hm2 as <-.
      pose proof (build_size _ _ _ _ Hb) as Hs; rewrite tables_no_nodes, Nat.add_0_r in Hs by exact Htab.
      rewrite (HU _ He' i ltac:(lia)), (HU _ He i ltac:(lia)); reflexivity. }
    assert (G : exists T builds, grid_loop lin minR g t st envT fuel (iteration st) y0 = Ok (Some T, builds) /\
      (List.length builds <= 2)%nat /\ balance_of minR g envT y0 T).
    { rewrite grid_loop_static; [|intros y Ly; destruct (Hok y Ly) as (z & Hz & Bz & _); eauto|exact L0].
      destruct fuel as [|fuel]; [lia|]; cbn [static_loop].
      destruct (Hok y0 L0) as (z & Hz & Bz); unfold step_or_none at 1; rewrite Hz.
      pose proof (proj1 Bz) as Lz.
      assert (exists r, residual_of (maximum_res st) z y0 = Ok r) as [r ->] by (unfold residual_of; rewrite Lz, L0, Nat.eqb_refl; eauto).
      cbn [bind]; destruct (Qltb (residual st) r); [|exists z, [y0]; split; [reflexivity|split; [cbn [List.length]; lia|auto]]].
      unfold dec64; destruct (N.eqb_spec (iteration st) 0); [lia|].
      destruct (N.ltb_spec 0 (iteration st - 1)) as [Hk|]; [|exists z, [y0]; split; [reflexivity|split; [cbn [List.length]; lia|auto]]].
      destruct fuel as [|fuel]; [lia|]; cbn [static_loop].
      destruct (Hok z Lz) as (z2 & Hz2 & Bz2); unfold step_or_none at 1; rewrite Hz2.
      destruct (residual_zero (maximum_res st) z2 z) as (r2 & -> & Hr2).
      { rewrite Lz; apply Bz2. }
      { intros i Hi'; rewrite (proj1 Bz2) in Hi'; exact (Huni z z z2 Bz Bz2 i Hi'). }
      cbn [bind]; assert (Qltb (residual st) r2 = false) as -> by (apply Qltb_false; lra).
      cbn [rmap bind fst snd]; exists z2, [y0; z]; split; [reflexivity|]; split; [cbn [List.length]; lia|].
      exact (Hall z z2 y0 Lz Bz2 L0). }
    destruct G as (T & builds & HG & H2 & HT); unfold grid_solve; fold y0; rewrite HG; cbn [rmap bind fst snd option_map].
    exists T, builds; split; [reflexivity|]; split; [exact H2|]; split; [intros prev Lp; exact (Hall y0 T prev L0 HT Lp)|].
    intros prev T' B i Hi'; exact (Huni T prev T' HT B i Hi').
  Qed.
  (** An unknown solver type is refused. *)
  Theorem C168_unknown_solver_refused minR g t st envT fuel : 0 < minR -> solvable_model g -> ~ In t [0; 1; 2; 3; 10]%nat ->
    (0 < fuel)%nat -> grid_solve lin minR g t st envT fuel = Throw.
  Proof.
    intros HminR (H1 & H2 & H3 & H4 & H5 & H6 & H7) Ht Hf; destruct fuel as [|fuel]; [lia|]; unfold grid_solve; cbn [grid_loop].
    destruct (C167_exactly_one minR g (repeat envT (total_grids g)) envT true HminR H1 H2 H3 H4 H5 H6 H7 (repeat_length _ _)) as (net & m & Hb & Hm & _).
    rewrite Hb; cbn [bind]; unfold network_solve; rewrite Hm; destruct (C29_sources_scatter_to_full_rhs net envT) as (rhs & -> & _); cbn [bind].
    destruct (existsb (Nat.eqb t) solver_types) eqn:E; [|reflexivity].
    exfalso; apply Ht; apply existsb_exists in E as (x & Hx & E); apply Nat.eqb_eq in E; subst; exact Hx.
  Qed.

  (** ** C169: as soon as one power is given as a block, the static simulation throws: the network has one node more than the
      model has cells, and the two lists of temperatures cannot be compared. *)
  Theorem C169_block_power_refuted minR g t st envT fuel : 0 < minR -> solvable_model g -> some_block g -> (0 < fuel)%nat ->
    grid_solve lin minR g t st envT fuel = Throw.
  Proof.
    intros HminR Hg Hblk Hf; destruct (in_dec Nat.eq_dec t [0; 1; 2; 3; 10]%nat) as [Ht|Ht]; [|apply C168_unknown_solver_refused; auto].
    destruct Hg as (H1 & H2 & H3 & H4 & H5 & H6 & H7); destruct fuel as [|fuel]; [lia|]; unfold grid_solve; cbn [grid_loop].
    destruct (C167_exactly_one minR g (repeat envT (total_grids g)) envT true HminR H1 H2 H3 H4 H5 H6 H7 (repeat_length _ _)) as (net & m & Hb & Hm & _ & Hone).
    rewrite Hb; cbn [bind]; destruct (network_solve_spec lin t envT net m Hlin Ht Hm Hone) as (xs & -> & Lx & _); cbn [bind].
    pose proof (build_size _ _ _ _ Hb) as Hs.
    pose proof (blocks_add_nodes g (fun i => nth i (repeat envT (total_grids g)) 0) (g_layers g) Hblk 0 (total_grids g)) as Hp.
    unfold residual_of; rewrite repeat_length; destruct (Nat.eqb_spec (List.length xs) (total_grids g)); [lia|reflexivity].
  Qed.
End Static.
Print Assumptions C168_self_consistent.
Print Assumptions C168_constant_power.
Print Assumptions C168_unknown_solver_refused.
Print Assumptions C169_block_power_refuted.

(** ** C170: results and files *)
Lemma shade_layer g T z f : (0 < g_nx g)%nat -> (0 < g_ny g)%nat ->
  (forall x y, (x < g_nx g)%nat -> (y < g_ny g)%nat -> f x y = cell_temp g T x y z) ->
  (flat_layer g T z -> forall x y, shade_or g f x y = None) /\ (~ flat_layer g T z -> shows_layer g T z (shade_or g f)).
Proof.
  intros Hx Hy Hf.
  assert (Hne : cells g f <> []).
  { intros E; assert (H : In (f 0%nat 0%nat) (cells g f)) by (apply cells_in; exists 0%nat, 0%nat; auto); rewrite E in H; destruct H. }
  destruct (min_element (cells g f)) as [mn| | |] eqn:En; try (destruct (cells g f); [congruence|discriminate]).
  destruct (max_element (cells g f)) as [mx| | |] eqn:Ex; try (destruct (cells g f); [congruence|discriminate]).
  assert (Hs : forall x y, shade_or g f x y = if Qeqb (mx - mn) 0 then None else Some ((f x y - mn) / (mx - mn))).
  { intros x y; unfold shade_or, shade; rewrite En, Ex; reflexivity. }
  apply min_element_spec in En as [Hn1 Hn2]; apply max_element_spec in Ex as [Hx1 Hx2].
  apply cells_in in Hn1 as (xn & yn & A1 & A2 & En); apply cells_in in Hx1 as (xm & ym & B1 & B2 & Em).
  split.
  - intros Hflat x y; rewrite Hs; assert (E : mx - mn == 0); [|apply Qeq_bool_iff in E; unfold Qeqb; rewrite E; reflexivity].
    rewrite En, Em, !Hf by auto; rewrite (Hflat xm ym xn yn) by auto; ring.
  - intros Hnf; assert (Hlt : mn < mx).
    { destruct (Qlt_le_dec mn mx) as [|Hle]; [auto|exfalso; apply Hnf]; intros x y x' y' H1 H2 H3 H4.
      assert (I1 : In (f x y) (cells g f)) by (apply cells_in; eauto).
      assert (I2 : In (f x' y') (cells g f)) by (apply cells_in; eauto).
      pose proof (Hn2 _ I1); pose proof (Hx2 _ I1); pose proof (Hn2 _ I2); pose proof (Hx2 _ I2).
      rewrite (Hf x y) in * by auto; rewrite (Hf x' y') in * by auto; lra. }
    exists mn, mx; split; [auto|]; split; [exists xn, yn; rewrite <- Hf by auto; auto|]; split; [exists xm, ym; rewrite <- Hf by auto; auto|].
    intros x y H1 H2; assert (I1 : In (f x y) (cells g f)) by (apply cells_in; eauto).
    pose proof (Hn2 _ I1) as C1; pose proof (Hx2 _ I1) as C2.
    rewrite Hs; assert (E : Qeqb (mx - mn) 0 = false).
    { unfold Qeqb; destruct (Qeq_bool (mx - mn) 0) eqn:E; [apply Qeq_bool_iff in E; lra|reflexivity]. }
    rewrite E; eexists; split; [reflexivity|]; rewrite <- Hf by auto; split; [apply Qle_shift_div_l; lra|].
    split; [apply Qle_shift_div_r; lra|field; lra].
Qed.

Lemma same_elements {A} (l : list A) : forall l', (forall i, nth_error l i = nth_error l' i) -> l = l'.
Proof.
  induction l as [|a l IH]; intros [|b l'] H; auto; [discriminate (H 0%nat)|discriminate (H 0%nat)|].
  f_equal; [specialize (H 0%nat); cbn [nth_error] in H; congruence|apply IH; intros i; exact (H (Datatypes.S i))].
Qed.

Section Files.
  Context (to_dec : nat -> string) (lin : nat -> (nat -> nat -> Q) -> (nat -> Q) -> nat -> Q).

  (** When the simulation yields temperatures, the two numbers returned are the lowest and the highest of them, every monitor
      gets the temperature of its cell, and the files are those asked for: the monitors' temperatures in [static.txt] and one
      picture per layer in the work directory of the setup. *)
  Theorem C170_results_and_files minR g q probs fuel T builds : (0 < g_nx g)%nat -> (0 < g_ny g)%nat -> g_layers g <> [] ->
    grid_solve lin minR g (r_solver q) (r_static q) (r_env q) fuel = Ok (Some T, builds) -> List.length T = total_grids g ->
    (forall p, In p probs -> (p < total_grids g)%nat) ->
    exists mn mx pics, coldest mn T /\ hottest mx T /\
      grid_static to_dec lin minR g q probs fuel =
        Ok (Some (mn, mx, map (fun p => nth p T 0) probs),
            (if (r_dump_results q && negb (String.eqb (r_work_dir q) ""))%bool
             then [((r_work_dir q ++ "/static.txt")%string, FText (map (fun p => nth p T 0) probs))] else []) ++ pics) /\
      (r_work_dir q = ""%string \/ r_dump_hotmaps q = false -> pics = []) /\
      (r_work_dir q <> ""%string -> r_dump_hotmaps q = true -> List.length pics = List.length (g_layers g) /\
        forall z, (z < List.length (g_layers g))%nat -> exists shades,
          nth_error pics z = Some ((r_work_dir q ++ "/" ++ to_dec z ++ ".png")%string, FPicture (g_nx g) (g_ny g) shades) /\
          (~ flat_layer g T z -> shows_layer g T z shades) /\ (flat_layer g T z -> forall x y, shades x y = None)).
  Proof.
    intros Hx Hy Hl Hs LT Hp; unfold grid_static; rewrite Hs; cbn [bind fst].
    assert (Hz : (0 < g_nz g)%nat) by (unfold g_nz; destruct (g_layers g); [congruence|cbn [List.length]; lia]).
    assert (Hne : T <> []).
    { intros ->; cbn [List.length] in LT; unfold total_grids in LT.
      pose proof (Nat.mul_pos_pos _ _ Hx Hy); pose proof (Nat.mul_pos_pos _ _ H Hz); lia. }
    destruct (C55_report T probs Hne) as (mn & mx & ts & Hr & Lts & Hts & I1 & I2 & I3); [intros p H; rewrite LT; auto|].
    assert (Ets : ts = map (fun p => nth p T 0) probs).
    { clear - Hts Lts Hp LT; apply same_elements; intros i; destruct (nth_error probs i) as [p|] eqn:E.
      - rewrite (Hts i p E), (map_nth_error _ _ _ E); apply nth_error_nth'; rewrite LT; apply Hp; eapply nth_error_In; eauto.
      - apply nth_error_None in E; transitivity (@None Q); [apply nth_error_None; lia|symmetry; apply nth_error_None; rewrite map_length; lia]. }
    assert (Hpr : probe_at T probs = Ok ts).
    { unfold static_report in Hr; destruct (min_element T), (max_element T); cbn [bind] in Hr; try discriminate.
      destruct (probe_at T probs); cbn [bind] in Hr; congruence. }
    assert (Htxt : result_file q T probs = Ok (if (r_dump_results q && negb (String.eqb (r_work_dir q) ""))%bool
             then [((r_work_dir q ++ "/static.txt")%string, FText ts)] else [])).
    { unfold result_file; destruct (_ && _)%bool; [rewrite Hpr|]; reflexivity. }
    rewrite Htxt, Hr; cbn [bind]; rewrite <- Ets.
    destruct (put_all_spec g T 0 (repeat (fun _ _ => 0) (g_nz g))) as (maps & Hm & Lm & Hmaps); [apply repeat_length|lia|].
    set (out := map (fun kf => (map_file to_dec (r_work_dir q) (fst kf), FPicture (g_nx g) (g_ny g) (shade_or g (snd kf))))
          (combine (seq 0 (List.length maps)) maps)).
    exists mn, mx, (if (negb (String.eqb (r_work_dir q) "") && r_dump_hotmaps q)%bool then out else []).
    split; [split; [exact I1|intros t Ht; apply I3; auto]|]; split; [split; [exact I2|intros t Ht; apply I3; auto]|]; split; [|split].
    - destruct (negb (String.eqb (r_work_dir q) "") && r_dump_hotmaps q)%bool; [|reflexivity].
      unfold hot_maps; rewrite Hm; reflexivity.
    - intros [->| ->]; [reflexivity|rewrite andb_false_r; reflexivity].
    - intros Hw ->; apply String.eqb_neq in Hw; rewrite Hw; cbn [negb andb]; unfold out.
      assert (Lout : List.length (combine (seq 0 (List.length maps)) maps) = g_nz g) by (rewrite combine_length, seq_length, Nat.min_id; auto).
      split; [rewrite map_length; exact Lout|]; intros z Hzz.
      assert (E : nth_error (combine (seq 0 (List.length maps)) maps) z = Some (z, nth z maps (fun _ _ => 0))).
      { rewrite (nth_error_nth' _ (0%nat, fun _ _ => 0)) by (rewrite Lout; exact Hzz).
        rewrite combine_nth by (rewrite seq_length; auto); rewrite seq_nth by (rewrite Lm; exact Hzz); reflexivity. }
      exists (shade_or g (nth z maps (fun _ _ => 0))); rewrite (map_nth_error _ _ _ E); cbn [fst snd]; split; [reflexivity|].
      destruct (shade_layer g T z (nth z maps (fun _ _ => 0)) Hx Hy) as [H1 H2]; [|auto].
      intros x y Hxx Hyy; assert (Hin : in_grid g (x, y, z)) by (unfold in_grid; auto).
      rewrite (Hmaps x y z Hin); pose proof (flatten_lt g _ Hin) as Hfl; cbn [Nat.leb andb Nat.add].
      destruct (Nat.ltb_spec (flatten g (x, y, z)) (List.length T)); [|lia]; rewrite Nat.sub_0_r; reflexivity.
  Qed.
End Files.
Print Assumptions C170_results_and_files.

(** ** Cases *)
Definition half_heated : gmodel := mkGrid 2 1 1 1 1 [lay 1 [PGrid (fun _ x y => if (x =? 1)%nat then Some 6 else None)]; lay 1 []] []
  (Some (HTC 2)) None [] [].
Definition warm : static_settings := Build_static_settings 10 (1#10) true true.
Lemma half_heated_solvable : solvable_model half_heated /\ tables_only half_heated /\ constant_power half_heated.
Proof.
  split; [|split].
  - unfold solvable_model; do 2 (split; [simpl; lia|]); split; [discriminate|]; split; [|split; [|split; [reflexivity|]]].
    + split; [|split].
      * intros l q llx lly urx ury Hl Hp; destruct Hl as [<-|[<-|[]]]; [|destruct Hp]; destruct Hp as [H|[]]; discriminate.
      * intros llx lly urx ury b [].
      * intros a b al [].
    + intros l llx lly urx ury q Hl Hp; destruct Hl as [<-|[<-|[]]]; [|destruct Hp]; destruct Hp as [H|[]]; discriminate.
    + split; [exists 2; left; reflexivity|].
      intros v [H|[H|(r & [[]|[]])]]; [injection H as <-; reflexivity|discriminate].
  - intros l p Hl Hp; destruct Hl as [<-|[<-|[]]]; [|destruct Hp]; destruct Hp as [<-|[]]; eauto.
  - intros l q Hl Hp t t' x y; destruct Hl as [<-|[<-|[]]]; [|destruct Hp]; destruct Hp as [H|[]]; injection H as <-; reflexivity.
Qed.

Example C168_example : exists T builds, grid_solve eliminate (1#1000) half_heated 10 warm 300 10 = Ok (Some (map (reported true) T), builds) /\
  (List.length builds <= 2)%nat /\ balance_of (1#1000) half_heated 300 (repeat 300 4) T.
Proof.
  destruct half_heated_solvable as (H1 & H2 & H3).
  destruct (C168_constant_power eliminate eliminate_exact (1#1000) half_heated 10 warm 300 10 eq_refl H1 H2 H3) as (T & builds & E & L & B & _).
  { simpl; tauto. }
  { vm_compute; discriminate. }
  { vm_compute; discriminate. }
  { vm_compute; discriminate. }
  exists T, builds; split; [exact E|split; [exact L|apply B; reflexivity]].
Qed.

(** the warm cells are those of the powered column, and the heat of 6 watts leaves through the two upper cells *)
Example C168_values : match grid_solve eliminate (1#1000) half_heated 10 warm 300 10 with
  | Ok (Some [a; b; c; d], builds) => List.length builds = 2%nat /\ a < c /\ c < d /\ d < b /\ 2 * (a - (300 - (27315#100))) + 2 * (b - (300 - (27315#100))) == 6
  | _ => False end.
Proof. vm_compute; repeat split. Qed.

Example C169_example : solvable_model block_model /\ some_block block_model /\ grid_solve eliminate (1#1000) block_model 10 warm 300 1 = Throw.
Proof.
  assert (H : solvable_model block_model).
  { unfold solvable_model; do 2 (split; [simpl; lia|]); split; [discriminate|]; split; [|split; [|split; [reflexivity|]]].
    - split; [|split].
      + intros l q llx lly urx ury Hl Hp; destruct Hl as [<-|[<-|[]]]; [|destruct Hp].
        destruct Hp as [H|[H|[]]]; [|discriminate]; injection H; intros; subst; unfold box_in_grid; simpl; lia.
      + intros llx lly urx ury b [].
      + intros a b al [].
    - intros l llx lly urx ury q Hl Hp; destruct Hl as [<-|[<-|[]]]; [|destruct Hp].
      destruct Hp as [H|[H|[]]]; [|discriminate]; injection H; intros; subst; lia.
    - split; [exists 5; left; reflexivity|].
      intros v [H|[H|(r & [[]|[]])]]; [injection H as <-; reflexivity|discriminate]. }
  assert (Hb : some_block block_model) by (do 6 eexists; split; [left; reflexivity|left; reflexivity]).
  split; [exact H|split; [exact Hb|apply C169_block_power_refuted; auto; [apply eliminate_exact|reflexivity]]].
Qed.

Definition asked : request := mkRequest "out" true true 10 warm 300.
Example C170_example : match grid_static (fun n => if (n =? 0)%nat then "0" else "1")%string eliminate (1#1000) half_heated asked [3; 0; 3]%nat 10 with
  | Ok (Some (mn, mx, [a; b; c]), [(n0, FText [d; e; f]); (n1, FPicture 2 1 s1); (n2, FPicture 2 1 s2)]) =>
      mn < mx /\ a = c /\ b < a /\ d = a /\ n0 = "out/static.txt"%string /\ n1 = "out/0.png"%string /\ n2 = "out/1.png"%string /\
      (exists v, s1 1%nat 0%nat = Some v /\ v == 1) /\ (exists v, s2 0%nat 0%nat = Some v /\ v == 0)
  | _ => False end.
Proof. vm_compute; repeat split; try reflexivity; eexists; split; reflexivity. Qed.
