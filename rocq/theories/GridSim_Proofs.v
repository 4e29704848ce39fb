(** Lemmas about the static simulation of grid models *)
From Verif Require Import Base QSum ThermalNetwork_Model ThermalNetwork_Spec ThermalNetwork_Proofs ThermalNetwork_Props Grid_Model Grid_Spec Grid_Proofs Grid_Props
  Steady_Spec Steady_Proofs SteadyGrid_Props Solver_Model Solver_Spec Solver_Proofs GridSim_Model GridSim_Spec.
From Coq Require Import Qabs Lqa.
Open Scope res_scope.
Open Scope Q_scope.

Lemma identity_entry n k : (k < n)%nat -> forall x, times n (entry (map (fun i => (i, i, 1)) (seq 0 n))) x k == x k.
Proof.
  intros Hk x; change (times n) with (mulv n); rewrite mulv_triplets.
  - transitivity (sumf (fun j => if (j =? k)%nat then x j else 0) (seq 0 n)); [|apply sumf_delta; auto].
    generalize (seq 0 n); induction l as [|a s IH]; cbn [map sumf]; [reflexivity|]; rewrite IH; destruct (a =? k)%nat; ring.
  - intros a b v Hin; apply in_map_iff in Hin as (i & [= <- <- _] & Hi); apply in_seq in Hi; lia.
Qed.

Lemma network_solve_spec lin t refT net m : solves_exactly lin -> In t solver_types -> make_mna net true [] = Ok m ->
  exactly_one net m refT ->
  exists xs, network_solve lin t refT net = Ok xs /\ List.length xs = List.length net /\
    equilibrium net m refT (fun i => nth i xs 0).
Proof.
  intros Hlin Ht Hm (T & HT & Huni).
  destruct (C29_sources_scatter_to_full_rhs net refT) as (rhs & Hr & _ & Hs).
  pose proof Hm as Hm'; apply make_mna_ok in Hm' as (Em & _ & _).
  unfold network_solve; rewrite Hm, Hr; cbn [bind].
  assert (E : existsb (Nat.eqb t) solver_types = true).
  { apply existsb_exists; exists t; split; [auto|apply Nat.eqb_refl]. }
  rewrite E; clear E; eexists; split; [reflexivity|]; split; [rewrite map_length, seq_length; reflexivity|].
  set (b := times (source_count true net) (entry (m_B m)) (fun s => nth s rhs 0)).
  assert (Hb : forall i, (i < List.length net)%nat -> b i == nth i (make_full_rhs net refT) 0).
  { intros i Hi; unfold b; rewrite Em; exact (Hs i Hi). }
  assert (Hx : steady (List.length net) (entry (m_G m)) b (lin (List.length net) (entry (m_G m)) b)).
  { apply Hlin; exists T; split.
    - intros i Hi; rewrite Hb by auto; exact (HT i Hi).
    - intros T' HT' i Hi; apply Huni; auto; intros j Hj; rewrite <- Hb by auto; exact (HT' j Hj). }
  intros i Hi; rewrite <- Hb, <- (Hx i Hi) by auto; unfold mulv; apply sumf_ext; intros j Hj.
  apply in_seq in Hj.
  rewrite nth_indep with (d' := times (List.length net) (entry (m_L m)) (lin (List.length net) (entry (m_G m)) b) 0%nat) by (rewrite map_length, seq_length; lia).
  rewrite map_nth, seq_nth by lia; cbn [Nat.add].
  rewrite Em; cbn [m_L tL]; rewrite identity_entry by lia; reflexivity.
Qed.

(** ** The number of nodes *)
Lemma appended_tables g T z ps : (forall p, In p ps -> exists q, p = PGrid q) -> forall node os n,
  layer_power_ops g T z node ps = (os, n) -> n = node /\ appended os = 0%nat.
Proof.
  induction ps as [|p ps IH]; intros H node os n; cbn [layer_power_ops]; [intros [= <- <-]; auto|].
  destruct (H p (or_introl eq_refl)) as [q ->].
  destruct (layer_power_ops g T z node ps) as [os' n'] eqn:E; intros E'.
  pose proof (f_equal fst E') as E1; pose proof (f_equal snd E') as E2; cbn [fst snd] in E1, E2; subst os n.
  destruct (IH ltac:(intros; apply H; now right) _ _ _ E) as [-> A]; split; [auto|].
  rewrite appended_app, A, Nat.add_0_r; apply (not_appended (fun o => exists i v, o = SetHF i v)).
  - intros o Ho; unfold grid_power_ops in Ho; apply in_flat_map in Ho as (x & _ & Ho); apply in_flat_map in Ho as (y & _ & Ho).
    cbv zeta in Ho; destruct (q _ x y); cbn [opt_list In] in Ho; [destruct Ho as [<-|[]]; eauto|tauto].
  - intros o (i & v & ->); exact I.
Qed.

Lemma tables_no_nodes g T ls : (forall l p, In l ls -> In p (l_power l) -> exists q, p = PGrid q) -> forall z node,
  appended (power_ops g T z node ls) = 0%nat.
Proof.
  induction ls as [|l ls IH]; intros H z node; cbn [power_ops]; [reflexivity|].
  destruct (layer_power_ops g T z node (l_power l)) as [os n] eqn:E.
  destruct (appended_tables g T z (l_power l) ltac:(intros; eapply H; [now left|auto]) _ _ _ E) as [-> A].
  rewrite appended_app, A; apply IH; intros; eapply H; [right; eauto|auto].
Qed.

Lemma block_node g T z ps llx lly urx ury q : In (PBlock llx lly urx ury q) ps -> forall node os n,
  layer_power_ops g T z node ps = (os, n) -> (0 < appended os)%nat.
Proof.
  induction ps as [|p ps IH]; [intros []|]; intros Hin node os n; cbn [layer_power_ops].
  destruct p as [f|a b c d tot].
  - destruct (layer_power_ops g T z node ps) as [os' n'] eqn:E; intros E'; pose proof (f_equal fst E') as E1; cbn [fst] in E1; subst os.
    destruct Hin as [Hin|Hin]; [discriminate|]; pose proof (IH Hin _ _ _ E); rewrite appended_app; lia.
  - destruct (layer_power_ops g T z (Datatypes.S node) ps) as [os' n'] eqn:E; intros E'; pose proof (f_equal fst E') as E1; cbn [fst] in E1; subst os.
    rewrite appended_app; unfold appended at 1; cbn [filter List.length]; lia.
Qed.

Lemma blocks_add_nodes g T ls : (exists l llx lly urx ury q, In l ls /\ In (PBlock llx lly urx ury q) (l_power l)) -> forall z node,
  (0 < appended (power_ops g T z node ls))%nat.
Proof.
  intros (l & llx & lly & urx & ury & q & Hl & Hq); induction ls as [|l' ls IH]; [destruct Hl|]; intros z node; cbn [power_ops].
  destruct (layer_power_ops g T z node (l_power l')) as [os n] eqn:E; rewrite appended_app.
  destruct Hl as [->|Hl]; [pose proof (block_node _ _ _ _ _ _ _ _ _ Hq _ _ _ E); lia|].
  specialize (IH Hl (Datatypes.S z) n); lia.
Qed.

Lemma build_size minR g T net : build minR g T = Ok (Some net) ->
  List.length net = (total_grids g + appended (power_ops g (fun i => nth i T 0%Q) 0 (total_grids g) (g_layers g)))%nat.
Proof.
  unfold build; destruct (_ =? _)%nat; [|discriminate].
  destruct (run minR (net_new (total_grids g)) (build_ops g (fun i => nth i T 0))) as [l| | |] eqn:Hrun; cbn [rmap bind]; try discriminate.
  intros [= <-]; rewrite (run_appended _ _ _ _ Hrun), build_appended; unfold net_new; rewrite repeat_length; reflexivity.
Qed.

(** ** Powers that do not depend on the temperature *)
Lemma constant_layer g T T' z ps : (forall q, In (PGrid q) ps -> forall t t' x y, q t x y = q t' x y) -> forall node,
  layer_power_ops g T z node ps = layer_power_ops g T' z node ps.
Proof.
  induction ps as [|p ps IH]; intros H node; cbn [layer_power_ops]; [reflexivity|]; destruct p as [q|a b c d tot].
  - rewrite IH by (intros; apply H; now right); destruct (layer_power_ops g T' z node ps) as [os n]; f_equal; f_equal.
    unfold grid_power_ops; apply flat_map_ext; intros x; apply flat_map_ext; intros y; cbv zeta.
    rewrite (H q (or_introl eq_refl) (T (flatten g (x, y, z))) (T' (flatten g (x, y, z))) x y); reflexivity.
  - rewrite IH by (intros; apply H; now right); reflexivity.
Qed.
Lemma constant_power_ops g T T' ls : (forall l q, In l ls -> In (PGrid q) (l_power l) -> forall t t' x y, q t x y = q t' x y) ->
  forall z node, power_ops g T z node ls = power_ops g T' z node ls.
Proof.
  induction ls as [|l ls IH]; intros H z node; cbn [power_ops]; [reflexivity|].
  rewrite (constant_layer g T T' z (l_power l)) by (intros q Hq; exact (H l q (or_introl eq_refl) Hq)).
  destruct (layer_power_ops g T' z node (l_power l)) as [os n]; f_equal; apply IH; intros l' q' Hl'; apply H; now right.
Qed.
Lemma constant_build minR g T T' : constant_power g -> List.length T = total_grids g -> List.length T' = total_grids g ->
  build minR g T = build minR g T'.
Proof.
  intros H H1 H2; unfold build; rewrite H1, H2, Nat.eqb_refl; unfold build_ops.
  rewrite (constant_power_ops g (fun i => nth i T 0) (fun i => nth i T' 0)) by exact H; reflexivity.
Qed.

(** ** The loop *)
Section Loop.
  Context (lin : nat -> (nat -> nat -> Q) -> (nat -> Q) -> nat -> Q) (minR : Q) (g : gmodel) (t : nat) (envT : Q).

  Definition one_step (y : list Q) : res (option (list Q)) :=
    o <- build minR g y ;; match o with None => Ok None | Some net => rmap Some (network_solve lin t envT net) end.
  Definition step_or_none (y : list Q) : option (list Q) := match one_step y with Ok r => r | _ => None end.

  Lemma grid_loop_static st (Hok : forall y, List.length y = total_grids g -> exists z, one_step y = Ok (Some z) /\ List.length z = total_grids g) :
    forall fuel k y, List.length y = total_grids g ->
    grid_loop lin minR g t st envT fuel k y = static_loop step_or_none st fuel k y.
  Proof.
    induction fuel as [|fuel IH]; intros k y Hy; cbn [grid_loop static_loop]; [reflexivity|].
    destruct (Hok y Hy) as (z & Hz & Lz); unfold step_or_none at 1; rewrite Hz; unfold one_step in Hz.
    destruct (build minR g y) as [[net|]| | |]; cbn [bind] in *; try discriminate.
    destruct (network_solve lin t envT net) as [x| | |]; cbn [rmap bind] in *; try discriminate; injection Hz as ->.
    destruct (residual_of (maximum_res st) z y) as [r| | |]; cbn [bind]; auto.
    destruct (Qltb (residual st) r); auto; destruct (0 <? dec64 k)%N; auto; rewrite IH by auto; reflexivity.
  Qed.

  Lemma one_step_ok : solves_exactly lin -> In t solver_types -> 0 < minR -> solvable_model g -> tables_only g ->
    forall y, List.length y = total_grids g -> exists z, one_step y = Ok (Some z) /\ balance_of minR g envT y z.
  Proof.
    intros Hlin Ht HminR (H1 & H2 & H3 & H4 & H5 & H6 & H7) Htab y Hy.
    destruct (C167_exactly_one minR g y envT true HminR H1 H2 H3 H4 H5 H6 H7 Hy) as (net & m & Hb & Hm & _ & Hone).
    destruct (network_solve_spec lin t envT net m Hlin Ht Hm Hone) as (xs & Hx & Lx & Ex).
    exists xs; unfold one_step; rewrite Hb; cbn [bind]; rewrite Hx; split; [reflexivity|].
    pose proof (build_size _ _ _ _ Hb) as Hs; rewrite tables_no_nodes, Nat.add_0_r in Hs by exact Htab.
    split; [congruence|]; exists net, m; auto.
  Qed.
End Loop.

(** ** A solver that solves exactly: elimination with rational numbers *)
Section Exact.
  Context {A : Type}.
  Fixpoint split_pivot (v : A -> Q) (cols : list A) : option (list A * A * list A) :=
    match cols with
    | [] => None
    | a :: t => if Qeq_dec (v a) 0 then option_map (fun '(l1, p, l2) => (a :: l1, p, l2)) (split_pivot v t) else Some ([], a, t)
    end.
  Fixpoint null_vector (n : nat) (vec : A -> nat -> Q) (cols : list A) : list (Q * A) :=
    match n with
    | O => map (fun a => (1, a)) cols
    | Datatypes.S n' =>
        match split_pivot (fun a => vec a n') cols with
        | None => null_vector n' vec cols
        | Some (l1, p, l2) =>
            let l := null_vector n' (fun a i => Qred (vec a i - vec a n' / vec p n' * vec p i)) (l1 ++ l2) in
            firstn (List.length l1) l ++ (Qred (- sumf (fun e => fst e * vec (snd e) n') l / vec p n'), p) :: skipn (List.length l1) l
        end
    end.

  Lemma split_pivot_some v cols : forall l1 p l2, split_pivot v cols = Some (l1, p, l2) -> cols = l1 ++ p :: l2 /\ ~ v p == 0.
  Proof.
    induction cols as [|a t IH]; intros l1 p l2; cbn [split_pivot]; [discriminate|].
    destruct (Qeq_dec (v a) 0) as [E|E]; [|intros [= <- <- <-]; auto].
    destruct (split_pivot v t) as [[[x y] z]|]; cbn [option_map]; [|discriminate]; intros [= <- <- <-].
    destruct (IH x y z eq_refl) as [-> H]; auto.
  Qed.
  Lemma split_pivot_none v cols : split_pivot v cols = None -> forall a, In a cols -> v a == 0.
  Proof.
    induction cols as [|a t IH]; cbn [split_pivot]; [intros _ a []|].
    destruct (Qeq_dec (v a) 0) as [E|E]; [|discriminate].
    destruct (split_pivot v t) as [[[x y] z]|]; [discriminate|]; intros _ b [<-|Hb]; auto.
  Qed.

  Lemma null_vector_spec n : forall (vec : A -> nat -> Q) (cols : list A), (n < List.length cols)%nat ->
    map snd (null_vector n vec cols) = cols /\ (exists e, In e (null_vector n vec cols) /\ ~ fst e == 0) /\
    forall i, (i < n)%nat -> sumf (fun e => fst e * vec (snd e) i) (null_vector n vec cols) == 0.
  Proof.
    induction n as [|n IH]; intros vec cols Hlen; cbn [null_vector].
    { destruct cols as [|a cols]; [simpl in Hlen; lia|]; split; [rewrite map_map; apply map_id|].
      split; [exists (1, a); split; [now left|cbn [fst]; lra]|intros; lia]. }
    destruct (split_pivot (fun a => vec a n) cols) as [[[l1 p] l2]|] eqn:Hs.
    - apply split_pivot_some in Hs as [-> Hp]; cbv zeta.
      set (vec' := fun a i => Qred (vec a i - vec a n / vec p n * vec p i)).
      destruct (IH vec' (l1 ++ l2)) as (Hl & (e & He & Hne) & Hsum).
      { rewrite app_length in *; cbn [List.length] in Hlen; lia. }
      set (l := null_vector n vec' (l1 ++ l2)) in *; set (F := sumf (fun e => fst e * vec (snd e) n) l).
      set (la := firstn (List.length l1) l); set (lb := skipn (List.length l1) l).
      assert (Hab : l = la ++ lb) by (symmetry; apply firstn_skipn).
      assert (Ha : map snd la = l1) by (unfold la; rewrite <- firstn_map, Hl, firstn_app, firstn_all, Nat.sub_diag; cbn [firstn]; apply app_nil_r).
      assert (Hb : map snd lb = l2) by (unfold lb; rewrite <- skipn_map, Hl, skipn_app, skipn_all, Nat.sub_diag; reflexivity).
      split; [rewrite map_app; cbn [map snd]; rewrite Ha, Hb; reflexivity|].
      split.
      { exists e; split; auto; rewrite Hab in He; apply in_app_iff in He; apply in_app_iff; cbn [In]; tauto. }
      intros i Hi.
      assert (E : sumf (fun e => fst e * vec (snd e) i) (la ++ (Qred (- F / vec p n), p) :: lb) ==
                  sumf (fun e => fst e * vec (snd e) i) l - F / vec p n * vec p i).
      { rewrite Hab, !sumf_app; cbn [sumf fst snd]; rewrite Qred_correct; field; auto. }
      rewrite E; clear E.
      destruct (Nat.eq_dec i n) as [->|Hin].
      { fold F; field; auto. }
      specialize (Hsum i ltac:(lia)); unfold vec' in Hsum.
      rewrite (sumf_ext _ (fun e => fst e * vec (snd e) i + - (vec p i / vec p n * (fst e * vec (snd e) n)))) in Hsum
        by (intros; rewrite Qred_correct; field; auto).
      rewrite sumf_plus, sumf_opp, sumf_scal in Hsum; fold F in Hsum.
      assert (E : vec p i / vec p n * F == F / vec p n * vec p i) by (field; auto).
      lra.
    - destruct (IH vec cols ltac:(lia)) as (Hl & Hne & Hsum); split; [auto|split; [auto|]].
      intros i Hi; destruct (Nat.eq_dec i n) as [->|Hin]; [|apply Hsum; lia].
      apply sumf_zero; intros e He; rewrite (split_pivot_none _ _ Hs (snd e)); [ring|].
      rewrite <- Hl; apply in_map; auto.
  Qed.
End Exact.

Definition eliminate (n : nat) (M : nat -> nat -> Q) (b : nat -> Q) : nat -> Q :=
  let l := null_vector n (fun j i => if (j <? n)%nat then M i j else - b i) (seq 0 (Datatypes.S n)) in
  fun j => Qred (fst (nth j l (0, 0%nat)) / fst (nth n l (0, 0%nat))).

Lemma eliminate_exact : solves_exactly eliminate.
Proof.
  intros n M b (T & HT & Huni); unfold eliminate.
  destruct (null_vector_spec n (fun j i => if (j <? n)%nat then M i j else - b i) (seq 0 (Datatypes.S n))) as (Hl & (e & He & Hne) & Hs).
  { rewrite seq_length; lia. }
  set (l := null_vector _ _ _) in *; cbv zeta; set (c := fun j => fst (nth j l (0, 0%nat))).
  assert (Hinj : forall x, (forall i, (i < n)%nat -> mulv n M x i == 0) -> forall i, (i < n)%nat -> x i == 0).
  { intros x Hx i Hi; assert (E : T i + x i == T i); [|lra].
    apply (Huni (fun j => T j + x j)); [|exact Hi]; intros k Hk; rewrite mulv_plus, (Hx k Hk), (HT k Hk); ring. }
  assert (Hrow : forall i, (i < n)%nat -> mulv n M c i == c n * b i).
  { intros i Hi; specialize (Hs i Hi); rewrite (sumf_indexed _ _ l 0 Hl) in Hs.
    rewrite seq_S, sumf_app in Hs; cbn [sumf fst snd Nat.add] in Hs; rewrite Nat.sub_0_r, Nat.ltb_irrefl in Hs; fold (c n) in Hs.
    unfold mulv; rewrite (sumf_ext _ (fun j => c j * M i j)) by (intros; ring).
    rewrite (sumf_ext _ (fun j => c j * M i j)) in Hs; [lra|].
    intros j Hj; apply in_seq in Hj; rewrite Nat.sub_0_r; fold (c j); destruct (Nat.ltb_spec j n); [reflexivity|lia]. }
  destruct (Qeq_dec (c n) 0) as [E|E].
  - exfalso; apply Hne.
    destruct (In_nth l e (0, 0%nat) He) as (j & Hj & Ej).
    assert (Hlen : List.length l = Datatypes.S n) by (rewrite <- (map_length snd), Hl, seq_length; auto).
    rewrite <- Ej; fold (c j); destruct (Nat.eq_dec j n) as [->|Hjn]; [auto|].
    apply Hinj; [|lia]; intros i Hi; rewrite Hrow, E by auto; ring.
  - fold (c n); intros i Hi.
    assert (E2 : mulv n M (fun j => Qred (fst (nth j l (0, 0%nat)) / c n)) i == (1 / c n) * mulv n M c i).
    { unfold mulv; rewrite <- sumf_scal; apply sumf_ext; intros j _; rewrite Qred_correct; fold (c j); field; auto. }
    rewrite E2, Hrow by auto; field; auto.
Qed.

(** ** The maps *)
Lemma map_at_length k h maps : List.length (map_at k h maps) = List.length maps.
Proof. revert k; induction maps as [|f t IH]; intros [|k]; cbn [map_at List.length]; auto. Qed.
Lemma map_at_nth k h maps d z : (k < List.length maps)%nat -> nth z (map_at k h maps) d = if (z =? k)%nat then h (nth k maps d) else nth z maps d.
Proof.
  revert k z; induction maps as [|f t IH]; intros k z; cbn [List.length]; [lia|].
  destruct k as [|k], z as [|z]; cbn [map_at nth Nat.eqb]; auto; intros; apply IH; lia.
Qed.

Lemma put_all_spec g rs : forall i maps, List.length maps = g_nz g -> (i + List.length rs <= total_grids g)%nat ->
  exists maps', put_all g i rs maps = Ok maps' /\ List.length maps' = g_nz g /\
  forall x y z, in_grid g (x, y, z) -> nth z maps' (fun _ _ => 0) x y =
    if ((i <=? flatten g (x, y, z)) && (flatten g (x, y, z) <? i + List.length rs))%nat%bool
    then nth (flatten g (x, y, z) - i) rs 0 else nth z maps (fun _ _ => 0) x y.
Proof.
  induction rs as [|v rs IH]; intros i maps Lm Hi; cbn [put_all].
  { exists maps; split; [auto|split; [auto|]]; intros x y z _; cbn [List.length]; rewrite Nat.add_0_r.
    destruct (Nat.leb_spec i (flatten g (x, y, z))), (Nat.ltb_spec (flatten g (x, y, z)) i); cbn [andb]; try reflexivity; lia. }
  cbn [List.length] in Hi; destruct (flatten_unflatten g i ltac:(lia)) as [Hg E].
  destruct (unflatten g i) as [[x0 y0] z0] eqn:Eu.
  assert (Hz0 : (z0 < List.length maps)%nat) by (rewrite Lm; apply Hg).
  pose proof Hz0 as Hz1; apply Nat.ltb_lt in Hz1; rewrite Hz1; clear Hz1.
  destruct (IH (Datatypes.S i) (map_at z0 (put_cell (x0, y0) v) maps)) as (maps' & H1 & H2 & H3); [rewrite map_at_length; auto|lia|].
  exists maps'; split; [auto|split; [auto|]]; intros x y z Hin; rewrite (H3 x y z Hin); cbn [List.length].
  set (k := flatten g (x, y, z)) in *.
  destruct (Nat.leb_spec (Datatypes.S i) k) as [A|A], (Nat.ltb_spec k (Datatypes.S i + List.length rs)) as [B|B]; cbn [andb].
  - destruct (Nat.leb_spec i k), (Nat.ltb_spec k (i + Datatypes.S (List.length rs))); cbn [andb]; try lia.
    replace (k - i)%nat with (Datatypes.S (k - Datatypes.S i)) by lia; reflexivity.
  - destruct (Nat.leb_spec i k), (Nat.ltb_spec k (i + Datatypes.S (List.length rs))); cbn [andb]; try lia.
    rewrite map_at_nth by auto; destruct (Nat.eqb_spec z z0) as [->|]; [|reflexivity]; unfold put_cell; cbn [fst snd].
    destruct (Nat.eqb_spec x x0) as [->|], (Nat.eqb_spec y y0) as [->|]; cbn [andb]; try reflexivity; subst k; lia.
  - destruct (Nat.eq_dec k i) as [Ek|Ek].
    + rewrite Ek, Nat.leb_refl; destruct (Nat.ltb_spec i (i + Datatypes.S (List.length rs))); [|lia]; cbn [andb]; rewrite Nat.sub_diag; cbn [nth].
      assert (Ec : (x, y, z) = (x0, y0, z0)) by (apply (flatten_inj g); auto; unfold k in Ek; congruence).
      injection Ec as -> -> ->; rewrite map_at_nth, Nat.eqb_refl by auto; unfold put_cell; cbn [fst snd]; rewrite !Nat.eqb_refl; reflexivity.
    + destruct (Nat.leb_spec i k); [lia|]; cbn [andb].
      rewrite map_at_nth by auto; destruct (Nat.eqb_spec z z0) as [->|]; [|reflexivity]; unfold put_cell; cbn [fst snd].
      destruct (Nat.eqb_spec x x0) as [->|], (Nat.eqb_spec y y0) as [->|]; cbn [andb]; try reflexivity; subst k; lia.
  - lia.
Qed.

Lemma cells_in g f v : In v (cells g f) <-> exists x y, (x < g_nx g)%nat /\ (y < g_ny g)%nat /\ v = f x y.
Proof.
  unfold cells; rewrite in_flat_map; split.
  - intros (x & Hx & H); apply in_map_iff in H as (y & <- & Hy); apply in_seq in Hx, Hy; exists x, y; repeat split; lia.
  - intros (x & y & Hx & Hy & ->); exists x; split; [apply in_seq; lia|]; apply in_map_iff; exists y; split; [auto|apply in_seq; lia].
Qed.
