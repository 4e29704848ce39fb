(** Lemmas about the rates of the transient solver. *)
From Verif Require Import Base QSum ThermalNetwork_Model ThermalNetwork_Spec ThermalNetwork_Proofs ThermalNetwork_Props
  Grid_Model Steady_Spec Steady_Proofs Rates_Model Rates_Spec.

(** ** Numbers *)
Lemma f32_small n : (0 <= n <= 2 ^ 24)%Z -> f32 n = n.
Proof.
  intros H; unfold f32; destruct (Z.leb_spec (Z.log2 n - 23) 0) as [|E]; [reflexivity|].
  assert (E' : n = (2 ^ 24)%Z).
  { destruct (Z.eq_dec n (2 ^ 24)); [auto|].
    assert (n < 2 ^ 24)%Z by lia; destruct (Z.eq_dec n 0) as [->|]; [cbn in E; lia|].
    assert (Z.log2 n < 24)%Z by (apply Z.log2_lt_pow2; lia); lia. }
  subst n; reflexivity.
Qed.

(** ** Matrices *)
Lemma negG_places k l : map fst (tNegG_from k l) = map fst (tG_from k l).
Proof.
  revert k; induction l as [|n l IH]; intros k; cbn [tNegG_from tG_from]; [reflexivity|].
  rewrite !map_app, IH; f_equal; unfold tNegG_node, tG_node; rewrite !map_app; f_equal.
  - induction (n_ns n) as [|e ns IHn]; cbn [flat_map]; [reflexivity|]; rewrite !map_app, IHn; reflexivity.
  - destruct (negb _); reflexivity.
Qed.

Lemma in_bounds_places r c ts ts' : map fst ts = map fst ts' -> in_bounds r c ts = in_bounds r c ts'.
Proof.
  unfold in_bounds; revert ts'; induction ts as [|[[a b] v] ts IH]; intros [|[[a' b'] v'] ts']; cbn [map fst]; try discriminate; auto.
  intros [= -> -> E]; cbn [forallb]; rewrite (IH _ E); reflexivity.
Qed.

Definition inv_c (n : node) : Q := if Qltb 0 (n_c n) then 1 / n_c n else 0.

Lemma invC_low k l i j : (i < k)%nat -> entry (tInvC_from k l) i j == 0.
Proof.
  unfold entry; revert k; induction l as [|n l IH]; intros k Hk; cbn [tInvC_from]; [reflexivity|].
  rewrite sumf_app, IH by lia; destruct (Qltb _ _); simpl; [|lra]; destruct (Nat.eqb_spec k i); [lia|]; simpl; lra.
Qed.

Lemma invC_entry k l i j : (i < List.length l)%nat ->
  entry (tInvC_from k l) (k + i) j == if (j =? k + i)%nat then inv_c (nth i l node0) else 0.
Proof.
  revert k i; induction l as [|n l IH]; intros k i Hi; [simpl in Hi; lia|].
  cbn [tInvC_from]; unfold entry in *; rewrite sumf_app; destruct i as [|i].
  - rewrite Nat.add_0_r; cbn [nth].
    pose proof (invC_low (Datatypes.S k) l k j ltac:(lia)) as L; unfold entry in L; rewrite L.
    unfold inv_c; destruct (Qltb 0 (n_c n)); simpl.
    + rewrite Nat.eqb_refl, (Nat.eqb_sym k j); simpl; destruct (j =? k)%nat; lra.
    + destruct (j =? k)%nat; lra.
  - cbn [nth]; simpl in Hi; rewrite Nat.add_succ_r; specialize (IH (Datatypes.S k) i ltac:(lia)); cbn [Nat.add] in IH; rewrite IH.
    destruct (Qltb 0 (n_c n)); simpl; [|lra]; destruct (Nat.eqb_spec k (Datatypes.S (k + i))); [lia|]; simpl; lra.
Qed.

Lemma mmul_invC l B i j : (i < List.length l)%nat ->
  mmul (List.length l) (entry (tInvC_from 0 l)) B i j == inv_c (nth i l node0) * B i j.
Proof.
  intros Hi; unfold mmul.
  rewrite (sumf_ext _ (fun k => if (k =? i)%nat then inv_c (nth i l node0) * B k j else 0)).
  - now rewrite (sumf_delta (fun k => inv_c (nth i l node0) * B k j)).
  - intros k _; rewrite (invC_entry 0 l i k Hi); cbn [Nat.add]; destruct (k =? i)%nat; ring.
Qed.

(** ** Sources *)
Lemma proj_keys k s l : map fst (snd (proj_from k s l)) = seq s (List.length (snd (proj_from k s l))).
Proof.
  revert k s; induction l as [|n l IH]; intros k s; cbn [proj_from]; [reflexivity|].
  destruct (negb _); [|apply IH].
  specialize (IH (Datatypes.S k) (Datatypes.S s)); destruct (proj_from (Datatypes.S k) (Datatypes.S s) l) as [ts m]; cbn [snd map fst List.length seq] in *.
  rewrite IH; reflexivity.
Qed.

Lemma proj_in k s l a i : In (a, i) (snd (proj_from k s l)) -> (k <= i < k + List.length l)%nat /\ ~ n_hf (nth (i - k) l node0) == 0.
Proof.
  revert k s; induction l as [|n l IH]; intros k s; cbn [proj_from]; [intros []|].
  destruct (Qeqb (n_hf n) 0) eqn:E; cbn [negb].
  - intros H; destruct (IH _ _ H) as [H1 H2]; cbn [List.length]; split; [lia|].
    replace (i - k)%nat with (Datatypes.S (i - Datatypes.S k)) by lia; exact H2.
  - specialize (IH (Datatypes.S k) (Datatypes.S s)); destruct (proj_from (Datatypes.S k) (Datatypes.S s) l) as [ts m]; cbn [snd] in *.
    intros [[= <- <-]|H].
    + cbn [List.length]; rewrite Nat.sub_diag; cbn [nth]; split; [lia|]; intros Z.
      unfold Qeqb in E; apply Qeq_bool_iff in Z; congruence.
    + destruct (IH H) as [H1 H2]; cbn [List.length]; split; [lia|].
      replace (i - k)%nat with (Datatypes.S (i - Datatypes.S k)) by lia; exact H2.
Qed.

Lemma proj_all k s l i : (i < List.length l)%nat -> ~ n_hf (nth i l node0) == 0 -> exists a, In (a, (k + i)%nat) (snd (proj_from k s l)).
Proof.
  revert k s i; induction l as [|n l IH]; intros k s i Hi Hn; [simpl in Hi; lia|]; cbn [proj_from].
  destruct i as [|i].
  - cbn [nth] in Hn; destruct (Qeqb (n_hf n) 0) eqn:E; [exfalso; apply Hn; now apply Qeq_bool_iff|cbn [negb]].
    destruct (proj_from (Datatypes.S k) (Datatypes.S s) l); exists s; left; f_equal; lia.
  - cbn [nth] in Hn; simpl in Hi; rewrite Nat.add_succ_r; destruct (negb _).
    + destruct (IH (Datatypes.S k) (Datatypes.S s) i ltac:(lia) Hn) as [a Ha].
      destruct (proj_from (Datatypes.S k) (Datatypes.S s) l); exists a; right; exact Ha.
    + exact (IH (Datatypes.S k) s i ltac:(lia) Hn).
Qed.

Lemma source_found l s : (s < List.length (snd (make_source_proj l)))%nat -> exists i,
  alookup Nat.eqb s (snd (make_source_proj l)) = Some i /\ (i < List.length l)%nat /\ ~ get_hf l i == 0.
Proof.
  unfold make_source_proj; intros Hs; pose proof (proj_keys 0 0 l) as K.
  assert (Hin : In s (map fst (snd (proj_from 0 0 l)))) by (rewrite K; apply in_seq; lia).
  apply in_map_iff in Hin as ((a & i) & E & Hin); cbn [fst] in E; subst a.
  destruct (proj_in _ _ _ _ _ Hin) as [H1 H2]; rewrite Nat.sub_0_r in H2; exists i; repeat split; [|lia|exact H2].
  apply in_alookup; [apply Nat.eqb_spec| |exact Hin].
  unfold akeys; rewrite K; apply seq_NoDup.
Qed.

Lemma source_of l i : (i < List.length l)%nat -> ~ get_hf l i == 0 -> exists s,
  (s < List.length (snd (make_source_proj l)))%nat /\ alookup Nat.eqb s (snd (make_source_proj l)) = Some i.
Proof.
  intros Hi Hn; destruct (proj_all 0 0 l i Hi Hn) as [a Ha]; exists a; unfold make_source_proj; pose proof (proj_keys 0 0 l) as K; split.
  - assert (H : In a (map fst (snd (proj_from 0 0 l)))) by (apply in_map_iff; exists (a, i); auto).
    rewrite K in H; apply in_seq in H; lia.
  - apply in_alookup; [apply Nat.eqb_spec| |exact Ha]; unfold akeys; rewrite K; apply seq_NoDup.
Qed.

(** the factor the solver applies to the heat of a node with scenario [o] *)
Definition applied (e : option (Q -> Z -> Q)) (t : Q) (o : option nat) : Q :=
  match e with Some f => f t (f32 (scen_id o)) | None => 1 end.
Definition convertible (e : option (Q -> Z -> Q)) (l : network) : Prop :=
  e = None \/ forall i, (i < List.length l)%nat -> ~ get_hf l i == 0 -> (f32 (scen_id (get_scen l i)) < 2 ^ 64)%Z.

Lemma source_heat_ok l e t : convertible e l -> let m := snd (make_source_proj l) in
  forall ss, (forall s, In s ss -> (s < List.length m)%nat) ->
  source_heat l m e t ss = Ok (map (fun s => n_hf (source_node l m s) * applied e t (n_scen (source_node l m s))) ss).
Proof.
  intros Hc m; induction ss as [|s ss IH]; intros Hs; cbn [source_heat map]; [reflexivity|].
  assert (E : excite e t (f32 (scen_id (n_scen (source_node l m s)))) = Ok (applied e t (n_scen (source_node l m s)))).
  { unfold excite, applied; destruct e as [f|]; [|reflexivity]; destruct Hc as [Hc|Hc]; [discriminate|].
    destruct (source_found l s (Hs s (or_introl eq_refl))) as (i & Ei & Hi & Hn).
    unfold source_node; fold m in Ei; rewrite Ei; specialize (Hc i Hi Hn); unfold get_scen in Hc.
    apply Z.ltb_lt in Hc; rewrite Hc; reflexivity. }
  rewrite E; cbn [bind]; rewrite IH by (intros; apply Hs; now right); reflexivity.
Qed.

Lemma nth_map_seq {A} (f : nat -> A) d n s : (s < n)%nat -> nth s (map f (seq 0 n)) d = f s.
Proof.
  intros H; rewrite (nth_indep _ d (f 0%nat)) by (rewrite map_length, seq_length; auto).
  rewrite map_nth, seq_nth by auto; reflexivity.
Qed.

Lemma projected l i (exc : option nat -> Q) : (i < List.length l)%nat ->
  let m := snd (make_source_proj l) in
  sumf (fun s => entry (fst (make_source_proj l)) i s * (n_hf (source_node l m s) * exc (n_scen (source_node l m s)))) (seq 0 (List.length m))
  == get_hf l i * exc (get_scen l i).
Proof.
  intros Hi m.
  pose proof (C29_transient_inputs_agree l 0 exc i Hi) as A; pose proof (source_found l) as F; unfold m in *.
  destruct (make_source_proj l) as [P mm] eqn:EP; cbn [fst snd] in *.
  rewrite tB_mulv in A by auto; rewrite (scatter true 0 exc 0 0 l i) in A by (auto; intros; reflexivity).
  unfold make_bonds_rhs in A; rewrite (bonds_entry 0 l i 0 Hi) in A; unfold mulv in A.
  rewrite (sumf_ext _ (fun s => entry P i s * (source_hf l mm s * exc (source_scen l mm s)))).
  - unfold get_hf, get_scen; destruct (selected true (nth i l node0)) eqn:E; [lra|].
    apply selected_false in E as [E _]; rewrite E in *; lra.
  - intros s Hs; apply in_seq in Hs; destruct (F s ltac:(lia)) as (j & Ej & Hj & _).
    unfold source_node, source_hf, source_scen; rewrite Ej, (nth_error_nth' l node0 Hj); reflexivity.
Qed.

(** ** The rates *)
Lemma rates_ok l refT e t x : in_bounds (List.length l) (List.length l) (tG_from 0 l) = true -> convertible e l ->
  exists v, rates l refT e t x = Ok v /\ forall i, (i < List.length l)%nat ->
    v i == inv_c (nth i l node0) *
           (- mulv (List.length l) (entry (tG_from 0 l)) x i + get_htc l i * refT + get_hf l i * applied e t (get_scen l i)).
Proof.
  intros Hb Hc; unfold rates.
  rewrite (in_bounds_places _ _ _ _ (negG_places 0 l)), Hb; cbn [negb].
  pose proof (source_heat_ok l e t Hc) as HS; pose proof (projected l) as HP; cbv zeta in HS, HP.
  destruct (make_source_proj l) as [P m]; cbn [fst snd] in *.
  rewrite HS by (intros s Hs; apply in_seq in Hs; lia); cbn [bind]; eexists; split; [reflexivity|].
  intros i Hi; cbv beta.
  rewrite (sumf_ext _ (fun j => inv_c (nth i l node0) * (- (entry (tG_from 0 l) i j * x j)))).
  2:{ intros j _; rewrite mmul_invC by auto.
      rewrite (proj1 (C27_transient_matrices l i j Hi)); ring. }
  rewrite sumf_scal, sumf_opp, mmul_invC by auto; unfold make_bonds_rhs; rewrite (bonds_entry 0 l i refT Hi).
  rewrite (sumf_ext (fun s => mmul _ _ _ i s * _) (fun s => inv_c (nth i l node0) * (entry P i s * (n_hf (source_node l m s) * applied e t (n_scen (source_node l m s)))))).
  2:{ intros s Hs; apply in_seq in Hs; rewrite mmul_invC, nth_map_seq by (auto; lia); ring. }
  rewrite sumf_scal, (HP i (applied e t) Hi); unfold mulv, get_htc; ring.
Qed.

Lemma source_heat_ub l m f t ss s : In s ss -> (2 ^ 64 <= f32 (scen_id (n_scen (source_node l m s))))%Z ->
  source_heat l m (Some f) t ss = UB.
Proof.
  intros Hin Hs; induction ss as [|a ss IH]; [destruct Hin|]; cbn [source_heat excite].
  destruct (Z.ltb_spec (f32 (scen_id (n_scen (source_node l m a)))) (2 ^ 64)) as [Ha|Ha]; cbn [bind]; [|reflexivity].
  destruct Hin as [->|Hin]; [lia|]; rewrite (IH Hin); reflexivity.
Qed.

Lemma rates_ub l refT f t x i : (i < List.length l)%nat -> ~ get_hf l i == 0 -> (2 ^ 64 <= f32 (scen_id (get_scen l i)))%Z ->
  rates l refT (Some f) t x = UB.
Proof.
  intros Hi Hn Hs; unfold rates; destruct (negb _); [reflexivity|].
  destruct (source_of l i Hi Hn) as (s & Hlt & Es); destruct (make_source_proj l) as [P m]; cbn [snd] in *.
  rewrite (source_heat_ub l m f t _ s); [reflexivity|apply in_seq; lia|].
  unfold source_node; rewrite Es; exact Hs.
Qed.

(** ** Scenarios of a history *)
Definition sets_scenario (o : op) : bool := match o with SetScenario _ _ => true | _ => false end.
Definition no_scen (l : network) : Prop := forall n, In n l -> n_scen n = None.

Lemma upd_scen i f l : (forall n, n_scen (f n) = n_scen n) -> no_scen l -> no_scen (upd i f l).
Proof.
  intros Hf; revert i; induction l as [|n l IH]; intros i H; [destruct i; exact H|].
  destruct i as [|i]; cbn [upd]; intros x [<-|Hx].
  - rewrite Hf; apply H; now left.
  - apply H; now right.
  - apply H; now left.
  - revert x Hx; apply IH; intros x Hx; apply H; now right.
Qed.

Lemma step_scen minR l o l' : sets_scenario o = false -> step minR l o = Ok l' -> no_scen l -> no_scen l'.
Proof.
  intros Ho Hs Hl; destruct o; try discriminate Ho; cbn [step] in Hs;
    try (apply at_node_ok in Hs as [-> _]; apply upd_scen; auto; reflexivity).
  - injection Hs as <-; intros n Hn; apply in_app_iff in Hn as [Hn|[<-|[]]]; [auto|reflexivity].
  - unfold set_r in Hs; destruct (b <? a)%nat; apply at_node_ok in Hs as [-> _]; apply upd_scen; auto; reflexivity.
Qed.

Lemma run_scen minR os : forall l l', existsb sets_scenario os = false -> run minR l os = Ok l' -> no_scen l -> no_scen l'.
Proof.
  induction os as [|o os IH]; intros l l' Ho Hr Hl; cbn [run] in Hr; [injection Hr as <-; auto|].
  cbn [existsb] in Ho; apply orb_false_iff in Ho as [H1 H2].
  destruct (step minR l o) as [l1| | |] eqn:E; cbn [bind] in Hr; try discriminate.
  eapply IH; eauto; eapply step_scen; eauto.
Qed.

Lemma existsb_flat {A B} (f : B -> bool) (g : A -> list B) l : (forall a, In a l -> existsb f (g a) = false) -> existsb f (flat_map g l) = false.
Proof.
  induction l as [|a l IH]; intros H; cbn [flat_map]; [reflexivity|].
  rewrite existsb_app, H by (now left); apply IH; intros; apply H; now right.
Qed.
Lemma existsb_map_false {A B} (f : B -> bool) (g : A -> B) l : (forall a, f (g a) = false) -> existsb f (map g l) = false.
Proof. intros H; induction l as [|a l IH]; cbn [map existsb]; [reflexivity|]; rewrite H, IH; reflexivity. Qed.

Lemma bc_no_scen g b i : existsb sets_scenario (bc_op g b i) = false.
Proof. destruct b; reflexivity. Qed.

Lemma layer_no_scen g T z ps : forall node, existsb sets_scenario (fst (layer_power_ops g T z node ps)) = false.
Proof.
  induction ps as [|p ps IH]; intros node; cbn [layer_power_ops]; [reflexivity|]; destruct p as [q|llx lly urx ury total].
  - specialize (IH node); destruct (layer_power_ops g T z node ps) as [os n]; cbn [fst] in *.
    rewrite existsb_app, IH, orb_false_r; unfold grid_power_ops.
    apply existsb_flat; intros x _; apply existsb_flat; intros y _; destruct (q _ _ _); reflexivity.
  - specialize (IH (Datatypes.S node)); destruct (layer_power_ops g T z (Datatypes.S node) ps) as [os n]; cbn [fst] in *.
    rewrite !existsb_app, IH, orb_false_r; cbn [existsb sets_scenario orb].
    apply existsb_flat; intros x _; apply existsb_map_false; reflexivity.
Qed.

Lemma power_no_scen g T ls : forall z node, existsb sets_scenario (power_ops g T z node ls) = false.
Proof.
  induction ls as [|l ls IH]; intros z node; cbn [power_ops]; [reflexivity|].
  pose proof (layer_no_scen g T z (l_power l) node) as H; destruct (layer_power_ops g T z node (l_power l)) as [os n]; cbn [fst] in H.
  rewrite existsb_app, H, IH; reflexivity.
Qed.

Lemma build_no_scen g T : existsb sets_scenario (build_ops g T) = false.
Proof.
  unfold build_ops; rewrite !existsb_app, power_no_scen.
  assert (U : forall b z, existsb sets_scenario (uniform_bc_ops g b z) = false).
  { intros [b|] z; [|reflexivity]; apply existsb_flat; intros x _; apply existsb_flat; intros y _; apply bc_no_scen. }
  assert (B : forall bs z, existsb sets_scenario (block_bc_ops g bs z) = false).
  { intros bs z; apply existsb_flat; intros [[[llx lly] [urx ury]] b] _; apply existsb_flat; intros x _; apply existsb_flat; intros y _; apply bc_no_scen. }
  rewrite !U, !B.
  assert (C : existsb sets_scenario (flat_map (cell_ops g) (seq 0 (total_grids g))) = false).
  { apply existsb_flat; intros i _; unfold cell_ops; cbn [existsb sets_scenario orb]; rewrite !existsb_app.
    destruct (neighbor g _ Right), (neighbor g _ End_), (neighbor g _ Bot); reflexivity. }
  assert (J : existsb sets_scenario (jump_ops g) = false).
  { apply existsb_flat; intros [[a b] alpha] _; cbv zeta; destruct (flatten g a =? flatten g b)%nat; reflexivity. }
  rewrite C, J; reflexivity.
Qed.

Lemma grid_no_scen minR g T l : build minR g T = Ok (Some l) -> no_scen l.
Proof.
  unfold build; destruct (_ =? _)%nat; [|discriminate].
  destruct (run minR (net_new (total_grids g)) (build_ops g (fun i => nth i T 0))) as [l'| | |] eqn:Hr; cbn [rmap bind]; try discriminate.
  intros [= <-]; eapply run_scen; [apply build_no_scen|exact Hr|].
  unfold net_new; intros n Hn; apply repeat_spec in Hn; subst n; reflexivity.
Qed.
