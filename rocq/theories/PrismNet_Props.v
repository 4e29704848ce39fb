(** C52, C53, C72, C73: thermal networks of prism models. *)
From Verif Require Import Base QSum ThermalNetwork_Model ThermalNetwork_Spec ThermalNetwork_Proofs
  PrismNet_Model PrismNet_Spec PrismNet_Proofs.
From Coq Require Import Lqa.
Open Scope nat_scope.
Open Scope res_scope.

(** ** C53: parallel building *)

(** For any number of prisms and threads the submitted ranges, one after the other, are exactly the
    prisms 0 .. size-1: every prism is in one and only one task. *)
Theorem C53_every_prism_once : forall size blocks, 0 < blocks ->
  flat_map (fun be => seq (fst be) (snd be - fst be)) (tasks size blocks) = seq 0 size.
Proof. exact tasks_cover. Qed.
Print Assumptions C53_every_prism_once.

Example C53_tasks_example :
  tasks 10 4 = [(0, 2); (2, 4); (4, 6); (6, 8); (8, 10)] /\ tasks 3 4 = [(0, 3)] /\ tasks 8 4 = [(0, 2); (2, 4); (4, 6); (6, 8)] /\ tasks 0 4 = [].
Proof. repeat split. Qed.

(** Whatever the number of threads and however the tasks are interleaved, the network is the one of
    the sequential build. *)
Theorem C53_same_network : forall minR power cap kxy kz height harea side_area dist2edge dist topBC botBC prisms
    size blocks w net,
  let ops i := prism_ops power cap kxy kz height harea side_area dist2edge dist topBC botBC i (prisms i) in
  0 < blocks -> interleaving (map (range_ops ops) (tasks size blocks)) w ->
  run minR net w = run minR net (flat_map ops (seq 0 size)).
Proof.
  intros until net. intros ops Hb I. rewrite (parallel_run minR ops) with (size := size) (blocks := blocks); auto.
  - unfold range_ops. cbn [fst snd]. now rewrite Nat.sub_0_r.
  - intros i o. apply prism_owned.
Qed.
Print Assumptions C53_same_network.

(** The same for stack-up prism models. *)
Theorem C53_same_stack_network : forall minR power cap kxy kz height harea side_area dist2edge dist topBC botBC prisms ops
    size blocks w net,
  (forall i, stack_prism_ops power cap kxy kz height harea side_area dist2edge dist topBC botBC i (prisms i) = Ok (ops i)) ->
  0 < blocks -> interleaving (map (range_ops ops) (tasks size blocks)) w ->
  run minR net w = run minR net (flat_map ops (seq 0 size)).
Proof.
  intros until net. intros HO Hb I. rewrite (parallel_run minR ops) with (size := size) (blocks := blocks); auto.
  - unfold range_ops. cbn [fst snd]. now rewrite Nat.sub_0_r.
  - intros i o. eapply stack_prism_owned. apply HO.
Qed.
Print Assumptions C53_same_stack_network.

(** An interleaving that starts with the second task. *)
Example C53_interleaving_example :
  interleaving (map (range_ops (fun i => [SetC i 1; SetHF i 2])) (tasks 2 2)) [SetC 1 1; SetC 0 1; SetHF 0 2; SetHF 1 2]%Q.
Proof.
  change (map (range_ops (fun i => [SetC i 1; SetHF i 2])) (tasks 2 2))%Q with
    ([[SetC 0 1; SetHF 0 2]] ++ (SetC 1 1 :: [SetHF 1 2]) :: [])%Q.
  apply il_step. change ([[SetC 0 1; SetHF 0 2]] ++ [[SetHF 1 2]])%Q with ([] ++ (SetC 0 1 :: [SetHF 0 2]) :: [[SetHF 1 2]])%Q.
  apply il_step. apply (il_step [] (SetHF 0 2) [] [[SetHF 1 2]])%Q.
  change ([] ++ [] :: [[SetHF 1 2]])%Q with ([[]] ++ (SetHF 1 2 :: []) :: [])%Q. apply il_step.
  apply il_done. intros t [<-|[<-|[]]]; reflexivity.
Qed.

(** The reported total heat is not: two tasks adding to the shared member can lose an addition.  (In
    C++ the unsynchronised access is a data race.) *)
Theorem C53_summary_refuted : exists p q w, interleaving [add_sops 0 [p]; add_sops 1 [q]] w /\
  ~ (fst (srun (0, fun _ => 0) w) == p + q)%Q.
Proof.
  exists 1%Q, 2%Q, [SRead 0; SRead 1; SWrite 0 1; SWrite 1 2]%Q. split; [|vm_compute; discriminate].
  change [add_sops 0 [1%Q]; add_sops 1 [2%Q]] with ([] ++ (SRead 0 :: [SWrite 0 1%Q]) :: [[SRead 1; SWrite 1 2%Q]]).
  apply il_step. change ([] ++ [SWrite 0 1%Q] :: [[SRead 1; SWrite 1 2%Q]]) with ([[SWrite 0 1%Q]] ++ (SRead 1 :: [SWrite 1 2%Q]) :: []).
  apply il_step. apply (il_step [] (SWrite 0 1%Q) [] [[SWrite 1 2%Q]]).
  apply (il_step [[]] (SWrite 1 2%Q) [] []). apply il_done. intros t [<-|[<-|[]]]; reflexivity.
Qed.
Print Assumptions C53_summary_refuted.

(** ** C52: contacts of stack-up prisms *)

(** A prism inside the stack that touches nothing above it still carries the top neighbour marker
    (and likewise for the bottom). *)
Theorem C52_marker_refuted : exists inter area i above below side,
  let p := build_contacts inter area false false i above below side in
  p_ctop p = [] /\ p_cbot p = [] /\ p_top p = Some i /\ p_bot p = Some i.
Proof. exists (fun _ _ => 0%Q), (fun _ => 1%Q), 3, [1; 2], [5], []. repeat split. Qed.
Print Assumptions C52_marker_refuted.

(** Contacts are exactly the prisms of the adjacent layer that share area, with the shared part of
    this prism's area. *)
Theorem C52_contacts : forall inter area i found j r,
  In (j, r) (contacts inter area i found) <-> In j found /\ (0 < inter i j)%Q /\ r = (inter i j / area i)%Q.
Proof.
  intros. unfold contacts. rewrite in_flat_map. split.
  - intros (k & Hk & H). destruct (Qltb 0 (inter i k)) eqn:E; [|contradiction]. destruct H as [H|[]].
    injection H as <- <-. apply Qltb_iff in E. auto.
  - intros (Hj & Hp & ->). exists j. split; [assumption|]. rewrite (proj2 (Qltb_iff _ _) Hp). now left.
Qed.
Print Assumptions C52_contacts.

(** What matters to the user holds in spite of the marker: with a top heat transfer coefficient v, a
    prism below the first layer exchanges v over the part of its area that is not covered, so over all
    of it when there is no contact, and a fully covered prism exchanges nothing.  Missing for the full
    claim: the marker itself (previous theorem). *)
Theorem C52_exchange_partial : forall minR power cap kxy kz height harea side_area dist2edge dist v
    inter area is_bot i above below side net,
  i < List.length net -> nth_error net i = Some node0 ->
  let p := build_contacts inter area false is_bot i above below side in
  let free := (1 - sumf snd (contacts inter area i above))%Q in
  exists os net' n, stack_prism_ops power cap kxy kz height harea side_area dist2edge dist (Some (HTC v)) None i p = Ok os /\
    run minR net os = Ok net' /\ nth_error net' i = Some n /\
    (n_htc n == if Qltb 0 free then v * (harea i * free) else 0)%Q /\ (n_hf n == power_value (power i))%Q.
Proof.
  intros until net. intros L N0 p free.
  assert (HP : p_top p = Some i) by reflexivity.
  assert (HC : p_ctop p = contacts inter area i above) by reflexivity.
  assert (HB : exists b, stack_bot_ops kz height harea None i p = Ok b /\ htc_only minR b).
  { unfold stack_bot_ops. destruct (p_bot p) as [m|] eqn:E.
    - assert (m = i) by (unfold p, build_contacts, contact_marker in E; simpl in E; destruct is_bot; simpl in E; congruence).
      subst m. rewrite Nat.eqb_refl. eexists. split; [reflexivity|]. unfold covered_ops.
      intros o n Ho. rewrite in_app_iff in Ho. destruct Ho as [Ho|Ho]; [now apply (contact_neutral kz height harea minR i (p_cbot p))|].
      destruct (Qltb 0 _); contradiction.
    - eexists. split; [reflexivity|]. intros o n []. }
  destruct HB as (b & EB & NB).
  assert (EO : stack_prism_ops power cap kxy kz height harea side_area dist2edge dist (Some (HTC v)) None i p =
     Ok (power_ops power i ++ [SetC i (cap i)] ++ side_ops kxy side_area dist2edge dist i 0 (p_side p) ++
         covered_ops kz height harea i (p_ctop p) (Some (HTC v)) ++ b)).
  { unfold stack_prism_ops, stack_top_ops. rewrite HP, Nat.eqb_refl. cbn [bind]. rewrite EB. reflexivity. }
  eexists. eexists. eexists. split; [exact EO|]. split; [|split].
  - apply (run_owned minR i); [|assumption]. intros o. eapply stack_prism_owned. exact EO.
  - rewrite upd_nth, Nat.eqb_refl, N0. reflexivity.
  - rewrite !app_assoc, effs_app. destruct (effs_neutral minR b
        (effs minR (((power_ops power i ++ [SetC i (cap i)]) ++ side_ops kxy side_area dist2edge dist i 0 (p_side p)) ++
                    covered_ops kz height harea i (p_ctop p) (Some (HTC v))) node0) NB) as (-> & ->).
    rewrite effs_app, <- app_assoc.
    destruct (head_effs power cap kxy side_area dist2edge dist minR i (p_side p)) as (H1 & H2).
    set (n0 := effs minR (power_ops power i ++ _ ++ _) node0) in *.
    unfold covered_ops. rewrite effs_app.
    destruct (effs_neutral minR _ n0 (contact_neutral kz height harea minR i (p_ctop p))) as (H3 & H4).
    set (n1 := effs minR (contact_ops kz height harea i (p_ctop p)) n0) in *.
    assert (EU : uncovered (p_ctop p) == free) by (unfold uncovered; rewrite uncovered_sum, HC; reflexivity).
    assert (EQB : Qltb 0 (uncovered (p_ctop p)) = Qltb 0 free).
    { apply eq_true_iff_eq. rewrite !Qltb_iff. rewrite EU. tauto. }
    rewrite EQB. destruct (Qltb 0 free).
    + cbn [bc_ops]. unfold effs. cbn [fold_left eff]. unfold with_htc. cbn [n_htc n_hf]. split; [rewrite EU; reflexivity|]. rewrite H4. exact H2.
    + unfold effs. cbn [fold_left]. rewrite H3, H1, H4. split; [reflexivity|exact H2].
Qed.
Print Assumptions C52_exchange_partial.

Example C52_exchange_example :
  let p := build_contacts (fun _ j => if j =? 0 then 1 else 0)%Q (fun _ => 4%Q) false true 2 [0; 1] [] [None; None; None] in
  p_ctop p = [(0, (1 / 4)%Q)] /\
  exists os net' n, stack_prism_ops (fun _ => None) (fun _ => 1%Q) (fun _ => 1%Q) (fun _ => 1%Q) (fun _ => 1%Q) (fun _ => 8%Q) (fun _ _ => 1%Q) (fun _ _ => 1%Q) (fun _ _ => 1%Q)
      (Some (HTC 10%Q)) None 2 p = Ok os /\ run 1%Q (net_new 3) os = Ok net' /\ nth_error net' 2 = Some n /\ (n_htc n == 60)%Q.
Proof. split; [reflexivity|]. do 3 eexists. split; [reflexivity|]. split; [reflexivity|]. split; reflexivity. Qed.

(** The resistance of a contact does not depend on which of the two prisms computes it. *)
Theorem C52_contact_symmetric : forall kz height harea inter area s i j,
  (forall a b, inter a b = inter b a) -> (forall a, harea a == s * area a)%Q -> (~ area i == 0)%Q -> (~ area j == 0)%Q ->
  (face_r kz height i j (harea i * (inter i j / area i)) == face_r kz height j i (harea j * (inter j i / area j)))%Q.
Proof.
  intros kz height harea inter area s i j Sy HA Ni Nj. unfold face_r. rewrite !HA, (Sy j i).
  assert (E1 : (s * area i * (inter i j / area i) == s * inter i j)%Q) by (field; assumption).
  assert (E2 : (s * area j * (inter i j / area j) == s * inter i j)%Q) by (field; assumption).
  rewrite E1, E2. unfold Qdiv. ring.
Qed.
Print Assumptions C52_contact_symmetric.

(** ** C72: boundary conditions and couplings of prism networks *)

(** Exchange and heat of a prism's node when at most one face carries a heat transfer coefficient and
    power and fluxes do not meet: exchange = sum over exposed faces of value x area, heat = power +
    fluxes.  Missing: prisms where they do meet, see the next theorems. *)
Theorem C72_boundary_partial : forall minR power cap kxy kz height harea side_area dist2edge dist topBC botBC i p net,
  i < List.length net -> nth_error net i = Some node0 ->
  is_htc (exposed (p_top p)) topBC && is_htc (exposed (p_bot p)) botBC = false ->
  is_flux (exposed (p_top p)) topBC && is_flux (exposed (p_bot p)) botBC = false ->
  (power i = None \/ (is_flux (exposed (p_top p)) topBC = false /\ is_flux (exposed (p_bot p)) botBC = false)) ->
  exists net' n,
    run minR net (prism_ops power cap kxy kz height harea side_area dist2edge dist topBC botBC i p) = Ok net' /\
    nth_error net' i = Some n /\ (forall j, j <> i -> nth_error net' j = nth_error net j) /\
    (n_htc n == face_htc (exposed (p_top p)) (harea i) topBC + face_htc (exposed (p_bot p)) (harea i) botBC)%Q /\
    (n_hf n == power_value (power i) + face_flux (exposed (p_top p)) (harea i) topBC
                                     + face_flux (exposed (p_bot p)) (harea i) botBC)%Q.
Proof.
  intros until net. intros L N0 H1 H2 H3. eexists. eexists. split; [|split; [|split]].
  - apply (run_owned minR i); [|assumption]. intros o. apply prism_owned.
  - rewrite upd_nth, Nat.eqb_refl, N0. reflexivity.
  - intros j Hj. rewrite upd_nth. destruct (Nat.eqb_spec i j); [congruence|reflexivity].
  - unfold prism_ops. rewrite !app_assoc, !effs_app.
    destruct (face_effs kz height harea minR i (p_bot p) botBC
      (effs minR (face_ops kz height harea i (p_top p) topBC)
        (effs minR (side_ops kxy side_area dist2edge dist i 0 (p_side p))
          (effs minR [SetC i (cap i)] (effs minR (power_ops power i) node0))))) as (-> & ->).
    destruct (face_effs kz height harea minR i (p_top p) topBC
        (effs minR (side_ops kxy side_area dist2edge dist i 0 (p_side p))
          (effs minR [SetC i (cap i)] (effs minR (power_ops power i) node0)))) as (-> & ->).
    destruct (head_effs power cap kxy side_area dist2edge dist minR i (p_side p)) as (E1 & E2).
    rewrite !app_assoc, !effs_app in E1, E2. rewrite E1.
    set (hf := n_hf _) in *. clearbody hf.
    destruct (exposed (p_top p)), (exposed (p_bot p)), topBC as [[v|v]|], botBC as [[u|u]|];
      cbn [is_htc is_flux face_htc face_flux andb] in *; try discriminate;
      (destruct H3 as [H3|[H3 H3']]; [rewrite H3 in *; cbn [power_value] in *|]; try discriminate); split; lra.
Qed.
Print Assumptions C72_boundary_partial.

Definition ex_ops topBC botBC power p := prism_ops power (fun _ => 1%Q) (fun _ => 1%Q) (fun _ => 1%Q) (fun _ => 1%Q) (fun _ => 8%Q)
  (fun _ _ => 1%Q) (fun _ _ => 1%Q) (fun _ _ => 1%Q) topBC botBC 0 p.
Definition ex_prism : prism := {| p_side := [None; Some 1; None]; p_top := None; p_bot := None; p_ctop := []; p_cbot := [] |}.
Example C72_boundary_example : exists net' n,
  run 1%Q (net_new 2) (ex_ops (Some (HTC 10%Q)) (Some (HeatFlux 3%Q)) (fun _ => None) ex_prism) = Ok net' /\
  nth_error net' 0 = Some n /\ (n_htc n == 80)%Q /\ (n_hf n == 24)%Q.
Proof. do 2 eexists. split; [reflexivity|]. split; [reflexivity|]. split; reflexivity. Qed.

(** A heat flux through an exposed face erases the power of the prism. *)
Theorem C72_flux_erases_power_refuted : exists topBC power net' n,
  run 1%Q (net_new 2) (ex_ops topBC None power ex_prism) = Ok net' /\ nth_error net' 0 = Some n /\
  power 0 = Some (5%Q, 0) /\ topBC = Some (HeatFlux 3%Q) /\ (n_hf n == 24)%Q /\
  ~ (n_hf n == power_value (power 0%nat) + face_flux true 8 topBC)%Q.
Proof.
  exists (Some (HeatFlux 3%Q)), (fun _ => Some (5%Q, 0)). do 2 eexists. split; [reflexivity|]. split; [reflexivity|].
  split; [reflexivity|]. split; [reflexivity|]. split; [reflexivity|]. vm_compute. discriminate.
Qed.
Print Assumptions C72_flux_erases_power_refuted.

(** A prism exposed on both sides (a one-layer model) keeps only the bottom coefficient. *)
Theorem C72_two_faces_refuted : exists net' n,
  run 1%Q (net_new 2) (ex_ops (Some (HTC 10%Q)) (Some (HTC 7%Q)) (fun _ => None) ex_prism) = Ok net' /\ nth_error net' 0 = Some n /\
  (n_htc n == 56)%Q /\ ~ (n_htc n == face_htc true 8 (Some (HTC 10%Q)) + face_htc true 8 (Some (HTC 7%Q)))%Q.
Proof.
  do 2 eexists. split; [reflexivity|]. split; [reflexivity|]. split; [reflexivity|]. vm_compute. discriminate.
Qed.
Print Assumptions C72_two_faces_refuted.

(** In stack-up models a bottom heat flux enters each bottom prism as it is, not times its area. *)
Theorem C72_stack_bottom_flux_refuted : exists os net' n,
  stack_prism_ops (fun _ => None) (fun _ => 1%Q) (fun _ => 1%Q) (fun _ => 1%Q) (fun _ => 1%Q) (fun _ => 8%Q) (fun _ _ => 1%Q) (fun _ _ => 1%Q) (fun _ _ => 1%Q)
      None (Some (HeatFlux 3%Q)) 0 ex_prism = Ok os /\
  run 1%Q (net_new 2) os = Ok net' /\ nth_error net' 0 = Some n /\ (n_hf n == 3)%Q /\ ~ (n_hf n == face_flux true 8 (Some (HeatFlux 3%Q)))%Q.
Proof. do 3 eexists. split; [reflexivity|]. split; [reflexivity|]. split; [reflexivity|]. split; [reflexivity|]. vm_compute. discriminate. Qed.
Print Assumptions C72_stack_bottom_flux_refuted.

(** A stack-up prism whose top or bottom marker names another prism than itself is refused. *)
Theorem C72_stack_marker_throws : forall power cap kxy kz height harea side_area dist2edge dist topBC botBC i p n,
  n <> i -> p_top p = Some n \/ (p_bot p = Some n /\ (p_top p = None \/ p_top p = Some i)) ->
  stack_prism_ops power cap kxy kz height harea side_area dist2edge dist topBC botBC i p = Throw.
Proof.
  intros until n. intros Hn H. assert (E : (n =? i) = false) by (apply Nat.eqb_neq; assumption).
  unfold stack_prism_ops, stack_top_ops, stack_bot_ops.
  destruct H as [->|[-> [->| ->]]]; rewrite ?E, ?Nat.eqb_refl; reflexivity.
Qed.
Print Assumptions C72_stack_marker_throws.

(** Block boundary conditions have no effect at all on extracted stack-up models. *)
Theorem C72_stack_blocks_are_silent : forall harea local found area b,
  stack_block_ops harea (stack_elem_nb local) found area b = [].
Proof.
  intros. unfold stack_block_ops, block_ops, stack_elem_nb. induction found as [|i found IH]; [reflexivity|]. exact IH.
Qed.
Print Assumptions C72_stack_blocks_are_silent.

(** In prism models a block condition reaches exactly the found prisms whose face is exposed. *)
Theorem C72_blocks : forall harea elem_nb found v i q,
  In (SetHTC i q) (block_ops harea elem_nb found (HTC v)) <-> In i found /\ elem_nb i = None /\ q = (v * harea i)%Q.
Proof.
  intros. unfold block_ops. rewrite in_flat_map. split.
  - intros (j & Hj & H). destruct (elem_nb j) eqn:E; [contradiction|]. destruct H as [H|[]]. injection H as <- <-. auto.
  - intros (Hi & E & ->). exists i. split; [assumption|]. rewrite E. now left.
Qed.
Print Assumptions C72_blocks.

(** Couplings: over the whole build, nodes a < b are coupled as often as prism a names b as a
    neighbour - so exactly once for prisms that touch in one face. *)
Theorem C72_couplings : forall power cap kxy kz height harea side_area dist2edge dist topBC botBC prisms size a b,
  a < b ->
  List.length (filter (couples a b) (flat_map (fun i => prism_ops power cap kxy kz height harea side_area dist2edge dist topBC botBC i (prisms i)) (seq 0 size)))
  = if a <? size then names (prisms a) b else 0.
Proof.
  intros until b. intros L.
  assert (G : forall n s, List.length (filter (couples a b) (flat_map (fun i => prism_ops power cap kxy kz height harea side_area dist2edge dist topBC botBC i (prisms i)) (seq s n)))
     = if (s <=? a) && (a <? s + n) then names (prisms a) b else 0).
  { induction n as [|n IH]; intros s.
    - simpl. destruct (Nat.leb_spec s a), (Nat.ltb_spec a (s + 0)); simpl; auto; lia.
    - cbn [seq flat_map]. rewrite filter_app, app_length, couples_prism, IH by assumption.
      destruct (Nat.eqb_spec s a), (Nat.leb_spec (Datatypes.S s) a), (Nat.leb_spec s a),
        (Nat.ltb_spec a (Datatypes.S s + n)), (Nat.ltb_spec a (s + Datatypes.S n)); simpl; subst; lia. }
  rewrite G. simpl. reflexivity.
Qed.
Print Assumptions C72_couplings.

Example C72_couplings_example : names ex_prism 1 = 1 /\ names ex_prism 0 = 0.
Proof. split; reflexivity. Qed.

(** ** C73: the layer of a monitored height *)

(** In a gapless stack of layers every height between the bottom and the top belongs to the layer
    whose interval contains it; above it is the first layer, below the last.  This holds of the
    stack-up query; of the prism query only away from the top surface. *)
Theorem C73_nearest_layer_partial : forall strict ls h e t r, stacked ls -> ls = (e, t) :: r ->
  (strict = true -> ~ h == e)%Q ->
  (forall k, in_layer_k ls k h -> nearest_layer strict h ls = Ok k) /\
  ((e <= h)%Q -> nearest_layer strict h ls = Ok 0) /\
  (below_all ls h -> nearest_layer strict h ls = Ok (List.length ls - 1)).
Proof.
  intros strict ls h e t r S E Hs.
  assert (Top : (if strict then Qltb e h else Qle_bool e h) = true <-> (e <= h)%Q).
  { destruct strict.
    - rewrite Qltb_iff. specialize (Hs eq_refl). split; [lra|]. intros H. destruct (Qlt_le_dec e h); [assumption|].
      exfalso. apply Hs. lra.
    - apply Qle_bool_iff. }
  assert (Low : (h < e)%Q -> (if strict then Qltb e h else Qle_bool e h) = false).
  { intros H. apply not_true_is_false. intros X. apply Top in X. lra. }
  assert (First : forall e' t', In (e', t') ls -> (e' <= e)%Q).
  { intros e' t' Hin. apply In_nth_error in Hin as (k & Hk). subst ls. destruct k as [|k]; simpl in Hk.
    - injection Hk as -> ->. lra.
    - assert (X := stacked_below _ S e t r k e' t' eq_refl Hk). destruct S as (P & _). lra. }
  unfold nearest_layer. subst ls. split; [|split].
  - intros k Hk. pose proof Hk as (e' & t' & N & L1 & L2). rewrite Low.
    + rewrite (within_some _ S 0 k h Hk). reflexivity.
    + assert (X := First e' t' (nth_error_In _ _ N)). lra.
  - intros H. apply Top in H. now rewrite H.
  - intros B. assert (h < e - t)%Q by (apply (B e t); now left). destruct S as (P & _).
    rewrite Low by lra. rewrite within_none; [reflexivity|].
    intros k (e' & t' & N & L1 & L2). assert (X := B e' t' (nth_error_In _ _ N)). lra.
Qed.
Print Assumptions C73_nearest_layer_partial.

(** A monitor exactly on the top surface of a prism model is looked up in the bottom layer. *)
Theorem C73_top_surface_refuted : exists ls h e t r, stacked ls /\ ls = (e, t) :: r /\ r <> [] /\ (h == e)%Q /\
  nearest_layer true h ls = Ok (List.length ls - 1) /\ nearest_layer false h ls = Ok 0.
Proof.
  exists [(3, 1); (2, 1); (1, 1)]%Q, 3%Q. do 3 eexists. split; [|split; [reflexivity|split; [discriminate|split; [reflexivity|split; reflexivity]]]].
  simpl. repeat split; reflexivity.
Qed.
Print Assumptions C73_top_surface_refuted.

(** Not an accident of the example: it happens in every stack. *)
Theorem C73_top_surface_is_bottom_layer : forall ls h e t r, stacked ls -> ls = (e, t) :: r -> (h == e)%Q ->
  nearest_layer true h ls = Ok (List.length ls - 1).
Proof.
  intros ls h e t r S -> E. unfold nearest_layer.
  destruct (Qltb e h) eqn:X; [apply Qltb_iff in X; lra|]. rewrite within_none; [reflexivity|].
  intros k (e' & t' & N & L1 & L2). destruct k as [|k]; simpl in N.
  - injection N as -> ->. lra.
  - assert (Y := stacked_below _ S e t r k e' t' eq_refl N). destruct S as (P & _). lra.
Qed.
Print Assumptions C73_top_surface_is_bottom_layer.

Example C73_example : stacked [(3, 1); (2, 1); (1, 1)]%Q /\ nearest_layer true (3#2) [(3, 1); (2, 1); (1, 1)]%Q = Ok 1.
Proof. split; [simpl; repeat split; reflexivity|reflexivity]. Qed.

(** Lemmas on the neighbour map of a node. *)
Lemma add_neighbor_other k r m b : b <> k -> alookup Nat.eqb b (add_neighbor k r m) = alookup Nat.eqb b m.
Proof.
  intros N. unfold add_neighbor. destruct (alookup Nat.eqb k m).
  - unfold aset. induction m as [|[x y] m IH]; simpl; [reflexivity|].
    destruct (Nat.eqb_spec x k) as [->|]; simpl.
    + rewrite (proj2 (Nat.eqb_neq b k) N). exact IH.
    + destruct (b =? x); auto.
  - rewrite alookup_app. simpl. rewrite (proj2 (Nat.eqb_neq b k) N). now destruct (alookup Nat.eqb b m).
Qed.

Lemma add_neighbor_new k r m : alookup Nat.eqb k m = None -> alookup Nat.eqb k (add_neighbor k r m) = Some r.
Proof. intros E. unfold add_neighbor. rewrite E, alookup_app, E. simpl. now rewrite Nat.eqb_refl. Qed.

Lemma effs_uncoupled minR a b : a < b -> forall os n, (forall o, In o os -> owner o = Some a) -> filter (couples a b) os = [] ->
  alookup Nat.eqb b (n_ns (effs minR os n)) = alookup Nat.eqb b (n_ns n).
Proof.
  intros L. induction os as [|o os IH]; intros n O F; [reflexivity|].
  cbn [filter] in F. destruct (couples a b o) eqn:C; [discriminate|].
  change (effs minR (o :: os) n) with (effs minR os (eff minR o n)). rewrite IH; [|intros; apply O; now right|assumption].
  specialize (O o (or_introl eq_refl)). destruct o; try reflexivity. simpl in *.
  apply add_neighbor_other. intros ->. injection O as O.
  rewrite <- O in C. destruct (Nat.eqb_spec a0 (Nat.min a0 b0)), (Nat.eqb_spec b0 (Nat.max a0 b0)),
    (Nat.eqb_spec a0 (Nat.max a0 b0)), (Nat.eqb_spec b0 (Nat.min a0 b0)); simpl in C; try discriminate; lia.
Qed.

Lemma effs_coupled minR a b r : a < b -> forall os n, (forall o, In o os -> owner o = Some a) ->
  filter (couples a b) os = [SetR a b r] -> alookup Nat.eqb b (n_ns n) = None ->
  alookup Nat.eqb b (n_ns (effs minR os n)) = Some (Qmax r minR).
Proof.
  intros L. induction os as [|o os IH]; intros n O F E; [discriminate|].
  cbn [filter] in F. change (effs minR (o :: os) n) with (effs minR os (eff minR o n)).
  assert (O' : forall x, In x os -> owner x = Some a) by (intros; apply O; now right).
  destruct (couples a b o) eqn:C.
  - injection F as -> F. rewrite effs_uncoupled with (a := a) by assumption. simpl.
    rewrite Nat.max_r by lia. now apply add_neighbor_new.
  - apply IH; auto. rewrite <- E. apply (effs_uncoupled minR a b L [o]); [|simpl; now rewrite C].
    intros x [<-|[]]. apply O. now left.
Qed.

Lemma run_flat minR (ops : nat -> list op) : (forall i o, In o (ops i) -> owner o = Some i) -> forall size s net,
  s + size <= List.length net ->
  exists net', run minR net (flat_map ops (seq s size)) = Ok net' /\ List.length net' = List.length net /\
    forall a, nth_error net' a = if (s <=? a) && (a <? s + size) then option_map (effs minR (ops a)) (nth_error net a) else nth_error net a.
Proof.
  intros own. induction size as [|size IH]; intros s net L.
  - exists net. split; [reflexivity|]. split; [reflexivity|]. intros a.
    destruct (Nat.leb_spec s a), (Nat.ltb_spec a (s + 0)); auto; lia.
  - cbn [seq flat_map]. rewrite run_app, (run_owned minR s) by (auto; lia). cbn [bind].
    destruct (IH (Datatypes.S s) (upd s (effs minR (ops s)) net)) as (net' & R & Le & N); [rewrite upd_length; lia|].
    exists net'. split; [exact R|]. split; [now rewrite Le, upd_length|]. intros a. rewrite N, upd_nth.
    destruct (Nat.leb_spec (Datatypes.S s) a), (Nat.leb_spec s a), (Nat.ltb_spec a (Datatypes.S s + size)),
      (Nat.ltb_spec a (s + Datatypes.S size)), (Nat.eqb_spec s a); subst; simpl; auto; lia.
Qed.

(** The resistance of a coupling.  Through a side: the way from the centre of [a] to the edge in the
    material of [a], the rest of the distance in the material of [b], over the area of the side.
    Through the top or the bottom: half of both heights over the area of the triangle. *)
Definition coupled_through (kxy kz height harea : nat -> Q) (side_area dist2edge dist : nat -> nat -> Q) (p : prism) (a b : nat) (r : Q) : Prop :=
  (exists ie, nth_error (p_side p) ie = Some (Some b) /\
     r == dist2edge a ie / (kxy a * side_area a ie) + (dist a b - dist2edge a ie) / (kxy b * side_area a ie)) \/
  ((p_top p = Some b \/ p_bot p = Some b) /\
     r == (height a / 2) / (kz a * harea a) + (height b / 2) / (kz b * harea a))%Q.

Lemma side_ops_at kxy side_area dist2edge dist i b : i < b -> forall nbs k ie, nth_error nbs k = Some (Some b) ->
  In (SetR i b (dist2edge i (ie + k)%nat / kxy i / side_area i (ie + k)%nat + (dist i b - dist2edge i (ie + k)%nat) / kxy b / side_area i (ie + k)%nat)%Q)
     (side_ops kxy side_area dist2edge dist i ie nbs).
Proof.
  intros L. induction nbs as [|nb nbs IH]; intros [|k] ie H; try discriminate; cbn [side_ops]; apply in_or_app.
  - injection H as ->. left. unfold side_op. rewrite (proj2 (Nat.ltb_lt _ _) L), Nat.add_0_r. now left.
  - right. replace (ie + Datatypes.S k) with (Datatypes.S ie + k) by lia. now apply IH.
Qed.

Lemma Qdiv_div x y z : (x / y / z == x / (y * z))%Q.
Proof. unfold Qdiv. rewrite Qinv_mult_distr. ring. Qed.

(** The finished network: every prism has its heat capacity, and two prisms that touch in one face are coupled by the
    resistance of the way between their centres (not below the smallest resistance a network admits). *)
Theorem C72_coupling_values : forall minR power cap kxy kz height harea side_area dist2edge dist topBC botBC prisms size,
  let ops i := prism_ops power cap kxy kz height harea side_area dist2edge dist topBC botBC i (prisms i) in
  exists net, run minR (net_new size) (flat_map ops (seq 0 size)) = Ok net /\ List.length net = size /\
  forall a, a < size -> exists n, nth_error net a = Some n /\ n_c n = cap a /\
    forall b, a < b -> 
      (names (prisms a) b = 0 -> alookup Nat.eqb b (n_ns n) = None) /\
      (names (prisms a) b = 1 -> exists r, alookup Nat.eqb b (n_ns n) = Some (Qmax r minR) /\
         coupled_through kxy kz height harea side_area dist2edge dist (prisms a) a b r).
Proof.
  intros until size. intros ops.
  assert (own : forall i o, In o (ops i) -> owner o = Some i) by (intros i o; apply prism_owned).
  destruct (run_flat minR ops own size 0 (net_new size)) as (net & R & Le & N).
  { unfold net_new. rewrite repeat_length. lia. }
  exists net. split; [exact R|]. split; [rewrite Le; apply repeat_length|]. intros a La.
  specialize (N a). rewrite (proj2 (Nat.ltb_lt _ _) (La : a < 0 + size)) in N. simpl in N.
  assert (E0 : nth_error (net_new size) a = Some node0).
  { unfold net_new. rewrite nth_error_repeat; auto. }
  rewrite E0 in N. simpl in N. eexists. split; [exact N|]. split.
  - unfold ops, prism_ops. rewrite app_assoc, effs_app. 
    assert (K : forall os n, (forall o, In o os -> match o with SetC _ _ => False | _ => True end) -> n_c (effs minR os n) = n_c n).
    { induction os as [|o os IH]; intros n H; [reflexivity|].
      change (effs minR (o :: os) n) with (effs minR os (eff minR o n)). rewrite IH by (intros; apply H; now right).
      specialize (H o (or_introl eq_refl)). destruct o; simpl in *; auto; contradiction. }
    rewrite K.
    + rewrite effs_app. reflexivity.
    + intros o. rewrite !in_app_iff. intros [H|[H|H]].
      * revert H. generalize (p_side (prisms a)), 0. intros l. induction l as [|nb l IH]; intros ie H; simpl in H; [contradiction|].
        apply in_app_iff in H as [H|H]; [|exact (IH _ H)]. unfold side_op in H. destruct nb as [n|]; [|contradiction].
        destruct (a <? n); [|contradiction]. destruct H as [<-|[]]. exact I.
      * unfold face_ops, bc_ops in H. destruct (p_top (prisms a)); [destruct (a <? n)|destruct topBC as [[|]|]]; simpl in H; try contradiction;
          destruct H as [<-|[]]; exact I.
      * unfold face_ops, bc_ops in H. destruct (p_bot (prisms a)); [destruct (a <? n)|destruct botBC as [[|]|]]; simpl in H; try contradiction;
          destruct H as [<-|[]]; exact I.
  - intros b Lb.
    pose proof (couples_prism power cap kxy kz height harea side_area dist2edge dist topBC botBC a (prisms a) a b Lb) as CL.
    rewrite Nat.eqb_refl in CL. fold (ops a) in CL. split; intros Nm; rewrite Nm in CL.
    + rewrite effs_uncoupled with (a := a); auto. now apply length_zero_iff_nil.
    + assert (H : exists r, In (SetR a b r) (ops a) /\ coupled_through kxy kz height harea side_area dist2edge dist (prisms a) a b r).
      { unfold names, slots in Nm.
        destruct (filter _ (p_side (prisms a) ++ _)) as [|s l] eqn:F; [discriminate|].
        assert (Hs : In s (s :: l)) by now left. rewrite <- F in Hs. apply filter_In in Hs as [Hs Hb].
        destruct s as [k|]; [|discriminate]. apply Nat.eqb_eq in Hb. subst k.
        apply in_app_iff in Hs as [Hs|Hs].
        - apply In_nth_error in Hs as (ie & Hie). eexists. split.
          + unfold ops, prism_ops. apply in_or_app. right. apply in_or_app. right. apply in_or_app. left.
            apply (side_ops_at kxy side_area dist2edge dist a b Lb (p_side (prisms a)) ie 0 Hie).
          + left. exists ie. split; [assumption|]. rewrite !Qdiv_div. reflexivity.
        - assert (Hs' : p_top (prisms a) = Some b \/ p_bot (prisms a) = Some b) by (simpl in Hs; tauto).
          eexists (face_r kz height a b (harea a)). split.
          + unfold ops, prism_ops, face_ops. rewrite !in_app_iff. do 3 right.
            destruct Hs' as [->| ->]; rewrite (proj2 (Nat.ltb_lt _ _) Lb); [left|right]; now left.
          + right. split; [assumption|]. unfold face_r. rewrite <- !Qdiv_div. unfold Qdiv. change (/ 2)%Q with (1 # 2)%Q. ring. }
      destruct H as (r & Hin & Hr). exists r. split; [|assumption].
      apply effs_coupled with (a := a); auto.
      destruct (filter (couples a b) (ops a)) as [|x [|y l]] eqn:F; try discriminate.
      assert (Hx : In (SetR a b r) (filter (couples a b) (ops a))).
      { apply filter_In. split; [assumption|]. simpl. now rewrite !Nat.eqb_refl. }
      rewrite F in Hx. destruct Hx as [->|[]]. reflexivity.
Qed.
Print Assumptions C72_coupling_values.

Example C72_coupling_values_example :
  names ex_prism 1 = 1 /\
  coupled_through (fun _ => 2%Q) (fun _ => 1%Q) (fun _ => 1%Q) (fun _ => 8%Q) (fun _ _ => 4%Q) (fun _ ie => inject_Z (Z.of_nat ie)) (fun _ _ => 5%Q) ex_prism 0 1 (5 # 8).
Proof. split; [reflexivity|]. left. exists 1. split; reflexivity. Qed.

(** The total heat a single task reports is exact. *)
Theorem C53_summary_of_one_task : forall k ps h f, (fst (srun (h, f) (add_sops k ps)) == h + fold_right Qplus 0 ps)%Q.
Proof.
  intros k ps. induction ps as [|p ps IH]; intros h f; cbn [add_sops flat_map app fold_right].
  - unfold srun. simpl. ring.
  - change (srun (h, f) (SRead k :: SWrite k p :: add_sops k ps)) with (srun (sstep (sstep (h, f) (SRead k)) (SWrite k p)) (add_sops k ps)).
    etransitivity; [apply IH|]. cbn [sstep fst snd]. rewrite Nat.eqb_refl. ring.
Qed.
Print Assumptions C53_summary_of_one_task.
