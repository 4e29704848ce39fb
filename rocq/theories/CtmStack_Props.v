(** C50: the layer stack-up derived from a chip thermal model header. *)
From Coq Require Import QArith Qabs Lqa Sorted Permutation.
From Verif Require Import Base CtmStack_Model CtmStack_Spec CtmStack_Proofs.
Local Open Scope res_scope.

(** The height and thickness reported for a layer are those of the first metal layer of that name, or
    the gap between the neighbours of a via of that name; nothing is reported only for a layer that has
    no place. *)
Theorem C50_heights : forall fuel h n,
  (forall e t, height_thickness fuel h n = Ok (Some (e, t)) -> placed h n e t) /\
  (height_thickness fuel h n = Ok None -> forall e t, ~ placed h n e t).
Proof. intros fuel h n. split; [apply height_sound|apply height_none]. Qed.

(** Looking up heights ends when no via layer is, directly or indirectly, its own neighbour.  Missing
    for the full claim: headers with such cycles, see the next theorem. *)
Theorem C50_terminates_partial : forall h rank, ranked h rank ->
  exists st N, forall fuel, (N <= fuel)%nat -> build_stackup fuel h = Ok st.
Proof.
  intros h rank Hr. destruct (all_layers_ranked h rank Hr (h_tech h)) as (N & ls & E).
  exists (stack_layers (make_groups tolerance (sort_layers ls))), N. intros fuel L. unfold build_stackup.
  rewrite (all_layers_mono N fuel h _ ls L E). reflexivity.
Qed.

(** A header whose via layer names itself as upper neighbour makes the lookup recurse for ever (in the
    program: until the stack overflows). *)
Definition cyc_header : header :=
  mkheader ["V1"%string] [mkvia "V1" "V1" "M1"] [mkmetal "M1" 1 1].
Theorem C50_terminates_refuted : exists h, forall fuel, build_stackup fuel h = OutOfFuel.
Proof.
  exists cyc_header. intros fuel. unfold build_stackup, cyc_header. cbn [h_tech all_layers].
  enough (E : height_thickness fuel cyc_header "V1" = OutOfFuel) by (unfold cyc_header in E; rewrite E; reflexivity).
  induction fuel as [|f IH]; [reflexivity|]. rewrite height_thickness_S. cbn. rewrite IH. reflexivity.
Qed.

(** The stack-up runs from top to bottom with strictly falling elevations, each layer being as thick as
    the way to the next one; it names exactly the technology layers that have a place, each of them in
    one layer only; a layer is as high as its highest member, and all its members lie above the next
    layer. *)
Theorem C50_stackup : forall fuel h st, build_stackup fuel h = Ok st ->
  contiguous st /\
  (forall n, In n (List.concat (map sl_names st)) <-> In n (h_tech h) /\ exists e t, placed h n e t) /\
  NoDup (List.concat (map sl_names st)) /\
  (forall i s, nth_error st i = Some s ->
     (exists n t, In n (sl_names s) /\ placed h n (sl_elev s) t) /\
     forall n, In n (sl_names s) -> exists e t, placed h n e t /\ (e <= sl_elev s)%Q /\
       forall s', nth_error st (S i) = Some s' -> (sl_elev s' + (1 # 1000000) < e)%Q).
Proof.
  intros fuel h st H. unfold build_stackup in H.
  destruct (all_layers fuel h (h_tech h)) as [ls| | |] eqn:El; cbn [bind] in H; try discriminate. injection H as <-.
  destruct (make_groups_segs tolerance (sort_layers ls)) as (segs & E1 & E2 & G).
  pose proof (sort_sorted ls) as Hs. rewrite E2 in Hs.
  assert (Ht : (0 <= tolerance)%Q) by (unfold tolerance; lra).
  pose proof (sorted_bands tolerance Ht segs Hs G) as B. rewrite E1.
  assert (Hin : forall c, In c (List.concat (map seg_all segs)) <->
    In (cl_name c) (h_tech h) /\ height_thickness fuel h (cl_name c) = Ok (Some (cl_elev c, cl_thick c))).
  { intros c. rewrite <- E2, <- (all_layers_spec fuel h _ ls El c).
    split; apply Permutation_in; [symmetry|]; apply sort_perm. }
  assert (Hseg : forall p c, In p segs -> In c (seg_all p) -> In c (List.concat (map seg_all segs))).
  { intros p c Hp Hc. apply in_concat. exists (seg_all p). split; [apply in_map; exact Hp|exact Hc]. }
  split; [exact (stack_contiguous tolerance segs Ht B)|].
  split; [|split].
  - intros n. rewrite stack_names. rewrite in_concat. split.
    + intros (l & Hl & Hn). apply in_map_iff in Hl. destruct Hl as (g & <- & Hg).
      apply in_map_iff in Hg. destruct Hg as (p & <- & Hp). apply group_of_names in Hn.
      destruct Hn as (c & Hc & <-). apply Hseg with (2 := Hc) in Hp. apply Hin in Hp. destruct Hp as [Ha Hb].
      split; [exact Ha|]. exists (cl_elev c), (cl_thick c). exact (height_sound _ _ _ _ _ Hb).
    + intros [Hn (e & t & P)]. destruct (all_layers_resolves _ _ _ _ El n Hn) as [r Er].
      destruct r as [[e' t']|]; [|destruct (height_none _ _ _ Er _ _ P)].
      assert (K : In (mkclayer n e' t') (List.concat (map seg_all segs))) by (apply Hin; split; assumption).
      apply in_concat in K. destruct K as (l & Hl & Hc). apply in_map_iff in Hl. destruct Hl as (p & <- & Hp).
      exists (g_names (group_of p)). split; [apply in_map, in_map; exact Hp|]. apply group_of_names.
      exists (mkclayer n e' t'). split; [exact Hc|reflexivity].
  - rewrite stack_names. apply (bands_nodup tolerance Ht segs B).
    intros c1 c2 H1 H2 E. apply Hin in H1. apply Hin in H2. destruct H1 as [_ H1], H2 as [_ H2]. rewrite E, H2 in H1. congruence.
  - intros i s Hi.
    assert (Ei : nth_error (map sl_elev (stack_layers (map group_of segs))) i = Some (sl_elev s)) by (apply map_nth_error; exact Hi).
    assert (Ni : nth_error (map sl_names (stack_layers (map group_of segs))) i = Some (sl_names s)) by (apply map_nth_error; exact Hi).
    rewrite stack_elevs, map_map in Ei. rewrite stack_names, map_map in Ni.
    destruct (nth_error segs i) as [p|] eqn:Ep.
    2:{ apply nth_error_None in Ep. assert (nth_error (map (fun x => g_elev (group_of x)) segs) i = None) by
          (apply nth_error_None; rewrite map_length; exact Ep). congruence. }
    rewrite (map_nth_error _ _ _ Ep) in Ei. rewrite (map_nth_error _ _ _ Ep) in Ni. injection Ei as Ei. injection Ni as Ni.
    rewrite group_of_elev in Ei. rewrite <- Ni, <- Ei.
    pose proof (nth_error_In _ _ Ep) as Hp. split.
    + pose proof (Hseg p (fst p) Hp (or_introl eq_refl)) as K. apply Hin in K. destruct K as [_ K].
      exists (cl_name (fst p)), (cl_thick (fst p)). split; [|exact (height_sound _ _ _ _ _ K)].
      apply group_of_names. exists (fst p). split; [left; reflexivity|reflexivity].
    + intros n Hn. apply group_of_names in Hn. destruct Hn as (c & Hc & <-).
      pose proof (Hseg p c Hp Hc) as K. apply Hin in K. destruct K as [_ K].
      exists (cl_elev c), (cl_thick c). split; [exact (height_sound _ _ _ _ _ K)|].
      destruct B as [B1 B2]. rewrite Forall_forall in B1. split; [exact (B1 p Hp c Hc)|].
      intros s' Hs'.
      assert (Es : nth_error (map sl_elev (stack_layers (map group_of segs))) (S i) = Some (sl_elev s')) by (apply map_nth_error; exact Hs').
      rewrite stack_elevs, map_map in Es.
      destruct (nth_error segs (S i)) as [q|] eqn:Eq.
      2:{ apply nth_error_None in Eq. assert (nth_error (map (fun x => g_elev (group_of x)) segs) (S i) = None) by
            (apply nth_error_None; rewrite map_length; exact Eq). congruence. }
      rewrite (map_nth_error _ _ _ Eq) in Es. injection Es as Es. rewrite <- Es, group_of_elev.
      destruct (nth_error_split _ _ Ep) as (p1 & p2 & Esplit & Elen).
      assert (Eq' : exists p3, p2 = q :: p3).
      { rewrite Esplit, nth_error_app2 in Eq by lia. replace (S i - List.length p1)%nat with 1%nat in Eq by lia.
        cbn [nth_error] in Eq. destruct p2; [discriminate|]. injection Eq as ->. eexists; reflexivity. }
      destruct Eq' as [p3 ->]. exact (B2 p1 p q p3 Esplit c Hc).
Qed.

(** The lowest layer is as thick as the thickest of its members. *)
Theorem C50_bottom : forall fuel h st s, build_stackup fuel h = Ok (st ++ [s]) ->
  (exists n e, In n (sl_names s) /\ placed h n e (sl_thick s)) /\
  forall n e t, In n (sl_names s) -> height_thickness fuel h n = Ok (Some (e, t)) -> (t <= sl_thick s)%Q.
Proof.
  intros fuel h st s H. unfold build_stackup in H.
  destruct (all_layers fuel h (h_tech h)) as [ls| | |] eqn:El; cbn [bind] in H; try discriminate. injection H as H.
  destruct (make_groups_segs tolerance (sort_layers ls)) as (segs & E1 & E2 & G). rewrite E1 in H.
  assert (Hin : forall c, In c (List.concat (map seg_all segs)) <->
    In (cl_name c) (h_tech h) /\ height_thickness fuel h (cl_name c) = Ok (Some (cl_elev c, cl_thick c))).
  { intros c. rewrite <- E2, <- (all_layers_spec fuel h _ ls El c).
    split; apply Permutation_in; [symmetry|]; apply sort_perm. }
  destruct (exists_last (l := segs)) as (segs' & p & Es).
  { intros ->. cbn in H. destruct st; discriminate. }
  subst segs. rewrite map_app in H. cbn [map] in H. rewrite stack_last_thick in H.
  apply app_inj_tail in H. destruct H as [_ H]. subst s. cbn [sl_names sl_thick].
  rewrite group_of_thicks. unfold seg_all. cbn [map qmax_list].
  destruct (fold_max_ge (map cl_thick (snd p)) (cl_thick (fst p))) as (M1 & M2 & M3).
  assert (Hc : forall c, In c (seg_all p) -> In c (List.concat (map seg_all (segs' ++ [p])))).
  { intros c Hc. apply in_concat. exists (seg_all p). split; [|exact Hc]. apply in_map. rewrite in_app_iff. right. left. reflexivity. }
  assert (M : forall c, In c (seg_all p) -> (cl_thick c <= fold_left (fun a b => if Qle_bool b a then a else b) (map cl_thick (snd p)) (cl_thick (fst p)))%Q).
  { intros c [<-|K]; [exact M1|apply M2, in_map; exact K]. }
  split.
  - change (cl_thick (fst p) :: map cl_thick (snd p)) with (map cl_thick (seg_all p)) in M3.
    apply in_map_iff in M3. destruct M3 as (c & Ec & Hm). exists (cl_name c), (cl_elev c). rewrite <- Ec. split.
    + apply group_of_names. exists c. auto.
    + apply Hc, Hin in Hm. destruct Hm as [_ Hm]. exact (height_sound _ _ _ _ _ Hm).
  - intros n e t Hn Hh. apply group_of_names in Hn. destruct Hn as (c & Hm & <-).
    pose proof (Hc c Hm) as K. apply Hin in K. destruct K as [_ K]. rewrite Hh in K. injection K as -> ->. exact (M c Hm).
Qed.

(** The lowest layer with metal is the last stack-up layer one of whose members is a metal layer. *)
Theorem C50_last_metal : forall h st names, last_metal h st = Some names <->
  exists a s b, st = a ++ s :: b /\ sl_names s = names /\
    (exists n, In n (sl_names s) /\ In n (map ml_name (h_metal h))) /\
    forall s' n, In s' b -> In n (sl_names s') -> ~ In n (map ml_name (h_metal h)).
Proof.
  intros h st names.
  assert (M : forall n, is_metal h n = true <-> In n (map ml_name (h_metal h))).
  { intros n. unfold is_metal. rewrite existsb_exists, in_map_iff. split; intros (x & A & B); exists x.
    - apply String.eqb_eq in B. auto.
    - split; [assumption|]. apply String.eqb_eq. assumption. }
  assert (MF : forall s, existsb (is_metal h) (sl_names s) = true <-> exists n, In n (sl_names s) /\ In n (map ml_name (h_metal h))).
  { intros s. rewrite existsb_exists. split; intros (n & A & B); exists n; (split; [exact A|apply M; exact B]). }
  unfold last_metal. induction st as [|x st IH] using rev_ind.
  - cbn. split; [discriminate|]. intros ([|? ?] & ? & ? & E & _); discriminate.
  - rewrite rev_app_distr. cbn [rev app find]. destruct (existsb (is_metal h) (sl_names x)) eqn:E.
    + apply MF in E. split.
      * intros H. injection H as <-. exists st, x, []. split; [reflexivity|]. split; [reflexivity|]. split; [exact E|intros ? ? []].
      * intros (a & s & b & Est & <- & _ & Hb). destruct b as [|y b] using rev_ind.
        -- apply app_inj_tail in Est. destruct Est as [_ ->]. reflexivity.
        -- clear IHb. rewrite app_comm_cons, app_assoc in Est. apply app_inj_tail in Est. destruct Est as [_ ->].
           destruct E as (n & A & B). exfalso. apply (Hb y n); [rewrite in_app_iff; right; left; reflexivity|exact A|exact B].
    + rewrite IH. split; intros (a & s & b & Est & En & Hs & Hb).
      * exists a, s, (b ++ [x]). split; [rewrite Est, <- app_assoc; reflexivity|]. split; [exact En|]. split; [exact Hs|].
        intros s' n Hin Hn Hm. rewrite in_app_iff in Hin. destruct Hin as [Hin|[<-|[]]]; [exact (Hb s' n Hin Hn Hm)|].
        assert (existsb (is_metal h) (sl_names x) = true); [|congruence]. apply MF. eauto.
      * destruct b as [|y b] using rev_ind.
        -- apply app_inj_tail in Est. destruct Est as [_ ->]. assert (existsb (is_metal h) (sl_names s) = true); [|congruence]. apply MF. exact Hs.
        -- clear IHb. rewrite app_comm_cons, app_assoc in Est. apply app_inj_tail in Est. destruct Est as [-> ->].
           exists a, s, b. split; [reflexivity|]. split; [exact En|]. split; [exact Hs|].
           intros s' n Hin. apply Hb. rewrite in_app_iff. left. exact Hin.
Qed.

(** As long as the header of a new model is not changed and nothing is assigned to it, every request
    returns the stack-up of its header. *)
Theorem C50_cache_partial : forall fuel h k m out,
  ctm_run fuel (mkctm h None) (repeat GetStackup k) = Ok (m, out) ->
  List.length out = k /\ forall st, In st out -> build_stackup fuel h = Ok st.
Proof.
  intros fuel h k.
  enough (G : forall k m0 m out, c_header m0 = h -> (forall s, c_cache m0 = Some s -> build_stackup fuel h = Ok s) ->
    ctm_run fuel m0 (repeat GetStackup k) = Ok (m, out) ->
    List.length out = k /\ forall st, In st out -> build_stackup fuel h = Ok st).
  { intros m out. apply G; [reflexivity|discriminate]. }
  clear k. induction k as [|k IH]; intros m0 m out Hh Hc H; cbn [repeat ctm_run] in H.
  - injection H as <- <-. split; [reflexivity|intros st []].
  - destruct (get_stackup fuel m0) as [[m1 s]| | |] eqn:Eg; cbn [bind] in H; try discriminate.
    destruct (ctm_run fuel m1 (repeat GetStackup k)) as [[m2 o]| | |] eqn:Er; cbn [bind] in H; try discriminate.
    injection H as <- <-.
    assert (K : build_stackup fuel h = Ok s /\ c_header m1 = h /\ c_cache m1 = Some s).
    { unfold get_stackup in Eg. destruct (c_cache m0) as [s0|] eqn:Ec.
      - injection Eg as <- <-. auto.
      - rewrite Hh in Eg. destruct (build_stackup fuel h) as [s0| | |]; cbn [bind] in Eg; try discriminate.
        injection Eg as <- <-. auto. }
    destruct K as (K1 & K2 & K3). destruct (IH m1 m2 o K2) as [L A]; [rewrite K3; intros s0 E; congruence|exact Er|].
    split; [cbn; lia|]. intros st [<-|Hin]; [exact K1|exact (A st Hin)].
Qed.

(** The stack-up is cached: after the public header was replaced, or another model was assigned, the
    stack-up of the old header is still returned. *)
Definition old_header : header := mkheader ["M1"%string] [] [mkmetal "M1" 1 1].
Definition new_header : header := mkheader ["M2"%string] [] [mkmetal "M2" 5 2].
Theorem C50_cache_refuted :
  (exists h h' m s s', ctm_run 5 (mkctm h None) [GetStackup; SetHeader h'; GetStackup] = Ok (m, [s; s']) /\
     c_header m = h' /\ build_stackup 5 h' <> Ok s') /\
  (exists h other m s s', ctm_run 5 (mkctm h None) [GetStackup; AssignFrom other; GetStackup] = Ok (m, [s; s']) /\
     c_header m = c_header other /\ c_cache other = None /\ build_stackup 5 (c_header other) <> Ok s').
Proof.
  split.
  - exists old_header, new_header, (mkctm new_header (Some [mkslayer ["M1"%string] 1 1])),
      [mkslayer ["M1"%string] 1 1], [mkslayer ["M1"%string] 1 1].
    split; [vm_compute; reflexivity|]. split; [reflexivity|]. vm_compute. discriminate.
  - exists old_header, (mkctm new_header None), (mkctm new_header (Some [mkslayer ["M1"%string] 1 1])),
      [mkslayer ["M1"%string] 1 1], [mkslayer ["M1"%string] 1 1].
    split; [vm_compute; reflexivity|]. split; [reflexivity|]. split; [reflexivity|]. vm_compute. discriminate.
Qed.

Print Assumptions C50_heights.
Print Assumptions C50_terminates_partial.
Print Assumptions C50_terminates_refuted.
Print Assumptions C50_stackup.
Print Assumptions C50_bottom.
Print Assumptions C50_last_metal.
Print Assumptions C50_cache_partial.
Print Assumptions C50_cache_refuted.

(** Two metal layers, the via between them, a second metal layer at the same height and a technology
    layer without a place. *)
Example C50_example_header : header :=
  mkheader ["M1"%string; "V1"%string; "M2"%string; "M2b"%string; "POLY"%string]
    [mkvia "V1" "M2" "M1"] [mkmetal "M1" 1 1; mkmetal "M2" 4 2; mkmetal "M2b" 4 1].
Example C50_example_ranked : ranked C50_example_header (fun n => if String.eqb n "V1" then 1%nat else 0%nat).
Proof. intros v [<-|[]] _. cbn. lia. Qed.
Example C50_example_stack : build_stackup 5 C50_example_header =
  Ok [mkslayer ["M2"%string; "M2b"%string] 4 (4 - (4 - 2)); mkslayer ["V1"%string] (4 - 2) (4 - 2 - 1); mkslayer ["M1"%string] 1 1].
Proof. vm_compute. reflexivity. Qed.
Example C50_example_last : last_metal C50_example_header
  [mkslayer ["M2"%string; "M2b"%string] 4 2; mkslayer ["V1"%string] 2 1] = Some ["M2"%string; "M2b"%string].
Proof. vm_compute. reflexivity. Qed.
