From Verif Require Import Base QSum ThermalNetwork_Model LayerCut_Model CutBuild_Model CutBuild_Spec.
From Coq Require Import Qround Setoid.

Lemma rounds_away q : rounds q (round_away q).
Proof.
  unfold rounds, round_away; destruct (Qle_bool 0 q) eqn:E.
  - apply Qle_bool_iff in E; pose proof (Qfloor_le (q + (1#2))); pose proof (Qlt_floor (q + (1#2))).
    rewrite inject_Z_plus in H0; change (inject_Z 1) with 1 in H0.
    assert (A : inject_Z (Qfloor (q + (1#2))) - (1#2) <= q) by lra.
    assert (B : q < inject_Z (Qfloor (q + (1#2))) + (1#2)) by lra.
    split; [lra|split; [|lra]]; intros F.
    assert (Z : (0 <= Qfloor (q + (1#2)))%Z) by (change 0%Z with (Qfloor 0); apply Qfloor_resp_le; lra).
    destruct (Z.eq_dec (Qfloor (q + (1#2))) 0) as [G|G].
    + rewrite G in F; change (inject_Z 0) with 0 in F; lra.
    + assert (G' : (1 <= Qfloor (q + (1#2)))%Z) by lia; rewrite Zle_Qle in G'; change (inject_Z 1) with 1 in G'; lra.
  - assert (N : q < 0) by (apply Qnot_le_lt; intros C; apply Qle_bool_iff in C; congruence).
    pose proof (Qle_ceiling (q - (1#2))); pose proof (Qceiling_lt (q - (1#2))).
    assert (H1 : inject_Z (Qceiling (q - (1#2)) - 1) == inject_Z (Qceiling (q - (1#2))) - 1) by (unfold Z.sub; rewrite inject_Z_plus; reflexivity); rewrite H1 in H0.
    split; [lra|split; [lra|intros; lra]].
Qed.

Lemma rounds_eq q q' z : q == q' -> rounds q z -> rounds q' z.
Proof. unfold rounds; intros E [[A B] [C D]]; rewrite E in A, B, C, D; auto. Qed.

(** rounding keeps order, so has one result *)
Lemma rounds_mono q q' z z' : rounds q z -> rounds q' z' -> q <= q' -> (z <= z')%Z.
Proof.
  intros [[A B] [C D]] [[A' B'] [C' D']] H.
  destruct (Z.le_gt_cases z z') as [|G]; [auto|exfalso].
  assert (G' : (z' + 1 <= z)%Z) by lia; rewrite Zle_Qle, inject_Z_plus in G'; change (inject_Z 1) with 1 in G'.
  assert (E1 : q == inject_Z z - (1#2)) by lra. assert (E2 : q' == inject_Z z' + (1#2)) by lra.
  specialize (C E1); specialize (D' E2); lra.
Qed.
Lemma rounds_inj q z z' : rounds q z -> rounds q z' -> z = z'.
Proof. intros A B; apply Z.le_antisymm; eapply rounds_mono; eauto; lra. Qed.

Lemma collect_app {A B} (f : A -> option (list B)) l l' :
  collect f (l ++ l') = match collect f l, collect f l' with Some x, Some y => Some (x ++ y) | _, _ => None end.
Proof.
  induction l as [|a l IH]; simpl; [destruct (collect f l'); auto|].
  destruct (f a); [|auto]; rewrite IH; destruct (collect f l), (collect f l'); auto; now rewrite app_assoc.
Qed.

Section Proofs.
  Context {poly point table path : Type} (ccw : poly -> bool) (reverse : poly -> poly) (scale : Q) (steiner : bool).
  Context (mats : Z -> option (Z * Z)) (heights : Z -> option (Q * Q)).
  Notation cut := (cut poly point table path).
  Notation entry := (entry poly table).
  Notation placed := (placed poly point table).
  Notation item := (item poly table).
  Notation listed := (listed (table := table) ccw reverse scale).
  Notation add_polygon := (@add_polygon poly point table path ccw reverse scale).
  Notation add_shape := (@add_shape poly point table path ccw reverse scale steiner).
  Notation add_power_block := (@add_power_block poly point table path ccw reverse scale).

  Lemma listed_app is es is' es' : listed is es -> listed is' es' -> listed (is ++ is') (es ++ es').
  Proof. induction 1; simpl; intros; [auto|eapply listed_drop; eauto|eapply listed_keep; eauto]. Qed.

  Definition grows (m : cut) (its : list item) (pts : list point) (ws : list (bwire path)) (m' : cut) : Prop :=
    (forall es, holds m es [] -> exists es', listed its es' /\ holds m' (es ++ es') []) /\
    c_points m' = c_points m ++ pts /\ c_wires m' = c_wires m ++ ws.

  Lemma grows_refl m : grows m [] [] [] m.
  Proof. split; [|rewrite !app_nil_r; auto]; intros es H; exists []; rewrite app_nil_r; split; [constructor|auto]. Qed.
  Lemma grows_trans m i p w m' i' p' w' m'' : grows m i p w m' -> grows m' i' p' w' m'' -> grows m (i ++ i') (p ++ p') (w ++ w') m''.
  Proof.
    intros (A & B & C) (A' & B' & C'); split; [|rewrite B', B, C', C, <- !app_assoc; auto].
    intros es H; destruct (A _ H) as (es1 & L1 & H1); destruct (A' _ H1) as (es2 & L2 & H2).
    exists (es1 ++ es2); split; [now apply listed_app|now rewrite app_assoc].
  Qed.

  Definition one (net mat : Z) (p : poly) (hole : bool) (e t : Q) : item := mkI net mat p hole e t None.

  Lemma nth_error_snoc {A} (l : list A) x i : nth_error (l ++ [x]) i = if (i =? List.length l)%nat then Some x else nth_error l i.
  Proof.
    destruct (Nat.eqb_spec i (List.length l)) as [->|N]; [rewrite nth_error_app2, Nat.sub_diag by lia; auto|].
    destruct (Nat.lt_ge_cases i (List.length l)); [now rewrite nth_error_app1|].
    transitivity (@None A); [|symmetry]; apply nth_error_None; [rewrite app_length; simpl; lia|lia].
  Qed.

  (** both ways to add an outline *)
  Lemma holds_snoc (m : cut) es e : holds m es [] ->
    holds (mkCut (c_nets m ++ [e_net e]) (c_ranges m ++ [e_range e]) (c_wires m) (c_mats m ++ [e_mat e]) (c_polys m ++ [e_poly e]) (c_points m)
       (match e_block e with None => c_blocks m | Some b => aemplace Nat.eqb (List.length (c_polys m ++ [e_poly e]) - 1)%nat b (c_blocks m) end)) (es ++ [e]) [].
  Proof.
    intros (A & B & C & (rs & D & L & _) & F); destruct rs; [clear L|discriminate]; cbn [map] in *; rewrite app_nil_r in *.
    unfold holds; cbn [c_nets c_mats c_polys c_ranges c_blocks]; rewrite A, B, C, D, !map_app; cbn [map]; rewrite !app_nil_r.
    repeat (split; [reflexivity|]); split; [exists []; rewrite app_nil_r; auto|].
    intros i; rewrite nth_error_snoc.
    assert (E0 : alookup Nat.eqb (List.length es) (c_blocks m) = None) by (rewrite F; replace (nth_error es (List.length es)) with (@None entry); auto; symmetry; apply nth_error_None; auto).
    assert (EL : (List.length (map e_poly es ++ [e_poly e]) - 1 = List.length es)%nat) by (rewrite app_length, map_length; simpl; lia).
    rewrite EL; destruct (e_block e) as [b|] eqn:Eb.
    - rewrite (alookup_emplace _ Nat.eqb_spec); destruct (Nat.eqb_spec i (List.length es)); subst; [rewrite ?E0, Eb; auto|rewrite F; destruct (nth_error es i) as [x|]; [destruct (e_block x)|]; auto].
    - destruct (Nat.eqb_spec i (List.length es)); subst; [now rewrite E0, Eb|apply F].
  Qed.

  Lemma eqb_swap a b : Bool.eqb a b = Bool.eqb b a.
  Proof. destruct a, b; auto. Qed.

  Lemma add_polygon_grows net mat p hole e t m : grows m [one net mat p hole e t] [] [] (fst (add_polygon net mat p hole e t m)).
  Proof.
    unfold CutBuild_Model.add_polygon; destruct (r_valid (get_range scale e t)) eqn:E; cbn [fst]; (split; [|rewrite !app_nil_r; auto]); intros es H.
    - eexists [_]; split; [|exact (holds_snoc m es (mkE net mat (if Bool.eqb hole (ccw p) then reverse p else p) (get_range scale e t) None) H)].
      rewrite (eqb_swap hole); apply (listed_keep ccw reverse scale (one net mat p hole e t) [] [] (hi (get_range scale e t)) (lo (get_range scale e t)) None);
        [apply rounds_away|apply rounds_away|apply Z.ltb_lt, E|reflexivity|constructor].
    - exists []; rewrite app_nil_r; split; auto; eapply listed_drop; [apply rounds_away|apply rounds_away| |constructor].
      unfold r_valid, get_range, get_height in E; cbn in E; apply Z.ltb_ge in E; exact E.
  Qed.

  Lemma add_power_grows mat p scen heat e t pos m :
    grows m [mkI noNet mat p false e t (Some (scen, heat, pos))] [] [] (add_power_block mat p scen heat e t pos (1#10) m).
  Proof.
    unfold CutBuild_Model.add_power_block, CutBuild_Model.add_polygon; destruct (r_valid (get_range scale e t)) eqn:E; (split; [|rewrite !app_nil_r; auto]); intros es H.
    - eexists [_]; split; [|exact (holds_snoc m es (mkE noNet mat (if Bool.eqb false (ccw p) then reverse p else p) (get_range scale e t) (Some (power_range scale e t pos (1#10), scen, heat))) H)].
      rewrite (eqb_swap false).
      apply (listed_keep ccw reverse scale (mkI noNet mat p false e t (Some (scen, heat, pos))) [] [] (hi (get_range scale e t)) (lo (get_range scale e t)));
        [apply rounds_away|apply rounds_away|apply Z.ltb_lt, E| |constructor].
      eexists _, _; split; [reflexivity|]; cbn [i_elev i_thick].
      split; [eapply rounds_eq; [|apply rounds_away]; ring|].
      eapply rounds_eq; [|apply rounds_away].
      apply Qmult_comp; [|reflexivity].
      assert (M : Qmin (t * (1#10)) (t - e + (e - t * pos)) == Qmin ((1#10) * t) (t - pos * t)) by (apply Q.min_compat; ring).
      rewrite M; ring.
    - exists []; rewrite app_nil_r; split; auto; eapply listed_drop; [apply rounds_away|apply rounds_away| |constructor].
      unfold r_valid, get_range, get_height in E; cbn in E; apply Z.ltb_ge in E; exact E.
  Qed.

  Definition pts_of (ps : list placed) : list point := if steiner then centres ps else [].
  Definition places (m : cut) (ps : list placed) (ws : list (bwire path)) (m' : cut) : Prop := grows m (flat_map pieces ps) (pts_of ps) ws m'.
  Lemma pts_app ps ps' : pts_of (ps ++ ps') = pts_of ps ++ pts_of ps'.
  Proof. unfold pts_of, centres; destruct steiner; [apply flat_map_app|reflexivity]. Qed.
  Lemma places_refl m : places m [] [] m.
  Proof. unfold places, pts_of; destruct steiner; apply grows_refl. Qed.
  Lemma places_trans m p w m' p' w' m'' : places m p w m' -> places m' p' w' m'' -> places m (p ++ p') (w ++ w') m''.
  Proof. unfold places; rewrite flat_map_app, pts_app; apply grows_trans. Qed.

  Lemma holes_grow net hole e t : forall hs m,
    grows m (map (fun h => mkI net hole h true e t None) hs) [] [] (fold_left (fun m h => fst (add_polygon net hole h true e t m)) hs m).
  Proof.
    induction hs as [|h hs IH]; intros m; simpl; [apply grows_refl|].
    exact (grows_trans _ _ _ _ _ _ _ _ _ (add_polygon_grows net hole h true e t m) (IH _)).
  Qed.

  Lemma add_shape_places net solid hole s e t m : places m [mkP net solid hole s e t None] [] (add_shape net solid hole s e t m).
  Proof.
    assert (H : forall m, grows m (pieces (mkP net solid hole s e t None)) [] [] (match sh_holes s with
      | [] => fst (add_polygon net solid (sh_outline s) false e t m)
      | hs => fold_left (fun m h => fst (add_polygon net hole h true e t m)) hs (fst (add_polygon net solid (sh_outline s) false e t m)) end)).
    { intros m0; unfold pieces; cbn [p_net p_solid p_shape p_elev p_thick p_power p_hole].
      pose proof (grows_trans _ _ _ _ _ _ _ _ _ (add_polygon_grows net solid (sh_outline s) false e t m0) (holes_grow net hole e t (sh_holes s) _)) as G.
      destruct (sh_holes s); exact G. }
    unfold places, pts_of, centres, CutBuild_Model.add_shape; cbn [flat_map p_shape]; rewrite !app_nil_r.
    destruct steiner; [|apply H]; destruct (sh_center s) as [c|]; [|apply H].
    assert (G : grows m [] [c] [] (mkCut (c_nets m) (c_ranges m) (c_wires m) (c_mats m) (c_polys m) (c_points m ++ [c]) (c_blocks m))).
    { split; [|cbn; rewrite app_nil_r; auto]; intros es Hh; exists []; rewrite app_nil_r; split; [constructor|exact Hh]. }
    exact (grows_trans _ _ _ _ _ _ _ _ _ G (H _)).
  Qed.

  Lemma power_places mat p scen heat e t pos m :
    places m [mkP noNet mat noMaterial (plain p) e t (Some (scen, heat, pos))] [] (add_power_block mat p scen heat e t pos (1#10) m).
  Proof. unfold places, pts_of; replace (if steiner then _ else _) with (@nil point) by (destruct steiner; auto); apply add_power_grows. Qed.
  Lemma plain_places net mat p e t m hole :
    places m [mkP net mat hole (plain p) e t None] [] (fst (add_polygon net mat p false e t m)).
  Proof. unfold places, pts_of; replace (if steiner then _ else _) with (@nil point) by (destruct steiner; auto); apply add_polygon_grows. Qed.

  (** the outcome of a step *)
  Definition outcome (r : res cut) (m : cut) (o : option (list placed)) (ws : list (bwire path)) : Prop :=
    match o with
    | Some ps => exists m', r = Ok m' /\ places m ps ws m'
    | None => forall m', r <> Ok m'
    end.

  Lemma outcome_bind r m o ws f o' ws' :
    outcome r m o ws -> (forall m', outcome (f m') m' o' ws') ->
    outcome (bind r f) m (match o, o' with Some x, Some y => Some (x ++ y) | _, _ => None end) (ws ++ ws').
  Proof.
    intros H G; destruct o as [ps|]; cbn in H.
    - destruct H as (m1 & -> & P); specialize (G m1); cbn [bind]; destruct o' as [ps'|]; cbn in G; [|exact G].
      destruct G as (m2 & E & P2); exists m2; split; [auto|eapply places_trans; eauto].
    - destruct r as [m1| | |]; [exfalso; eapply H; reflexivity|..]; simpl; discriminate.
  Qed.

  Lemma add_stackup_outcome b : forall ls m, outcome (add_stackup ccw reverse scale steiner b m ls) m (collect (place_layer b) ls) [].
  Proof.
    induction ls as [|[[mat|] [[e t]|]] ls IH]; intros m; cbn [add_stackup collect place_layer]; try (cbn; discriminate);
      [exists m; split; [auto|apply places_refl]|].
    specialize (IH (add_shape noNet mat noMaterial b e t m)); destruct (collect (place_layer b) ls); [|exact IH].
    destruct IH as (m' & E & P); exists m'; split; [exact E|].
    exact (places_trans _ _ _ _ _ _ _ (add_shape_places noNet mat noMaterial b e t m) P).
  Qed.

  Lemma Qltb_gt t : Qltb 0 t = match t ?= 0 with Gt => true | _ => false end.
  Proof.
    unfold Qltb; destruct (t ?= 0) eqn:E.
    - apply Qeq_alt in E; apply negb_false_iff, Qle_bool_iff; lra.
    - apply Qlt_alt in E; apply negb_false_iff, Qle_bool_iff; lra.
    - apply Qgt_alt in E; apply negb_true_iff, not_true_iff_false; rewrite Qle_bool_iff; lra.
  Qed.

  Lemma add_component_outcome c m : outcome (add_component ccw reverse scale m c) m (place_comp c) [].
  Proof.
    unfold add_component, place_comp; destruct (cp_mat c) as [mat|]; [|cbn; discriminate].
    destruct (cp_height c) as [[e t]|]; [|cbn; discriminate].
    set (body := mkP noNet mat noMaterial (plain (cp_contour c)) e t (option_map (fun p => (fst p, snd p, 1#10)) (cp_power c))).
    set (m1 := match cp_power c with Some (scen, power) => _ | None => _ end).
    assert (P : places m [body] [] m1).
    { unfold m1, body; destruct (cp_power c) as [[scen heat]|]; cbn [option_map fst snd]; [apply power_places|apply plain_places]. }
    destruct (cp_solder c) as [[e' t']|]; [|cbn; discriminate].
    rewrite Qltb_gt; destruct (t' ?= 0); try (exists m1; split; [reflexivity|exact P]).
    destruct (cp_filling c) as [mat'|]; [|cbn; discriminate].
    eexists; split; [reflexivity|].
    exact (places_trans _ _ _ _ _ _ _ P (plain_places noNet mat' (cp_contour c) e' t' m1 noMaterial)).
  Qed.

  Lemma add_components_outcome : forall cs m, outcome (add_components ccw reverse scale m cs) m (collect place_comp cs) [].
  Proof.
    induction cs as [|c cs IH]; intros m; cbn [add_components collect]; [exists m; split; [auto|apply places_refl]|].
    exact (outcome_bind _ _ _ [] _ _ [] (add_component_outcome c m) (fun m' => IH m')).
  Qed.

  Lemma add_joint_outcome b w j m : outcome (add_joint ccw reverse scale steiner b w j m) m (place_joint b w j) [].
  Proof.
    unfold add_joint, place_joint; destruct j as [j|]; [|exists m; split; [auto|apply places_refl]].
    destruct (j_mat j) as [mat|]; [|cbn; discriminate].
    rewrite Qltb_gt; destruct (w_current w ?= 0); try (eexists; split; [reflexivity|apply add_shape_places]).
    destruct (j_heat j) as [heat| | |]; cbn [bind]; try (cbn; discriminate).
    destruct b.
    - eexists; split; [reflexivity|].
      exact (places_trans _ _ _ _ _ _ _ (power_places mat (sh_outline (j_shape j)) (w_scen w) heat (j_elev j) (j_thick j) (1#2) m) (add_shape_places _ _ _ _ _ _ _)).
    - eexists; split; [reflexivity|apply power_places].
  Qed.

  Lemma add_wire_outcome w m : outcome (add_wire ccw reverse scale steiner w m) m (place_prim mats heights (PWire w)) (wires_of [PWire w : prim poly point table path]).
  Proof.
    unfold add_wire, place_prim, wires_of; cbn [flat_map].
    destruct (w_path w) as [p|]; [|cbn; discriminate]; destruct (w_mat w) as [mat|]; [|cbn; discriminate].
    set (bw := mkBW _ _ _ _ _ _); cbn [app].
    set (m0 := mkCut _ _ _ _ _ _ _).
    assert (P : places m [] [bw] m0).
    { unfold places, pts_of, centres; cbn [flat_map]; replace (if steiner then _ else _) with (@nil point) by (destruct steiner; auto).
      split; [|cbn; rewrite app_nil_r; auto]; intros es Hh; exists []; rewrite app_nil_r; split; [constructor|exact Hh]. }
    destruct (w_joints w) as [[[j1 j2]|]|]; [|cbn; discriminate|exists m0; split; [reflexivity|exact P]].
    pose proof (outcome_bind _ _ _ [] _ _ [] (add_joint_outcome false w j1 m0) (fun m' => add_joint_outcome true w j2 m')) as O.
    destruct (match place_joint false w j1 with Some _ => _ | None => _ end) as [ps|]; [|exact O].
    destruct O as (m' & E & P'); exists m'; split; [exact E|].
    exact (places_trans _ _ _ _ _ _ _ P P').
  Qed.

  Definition cok {X} (f : Z -> option X) (c : list (Z * X)) : Prop := forall l x, alookup Z.eqb l c = Some x -> f l = Some x.
  Lemma cok_nil {X} (f : Z -> option X) : cok f [].
  Proof. intros l x; discriminate. Qed.
  Lemma cok_emplace {X} (f : Z -> option X) c l x : cok f c -> f l = Some x -> cok f (aemplace Z.eqb l x c).
  Proof.
    intros H E k y; rewrite (alookup_emplace _ Z_eqb_reflect).
    destruct (alookup Z.eqb k c) eqn:F; [intros [= <-]; apply H, F|].
    destruct (Z.eqb_spec k l) as [->|]; [intros [= <-]; exact E|discriminate].
  Qed.
  Lemma cached_mats_spec c l : cok mats c ->
    match mats l with Some x => exists c', cached_mats mats c l = Ok (x, c') /\ cok mats c' | None => cached_mats mats c l = Throw end.
  Proof.
    intros H; unfold cached_mats; destruct (alookup Z.eqb l c) as [x|] eqn:E.
    - rewrite (H _ _ E); eauto.
    - destruct (mats l) as [x|] eqn:F; [|auto]; eexists; split; [reflexivity|now apply cok_emplace].
  Qed.
  Lemma cached_height_spec c l : cok heights c ->
    match heights l with Some x => exists c', cached_height heights c l = Ok (x, c') /\ cok heights c' | None => cached_height heights c l = Throw end.
  Proof.
    intros H; unfold cached_height; destruct (alookup Z.eqb l c) as [x|] eqn:E.
    - rewrite (H _ _ E); eauto.
    - destruct (heights l) as [x|] eqn:F; [|auto]; eexists; split; [reflexivity|now apply cok_emplace].
  Qed.

  (** the outcome of a step that also hands on the cache of heights *)
  Definition outcome2 (r : res (cut * hcache)) (m : cut) (o : option (list placed)) (ws : list (bwire path)) : Prop :=
    match o with
    | Some ps => exists m' hc, r = Ok (m', hc) /\ cok heights hc /\ places m ps ws m'
    | None => forall x, r <> Ok x
    end.

  Lemma wires_cons (p : prim poly point table path) ps : wires_of (p :: ps) = wires_of [p] ++ wires_of ps.
  Proof. unfold wires_of; cbn [flat_map]; rewrite app_nil_r; reflexivity. Qed.

  Lemma add_prims_outcome : forall ps m mc hc, cok mats mc -> cok heights hc ->
    outcome2 (add_prims ccw reverse scale steiner mats heights m mc hc ps) m (collect (place_prim mats heights) ps) (wires_of ps).
  Proof.
    induction ps as [|p ps IH]; intros m mc hc Hm Hh; cbn [add_prims collect].
    { exists m, hc; repeat split; auto; apply places_refl. }
    destruct p as [w|net l s|].
    - rewrite wires_cons; pose proof (add_wire_outcome w m) as O.
      destruct (place_prim mats heights (PWire w)) as [x|]; cbn in O.
      + destruct O as (m1 & -> & P); cbn [bind]; specialize (IH m1 mc hc Hm Hh).
        destruct (collect (place_prim mats heights) ps) as [y|]; [|exact IH].
        destruct IH as (m2 & hc' & E & C & P2); exists m2, hc'; split; [exact E|split; [exact C|eapply places_trans; eauto]].
      + destruct (add_wire _ _ _ _ _ _) as [m1| | |]; [exfalso; eapply O; reflexivity|..]; cbn; discriminate.
    - rewrite wires_cons; cbn [place_prim]; pose proof (cached_mats_spec mc l Hm) as A; pose proof (cached_height_spec hc l Hh) as B.
      destruct (mats l) as [[cond diel]|]; [|rewrite A; cbn; discriminate].
      destruct A as (mc' & -> & Hm'); cbn [bind].
      destruct (heights l) as [[e t]|]; [|rewrite B; cbn; discriminate].
      destruct B as (hc' & -> & Hh'); cbn [bind].
      specialize (IH (add_shape net cond diel s e t m) mc' hc' Hm' Hh').
      destruct (collect (place_prim mats heights) ps) as [y|]; [|exact IH].
      destruct IH as (m2 & hc2 & E & C & P2); exists m2, hc2; split; [exact E|split; [exact C|]].
      exact (places_trans _ _ _ _ _ _ _ (add_shape_places net cond diel s e t m) P2).
    - rewrite wires_cons; cbn [place_prim]; specialize (IH m mc hc Hm Hh).
      destruct (collect (place_prim mats heights) ps) as [y|]; exact IH.
  Qed.

  Definition pad_on (i : pinst poly point) (mat l : Z) : option (list placed) :=
    match heights l, pi_shape i l with
    | Some (e, t), Some s => Some [mkP (pi_net i) mat mat s e t None]
    | _, _ => None end.

  Lemma add_pads_outcome i mat : forall n l m hc, cok heights hc ->
    outcome2 (add_pads ccw reverse scale steiner heights i mat m hc n l) m (collect (pad_on i mat) (map (fun k => l + Z.of_nat k)%Z (seq 0 n))) [].
  Proof.
    induction n as [|n IH]; intros l m hc Hh; cbn [add_pads seq map collect].
    { exists m, hc; repeat split; auto; apply places_refl. }
    replace (l + Z.of_nat 0)%Z with l by lia.
    pose proof (cached_height_spec hc l Hh) as B; unfold pad_on at 1.
    destruct (heights l) as [[e t]|]; [|rewrite B; cbn; discriminate].
    destruct B as (hc' & -> & Hh'); cbn [bind].
    destruct (pi_shape i l) as [s|]; [|cbn; discriminate].
    specialize (IH (l + 1)%Z (add_shape (pi_net i) mat mat s e t m) hc' Hh').
    rewrite <- seq_shift, map_map.
    rewrite (map_ext (fun k => l + Z.of_nat (Datatypes.S k))%Z (fun k => l + 1 + Z.of_nat k)%Z) by (intros; lia).
    destruct (collect (pad_on i mat) _) as [y|]; [|exact IH].
    destruct IH as (m2 & hc2 & E & C & P2); exists m2, hc2; split; [exact E|split; [exact C|]].
    exact (places_trans _ _ _ _ _ _ _ (add_shape_places _ _ _ s e t m) P2).
  Qed.

  Lemma add_insts_outcome : forall is m hc, cok heights hc ->
    outcome (add_insts ccw reverse scale steiner heights m hc is) m (collect (place_inst heights) is) [].
  Proof.
    induction is as [|i is IH]; intros m hc Hh; cbn [add_insts collect]; [exists m; split; [auto|apply places_refl]|].
    unfold place_inst at 1; destruct (pi_def i) as [[[mat|]|]|]; try (cbn; discriminate).
    - fold (pad_on i mat); unfold between.
      replace (Z.abs (pi_top i - pi_bot i) + 1)%Z with (Z.max (pi_top i) (pi_bot i) - Z.min (pi_top i) (pi_bot i) + 1)%Z by lia.
      pose proof (add_pads_outcome i mat (Z.to_nat (Z.max (pi_top i) (pi_bot i) - Z.min (pi_top i) (pi_bot i) + 1)) (Z.min (pi_top i) (pi_bot i)) m hc Hh) as O.
      cbv zeta; destruct (collect (pad_on i mat) _) as [x|]; cbn in O.
      + destruct O as (m1 & hc1 & -> & C & P); cbn [bind fst snd]; specialize (IH m1 hc1 C).
        destruct (collect (place_inst heights) is) as [y|]; [|exact IH].
        destruct IH as (m2 & E & P2); exists m2; split; [exact E|exact (places_trans _ _ _ _ _ _ _ P P2)].
      + destruct (add_pads _ _ _ _ _ _ _ _ _ _ _) as [m1| | |]; [exfalso; eapply O; reflexivity|..]; cbn; discriminate.
    - specialize (IH m hc Hh); destruct (collect (place_inst heights) is); exact IH.
  Qed.

  Lemma boxes_hold : forall boxes (m : cut) es done, holds m es done -> holds (fold_left add_imprint_box boxes m) es (done ++ boxes).
  Proof.
    induction boxes as [|b bs IH]; intros m es done H; cbn [fold_left]; [now rewrite app_nil_r|].
    replace (done ++ b :: bs) with ((done ++ [b]) ++ bs) by (rewrite <- app_assoc; auto).
    apply IH; destruct H as (A & B & C & (rs & D & L & F) & G).
    unfold holds, add_imprint_box; cbn [c_nets c_mats c_polys c_ranges c_blocks]; rewrite A, B, C, D, !map_app, <- !app_assoc; cbn [map].
    repeat (split; [reflexivity|]); split; [|exact G].
    exists (rs ++ [mkR (- (2 ^ 31 - 1)) (2 ^ 31 - 1)]); split; [now rewrite app_assoc|split; [rewrite !app_length; simpl; lia|]].
    apply Forall_app; split; [auto|constructor; [cbn; lia|constructor]].
  Qed.
  Lemma boxes_other : forall boxes (m : cut), c_points (fold_left add_imprint_box boxes m) = c_points m /\ c_wires (fold_left add_imprint_box boxes m) = c_wires m.
  Proof. induction boxes as [|b bs IH]; intros m; cbn [fold_left]; [auto|]; destruct (IH (add_imprint_box m b)) as [-> ->]; auto. Qed.

  Lemma build_outcome (l : layout poly point table path) :
    match place_all mats heights l with
    | Some ps => exists m, build_cut ccw reverse scale steiner mats heights l = Ok m /\
        (exists es, listed (flat_map pieces ps) es /\ holds m es (ly_boxes l)) /\
        c_points m = pts_of ps /\ c_wires m = wires_of (ly_prims l)
    | None => forall m, build_cut ccw reverse scale steiner mats heights l <> Ok m
    end.
  Proof.
    unfold build_cut, place_all.
    pose proof (add_stackup_outcome (ly_boundary l) (ly_stack l) cut_init) as O1.
    destruct (collect (place_layer (ly_boundary l)) (ly_stack l)) as [p1|]; cbn in O1.
    2:{ destruct (add_stackup _ _ _ _ _ _ _) as [m1| | |]; [exfalso; eapply O1; reflexivity|..]; cbn; discriminate. }
    destruct O1 as (m1 & -> & P1); cbn [bind].
    pose proof (add_components_outcome (ly_comps l) m1) as O2.
    destruct (collect place_comp (ly_comps l)) as [p2|]; cbn in O2.
    2:{ destruct (add_components _ _ _ _ _) as [m2| | |]; [exfalso; eapply O2; reflexivity|..]; cbn; discriminate. }
    destruct O2 as (m2 & -> & P2); cbn [bind].
    pose proof (add_prims_outcome (ly_prims l) m2 [] [] (cok_nil _) (cok_nil _)) as O3.
    destruct (collect (place_prim mats heights) (ly_prims l)) as [p3|]; cbn in O3.
    2:{ destruct (add_prims _ _ _ _ _ _ _ _ _ _) as [m3| | |]; [exfalso; eapply O3; reflexivity|..]; cbn; discriminate. }
    destruct O3 as (m3 & hc & -> & C & P3); cbn [bind fst snd].
    pose proof (add_insts_outcome (ly_insts l) m3 hc C) as O4.
    destruct (collect (place_inst heights) (ly_insts l)) as [p4|]; cbn in O4.
    2:{ destruct (add_insts _ _ _ _ _ _ _ _) as [m4| | |]; [exfalso; eapply O4; reflexivity|..]; cbn; discriminate. }
    destruct O4 as (m4 & -> & P4); cbn [bind]; eexists; split; [reflexivity|].
    pose proof (places_trans _ _ _ _ _ _ _ P1 (places_trans _ _ _ _ _ _ _ P2 (places_trans _ _ _ _ _ _ _ P3 P4))) as (G & Gp & Gw).
    destruct (boxes_other (ly_boxes l) m4) as [-> ->]; rewrite Gp, Gw; cbn [cut_init c_points c_wires app]; rewrite app_nil_r.
    split; [|auto]; destruct (G []) as (es & L & H).
    { unfold holds; cbn; repeat split; auto; [exists []; auto|intros i; now rewrite nth_error_nil || (destruct i; auto)]. }
    exists es; split; [exact L|]; exact (boxes_hold (ly_boxes l) m4 es [] H).
  Qed.
End Proofs.
