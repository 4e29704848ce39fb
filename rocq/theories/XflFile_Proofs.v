From Verif Require Import Base QSum Units_Model Names_Model Net_Model Bondwire_Model Padstack_Model LayerMap_Model Layers_Model
  Xfl_Model Xfl_Spec Xfl_Proofs XflGeom_Model XflGeom_Spec XflGeom_Proofs XflFile_Model XflFile_Spec.
Open Scope res_scope.
Local Open Scope list_scope.

Lemma rmapl_ok {A B} (f : A -> res B) l : (forall a, In a l -> exists b, f a = Ok b) -> exists r, rmapl f l = Ok r /\ Forall2 (fun a b => f a = Ok b) l r.
Proof.
  induction l as [|a l IH]; intros H; simpl; [eexists; split; eauto|].
  destruct (H a (or_introl eq_refl)) as [b E]; rewrite E; cbn [bind].
  destruct IH as (r & -> & F); [intros; apply H; now right|]; cbn [bind]; eexists; split; [eauto|constructor; auto].
Qed.

Section File.
  Context {P S : Type} (place : P -> eshape -> S) (path : Q -> eshape -> S).
  Context (valid : S -> bool) (contour : S -> S) (holes_valid : S -> list S -> bool).
  Context (arcs : pt -> arc_kind -> pt -> pt -> list pt) (boundary0 : option eshape).
  Context (arcs_some : forall a k m f, arcs a k m f <> []).

  Lemma good_composite scale cs : good_pieces cs -> exists e, get_shape scale arcs (FComposite cs) = Ok e.
  Proof.
    intros (p & rest & -> & H); cbn [get_shape]; rewrite composite_ok by auto; cbn [bind]; eauto.
  Qed.
  Lemma good_shape_ok scale f : good_shape f -> exists e, get_shape scale arcs f = Ok e.
  Proof.
    destruct f as [ps|cs|w h|w|w|d|i o|w l r|w l r|w l r]; intros H; try (eexists; reflexivity); [apply good_composite; auto| |].
    - destruct (bullet_shape scale arcs w l r arcs_some) as (? & ? & ? & ? & E & _). eauto.
    - destruct (finger_shape scale arcs w l r arcs_some) as (? & ? & ? & ? & E & _). eauto.
  Qed.

  Lemma templates_ok scale ts : (forall id t, In (id, t) ts -> good_shape t) ->
    exists es, build_templates arcs scale ts = Ok es /\ (forall id, alookup Z.eqb id es <> None <-> In id (map fst ts)).
  Proof.
    intros H; unfold build_templates.
    destruct (rmapl_ok (fun t => e <- get_shape scale arcs (snd t) ;; Ok (fst t, e)) ts) as (r & -> & F).
    { intros [id t] I; simpl; destruct (good_shape_ok scale t (H id t I)) as [e ->]; cbn [bind]; eauto. }
    cbn [bind]; eexists; split; [reflexivity|].
    assert (K : map fst r = map fst ts).
    { clear - F; induction F as [|[id t] [id' e] l l' E F IH]; auto; simpl in *; destruct (get_shape scale arcs t); try discriminate; cbn [bind] in E; injection E as -> ->; f_equal; auto. }
    rewrite <- K; clear.
    assert (G : forall m id, alookup Z.eqb id (fold_left (fun m t => aemplace Z.eqb (fst t) (snd t) m) r m) <> None <-> In id (map fst r) \/ alookup Z.eqb id m <> None).
    { induction r as [|[i e] r IH]; intros m id; simpl; [tauto|].
      rewrite IH, (alookup_emplace _ Z_eqb_reflect); simpl; destruct (alookup Z.eqb id m) eqn:L; [split; [intros [|]; [auto|right; discriminate]|intros _; right; discriminate]|].
      destruct (Z.eqb_spec id i) as [->|N]; split; [auto|intros _; right; discriminate| |].
      - intros [|H]; [auto|congruence].
      - intros [[H|H]|H]; [congruence|auto|congruence]. }
    intros id; rewrite G; simpl; tauto.
  Qed.

  Lemma resolve_ok scale ts o : good_obj o -> exists r, resolve place path arcs scale ts o = Ok r.
  Proof.
    destruct o; simpl; eauto.
    - intros H; destruct (good_composite scale cs H) as [e E]; cbn [get_shape] in E; rewrite E; cbn [bind]; eauto.
    - intros H; destruct (good_shape_ok scale f H) as [e ->]; cbn [bind]; eauto.
  Qed.

  Lemma via_known_complete (f : xfl_file P) es v : (forall id, alookup Z.eqb id es <> None <-> In id (map fst (x_templates f))) ->
    complete (resolve_via es (x_padstacks f) v) = via_known f v.
  Proof.
    intros T; destruct v as [[[n ps] sh] mat]; unfold complete, via_known; simpl.
    assert (A : forall {B} id (m : list (Z * B)), existsb (fun q => (fst q =? id)%Z) m = match alookup Z.eqb id m with Some _ => true | None => false end).
    { intros B id m; induction m as [|[k b] m IH]; simpl; auto; rewrite IH; rewrite (Z.eqb_sym k id); destruct (id =? k)%Z; auto. }
    rewrite (A _ ps); destruct (alookup Z.eqb ps (x_padstacks f)); simpl; auto.
    specialize (T sh); rewrite A.
    assert (L : alookup Z.eqb sh (x_templates f) <> None <-> In sh (map fst (x_templates f))).
    { rewrite (alookup_none _ Z_eqb_reflect); unfold akeys; destruct (in_dec Z.eq_dec sh (map fst (x_templates f))); tauto. }
    destruct (alookup Z.eqb sh es), (alookup Z.eqb sh (x_templates f)); simpl; auto; try (destruct mat; reflexivity).
    - exfalso; refine (proj2 L _ eq_refl); apply (proj1 T); discriminate.
    - exfalso; refine (proj2 T _ eq_refl); apply (proj1 L); discriminate.
  Qed.
  Lemma via_names_known (f : xfl_file P) es : (forall id, alookup Z.eqb id es <> None <-> In id (map fst (x_templates f))) ->
    map v_name (filter complete (map (resolve_via es (x_padstacks f)) (x_vias f))) = map via_id (filter (via_known f) (x_vias f)).
  Proof.
    intros T; induction (x_vias f) as [|v vs IH]; auto; simpl; rewrite (via_known_complete f es v T).
    destruct (via_known f v); simpl; auto; f_equal; auto; destruct v as [[[]]]; auto.
  Qed.

  Lemma import_ok (f : xfl_file P) : importable f -> exists r, import_file place path valid contour holes_valid arcs boundary0 f = Ok r /\
    map d_name (i_vias r) = map via_id (filter (via_known f) (x_vias f)) /\ i_nets r = import_nets (x_nets f) /\
    List.length (ly_list (i_layers r)) = List.length (x_layers f) /\
    (match x_board f with
     | Some (inl (inl ps)) => exists es, i_boundary r = Some (EPolygon es) /\ List.length es = List.length ps
     | Some (inl (inr cs)) => exists es, i_boundary r = Some (EPolygon es)
     | _ => i_boundary r = boundary0 end).
  Proof.
    intros [H1 H2 H3 H4 H5 H6]; unfold import_file.
    destruct (x_scale f) as [s|]; [|congruence]; destruct (x_unit f) as [u|]; [|congruence]; cbn [import_scale bind]; set (scale := (u / s)%Q).
    destruct (templates_ok scale _ H3) as (es & -> & T); cbn [bind].
    destruct (import_layers (x_mats f) scale (x_layers f)) as [ly st] eqn:EL.
    assert (NV := via_names_known f es T).
    destruct (import_vias_cases (ls_metal_map st) (map (resolve_via es (x_padstacks f)) (x_vias f)) []) as [(_ & ds & -> & F)|[(H & _)|H]];
      [|exfalso; apply H; simpl; rewrite NV; auto|exfalso; apply H; constructor].
    cbn [bind app].
    destruct (rmapl_ok (fun r => os <- rmapl (resolve place path arcs scale es) (snd r) ;; Ok (fst r, os)) (x_routes f)) as (rs & -> & _).
    { intros [n os] I; simpl; destruct (rmapl_ok (resolve place path arcs scale es) os) as (q & -> & _); [|cbn [bind]; eauto].
      intros o Io; apply resolve_ok; eauto. }
    cbn [bind].
    destruct (import_routes_good valid contour holes_valid (ls_metal_map st) (map d_name ds) (import_nets (x_nets f)) rs []) as (items & -> & _); cbn [bind].
    assert (B : exists b, import_board scale arcs (match x_board f with
                                  | None => None
                                  | Some (inl (inl ps)) => Some (BPolygon ps)
                                  | Some (inl (inr cs)) => Some (BComposite cs)
                                  | Some (inr id) => Some (BTemplate (option_map snd (find (fun t => (fst t =? id)%Z) (x_templates f))))
                                  end) boundary0 = Ok b /\
         match x_board f with
     | Some (inl (inl ps)) => exists es, b = Some (EPolygon es) /\ List.length es = List.length ps
     | Some (inl (inr cs)) => exists es, b = Some (EPolygon es)
     | _ => b = boundary0 end).
    { destruct (x_board f) as [[[ps|cs]|id]|]; cbn [import_board].
      - cbn [get_shape bind]; eexists; split; [reflexivity|eexists; split; [reflexivity|apply map_length]].
      - destruct H6 as (p & rest & -> & H); cbn [get_shape]; rewrite composite_ok by auto; cbn [bind]; eauto.
      - destruct (find (fun t => (fst t =? id)%Z) (x_templates f)) as [[i t]|] eqn:E; simpl; [|eauto].
        exfalso; apply H6; apply find_some in E as [I E]; simpl in E; apply Z.eqb_eq in E as ->; apply (in_map fst) in I; auto.
      - eauto. }
    destruct B as (b & -> & Hb); cbn [bind]; eexists; split; [reflexivity|]; cbn.
    split; [|split; [auto|split; [|auto]]].
    - rewrite <- NV; clear - F; induction F as [|v d vs ds H F IH]; simpl; auto; f_equal; auto; apply H.
    - apply import_layers_layout in EL as [M _]; apply (f_equal (@List.length _)) in M; rewrite !map_length in M; auto.
  Qed.

  Lemma rmapl_bad {A B} (g : A -> res B) l a : In a l -> (forall b, g a <> Ok b) -> forall r, rmapl g l <> Ok r.
  Proof.
    intros I H; induction l as [|x l IH]; [contradiction|]; intros r; simpl.
    destruct I as [->|I]; [destruct (g a) eqn:E; cbn [bind]; try congruence; exfalso; eapply H; eauto|].
    destruct (g x); cbn [bind]; try congruence; destruct (rmapl g l) eqn:E; cbn [bind]; try congruence; exfalso; eapply IH; eauto.
  Qed.

  (** each of these alone spoils the import *)
  Lemma import_bad (f : xfl_file P) r : import_file place path valid contour holes_valid arcs boundary0 f = Ok r ->
    x_scale f <> None /\ x_unit f <> None /\
    (forall id p cs mid fin, In (id, FComposite (CPoint p :: cs)) (x_templates f) -> ~ In (CArc Arc3 mid fin) cs) /\
    ((forall id t, In (id, t) (x_templates f) -> good_shape t) -> NoDup (map via_id (filter (via_known f) (x_vias f)))) /\
    (forall id, x_board f = Some (inr id) -> ~ template_known f id).
  Proof.
    unfold import_file; destruct (x_scale f) as [s|]; [|discriminate]; destruct (x_unit f) as [u|]; [|discriminate]; cbn [import_scale bind]; set (scale := (u / s)%Q).
    intros E; split; [discriminate|split; [discriminate|]].
    destruct (build_templates arcs scale (x_templates f)) as [es| | |] eqn:Et; try discriminate; cbn [bind] in E.
    split; [|split].
    - intros id p cs mid fin I A; unfold build_templates in Et.
      destruct (rmapl (fun t => e <- get_shape scale arcs (snd t) ;; Ok (fst t, e)) (x_templates f)) eqn:R; try discriminate.
      eapply (rmapl_bad _ _ _ I); [|eauto]; intros b; cbn [fst snd get_shape]; rewrite (composite_ub scale arcs cs mid fin) by auto; discriminate.
    - intros G; destruct (templates_ok scale _ G) as (es' & Et' & T); rewrite Et in Et'; injection Et' as <-.
      destruct (import_layers (x_mats f) scale (x_layers f)) as [ly st].
      rewrite <- (via_names_known f es T).
      destruct (import_vias_cases (ls_metal_map st) (map (resolve_via es (x_padstacks f)) (x_vias f)) []) as [(N & _)|[(_ & H)|H]]; auto.
      + destruct H as [H|H]; [constructor| |]; rewrite H in E; discriminate.
      + exfalso; apply H; constructor.
    - intros id Hb K; rewrite Hb in E.
      destruct (import_layers (x_mats f) scale (x_layers f)) as [ly st].
      destruct (import_vias _ _ _) as [vias| | |]; try discriminate; cbn [bind] in E.
      destruct (rmapl _ (x_routes f)) as [rs| | |]; try discriminate; cbn [bind] in E.
      destruct (import_routes _ _ _ _ _ _ _ _) as [items| | |]; try discriminate; cbn [bind] in E.
      destruct (find (fun t => (fst t =? id)%Z) (x_templates f)) as [[i t]|] eqn:F; [discriminate|].
      unfold template_known in K; apply in_map_iff in K as ([i t] & Ei & I); apply (find_none _ _ F) in I; simpl in *; subst; rewrite Z.eqb_refl in I; discriminate.
  Qed.
End File.
