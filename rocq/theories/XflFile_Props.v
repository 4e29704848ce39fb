From Verif Require Import Base QSum Units_Model Names_Model Net_Model Bondwire_Model Padstack_Model LayerMap_Model Layers_Model
  Xfl_Model Xfl_Spec Xfl_Proofs XflGeom_Model XflGeom_Spec XflGeom_Proofs XflFile_Model XflFile_Spec XflFile_Proofs.
Local Open Scope list_scope.

Section C76.
  Context {P S : Type} (place : P -> eshape -> S) (path : Q -> eshape -> S).
  Context (valid : S -> bool) (contour : S -> S) (holes_valid : S -> list S -> bool).
  Context (arcs : pt -> arc_kind -> pt -> pt -> list pt) (boundary0 : option eshape).
  Notation import := (import_file place path valid contour holes_valid arcs boundary0).

  (** Every importable file is imported: all its layers, its known vias and its nets, and its outline as boundary. *)
  Theorem C76_import_partial : (forall a k m f, arcs a k m f <> []) -> forall f, importable f -> exists r, import f = Ok r /\
    map d_name (i_vias r) = map via_id (filter (via_known f) (x_vias f)) /\ i_nets r = import_nets (x_nets f) /\
    List.length (ly_list (i_layers r)) = List.length (x_layers f) /\
    (match x_board f with
     | Some (inl (inl ps)) => exists es, i_boundary r = Some (EPolygon es) /\ List.length es = List.length ps
     | Some (inl (inr cs)) => exists es, i_boundary r = Some (EPolygon es)
     | _ => i_boundary r = boundary0 end).
  Proof. intros; apply import_ok; auto. Qed.

  (** The definition of every known via: its own name, the shape of its template, and the pads of its padstack, each
      with the shape of its template and its metal number.  The template of a number is the first one of it. *)
  Theorem C76_via_definitions : forall f r, (forall id t, In (id, t) (x_templates f) -> good_shape t) -> (forall a k m p, arcs a k m p <> []) -> import f = Ok r ->
    exists scale metal (template : Z -> option eshape),
      import_scale (x_scale f) (x_unit f) = Ok scale /\
      (forall id, match find (fun t => (fst t =? id)%Z) (x_templates f) with
                  | Some t => exists e, get_shape scale arcs (snd t) = Ok e /\ template id = Some e
                  | None => template id = None end) /\
      Forall2 (fun v d =>
        let '(name, padstack, shape, _) := v in
        d_name d = name /\ template shape = Some (d_via d) /\
        exists ps, find (fun p => (fst p =? padstack)%Z) (x_padstacks f) = Some ps /\
          import_padstack metal (map (fun q => (template (fst q), snd q)) (snd ps)) = Ok (d_map d, d_pads d))
        (filter (via_known f) (x_vias f)) (i_vias r).
  Proof.
    intros f r G NE; unfold import_file; destruct (import_scale (x_scale f) (x_unit f)) as [scale| | |]; cbn [bind]; try discriminate; intros E.
    destruct (templates_ok arcs NE scale _ G) as (es & Et & T); rewrite Et in E; cbn [bind] in E.
    destruct (import_layers (x_mats f) scale (x_layers f)) as [ly st] eqn:EL.
    destruct (import_vias_cases (ls_metal_map st) (map (resolve_via es (x_padstacks f)) (x_vias f)) []) as [(_ & ds & Ev & F)|[(_ & H)|H]];
      [|destruct H as [H|H]; [constructor| |]; rewrite H in E; discriminate|exfalso; apply H; constructor].
    rewrite Ev in E; cbn [bind app] in E.
    destruct (rmapl _ (x_routes f)) as [rs| | |]; try discriminate; cbn [bind] in E.
    destruct (import_routes _ _ _ _ _ _ _ _) as [items| | |]; try discriminate; cbn [bind] in E.
    match type of E with bind ?b _ = _ => destruct b as [bo| | |]; try discriminate end; cbn [bind] in E; injection E as <-; cbn [i_vias].
    exists scale, (ls_metal_map st), (fun id => alookup Z.eqb id es); split; [reflexivity|split].
    - intros id.
      assert (A : forall l m es', rmapl (fun t => e <- get_shape scale arcs (snd t) ;; Ok (fst t, e)) l = Ok es' ->
        alookup Z.eqb id (fold_left (fun m t => aemplace Z.eqb (fst t) (snd t) m) es' m) =
        match alookup Z.eqb id m with Some x => Some x | None =>
          match find (fun t => (fst t =? id)%Z) l with Some t => match get_shape scale arcs (snd t) with Ok e => Some e | _ => None end | None => None end end).
      { clear; induction l as [|[i t] l IH]; intros m es'; cbn [rmapl].
        - intros [= <-]; cbn [fold_left find]; destruct (alookup Z.eqb id m); reflexivity.
        - cbn [fst snd]; destruct (get_shape scale arcs t) as [e| | |] eqn:Eg; cbn [bind]; try discriminate.
          destruct (rmapl _ l) as [es1| | |]; cbn [bind]; try discriminate; intros [= <-]; cbn [fold_left fst snd].
          rewrite (IH _ es1 eq_refl), (alookup_emplace _ Z_eqb_reflect); cbn [find fst snd].
          rewrite (Z.eqb_sym i id); destruct (alookup Z.eqb id m); [reflexivity|]; destruct (id =? i)%Z; [cbn [snd]; rewrite Eg; reflexivity|reflexivity]. }
      unfold build_templates in Et; destruct (rmapl _ (x_templates f)) as [es'| | |] eqn:Er; cbn [bind] in Et; try discriminate; injection Et as <-.
      rewrite (A _ [] es' Er); cbn [alookup].
      destruct (find (fun t => (fst t =? id)%Z) (x_templates f)) as [[i t]|] eqn:Ef; [|reflexivity]; cbn [snd].
      apply find_some in Ef as [I _]; destruct (good_shape_ok arcs NE scale t (G i t I)) as [e ->]; eauto.
    - clear - F T; revert ds F; induction (x_vias f) as [|v vs IH]; intros ds F; cbn [map filter] in *.
      + inversion F; constructor.
      + rewrite (via_known_complete f es v T) in F; destruct (via_known f v); [|apply IH; exact F].
        inversion F as [|? d ? ds' H F']; subst; constructor; [|apply IH; exact F'].
        destruct v as [[[n ps] sh] mat]; destruct H as (H1 & H2 & fps & H3 & H4); cbn [resolve_via v_name v_shape v_pads] in *.
        split; [exact H1|split; [exact H2|]].
        assert (B : forall (l : list (Z * list (Z * Z))) y, alookup Z.eqb ps l = Some y -> exists p, find (fun p => (fst p =? ps)%Z) l = Some p /\ snd p = y).
        { clear; induction l as [|[k x] l IH]; intros y; cbn [alookup find fst]; [discriminate|]; rewrite (Z.eqb_sym k ps); destruct (ps =? k)%Z; [intros [= <-]; eauto|apply IH]. }
        destruct (alookup Z.eqb ps (x_padstacks f)) as [l|] eqn:El; cbn [option_map] in H3; [|discriminate]; injection H3 as <-.
        destruct (B _ _ El) as (p & Hp & <-); exists p; split; [exact Hp|exact H4].
  Qed.

  (** What a file must have for the import to end well: without scale or unit, with an outline from a template it
      has, with a three point arc in any template, or with two vias of a name, it never does. *)
  Theorem C76_import_refuted : (forall a k m f, arcs a k m f <> []) -> forall f,
    x_scale f = None \/ x_unit f = None \/
    (exists id p cs mid fin, In (id, FComposite (CPoint p :: cs)) (x_templates f) /\ In (CArc Arc3 mid fin) cs) \/
    (exists id, x_board f = Some (inr id) /\ template_known f id) \/
    ((forall id t, In (id, t) (x_templates f) -> good_shape t) /\ ~ NoDup (map via_id (filter (via_known f) (x_vias f)))) ->
    forall r, import f <> Ok r.
  Proof.
    intros NE f H r E; apply import_bad in E; auto.
    destruct E as (A & B & C & D & G), H as [H|[H|[(id & p & cs & mid & fin & H1 & H2)|[(id & H1 & H2)|(H1 & H2)]]]]; try congruence.
    - eapply C; eauto.
    - eapply G; eauto.
    - auto.
  Qed.

  (** Without scale or unit the first thing the import does is undefined, whatever else the file holds. *)
  Theorem C76_no_scale_is_ub : forall f, x_scale f = None \/ x_unit f = None -> import f = UB.
  Proof. intros f [H|H]; unfold import_file; rewrite H; [|destruct (x_scale f)]; reflexivity. Qed.

  (** In a file that would be importable with no outline, one from a template it has is undefined. *)
  Theorem C76_template_outline_is_ub : (forall a k m f, arcs a k m f <> []) -> forall f id,
    importable {| x_scale := x_scale f; x_unit := x_unit f; x_mats := x_mats f; x_layers := x_layers f; x_templates := x_templates f; x_padstacks := x_padstacks f;
                  x_vias := x_vias f; x_nets := x_nets f; x_routes := x_routes f; x_board := None |} ->
    x_board f = Some (inr id) -> template_known f id -> import f = UB.
  Proof.
    intros NE f id H B T; destruct (C76_import_partial NE _ H) as (r & E & _); revert E; unfold import_file; cbn [x_scale x_unit x_mats x_layers x_templates x_padstacks x_vias x_nets x_routes x_board].
    destruct (import_scale _ _) as [scale| | |]; cbn [bind]; try discriminate.
    destruct (build_templates _ _ _) as [ts| | |]; cbn [bind]; try discriminate.
    destruct (import_layers _ _ _) as [ly st].
    destruct (import_vias _ _ _) as [vs| | |]; cbn [bind]; try discriminate.
    destruct (rmapl _ _) as [rs| | |]; cbn [bind]; try discriminate.
    destruct (import_routes _ _ _ _ _ _ _ _) as [is| | |]; cbn [bind]; try discriminate; intros _.
    rewrite B; destruct (find (fun t => (fst t =? id)%Z) (x_templates f)) as [t|] eqn:Ef; [reflexivity|].
    exfalso; unfold template_known in T; apply in_map_iff in T as ([i t] & Hi & I); cbn [fst] in Hi; subst i.
    apply (find_none _ _ Ef) in I; cbn [fst] in I; rewrite Z.eqb_refl in I; discriminate.
  Qed.

  (** A route of one shape: a ring is placed whether or not it is marked as a void, any other shape only when it is
      not; the net and the layer must be known. *)
  Theorem C76_lone_shape : (forall a k m f, arcs a k m f <> []) -> forall f n ring void l fs p,
    importable f -> x_routes f = [(n, [RShape ring void l fs p])] -> exists r scale e, import f = Ok r /\
      import_scale (x_scale f) (x_unit f) = Ok scale /\ get_shape scale arcs fs = Ok e /\
      i_items r = match nc_find (import_nets (x_nets f)) n, alookup Z.eqb l (ls_metal_map (snd (import_layers (x_mats f) scale (x_layers f)))) with
                  | Some x, Some id => if (ring || negb void) && valid (place p e) then [IShape id (net_id x) (place p e)] else []
                  | _, _ => [] end.
  Proof.
    intros NE f n ring void l fs p H R; destruct (C76_import_partial NE _ H) as (r & E & _).
    assert (G : good_shape fs) by exact (im_routes f H n [RShape ring void l fs p] (RShape ring void l fs p) ltac:(rewrite R; left; reflexivity) ltac:(left; reflexivity)).
    exists r; revert E; unfold import_file.
    destruct (import_scale _ _) as [scale| | |]; cbn [bind]; try discriminate.
    destruct (good_shape_ok arcs NE scale fs G) as [e Eg].
    destruct (build_templates _ _ _) as [ts| | |]; cbn [bind]; try discriminate.
    destruct (import_layers _ _ _) as [ly st] eqn:EL.
    destruct (import_vias _ _ _) as [vs| | |]; cbn [bind]; try discriminate.
    rewrite R; cbn [rmapl fst snd resolve]; rewrite Eg; cbn [bind].
    cbn [import_routes]; intros E; exists scale, e; split; [exact E|split; [reflexivity|split; [exact Eg|]]]; rewrite EL; cbn [snd].
    destruct (nc_find (import_nets (x_nets f)) n) as [x|].
    - cbn [List.length objects_loop] in E; destruct ring.
      + destruct (alookup Z.eqb l (ls_metal_map st)) as [id|]; cbn [orb andb]; [destruct (valid (place p e))|];
          cbn [bind fst snd app] in E; match type of E with bind ?b _ = _ => destruct b as [bo| | |]; try discriminate end; injection E as <-; reflexivity.
      + destruct void; cbn [orb negb andb].
        * cbn [bind fst snd app] in E; match type of E with bind ?b _ = _ => destruct b as [bo| | |]; try discriminate end; injection E as <-; destruct (alookup _ _ _); reflexivity.
        * destruct (alookup Z.eqb l (ls_metal_map st)) as [id|]; cbn [take_holes] in E; [destruct (valid (place p e))|];
            cbn [bind fst snd app] in E; match type of E with bind ?b _ = _ => destruct b as [bo| | |]; try discriminate end; injection E as <-; reflexivity.
    - cbn [bind fst] in E; match type of E with bind ?b _ = _ => destruct b as [bo| | |]; try discriminate end; injection E as <-; reflexivity.
  Qed.
End C76.
Print Assumptions C76_no_scale_is_ub.
Print Assumptions C76_template_outline_is_ub.
Print Assumptions C76_lone_shape.
Print Assumptions C76_import_partial.
Print Assumptions C76_via_definitions.
Print Assumptions C76_import_refuted.

Definition ex_file (b : option (list pt + list piece + Z)) : xfl_file unit :=
  {| x_scale := Some 10%Q; x_unit := Some 1000%Q; x_mats := [];
     x_layers := [ {| fl_name := "a"; fl_thickness := 1%Q; fl_kind := Signal; fl_cond := "c"; fl_diel := "d" |};
                   {| fl_name := "b"; fl_thickness := 1%Q; fl_kind := Dielectric; fl_cond := "c"; fl_diel := "d" |} ];
     x_templates := [(1, FOblong 2 1 1); (2, FCircle 3)]%Z%Q;
     x_padstacks := [(7, [(2, 1)])]%Z;
     x_vias := [("v", 7, 1, true); ("w", 8, 1, true)]%string%Z;
     x_nets := ["n"%string];
     x_routes := [("n"%string, [RTemplate false 1 1 tt; RVia 1 1 "v"; RShape false false 1 (FPolygon [(0%Q, 0%Q); (1%Q, 0%Q)]) tt])];
     x_board := b |}.
Example C76_case : importable (ex_file (Some (inl (inl [(0%Q, 0%Q); (5%Q, 0%Q); (0%Q, 5%Q)])))).
Proof.
  constructor; simpl; try discriminate; auto.
  - intros id t [H|[H|[]]]; injection H as _ <-; exact I.
  - intros n os o [H|[]]; injection H as _ <-; intros [<-|[<-|[<-|[]]]]; exact I.
  - constructor; [intros []|constructor].
Qed.
Example C76_run : let run b := import_file (fun (_ : unit) e => e) (fun _ e => e) (fun _ => true) (fun e => e) (fun _ _ => true) (fun a _ _ f => [a; f]) None (ex_file b) in
  match run (Some (inl (inl [(0%Q, 0%Q); (5%Q, 0%Q); (0%Q, 5%Q)]))) with
  | Ok r => i_items r = [IShape 0 0 (EBox (-100) (-100) 100 100); IVia "v_inst_1" "v" 0 0 0; IShape 0 0 (EPolygon [(0, 0); (100, 0)])]%Z
            /\ i_boundary r = Some (EPolygon [(0, 0); (500, 0); (0, 500)]%Z)
  | _ => False
  end /\ run (Some (inr 2%Z)) = UB.
Proof. vm_compute; auto. Qed.
