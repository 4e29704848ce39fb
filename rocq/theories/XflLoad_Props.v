(** From the text of an XFL file to the database. *)
From Coq Require Import Ascii.
From Verif Require Import Base XflText_Model XflText_Spec XflText_Gives XflText_File.
From Verif Require Import QSum Units_Model Names_Model Net_Model Bondwire_Model Padstack_Model LayerMap_Model Layers_Model
  Xfl_Model Xfl_Spec Xfl_Proofs Xfl_Props XflGeom_Model XflGeom_Spec XflGeom_Proofs XflFile_Model XflFile_Spec XflFile_Proofs XflFile_Props
  Units_Spec Units_Props XflLoad_Model XflLoad_Spec XflLoad_Proofs.
Local Open Scope list_scope.

Section C133.
  Context {S : Type} (place : placement -> eshape -> S) (path : Q -> eshape -> S).
  Context (valid : S -> bool) (contour : S -> S) (holes_valid : S -> list S -> bool).
  Context (arcs : pt -> arc_kind -> pt -> pt -> list pt) (boundary0 : option eshape) (value : string -> Q).
  Notation load := (load place path valid contour holes_valid arcs boundary0 value).

  (** ** C133: which texts become a database *)
  (** A text is imported exactly if it is read and gives a scale and a unit, no two of its complete vias share a name, and
      its outline is not one of its templates. *)
  Theorem C133_imported_iff : (forall a k m f, arcs a k m f <> []) -> forall s,
    (exists r, load s = Ok (Some r)) <-> fst (read value s) = true /\ complete (snd (read value s)).
  Proof.
    intros NE s; destruct (read value s) as [[|] cs] eqn:E; cbn [fst snd].
    - split; [intros [r L]; split; [reflexivity|]; eapply load_complete; eauto|intros [_ C]; eapply load_ok; eauto].
    - split; [intros [r L]; unfold XflLoad_Model.load in L; rewrite E in L; discriminate|intros [H _]; discriminate].
  Qed.

  (** The words of a complete file, in any layout, become a database. *)
  Theorem C133_written_is_imported : (forall a k m f, arcs a k m f <> []) -> forall cs ws s t,
    file_words value cs ws -> written ws s t -> gap t -> complete cs -> exists r, load s = Ok (Some r).
  Proof. intros NE cs ws s t F W G C; apply (load_ok place path valid contour holes_valid arcs boundary0 value NE s cs); [|exact C]; eapply file_reads; eauto. Qed.

  (** Without a scale or a unit the import is undefined. *)
  Theorem C133_no_scale_is_ub : forall s, fst (read value s) = true ->
    (forall q, ~ In (CScale q) (snd (read value s))) \/ (forall u, ~ In (CUnit u) (snd (read value s))) -> load s = UB.
  Proof.
    intros s; unfold XflLoad_Model.load; destruct (read value s) as [ok cs]; cbn [fst snd]; intros ->; unfold load_db.
    intros H; destruct (db_unit (handle_all cs)) as [u|] eqn:Eu; [|reflexivity]; apply handled_unit in Eu as (w & Lw & _).
    destruct (db_scale (handle_all cs)) as [q|] eqn:Eq; [|reflexivity]; apply handled_scale in Eq.
    exfalso; destruct H as [H|H]; [apply (H q), in_scales, is_last_in, Eq|apply (H w), in_units, is_last_in, Lw].
  Qed.

  (** A file that ends in a comment without a line end is refused, whatever it says, and leaves nothing behind. *)
  Theorem C133_open_comment_refused : forall cs ws s g b, file_words value cs ws -> written ws s (g ++ "#" ++ b)%string -> gap g ->
    chars (fun d => ~ newline d) b -> load s = Ok None.
  Proof. intros cs ws s g b F W G C; unfold XflLoad_Model.load; rewrite (file_open_comment value cs ws s g b F W G C); reflexivity. Qed.

  (** ** C134: what the database of a text holds *)
  (** Its layers are those of the file in order: name, kind, thickness and elevation; each with the material made for the
      first one of the file that has the name the layer says, or the default one. *)
  Theorem C134_layers : forall s r, load s = Ok (Some r) -> let cs := snd (read value s) in
    List.length (ly_list (i_layers (lo_db r))) = List.length (layers_of cs) /\
    exists q, is_last q (scales_of cs) /\ let scale := (coords_per (lo_unit r) / q)%Q in
    forall i l, nth_error (layers_of cs) i = Some l ->
      exists x u, nth_error (ly_list (i_layers (lo_db r))) i = Some x /\ nth_error (lo_stack r) i = Some u /\
        l_id x = Z.of_nat i /\ l_name x = ly_name l /\ (l_type x = LDielectric <-> ly_type l = "D"%char) /\ (l_type x = LConducting <-> ly_type l <> "D"%char) /\
        (su_thick u == scale * ly_thick l)%Q /\ (su_elev u == - (scale * sumf ly_thick (firstn i (layers_of cs))))%Q /\
        (forall name made default, (name, made, default) = (ly_cond l, su_cond u, "copper"%string) \/ (name, made, default) = (ly_diel l, su_diel u, "silicon"%string) ->
          (exists j m, first_named name j (mats_of cs) /\ nth_error (lo_mats r) j = Some (made, m)) \/
          (~ In name (map m_name (mats_of cs)) /\ made = default)).
  Proof.
    intros s r L cs; subst cs; destruct (read value s) as [ok cs] eqn:E; cbn [snd].
    assert (ok = true) as -> by (destruct ok; [reflexivity|]; unfold XflLoad_Model.load in L; rewrite E in L; discriminate).
    destruct (load_inv place path valid contour holes_valid arcs boundary0 value s r cs E L) as (w & q & made & mats & Lw & Lq & MI & Ei & Eu & Em & Es).
    rewrite Eu; set (scale := (coords_per (unit_handle w) / q)%Q) in *.
    assert (EL : i_layers (lo_db r) = fst (import_layers mats scale (map conv_layer (layers_of cs)))).
    { revert Ei; unfold import_file; cbn [conv_file x_scale x_unit x_mats x_layers].
      assert (Ed : db_unit (handle_all cs) = Some (unit_handle w)) by (apply handled_unit; eauto).
      pose proof (proj2 (handled_scale cs q) Lq) as Eq; rewrite Ed, Eq; cbn [option_map import_scale bind]; fold scale.
      destruct (build_templates _ _ _) as [ts| | |]; cbn [bind]; try discriminate.
      destruct (handle_all_lists cs) as (_ & _ & -> & _).
      destruct (import_layers mats scale (map conv_layer (layers_of cs))) as [ly st]; cbn [fst].
      destruct (import_vias _ _ _) as [vs| | |]; cbn [bind]; try discriminate.
      destruct (rmapl _ _) as [rs| | |]; cbn [bind]; try discriminate.
      destruct (import_routes _ _ _ _ _ _ _ _) as [is| | |]; cbn [bind]; try discriminate.
      match goal with |- bind ?b _ = _ -> _ => destruct b as [bo| | |]; try discriminate end; cbn [bind]; intros [= <-]; reflexivity. }
    destruct (import_layers mats scale (map conv_layer (layers_of cs))) as [ly st] eqn:EI; cbn [fst snd] in *; rewrite EL, Es.
    split; [rewrite (C64_count _ _ _ _ _ EI); apply map_length|].
    exists q; split; [exact Lq|]; intros i l Hl.
    assert (Hc : nth_error (map conv_layer (layers_of cs)) i = Some (conv_layer l)) by now apply map_nth_error.
    destruct (C64_ids _ _ _ _ _ _ _ EI Hc) as (x & Nx & X1 & X2 & X3 & X4), (C64_elevation _ _ _ _ _ _ _ EI Hc) as (u & Nu & U1 & U2 & U3 & U4 & U5).
    exists x, u; split; [exact Nx|]; split; [exact Nu|]; split; [exact X1|]; split; [exact X2|].
    assert (K : fl_kind (conv_layer l) = Dielectric <-> ly_type l = "D"%char).
    { cbn [conv_layer fl_kind]; destruct (Ascii.eqb_spec (ly_type l) "D") as [H|H]; [tauto|]; destruct (Ascii.eqb (ly_type l) "P"); split; congruence. }
    split; [now rewrite X3, K|]; split; [now rewrite X4, K|]; split; [exact U3|]; split.
    - rewrite U2, firstn_map.
      assert (SF : forall ls, sumf fl_thickness (map conv_layer ls) == sumf ly_thick ls) by (clear; induction ls as [|a ls IH]; cbn [map sumf]; [reflexivity|rewrite IH; reflexivity]).
      now rewrite SF.
    - assert (G : forall name md default, alookup String.eqb name mats = Some md \/ alookup String.eqb name mats = None /\ md = default ->
        (exists j m, first_named name j (mats_of cs) /\ nth_error (lo_mats r) j = Some (md, m)) \/ (~ In name (map m_name (mats_of cs)) /\ md = default)).
      { intros name md default H; destruct MI as (_ & _ & C & _); specialize (C name); rewrite Em; destruct H as [H|[H ->]]; rewrite H in C; [left|right; auto].
        destruct C as (j & m & F & N); eauto. }
      intros name md default [[= -> -> ->]|[= -> -> ->]]; apply G; assumption.
  Qed.

  (** Each material of the file becomes one of the database, with a name no other has: its own unless one made before has it,
      then its own with a number. *)
  Theorem C134_materials : forall s r, load s = Ok (Some r) ->
    map snd (lo_mats r) = mats_of (snd (read value s)) /\ NoDup (map fst (lo_mats r)) /\
    forall i n m, nth_error (lo_mats r) i = Some (n, m) ->
      (n = m_name m \/ exists k, n = (m_name m ++ to_dec k)%string) /\ (~ In (m_name m) (map fst (firstn i (lo_mats r))) -> n = m_name m).
  Proof.
    intros s r L; destruct (read value s) as [ok cs] eqn:E; cbn [snd].
    assert (ok = true) as -> by (destruct ok; [reflexivity|]; unfold XflLoad_Model.load in L; rewrite E in L; discriminate).
    destruct (load_inv place path valid contour holes_valid arcs boundary0 value s r cs E L) as (w & q & made & mats & Lw & Lq & MI & Ei & Eu & -> & Es).
    destruct MI as (A & B & _ & D & F); split; [exact A|]; split; [exact B|]; intros i n m N; split; [|now apply F].
    rewrite Forall_forall in D; apply (D (n, m)), (nth_error_In _ _ N).
  Qed.

  (** Its padstack definitions are the complete vias of the file, its nets the nets named there, its boundary comes from the last outline. *)
  Theorem C134_rest : (forall a k m f, arcs a k m f <> []) -> forall s r, load s = Ok (Some r) -> let cs := snd (read value s) in
    (forall vs, those (via_complete cs) (vias_of cs) vs -> map d_name (i_vias (lo_db r)) = map XflText_Model.v_name vs) /\
    (forall n, nc_find (i_nets (lo_db r)) n <> None <-> In n (map nt_name (nets_of cs))) /\
    (forall ps, is_last (XflText_Model.BPolygon ps) (boards_of cs) -> exists es, i_boundary (lo_db r) = Some (EPolygon es) /\ List.length es = List.length ps) /\
    (forall ps, is_last (XflText_Model.BComposite ps) (boards_of cs) -> exists es, i_boundary (lo_db r) = Some (EPolygon es)) /\
    (boards_of cs = [] -> i_boundary (lo_db r) = boundary0).
  Proof.
    intros NE s r L cs; subst cs; destruct (read value s) as [ok cs] eqn:E; cbn [snd].
    assert (ok = true) as -> by (destruct ok; [reflexivity|]; unfold XflLoad_Model.load in L; rewrite E in L; discriminate).
    pose proof (load_complete place path valid contour holes_valid arcs boundary0 value NE s r cs E L) as C.
    pose proof (read_ok value s) as H; rewrite E in H; cbn [snd] in H.
    destruct (load_inv place path valid contour holes_valid arcs boundary0 value s r cs E L) as (w & q & made & mats & Lw & Lq & MI & Ei & Eu & _ & Es).
    set (scale := (coords_per (unit_handle w) / q)%Q) in *.
    destruct (import_ok place path valid contour holes_valid arcs boundary0 NE _ (conv_importable cs made mats scale MI H C)) as (d & Ed & V & N & _ & B).
    rewrite Ei in Ed; injection Ed as <-.
    split; [|split; [|split; [|split]]].
    - intros vs T; rewrite (those_unique _ _ _ _ T (conv_vias cs made mats scale MI)), <- conv_via_names; exact V.
    - intros n; rewrite N; cbn [conv_file x_nets]; destruct (handle_all_lists cs) as (-> & _); apply import_nets_named.
    - intros ps Lb; cbn [conv_file x_board] in B; apply handled_board in Lb; rewrite Lb in B; exact B.
    - intros ps Lb; cbn [conv_file x_board] in B; apply handled_board in Lb; rewrite Lb in B; exact B.
    - intros Lb; cbn [conv_file x_board] in B; destruct (db_board (handle_all cs)) as [b|] eqn:Eb; [|exact B].
      apply handled_board in Eb; rewrite Lb in Eb; now apply is_last_nil in Eb.
  Qed.

  (** Its objects are those of the routes whose net the file names, on the metal layers the file counts, with the holes each
      shape takes (as C63 says); vias are those whose definition was made. *)
  Theorem C134_objects : forall s r, load s = Ok (Some r) -> let cs := snd (read value s) in
    exists q metal template rs, is_last q (scales_of cs) /\ let scale := (coords_per (lo_unit r) / q)%Q in
      (forall k id, alookup Z.eqb k metal = Some id <-> exists i, metal_number (layers_of cs) k i /\ id = Z.of_nat i) /\
      templates_are arcs scale template (templates_of cs) /\
      Forall2 (fun a b => fst b = r_net a /\ Forall2 (drawn place path arcs scale template) (r_objects a) (snd b)) (routes_of cs) rs /\
      map nameless (i_items (lo_db r)) =
        routes_things valid contour holes_valid metal (map d_name (i_vias (lo_db r))) (i_nets (lo_db r)) taken_holes rs /\
      NoDup (via_names (i_items (lo_db r))) /\
      (forall vs, those (via_complete cs) (vias_of cs) vs ->
        Forall2 (fun v d => d_name d = XflText_Model.v_name v /\ template (XflText_Model.v_shape v) = Some (d_via d) /\
          exists p, find (fun p => (ps_id p =? v_padstack v)%Z) (padstacks_of cs) = Some p /\
            import_padstack metal (map (pad_of template) (ps_pads p)) = Ok (d_map d, d_pads d)) vs (i_vias (lo_db r))).
  Proof.
    intros s r L cs; subst cs; destruct (read value s) as [ok cs] eqn:E; cbn [snd].
    assert (ok = true) as -> by (destruct ok; [reflexivity|]; unfold XflLoad_Model.load in L; rewrite E in L; discriminate).
    pose proof (read_ok value s) as H; rewrite E in H; cbn [snd] in H; rewrite Forall_forall in H.
    destruct (load_inv place path valid contour holes_valid arcs boundary0 value s r cs E L) as (w & q & made & mats & Lw & Lq & MI & Ei & Eu & Em & Es).
    rewrite Eu; set (scale := (coords_per (unit_handle w) / q)%Q) in *.
    destruct (import_inv _ _ _ _ _ _ _ _ _ Ei) as (scale' & ts & st & rs & items & used & E1 & E2 & E3 & E4 & E5 & E6 & E7 & E8).
    assert (scale' = scale) as ->.
    { cbn [conv_file x_scale x_unit] in E1; assert (Ed : db_unit (handle_all cs) = Some (unit_handle w)) by (apply handled_unit; eauto).
      rewrite Ed, (proj2 (handled_scale cs q) Lq) in E1; cbn [option_map import_scale] in E1; unfold scale; congruence. }
    clear Es Ei; unfold conv_file in E2, E3, E4, E6; cbn [x_templates x_mats x_layers x_padstacks x_vias x_routes] in E2, E3, E4, E6.
    destruct (handle_all_lists cs) as (L1 & L2 & L3 & L4 & L5 & L6 & L7); rewrite L7 in E2; rewrite L3 in E3; rewrite L6, L2 in E4; rewrite L4 in E6.
    assert (TA : templates_are arcs scale (fun id => alookup Z.eqb id ts) (templates_of cs)).
    { apply conv_templates; [|exact E2]; apply Forall_forall; intros t I; apply in_templates, H in I; apply I. }
    exists q, (ls_metal_map st), (fun id => alookup Z.eqb id ts), rs; split; [exact Lq|]; split; [|split; [exact TA|split; [|split; [|split]]]].
    - intros k id; rewrite (C64_metal_numbers _ _ _ _ _ k id E3); split.
      + intros (i & x & N & K & -> & ->); exists i; split; [|reflexivity]; rewrite nth_error_map in N; destruct (nth_error (layers_of cs) i) as [l|] eqn:Nl; [|discriminate]; injection N as <-.
        exists l; split; [exact Nl|]; split; [intros D; apply K; cbn [conv_layer fl_kind]; rewrite D; reflexivity|]; rewrite conv_metal; lia.
      + intros (i & (l & N & D & ->) & ->); exists i, (conv_layer l); split; [now apply map_nth_error|]; split; [|split; [reflexivity|rewrite conv_metal; lia]].
        cbn [conv_layer fl_kind]; destruct (Ascii.eqb_spec (ly_type l) "D"); [contradiction|]; destruct (Ascii.eqb (ly_type l) "P"); discriminate.
    - assert (RO : Forall (fun a => Forall object_ok (r_objects a)) (routes_of cs)) by (apply Forall_forall; intros a I; apply in_routes, H in I; apply I).
      revert E6 RO; clear; revert rs; induction (routes_of cs) as [|a l IH]; intros rs F RO; inversion F as [|? b ? ? [Hn Ho] F']; subst; constructor; [|inversion RO; subst; apply IH; assumption].
      cbn [fst snd] in *; split; [exact Hn|]; inversion RO as [|? ? Ro _]; subst; clear - Ho Ro; revert Ho; generalize (snd b); induction (r_objects a) as [|o os IH]; intros xs Ho; inversion Ho; subst; constructor.
      + apply conv_obj_drawn; [now inversion Ro|assumption].
      + apply IH; [now inversion Ro|assumption].
    - rewrite E8; destruct (import_routes_good valid contour holes_valid (ls_metal_map st) (map d_name (i_vias (lo_db r))) (i_nets (lo_db r)) rs []) as (i & Eg & M & _).
      rewrite E7 in Eg; injection Eg as -> _; exact M.
    - rewrite E8; apply (C63_via_names _ _ _ _ _ _ _ _ _ _ E7).
    - intros vs T.
      destruct (import_vias_cases (ls_metal_map st) (map (resolve_via ts (map conv_padstack (padstacks_of cs))) (map (conv_via mats) (vias_of cs))) []) as [(_ & ds & Ev & F)|[(_ & X)|X]];
        [|destruct X as [X|X]; [constructor| |]; congruence|exfalso; apply X; constructor].
      rewrite E4 in Ev; cbn [app] in Ev; injection Ev as ->.
      assert (K : forall v, XflGeom_Proofs.complete (resolve_via ts (map conv_padstack (padstacks_of cs)) (conv_via mats v)) = true <-> via_complete cs v).
      { intros v; rewrite <- (conv_via_known cs made mats scale MI v), <- (via_known_complete _ ts).
        - unfold conv_file; cbn [x_padstacks]; rewrite L6; reflexivity.
        - intros id; unfold conv_file; cbn [x_templates]; rewrite L7, map_map; cbn [fst]; specialize (TA id); split.
          + intros Hn; destruct (find (fun t => (t_id t =? id)%Z) (templates_of cs)) as [t|] eqn:Ef; [|congruence]; apply find_some in Ef as [It Et]; apply Z.eqb_eq in Et; subst id; now apply (in_map t_id).
          + intros I; apply in_map_iff in I as (t & <- & I); destruct (find (fun x => (t_id x =? t_id t)%Z) (templates_of cs)) as [t'|] eqn:Ef; [destruct TA as (e & _ & ->); discriminate|].
            apply (find_none _ _ Ef) in I; rewrite Z.eqb_refl in I; discriminate. }
      revert F; clear - T K; revert ds; induction T as [|v l sub Kv T IH|v l sub Kv T IH]; intros ds F; cbn [map filter] in F.
      + inversion F; constructor.
      + apply K in Kv; rewrite Kv in F; inversion F as [|? d ? ds' Hd F']; subst; constructor; [|apply IH; exact F'].
        destruct Hd as (H1 & H2 & fps & H3 & H4); cbn [resolve_via conv_via XflGeom_Model.v_name XflGeom_Model.v_shape v_pads] in *.
        split; [exact H1|]; split; [exact H2|].
        clear - H3 H4; induction (padstacks_of cs) as [|p ps IH]; cbn [map alookup option_map] in H3; [discriminate|]; cbn [conv_padstack fst snd find] in *; rewrite (Z.eqb_sym (ps_id p)).
        destruct (v_padstack v =? ps_id p)%Z; [|apply IH; exact H3]; exists p; split; [reflexivity|]; cbn [option_map] in H3; injection H3 as <-; rewrite map_map in H4; exact H4.
      + destruct (XflGeom_Proofs.complete _) eqn:Kc in F; [exfalso; apply Kv, K; exact Kc|apply IH; exact F].
  Qed.

  (** ** C135: lengths are in the unit the file names *)
  Theorem C135_inch_partial : forall s r, load s = Ok (Some r) -> exists w, is_last w (units_of (snd (read value s))) /\
    (keyword "inch" w -> lo_unit r = Inch) /\ (~ keyword "inch" w -> lo_unit r = Millimeter).
  Proof.
    intros s r L; destruct (read value s) as [ok cs] eqn:E; cbn [snd].
    assert (ok = true) as -> by (destruct ok; [reflexivity|]; unfold XflLoad_Model.load in L; rewrite E in L; discriminate).
    destruct (load_inv place path valid contour holes_valid arcs boundary0 value s r cs E L) as (w & q & made & mats & Lw & Lq & MI & Ei & -> & _ & Es).
    exists w; split; [exact Lw|]; unfold unit_handle; rewrite <- equals_keyword; destruct (equals_nocase w "inch"); split; congruence.
  Qed.
End C133.
Print Assumptions C133_imported_iff.
Print Assumptions C133_written_is_imported.
Print Assumptions C133_no_scale_is_ub.
Print Assumptions C133_open_comment_refused.
Print Assumptions C134_layers.
Print Assumptions C134_materials.
Print Assumptions C134_rest.
Print Assumptions C134_objects.
Print Assumptions C135_inch_partial.

(** A file with a material named twice, of which the layer gets the first *)
Definition nl : string := String "010" "".
Definition dq : string := String "034" "".
Definition ex_value (w : string) : Q := inject_Z (decimal w).
Definition ex_quoted (w : string) : string := (dq ++ w ++ dq)%string.
Definition ex_file (unit : string) : string :=
  (".unit " ++ unit ++ " .scale 1 .material C " ++ ex_quoted "CU" ++ " 58 C " ++ ex_quoted "CU" ++ " 59 .end material .layer " ++
   ex_quoted "top" ++ " 2 S " ++ ex_quoted "CU" ++ ex_quoted "FR" ++ " " ++ ex_quoted "core" ++ " 5 D " ++ ex_quoted "AU" ++ ex_quoted "FR" ++
   " .end layer .board_geom polygon { 0 0 3 0 3 4 } .end board_geom" ++ nl)%string.
Definition ex_load (s : string) : res (option (loaded eshape)) :=
  load (fun _ e => e) (fun _ e => e) (fun _ => true) (fun e => e) (fun _ _ => true) (fun a _ _ f => [a; f]) None ex_value s.
Definition ex_view (s : string) :=
  match ex_load s with
  | Ok (Some r) => Some (lo_unit r, map (fun p => (fst p, m_cond (snd p))) (lo_mats r),
                         map (fun u => (su_name u, (Qred (su_elev u), Qred (su_thick u)), (su_cond u, su_diel u))) (lo_stack r), i_boundary (lo_db r))
  | _ => None
  end.
Example C134_case : ex_view (ex_file "mm") =
  Some (Millimeter, [("CU", 58%Q); ("CU1", 59%Q)]%string,
        [("top", (0%Q, 2000000%Q), ("CU", "silicon")); ("core", ((-2000000)%Q, 5000000%Q), ("copper", "silicon"))]%string,
        Some (EPolygon [(0, 0); (3000000, 0); (3000000, 4000000)]%Z)).
Proof. vm_compute; reflexivity. Qed.

(** A file with a via, a square with a hole taken from a template, and a path *)
Definition ex_routed : string :=
  (".unit mm .scale 1 .layer " ++ ex_quoted "top" ++ " 2 S " ++ ex_quoted "CU" ++ ex_quoted "FR" ++ " " ++ ex_quoted "core" ++ " 5 D " ++ ex_quoted "AU" ++
   ex_quoted "FR" ++ " " ++ ex_quoted "low" ++ " 2 S " ++ ex_quoted "CU" ++ ex_quoted "FR" ++ " .end layer .shape 1 square 5 2 circle 3 .end shape .padstack 7 { 1 1 0" ++ nl ++
   "2 2 0" ++ nl ++ "} .end padstack .via V 7 0 2 0" ++ nl ++ " .end via .netlist " ++ ex_quoted "N" ++ " S 0 { } .end netlist .route " ++ ex_quoted "N" ++
   " { via 1 2 V 0 0 0 square 2 9 1 1 void_shape 2 1 2 3 90 Y path 1 3 { 0 0 4 4 } } .end route" ++ nl)%string.
Inductive ex_shape := Put (p : placement) (e : eshape) | Along (w : Q) (e : eshape).
Example C134_objects_case :
  match load Put Along (fun _ => true) (fun e => e) (fun _ _ => true) (fun a _ _ f => [a; f]) None ex_value ex_routed with
  | Ok (Some r) => Some (i_items (lo_db r), i_vias (lo_db r))
  | _ => None
  end = Some ([Xfl_Model.IVia "V_inst_1" "V" 0 0 2;
               IHoles 2 0 (Put (At (1000000, 1000000)%Z 0%Q "N" true) (EBox (-4) (-4) 4 4)) [Put (At (2000000, 3000000)%Z 90%Q "Y" true) (EBox (-2) (-2) 2 2)];
               Xfl_Model.IPath 0 0 (Along 3000000%Q (EPolygon [(0, 0); (4000000, 4000000)]%Z))]%Z,
              [{| d_name := "V"; d_map := [(-10, -10); (-1, -1); (0, 0); (1, 2)]%Z;
                  d_pads := [{| pad_lyr := "layer"; pad_par := Some (EBox (-2) (-2) 2 2) |}; {| pad_lyr := "layer"; pad_par := Some (ECircle 1) |}]; d_via := ECircle 1 |}])%string.
Proof. vm_compute; reflexivity. Qed.

Example C133_case : ex_load (".unit mm .version 2 1" ++ nl) = UB /\ ex_load (".scale 2 .version 2 1" ++ nl) = UB /\
  ex_load (".scale 2 .unit mm .version 2 1" ++ nl) <> UB /\ ex_load ".scale 2 .unit mm #" = Ok None /\
  (exists r, ex_load (".scale 2 .unit mm .shape 1 square 5 .end shape .board_geom shape 1 0 0 0 N .end board_geom .board_geom polygon { 0 0 1 1 } .end board_geom" ++ nl) = Ok (Some r)) /\
  ex_load (".scale 2 .unit mm .shape 1 square 5 .end shape .board_geom polygon { 0 0 1 1 } .end board_geom .board_geom shape 1 0 0 0 N .end board_geom" ++ nl) = UB.
Proof. split; [|split; [|split; [|split; [|split]]]]; try (vm_compute; reflexivity); [vm_compute; discriminate|eexists; vm_compute; reflexivity]. Qed.

(** The coordinates in one unit of length are nanometres, but for the rounding of doubles. *)
Theorem C135_coordinates : forall u, close (4 * ulp) (metres u * 1000000000) (coords_per u).
Proof.
  assert (C : forall x y, Qle_bool 0 x = true -> Qle_bool (x * (1 - 4 * ulp)) y = true -> Qle_bool y (x * (1 + 4 * ulp)) = true -> 0 < x -> close (4 * ulp) x y).
  { intros x y _ A B P; apply Qle_bool_iff in A, B; split; [auto|intros N; exfalso; lra]. }
  destruct u; apply C; vm_compute; reflexivity.
Qed.
Print Assumptions C135_coordinates.

(** Only inches are told apart: micrometers and mils are read as millimeters. *)
Theorem C135_unit_refuted : ex_view (ex_file "um") = ex_view (ex_file "mm") /\ ex_view (ex_file "mil") = ex_view (ex_file "mm") /\
  ex_view (ex_file "INCH") <> ex_view (ex_file "mm") /\ ex_view (ex_file "mm") <> None.
Proof. split; [vm_compute; reflexivity|]; split; [vm_compute; reflexivity|]; split; vm_compute; discriminate. Qed.
Print Assumptions C135_unit_refuted.
