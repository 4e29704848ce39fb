From Coq Require Import Ascii.
From Verif Require Import Base XflText_Model XflText_Spec XflText_Gives.
From Verif Require Import QSum Units_Model Names_Model Names_Spec Names_Proofs Net_Model Bondwire_Model Padstack_Model LayerMap_Model Layers_Model
  Xfl_Model Xfl_Spec Xfl_Proofs XflGeom_Model XflGeom_Spec XflGeom_Proofs XflFile_Model XflFile_Spec XflFile_Proofs XflLoad_Model XflLoad_Spec.
Open Scope res_scope.
Local Open Scope list_scope.

(** ** The handlers *)
Lemma handle_lists cs : forall d,
  db_nets (fold_left handle cs d) = db_nets d ++ nets_of cs /\ db_vias (fold_left handle cs d) = db_vias d ++ vias_of cs /\
  db_layers (fold_left handle cs d) = db_layers d ++ layers_of cs /\ db_routes (fold_left handle cs d) = db_routes d ++ routes_of cs /\
  db_mats (fold_left handle cs d) = db_mats d ++ mats_of cs /\ db_padstacks (fold_left handle cs d) = db_padstacks d ++ padstacks_of cs /\
  db_templates (fold_left handle cs d) = db_templates d ++ templates_of cs /\
  db_unit (fold_left handle cs d) = fold_left (fun _ u => Some (unit_handle u)) (units_of cs) (db_unit d) /\
  db_scale (fold_left handle cs d) = fold_left (fun _ q => Some q) (scales_of cs) (db_scale d) /\
  db_board (fold_left handle cs d) = fold_left (fun _ b => Some b) (boards_of cs) (db_board d).
Proof.
  induction cs as [|c cs IH]; intros d.
  - cbn; rewrite !app_nil_r; repeat split; reflexivity.
  - cbn [fold_left]; destruct (IH (handle d c)) as (-> & -> & -> & -> & -> & -> & -> & -> & -> & ->); clear IH.
    destruct d; destruct c; cbn; rewrite <- ?app_assoc; repeat split; reflexivity.
Qed.
Lemma handle_all_lists cs :
  db_nets (handle_all cs) = nets_of cs /\ db_vias (handle_all cs) = vias_of cs /\ db_layers (handle_all cs) = layers_of cs /\
  db_routes (handle_all cs) = routes_of cs /\ db_mats (handle_all cs) = mats_of cs /\ db_padstacks (handle_all cs) = padstacks_of cs /\
  db_templates (handle_all cs) = templates_of cs.
Proof. destruct (handle_lists cs db_clear) as (A & B & C & D & E & F & G & _); unfold handle_all; repeat split; assumption. Qed.

Lemma fold_last {A B} (f : A -> B) l : forall o,
  (l = [] /\ fold_left (fun _ x => Some (f x)) l o = o) \/ (exists x, is_last x l /\ fold_left (fun _ x => Some (f x)) l o = Some (f x)).
Proof.
  destruct l as [|x l] using rev_ind; intros o; [left; split; reflexivity|].
  right; exists x; split; [exists l; reflexivity|]; now rewrite fold_left_app.
Qed.
Lemma is_last_unique {A} (x y : A) l : is_last x l -> is_last y l -> x = y.
Proof. intros [a ->] [b H]; apply app_inj_tail in H; tauto. Qed.
Lemma is_last_in {A} (x : A) l : is_last x l -> In x l.
Proof. intros [a ->]; apply in_or_app; right; left; reflexivity. Qed.
Lemma is_last_nil {A} (x : A) : ~ is_last x [].
Proof. intros [a H]; now apply app_cons_not_nil in H. Qed.
Lemma last_some {A} (x : A) l : In x l -> exists y, is_last y l.
Proof. destruct l as [|y l] using rev_ind; intros H; [destruct H|exists y; exists l; reflexivity]. Qed.

Lemma handled_scale cs q : db_scale (handle_all cs) = Some q <-> is_last q (scales_of cs).
Proof.
  destruct (handle_lists cs db_clear) as (_ & _ & _ & _ & _ & _ & _ & _ & E & _); unfold handle_all; rewrite E; cbn [db_clear db_scale].
  destruct (fold_last (fun q : Q => q) (scales_of cs) None) as [[H ->]|(x & L & ->)].
  - rewrite H; split; [discriminate|intros L; now apply is_last_nil in L].
  - split; [intros [= <-]; exact L|intros L'; f_equal; now apply (is_last_unique _ _ _ L)].
Qed.
Lemma handled_board cs b : db_board (handle_all cs) = Some b <-> is_last b (boards_of cs).
Proof.
  destruct (handle_lists cs db_clear) as (_ & _ & _ & _ & _ & _ & _ & _ & _ & E); unfold handle_all; rewrite E; cbn [db_clear db_board].
  destruct (fold_last (fun b : XflText_Model.board => b) (boards_of cs) None) as [[H ->]|(x & L & ->)].
  - rewrite H; split; [discriminate|intros L; now apply is_last_nil in L].
  - split; [intros [= <-]; exact L|intros L'; f_equal; now apply (is_last_unique _ _ _ L)].
Qed.
Lemma handled_unit cs u : db_unit (handle_all cs) = Some u <-> exists w, is_last w (units_of cs) /\ unit_handle w = u.
Proof.
  destruct (handle_lists cs db_clear) as (_ & _ & _ & _ & _ & _ & _ & E & _ & _); unfold handle_all; rewrite E; cbn [db_clear db_unit].
  destruct (fold_last unit_handle (units_of cs) None) as [[H ->]|(x & L & ->)].
  - rewrite H; split; [discriminate|intros (w & L & _); now apply is_last_nil in L].
  - split; [intros [= <-]; exists x; auto|intros (w & L' & <-); f_equal; f_equal; now apply (is_last_unique _ _ _ L)].
Qed.
Lemma in_units cs u : In u (units_of cs) <-> In (CUnit u) cs.
Proof.
  unfold units_of; rewrite in_flat_map; split.
  - intros (c & I & H); destruct c; try (destruct H; fail); destruct H as [<-|[]]; exact I.
  - intros I; exists (CUnit u); split; [exact I|left; reflexivity].
Qed.
Lemma in_scales cs u : In u (scales_of cs) <-> In (CScale u) cs.
Proof.
  unfold scales_of; rewrite in_flat_map; split.
  - intros (c & I & H); destruct c; try (destruct H; fail); destruct H as [<-|[]]; exact I.
  - intros I; exists (CScale u); split; [exact I|left; reflexivity].
Qed.
Lemma in_boards cs u : In u (boards_of cs) <-> In (CBoard u) cs.
Proof.
  unfold boards_of; rewrite in_flat_map; split.
  - intros (c & I & H); destruct c; try (destruct H; fail); destruct H as [<-|[]]; exact I.
  - intros I; exists (CBoard u); split; [exact I|left; reflexivity].
Qed.
Lemma in_templates cs u : In u (templates_of cs) <-> In (CShape u) cs.
Proof.
  unfold templates_of; rewrite in_flat_map; split.
  - intros (c & I & H); destruct c; try (destruct H; fail); destruct H as [<-|[]]; exact I.
  - intros I; exists (CShape u); split; [exact I|left; reflexivity].
Qed.
Lemma in_routes cs u : In u (routes_of cs) <-> In (CRoute u) cs.
Proof.
  unfold routes_of; rewrite in_flat_map; split.
  - intros (c & I & H); destruct c; try (destruct H; fail); destruct H as [<-|[]]; exact I.
  - intros I; exists (CRoute u); split; [exact I|left; reflexivity].
Qed.

(** ** Letter case *)
Lemma lower_code a b : lower a = lower b <-> alike a b.
Proof.
  unfold lower; split.
  - destruct ((65 <=? nat_of_ascii a)%nat && (nat_of_ascii a <=? 90)%nat) eqn:Ea, ((65 <=? nat_of_ascii b)%nat && (nat_of_ascii b <=? 90)%nat) eqn:Eb;
      rewrite ?andb_true_iff, ?Nat.leb_le in *; intros H.
    + left; apply (f_equal nat_of_ascii) in H; rewrite !nat_ascii_embedding in H by lia.
      rewrite <- (ascii_nat_embedding a), <- (ascii_nat_embedding b); f_equal; lia.
    + right; exists (nat_of_ascii a); split; [lia|left]; split; [now rewrite ascii_nat_embedding|now symmetry].
    + right; exists (nat_of_ascii b); split; [lia|right]; split; [exact H|now rewrite ascii_nat_embedding].
    + left; exact H.
  - intros [->|(n & B & [[-> ->]|[-> ->]])]; [reflexivity| |]; rewrite !nat_ascii_embedding by lia;
      (destruct (Nat.leb_spec 65 n), (Nat.leb_spec n 90), (Nat.leb_spec 65 (n + 32)), (Nat.leb_spec (n + 32) 90); try lia; reflexivity).
Qed.
Lemma equals_keyword w : forall k, equals_nocase w k = true <-> keyword k w.
Proof.
  induction w as [|c w IH]; intros [|d k]; cbn [equals_nocase keyword]; try (split; [discriminate|intros []]); [tauto|].
  rewrite andb_true_iff, Ascii.eqb_eq, IH, lower_code.
  assert (S : forall a b, alike a b -> alike b a).
  { intros a b [->|(n & B & [[-> ->]|[-> ->]])]; [left; reflexivity|right; exists n; split; [exact B|right; split; reflexivity]|right; exists n; split; [exact B|left; split; reflexivity]]. }
  split; intros [A W]; split; auto.
Qed.

(** ** Materials *)
Definition mats_inv (done : list XflText_Model.material) (made : list (string * XflText_Model.material)) (m : list (string * string)) : Prop :=
  map snd made = done /\ NoDup (map fst made) /\
  (forall name, match alookup String.eqb name m with
                | Some n => exists i x, first_named name i done /\ nth_error made i = Some (n, x)
                | None => ~ In name (map m_name done) end) /\
  Forall (fun p => fst p = m_name (snd p) \/ exists k, fst p = (m_name (snd p) ++ to_dec k)%string) made /\
  (forall i n x, nth_error made i = Some (n, x) -> ~ In (m_name x) (map fst (firstn i made)) -> n = m_name x).
Lemma first_named_snoc name i done x : first_named name i done -> first_named name i (done ++ [x]).
Proof.
  intros [(m & N & E) F]; assert (i < List.length done)%nat by (apply nth_error_Some; congruence).
  split; [exists m; rewrite nth_error_app1 by lia; auto|]; intros j y L; rewrite nth_error_app1 by lia; now apply F.
Qed.
Lemma import_mats_inv ms : forall done made m, mats_inv done made m ->
  exists made' m', import_mats ms made m = Ok (made', m') /\ mats_inv (done ++ ms) made' m'.
Proof.
  induction ms as [|x ms IH]; intros done made m I; cbn [import_mats].
  - rewrite app_nil_r; eauto.
  - set (count := fun n => existsb (String.eqb n) (map fst made)).
    assert (HC : forall n, count n = true <-> In n (map fst made)).
    { intros n; unfold count; rewrite existsb_exists; split; [intros (y & Iy & Ey); apply String.eqb_eq in Ey; now subst|intros Iy; exists n; split; [exact Iy|apply String.eqb_refl]]. }
    assert (NK : exists n, next_key (Datatypes.S (List.length made)) count (m_name x) = Ok n /\ ~ In n (map fst made) /\
      (n = m_name x \/ In (m_name x) (map fst made) /\ exists k, n = (m_name x ++ to_dec k)%string)).
    { unfold next_key; destruct (count (m_name x)) eqn:E; cbn [negb].
      - destruct (loop_terminates (map fst made) count HC (m_name x) 1) as [r Hr]; rewrite map_length in Hr; exists r; split; [exact Hr|].
        destruct (loop_sound (map fst made) count HC _ _ _ _ Hr) as (N & k & _ & -> & _); split; [exact N|right]; split; [now apply HC|eauto].
      - exists (m_name x); split; [reflexivity|split; [intros H; apply HC in H; congruence|left; reflexivity]]. }
    destruct NK as (n & -> & Fr & Nm); cbn [bind].
    destruct (IH (done ++ [x]) (made ++ [(n, x)]) (aemplace String.eqb (m_name x) n m)) as (made' & m' & E & I').
    2:{ exists made', m'; split; [exact E|]; now rewrite <- app_assoc in I'. }
    destruct I as (A & B & C & D & F).
    assert (Len : List.length made = List.length done) by (rewrite <- A, map_length; reflexivity).
    split; [now rewrite map_app, A|]; split; [|split; [|split]].
    + rewrite map_app; cbn [map fst]; apply (NoDup_Add (a := n) (l := map fst made)); [|split; assumption].
      rewrite <- (app_nil_r (map fst made)) at 1; apply Add_app.
    + intros name; rewrite (alookup_emplace _ String.eqb_spec).
      specialize (C name); destruct (alookup String.eqb name m) as [y|].
      * destruct C as (i & z & Fi & Nz); exists i, z; split; [now apply first_named_snoc|].
        rewrite nth_error_app1; [exact Nz|apply nth_error_Some; congruence].
      * destruct (String.eqb_spec name (m_name x)) as [->|Ne].
        -- exists (List.length done), x; split.
           ++ split; [exists x; rewrite nth_error_app2, Nat.sub_diag by lia; auto|].
              intros j y L; rewrite nth_error_app1 by lia; intros Ny Ey; apply C; rewrite <- Ey; apply in_map, (nth_error_In _ _ Ny).
           ++ rewrite nth_error_app2 by lia; rewrite Len, Nat.sub_diag; reflexivity.
        -- rewrite map_app, in_app_iff; cbn [map]; intros [H|[H|[]]]; [now apply C|congruence].
    + apply Forall_app; split; [exact D|]; constructor; [|constructor]; cbn [fst snd]; destruct Nm as [->|(_ & k & ->)]; [left; reflexivity|right; eauto].
    + intros i n' x' Hn Hf; destruct (Nat.lt_ge_cases i (List.length made)) as [L|L].
      * rewrite nth_error_app1 in Hn by lia; apply (F i n' x' Hn); rewrite firstn_app in Hf; replace (i - List.length made)%nat with 0%nat in Hf by lia; cbn [firstn] in Hf; now rewrite app_nil_r in Hf.
      * assert (i = List.length made) as ->.
        { assert (i < List.length (made ++ [(n, x)]))%nat by (apply nth_error_Some; congruence); rewrite app_length in *; cbn [List.length] in *; lia. }
        rewrite nth_error_app2, Nat.sub_diag in Hn by lia; cbn [nth_error] in Hn; injection Hn as <- <-.
        rewrite firstn_app, firstn_all, Nat.sub_diag in Hf; cbn [firstn] in Hf; rewrite app_nil_r in Hf; destruct Nm as [->|[Nm _]]; tauto.
Qed.
Lemma import_mats_ok ms : exists made m, import_mats ms [] [] = Ok (made, m) /\ mats_inv ms made m.
Proof.
  apply (import_mats_inv ms [] [] []); repeat split; try constructor.
  - intros name; cbn; tauto.
  - intros [|i] n x; discriminate.
Qed.

(** ** The objects *)
Lemma conv_pieces cs : contour_ok cs -> good_pieces (map conv_piece cs).
Proof.
  intros [(p & r & ->) F]; exists p, (map conv_piece r); split; [reflexivity|].
  intros mid fin I; apply in_map_iff in I as (q & E & I); inversion F as [|? ? _ F']; subst; rewrite Forall_forall in F'; specialize (F' q I).
  destruct q as [q|k e m]; [discriminate|]; destruct F' as [->| ->]; discriminate.
Qed.
Lemma conv_good s : shape_ok s -> good_shape (conv_shape s).
Proof. destruct s; cbn; intros H; try exact I; now apply conv_pieces. Qed.
Lemma conv_obj_good scale o : object_ok o -> good_obj (conv_obj scale o).
Proof.
  destruct o; cbn [object_ok conv_obj good_obj]; intros H; try exact I.
  - now apply conv_pieces.
  - now apply conv_good.
  - apply conv_good; destruct sh; cbn in *; tauto.
Qed.

Lemma those_filter {A} (f : A -> Prop) (g : A -> bool) : (forall a, g a = true <-> f a) -> forall l, those f l (filter g l).
Proof.
  intros H; induction l as [|a l IH]; cbn [filter]; [constructor|].
  destruct (g a) eqn:E; [apply those_in; [now apply H|exact IH]|apply those_out; [|exact IH]]; rewrite <- H; congruence.
Qed.
Lemma those_unique {A} (f : A -> Prop) l s s' : those f l s -> those f l s' -> s = s'.
Proof.
  intros H; revert s'; induction H; intros s' H'; inversion H'; subst; try contradiction; [reflexivity|f_equal; auto|auto].
Qed.

Section File.
  Context (cs : list call) (made : list (string * XflText_Model.material)) (mats : list (string * string)) (scale : Q).
  Context (MI : mats_inv (mats_of cs) made mats).
  Notation file := (conv_file mats scale (handle_all cs)).

  Lemma mat_known n : (match alookup String.eqb n mats with Some _ => true | None => false end) = true <-> In n (map m_name (mats_of cs)).
  Proof.
    destruct MI as (_ & _ & C & _); specialize (C n); destruct (alookup String.eqb n mats) as [y|]; split; try congruence; try tauto.
    intros _; destruct C as (i & x & ((m & N & <-) & _) & _); apply in_map, (nth_error_In _ _ N).
  Qed.
  Lemma conv_via_known v : via_known file (conv_via mats v) = true <-> via_complete cs v.
  Proof.
    destruct (handle_all_lists cs) as (_ & _ & _ & _ & _ & E1 & E2).
    unfold via_known, conv_via, via_complete, conv_file; cbn [x_padstacks x_templates]; rewrite E1, E2.
    rewrite !andb_true_iff, orb_true_iff, String.eqb_eq, mat_known, !existsb_exists; split.
    - intros [[(p & Ip & Hp) (t & It & Ht)] M]; apply in_map_iff in Ip as (p' & <- & Ip), It as (t' & <- & It).
      apply Z.eqb_eq in Hp, Ht; cbn [fst conv_padstack] in Hp, Ht; rewrite <- Hp, <- Ht; split; [now apply in_map|split; [now apply in_map|exact M]].
    - intros (P & T & M); apply in_map_iff in P as (p & Hp & Ip), T as (t & Ht & It); split; [split|exact M].
      + exists (conv_padstack p); split; [now apply in_map|]; cbn [fst conv_padstack]; now apply Z.eqb_eq.
      + exists (t_id t, conv_shape (t_shape t)); split; [apply (in_map (fun t => (t_id t, conv_shape (t_shape t))) _ _ It)|]; now apply Z.eqb_eq.
  Qed.
  Lemma conv_vias : those (via_complete cs) (vias_of cs) (filter (fun v => via_known file (conv_via mats v)) (vias_of cs)).
  Proof. apply those_filter, conv_via_known. Qed.
  Lemma conv_via_names : map via_id (filter (via_known file) (x_vias file)) = map XflText_Model.v_name (filter (fun v => via_known file (conv_via mats v)) (vias_of cs)).
  Proof.
    destruct (handle_all_lists cs) as (_ & E & _); unfold conv_file at 2; cbn [x_vias]; rewrite E; clear E.
    induction (vias_of cs) as [|v vs IH]; [reflexivity|]; cbn [map filter]; destruct (via_known file (conv_via mats v)); cbn [map]; rewrite IH; reflexivity.
  Qed.
  Lemma conv_template_known i : template_known file i <-> In i (map t_id (templates_of cs)).
  Proof.
    unfold template_known, conv_file; cbn [x_templates]; destruct (handle_all_lists cs) as (_ & _ & _ & _ & _ & _ & ->); rewrite map_map; reflexivity.
  Qed.

  Lemma conv_good_templates : Forall call_ok cs -> forall id t, In (id, t) (x_templates file) -> good_shape t.
  Proof.
    intros H id t; unfold conv_file; cbn [x_templates]; destruct (handle_all_lists cs) as (_ & _ & _ & _ & _ & _ & ->); rewrite Forall_forall in H.
    intros I; apply in_map_iff in I as (x & [= <- <-] & I); apply in_templates, H in I; apply conv_good, I.
  Qed.
  Lemma conv_importable : Forall call_ok cs -> complete cs -> importable file.
  Proof.
    intros H [[q Hq] [u Hu] Hv Hb]; split.
    - cbn [conv_file x_scale]; apply in_scales, last_some in Hq as [y Hy]; apply handled_scale in Hy; congruence.
    - cbn [conv_file x_unit]; apply in_units, last_some in Hu as [y Hy].
      assert (E : db_unit (handle_all cs) = Some (unit_handle y)) by (apply handled_unit; eauto); rewrite E; discriminate.
    - exact (conv_good_templates H).
    - intros n os o; unfold conv_file; cbn [x_routes]; destruct (handle_all_lists cs) as (_ & _ & _ & -> & _).
      intros I; apply in_map_iff in I as (r & [= <- <-] & I); intros Io; apply in_map_iff in Io as (o' & <- & Io).
      rewrite Forall_forall in H; apply in_routes, H in I; destruct I as [_ I]; rewrite Forall_forall in I; now apply conv_obj_good, I.
    - rewrite conv_via_names; apply Hv, conv_vias.
    - cbn [conv_file x_board]; destruct (db_board (handle_all cs)) as [b|] eqn:E; [|exact I]; apply handled_board in E; destruct b as [ps|bs|i p r m fl]; cbn [option_map conv_board].
      + exact I.
      + apply is_last_in, in_boards in E; rewrite Forall_forall in H; apply H in E; cbn in E; now apply conv_pieces.
      + rewrite conv_template_known; now apply (Hb i p r m fl).
  Qed.
End File.

(** ** Nets *)
Lemma import_nets_named ns n : nc_find (import_nets ns) n <> None <-> In n ns.
Proof.
  unfold import_nets; induction ns as [|m ns IH] using rev_ind; [cbn; tauto|].
  rewrite fold_left_app, in_app_iff, <- IH; cbn [fold_left In]; set (c := fold_left _ ns nc_init); clearbody c; clear.
  unfold nc_create, nc_count, acount; destruct (alookup String.eqb m (nc_map c)) as [x|] eqn:E; cbn [fst].
  - unfold nc_find; split; [tauto|]; intros [H|[<-|[]]]; [exact H|congruence].
  - unfold nc_find; cbn [nc_map]; rewrite (alookup_emplace _ String.eqb_spec).
    destruct (String.eqb_spec n m) as [->|Ne]; [rewrite E; split; [right; left; reflexivity|discriminate]|].
    destruct (alookup String.eqb n (nc_map c)); split; try tauto; intros [H|[H|[]]]; congruence.
Qed.

Section Load.
  Context {S : Type} (place : placement -> eshape -> S) (path : Q -> eshape -> S).
  Context (valid : S -> bool) (contour : S -> S) (holes_valid : S -> list S -> bool).
  Context (arcs : pt -> arc_kind -> pt -> pt -> list pt) (boundary0 : option eshape) (value : string -> Q).
  Context (arcs_some : forall a k m f, arcs a k m f <> []).
  Notation load := (load place path valid contour holes_valid arcs boundary0 value).
  Notation import := (import_file place path valid contour holes_valid arcs boundary0).

  (** what an import that ended well was *)
  Lemma load_inv s r cs : read value s = (true, cs) -> load s = Ok (Some r) ->
    exists w q made mats, is_last w (units_of cs) /\ is_last q (scales_of cs) /\ mats_inv (mats_of cs) made mats /\
      let scale := (coords_per (unit_handle w) / q)%Q in
      import (conv_file mats scale (handle_all cs)) = Ok (lo_db r) /\ lo_unit r = unit_handle w /\ lo_mats r = made /\
      lo_stack r = ls_layers (snd (import_layers mats scale (map conv_layer (layers_of cs)))).
  Proof.
    intros E; unfold XflLoad_Model.load; rewrite E; unfold load_db.
    destruct (db_unit (handle_all cs)) as [u|] eqn:Eu; [|discriminate]; apply handled_unit in Eu as (w & Lw & <-).
    destruct (db_scale (handle_all cs)) as [q|] eqn:Eq; [|discriminate]; apply handled_scale in Eq; cbn [import_scale bind].
    destruct (handle_all_lists cs) as (_ & _ & E3 & _ & E5 & _); rewrite E3, E5; destruct (import_mats_ok (mats_of cs)) as (made & mats & -> & MI); cbn [bind fst snd].
    destruct (import _) as [d| | |] eqn:Ei; try discriminate; cbn [bind]; intros [= <-]; cbn [lo_db lo_unit lo_mats lo_stack].
    exists w, q, made, mats; repeat split; auto; apply MI.
  Qed.
  Lemma load_ok s cs : read value s = (true, cs) -> complete cs -> exists r, load s = Ok (Some r).
  Proof.
    intros E C; pose proof (read_ok value s) as H; rewrite E in H; cbn [snd] in H.
    unfold XflLoad_Model.load; rewrite E; unfold load_db.
    destruct (co_unit _ C) as [u Hu], (co_scale _ C) as [q Hq].
    apply in_units, last_some in Hu as [w Hw]; apply in_scales, last_some in Hq as [p Hp].
    assert (Eu : db_unit (handle_all cs) = Some (unit_handle w)) by (apply handled_unit; eauto).
    apply handled_scale in Hp; rewrite Eu, Hp; cbn [import_scale bind].
    destruct (handle_all_lists cs) as (_ & _ & _ & _ & E5 & _); rewrite E5; destruct (import_mats_ok (mats_of cs)) as (made & mats & -> & MI); cbn [bind fst snd].
    destruct (import_ok place path valid contour holes_valid arcs boundary0 arcs_some _ (conv_importable cs made mats (coords_per (unit_handle w) / p)%Q MI H C)) as (d & -> & _).
    cbn [bind]; eauto.
  Qed.
  Lemma load_complete s r cs : read value s = (true, cs) -> load s = Ok (Some r) -> complete cs.
  Proof.
    intros E L; pose proof (read_ok value s) as H; rewrite E in H; cbn [snd] in H.
    destruct (load_inv s r cs E L) as (w & q & made & mats & Lw & Lq & MI & Ei & _).
    apply import_bad in Ei as (_ & _ & _ & Hv & Hb); [|exact arcs_some].
    split.
    - exists q; apply in_scales, is_last_in, Lq.
    - exists w; apply in_units, is_last_in, Lw.
    - intros vs T; rewrite (those_unique _ _ _ _ T (conv_vias cs made mats (coords_per (unit_handle w) / q)%Q MI)), <- conv_via_names; apply Hv, (conv_good_templates cs mats _ H).
    - intros i p t m fl B; apply handled_board in B; rewrite <- (conv_template_known cs mats (coords_per (unit_handle w) / q)%Q i); apply Hb; cbn [conv_file x_board]; rewrite B; reflexivity.
  Qed.
End Load.

(** ** Objects of routes and pads of vias *)
Lemma rmapl_forall {A B} (g : A -> res B) l r : rmapl g l = Ok r -> Forall2 (fun a b => g a = Ok b) l r.
Proof.
  revert r; induction l as [|a l IH]; cbn [rmapl]; intros r; [intros [= <-]; constructor|].
  destruct (g a) as [b| | |] eqn:E; cbn [bind]; try discriminate; destruct (rmapl g l) as [r'| | |]; cbn [bind]; try discriminate; intros [= <-]; constructor; auto.
Qed.
Lemma conv_same_pieces cs : Forall arc_ok cs -> Forall2 same_piece cs (map conv_piece cs).
Proof. induction 1 as [|p cs H F IH]; cbn [map]; constructor; [|exact IH]; destruct p as [q|k e m]; [constructor|]; destruct H as [->| ->]; constructor. Qed.
Lemma conv_same s : shape_ok s -> same_shape s (conv_shape s).
Proof. destruct s; cbn; intros H; try constructor; [apply conv_same_pieces, H|destruct H]. Qed.

Section Objects.
  Context {S : Type} (place : placement -> eshape -> S) (path : Q -> eshape -> S).
  Context (arcs : pt -> arc_kind -> pt -> pt -> list pt) (scale : Q).
  Lemma conv_obj_drawn ts o b : object_ok o -> resolve place path arcs scale ts (conv_obj scale o) = Ok b ->
    drawn place path arcs scale (fun id => alookup Z.eqb id ts) o b.
  Proof.
    destruct o as [l w cs|a e n loc rot mi|a e id p q|v l s loc|v l s|v l id loc rot mi fi]; cbn [object_ok conv_obj resolve]; intros H E.
    - destruct (get_shape scale arcs _) as [x| | |] eqn:G; cbn [bind] in E; try discriminate; injection E as <-; constructor.
      exists (FComposite (map conv_piece cs)); split; [constructor; apply conv_same_pieces, H|exact G].
    - injection E as <-; constructor.
    - injection E as <-; constructor.
    - destruct (get_shape scale arcs _) as [x| | |] eqn:G; cbn [bind] in E; try discriminate.
      assert (B : becomes arcs scale s x) by (exists (conv_shape s); split; [apply conv_same, H|exact G]).
      destruct s; injection E as <-; try (apply dr_shape; [exact B|discriminate|apply to_point_about]); apply dr_ring; [exact B|apply to_point_about].
    - destruct (get_shape scale arcs _) as [x| | |] eqn:G; cbn [bind] in E; try discriminate; injection E as <-; apply dr_outline.
      exists (conv_shape s); split; [apply conv_same; destruct s; cbn in *; tauto|exact G].
    - injection E as <-; apply dr_template, to_point_about.
  Qed.
  Lemma conv_templates (ts : list template) es : Forall (fun t => shape_ok (t_shape t)) ts ->
    build_templates arcs scale (map (fun t => (t_id t, conv_shape (t_shape t))) ts) = Ok es ->
    templates_are arcs scale (fun id => alookup Z.eqb id es) ts.
  Proof.
    unfold build_templates; intros F E id; destruct (rmapl _ _) as [es'| | |] eqn:R; cbn [bind] in E; try discriminate; injection E as <-.
    assert (A : forall m, alookup Z.eqb id (fold_left (fun m t => aemplace Z.eqb (fst t) (snd t) m) es' m) =
      match alookup Z.eqb id m with Some x => Some x | None =>
        match find (fun t => (t_id t =? id)%Z) ts with Some t => match get_shape scale arcs (conv_shape (t_shape t)) with Ok e => Some e | _ => None end | None => None end end).
    { clear F; revert es' R; induction ts as [|t ts IH]; intros es' R m; cbn [map rmapl fst snd] in R.
      - injection R as <-; cbn [fold_left find]; destruct (alookup Z.eqb id m); reflexivity.
      - destruct (get_shape scale arcs (conv_shape (t_shape t))) as [e| | |] eqn:G; cbn [bind] in R; try discriminate.
        destruct (rmapl _ _) as [es1| | |]; cbn [bind] in R; try discriminate; injection R as <-; cbn [fold_left fst snd find].
        rewrite (IH es1 eq_refl), (alookup_emplace _ Z_eqb_reflect), (Z.eqb_sym (t_id t) id).
        destruct (alookup Z.eqb id m); [reflexivity|]; destruct (id =? t_id t)%Z; [rewrite G|]; reflexivity. }
    rewrite (A []); cbn [alookup]; destruct (find (fun t => (t_id t =? id)%Z) ts) as [t|] eqn:Ef; [|reflexivity].
    apply find_some in Ef as [I _]; rewrite Forall_forall in F; specialize (F t I).
    apply rmapl_forall in R.
    assert (G : exists e, get_shape scale arcs (conv_shape (t_shape t)) = Ok e).
    { revert I R; clear; intros I; revert es'; induction ts as [|x ts IH]; [destruct I|]; intros es' R; inversion R as [|? b ? ? H R']; subst.
      destruct I as [->|I]; [|exact (IH I _ R')]; cbn [snd] in H; destruct (get_shape scale arcs (conv_shape (t_shape t))) as [e| | |]; try discriminate; eauto. }
    destruct G as [e G]; rewrite G; exists e; split; [|reflexivity]; exists (conv_shape (t_shape t)); split; [now apply conv_same|exact G].
  Qed.
End Objects.

Section Inv.
  Context {P S : Type} (place : P -> eshape -> S) (path : Q -> eshape -> S).
  Context (valid : S -> bool) (contour : S -> S) (holes_valid : S -> list S -> bool).
  Context (arcs : pt -> arc_kind -> pt -> pt -> list pt) (boundary0 : option eshape).
  Lemma import_inv (f : xfl_file P) r : import_file place path valid contour holes_valid arcs boundary0 f = Ok r ->
    exists scale ts st rs items used, import_scale (x_scale f) (x_unit f) = Ok scale /\ build_templates arcs scale (x_templates f) = Ok ts /\
      import_layers (x_mats f) scale (x_layers f) = (i_layers r, st) /\
      import_vias (ls_metal_map st) (map (resolve_via ts (x_padstacks f)) (x_vias f)) [] = Ok (i_vias r) /\
      i_nets r = import_nets (x_nets f) /\
      Forall2 (fun a b => fst b = fst a /\ Forall2 (fun o x => resolve place path arcs scale ts o = Ok x) (snd a) (snd b)) (x_routes f) rs /\
      import_routes valid contour holes_valid (ls_metal_map st) (map d_name (i_vias r)) (i_nets r) rs [] = Ok (items, used) /\ i_items r = items.
  Proof.
    unfold import_file; destruct (import_scale (x_scale f) (x_unit f)) as [scale| | |]; cbn [bind]; try discriminate.
    destruct (build_templates arcs scale (x_templates f)) as [ts| | |] eqn:Et; cbn [bind]; try discriminate.
    destruct (import_layers (x_mats f) scale (x_layers f)) as [ly st] eqn:El.
    destruct (import_vias (ls_metal_map st) (map (resolve_via ts (x_padstacks f)) (x_vias f)) []) as [vs| | |] eqn:Ev; cbn [bind]; try discriminate.
    destruct (rmapl _ (x_routes f)) as [rs| | |] eqn:Er; cbn [bind]; try discriminate.
    destruct (import_routes _ _ _ _ _ _ _ _) as [[items used]| | |] eqn:Ei; cbn [bind]; try discriminate.
    match goal with |- bind ?b _ = _ -> _ => destruct b as [bo| | |]; try discriminate end; cbn [bind]; intros [= <-]; cbn [i_layers i_vias i_nets i_items fst].
    exists scale, ts, st, rs, items, used; split; [reflexivity|]; split; [exact Et|]; split; [exact El|]; split; [exact Ev|]; split; [reflexivity|]; split; [|split; [exact Ei|reflexivity]].
    apply rmapl_forall in Er; revert Er; clear; induction 1 as [|a b l m H F IH]; constructor; [|exact IH].
    destruct (rmapl _ (snd a)) as [os| | |] eqn:E; cbn [bind] in H; try discriminate; injection H as <-; split; [reflexivity|now apply rmapl_forall].
  Qed.
End Inv.

Lemma conv_metal ls i : metals_before (map conv_layer ls) i = List.length (filter (fun x => negb (Ascii.eqb (ly_type x) "D")) (firstn i ls)).
Proof.
  unfold metals_before; rewrite firstn_map; induction (firstn i ls) as [|x l IH]; [reflexivity|]; cbn [map filter].
  replace (is_metal (conv_layer x)) with (negb (Ascii.eqb (ly_type x) "D")).
  - destruct (negb (Ascii.eqb (ly_type x) "D")); cbn [List.length]; rewrite IH; reflexivity.
  - unfold is_metal, conv_layer; cbn [fl_kind]; destruct (Ascii.eqb (ly_type x) "D"); [reflexivity|]; destruct (Ascii.eqb (ly_type x) "P"); reflexivity.
Qed.
