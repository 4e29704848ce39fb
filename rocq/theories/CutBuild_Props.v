(** C98-C102: extracting a layer cut model from a layout. *)
From Verif Require Import Base QSum ThermalNetwork_Model LayerCut_Model LayerCut_Spec LayerCut_Proofs LayerCut_Props CutBuild_Model CutBuild_Spec CutBuild_Proofs.
From Coq Require Import Setoid.

Section Facts.
  Context {poly point table path : Type} (ccw : poly -> bool) (reverse : poly -> poly) (scale : Q).
  Notation listed := (listed (table := table) ccw reverse scale).

  Lemma listed_in is es e : listed is es -> In e es ->
    exists i top bot, In i is /\ rounds (i_elev i * scale) top /\ rounds ((i_elev i - i_thick i) * scale) bot /\ (bot < top)%Z /\
      e_net e = i_net i /\ e_mat e = i_mat i /\ e_range e = mkR top bot /\ block_of scale i (e_block e) /\
      e_poly e = if Bool.eqb (ccw (i_poly i)) (i_hole i) then reverse (i_poly i) else i_poly i.
  Proof.
    induction 1 as [|i is es top bot A B C L IH|i is es top bot b A B C D L IH]; intros H; [destruct H|..].
    - destruct (IH H) as (i' & t & bt & Hi & R); exists i', t, bt; split; [now right|exact R].
    - destruct H as [<-|H]; [exists i, top, bot; split; [now left|]; cbn; auto 10|].
      destruct (IH H) as (i' & t & bt & Hi & R); exists i', t, bt; split; [now right|exact R].
  Qed.
  Lemma in_listed is es i top bot : listed is es -> In i is -> rounds (i_elev i * scale) top -> rounds ((i_elev i - i_thick i) * scale) bot ->
    (bot < top)%Z -> exists e, In e es /\ e_mat e = i_mat i /\ e_range e = mkR top bot.
  Proof.
    induction 1 as [|i' is es t bt A B C L IH|i' is es t bt b A B C D L IH]; intros H R1 R2 V; [destruct H|..].
    - destruct H as [->|H]; [|auto]; rewrite (rounds_inj _ _ _ R1 A), (rounds_inj _ _ _ R2 B) in V; lia.
    - destruct H as [->|H]; [|destruct (IH H R1 R2 V) as (e & He & R); exists e; split; [now right|exact R]].
      eexists; split; [left; reflexivity|]; cbn; rewrite (rounds_inj _ _ _ R1 A), (rounds_inj _ _ _ R2 B); auto.
  Qed.

  (** what the table of the layers is made from *)
  Definition entry_shape (e : entry poly table) : shape :=
    mkS (e_range e) (negb (e_mat e =? noMaterial)%Z) (option_map (fun b => fst (fst b)) (e_block e)).
  Lemma list_ext {A} : forall l l' : list A, (forall i, nth_error l i = nth_error l' i) -> l = l'.
  Proof.
    induction l as [|a l IH]; intros [|a' l'] H; [auto|discriminate (H 0%nat)|discriminate (H 0%nat)|].
    pose proof (H 0%nat) as E; injection E as ->; f_equal; apply IH; intros i; exact (H (Datatypes.S i)).
  Qed.
  Lemma nth_error_seq n : forall s i, nth_error (seq s n) i = if (i <? n)%nat then Some (s + i)%nat else None.
  Proof.
    induction n as [|n IH]; intros s [|i]; [auto|auto|simpl; now rewrite Nat.add_0_r|].
    cbn [seq nth_error]; rewrite IH; change (Datatypes.S i <? Datatypes.S n)%nat with (i <? n)%nat; destruct (i <? n)%nat; [f_equal; lia|auto].
  Qed.
  Lemma cut_shapes_of (m : cut poly point table path) es boxes : holds m es boxes ->
    exists rs, Forall (fun r => r_valid r = false) rs /\ cut_shapes m = map entry_shape es ++ map (fun r => mkS r false None) rs.
  Proof.
    intros (A & B & C & (rs & D & L & F) & G); exists rs; split.
    { eapply Forall_impl; [|exact F]; intros r H; unfold r_valid; apply Z.ltb_ge; cbn in H; lia. }
    apply list_ext; intros i; unfold cut_shapes; rewrite nth_error_map, nth_error_seq, D, B, app_length, map_length.
    destruct (Nat.lt_ge_cases i (List.length es)) as [Hi|Hi].
    - replace (i <? _)%nat with true by (symmetry; apply Nat.ltb_lt; lia).
      rewrite (nth_error_app1 (map entry_shape es)) by (rewrite map_length; auto).
      destruct (nth_error es i) as [e|] eqn:E; [|apply nth_error_None in E; lia].
      rewrite nth_error_map, E; cbn [option_map Nat.add]; rewrite G, E; unfold entry_shape; do 3 f_equal;
        [|f_equal; f_equal]; rewrite app_nth1 by (rewrite map_length; auto); apply nth_error_nth, map_nth_error, E.
    - rewrite (nth_error_app2 (map entry_shape es)), map_length by (rewrite map_length; auto).
      destruct (Nat.ltb_spec i (List.length es + List.length rs)) as [Hj|Hj]; cbn [option_map Nat.add].
      + rewrite nth_error_map; destruct (nth_error rs (i - List.length es)) as [r|] eqn:E; [|apply nth_error_None in E; lia].
        rewrite G; replace (nth_error es i) with (@None (entry poly table)) by (symmetry; apply nth_error_None; auto).
        cbn [option_map]; rewrite !app_nth2, !map_length by (rewrite map_length; auto).
        rewrite (nth_error_nth _ _ _ E); repeat f_equal.
        assert (Hb : nth (i - List.length es) (map (fun _ => noMaterial) boxes) noMaterial = noMaterial).
        { clear; generalize (i - List.length es)%nat; induction boxes as [|b bs IH]; intros [|n]; simpl; auto. }
        now rewrite Hb, Z.eqb_refl.
      + symmetry; apply nth_error_None; rewrite map_length; lia.
  Qed.

  Lemma fill_boxes order rs : Forall (fun r => r_valid r = false) rs -> forall ss i mm,
    fill order i (ss ++ map (fun r => mkS r false None) rs) mm = fill order i ss mm.
  Proof.
    intros F; induction ss as [|s ss IH]; intros i mm; cbn [app fill].
    - revert i; induction F as [|r rs Hr F IHF]; intros i; cbn [map fill s_range]; [auto|rewrite Hr; apply IHF].
    - destruct (r_valid (s_range s)); [|apply IH].
      destruct (at_height (hi (s_range s)) order); cbn [bind]; auto; destruct (at_height (lo (s_range s)) order); cbn [bind]; auto.
  Qed.
  Lemma lut_boxes fuel ratio ss rs : Forall (fun r => r_valid r = false) rs ->
    build_lut fuel ratio (ss ++ map (fun r => mkS r false None) rs) = build_lut fuel ratio ss.
  Proof.
    intros F; unfold build_lut.
    replace (layer_order (ss ++ map (fun r => mkS r false None) rs)) with (layer_order ss); [now rewrite fill_boxes|].
    unfold layer_order; rewrite flat_map_app.
    replace (flat_map shape_heights (map (fun r => mkS r false None) rs)) with (@nil Z); [now rewrite app_nil_r|].
    clear; induction rs as [|r rs IH]; simpl; auto.
  Qed.
End Facts.

(** ** C98: contents of a layer cut model *)

(** A layer cut model can be extracted exactly if every query it needs has an answer. *)
Theorem C98_extracted_iff : forall poly point table path ccw reverse scale steiner mats heights (l : layout poly point table path),
  (exists m, build_cut ccw reverse scale steiner mats heights l = Ok m) <-> place_all mats heights l <> None.
Proof.
  intros; pose proof (build_outcome ccw reverse scale steiner mats heights l) as O; destruct (place_all mats heights l) as [ps|].
  - destruct O as (m & E & _); split; [discriminate|eauto].
  - split; [intros (m & E); exfalso; eapply O; eauto|congruence].
Qed.
Print Assumptions C98_extracted_iff.

(** It then holds the outlines of the stack-up layers, components, primitives and pads in this order with their nets,
    materials, heights and losses, then the imprint boxes; outlines that round to no thickness are dropped.  It has the
    bond wires with their paths, and the centres of circles if this is set. *)
Theorem C98_contents : forall poly point table path ccw reverse scale steiner mats heights (l : layout poly point table path) m,
  build_cut ccw reverse scale steiner mats heights l = Ok m ->
  exists ps es, place_all mats heights l = Some ps /\ listed ccw reverse scale (flat_map pieces ps) es /\ holds m es (ly_boxes l) /\
    c_points m = (if steiner then centres ps else []) /\ c_wires m = wires_of (ly_prims l).
Proof.
  intros until m; intros E; pose proof (build_outcome ccw reverse scale steiner mats heights l) as O; destruct (place_all mats heights l) as [ps|].
  - destruct O as (m' & E' & (es & L & H) & Hp & Hw); rewrite E in E'; injection E' as <-; exists ps, es; auto 10.
  - exfalso; eapply O; eauto.
Qed.
Print Assumptions C98_contents.

(** Solid outlines run counterclockwise and holes clockwise, if reversing turns an outline around. *)
Theorem C98_orientation : forall poly point table path ccw reverse scale steiner mats heights (l : layout poly point table path) m ps,
  (forall p, ccw (reverse p) = negb (ccw p)) ->
  build_cut ccw reverse scale steiner mats heights l = Ok m -> place_all mats heights l = Some ps ->
  forall k p, nth_error (c_polys m) k = Some p -> In p (ly_boxes l) \/
    exists i, In i (flat_map pieces ps) /\ (p = i_poly i \/ p = reverse (i_poly i)) /\ ccw p = negb (i_hole i).
Proof.
  intros until ps; intros R E Ep k p Hk; destruct (C98_contents _ _ _ _ _ _ _ _ _ _ _ _ E) as (ps' & es & Ep' & L & (_ & _ & C & _) & _).
  rewrite Ep in Ep'; injection Ep' as <-; rewrite C in Hk; apply nth_error_In, in_app_or in Hk as [Hk|Hk]; [right|auto].
  apply in_map_iff in Hk as (e & <- & He); destruct (listed_in _ _ _ _ _ _ L He) as (i & _ & _ & Hi & _ & _ & _ & _ & _ & _ & _ & ->).
  exists i; split; [auto|].
  destruct (ccw (i_poly i)) eqn:Ec, (i_hole i) eqn:Eh; cbn [Bool.eqb negb]; rewrite ?R, ?Ec; auto.
Qed.
Print Assumptions C98_orientation.

(** ** C99: power blocks *)

(** Every power block belongs to a polygon of positive height without net, and lies within its heights. *)
Theorem C99_block_inside : forall poly point table path ccw reverse scale steiner mats heights (l : layout poly point table path) m,
  0 <= scale -> build_cut ccw reverse scale steiner mats heights l = Ok m ->
  forall k r scen heat, alookup Nat.eqb k (c_blocks m) = Some (r, scen, heat) ->
  exists c, nth_error (c_ranges m) k = Some c /\ nth_error (c_nets m) k = Some noNet /\
    (lo c < hi c /\ lo c <= lo r /\ lo r <= hi r /\ hi r <= hi c)%Z.
Proof.
  intros until m; intros Hs E k r scen heat Hk; destruct (C98_contents _ _ _ _ _ _ _ _ _ _ _ _ E) as (ps & es & Ep & L & (A & _ & _ & (rs & D & _) & G) & _).
  rewrite G in Hk; destruct (nth_error es k) as [e|] eqn:Ee; [|discriminate].
  destruct (listed_in _ _ _ _ _ _ L (nth_error_In _ _ Ee)) as (i & top & bot & Hi & R1 & R2 & V & En & _ & Er & B & _).
  exists (e_range e); split; [rewrite D, nth_error_app1; [now apply map_nth_error|rewrite map_length; apply nth_error_Some; congruence]|].
  assert (Hpow : i_power i <> None /\ i_net i = noNet /\ forall x, i_power i = Some x -> (snd x == 1#10 \/ snd x == 1#2)).
  { split; [intros N; unfold block_of in B; rewrite N in B; congruence|].
    assert (Hp : i_power i <> None) by (intros N; unfold block_of in B; rewrite N in B; congruence).
    apply in_flat_map in Hi as (p & Hp' & Hi); destruct Hi as [<-|Hi]; [|exfalso; apply in_map_iff in Hi as (h & <- & _); apply Hp; reflexivity].
    cbn [i_power i_net] in *; revert Hp' Hp; clear - Ep; unfold place_all in Ep.
    assert (Q : forall p, In p ps -> p_power p <> None -> p_net p = noNet /\ forall x, p_power p = Some x -> (snd x == 1#10 \/ snd x == 1#2)); [|auto].
    clear p.
    assert (CI : forall A B (f : A -> option (list B)) l ys y, collect f l = Some ys -> In y ys -> exists a x, f a = Some x /\ In y x).
    { clear; intros A B f l; induction l as [|a l IH]; simpl; intros ys y; [intros [= <-] []|].
      destruct (f a) as [x|] eqn:Ef; [|discriminate]; destruct (collect f l) as [z|]; [|discriminate]; intros [= <-] H.
      apply in_app_or in H as [H|H]; eauto. }
    destruct (collect _ (ly_stack l)) as [a|] eqn:Ea; [|discriminate]; destruct (collect _ (ly_comps l)) as [b|] eqn:Eb; [|discriminate].
    destruct (collect _ (ly_prims l)) as [c|] eqn:Ec; [|discriminate]; destruct (collect _ (ly_insts l)) as [d|] eqn:Ed; [|discriminate].
    injection Ep as <-; intros p H Hp; rewrite !in_app_iff in H; destruct H as [H|[H|[H|H]]].
    - destruct (CI _ _ _ _ _ _ Ea H) as ([[mat|] [[e t]|]] & x & Ex & Hx); try discriminate; injection Ex as <-; destruct Hx as [<-|[]]; destruct (Hp eq_refl).
    - destruct (CI _ _ _ _ _ _ Eb H) as (cp & x & Ex & Hx); unfold place_comp in Ex.
      destruct (cp_mat cp), (cp_height cp) as [[]|], (cp_solder cp) as [[]|]; try discriminate.
      assert (Hx' : p = mkP noNet z noMaterial (plain (cp_contour cp)) q q0 (option_map (fun p => (fst p, snd p, 1#10)) (cp_power cp)) \/ p_power p = None).
      { destruct (q2 ?= 0), (cp_filling cp); try discriminate; injection Ex as <-; cbn [In] in Hx; intuition (subst; auto). }
      destruct Hx' as [-> |]; [|contradiction]; split; [auto|]; cbn; destruct (cp_power cp); cbn; [intros ? [= <-]; left; reflexivity|discriminate].
    - destruct (CI _ _ _ _ _ _ Ec H) as (pr & x & Ex & Hx).
      assert (J : forall b (w : wire poly point table path) j x, place_joint b w j = Some x -> In p x -> p_net p = noNet /\ forall y, p_power p = Some y -> (snd y == 1#10 \/ snd y == 1#2)).
      { clear - Hp; intros b w [j|] x; cbn; [|intros [= <-] []]; destruct (j_mat j) as [mat|]; [|discriminate].
        destruct (w_current w ?= 0); [intros [= <-] [<-|[]]; destruct (Hp eq_refl)..|].
        destruct (j_heat j); try discriminate; intros [= <-] [<-|Hx]; [split; [auto|]; intros y [= <-]; right; reflexivity|].
        destruct b; [destruct Hx as [<-|[]]; destruct (Hp eq_refl)|destruct Hx]. }
      destruct pr as [w|net ly s|]; cbn in Ex.
      + destruct (w_path w), (w_mat w), (w_joints w) as [[[j1 j2]|]|]; try discriminate; [|injection Ex as <-; destruct Hx].
        destruct (place_joint false w j1) as [x1|] eqn:E1; [|discriminate]; destruct (place_joint true w j2) as [x2|] eqn:E2; [|discriminate].
        injection Ex as <-; apply in_app_or in Hx as [Hx|Hx]; eauto.
      + destruct (mats ly) as [[]|], (heights ly) as [[]|]; try discriminate; injection Ex as <-; destruct Hx as [<-|[]]; destruct (Hp eq_refl).
      + injection Ex as <-; destruct Hx.
    - destruct (CI _ _ _ _ _ _ Ed H) as (pi & x & Ex & Hx); unfold place_inst in Ex.
      destruct (pi_def pi) as [[[mat|]|]|]; try discriminate; [|injection Ex as <-; destruct Hx].
      destruct (CI _ _ _ _ _ _ Ex Hx) as (ly & y & Ey & Hy); cbn in Ey; destruct (heights ly) as [[]|], (pi_shape pi ly); try discriminate.
      injection Ey as <-; destruct Hy as [<-|[]]; destruct (Hp eq_refl). }
  destruct Hpow as (Hne & Hnet & Hpos).
  split; [rewrite A, nth_error_app1 by (rewrite map_length; apply nth_error_Some; congruence); rewrite nth_error_map, Ee; cbn; congruence|].
  unfold block_of in B; destruct (i_power i) as [[[sc ht] pos]|]; [|congruence].
  destruct B as (bt & bb & Eb & B1 & B2); rewrite Eb in Hk; injection Hk as <- <- <-; rewrite Er; cbn [lo hi].
  specialize (Hpos _ eq_refl); cbn [snd] in Hpos.
  set (e0 := i_elev i) in *; set (t0 := i_thick i) in *.
  assert (Ht : 0 <= t0).
  { destruct (Qlt_le_dec t0 0) as [N|N]; [exfalso|auto].
    assert (top <= bot)%Z by (eapply rounds_mono; eauto; nra); lia. }
  assert (M1 : Qmin ((1#10) * t0) (t0 - pos * t0) <= t0 - pos * t0) by apply Q.le_min_r.
  assert (M0 : 0 <= Qmin ((1#10) * t0) (t0 - pos * t0)) by (apply Q.min_glb; destruct Hpos as [P|P]; rewrite P || idtac; nra).
  assert (P0 : 0 <= pos * t0) by (destruct Hpos as [P|P]; rewrite P; nra).
  split; [auto|split; [|split]]; (eapply rounds_mono; [eassumption|eassumption|nra]).
Qed.
Print Assumptions C99_block_inside.

(** ** C100: the table of the layers *)

Definition without_boxes {poly point table path} (l : layout poly point table path) : layout poly point table path :=
  mkLayout (ly_boundary l) (ly_stack l) (ly_comps l) (ly_prims l) (ly_insts l) [].

Lemma build_boxes {poly point table path} ccw reverse scale steiner mats heights (l : layout poly point table path) :
  build_cut ccw reverse scale steiner mats heights l = rmap (fold_left add_imprint_box (ly_boxes l)) (build_cut ccw reverse scale steiner mats heights (without_boxes l)).
Proof.
  unfold build_cut; cbn [ly_boundary ly_stack ly_comps ly_prims ly_insts ly_boxes without_boxes].
  destruct (add_stackup _ _ _ _ _ _ _) as [m1| | |]; cbn [bind rmap]; auto.
  destruct (add_components _ _ _ _ _) as [m2| | |]; cbn [bind rmap]; auto.
  destruct (add_prims _ _ _ _ _ _ _ _ _ _) as [[m3 hc]| | |]; cbn [bind rmap fst snd]; auto.
  destruct (add_insts _ _ _ _ _ _ _ _) as [m4| | |]; cbn [bind rmap fold_left]; auto.
Qed.

(** Imprint boxes change neither whether a model is extracted nor its layers, and are in no layer. *)
Theorem C100_boxes_in_no_layer : forall poly point table path ccw reverse scale steiner mats heights (l : layout poly point table path) fuel ratio,
  rmap snd (extract_cut ccw reverse scale steiner mats heights fuel ratio l) =
  rmap snd (extract_cut ccw reverse scale steiner mats heights fuel ratio (without_boxes l)) /\
  forall m t, extract_cut ccw reverse scale steiner mats heights fuel ratio l = Ok (m, t) ->
    exists polys, c_polys m = polys ++ ly_boxes l /\
      forall L top bot ids k, nth_error (l_order t) L = Some top -> nth_error (l_order t) (Datatypes.S L) = Some bot ->
        layer_polygons t L = Some ids -> In k ids -> (k < List.length polys)%nat.
Proof.
  intros.
  assert (E : forall m0 m, build_cut ccw reverse scale steiner mats heights (without_boxes l) = Ok m0 ->
     build_cut ccw reverse scale steiner mats heights l = Ok m ->
     build_lut fuel ratio (cut_shapes m) = build_lut fuel ratio (cut_shapes m0)).
  { intros m0 m E0 E1; rewrite build_boxes, E0 in E1; injection E1 as <-.
    destruct (C98_contents _ _ _ _ _ _ _ _ _ _ _ _ E0) as (ps & es & _ & _ & H & _); cbn [ly_boxes without_boxes] in H.
    destruct (cut_shapes_of _ _ _ H) as (rs & F & ->).
    destruct (cut_shapes_of _ _ _ (boxes_hold (ly_boxes l) m0 es [] H)) as (rs' & F' & ->).
    now rewrite !lut_boxes. }
  split.
  - unfold extract_cut; pose proof (build_boxes ccw reverse scale steiner mats heights l) as B.
    destruct (build_cut _ _ _ _ _ _ (without_boxes l)) as [m0| | |] eqn:E0; cbn [rmap bind] in B; rewrite B; cbn [bind rmap]; auto.
    rewrite (E m0 _ eq_refl B); destruct (build_lut fuel ratio (cut_shapes m0)); reflexivity.
  - intros m t; unfold extract_cut; destruct (build_cut _ _ _ _ _ _ l) as [m'| | |] eqn:E1; cbn [bind]; try discriminate.
    destruct (build_lut fuel ratio (cut_shapes m')) as [t'| | |] eqn:E2; cbn [bind]; try discriminate; intros [= <- <-].
    destruct (C98_contents _ _ _ _ _ _ _ _ _ _ _ _ E1) as (ps & es & _ & _ & H & _).
    exists (map e_poly es); split; [apply H|]; intros L top bot ids k Ht Hb Hl Hk.
    destruct (cut_shapes_of _ _ _ H) as (rs & F & Es); rewrite Es, lut_boxes in E2 by auto.
    destruct (C37_layer_shapes _ _ _ _ E2) as (_ & _ & S); specialize (S L top bot Ht Hb); rewrite Hl in S; rewrite S in Hk.
    unfold shapes_in_layer in Hk; apply filter_In in Hk as [Hk _]; apply in_seq in Hk; rewrite map_length in Hk |- *; lia.
Qed.
Print Assumptions C100_boxes_in_no_layer.

(** the rounded heights of a shape of positive rounded thickness *)
Definition occupies {poly point table} (scale : Q) (p : placed poly point table) (top bot : Z) : Prop :=
  rounds (p_elev p * scale) top /\ rounds ((p_elev p - p_thick p) * scale) bot /\ (bot < top)%Z.

(** The table of the layers is built whenever all materials have an id and there is something to cut; with a transition
    ratio of at least three if moreover no height between top and bottom is empty. *)
Theorem C100_table_built : forall poly point table path ccw reverse scale steiner mats heights (l : layout poly point table path) ratio ps,
  0 <= scale -> place_all mats heights l = Some ps -> (forall p, In p ps -> p_solid p <> noMaterial) ->
  ratio <= 1 \/ (3 <= ratio /\ (exists p top bot, In p ps /\ occupies scale p top bot) /\
    forall h, (exists p top bot, In p ps /\ occupies scale p top bot /\ (bot <= h)%Z) ->
              (exists p top bot, In p ps /\ occupies scale p top bot /\ (h < top)%Z) ->
              exists p top bot, In p ps /\ occupies scale p top bot /\ (bot <= h < top)%Z) ->
  exists fuel m t, extract_cut ccw reverse scale steiner mats heights fuel ratio l = Ok (m, t).
Proof.
  intros until ps; intros Hs Ep Hmat Hr.
  destruct (proj2 (C98_extracted_iff poly point table path ccw reverse scale steiner mats heights l)) as (m & E); [congruence|].
  destruct (C98_contents _ _ _ _ _ _ _ _ _ _ _ _ E) as (ps' & es & Ep' & L & H & _); rewrite Ep in Ep'; injection Ep' as <-.
  destruct (cut_shapes_of _ _ _ H) as (rs & F & Es).
  (* an outline in the list of entries *)
  assert (Out : forall p top bot, In p ps -> occupies scale p top bot ->
    exists e, In e es /\ e_range e = mkR top bot /\ e_mat e <> noMaterial).
  { intros p top bot Hp (R1 & R2 & V).
    destruct (in_listed ccw reverse scale _ _ (mkI (p_net p) (p_solid p) (sh_outline (p_shape p)) false (p_elev p) (p_thick p) (p_power p)) top bot L) as (e & He & Em & Er); auto.
    { apply in_flat_map; exists p; split; [auto|now left]. }
    exists e; split; [auto|split; [auto|]]; rewrite Em; apply Hmat, Hp. }
  assert (From : forall e, In e es -> exists p top bot, In p ps /\ occupies scale p top bot /\ e_range e = mkR top bot).
  { intros e He; destruct (listed_in _ _ _ _ _ _ L He) as (i & top & bot & Hi & R1 & R2 & V & _ & _ & Er & _).
    apply in_flat_map in Hi as (p & Hp & Hi); exists p, top, bot; split; [auto|split; [|auto]].
    destruct Hi as [<-|Hi]; [split; [auto|split; auto]|]; apply in_map_iff in Hi as (h & <- & _); split; [auto|split; auto]. }
  assert (Hin : forall e, In e es -> In (entry_shape e) (map entry_shape es)) by (intros; now apply in_map).
  set (ss := map entry_shape es) in *.
  assert (CH : forall h, cut_height ss h -> exists p top bot, In p ps /\ occupies scale p top bot /\ (bot <= h <= top)%Z).
  { intros h (s & Hss & _ & V & Hh); unfold ss in Hss; apply in_map_iff in Hss as (e & <- & He).
    cbn [entry_shape s_range s_power] in V, Hh.
    destruct (From e He) as (p & top & bot & Hp & O & Er); exists p, top, bot; split; [auto|split; [auto|]].
    destruct Hh as [->|[->|(r & Hr' & Hh)]]; [rewrite Er in *; cbn in *; lia..|].
    destruct (e_block e) as [[[r' sc] ht]|] eqn:Eb; [|discriminate]; injection Hr' as ->.
    apply In_nth_error in He as (k & Hk).
    destruct (C99_block_inside _ _ _ _ _ _ _ _ _ _ _ _ Hs E k r sc ht) as (c & Hc & _ & I).
    { destruct H as (_ & _ & _ & _ & G); rewrite G, Hk; exact Eb. }
    destruct H as (_ & _ & _ & (rs' & D & _) & _); rewrite D, nth_error_app1, nth_error_map, Hk in Hc by (rewrite map_length; apply nth_error_Some; congruence).
    injection Hc as <-; rewrite Er in I; cbn in I; lia. }
  assert (HC : forall p top bot, In p ps -> occupies scale p top bot -> cut_height ss top /\ cut_height ss bot).
  { intros p top bot Hp O; destruct (Out p top bot Hp O) as (e & He & Er & Em).
    split; exists (entry_shape e); (split; [auto|]); cbn [entry_shape s_mat s_range s_power]; rewrite Er; cbn [hi lo];
      (split; [apply negb_true_iff, Z.eqb_neq, Em|split; [apply O|auto]]). }
  destruct (C37_build_succeeds ratio ss) as (fuel & t & Et).
  - intros s Hss V; unfold ss in Hss; apply in_map_iff in Hss as (e & <- & He).
    destruct (From e He) as (p & top & bot & Hp & O & Er); destruct (Out p top bot Hp O) as (e' & He' & Er' & Em).
    exists (entry_shape e'); split; [auto|]; cbn [entry_shape s_mat s_range]; split; [apply negb_true_iff, Z.eqb_neq, Em|congruence].
  - destruct Hr as [|(Hr3 & (p0 & top0 & bot0 & Hp0 & O0) & Hr)]; [auto|right; split; [|split; [|auto]]].
    + destruct (Out _ _ _ Hp0 O0) as (e & He & Er & _); exists (entry_shape e); split; [auto|].
      cbn [entry_shape s_range]; rewrite Er; apply Z.ltb_lt, O0.
    + intros top bot Ht Hb Hlt Hbetween.
      assert (G : exists p t' b', In p ps /\ occupies scale p t' b' /\ (b' <= bot)%Z /\ (top <= t')%Z).
      { destruct (Hr bot) as (p & t' & b' & Hp & O & I).
        - destruct (CH _ Hb) as (p & t' & b' & Hp & O & I); exists p, t', b'; split; [auto|split; [auto|lia]].
        - destruct (CH _ Ht) as (p & t' & b' & Hp & O & I); exists p, t', b'; split; [auto|split; [auto|lia]].
        - exists p, t', b'; split; [auto|split; [auto|split; [lia|]]].
          destruct (HC _ _ _ Hp O) as [Hc _]; destruct (Hbetween _ Hc); lia. }
      destruct G as (p & t' & b' & Hp & O & G1 & G2); destruct (Out p t' b' Hp O) as (e & He & Er & _).
      apply In_nth_error in He as (k & Hk); intros N.
      assert (Hk' : In k (shapes_in_layer ss top bot)).
      { unfold shapes_in_layer; apply filter_In; unfold ss; rewrite nth_error_map, Hk; cbn [option_map entry_shape s_range]; rewrite Er; cbn [hi lo].
        split; [apply in_seq; rewrite map_length; assert (k < List.length es)%nat by (apply nth_error_Some; congruence); lia|].
        destruct O as (_ & _ & V); rewrite !andb_true_iff, !Z.leb_le; split; [apply Z.ltb_lt, V|lia]. }
      rewrite N in Hk'; destruct Hk'.
  - exists fuel, m, t; unfold extract_cut; rewrite E; cbn [bind]; rewrite Es, lut_boxes by auto; rewrite Et; reflexivity.
Qed.
Print Assumptions C100_table_built.

(** ** C101: the layout boundary *)

Lemma listed_drops {poly table} ccw reverse scale net mat e t top bot (hs : list poly) : forall is (es : list (entry poly table)),
  rounds (e * scale) top -> rounds ((e - t) * scale) bot -> (top <= bot)%Z ->
  listed ccw reverse scale (map (fun h => mkI net mat h true e t None) hs ++ is) es -> listed ccw reverse scale is es.
Proof.
  induction hs as [|h hs IH]; intros is es R1 R2 V L; [exact L|]; cbn [map app] in L.
  inversion L as [|? ? ? t' b' A B C L'|? ? ? t' b' ? A B C D L']; subst; [eapply IH; eauto|].
  cbn [i_elev i_thick] in *; rewrite (rounds_inj _ _ _ R1 A), (rounds_inj _ _ _ R2 B) in V; lia.
Qed.

(** If a stack-up layer has a positive rounded thickness, the boundary of the model is that of the layout. *)
Theorem C101_boundary : forall poly point table path ccw reverse scale steiner mats heights (l : layout poly point table path) m mat e t top bot,
  build_cut ccw reverse scale steiner mats heights l = Ok m -> In (Some mat, Some (e, t)) (ly_stack l) ->
  rounds (e * scale) top -> rounds ((e - t) * scale) bot -> (bot < top)%Z ->
  let b := sh_outline (ly_boundary l) in layout_boundary m = Ok (if ccw b then b else reverse b).
Proof.
  intros until bot; intros E Hin R1 R2 V; cbv zeta.
  destruct (C98_contents _ _ _ _ _ _ _ _ _ _ _ _ E) as (ps & es & Ep & L & (_ & _ & C & _) & _).
  unfold place_all in Ep; destruct (collect (place_layer (ly_boundary l)) (ly_stack l)) as [a|] eqn:Ea; [|discriminate].
  destruct (collect place_comp _) as [b|]; [|discriminate]; destruct (collect (place_prim _ _) _) as [c|]; [|discriminate]; destruct (collect (place_inst _) _) as [d|]; [|discriminate].
  injection Ep as <-; set (rest := b ++ c ++ d) in L; clearbody rest.
  assert (G : exists x es', es = x :: es' /\ e_poly x = if ccw (sh_outline (ly_boundary l)) then sh_outline (ly_boundary l) else reverse (sh_outline (ly_boundary l))).
  { clear C E; revert a es Ea L; induction (ly_stack l) as [|[om or] ls IH]; intros a es Ea L; [destruct Hin|].
    cbn [collect] in Ea; destruct (place_layer (ly_boundary l) (om, or)) as [x|] eqn:Ex; [|discriminate].
    destruct (collect (place_layer (ly_boundary l)) ls) as [y|] eqn:Ey; [|discriminate]; injection Ea as <-.
    destruct om as [mat'|]; [|discriminate]; destruct or as [[e' t']|]; [|discriminate]; injection Ex as <-.
    cbn [app flat_map pieces] in L.
    inversion L as [|? ? ? t2 b2 A B C L'|? ? ? t2 b2 ? A B C D L']; subst.
    - cbn [i_elev i_thick p_elev p_thick] in *; destruct Hin as [[= -> -> ->]|Hin].
      + rewrite (rounds_inj _ _ _ R1 A), (rounds_inj _ _ _ R2 B) in V; lia.
      + apply (IH Hin y es eq_refl); eapply (listed_drops ccw reverse scale noNet noMaterial e' t' t2 b2 (sh_holes (ly_boundary l))); [exact A|exact B|exact C|exact L'].
    - eexists _, _; split; [reflexivity|]; cbn [e_poly i_poly i_hole p_shape].
      destruct (ccw (sh_outline (ly_boundary l))); reflexivity. }
  destruct G as (x & es' & -> & <-); unfold layout_boundary; rewrite C; reflexivity.
Qed.
Print Assumptions C101_boundary.

(** ** C102: solder joints of bond wires *)

(** A joint of positive rounded thickness is in the model as a polygon on the net of the wire if the wire has no current,
    or the joint is at its end. *)
Theorem C102_joint_on_net : forall poly point table path ccw reverse scale steiner mats heights (l : layout poly point table path) m w j1 j2 j mat top bot,
  build_cut ccw reverse scale steiner mats heights l = Ok m -> In (PWire w) (ly_prims l) -> w_joints w = Some (Some (j1, j2)) ->
  (j1 = Some j /\ w_current w <= 0) \/ j2 = Some j -> j_mat j = Some mat ->
  rounds (j_elev j * scale) top -> rounds ((j_elev j - j_thick j) * scale) bot -> (bot < top)%Z ->
  exists k, nth_error (c_nets m) k = Some (w_net w) /\ nth_error (c_mats m) k = Some mat /\ nth_error (c_ranges m) k = Some (mkR top bot).
Proof.
  intros until bot; intros E Hw Hj Hjj Hm R1 R2 V.
  destruct (C98_contents _ _ _ _ _ _ _ _ _ _ _ _ E) as (ps & es & Ep & L & (A & B & _ & (rs & D & _) & _) & _).
  set (p := mkP (w_net w) mat noMaterial (j_shape j) (j_elev j) (j_thick j) (@None (Z * table * Q))).
  assert (Hp : In p ps).
  { unfold place_all in Ep; destruct (collect (place_layer _) _); [|discriminate]; destruct (collect place_comp _); [|discriminate].
    destruct (collect (place_prim _ _) (ly_prims l)) as [c|] eqn:Ec; [|discriminate]; destruct (collect (place_inst _) _); [|discriminate].
    injection Ep as <-; rewrite !in_app_iff; right; right; left.
    assert (I : forall (f : prim poly point table path -> option (list (placed poly point table))) xs a ys, collect f xs = Some ys -> In a xs -> exists y, f a = Some y /\ incl y ys).
    { clear; intros f xs a; induction xs as [|x xs IH]; intros ys; [intros _ []|]; cbn [collect].
      destruct (f x) as [u|] eqn:Eu; [|discriminate]; destruct (collect f xs) as [v|]; [|discriminate]; intros [= <-] [->|H].
      - exists u; split; [auto|apply incl_appl, incl_refl].
      - destruct (IH v eq_refl H) as (y & Ey & Hy); exists y; split; [auto|now apply incl_appr]. }
    destruct (I _ _ _ _ Ec Hw) as (y & Ey & Hy); apply Hy; cbn [place_prim] in Ey.
    destruct (w_path w); [|discriminate]; destruct (w_mat w); [|discriminate]; rewrite Hj in Ey.
    destruct (place_joint false w j1) as [u|] eqn:E1; [|discriminate]; destruct (place_joint true w j2) as [v|] eqn:E2; [|discriminate].
    injection Ey as <-; apply in_app_iff; destruct Hjj as [[-> Hc]| ->]; [left|right].
    - unfold place_joint in E1; rewrite Hm in E1; destruct (w_current w ?= 0) eqn:Q; [injection E1 as <-; now left|injection E1 as <-; now left|].
      apply Qgt_alt in Q; lra.
    - unfold place_joint in E2; rewrite Hm in E2; destruct (w_current w ?= 0) eqn:Q; [injection E2 as <-; now left|injection E2 as <-; now left|].
      destruct (j_heat j); [injection E2 as <-; right; now left|discriminate..]. }
  clear - Hp L A B D R1 R2 V.
  assert (G : exists k e, nth_error es k = Some e /\ e_net e = w_net w /\ e_mat e = mat /\ e_range e = mkR top bot).
  { assert (Hi : In (mkI (w_net w) mat (sh_outline (j_shape j)) false (j_elev j) (j_thick j) None) (flat_map pieces ps)) by (apply in_flat_map; exists p; split; [auto|now left]).
    clear Hp p A B D; revert Hi; generalize dependent (flat_map pieces ps); intros is L Hi.
    induction L as [|i' is es t bt A B C L IH|i' is es t bt b A B C D L IH]; [destruct Hi|..].
    - destruct Hi as [->|Hi]; [|auto]; cbn in A, B; rewrite (rounds_inj _ _ _ R1 A), (rounds_inj _ _ _ R2 B) in V; lia.
    - destruct Hi as [->|Hi]; [|destruct (IH Hi) as (k & e & Hk & R); exists (Datatypes.S k), e; auto].
      cbn in A, B; exists 0%nat; eexists; split; [reflexivity|]; cbn; rewrite (rounds_inj _ _ _ R1 A), (rounds_inj _ _ _ R2 B); auto. }
  destruct G as (k & e & Hk & <- & <- & <-); exists k; rewrite A, B, D.
  assert (k < List.length es)%nat by (apply nth_error_Some; congruence).
  repeat split; (rewrite nth_error_app1 by (rewrite map_length; auto)); now apply map_nth_error.
Qed.
Print Assumptions C102_joint_on_net.

(** ** Examples *)
  (** outlines are a direction and a name *)
  Definition exP := (bool * Z)%type.
  Definition rev1 (p : exP) : exP := (negb (fst p), snd p).
  Definition sh (c : option Z) (o : exP) (hs : list exP) : sshape exP Z := mkSh c o hs.
  Definition ex_build (l : layout exP Z Z Z) : res (cut exP Z Z Z) :=
    build_cut (fst : exP -> bool) rev1 100 true (fun l => if (l <=? 1)%Z then Some (20, 21)%Z else None) (fun l => if (l =? 0)%Z then Some (2, 1) else if (l =? 1)%Z then Some (1, 1) else None) l.
  Definition ex_extract (l : layout exP Z Z Z) : res (cut exP Z Z Z * lcm) :=
    extract_cut (fst : exP -> bool) rev1 100 true (fun l => if (l <=? 1)%Z then Some (20, 21)%Z else None) (fun l => if (l =? 0)%Z then Some (2, 1) else if (l =? 1)%Z then Some (1, 1) else None) 20 1 l.
  Definition ex_wire (current : Q) : wire exP Z Z Z :=
    mkWire 7 (1#10) (Some 30%Z) current 3 (Some 99%Z)
      (Some (Some (Some (mkJoint (sh None (true, 70%Z) []) (23#10) (1#10) (Some 31%Z) (Ok 700%Z)), Some (mkJoint (sh None (true, 71%Z) []) 2 (1#10) (Some 31%Z) (Ok 701%Z))))).
  Definition ex_layout (stack : list (option Z * option (Q * Q))) (current : Q) : layout exP Z Z Z :=
    mkLayout (sh None (false, 1%Z) [(true, 2%Z)]) stack
      [mkComp (true, 3%Z) (Some 12%Z) (Some (3, 1#2)) (Some (4, 400)%Z) (Some (0, 0)) None]
      [PGeom 5 0 (sh (Some 50%Z) (true, 4%Z) [(true, 5%Z)]); PText; PWire (ex_wire current); PGeom 6 0 (sh None (false, 6%Z) [])]
      [mkPI 8 (Some (Some (Some 40%Z))) 1 0 (fun l => Some (sh (Some l) (true, 80 + l)%Z []))]
      [(true, 9%Z)].
  Definition ex_stack : list (option Z * option (Q * Q)) := [(Some 10%Z, Some (2, 1)); (Some 11%Z, Some (1, 1#1000)); (Some 11%Z, Some (1, 1))].

  (** a wire without current: all objects are there, the thin layer is not *)
  Example C98_ex : rmap (fun x => let '(m, t) := x in (c_nets m, c_mats m, c_polys m)) (ex_extract (ex_layout ex_stack 0)) = Ok
    ([noNet; noNet; noNet; noNet; noNet; 5; 5; 7; 7; 6; 8; 8; noNet]%Z,
     [10; noMaterial; 11; noMaterial; 12; 20; 21; 31; 31; 20; 40; 40; noMaterial]%Z,
     [(true, 1); (false, 2); (true, 1); (false, 2); (true, 3); (true, 4); (false, 5); (true, 70); (true, 71); (true, 6); (true, 80); (true, 81); (true, 9)]%Z).
  Proof. vm_compute; reflexivity. Qed.
  Example C98_ex2 : rmap (fun x => let '(m, t) := x in (c_points m, c_blocks m, List.length (c_wires m), l_order t, layout_boundary m)) (ex_extract (ex_layout ex_stack 0)) = Ok
    ([50; 0; 1]%Z, [(4%nat, (mkR 295 290, 4%Z, 400%Z))], 1%nat, [300; 295; 290; 250; 230; 220; 200; 190; 100; 0]%Z, Ok (true, 1%Z)).
  Proof. vm_compute; reflexivity. Qed.

(** C101 is false of the code in general: without a layer that is thick enough the boundary of some other object, here a
    component, is taken for that of the layout. *)
Theorem C101_boundary_refuted : exists m, ex_build (ex_layout [(Some 10%Z, Some (2, 1#1000))] 0) = Ok m /\
  layout_boundary m = Ok (true, 3%Z) /\ snd (sh_outline (ly_boundary (ex_layout [(Some 10%Z, Some (2, 1#1000))] 0))) = 1%Z.
Proof. eexists; split; [vm_compute; reflexivity|split; reflexivity]. Qed.
Print Assumptions C101_boundary_refuted.

(** With no polygon at all, asking for the boundary is undefined. *)
Theorem C101_no_polygon_is_ub : forall poly point table path (m : cut poly point table path), c_polys m = [] -> layout_boundary m = UB.
Proof. intros until m; intros E; unfold layout_boundary; now rewrite E. Qed.
Print Assumptions C101_no_polygon_is_ub.
Example C101_no_polygon_ex : exists m, ex_build (mkLayout (mkSh None (true, 1%Z) []) [] [] [] [] []) = Ok m /\ c_polys m = [].
Proof. eexists; split; reflexivity. Qed.

(** C102 is false of the code: with a current the joint at the start of a wire is in the model without the net of the
    wire, and the one at the end is there twice, as a power block and as a shape on the net. *)
Theorem C102_joints_refuted : exists m, ex_build (mkLayout (mkSh None (true, 1%Z) []) [] [] [PWire (ex_wire 1)] [] []) = Ok m /\
  c_polys m = [(true, 70); (true, 71); (true, 71)]%Z /\ c_nets m = [noNet; noNet; 7]%Z /\ c_ranges m = [mkR 230 220; mkR 200 190; mkR 200 190] /\
  map fst (c_blocks m) = [0; 1]%nat.
Proof. eexists; split; [vm_compute; reflexivity|repeat split; reflexivity]. Qed.
Print Assumptions C102_joints_refuted.

(** A padstack instance that spans a layer without a pad shape is dereferenced as null. *)
Theorem C98_missing_pad_is_ub : forall poly point table path ccw reverse scale steiner mats heights (b : sshape poly point) net mat top bot shp l,
  (forall l, (Z.min top bot <= l <= Z.max top bot)%Z -> heights l <> None) -> (Z.min top bot <= l <= Z.max top bot)%Z -> shp l = None ->
  build_cut (table := table) (path := path) ccw reverse scale steiner mats heights (mkLayout b [] [] [] [mkPI net (Some (Some (Some mat))) top bot shp] []) = UB.
Proof.
  intros until l; intros Hh Hl Hs; unfold build_cut; cbn [add_stackup bind add_components add_prims fst snd ly_stack ly_comps ly_prims ly_insts add_insts pi_def pi_top pi_bot].
  set (i := mkPI _ _ _ _ _).
  assert (G : forall n a m hc, (Z.min top bot <= a)%Z -> (a + Z.of_nat n = Z.max top bot + 1)%Z -> (a <= l)%Z ->
     (forall k x, alookup Z.eqb k hc = Some x -> heights k = Some x) ->
     add_pads (table := table) (path := path) ccw reverse scale steiner heights i mat m hc n a = UB).
  { induction n as [|n IH]; intros a m hc H1 H2 H3 Hc; [lia|]; cbn [add_pads].
    pose proof (cached_height_spec heights hc a Hc) as S; specialize (Hh a).
    destruct (heights a) as [[e t]|] eqn:Ea; [|exfalso; apply Hh; [lia|auto]].
    destruct S as (hc' & -> & Hc'); cbn [bind pi_shape i].
    destruct (shp a) as [s|] eqn:Es; [|reflexivity].
    apply IH; [lia|lia| |exact Hc']; assert (a <> l) by congruence; lia. }
  rewrite G; [reflexivity|lia|lia|lia|discriminate].
Qed.
Print Assumptions C98_missing_pad_is_ub.
Example C98_missing_pad_ex : ex_build (mkLayout (mkSh None (true, 1%Z) []) [] [] [] [mkPI 8 (Some (Some (Some 40%Z))) 1 0 (fun l => if (l =? 1)%Z then None else Some (mkSh None (true, 80%Z) []))] []) = UB.
Proof. reflexivity. Qed.

(** So is a padstack instance without a definition; one whose definition has no data is left out, and one without
    material is refused. *)
Theorem C98_missing_definition_is_ub : forall poly point table path ccw reverse scale steiner mats heights (b : sshape poly point) net top bot shp is,
  let cut_of is := build_cut (table := table) (path := path) ccw reverse scale steiner mats heights (mkLayout b [] [] [] is []) in
  cut_of (mkPI net None top bot shp :: is) = UB /\
  cut_of (mkPI net (Some None) top bot shp :: is) = cut_of is /\
  cut_of (mkPI net (Some (Some None)) top bot shp :: is) = Throw.
Proof. intros; repeat split; reflexivity. Qed.
Print Assumptions C98_missing_definition_is_ub.

(** Examples meeting the hypotheses of the theorems above. *)
Example C99_ex : exists m, ex_build (ex_layout ex_stack 1) = Ok m /\
  alookup Nat.eqb 7%nat (c_blocks m) = Some (mkR 225 224, 3%Z, 700%Z) /\ nth_error (c_ranges m) 7 = Some (mkR 230 220).
Proof. eexists; split; [vm_compute; reflexivity|split; reflexivity]. Qed.
Example C101_ex : exists m top bot, ex_build (ex_layout ex_stack 1) = Ok m /\ In (Some 10%Z, Some (2, 1)) ex_stack /\
  rounds (2 * 100) top /\ rounds ((2 - 1) * 100) bot /\ (bot < top)%Z.
Proof.
  eexists; exists 200%Z, 100%Z; split; [vm_compute; reflexivity|split; [now left|]].
  unfold rounds; split; [|split; [|lia]]; (split; [split; unfold Qle; cbn; lia|split; intros H; exfalso; revert H; unfold Qeq; cbn; lia]).
Qed.
Example C102_ex : exists m, ex_build (ex_layout ex_stack 1) = Ok m /\ nth_error (c_nets m) 9 = Some 7%Z /\ nth_error (c_ranges m) 9 = Some (mkR 200 190).
Proof. eexists; split; [vm_compute; reflexivity|split; reflexivity]. Qed.
