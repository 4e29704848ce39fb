From Verif Require Import Base QSum ThermalNetwork_Model LayerCut_Model LayerCut_Spec LayerCut_Proofs.
From Coq Require Import Qround Qminmax.
Local Open Scope Z_scope.

(** ** C36: slicing over-thick layers *)

(** Whatever the ratio, when slicing ends the layers are still a stack of positive layers over
    the same height interval, every original cut height is kept, and neighbours differ in
    thickness by at most the ratio. *)
Theorem C36_slicing_result : forall fuel ratio l l' top bot,
  contiguous l -> all_positive l -> spans l top bot -> slice_all fuel ratio l = Ok l' ->
  contiguous l' /\ all_positive l' /\ spans l' top bot /\ (forall h, cuts l h -> cuts l' h) /\ graded ratio l'.
Proof.
  intros fuel ratio l l' top bot C P S H; apply slice_all_spec in H as [R G].
  destruct (refines_pres _ _ R) as (P1 & P2 & P3 & P4 & P5 & P6 & P7).
  split; [auto|split; [|auto]].
  apply nonneg_nozero; [apply P2, positive_nonneg, P|]; intros Hz.
  pose proof (graded_zero ratio l' (P2 (positive_nonneg _ P)) G Hz) as H0.
  pose proof (positive_total _ P) as H1; destruct l as [|a l]; [destruct S as (? & ? & ? & _); discriminate|].
  cbn [List.length] in H1; lia.
Qed.
Print Assumptions C36_slicing_result.
Example C36_slicing_result_ex : contiguous [mkR 20 18; mkR 18 2; mkR 2 0] /\ all_positive [mkR 20 18; mkR 18 2; mkR 2 0] /\
  exists l', slice_all 10 2 [mkR 20 18; mkR 18 2; mkR 2 0] = Ok l' /\ (3 < List.length l')%nat.
Proof. split; [simpl; auto|split; [repeat constructor; simpl; lia|]]; eexists; split; [vm_compute; reflexivity|simpl; lia]. Qed.

(** A layer already within the ratio of its neighbours is left alone. *)
Theorem C36_graded_is_unchanged : forall fuel ratio l, graded ratio l -> slice_all (Datatypes.S fuel) ratio l = Ok l.
Proof.
  intros fuel ratio l G.
  assert (H : forall rest p c, graded ratio (c :: rest) -> (forall pr p', p = pr :: p' -> (inject_Z (thick c) <= ratio * inject_Z (thick pr))%Q) ->
    slice_pass ratio p c rest = (rev p ++ c :: rest, false)).
  { clear; induction rest as [|nx rest IH]; intros p c Hg Hp; cbn [slice_pass].
    - assert (E : match p with [] => false | pr :: _ => too_thick ratio (thick c) (thick pr) end = false)
        by (destruct p as [|pr p]; [reflexivity|apply too_thick_false; eapply Hp; reflexivity]).
      rewrite E; reflexivity.
    - assert (E : match p with [] => false | pr :: _ => too_thick ratio (thick c) (thick pr) end = false)
        by (destruct p as [|pr p]; [reflexivity|apply too_thick_false; eapply Hp; reflexivity]).
      rewrite E; destruct Hg as (G1 & G2 & G3); apply too_thick_false in G1; rewrite G1; cbn [split_if].
      rewrite IH; auto.
      + cbn [rev]; rewrite <- app_assoc; reflexivity.
      + intros pr p' [= <- _]; exact G2. }
  cbn [slice_all]; destruct l as [|c r]; [reflexivity|].
  cbn [slice_once]; rewrite (H r [] c G) by discriminate; reflexivity.
Qed.
Print Assumptions C36_graded_is_unchanged.
Example C36_graded_is_unchanged_ex : graded 2 [mkR 7 6; mkR 6 4; mkR 4 0] .
Proof. simpl; unfold thick; simpl; repeat split; vm_compute; discriminate. Qed.

(** Slicing terminates when the ratio is at least 3, or at least 2 with no negative height.
    Missing: smaller ratios, and ratio 2 below height 0, where it may not ([_refuted] below). *)
Theorem C36_slicing_terminates_partial : forall ratio l bottom,
  all_positive l -> Forall (fun r => bottom <= lo r) l ->
  (3 <= ratio)%Q \/ ((2 <= ratio)%Q /\ 0 <= bottom) ->
  exists l', slice_all (Datatypes.S (Z.to_nat (total l))) ratio l = Ok l'.
Proof.
  intros ratio l bottom P B S; apply (terminates ratio bottom); auto.
  pose proof (positive_total l P); lia.
Qed.
Print Assumptions C36_slicing_terminates_partial.
Example C36_slicing_terminates_ex : all_positive [mkR 20 18; mkR 18 2; mkR 2 0] /\ Forall (fun r => 0 <= lo r) [mkR 20 18; mkR 18 2; mkR 2 0] /\ ((2 <= 2)%Q /\ 0 <= 0).
Proof. split; [repeat constructor; simpl; lia|split; [repeat constructor; simpl; lia|split; [apply Qle_refl|lia]]]. Qed.

(** Once a layer of zero thickness appears in a stack of positive height the loop never ends,
    whatever the ratio. *)
Theorem C36_zero_layer_diverges : forall fuel ratio l,
  Forall (fun r => lo r <= hi r) l -> (exists r, In r l /\ lo r < hi r) -> (exists r, In r l /\ hi r = lo r) ->
  slice_all fuel ratio l = OutOfFuel.
Proof.
  intros fuel ratio l N (x & Hx & Hp) (z & Hz & E); apply diverges; auto; [|exists z; split; auto; unfold thick; lia].
  clear - N Hx Hp; unfold total; induction N as [|a l Ha N IH]; simpl; [destruct Hx|].
  assert (0 <= fold_right (fun r a => thick r + a) 0 l) by (clear - N; induction N; simpl; unfold thick in *; lia).
  destruct Hx as [->|Hx]; [|specialize (IH Hx)]; unfold thick in *; lia.
Qed.
Print Assumptions C36_zero_layer_diverges.
Example C36_zero_layer_diverges_ex : slice_all 6 2 [mkR 3 1; mkR 1 1] = OutOfFuel.
Proof. vm_compute; reflexivity. Qed.

(** Slicing does not always terminate: with ratio 3/2, layers of thickness 1, 2, 1 above height
    0; and with the default ratio 2, layers of thickness 1, 3, 1 below height 0. *)
Lemma slice_all_unfold fuel ratio l l' : slice_once ratio l = (l', true) -> (forall k, slice_all k ratio l' = OutOfFuel) -> slice_all fuel ratio l = OutOfFuel.
Proof. intros E H; destruct fuel; [reflexivity|]; cbn [slice_all]; rewrite E; apply H. Qed.

Theorem C36_termination_refuted :
  exists l1 l2, contiguous l1 /\ all_positive l1 /\ Forall (fun r => 0 <= lo r) l1 /\ contiguous l2 /\ all_positive l2 /\
  (forall fuel, slice_all fuel (3 # 2) l1 = OutOfFuel) /\ (forall fuel, slice_all fuel 2 l2 = OutOfFuel).
Proof.
  exists [mkR 4 3; mkR 3 1; mkR 1 0], [mkR (-1) (-2); mkR (-2) (-5); mkR (-5) (-6)].
  split; [simpl; auto|split; [repeat constructor; simpl; lia|split; [repeat constructor; simpl; lia|]]].
  split; [simpl; auto|split; [repeat constructor; simpl; lia|split]].
  - intros fuel; eapply slice_all_unfold; [vm_compute; reflexivity|]; intros k; apply C36_zero_layer_diverges;
      [repeat constructor; simpl; lia|eexists; split; [left; reflexivity|simpl; lia]|].
    match goal with |- exists r, In r ?l /\ _ => let r := eval vm_compute in (find (fun r => Z.eqb (hi r) (lo r)) l) in match r with Some ?z => exists z end end.
    simpl; intuition auto.
  - intros fuel; eapply slice_all_unfold; [vm_compute; reflexivity|]; intros k; apply C36_zero_layer_diverges;
      [repeat constructor; simpl; lia|eexists; split; [left; reflexivity|simpl; lia]|].
    match goal with |- exists r, In r ?l /\ _ => let r := eval vm_compute in (find (fun r => Z.eqb (hi r) (lo r)) l) in match r with Some ?z => exists z end end.
    simpl; intuition auto.
Qed.
Print Assumptions C36_termination_refuted.

(** ** C37: layers of the layer cut model *)

(** Without slicing, the cut heights are exactly the heights of the shapes with a material and a
    valid range (with those of their power blocks), each once, from top to bottom. *)
Theorem C37_cut_heights : forall fuel ratio ss m, (ratio <= 1)%Q -> build_lut fuel ratio ss = Ok m ->
  decreasing (l_order m) /\ NoDup (l_order m) /\
  forall h, In h (l_order m) <-> exists s, In s ss /\ s_mat s = true /\ r_valid (s_range s) = true /\
    (h = hi (s_range s) \/ h = lo (s_range s) \/ exists r, s_power s = Some r /\ (h = hi r \/ h = lo r)).
Proof.
  intros fuel ratio ss m Hr H; destruct (build_spec _ _ _ _ H) as (D & _).
  split; [exact D|split].
  - clear - D; induction (l_order m) as [|a l IH]; constructor.
    + apply decreasing_cons in D as [D _]; rewrite Forall_forall in D; intros Hin; specialize (D a Hin); lia.
    + apply decreasing_cons in D as [_ D]; auto.
  - intros h; unfold build_lut in H; destruct (fill _ 0 ss _) as [m0| | |]; cbn [bind] in H; try discriminate.
    replace (Qltb 1 ratio) with false in H by (symmetry; unfold Qltb; rewrite negb_false_iff; now apply Qle_bool_iff).
    injection H as <-; cbn [l_order]; rewrite layer_order_in.
    split; intros (s & Hs & Hh); exists s; (split; [exact Hs|]).
    + unfold shape_heights in Hh; destruct (s_mat s), (r_valid (s_range s)); simpl in Hh; try tauto.
      destruct (s_power s) as [r|]; simpl in Hh; split; auto; split; auto.
      * destruct Hh as [<-|[<-|[<-|[<-|[]]]]]; auto; right; right; exists r; auto.
      * destruct Hh as [<-|[<-|[]]]; auto.
    + destruct Hh as (H1 & H2 & H3); unfold shape_heights; rewrite H1, H2; simpl.
      destruct H3 as [->|[->|(r & -> & [->| ->])]]; simpl; auto.
Qed.
Print Assumptions C37_cut_heights.

(** In every layer of the model, sliced or not, the listed shapes are exactly those whose valid
    range covers the whole layer, each once and in the order they were added; the cut heights
    decrease strictly and contain the bounds of every valid shape, so a shape is cut by no layer. *)
Theorem C37_layer_shapes : forall fuel ratio ss m, build_lut fuel ratio ss = Ok m ->
  decreasing (l_order m) /\
  (forall s, In s ss -> r_valid (s_range s) = true -> In (hi (s_range s)) (l_order m) /\ In (lo (s_range s)) (l_order m)) /\
  forall L top bot, nth_error (l_order m) L = Some top -> nth_error (l_order m) (Datatypes.S L) = Some bot ->
    match layer_polygons m L with Some v => v | None => [] end = shapes_in_layer ss top bot.
Proof. intros fuel ratio ss m H; destruct (build_spec _ _ _ _ H) as (A & _ & B & C); auto. Qed.
Print Assumptions C37_layer_shapes.

(** the layers that list shape [i] are those between its bounds *)
Theorem C37_shape_layers : forall fuel ratio ss m i s L top bot, build_lut fuel ratio ss = Ok m ->
  nth_error ss i = Some s -> nth_error (l_order m) L = Some top -> nth_error (l_order m) (Datatypes.S L) = Some bot ->
  (In i (match layer_polygons m L with Some v => v | None => [] end) <-> r_valid (s_range s) = true /\ covers_layer (s_range s) top bot).
Proof.
  intros fuel ratio ss m i s L top bot H Hi Ht Hb; destruct (C37_layer_shapes _ _ _ _ H) as (_ & _ & E).
  rewrite (E L top bot Ht Hb); unfold shapes_in_layer, covers_layer; rewrite filter_In, in_seq, Hi, !andb_true_iff, !Z.leb_le.
  split; [tauto|]; intros [H1 H2]; split; [|tauto]; split; [lia|]; apply nth_error_Some; congruence.
Qed.
Print Assumptions C37_shape_layers.

(** Looking a height up gives the layer that starts there, and nothing else. *)
Theorem C37_layer_by_height : forall fuel ratio ss m h L, build_lut fuel ratio ss = Ok m ->
  (layer_by_height m h = Some L <-> nth_error (l_order m) L = Some h).
Proof.
  intros fuel ratio ss m h L H; destruct (build_spec _ _ _ _ H) as (D & _).
  unfold layer_by_height; split; [apply index_of_nth|apply nth_index_of; auto].
Qed.
Print Assumptions C37_layer_by_height.

(** A height strictly inside a layer is not found. *)
Theorem C37_inner_height_refuted : exists fuel ratio ss m h top bot,
  build_lut fuel ratio ss = Ok m /\ nth_error (l_order m) 0 = Some top /\ nth_error (l_order m) 1 = Some bot /\ bot < h < top /\
  layer_by_height m h = None.
Proof.
  exists 0%nat, 0%Q, [mkS (mkR 10 0) true None]; eexists; exists 5, 10, 0.
  split; [cbn -[Qltb]; reflexivity|split; [reflexivity|split; [reflexivity|split; [lia|reflexivity]]]].
Qed.
Print Assumptions C37_inner_height_refuted.

(** Building succeeds when every valid shape has a material, or the heights of one that has; if slicing is asked for, there
    must be a valid shape, the shapes leave no gap, and the ratio is one for which slicing ends. *)
Lemma cut_height_order ss h : cut_height ss h <-> In h (layer_order ss).
Proof.
  rewrite layer_order_in; unfold cut_height, shape_heights, r_valid; split.
  - intros (s & Hs & Hm & Hv & Hh); exists s; split; [auto|]; apply Z.ltb_lt in Hv; rewrite Hm, Hv; cbn [andb].
    apply in_or_app; destruct Hh as [->|[->|(r & -> & [->| ->])]]; simpl; auto.
  - intros (s & Hs & Hh); exists s; split; [auto|].
    destruct (s_mat s); [|destruct Hh]; destruct (Z.ltb_spec (lo (s_range s)) (hi (s_range s))); [|destruct Hh].
    split; [auto|split; [auto|]]; cbn [andb] in Hh; apply in_app_or in Hh as [[<-|[<-|[]]]|Hh]; auto.
    destruct (s_power s) as [r|]; [|destruct Hh]; right; right; exists r; split; auto; destruct Hh as [<-|[<-|[]]]; auto.
Qed.
Lemma fill_ok order ss : (forall s, In s ss -> r_valid (s_range s) = true -> In (hi (s_range s)) order /\ In (lo (s_range s)) order) ->
  forall i m, exists m', fill order i ss m = Ok m'.
Proof.
  induction ss as [|s ss IH]; intros H i m; cbn [fill]; [eauto|].
  destruct (r_valid (s_range s)) eqn:Ev; [|apply IH; intros; apply H; auto; now right].
  destruct (H s (or_introl eq_refl) Ev) as [H1 H2]; unfold at_height.
  destruct (index_of (hi (s_range s)) order) eqn:E1; [|apply index_of_none in E1; tauto].
  destruct (index_of (lo (s_range s)) order) eqn:E2; [|apply index_of_none in E2; tauto].
  cbn [bind]; apply IH; intros; apply H; auto; now right.
Qed.

Lemma relabel_ok old m hs : (forall h j, In h hs -> index_of h old = Some j -> m j <> None) ->
  forall prev, (exists v, prev = Ok v) \/ (exists h r, hs = h :: r /\ In h old) \/ hs = [] -> exists vs, relabel old m prev hs = Ok vs.
Proof.
  induction hs as [|h hs IH]; intros Hm prev Hp; cbn [relabel]; [eauto|].
  assert (Hv : exists v, match index_of h old with Some j => match m j with Some v => Ok v | None => Throw end | None => prev end = Ok v).
  { destruct (index_of h old) as [j|] eqn:E.
    - specialize (Hm h j (or_introl eq_refl) E); destruct (m j); [eauto|congruence].
    - apply index_of_none in E; destruct Hp as [Hp|[(h' & r & [= -> ->] & Hi)|Hp]]; [exact Hp|tauto|discriminate]. }
  destruct Hv as [v ->]; cbn [bind].
  destruct (IH (fun h' j Hi => Hm h' j (or_intror Hi)) (Ok v)) as [vs ->]; [left; eauto|cbn [rmap bind]; eauto].
Qed.

Theorem C37_build_succeeds : forall ratio ss,
  (forall s, In s ss -> r_valid (s_range s) = true -> exists s', In s' ss /\ s_mat s' = true /\ s_range s' = s_range s) ->
  (ratio <= 1)%Q \/
  ((exists s, In s ss /\ r_valid (s_range s) = true) /\
   (forall top bot, cut_height ss top -> cut_height ss bot -> bot < top ->
      (forall h, cut_height ss h -> h <= bot \/ top <= h) -> shapes_in_layer ss top bot <> []) /\
   ((3 <= ratio)%Q \/ ((2 <= ratio)%Q /\ forall h, cut_height ss h -> 0 <= h))) ->
  exists fuel m, build_lut fuel ratio ss = Ok m.
Proof.
  intros ratio ss Hmat Hr'.
  assert (Hheights : forall s, In s ss -> r_valid (s_range s) = true -> In (hi (s_range s)) (layer_order ss) /\ In (lo (s_range s)) (layer_order ss)).
  { intros s Hs Hv; destruct (Hmat s Hs Hv) as (s' & Hs' & Em & Er); rewrite <- Er in *; rewrite !layer_order_in; split; exists s'; split; auto; unfold shape_heights; rewrite Em, Hv; simpl; auto. }
  unfold build_lut; set (order := layer_order ss) in *.
  assert (Hd : decreasing order) by apply layer_order_decreasing.
  destruct (fill_ok order ss Hheights 0 (fun _ => None)) as [m0 Ef].
  destruct (Qltb 1 ratio) eqn:Eq; [|exists 0%nat; rewrite Ef; cbn [bind]; eauto].
  assert (Hr1 : ~ (ratio <= 1)%Q) by (intros H; apply Qle_bool_iff in H; unfold Qltb in Eq; rewrite H in Eq; discriminate).
  destruct Hr' as [Hr'|((s0 & Hs0 & Hv0) & Hgap' & Hr')]; [tauto|].
  assert (Hgap : forall top bot, In top order -> In bot order -> bot < top ->
     (forall h, In h order -> h <= bot \/ top <= h) -> shapes_in_layer ss top bot <> []).
  { intros top bot Ht Hb Hlt Hbetween; apply Hgap'; auto; try (now apply cut_height_order).
    intros h Hh; apply Hbetween, cut_height_order, Hh. }
  assert (Hr : (ratio <= 1)%Q \/ (3 <= ratio)%Q \/ ((2 <= ratio)%Q /\ Forall (fun h => 0 <= h) order)).
  { destruct Hr' as [|[H1 H2]]; [auto|right; right; split; [auto|]]; apply Forall_forall; intros h Hh; apply H2, cut_height_order, Hh. }
  destruct (Hheights s0 Hs0 Hv0) as [Ih Il].
  assert (Hlen : exists a b r, order = a :: b :: r).
  { unfold r_valid in Hv0; apply Z.ltb_lt in Hv0.
    destruct order as [|a [|b r]]; [destruct Ih| |eauto].
    destruct Ih as [E1|[]], Il as [E|[]]; lia. }
  destruct Hlen as (a & b & r & Eo).
  destruct (ranges_of_facts order Hd) as (C & P & F); destruct (F a b r Eo) as (F1 & F2 & F3).
  assert (Ht : exists fuel rs, slice_all fuel ratio (ranges_of order) = Ok rs).
  { destruct Hr as [Hr|[Hr|[Hr Hn]]]; [tauto| |].
    - exists (Datatypes.S (Z.to_nat (total (ranges_of order)))).
      assert (Hb : exists bt, Forall (fun x => bt <= lo x) (ranges_of order)).
      { clear; induction (ranges_of order) as [|x l [bt IH]]; [exists 0; constructor|].
        exists (Z.min bt (lo x)); constructor; [lia|]; eapply Forall_impl; [|exact IH]; simpl; intros; lia. }
      destruct Hb as [bt Hb]; apply (C36_slicing_terminates_partial ratio _ bt); auto.
    - exists (Datatypes.S (Z.to_nat (total (ranges_of order)))); apply (C36_slicing_terminates_partial ratio _ 0); auto.
      + apply Forall_forall; intros x Hx; rewrite Forall_forall in Hn; apply Hn, F1; exists x; auto.
      + right; split; [auto|lia]. }
  destruct Ht as (fuel & rs & Es); exists fuel; rewrite Ef; cbn [bind]; rewrite Es; assert (Hmt : forall X : res lcm, match order with [] => Throw | _ :: _ => X end = X) by (intros; rewrite Eo; reflexivity); rewrite Hmt; cbn [bind].
  assert (Hne : ranges_of order <> []) by (rewrite Eo; discriminate).
  destruct (spans_exists _ Hne) as (top & bot & Hsp).
  destruct (C36_slicing_result _ _ _ _ _ _ C P Hsp Es) as (C' & P' & Hsp' & Hcut & _).
  destruct rs as [|r0 rs0] eqn:Ers; [destruct Hsp' as (? & ? & ? & _); discriminate|]; rewrite <- Ers in *.
  assert (Hrel : exists vs, relabel order m0 Throw (map hi rs) = Ok vs).
  { apply relabel_ok.
    - intros h j Hin Hj Hnone.
      assert (Hjn := index_of_nth _ _ _ Hj).
      destruct (nth_error order (Datatypes.S j)) as [bt|] eqn:Eb.
      + destruct (fill_spec _ _ Hd _ _ _ Ef j h bt Hjn Eb) as [A _]; rewrite Hnone in A; cbn [dflt app] in A; rewrite covering_spec in A.
        apply (Hgap h bt); auto.
        * eapply nth_error_In; eauto.
        * eapply nth_error_In; eauto.
        * eapply (decreasing_nth order j (Datatypes.S j)); eauto.
        * intros h' Hh'; apply In_nth_error in Hh' as [k Hk].
          destruct (le_lt_dec k j) as [Hle|Hlt]; [right|left].
          -- apply (decreasing_nth_iff order k j _ _ Hd Hk Hjn); auto.
          -- apply (decreasing_nth_iff order (Datatypes.S j) k _ _ Hd Eb Hk); lia.
      + (* h would be the lowest height, but rs has a positive layer below it *)
        apply in_map_iff in Hin as (x & <- & Hx).
        assert (Hlow : forall k, In k order -> hi x <= k).
        { intros k Hk; apply In_nth_error in Hk as [n Hn].
          apply (decreasing_nth_iff order n j _ _ Hd Hn Hjn).
          apply nth_error_None in Eb; assert (n < List.length order)%nat by (apply nth_error_Some; congruence); lia. }
        assert (Hbot : In bot order).
        { apply F1; destruct Hsp as (u & v & _ & Hv & _ & E); exists v; split; [|auto].
          apply in_rev; destruct (rev (ranges_of order)); [discriminate|]; injection Hv as ->; now left. }
        assert (Hdec := order_of_decreasing rs 0 C' P').
        destruct Hsp' as (u & v & _ & Hv & _ & E).
        unfold order_of in Hdec; rewrite (last_lo rs v 0 Hv), E in Hdec.
        assert (Hlt : forall l, decreasing (l ++ [bot]) -> forall y, In y l -> bot < y).
        { clear; induction l as [|z l IH]; intros D y Hy; [destruct Hy|destruct Hy as [->|Hy]].
          - cbn [app] in D; apply decreasing_cons in D as [D _]; rewrite Forall_forall in D; apply D, in_app_iff; right; now left.
          - cbn [app] in D; apply decreasing_cons in D as [_ D]; auto. }
        specialize (Hlt _ Hdec (hi x) (in_map hi _ _ Hx)); specialize (Hlow bot Hbot); lia.
    - right; left; rewrite Ers; cbn [map]; eexists; eexists; split; [reflexivity|].
      apply F1. destruct Hsp as (u & v & Hu & _ & Et & _), Hsp' as (u' & v' & Hu' & _ & Et' & _).
      rewrite Ers in Hu'; injection Hu' as <-; exists u; split; [|left; congruence].
      destruct (ranges_of order); [discriminate|]; injection Hu as ->; now left. }
  destruct Hrel as [vs Hrel]; rewrite Ers in Hrel |- *; rewrite Hrel; cbn [bind]; eauto.
Qed.
Print Assumptions C37_build_succeeds.

Example C37_layers_ex : exists m,
  build_lut 20 2 [mkS (mkR 10 4) true None; mkS (mkR 4 0) true None; mkS (mkR 10 0) true (Some (mkR 9 8))] = Ok m /\
  l_order m <> [] /\ layer_polygons m 0 = Some [0; 2]%nat.
Proof. eexists; split; [vm_compute; reflexivity|split; [discriminate|reflexivity]]. Qed.

(** Shapes that leave a gap build without slicing, but with the default ratio the build throws. *)
Theorem C37_gap_throws : exists ss,
  (forall s, In s ss -> s_mat s = true /\ r_valid (s_range s) = true) /\
  (exists m, build_lut 50 1 ss = Ok m) /\ build_lut 50 2 ss = Throw.
Proof.
  exists [mkS (mkR 10 8) true None; mkS (mkR 4 0) true None]; split; [|split].
  - intros s [<-|[<-|[]]]; auto.
  - eexists; cbn -[Qltb]; reflexivity.
  - vm_compute; reflexivity.
Qed.
Print Assumptions C37_gap_throws.

(** A valid shape without material whose height no other shape has makes the build throw. *)
Theorem C37_shape_without_material_throws : forall fuel ratio r, r_valid r = true -> build_lut fuel ratio [mkS r false None] = Throw.
Proof.
  intros fuel ratio r H; unfold build_lut, layer_order, fill; simpl; rewrite H; unfold shape_heights; simpl; reflexivity.
Qed.
Print Assumptions C37_shape_without_material_throws.

Theorem C37_empty_model_throws : forall fuel ratio, (1 < ratio)%Q -> build_lut fuel ratio [] = Throw.
Proof.
  intros fuel ratio H; unfold build_lut; cbn [layer_order fill bind].
  replace (Qltb 1 ratio) with true; [reflexivity|]; symmetry; unfold Qltb; rewrite negb_true_iff; apply not_true_iff_false; intros E; apply Qle_bool_iff in E; lra.
Qed.
Print Assumptions C37_empty_model_throws.

(** A power block stays inside its component, whatever the rounding. *)
Lemma round_away_mono p q : (p <= q)%Q -> round_away p <= round_away q.
Proof.
  intros H; unfold round_away; destruct (Qle_bool 0 p) eqn:Ep, (Qle_bool 0 q) eqn:Eq.
  - apply Qfloor_resp_le; lra.
  - apply Qle_bool_iff in Ep; assert (0 <= q)%Q by lra; apply Qle_bool_iff in H0; congruence.
  - assert (Hp : (p < 0)%Q) by (apply Qnot_le_lt; intros Hc; apply Qle_bool_iff in Hc; congruence).
    apply Z.le_trans with (Qceiling 0); [apply Qceiling_resp_le; lra|].
    apply Z.le_trans with (Qfloor 0); [reflexivity|apply Qfloor_resp_le; apply Qle_bool_iff in Eq; lra].
  - apply Qceiling_resp_le; lra.
Qed.

Theorem C37_power_block_inside : forall scale elevation thickness pos pth,
  (0 <= scale)%Q -> (0 <= thickness)%Q -> (0 <= pos)%Q -> (pos <= 1)%Q -> (0 <= pth)%Q ->
  let c := get_range scale elevation thickness in
  let p := power_range scale elevation thickness pos pth in
  lo c <= lo p /\ lo p <= hi p /\ hi p <= hi c.
Proof.
  intros scale e t pos pth Hs Ht Hp Hp1 Hpt c p; subst c p; unfold power_range, get_range, get_height; cbn [lo hi].
  assert (A : (0 <= t * pos)%Q) by nra. assert (B : (t * pos <= t)%Q) by nra. assert (C : (0 <= t * pth)%Q) by nra.
  set (m := Qmin _ _).
  assert (M1 : (m <= t - e + (e - t * pos))%Q) by apply Q.le_min_r.
  assert (M0 : (0 <= m)%Q) by (apply Q.min_glb; lra).
  repeat split; apply round_away_mono; nra.
Qed.
Print Assumptions C37_power_block_inside.
Example C37_power_block_inside_ex : power_range 1000 1 (1#2) (1#10) (1#10) = mkR 950 900.
Proof. vm_compute; reflexivity. Qed.

(** but a block thinner than the height resolution has no thickness, and no layer of its own *)
Theorem C37_thin_power_block_vanishes : exists scale elevation thickness,
  r_valid (get_range scale elevation thickness) = true /\ r_valid (power_range scale elevation thickness (1#10) (1#10)) = false.
Proof. exists 1%Q, 4%Q, 2%Q; split; vm_compute; reflexivity. Qed.
Print Assumptions C37_thin_power_block_vanishes.
