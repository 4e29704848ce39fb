From Verif Require Import Base Bondwire_Model Padstack_Model LayerMap_Model LayerMap_Spec LayerMap_Proofs
  Transform_Model Transform_Spec Transform_Proofs Names_Model PadInst_Model PadInst_Spec PadInst_Proofs.
Local Open Scope Q_scope.

(** An instance shows nothing on a layer exactly if the layer is outside its range, it has no layer map, no
    definition or no data, or neither the pad of the mapped layer nor the via has a shape. *)
Theorem C80_nothing_shown :
  forall cosQ sinQ h i l, sane_target h i l ->
    (layer_shape cosQ sinQ h i l = Ok None <-> forall s o r, ~ has_shape h i l s o r).
Proof.
  intros cosQ sinQ h i l Hs.
  destruct (layer_shape_spec cosQ sinQ h i l Hs) as [(s & o & r & H & E)|[H E]]; rewrite E; split; auto.
  - discriminate.
  - intros H'; exfalso; eapply H'; eauto.
Qed.
Print Assumptions C80_nothing_shown.

(** What it shows is the outline of the pad on the mapped layer if that has one, else of the via, point by point:
    each point is moved by the instance's placement and by that pad's rotation and offset. *)
Theorem C80_shape_selected :
  forall (cosQ sinQ : Q -> Q) h i l shown,
    cosQ 0 == 1 -> sinQ 0 == 0 -> Proper (Qeq ==> Qeq) cosQ -> Proper (Qeq ==> Qeq) sinQ ->
    sane_target h i l -> layer_shape cosQ sinQ h i l = Ok (Some shown) ->
    exists s o r, has_shape h i l s o r /\
      Forall2 (fun p q => peq q (local_pt cosQ sinQ o r (moves cosQ sinQ (i_tr i) p))) s shown.
Proof.
  intros cosQ sinQ h i l shown Hc Hsn Pc Ps Hs E.
  destruct (layer_shape_spec cosQ sinQ h i l Hs) as [(s & o & r & H & E')|[H E']]; [|congruence].
  exists s, o, r; split; auto; rewrite E in E'; injection E' as ->.
  unfold move_outline; clear H E; induction s as [|p s IH]; simpl; constructor; auto.
  apply shape_placed; auto.
Qed.
Print Assumptions C80_shape_selected.

(** The parameters in force are unique, and always found: the call never fails. *)
Theorem C80_selection_unique :
  forall h i l s o r s' o' r', has_shape h i l s o r -> has_shape h i l s' o' r' -> s = s' /\ o = o' /\ r = r'.
Proof.
  intros h i l s o r s' o' r' [a m d _ Ha Hm Hd Hf] [a' m' d' _ Ha' Hm' Hd' Hf'].
  assert (a' = a) by congruence; subst a'; assert (m' = m) by congruence; subst m'.
  assert (d' = d) by congruence; subst d'.
  destruct Hf as [n p s1 Hn Hp Hs1|s1 Hno Hs1]; destruct Hf' as [n' p' s2 Hn' Hp' Hs2|s2 Hno' Hs2].
  - assert (n' = n) by lia; subst n'; assert (p' = p) by congruence; subst p'.
    repeat split; congruence.
  - specialize (Hno' n p Hn Hp); congruence.
  - specialize (Hno n' p' Hn' Hp'); congruence.
  - repeat split; congruence.
Qed.
Print Assumptions C80_selection_unique.

Theorem C80_always_answers :
  forall cosQ sinQ h i l, sane_target h i l -> exists r, layer_shape cosQ sinQ h i l = Ok r.
Proof.
  intros cosQ sinQ h i l Hs.
  destruct (layer_shape_spec cosQ sinQ h i l Hs) as [(s & o & r & H & E)|[H E]]; eauto.
Qed.
Print Assumptions C80_always_answers.

Definition one (_ : Q) : Q := 1.
Definition zero (_ : Q) : Q := 0.

(** a two-layer padstack: a square pad on its layer 0 only, and a smaller via; drawn on layers 3 and 4 *)
Definition sq (x : Q) : outline := [(0, 0); (x, 0); (x, x)].
Definition data_ex : psdata :=
  mkData [mkPad "top" (mkPar (Some (sq 2)) (1, 0) 0); mkPad "bot" (mkPar None (0, 0) 0)]
         (mkPar (Some (sq 1)) (0, 0) 0).
Definition heap_ex : heap := [mkObj "map" (lm_run [(3, 0); (4, 1)])%Z].
Definition inst_ex (t : transform) : pinst := mkInst (Some (Some data_ex)) (Some 0%nat) 4 3 t.

Example C80_case :
  let i := inst_ex (make_transform one zero 1 0 (10, 20) MNo) in
  (forall l, sane_target heap_ex i l \/ l = ComponentLayer) /\
  layer_shape one zero heap_ex i 2 = Ok None /\
  layer_shape one zero heap_ex i 3 = Ok (Some [(11, 20); (13, 20); (13, 22)]) /\
  layer_shape one zero heap_ex i 4 = Ok (Some [(10, 20); (11, 20); (11, 21)]).
Proof.
  split; [|vm_compute; auto].
  intros l; destruct (Z.eq_dec l ComponentLayer) as [->|Hc]; [right; auto|left].
  intros a Ha; injection Ha as <-; eexists; split; [reflexivity|]; cbn [mo_map].
  destruct (forward_cases (lm_run [(3, 0); (4, 1)]%Z) l) as [Hin|[Hn _]]; auto.
  revert Hin; generalize (forward (lm_run [(3, 0); (4, 1)]%Z) l); intros z Hin.
  vm_compute in Hin; destruct Hin as [H|[H|[H|[H|[]]]]]; injection H as <- <-; try (left; lia); [|right; reflexivity].
  exfalso; apply Hc; reflexivity.
Qed.

(** Finding: a range that reaches the component layer indexes the pads with a negative number. *)
Theorem C80_component_layer_is_ub :
  forall cosQ sinQ h a o d t calls,
    nth_error h a = Some o -> mo_map o = lm_run calls ->
    layer_shape cosQ sinQ h (mkInst (Some (Some d)) (Some a) ComponentLayer ComponentLayer t) ComponentLayer = UB.
Proof.
  intros cosQ sinQ h a o d t calls Ho Hm; unfold layer_shape; cbn [i_top i_bot i_map i_def].
  change (_ || _)%bool with false; cbv iota; rewrite Ho, Hm.
  destruct (reserved_fwd (lm_run calls) (good_run calls)) as (_ & -> & _).
  unfold pick_params, get_pad.
  change (ComponentLayer =? Bondwire_Model.noLayer)%Z with false; cbv iota.
  destruct (Z.leb_spec (Z.of_nat (List.length (ps_pads d))) ComponentLayer) as [H|H];
    [unfold ComponentLayer in H; lia|]; reflexivity.
Qed.
Print Assumptions C80_component_layer_is_ub.

(** Placement.  The pad is where it belongs if it is centred and unrotated in the padstack. *)
Theorem C81_centred_pad_partial :
  forall (cosQ sinQ : Q -> Q) h i l s o r,
    cosQ 0 == 1 -> sinQ 0 == 0 -> Proper (Qeq ==> Qeq) cosQ -> Proper (Qeq ==> Qeq) sinQ ->
    sane_target h i l -> has_shape h i l s o r -> peq o (0, 0) -> r == 0 ->
    exists shown, layer_shape cosQ sinQ h i l = Ok (Some shown) /\
      Forall2 (fun p q => peq q (expected_pt cosQ sinQ (i_tr i) o r p)) s shown.
Proof.
  intros cosQ sinQ h i l s o r Hc Hsn Pc Ps Hs Hh Ho Hr.
  destruct (layer_shape_spec cosQ sinQ h i l Hs) as [(s1 & o1 & r1 & H & E)|[H _]]; [|exfalso; eapply H; eauto].
  destruct (C80_selection_unique _ _ _ _ _ _ _ _ _ Hh H) as (<- & <- & <-).
  eexists; split; [exact E|]; unfold move_outline; clear H Hh E.
  assert (L : forall q, peq (local_pt cosQ sinQ o r q) q).
  { intros [x y]; unfold local_pt, shift_pt, rotate_pt; destruct o as [a b], Ho as [Ha Hb]; cbn [fst snd] in *.
    split; cbn [fst snd]; rewrite Hr, Hc, Hsn; [rewrite Ha|rewrite Hb]; ring. }
  induction s as [|p s IH]; simpl; constructor; auto.
  eapply peq_trans; [apply shape_placed; auto|]; unfold expected_pt, moves.
  eapply peq_trans; [apply L|apply apply_peq, peq_sym, L].
Qed.
Print Assumptions C81_centred_pad_partial.

(** ... or if the instance is only shifted and the pad not rotated. *)
Theorem C81_shifted_instance_partial :
  forall (cosQ sinQ : Q -> Q) h i l s o r d,
    cosQ 0 == 1 -> sinQ 0 == 0 -> Proper (Qeq ==> Qeq) cosQ -> Proper (Qeq ==> Qeq) sinQ ->
    sane_target h i l -> has_shape h i l s o r ->
    (forall p, peq (moves cosQ sinQ (i_tr i) p) (shift_pt d p)) -> r == 0 ->
    exists shown, layer_shape cosQ sinQ h i l = Ok (Some shown) /\
      Forall2 (fun p q => peq q (expected_pt cosQ sinQ (i_tr i) o r p)) s shown.
Proof.
  intros cosQ sinQ h i l s o r d Hc Hsn Pc Ps Hs Hh Hd Hr.
  destruct (layer_shape_spec cosQ sinQ h i l Hs) as [(s1 & o1 & r1 & H & E)|[H _]]; [|exfalso; eapply H; eauto].
  destruct (C80_selection_unique _ _ _ _ _ _ _ _ _ Hh H) as (<- & <- & <-).
  eexists; split; [exact E|]; unfold move_outline; clear H Hh E.
  induction s as [|p s IH]; simpl; constructor; auto.
  eapply peq_trans; [apply shape_placed; auto|]; unfold expected_pt.
  eapply peq_trans; [|apply peq_sym, Hd].
  eapply peq_trans; [unfold local_pt; apply shift_pt_peq, rotate_pt_peq, Hd|].
  destruct p as [x y], o as [a b], d as [u v]; split; unfold local_pt, shift_pt, rotate_pt; cbn [fst snd];
    rewrite Hr, Hc, Hsn; ring.
Qed.
Print Assumptions C81_shifted_instance_partial.

(** ... or if the instance only turns and scales about its origin and the pad has no offset. *)
Theorem C81_turned_instance_partial :
  forall (cosQ sinQ : Q -> Q) h i l s o r k a,
    cosQ 0 == 1 -> sinQ 0 == 0 -> Proper (Qeq ==> Qeq) cosQ -> Proper (Qeq ==> Qeq) sinQ ->
    sane_target h i l -> has_shape h i l s o r ->
    (forall p, peq (moves cosQ sinQ (i_tr i) p) (rotate_pt cosQ sinQ a (scale_pt k p))) -> peq o (0, 0) ->
    exists shown, layer_shape cosQ sinQ h i l = Ok (Some shown) /\
      Forall2 (fun p q => peq q (expected_pt cosQ sinQ (i_tr i) o r p)) s shown.
Proof.
  intros cosQ sinQ h i l s o r k a Hc Hsn Pc Ps Hs Hh Hd Ho.
  destruct (layer_shape_spec cosQ sinQ h i l Hs) as [(s1 & o1 & r1 & H & E)|[H _]]; [|exfalso; eapply H; eauto].
  destruct (C80_selection_unique _ _ _ _ _ _ _ _ _ Hh H) as (<- & <- & <-).
  eexists; split; [exact E|]; unfold move_outline; clear H Hh E.
  induction s as [|p s IH]; simpl; constructor; auto.
  eapply peq_trans; [apply shape_placed; auto|]; unfold expected_pt.
  eapply peq_trans; [|apply peq_sym, Hd].
  eapply peq_trans; [unfold local_pt; apply shift_pt_peq, rotate_pt_peq, Hd|].
  destruct p as [x y], o as [u v], Ho as [Hu Hv]; cbn [fst snd] in *.
  split; unfold local_pt, shift_pt, rotate_pt, scale_pt; cbn [fst snd]; rewrite Hu, Hv; ring.
Qed.
Print Assumptions C81_turned_instance_partial.

Example C81_case :
  let i := inst_ex (make_transform one zero 1 0 (10, 20) MNo) in
  has_shape heap_ex i 3 (sq 2) (1, 0) 0 /\
  (forall p, peq (moves one zero (i_tr i) p) (shift_pt (10, 20) p)).
Proof.
  split; [|intros p; apply moves_shift].
  eapply hs; [unfold between; cbn; lia|reflexivity|reflexivity|reflexivity|].
  apply (if_pad data_ex 0 0 (mkPad "top" (mkPar (Some (sq 2)) (1, 0) 0))); auto.
Qed.

(** Finding: in general the pad's own offset and rotation are applied after the instance's placement instead of
    before it.  A mirrored instance does not mirror the offset of its pads. *)
Theorem C81_mirrored_instance_refuted :
  exists h i l s o r shown,
    has_shape h i l s o r /\ layer_shape one zero h i l = Ok (Some shown) /\
    ~ Forall2 (fun p q => peq q (expected_pt one zero (i_tr i) o r p)) s shown.
Proof.
  exists heap_ex, (inst_ex (make_transform one zero 1 0 (0, 0) MY)), 3%Z, (sq 2), (1, 0), 0.
  eexists; split; [|split; [vm_compute; reflexivity|]].
  - eapply hs; [unfold between; cbn; lia|reflexivity|reflexivity|reflexivity|].
    apply (if_pad data_ex 0 0 (mkPad "top" (mkPar (Some (sq 2)) (1, 0) 0))); auto.
  - intros H; inversion H as [|p q s' t' [Hpq _] _]; subst; vm_compute in Hpq; discriminate.
Qed.
Print Assumptions C81_mirrored_instance_refuted.

(** Turning an instance by a right angle leaves a pad that sits beside the centre where it was. *)
Theorem C81_rotated_instance_refuted :
  forall (cosQ sinQ : Q -> Q) a,
    cosQ 0 == 1 -> sinQ 0 == 0 -> Proper (Qeq ==> Qeq) cosQ -> Proper (Qeq ==> Qeq) sinQ ->
    cosQ a == 0 -> sinQ a == 1 ->
    let d := mkData [mkPad "top" (mkPar (Some [(0, 0)]) (1, 0) 0)] (mkPar None (0, 0) 0) in
    let i := mkInst (Some (Some d)) (Some 0%nat) 0 0 (make_transform cosQ sinQ 1 a (0, 0) MNo) in
    let h := [mkObj "map" (lm_run [(0, 0)]%Z)] in
    exists q, layer_shape cosQ sinQ h i 0 = Ok (Some [q]) /\ peq q (1, 0) /\
              peq (expected_pt cosQ sinQ (i_tr i) (1, 0) 0 (0, 0)) (0, 1).
Proof.
  intros cosQ sinQ a Hc Hsn Pc Ps Ha Hb d i h.
  eexists; split; [reflexivity|].
  assert (M : forall p, peq (moves cosQ sinQ (make_transform cosQ sinQ 1 a (0, 0) MNo) p)
                            (item_pt cosQ sinQ (mkTD 1 a MNo (0, 0)) p)).
  { intros p; exact (seqt_items cosQ sinQ [mkTD 1 a MNo (0, 0)] p Hc Hsn Pc Ps). }
  split.
  - eapply peq_trans; [apply (shape_placed cosQ sinQ i (Some [(0, 0)]) (1, 0) 0 (0, 0)); auto|].
    eapply peq_trans; [unfold local_pt; apply shift_pt_peq, rotate_pt_peq, M|].
    split; unfold item_pt, shift_pt, rotate_pt, scale_pt, mirror_pt; cbn [fst snd td_off td_mirror td_rot td_scale];
      rewrite Hc, Hsn, Ha, Hb; ring.
  - unfold expected_pt; eapply peq_trans; [apply M|].
    split; unfold item_pt, local_pt, shift_pt, rotate_pt, scale_pt, mirror_pt;
      cbn [fst snd td_off td_mirror td_rot td_scale]; rewrite Hc, Hsn, Ha, Hb; ring.
Qed.
Print Assumptions C81_rotated_instance_refuted.

(** Layer mapping of a collection: it succeeds whenever every instance has a layer map; every instance is mapped,
    the layer maps that existed keep their contents and names, and instances that shared a layer map share the
    new one. *)
Theorem C82_collection_mapped :
  forall calls before l,
    (forall o, In o (ms_heap before) -> map_built (mo_map o)) ->
    (forall i, In i l -> exists a, i_map i = Some a /\ (a < List.length (ms_heap before))%nat) ->
    exists after l', map_collection (lm_run calls) before l = Ok (after, l') /\
      Forall2 (mapped_to (lm_run calls) before after) l l' /\
      (forall a o, nth_error (ms_heap before) a = Some o -> nth_error (ms_heap after) a = Some o) /\
      (forall n a, alookup String.eqb n (ms_reg before) = Some a -> alookup String.eqb n (ms_reg after) = Some a) /\
      (forall j k ij ik ij' ik', nth_error l j = Some ij -> nth_error l k = Some ik ->
         nth_error l' j = Some ij' -> nth_error l' k = Some ik' ->
         i_map ij = i_map ik -> i_map ij' = i_map ik').
Proof.
  intros calls before l Hb Hl.
  assert (T : tracked (lm_run calls) (ms_heap before) before []).
  { constructor; [exists []; rewrite app_nil_r; auto|intros a b H; discriminate]. }
  destruct (map_insts_ok (lm_run calls) (ms_heap before) l before [] T Hl)
    as (after & l' & lut & E & T' & _ & [m Hm] & [r Hr] & HF).
  exists after, l'; split; [exact E|]; split; [|split; [|split]].
  - clear - HF T' Hb; induction HF as [|i i' l l' (a & b & Ha & Hb' & Hlk & Hd & Ht & Htop & Hbot) HF IH];
      constructor; auto.
    destruct (tr_key _ _ _ _ T' a b Hlk) as (o & o' & H1 & H2 & H3 & H4 & H5).
    eapply mt; eauto.
    intros x; rewrite H3.
    destruct (Hb o) as (c & -> & Hv); [eapply nth_error_In; eauto|].
    apply compose_left_fwd; auto using good_run.
    apply run_ok; intros p Hp; left; auto.
  - intros a o Ha; rewrite Hm, nth_error_app1; auto; apply nth_error_Some; congruence.
  - intros n a Hn; rewrite Hr, (alookup_app String.eqb), Hn; auto.
  - clear - HF; intros j k ij ik ij' ik' H1 H2 H3 H4 Em.
    assert (G : forall n x x', nth_error l n = Some x -> nth_error l' n = Some x' ->
              exists a b, i_map x = Some a /\ i_map x' = Some b /\ alookup Nat.eqb a lut = Some b).
    { clear - HF; induction HF as [|i i' l l' (a & b & Ha & Hb' & Hlk & _) HF IH]; intros [|n] x x' Hx Hx';
        try discriminate; simpl in *.
      - injection Hx as <-; injection Hx' as <-; eauto.
      - eauto. }
    destruct (G _ _ _ H1 H3) as (a & b & A1 & B1 & C1); destruct (G _ _ _ H2 H4) as (a2 & b2 & A2 & B2 & C2).
    congruence.
Qed.
Print Assumptions C82_collection_mapped.

(** A mapped instance shows on the image of a layer what it showed on that layer, if the layer mapping keeps or
    reverses the order of the layers and maps both ends of the instance's range. *)
Theorem C82_shapes_follow :
  forall cosQ sinQ calls before after i i' l,
    keeps_order (lm_run calls) \/ reverses_order (lm_run calls) ->
    mapped_to (lm_run calls) before after i i' ->
    (0 <= i_top i)%Z -> (0 <= i_bot i)%Z -> (0 <= l)%Z ->
    forward (lm_run calls) (i_top i) <> LayerMap_Model.noLayer ->
    forward (lm_run calls) (i_bot i) <> LayerMap_Model.noLayer ->
    forward (lm_run calls) l <> LayerMap_Model.noLayer ->
    layer_shape cosQ sinQ (ms_heap after) i' (forward (lm_run calls) l)
    = layer_shape cosQ sinQ (ms_heap before) i l.
Proof.
  intros cosQ sinQ calls before after i i' l Ho Hm Ht Hb Hl Nt Nb Nl.
  destruct Hm as [a b o o' Ha Hoa Hb' Hob _ _ Hf Hd Htr Etop Ebot].
  set (f := forward (lm_run calls)) in *.
  assert (Hle : forall x y, (0 <= x)%Z -> (0 <= y)%Z -> f x <> LayerMap_Model.noLayer -> f y <> LayerMap_Model.noLayer ->
     (keeps_order (lm_run calls) -> ((x < y)%Z <-> (f x < f y)%Z)) /\
     (reverses_order (lm_run calls) -> ((x < y)%Z <-> (f y < f x)%Z))).
  { intros x y Hx Hy Nx Ny; split; intros K; split; intros Q; try (apply K; auto).
    - destruct (Z.lt_trichotomy x y) as [|[->|H]]; auto; [lia|]; specialize (K y x Hy Hx Ny Nx H); fold f in K; lia.
    - destruct (Z.lt_trichotomy x y) as [|[->|H]]; auto; [lia|]; specialize (K y x Hy Hx Ny Nx H); fold f in K; lia. }
  assert (Hr : ((f l <? Z.min (i_top i') (i_bot i')) || (Z.max (i_top i') (i_bot i') <? f l))%Z%bool
             = ((l <? Z.min (i_top i) (i_bot i)) || (Z.max (i_top i) (i_bot i) <? l))%Z%bool).
  { rewrite Etop, Ebot.
    destruct (Hle _ _ Hl Ht Nl Nt) as [A1 A2], (Hle _ _ Hl Hb Nl Nb) as [B1 B2],
      (Hle _ _ Ht Hl Nt Nl) as [C1 C2], (Hle _ _ Hb Hl Nb Nl) as [D1 D2].
    apply eq_true_iff_eq; rewrite !orb_true_iff, !Z.ltb_lt.
    destruct Ho as [K|K];
      [specialize (A1 K); specialize (B1 K); specialize (C1 K); specialize (D1 K)
      |specialize (A2 K); specialize (B2 K); specialize (C2 K); specialize (D2 K)]; lia. }
  assert (Hback : backward (lm_run calls) (f l) = l).
  { apply (fwd_bwd (lm_run calls) l (f l) (good_run calls)); auto; unfold LayerMap_Model.noLayer; lia. }
  unfold layer_shape; rewrite Hr, Hb', Ha, Hd, Hob, Hoa.
  clear Hr; destruct ((l <? Z.min (i_top i) (i_bot i)) || (Z.max (i_top i) (i_bot i) <? l))%Z%bool; auto.
  destruct (i_def i) as [[d|]|]; auto.
  rewrite Hf, Hback; unfold shape_transform; rewrite Htr; auto.
Qed.
Print Assumptions C82_shapes_follow.

Example C82_case :
  let i := inst_ex (make_transform one zero 1 0 (10, 20) MNo) in
  let s := mkMS heap_ex [("map"%string, 0%nat)] in
  match map_collection (lm_run [(3, 9); (4, 6); (5, 1)]%Z) s [i; i] with
  | Ok (s', [j; k]) =>
      i_map j = i_map k /\ List.length (ms_heap s') = 2%nat /\ map fst (ms_reg s') = ["map"; "map1"]%string /\
      layer_shape one zero (ms_heap s') j 9 = layer_shape one zero heap_ex i 3 /\
      layer_shape one zero (ms_heap s') j 6 = layer_shape one zero heap_ex i 4 /\
      layer_shape one zero heap_ex i 4 <> Ok None
  | _ => False
  end.
Proof. vm_compute; repeat split; discriminate. Qed.

Lemma reverses_ex : reverses_order (lm_run [(3, 9); (4, 6); (5, 1)]%Z).
Proof.
  intros a b Ha Hb Na Nb Hab.
  assert (G : forall x, (0 <= x)%Z -> forward (lm_run [(3, 9); (4, 6); (5, 1)]%Z) x <> LayerMap_Model.noLayer ->
    (x, forward (lm_run [(3, 9); (4, 6); (5, 1)]%Z) x) = (3, 9)%Z \/
    (x, forward (lm_run [(3, 9); (4, 6); (5, 1)]%Z) x) = (4, 6)%Z \/
    (x, forward (lm_run [(3, 9); (4, 6); (5, 1)]%Z) x) = (5, 1)%Z).
  { intros x Hx Nx; destruct (forward_cases (lm_run [(3, 9); (4, 6); (5, 1)]%Z) x) as [H|[H _]]; [|contradiction].
    revert H; generalize (forward (lm_run [(3, 9); (4, 6); (5, 1)]%Z) x); intros z H; vm_compute in H.
    destruct H as [H|[H|[H|[H|[H|[]]]]]]; rewrite <- H; auto; injection H as <- <-; lia. }
  destruct (G a Ha Na) as [H|[H|H]], (G b Hb Nb) as [H'|[H'|H']]; injection H as Ea ->; injection H' as Eb ->; lia.
Qed.

(** Finding: if the upper or lower end of an instance's range is not mapped, that end becomes -1, and the
    instance then shows its via on layers that none of its layers is mapped to. *)
Theorem C83_unmapped_end_refuted :
  exists calls before after i i' l shown,
    keeps_order (lm_run calls) /\ map_collection (lm_run calls) before [i] = Ok (after, [i']) /\
    mapped_to (lm_run calls) before after i i' /\
    (forall x, (0 <= x)%Z -> forward (lm_run calls) x <> l) /\ (0 <= l)%Z /\
    layer_shape one zero (ms_heap after) i' l = Ok (Some shown).
Proof.
  exists [(4, 6)]%Z, (mkMS heap_ex [("map"%string, 0%nat)]).
  eexists _, (inst_ex (make_transform one zero 1 0 (10, 20) MNo)), _, 2%Z, _.
  assert (G : forall x, forward (lm_run [(4, 6)]%Z) x = if (x =? 4)%Z then 6%Z else if (x =? -10)%Z then (-10)%Z else (-1)%Z).
  { intros x; destruct (forward_cases (lm_run [(4, 6)]%Z) x) as [H|[H Hall]].
    - revert H; generalize (forward (lm_run [(4, 6)]%Z) x); intros z H; vm_compute in H.
      destruct H as [H|[H|[H|[]]]]; injection H as <- <-; auto.
    - rewrite H; destruct (Z.eqb_spec x 4) as [->|]; [exfalso; apply (Hall 6%Z); vm_compute; auto|].
      destruct (Z.eqb_spec x (-10)) as [->|]; [exfalso; apply (Hall (-10)%Z); vm_compute; auto|]; auto. }
  split; [|split; [|split; [|split; [|split]]]].
  - intros a b Ha Hb Na Nb Hab; rewrite G in *; unfold LayerMap_Model.noLayer in *.
    destruct (Z.eqb_spec a 4), (Z.eqb_spec a (-10)), (Z.eqb_spec b 4), (Z.eqb_spec b (-10)); lia.
  - reflexivity.
  - eapply mt; [reflexivity|reflexivity|reflexivity|reflexivity|cbn; lia|reflexivity| |reflexivity|reflexivity|reflexivity|reflexivity].
    intros x; cbn [mo_map]; apply compose_left_fwd; auto using good_run.
    apply run_ok; intros p Hp; left; simpl in Hp; destruct Hp as [<-|[<-|[]]]; simpl; lia.
  - intros x Hx; rewrite G; destruct (Z.eqb_spec x 4), (Z.eqb_spec x (-10)); lia.
  - lia.
  - vm_compute; reflexivity.
Qed.
Print Assumptions C83_unmapped_end_refuted.

(** With both ends mapped, a layer that is the image of a layer outside the range stays empty. *)
Theorem C83_image_layers_partial :
  forall cosQ sinQ calls before after i i' x,
    keeps_order (lm_run calls) \/ reverses_order (lm_run calls) ->
    mapped_to (lm_run calls) before after i i' ->
    (0 <= i_top i)%Z -> (0 <= i_bot i)%Z -> (0 <= x)%Z ->
    forward (lm_run calls) (i_top i) <> LayerMap_Model.noLayer ->
    forward (lm_run calls) (i_bot i) <> LayerMap_Model.noLayer ->
    forward (lm_run calls) x <> LayerMap_Model.noLayer ->
    ~ between (i_top i) (i_bot i) x ->
    layer_shape cosQ sinQ (ms_heap after) i' (forward (lm_run calls) x) = Ok None.
Proof.
  intros cosQ sinQ calls before after i i' x Ho Hm Ht Hb Hx Nt Nb Nx H.
  rewrite (C82_shapes_follow cosQ sinQ calls before after i i' x); auto.
  unfold layer_shape; apply out_of_range in H; rewrite H; auto.
Qed.
Print Assumptions C83_image_layers_partial.

(** Finding: an instance without a layer map makes the layer mapping of its collection dereference null. *)
Theorem C83_no_layer_map_is_ub :
  forall lyr s i l, i_map i = None -> map_collection lyr s (i :: l) = UB.
Proof. intros lyr s i l H; unfold map_collection; cbn [map_insts]; unfold map_inst; rewrite H; auto. Qed.
Print Assumptions C83_no_layer_map_is_ub.
