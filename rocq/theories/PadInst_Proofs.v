From Verif Require Import Base Bondwire_Model Padstack_Model LayerMap_Model LayerMap_Spec LayerMap_Proofs
  Transform_Model Transform_Spec Transform_Proofs Names_Model Names_Spec Names_Proofs PadInst_Model PadInst_Spec.

(** which shape *)
Lemma pick_params_spec d l : (0 <= l \/ l = LayerMap_Model.noLayer)%Z ->
  exists p, pick_params d l = Ok p /\
    (forall s, pr_shape p = Some s -> in_force d l s (pr_off p) (pr_rot p)) /\
    (pr_shape p = None -> forall s o r, ~ in_force d l s o r).
Proof.
  intros Hl; unfold pick_params, get_pad.
  assert (Hnone : (forall n p, l = Z.of_nat n -> nth_error (ps_pads d) n = Some p -> pr_shape (pad_par p) = None) ->
    (forall s, pr_shape (ps_via d) = Some s -> in_force d l s (pr_off (ps_via d)) (pr_rot (ps_via d))) /\
    (pr_shape (ps_via d) = None -> forall s o r, ~ in_force d l s o r)).
  { intros H; split.
    - intros s Hs; apply if_via; auto.
    - intros Hv s o r [n p s' Hn Hp Hs|s' _ Hs]; [specialize (H n p Hn Hp)|]; congruence. }
  destruct (Z.eqb_spec l Bondwire_Model.noLayer) as [->|Hne].
  { exists (ps_via d); cbn [bind]; split; auto; apply Hnone.
    intros n p E; unfold Bondwire_Model.noLayer in E; lia. }
  destruct (Z.leb_spec (Z.of_nat (List.length (ps_pads d))) l) as [Hb|Hb].
  { exists (ps_via d); cbn [bind]; split; auto; apply Hnone; intros n p -> Hp.
    assert (n < List.length (ps_pads d))%nat by (apply nth_error_Some; congruence); lia. }
  destruct (Z.ltb_spec l 0) as [Hn|Hn].
  { unfold Bondwire_Model.noLayer, LayerMap_Model.noLayer in *; lia. }
  destruct (nth_error (ps_pads d) (Z.to_nat l)) as [p|] eqn:E.
  2: { apply nth_error_None in E; lia. }
  assert (Hl2 : l = Z.of_nat (Z.to_nat l)) by lia.
  cbn [bind]; destruct (pr_shape (pad_par p)) as [s|] eqn:Es.
  - exists (pad_par p); split; auto; split; [|congruence].
    intros s' Hs'; eapply if_pad; eauto.
  - exists (ps_via d); split; auto; apply Hnone; intros n q Hq Hn'.
    assert (n = Z.to_nat l) by lia; subst n; congruence.
Qed.

Lemma out_of_range a b l : ((l <? Z.min a b) || (Z.max a b <? l))%Z%bool = true <-> ~ between a b l.
Proof.
  unfold between; rewrite orb_true_iff, Z.ltb_lt, Z.ltb_lt; lia.
Qed.

Section S.
  Context (cosQ sinQ : Q -> Q).

  Lemma layer_shape_spec h i l : sane_target h i l ->
    (exists s o r, has_shape h i l s o r /\
       layer_shape cosQ sinQ h i l
       = Ok (Some (move_outline (get_transform cosQ sinQ (shape_transform cosQ sinQ i (mkPar (Some s) o r))) s))) \/
    ((forall s o r, ~ has_shape h i l s o r) /\ layer_shape cosQ sinQ h i l = Ok None).
  Proof.
    intros Hs; unfold layer_shape.
    destruct (_ || _)%bool eqn:Eb.
    { right; split; auto; intros s o r [a m d Hb _ _ _ _]; apply out_of_range in Eb; auto. }
    assert (Hb : between (i_top i) (i_bot i) l).
    { unfold between; apply orb_false_iff in Eb as [E1 E2]; apply Z.ltb_ge in E1, E2; lia. }
    destruct (i_map i) as [a|] eqn:Ea.
    2: { right; split; auto; intros s o r [a m d _ H _ _ _]; congruence. }
    destruct (i_def i) as [[d|]|] eqn:Ed.
    2, 3: right; split; auto; intros s o r [a' m d _ _ _ H _]; congruence.
    destruct (Hs a Ea) as (m & Em & Hm); rewrite Em.
    destruct (pick_params_spec d (forward (mo_map m) l) Hm) as (p & -> & Hp & Hn); cbn [bind].
    destruct (pr_shape p) as [s|] eqn:Es.
    - left; exists s, (pr_off p), (pr_rot p); split.
      + eapply hs; eauto.
      + unfold shape_transform; cbn [pr_off pr_rot]; auto.
    - right; split; auto; intros s o r [a' m' d' _ Ha' Hm' Hd' Hf].
      assert (a' = a) by congruence; subst a'.
      assert (m' = m) by congruence; subst m'; assert (d' = d) by congruence; subst d'.
      eapply Hn; eauto.
  Qed.

  (** the placement of the code: the pad's own rotation and offset come last *)
  Lemma shape_placed i s o r p :
    cosQ 0 == 1 -> sinQ 0 == 0 -> Proper (Qeq ==> Qeq) cosQ -> Proper (Qeq ==> Qeq) sinQ ->
    peq (aff_apply (get_transform cosQ sinQ (shape_transform cosQ sinQ i (mkPar s o r))) p)
        (local_pt cosQ sinQ o r (moves cosQ sinQ (i_tr i) p)).
  Proof.
    intros Hc Hsn Pc Ps; unfold shape_transform; cbn [pr_off pr_rot].
    set (u := make_transform cosQ sinQ 1 r o MNo).
    assert (Hu : synced cosQ sinQ u) by exact I.
    eapply peq_trans; [apply (append_composes cosQ sinQ (i_tr i) u p); auto|].
    set (q := moves cosQ sinQ (i_tr i) p).
    eapply peq_trans; [exact (seqt_items cosQ sinQ [mkTD 1 r MNo o] q Hc Hsn Pc Ps)|].
    cbn [items_pt fold_left]; unfold item_pt, local_pt; cbn [td_off td_mirror td_rot td_scale mirror_pt].
    apply shift_pt_peq, rotate_pt_peq; destruct q as [x y]; split; unfold scale_pt; cbn [fst snd]; ring.
  Qed.

  Lemma moves_shift o p :
    peq (moves cosQ sinQ (make_transform cosQ sinQ 1 0 o MNo) p) (shift_pt o p).
  Proof.
    unfold moves, get_transform; cbn [t_cache make_transform t_run fold_left t_step t_new edit t_seq edit_last].
    unfold seq_transform; cbn [fold_left td_scale td_rot td_mirror td_off td_default].
    unfold is_transformed, td_transform, is_scaled, is_rotated, is_mirrored, is_offsetted;
      cbn [td_scale td_rot td_mirror td_off].
    change (Qeq_bool 1 1) with true; change (Qeq_bool 0 0) with true; cbn [negb orb].
    destruct (Qeq_bool (fst o) 0 && Qeq_bool (snd o) 0)%bool eqn:E; cbn [negb].
    - apply andb_prop in E as [E1 E2]; apply Qeq_bool_iff in E1, E2.
      unfold shift_pt; split; cbn [fst snd aff_apply aff_id a11 a12 a13 a21 a22 a23]; [rewrite E1|rewrite E2]; ring.
    - destruct o, p; unfold shift_pt; split;
        cbn [fst snd aff_apply aff_id aff_mul mk_shift a11 a12 a13 a21 a22 a23]; ring.
  Qed.
End S.

(** the layer mapping of a collection *)
Lemma next_key_fresh (reg : list (string * nat)) base :
  exists r, next_key (S (List.length reg)) (fun n => acount String.eqb n reg) base = Ok r /\
    first_free (map fst reg) base r /\ acount String.eqb r reg = false.
Proof.
  set (count := fun n => acount String.eqb n reg).
  assert (Hc : forall n, count n = true <-> In n (akeys reg))
    by (intros n; apply acount_true, string_eqb_reflect).
  assert (Hf : forall r, ~ In r (akeys reg) -> acount String.eqb r reg = false).
  { intros r Hr; apply not_true_is_false; intros E; apply Hr, Hc, E. }
  unfold next_key; destruct (count base) eqn:E; simpl negb; cbv iota.
  - destruct (loop_terminates (akeys reg) count Hc base 1) as [r Hr].
    unfold akeys in Hr at 1; rewrite map_length in Hr; exists r; split; [exact Hr|].
    apply (loop_sound (akeys reg) _ Hc) in Hr as (Hni & j & Hk & -> & Hall); split; auto; split; auto.
    right; split; [now apply Hc|exists j; auto].
  - exists base; split; auto; apply (count_false _ _ Hc) in E; split; auto; split; auto; left; auto.
Qed.

(** [lut] sends origins of the heap [h0] to new objects *)
Record tracked (lyr : lmap) (h0 : heap) (s : mstate) (lut : list (nat * nat)) : Prop := {
  tr_heap : exists more, ms_heap s = h0 ++ more;
  tr_key : forall a b, alookup Nat.eqb a lut = Some b ->
    exists o o', nth_error h0 a = Some o /\ nth_error (ms_heap s) b = Some o' /\
      mo_map o' = mapping_left (mo_map o) lyr /\ alookup String.eqb (mo_name o') (ms_reg s) = Some b /\
      (List.length h0 <= b)%nat
}.

Lemma alookup_snoc_none {A} (reg : list (string * A)) n b x :
  acount String.eqb n reg = false -> alookup String.eqb x (reg ++ [(n, b)]) =
    match alookup String.eqb x reg with Some y => Some y | None => if String.eqb x n then Some b else None end.
Proof. intros _; rewrite alookup_app; destruct (alookup String.eqb x reg); auto. Qed.

Lemma map_origin_ok lyr h0 s lut a : tracked lyr h0 s lut -> (a < List.length h0)%nat ->
  exists s' lut' b, map_origin lyr s lut a = Ok (s', lut', b) /\ tracked lyr h0 s' lut' /\
    alookup Nat.eqb a lut' = Some b /\
    (forall x y, alookup Nat.eqb x lut = Some y -> alookup Nat.eqb x lut' = Some y) /\
    (exists m, ms_heap s' = ms_heap s ++ m) /\ (exists m, ms_reg s' = ms_reg s ++ m).
Proof.
  intros T Ha; unfold map_origin.
  destruct (alookup Nat.eqb a lut) as [b|] eqn:E.
  { exists s, lut, b; split; auto; split; auto; split; auto; split; auto.
    split; exists []; rewrite app_nil_r; auto. }
  destruct (tr_heap _ _ _ _ T) as [more Hm].
  assert (Hn : exists o, nth_error h0 a = Some o /\ nth_error (ms_heap s) a = Some o).
  { destruct (nth_error h0 a) as [o|] eqn:En; [|apply nth_error_None in En; lia].
    exists o; split; auto; rewrite Hm, nth_error_app1; auto. }
  destruct Hn as (o & Ho & ->).
  destruct (next_key_fresh (ms_reg s) (mo_name o)) as (nm & -> & _ & Hfr); cbn [bind]; rewrite Hfr.
  eexists _, _, _; split; [reflexivity|].
  split; [|split; [|split; [|split]]].
  - constructor; cbn [ms_heap ms_reg].
    + exists (more ++ [mkObj nm (mapping_left (mo_map o) lyr)]); rewrite Hm, app_assoc; auto.
    + intros x b; rewrite (alookup_app Nat.eqb); destruct (alookup Nat.eqb x lut) as [y|] eqn:Ex.
      * intros H; injection H as ->; destruct (tr_key _ _ _ _ T x b Ex) as (q & q' & H1 & H2 & H3 & H4 & H5).
        exists q, q'; split; auto; split.
        { rewrite nth_error_app1; auto; apply nth_error_Some; congruence. }
        split; auto; split; auto.
        rewrite alookup_snoc_none by auto; rewrite H4; auto.
      * simpl; destruct (Nat.eqb_spec x a) as [->|]; [|discriminate]; intros H; injection H as <-.
        exists o; eexists; split; auto; split.
        { rewrite nth_error_app2 by lia; rewrite Nat.sub_diag; reflexivity. }
        cbn [mo_map mo_name]; split; auto; split.
        { rewrite alookup_snoc_none by auto; unfold acount in Hfr.
          destruct (alookup String.eqb nm (ms_reg s)); [discriminate|]; rewrite String.eqb_refl; auto. }
        rewrite Hm, app_length; lia.
  - rewrite (alookup_app Nat.eqb), E; simpl; rewrite Nat.eqb_refl; auto.
  - intros x y Hx; rewrite (alookup_app Nat.eqb), Hx; auto.
  - cbn [ms_heap]; eauto.
  - cbn [ms_reg]; eauto.
Qed.

(** what becomes of one instance *)
Definition inst_mapped (lyr : lmap) (h0 : heap) (s : mstate) (i i' : pinst) : Prop :=
  exists a b o o', i_map i = Some a /\ i_map i' = Some b /\ nth_error h0 a = Some o /\
    nth_error (ms_heap s) b = Some o' /\ mo_map o' = mapping_left (mo_map o) lyr /\
    alookup String.eqb (mo_name o') (ms_reg s) = Some b /\ (List.length h0 <= b)%nat /\
    i_def i' = i_def i /\ i_tr i' = i_tr i /\
    i_top i' = forward lyr (i_top i) /\ i_bot i' = forward lyr (i_bot i).

Lemma map_insts_ok lyr h0 l : forall s lut, tracked lyr h0 s lut ->
  (forall i, In i l -> exists a, i_map i = Some a /\ (a < List.length h0)%nat) ->
  exists s' l' lut', map_insts lyr s lut l = Ok (s', l') /\ tracked lyr h0 s' lut' /\
    (forall x y, alookup Nat.eqb x lut = Some y -> alookup Nat.eqb x lut' = Some y) /\
    (exists m, ms_heap s' = ms_heap s ++ m) /\ (exists m, ms_reg s' = ms_reg s ++ m) /\
    Forall2 (fun i i' => exists a b, i_map i = Some a /\ i_map i' = Some b /\ alookup Nat.eqb a lut' = Some b /\
       i_def i' = i_def i /\ i_tr i' = i_tr i /\
       i_top i' = forward lyr (i_top i) /\ i_bot i' = forward lyr (i_bot i)) l l'.
Proof.
  induction l as [|i l IH]; intros s lut T Hl; cbn [map_insts].
  { exists s, [], lut; repeat split; auto; try (apply T); exists []; rewrite app_nil_r; auto. }
  destruct (Hl i (or_introl eq_refl)) as (a & Ea & Ha).
  destruct (map_origin_ok lyr h0 s lut a T Ha) as (s1 & lut1 & b & E1 & T1 & Hb & Hk1 & [m1 Hm1] & [r1 Hr1]).
  unfold map_inst; rewrite Ea, E1; cbn [bind fst snd].
  destruct (IH s1 lut1 T1) as (s2 & l2 & lut2 & E2 & T2 & Hk2 & [m2 Hm2] & [r2 Hr2] & HF).
  { intros j Hj; apply Hl; right; auto. }
  rewrite E2; cbn [bind fst snd].
  eexists _, _, lut2; split; [reflexivity|]; split; [exact T2|]; split; [auto|]; split; [|split].
  - exists (m1 ++ m2); rewrite Hm2, Hm1, app_assoc; auto.
  - exists (r1 ++ r2); rewrite Hr2, Hr1, app_assoc; auto.
  - constructor; auto; exists a, b; cbn; repeat split; auto.
Qed.
