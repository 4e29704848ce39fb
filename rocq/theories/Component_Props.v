From Verif Require Import Base Transform_Model Transform_Spec Transform_Proofs PadInst_Model Component_Model Component_Spec.
Local Open Scope Q_scope.

Lemma find_pin_some ps n l : find_pin ps n = Some l <-> first_pin ps n l.
Proof.
  induction ps as [|[m k] ps IH]; simpl.
  - split; [discriminate|inversion 1].
  - destruct (String.eqb_spec n m) as [->|Hne]; split; intros H.
    + injection H as ->; constructor.
    + inversion H; subst; congruence.
    + constructor; [congruence|apply IH, H].
    + inversion H; subst; [congruence|apply IH; auto].
Qed.

Lemma find_pin_none ps n : find_pin ps n = None <-> ~ In n (map fst ps).
Proof.
  induction ps as [|[m k] ps IH]; simpl; [tauto|].
  destruct (String.eqb_spec n m) as [->|Hne]; [split; [discriminate|tauto]|].
  rewrite IH; split; intros H; [intros [->|]; tauto|tauto].
Qed.

(** Pins and boundary of a component are moved by one and the same map, whatever the history of its placement;
    a pin name denotes the first pin created with it, and a name without pin leaves the caller's point alone. *)
Theorem C84_pins_and_boundary_together :
  forall cosQ sinQ d ops,
    let c := c_run cosQ sinQ (c_new (Some d)) ops in
    exists m,
      get_boundary cosQ sinQ c = Ok (option_map (map (aff_apply m)) (cd_boundary d)) /\
      (forall n l loc, first_pin (cd_pins d) n l -> pin_location cosQ sinQ c n loc = Ok (true, aff_apply m l)) /\
      (forall n loc, ~ In n (map fst (cd_pins d)) -> pin_location cosQ sinQ c n loc = Ok (false, loc)).
Proof.
  intros cosQ sinQ d ops c; exists (get_transform cosQ sinQ (comp_transform cosQ sinQ c)).
  assert (Hd : c_def c = Some d).
  { unfold c, c_run; enough (G : forall c0, c_def (fold_left (c_step cosQ sinQ) ops c0) = c_def c0) by (rewrite G; auto).
    induction ops as [|o ops IH]; intros c0; simpl; auto; rewrite IH; destruct o; auto. }
  unfold get_boundary, pin_location; rewrite Hd; split; [|split].
  - destruct (cd_boundary d); auto.
  - intros n l loc H; apply find_pin_some in H; rewrite H; auto.
  - intros n loc H; apply find_pin_none in H; rewrite H; auto.
Qed.
Print Assumptions C84_pins_and_boundary_together.

(** A later pin of the same name does not change the place of the first. *)
Theorem C84_first_pin_stays :
  forall d n l n' l', first_pin (cd_pins d) n l -> first_pin (cd_pins (create_pin d n' l')) n l.
Proof.
  intros d n l n' l' H; unfold create_pin; cbn [cd_pins]; induction H; simpl; constructor; auto.
Qed.
Print Assumptions C84_first_pin_stays.

Theorem C84_new_pin_found :
  forall d n l, ~ In n (map fst (cd_pins d)) -> first_pin (cd_pins (create_pin d n l)) n l.
Proof.
  intros d n l; unfold create_pin; cbn [cd_pins]; induction (cd_pins d) as [|[m k] ps IH]; simpl; intros H; constructor.
  - intros ->; tauto.
  - apply IH; tauto.
Qed.
Print Assumptions C84_new_pin_found.

Section P.
  Context (cosQ sinQ : Q -> Q).
  Notation seqt := (seq_transform cosQ sinQ).

  Lemma placed_peq ts : forall p q, peq p q -> peq (placed_pt cosQ sinQ ts p) (placed_pt cosQ sinQ ts q).
  Proof. induction ts as [|u ts IH]; simpl; intros p q H; auto; apply IH; unfold moves; apply apply_peq, H. Qed.

  (** the item list of the placement moves points as the transforms in force do; a cached matrix agrees with it *)
  Definition tracks (t : transform) (ts : list transform) : Prop :=
    (forall p, peq (aff_apply (seqt (t_seq t)) p) (placed_pt cosQ sinQ ts p)).

  Lemma tracks_run ops : forall c ts b,
    tracks (c_tr c) ts -> (b = false -> t_cache (c_tr c) = None) -> Forall plain ops -> adds_unread b ops = true ->
    tracks (c_tr (c_run cosQ sinQ c ops)) (fold_left placed_step ops ts) /\
    c_flipped (c_run cosQ sinQ c ops)
    = fold_left (fun b o => match o with CFlip b' => b' | _ => b end) ops (c_flipped c).
  Proof.
    induction ops as [|o ops IH]; intros c ts b T Hb HP HA; [split; auto|].
    inversion HP as [|? ? Hp HP']; subst; destruct o as [u|u| |f]; cbn [c_run fold_left] in *; cbn [adds_unread] in HA.
    - apply (IH (mkComp (c_def c) u (c_flipped c)) [u] false); auto.
      intros p; cbn [c_tr placed_pt fold_left]; unfold moves, get_transform; rewrite Hp; apply peq_refl.
    - apply andb_prop in HA as [Hc HA]; destruct b; [discriminate|].
      apply (IH (mkComp (c_def c) (append cosQ sinQ (c_tr c) u) (c_flipped c)) (ts ++ [u]) false); auto.
      + intros p; cbn [c_tr]; unfold append; rewrite Hb by auto; cbn [t_seq].
        eapply peq_trans; [apply seqt_append|]; unfold placed_pt; rewrite fold_left_app; cbn [fold_left].
        unfold moves at 1; unfold get_transform; cbn [plain] in Hp; rewrite Hp; apply apply_peq, T.
      + intros _; cbn [c_tr]; unfold append; rewrite Hb; auto.
    - apply (IH (mkComp (c_def c) (read cosQ sinQ (c_tr c)) (c_flipped c)) ts true); auto; discriminate.
    - apply (IH (mkComp (c_def c) (c_tr c) f) ts b); auto.
  Qed.

  Lemma comp_transform_moves c ts p : tracks (c_tr c) ts ->
    peq (aff_apply (get_transform cosQ sinQ (comp_transform cosQ sinQ c)) p)
        (placed_pt cosQ sinQ ts (flip_pt (c_flipped c) p)).
  Proof.
    intros T; unfold comp_transform.
    set (t := if c_flipped c then _ else _).
    assert (Ht : t_cache t = None) by (unfold t; destruct (c_flipped c); auto).
    unfold append; rewrite Ht; unfold get_transform; cbn [t_cache t_seq].
    eapply peq_trans; [apply seqt_append|]; eapply peq_trans; [apply T|]; apply placed_peq.
    unfold t, flip_pt; destruct p as [x y]; destruct (c_flipped c);
      cbn [t_seq t_new edit edit_last]; unfold seq_transform; cbn [fold_left]; unfold is_transformed, td_transform,
      is_scaled, is_rotated, is_mirrored, is_offsetted; cbn [td_scale td_rot td_mirror td_off td_default fst snd];
      change (Qeq_bool 1 1) with true; change (Qeq_bool 0 0) with true; cbn [negb orb andb];
      split; unfold aff_apply, aff_mul, mk_mirror, aff_id, mirror_pt; cbn [fst snd a11 a12 a13 a21 a22 a23]; ring.
  Qed.
End P.

(** Pins are where the history of placements puts them, flipped first, as long as no transform is added after the
    placement was read. *)
Theorem C85_pin_placement_partial :
  forall cosQ sinQ d ops n l loc,
    Forall plain ops -> adds_unread false ops = true -> first_pin (cd_pins d) n l ->
    exists q, pin_location cosQ sinQ (c_run cosQ sinQ (c_new (Some d)) ops) n loc = Ok (true, q) /\
      peq q (placed_pt cosQ sinQ (placement ops) (flip_pt (flip_of ops) l)).
Proof.
  intros cosQ sinQ d ops n l loc HP HA Hl.
  destruct (C84_pins_and_boundary_together cosQ sinQ d ops) as (_ & _ & _).
  assert (Hd : c_def (c_run cosQ sinQ (c_new (Some d)) ops) = Some d).
  { unfold c_run; enough (G : forall c0, c_def (fold_left (c_step cosQ sinQ) ops c0) = c_def c0) by (rewrite G; auto).
    clear; induction ops as [|o ops IH]; intros c0; simpl; auto; rewrite IH; destruct o; auto. }
  unfold pin_location; rewrite Hd; apply find_pin_some in Hl; rewrite Hl.
  eexists; split; [reflexivity|].
  assert (T0 : tracks cosQ sinQ (c_tr (c_new (Some d))) []).
  { intros p; cbn; unfold seq_transform; cbn; apply apply_id. }
  destruct (tracks_run cosQ sinQ ops (c_new (Some d)) [] false T0 (fun _ => eq_refl) HP HA) as [T F].
  cbn [c_flipped c_new] in F.
  unfold flip_of, placement; rewrite <- F; apply comp_transform_moves, T.
Qed.
Print Assumptions C85_pin_placement_partial.

Definition one (_ : Q) : Q := 1.
Definition zero (_ : Q) : Q := 0.
Definition shift (x y : Q) : transform := make_transform one zero 1 0 (x, y) MNo.
Definition def_ex : cdef := mkCDef (Some [(0, 0); (4, 0); (4, 2)]) [("A"%string, (1, 0)); ("B"%string, (3, 1)); ("A"%string, (2, 2))].

Example C84_case :
  let ops := [CSet (shift 10 20); CAdd (shift 1 2); CRead; CFlip true] in
  let c := c_run one zero (c_new (Some def_ex)) ops in
  first_pin (cd_pins def_ex) "A" (1, 0) /\ ~ In "C"%string (map fst (cd_pins def_ex)) /\
  Forall plain ops /\ adds_unread false ops = true /\
  match pin_location one zero c "A" (0, 0) with Ok (true, q) => peq q (10, 22) | _ => False end /\
  pin_location one zero c "C" (7, 7) = Ok (false, (7, 7)) /\
  match get_boundary one zero c with Ok (Some [p; q; r]) => peq r (7, 20) | _ => False end.
Proof.
  cbv zeta; split; [constructor|]; split.
  { simpl; intros [H|[H|[H|[]]]]; discriminate. }
  split; [repeat constructor|]; split; [reflexivity|].
  split; [vm_compute; auto|]; split; vm_compute; auto.
Qed.

(** Finding: a transform added after the placement was read (printed, say) is lost for pins and boundary, while
    the placement itself reports it. *)
Theorem C85_added_transform_refuted :
  exists d ops n l, Forall plain ops /\ first_pin (cd_pins d) n l /\
    let c := c_run one zero (c_new (Some d)) ops in
    peq (moves one zero (c_tr c) l) (placed_pt one zero (placement ops) l) /\
    forall loc q, pin_location one zero c n loc = Ok (true, q) ->
      ~ peq q (placed_pt one zero (placement ops) (flip_pt (flip_of ops) l)).
Proof.
  exists def_ex, [CSet (shift 10 20); CRead; CAdd (shift 1 2)], "A"%string, (1, 0).
  split; [repeat constructor|]; split; [constructor|]; split; [vm_compute; auto|].
  intros loc q H; vm_compute in H; injection H as <-; intros [H _]; vm_compute in H; discriminate.
Qed.
Print Assumptions C85_added_transform_refuted.

(** Finding: flipping a component turns it by half a turn in its plane (both axes mirrored) instead of giving its
    mirror image: a triangle of pins keeps its sense of rotation. *)
Theorem C85_flip_mirror_image_refuted :
  exists d a b c, first_pin (cd_pins d) "A" a /\ first_pin (cd_pins d) "B" b /\ first_pin (cd_pins d) "C" c /\
    let pin n := pin_location one zero (c_run one zero (c_new (Some d)) [CFlip true]) n (0, 0) in
    match pin "A"%string, pin "B"%string, pin "C"%string with
    | Ok (true, a'), Ok (true, b'), Ok (true, c') => turn a' b' c' == turn a b c /\ ~ turn a' b' c' == - turn a b c
    | _, _, _ => False
    end.
Proof.
  exists (mkCDef None [("A"%string, (0, 0)); ("B"%string, (1, 0)); ("C"%string, (0, 1))]), (0, 0), (1, 0), (0, 1).
  split; [constructor|]; split; [constructor; [discriminate|constructor]|].
  split; [constructor; [discriminate|constructor; [discriminate|constructor]]|].
  vm_compute; split; [reflexivity|discriminate].
Qed.
Print Assumptions C85_flip_mirror_image_refuted.

(** Finding: without a component definition both calls dereference null. *)
Theorem C84_no_definition_is_ub :
  forall cosQ sinQ ops n loc,
    let c := c_run cosQ sinQ (c_new None) ops in
    get_boundary cosQ sinQ c = UB /\ pin_location cosQ sinQ c n loc = UB.
Proof.
  intros cosQ sinQ ops n loc c.
  assert (Hd : c_def c = None).
  { unfold c, c_run; enough (G : forall c0, c_def (fold_left (c_step cosQ sinQ) ops c0) = c_def c0) by (rewrite G; auto).
    clear; induction ops as [|o ops IH]; intros c0; simpl; auto; rewrite IH; destruct o; auto. }
  unfold get_boundary, pin_location; rewrite Hd; auto.
Qed.
Print Assumptions C84_no_definition_is_ub.
