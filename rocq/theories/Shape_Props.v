(** C116-C118: shapes, their boxes, and shapes written to an archive. *)
From Coq Require Qround.
From Verif Require Import Base QSum.
From Verif Require Import Transform_Model Transform_Spec Transform_Proofs Shape_Model Shape_Spec Shape_Proofs.
Local Open Scope Q_scope.

(** * C116: transforming a shape *)

Section pointwise.
  Context (cosQ sinQ rnd : Q -> Q) (He : exact rnd).
  Context (stroke : list pt -> Q -> list pt) (inscribed : pt -> Q -> nat -> list pt).
  Notation W := (with_holes cosQ sinQ rnd stroke inscribed).
  Notation M := (moves cosQ sinQ).

  Lemma pmap_exact t p : peq (pmap rnd (get_transform cosQ sinQ t) p) (M t p).
  Proof. split; apply He. Qed.
  Lemma moves_peq t p q : peq p q -> peq (M t p) (M t q).
  Proof. apply apply_peq. Qed.
  Lemma F2_map t ps : Forall2 peq (map (pmap rnd (get_transform cosQ sinQ t)) ps) (map (M t) ps).
  Proof. induction ps; constructor; [apply pmap_exact|assumption]. Qed.
  Lemma F2_cong t ps qs : Forall2 peq ps qs -> Forall2 peq (map (M t) ps) (map (M t) qs).
  Proof. induction 1; constructor; [apply moves_peq|]; assumption. Qed.
  Lemma F2_trans ps qs rs : Forall2 peq ps qs -> Forall2 peq qs rs -> Forall2 peq ps rs.
  Proof.
    intros H; revert rs; induction H; intros rs G; inversion G; subst; constructor; [eapply peq_trans; eassumption|auto].
  Qed.
  Lemma F2_append t0 t ps : consistent cosQ sinQ t ->
    Forall2 peq (map (pmap rnd (get_transform cosQ sinQ (append cosQ sinQ t0 t))) ps)
                (map (M t) (map (pmap rnd (get_transform cosQ sinQ t0)) ps)).
  Proof.
    intros Hc. assert (Hs : synced cosQ sinQ t).
    { unfold synced. destruct (t_cache t) eqn:E; [|exact I]. intros p. specialize (Hc p). unfold moves, get_transform in Hc. rewrite E in Hc. exact Hc. }
    induction ps; cbn [map]; constructor; [|assumption].
    eapply peq_trans; [apply pmap_exact|]. eapply peq_trans; [apply append_composes; left; exact Hs|].
    apply moves_peq, peq_sym, pmap_exact.
  Qed.
  Lemma FF_trans (a b c : list (list pt)) : Forall2 (Forall2 peq) a b -> Forall2 (Forall2 peq) b c -> Forall2 (Forall2 peq) a c.
  Proof.
    intros H; revert c; induction H; intros c G; inversion G; subst; constructor; [eapply F2_trans; eassumption|auto].
  Qed.
  Lemma FF_map (f g : list pt -> list pt) l : (forall x, Forall2 peq (f x) (g x)) -> Forall2 (Forall2 peq) (map f l) (map g l).
  Proof. intros H; induction l; constructor; auto. Qed.

  Lemma move_W t s : pointwise s -> consistent cosQ sinQ t ->
    Forall2 peq (fst (W (move cosQ sinQ rnd t s))) (map (M t) (fst (W s))) /\
    Forall2 (Forall2 peq) (snd (W (move cosQ sinQ rnd t s))) (map (map (M t)) (snd (W s))).
  Proof.
    intros Hp Hc. destruct s as [b|ps w|o r d|ps|o hs|[s|] t0]; try (destruct Hp); cbn [move with_holes contour fst snd].
    - split; [apply F2_map|constructor].
    - split; [apply F2_map|]. apply FF_map, F2_map.
    - destruct (valid s); cbn [fst snd]; [|split; constructor]. split; [apply F2_append, Hc|].
      rewrite map_map. apply FF_map. intros x. apply F2_append, Hc.
  Qed.
  Lemma pointwise_step s o : pointwise s -> pointwise (s_step cosQ sinQ rnd s o).
  Proof.
    destruct o as [t|]; destruct s as [b|ps w|x r d|ps|x hs|[s|] t0]; intros H; try (destruct H); try exact I.
    cbn [s_step queried]. destruct (valid s); exact I.
  Qed.
  Lemma map_id_F2 ps : Forall2 peq ps (map (fun p => p) ps).
  Proof. induction ps; constructor; [apply peq_refl|assumption]. Qed.
End pointwise.

(** Whatever is asked in between, a polygon, a polygon with holes or a shape made from a template that is transformed
    several times has, point by point, the outline and the holes it had, moved by the transforms in order.  (No point
    is rounded; each transform is one whose items and matrix agree, see C12.) *)
Theorem C116_points_follow : forall cosQ sinQ rnd stroke inscribed s ops,
  exact rnd -> pointwise s -> (forall t, In t (s_moves ops) -> consistent cosQ sinQ t) ->
  let outline s := fst (with_holes cosQ sinQ rnd stroke inscribed s) in
  let holes s := snd (with_holes cosQ sinQ rnd stroke inscribed s) in
  let s' := s_run cosQ sinQ rnd s ops in
  Forall2 peq (outline s') (map (moves_all cosQ sinQ (s_moves ops)) (outline s)) /\
  Forall2 (Forall2 peq) (holes s') (map (map (moves_all cosQ sinQ (s_moves ops))) (holes s)).
Proof.
  intros cosQ sinQ rnd stroke inscribed s ops He Hp Hc. cbv zeta. revert s Hp.
  induction ops as [|o ops IH]; intros s Hp; cbn [s_run fold_left].
  - unfold moves_all; cbn [fold_left s_moves]. split; [apply map_id_F2|].
    induction (snd (with_holes cosQ sinQ rnd stroke inscribed s)); constructor; [apply map_id_F2|assumption].
  - assert (Hc' : forall t, In t (s_moves ops) -> consistent cosQ sinQ t) by (intros t Ht; apply Hc; destruct o; [right|]; exact Ht).
    destruct (IH Hc' _ (pointwise_step cosQ sinQ rnd s o Hp)) as [A B]. destruct o as [t|].
    + destruct (move_W cosQ sinQ rnd He stroke inscribed t s Hp (Hc t (or_introl eq_refl))) as [C D].
      cbn [s_moves s_step] in *. unfold s_run in *.
      assert (E : forall ps qs, Forall2 peq ps (map (moves cosQ sinQ t) qs) ->
                    Forall2 peq (map (moves_all cosQ sinQ (s_moves ops)) ps) (map (moves_all cosQ sinQ (t :: s_moves ops)) qs)).
      { intros ps qs F. unfold moves_all at 2. cbn [fold_left].
        change (fun p => fold_left (fun q t0 => moves cosQ sinQ t0 q) (s_moves ops) (moves cosQ sinQ t p))
          with (fun p => moves_all cosQ sinQ (s_moves ops) (moves cosQ sinQ t p)).
        rewrite <- (map_map (moves cosQ sinQ t) (moves_all cosQ sinQ (s_moves ops))).
        revert F. generalize (map (moves cosQ sinQ t) qs). intros rs F. induction F; cbn [map]; constructor; [|assumption].
        revert H. clear. generalize (s_moves ops). intros l. revert x y. induction l as [|u l IH]; intros x y H; cbn; [exact H|].
        apply IH, moves_peq, H. }
      split; [eapply F2_trans; [exact A|apply E, C]|]. eapply FF_trans; [exact B|].
      revert D. generalize (snd (with_holes cosQ sinQ rnd stroke inscribed (move cosQ sinQ rnd t s))).
      generalize (snd (with_holes cosQ sinQ rnd stroke inscribed s)). clear - E.
      intros l l' D. remember (map (map (moves cosQ sinQ t)) l) as ml eqn:El. revert l El.
      induction D; intros l0 El; destruct l0; try discriminate; cbn [map]; [constructor|].
      injection El as -> ->. constructor; [apply E; assumption|apply IHD; reflexivity].
    + cbn [s_moves s_step] in *. unfold s_run in *.
      destruct (queried_same cosQ sinQ rnd stroke inscribed s) as (_ & _ & Q & _). rewrite Q in A, B. split; assumption.
Qed.
Print Assumptions C116_points_follow.

(** The outline is the contour, and a shape says it has holes exactly when there are some. *)
Theorem C116_outline_and_holes : forall cosQ sinQ rnd stroke inscribed s,
  fst (with_holes cosQ sinQ rnd stroke inscribed s) = contour cosQ sinQ rnd stroke inscribed s /\
  (has_hole s = true <-> snd (with_holes cosQ sinQ rnd stroke inscribed s) <> []).
Proof.
  intros cosQ sinQ rnd stroke inscribed s. induction s using shape_ind'; cbn [with_holes contour has_hole fst snd];
    try (split; [reflexivity|split; [discriminate|congruence]]).
  - split; [reflexivity|]. destruct hs; cbn; split; congruence.
  - destruct (valid s); cbn [fst snd]; [|split; [reflexivity|split; [discriminate|congruence]]].
    destruct IHs as [A B]. rewrite A. split; [reflexivity|]. rewrite B.
    destruct (snd (with_holes cosQ sinQ rnd stroke inscribed s)); cbn; split; congruence.
Qed.
Print Assumptions C116_outline_and_holes.

(** A rectangle stays a rectangle that holds every point of the old one, moved (and rounded) step by step. *)
Theorem C116_rectangle_holds : forall cosQ sinQ rnd b p ops,
  monotone rnd -> in_box p b ->
  exists b', s_run cosQ sinQ rnd (Rect b) ops = Rect b' /\ in_box (rmoves_all cosQ sinQ rnd (s_moves ops) p) b'.
Proof.
  intros cosQ sinQ rnd b p ops Hm. revert b p. induction ops as [|o ops IH]; intros b p Hp; cbn [s_run fold_left].
  - exists b. split; [reflexivity|exact Hp].
  - destruct o as [t|]; cbn [s_step move queried s_moves].
    + apply IH. apply turn_box_in; assumption.
    + apply IH. exact Hp.
Qed.
Print Assumptions C116_rectangle_holds.

(** Turned by right angles only it has no other points. *)
Theorem C116_rectangle_right_angles : forall cosQ sinQ rnd b t p',
  exact rnd -> valid (Rect b) = true -> consistent cosQ sinQ t -> right_angles cosQ sinQ t ->
  exists b', move cosQ sinQ rnd t (Rect b) = Rect b' /\
    (in_box p' b' <-> exists p, in_box p b /\ peq (moves cosQ sinQ t p) p').
Proof.
  intros cosQ sinQ rnd b t p' He Hv Hc Hr. cbn [valid] in Hv. apply andb_prop in Hv as [Hx Hy]. apply Qle_bool_iff in Hx, Hy.
  eexists. split; [reflexivity|]. split.
  - intros H. destruct (turn_box_onto rnd He _ b p' (axis_get cosQ sinQ t Hc Hr) Hx Hy H) as (q & Hq & Eq).
    exists q. split; [exact Hq|]. eapply peq_trans; [|exact Eq]. apply peq_sym, pmap_exact, He.
  - intros (p & Hp & Ep). assert (Hm : monotone rnd) by (intros x y L; rewrite (He x), (He y); exact L).
    pose proof (turn_box_in rnd Hm (get_transform cosQ sinQ t) b p Hp) as [[A B] [C D]].
    destruct (peq_trans _ _ _ (pmap_exact cosQ sinQ rnd He t p) Ep) as [E F].
    rewrite E in A, B. rewrite F in C, D. repeat split; assumption.
Qed.
Print Assumptions C116_rectangle_right_angles.

(** A circle keeps its radius, and its centre follows. *)
Theorem C116_circle_centre : forall cosQ sinQ rnd o r d ops,
  s_run cosQ sinQ rnd (Circle o r d) ops = Circle (rmoves_all cosQ sinQ rnd (s_moves ops) o) r d.
Proof.
  intros cosQ sinQ rnd o r d ops. revert o. induction ops as [|[t|] ops IH]; intros o; cbn [s_run fold_left s_step move queried s_moves];
    [reflexivity| |]; apply IH.
Qed.
Print Assumptions C116_circle_centre.

(** So with transforms that do not scale, the points of the circle are the old ones, moved. *)
Theorem C116_circle_unscaled : forall cosQ sinQ rnd o r d t,
  exact rnd -> (forall x, cosQ x * cosQ x + sinQ x * sinQ x == 1) -> consistent cosQ sinQ t -> unscaled t ->
  exists o', move cosQ sinQ rnd t (Circle o r d) = Circle o' r d /\
    forall p, in_disc o' r (moves cosQ sinQ t p) <-> in_disc o r p.
Proof.
  intros cosQ sinQ rnd o r d t He Hcs Hc Hu. eexists. split; [reflexivity|]. intros p. unfold in_disc.
  assert (E : dist2 (moves cosQ sinQ t p) (pmap rnd (get_transform cosQ sinQ t) o) == dist2 p o).
  { transitivity (dist2 (aff_apply (seq_transform cosQ sinQ (t_seq t)) p) (aff_apply (seq_transform cosQ sinQ (t_seq t)) o)).
    - apply dist2_peq; [apply Hc|]. eapply peq_trans; [apply pmap_exact, He|apply Hc].
    - apply iso_seq. intros d0 Hd. split; [apply Hcs|apply Hu, Hd]. }
  rewrite E. reflexivity.
Qed.
Print Assumptions C116_circle_unscaled.

(** A path keeps its width, and its points follow. *)
Theorem C116_path_points : forall cosQ sinQ rnd ps w ops,
  s_run cosQ sinQ rnd (Path ps w) ops = Path (map (rmoves_all cosQ sinQ rnd (s_moves ops)) ps) w.
Proof.
  intros cosQ sinQ rnd ps w ops. revert ps. induction ops as [|[t|] ops IH]; intros ps; cbn [s_run fold_left s_step move queried s_moves].
  - unfold rmoves_all. cbn [fold_left]. rewrite map_id. reflexivity.
  - unfold s_run in IH. rewrite IH, map_map. reflexivity.
  - apply IH.
Qed.
Print Assumptions C116_path_points.

Definition ex_cos (x : Q) : Q := if Qeq_bool x 0 then 1 else 3 # 5.
Definition ex_sin (x : Q) : Q := if Qeq_bool x 0 then 0 else if Qle_bool x 0 then -(4 # 5) else 4 # 5.
Definition ex_id (x : Q) : Q := x.
Definition ex_turn (r : Q) : transform := mkT [mkTD 1 r MNo (0, 0)] None.
Definition ex_grow : transform := mkT [mkTD 2 0 MNo (0, 0)] None.

(** C116 is false of the code.  A rectangle turned by an angle and turned back is larger than it was. *)
Theorem C116_rectangle_refuted :
  (forall p, peq (moves_all ex_cos ex_sin [ex_turn 1; ex_turn (-1)] p) p) /\
  s_run ex_cos ex_sin ex_id (Rect ((0, 0), (5, 5))) [SMove (ex_turn 1); SMove (ex_turn (-1))] <> Rect ((0, 0), (5, 5)) /\
  exists b, s_run ex_cos ex_sin ex_id (Rect ((0, 0), (5, 5))) [SMove (ex_turn 1); SMove (ex_turn (-1))] = Rect b /\
    fst (fst b) == - (12 # 5) /\ fst (snd b) == 37 # 5.
Proof.
  split; [|split].
  - intros [x y]. unfold moves_all, moves, ex_turn. cbn [fold_left].
    change (get_transform ex_cos ex_sin (mkT [mkTD 1 1 MNo (0, 0)] None)) with (aff_mul (aff_mul (mk_rotate ex_cos ex_sin 1) aff_id) aff_id).
    change (get_transform ex_cos ex_sin (mkT [mkTD 1 (-1) MNo (0, 0)] None)) with (aff_mul (aff_mul (mk_rotate ex_cos ex_sin (-1)) aff_id) aff_id).
    unfold peq, aff_apply, aff_mul, mk_rotate, aff_id, ex_cos, ex_sin. cbn [fst snd a11 a12 a13 a21 a22 a23 Qeq_bool Qle_bool].
    split; cbn; ring.
  - intros H. apply (f_equal (fun s => match s with Rect b => Qle_bool 0 (fst (fst b)) | _ => false end)) in H. vm_compute in H. discriminate.
  - eexists. split; [vm_compute; reflexivity|split; reflexivity].
Qed.
Print Assumptions C116_rectangle_refuted.

(** A circle or a path that is scaled keeps its radius or width; the same circle as a template is scaled. *)
Theorem C116_scaled_refuted :
  bbox ex_cos ex_sin ex_id (fun ps _ => ps) (move ex_cos ex_sin ex_id ex_grow (Circle (1, 1) 1 8)) = Some ((1, 1), (3, 3)) /\
  in_disc (1, 1) 1 (0, 1) /\ ~ in_disc (2, 2) 1 (moves ex_cos ex_sin ex_grow (0, 1)) /\
  bbox ex_cos ex_sin ex_id (fun ps _ => ps) (move ex_cos ex_sin ex_id ex_grow (Templ (Some (Circle (1, 1) 1 8)) t_new)) = Some ((0, 0), (4, 4)) /\
  move ex_cos ex_sin ex_id ex_grow (Path [(0, 0); (1, 0)] 1) = Path [(0, 0); (2, 0)] 1.
Proof. split; [reflexivity|]. split; [vm_compute; discriminate|]. split; [vm_compute; intros H; apply H; reflexivity|]. split; reflexivity. Qed.
Print Assumptions C116_scaled_refuted.

(** Given a transform that was appended to after its matrix had been asked for, a polygon follows the matrix but a
    shape made from that polygon follows the items. *)
Theorem C116_template_refuted : exists t ps,
  t = t_run ex_cos ex_sin t_new [TRead; TAppend (mkT [mkTD 1 0 MNo (10, 0)] None)] /\
  contour ex_cos ex_sin ex_id (fun ps _ => ps) (fun _ _ _ => []) (move ex_cos ex_sin ex_id t (Poly ps)) = [(10, 0); (11, 0); (11, 1)] /\
  contour ex_cos ex_sin ex_id (fun ps _ => ps) (fun _ _ _ => []) (move ex_cos ex_sin ex_id t (Templ (Some (Poly ps)) t_new)) = [(0, 0); (1, 0); (1, 1)].
Proof. eexists. exists [(0, 0); (1, 0); (1, 1)]. split; [reflexivity|]. split; vm_compute; reflexivity. Qed.
Print Assumptions C116_template_refuted.

(** * C117: the box of a shape *)

(** The box of a valid shape holds its contour.  (The library's polygon for a circle lies in the circle; rounding
    keeps the order of coordinates.) *)
Theorem C117_box_holds_contour : forall cosQ sinQ rnd stroke inscribed s b p,
  monotone rnd -> (forall o r d q, In q (inscribed o r d) -> in_disc o r q) ->
  valid s = true -> bbox cosQ sinQ rnd stroke s = Some b -> In p (contour cosQ sinQ rnd stroke inscribed s) -> in_box p b.
Proof.
  intros cosQ sinQ rnd stroke inscribed s b p Hm Hi. revert b p. induction s using shape_ind'; intros b0 p Hv Hb Hp; cbn [bbox contour valid] in *.
  - injection Hb as <-. apply andb_prop in Hv as [Hx Hy]. apply Qle_bool_iff in Hx, Hy. apply corners_in; assumption.
  - apply (extent_least _ _ Hb). exact Hp.
  - injection Hb as <-. apply Hi in Hp. apply andb_prop in Hv as [Hr _]. apply negb_true_iff in Hr.
    assert (Hr' : 0 < r) by (apply Qnot_le_lt; intros L; apply Qle_bool_iff in L; congruence).
    unfold in_disc, dist2 in Hp. unfold in_box. cbn [fst snd].
    assert (A : forall a c, a * a + c * c <= r * r -> - r <= a <= r).
    { intros a c L. assert (0 <= c * c) by (destruct (Qlt_le_dec c 0); nra).
      split; apply Qnot_lt_le; intros X; nra. }
    pose proof (A _ _ Hp). assert (Hp' : (snd p - snd o) * (snd p - snd o) + (fst p - fst o) * (fst p - fst o) <= r * r) by lra.
    pose proof (A _ _ Hp'). repeat split; lra.
  - apply (extent_least _ _ Hb). exact Hp.
  - apply (extent_least _ _ Hb). exact Hp.
  - discriminate.
  - rewrite Hv in *. destruct (bbox cosQ sinQ rnd stroke s) as [b1|] eqn:E; [|discriminate]. injection Hb as <-.
    apply in_map_iff in Hp as (q & <- & Hq). apply turn_box_in; [exact Hm|]. eapply IHs; eauto.
Qed.
Print Assumptions C117_box_holds_contour.

(** It is the smallest one for a rectangle, path or polygon, and for a shape made from one of these by right angles. *)
Theorem C117_box_is_least : forall cosQ sinQ rnd stroke inscribed s b,
  valid s = true -> bbox cosQ sinQ rnd stroke s = Some b ->
  match s with Circle _ _ _ => False | Templ _ _ => False | _ => True end ->
  least_box (contour cosQ sinQ rnd stroke inscribed s) b /\
  forall t, monotone rnd -> consistent cosQ sinQ t -> right_angles cosQ sinQ t ->
    exists b', bbox cosQ sinQ rnd stroke (Templ (Some s) t) = Some b' /\
               least_box (contour cosQ sinQ rnd stroke inscribed (Templ (Some s) t)) b'.
Proof.
  intros cosQ sinQ rnd stroke inscribed s b Hv Hb Hk.
  assert (G : least_box (contour cosQ sinQ rnd stroke inscribed s) b).
  { destruct s; try contradiction; cbn [bbox contour valid] in *; try (apply extent_least; exact Hb).
    injection Hb as <-. apply andb_prop in Hv as [Hx Hy]. apply Qle_bool_iff in Hx, Hy. apply corners_least; assumption. }
  split; [exact G|]. intros t Hm Hc Hr. cbn [bbox contour]. rewrite Hv, Hb. cbn [option_map]. eexists. split; [reflexivity|].
  apply turn_box_least_points; [exact Hm| |exact G]. apply axis_get; assumption.
Qed.
Print Assumptions C117_box_is_least.

(** A shape without a valid template has an empty box and no points. *)
Theorem C117_no_template : forall cosQ sinQ rnd stroke inscribed s0 t,
  (s0 = None \/ exists s, s0 = Some s /\ valid s = false) ->
  valid (Templ s0 t) = false /\ bbox cosQ sinQ rnd stroke (Templ s0 t) = None /\
  contour cosQ sinQ rnd stroke inscribed (Templ s0 t) = [] /\ has_hole (Templ s0 t) = false.
Proof.
  intros cosQ sinQ rnd stroke inscribed s0 t [->|(s & -> & E)]; cbn [valid bbox contour has_hole]; [repeat split|rewrite E; repeat split].
Qed.
Print Assumptions C117_no_template.

(** C117 is false of the code: the box of a turned shape made from a template is the box of its turned box. *)
Theorem C117_box_refuted :
  let s := Templ (Some (Poly [(0, 0); (4, 0); (0, 4)])) (ex_turn 1) in
  exists b c, bbox ex_cos ex_sin ex_id (fun ps _ => ps) s = Some b /\
    least_box (contour ex_cos ex_sin ex_id (fun ps _ => ps) (fun _ _ _ => []) s) c /\
    snd (snd b) == 28 # 5 /\ snd (snd c) == 16 # 5.
Proof.
  eexists. eexists. split; [vm_compute; reflexivity|]. split; [apply extent_least; reflexivity|]. split; vm_compute; reflexivity.
Qed.
Print Assumptions C117_box_refuted.

(** * C118: shapes in an archive *)

(** A shape made from a template, moved any number of times before it is asked for its points, is read back with the
    points it has. *)
Theorem C118_archived_partial : forall cosQ sinQ rnd stroke inscribed s0 l ts n,
  monotone rnd -> match s0 with Templ _ _ => False | _ => True end ->
  let s := s_run cosQ sinQ rnd (Templ (Some s0) (mkT l None)) (map SMove ts ++ repeat SQuery n) in
  Forall2 peq (contour cosQ sinQ rnd stroke inscribed (archived s)) (contour cosQ sinQ rnd stroke inscribed s) /\
  Forall2 (Forall2 peq) (snd (with_holes cosQ sinQ rnd stroke inscribed (archived s))) (snd (with_holes cosQ sinQ rnd stroke inscribed s)) /\
  valid (archived s) = valid s.
Proof.
  intros cosQ sinQ rnd stroke inscribed s0 l ts n Hm H0. cbv zeta.
  assert (A : exists l', s_run cosQ sinQ rnd (Templ (Some s0) (mkT l None)) (map SMove ts) = Templ (Some s0) (mkT l' None)).
  { revert l. induction ts as [|t ts IH]; intros l; cbn [map s_run fold_left]; [eauto|]. apply IH. }
  destruct A as (l' & A). unfold s_run. rewrite fold_left_app. unfold s_run in A. rewrite A.
  assert (Q0 : queried cosQ sinQ s0 = s0) by (destruct s0; try contradiction; reflexivity).
  assert (B : exists c, fold_left (s_step cosQ sinQ rnd) (repeat SQuery n) (Templ (Some s0) (mkT l' None)) = Templ (Some s0) (mkT l' c) /\
                (c = None \/ c = Some (seq_transform cosQ sinQ l'))).
  { assert (G : forall c, c = None \/ c = Some (seq_transform cosQ sinQ l') ->
       exists c', fold_left (s_step cosQ sinQ rnd) (repeat SQuery n) (Templ (Some s0) (mkT l' c)) = Templ (Some s0) (mkT l' c') /\
          (c' = None \/ c' = Some (seq_transform cosQ sinQ l'))).
    { induction n as [|n IH]; intros c Hc; cbn [repeat fold_left]; [eauto|].
      cbn [s_step queried]. destruct (valid s0) eqn:Ev; [|apply IH, Hc]. rewrite Q0. unfold read, get_transform. cbn [t_cache t_seq].
      apply IH. right. destruct Hc as [->| ->]; reflexivity. }
    apply G. left. reflexivity. }
  destruct B as (c & -> & Hc).
  assert (R0 : archived s0 = s0) by (destruct s0; try contradiction; reflexivity).
  cbn [archived]. rewrite R0. unfold save, load. cbn [t_seq].
  assert (E : get_transform cosQ sinQ (mkT l' c) = get_transform cosQ sinQ (mkT l' None)) by (destruct Hc as [->| ->]; reflexivity).
  cbn [contour with_holes valid]. rewrite E.
  assert (R : forall ps, Forall2 peq ps ps) by (induction ps; constructor; [apply peq_refl|assumption]).
  split; [apply R|]. split; [|reflexivity].
  match goal with |- Forall2 _ ?x ?x => induction x; constructor; auto end.
Qed.
Print Assumptions C118_archived_partial.

(** Every other shape is read back as it was. *)
Theorem C118_archived_plain : forall s, match s with Templ _ _ => False | _ => True end -> archived s = s.
Proof. destruct s; cbn; tauto. Qed.
Print Assumptions C118_archived_plain.

(** C118 is false of the code: a move after the points were asked for is lost in the archive. *)
Theorem C118_archived_refuted :
  let s := s_run ex_cos ex_sin ex_id (Templ (Some (Poly [(0, 0); (1, 0); (1, 1)])) t_new) [SQuery; SMove (mkT [mkTD 1 0 MNo (10, 0)] None)] in
  contour ex_cos ex_sin ex_id (fun ps _ => ps) (fun _ _ _ => []) s = [(10, 0); (11, 0); (11, 1)] /\
  contour ex_cos ex_sin ex_id (fun ps _ => ps) (fun _ _ _ => []) (archived s) = [(0, 0); (1, 0); (1, 1)].
Proof. split; vm_compute; reflexivity. Qed.
Print Assumptions C118_archived_refuted.

(** Examples meeting the hypotheses of the theorems above. *)
Example ex_exact : exact ex_id /\ monotone ex_id.
Proof. split; [intros x; reflexivity|intros x y H; exact H]. Qed.
Example ex_monotone_floor : monotone (fun x => inject_Z (Qround.Qfloor x)).
Proof. intros x y H. rewrite <- Zle_Qle. apply Qround.Qfloor_resp_le, H. Qed.
Example C116_points_ex :
  consistent ex_cos ex_sin (ex_turn 1) /\ pointwise (Templ (Some (Rect ((0, 0), (5, 5)))) ex_grow) /\
  contour ex_cos ex_sin ex_id (fun ps _ => ps) (fun _ _ _ => [])
    (s_run ex_cos ex_sin ex_id (Templ (Some (Rect ((0, 0), (5, 5)))) ex_grow) [SQuery; SMove (ex_turn 1)]) <> [].
Proof. split; [intros p; apply peq_refl|]. split; [exact I|]. vm_compute. discriminate. Qed.
Example C116_right_angles_ex : right_angles (fun _ => 0) (fun _ => 1) (ex_turn 1) /\ valid (Rect ((0, 0), (5, 3))) = true /\
  move (fun _ => 0) (fun _ => 1) ex_id (ex_turn 1) (Rect ((0, 0), (5, 3))) = Rect ((-3, 0), (0, 5)).
Proof. split; [intros d _; left; reflexivity|]. split; vm_compute; reflexivity. Qed.
Example C116_unscaled_ex : unscaled (ex_turn 1) /\ forall x, ex_cos x * ex_cos x + ex_sin x * ex_sin x == 1.
Proof.
  split; [intros d [<-|[]]; reflexivity|]. intros x. unfold ex_cos, ex_sin. destruct (Qeq_bool x 0); [reflexivity|]. destruct (Qle_bool x 0); reflexivity.
Qed.
Example C117_ex : forall o r d q, In q ((fun (o : pt) r (_ : nat) => if Qle_bool 0 r then [o] else []) o r d) -> in_disc o r q.
Proof.
  intros o r d q. cbv beta. destruct (Qle_bool 0 r) eqn:E; [|intros []]. intros [<-|[]]. apply Qle_bool_iff in E. unfold in_disc, dist2. nra.
Qed.
