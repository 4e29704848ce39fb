From Verif Require Import Base QSum Units_Model Units_Spec Units_Proofs Transform_Model Transform_Spec Transform_Proofs.
From Verif Require Import Shape_Model PadInst_Model Component_Model Lengths_Model Lengths_Spec Lengths_Proofs.
From Coq Require Import Qround Qabs Qpower.
Open Scope res_scope.
Open Scope Q_scope.

(** ** C139: shapes made from lengths *)

(** Whatever the units, a length that is not longer does not get a larger coordinate. *)
Theorem C139_order : forall cu v w a b, 0 < cu_unit cu -> v <= w ->
  to_coord cu v = Ok a -> to_coord cu w = Ok b -> (a <= b)%Z.
Proof. exact to_coord_mono. Qed.
Print Assumptions C139_order.
Example C139_order_case : 0 < cu_unit default_units /\ 2 # 3 <= 3 # 4 /\
  to_coord default_units (2 # 3) = Ok 666%Z /\ to_coord default_units (3 # 4) = Ok 750%Z.
Proof. repeat split; try (vm_compute; reflexivity). vm_compute; discriminate. Qed.

(** Lengths mirrored about the origin get mirrored coordinates. *)
Theorem C139_symmetric : forall cu v c, to_coord cu v = Ok c -> (- 2 ^ 63 < c)%Z -> to_coord cu (- v) = Ok (- c)%Z.
Proof.
  intros cu v c H L. unfold to_coord in *. unfold to_int64 in *. cbv zeta in *.
  assert (E : trunc (to_coordf cu (- v)) = (- trunc (to_coordf cu v))%Z)
    by (rewrite <- trunc_opp; apply trunc_eq, to_coordf_opp).
  rewrite E. destruct ((- 2 ^ 63 <=? trunc (to_coordf cu v)) && (trunc (to_coordf cu v) <? 2 ^ 63))%Z eqn:B; [|discriminate].
  assert (Ec : c = trunc (to_coordf cu v)) by congruence. clear H. rewrite Ec in *. set (z := trunc _) in *. clearbody z.
  apply andb_true_iff in B as [B1 B2]. apply Z.leb_le in B1. apply Z.ltb_lt in B2.
  replace ((- 2 ^ 63 <=? - z)%Z) with true by (symmetry; apply Z.leb_le; lia).
  replace ((- z <? 2 ^ 63)%Z) with true by (symmetry; apply Z.ltb_lt; lia). reflexivity.
Qed.
Print Assumptions C139_symmetric.
Example C139_symmetric_case : to_coord default_units (4007 # 1000) = Ok 4007%Z /\ to_coord default_units (- (4007 # 1000)) = Ok (- (4007))%Z.
Proof. split; vm_compute; reflexivity. Qed.

(** Each coordinate of a rectangle, and of a box, is the length given, up to less than one and a half data units. *)
Theorem C139_rectangle : forall user data ll ur, reachable_pt user data ll -> reachable_pt user data ur ->
  exists b, shape_rectangle (make_units user data) ll ur = Ok (Rect b) /\ create_box (make_units user data) ll ur = Ok b /\
    about_pt user data ll (fst b) /\ about_pt user data ur (snd b).
Proof.
  intros user data ll ur A B. destruct (pt_about _ _ _ A) as (a & Ea & Aa), (pt_about _ _ _ B) as (b & Eb & Ab).
  exists (zpt a, zpt b). unfold shape_rectangle, create_box. rewrite Ea. cbn [bind]. rewrite Eb. cbn [bind]. auto.
Qed.
Print Assumptions C139_rectangle.
Example C139_rectangle_case : reachable_pt Micrometer Nanometer (-(3 # 2), 1 # 4) /\ reachable_pt Micrometer Nanometer (7 # 3, 5) /\
  shape_rectangle (make_units Micrometer Nanometer) (-(3 # 2), 1 # 4) (7 # 3, 5) = Ok (Rect ((-(1500), 250), (2333, 5000))).
Proof. split; [|split]; [split; vm_compute; discriminate|split; vm_compute; discriminate|vm_compute; reflexivity]. Qed.

(** A rectangle given by its lower left and upper right corner is a valid shape. *)
Theorem C139_rectangle_valid : forall cu ll ur s, 0 < cu_unit cu -> ordered_pt ll ur ->
  shape_rectangle cu ll ur = Ok s -> valid s = true.
Proof.
  intros cu ll ur s P [O1 O2]. unfold shape_rectangle, to_coord_pt.
  destruct (to_coord cu (fst ll)) as [a| | |] eqn:A; cbn [bind]; try discriminate.
  destruct (to_coord cu (snd ll)) as [b| | |] eqn:B; cbn [bind]; try discriminate.
  destruct (to_coord cu (fst ur)) as [c| | |] eqn:C; cbn [bind]; try discriminate.
  destruct (to_coord cu (snd ur)) as [d| | |] eqn:D; cbn [bind]; try discriminate.
  intros [= <-]. cbn [valid]. apply andb_true_iff. split; apply Qle_bool_iff; unfold zpt; cbn [fst snd]; rewrite <- Zle_Qle.
  - exact (to_coord_mono cu _ _ _ _ P O1 A C).
  - exact (to_coord_mono cu _ _ _ _ P O2 B D).
Qed.
Print Assumptions C139_rectangle_valid.
Example C139_rectangle_valid_case : ordered_pt (-(3 # 2), 1 # 4) (7 # 3, 5) /\
  exists s, shape_rectangle default_units (-(3 # 2), 1 # 4) (7 # 3, 5) = Ok s.
Proof. split; [split; vm_compute; discriminate|]. eexists. vm_compute. reflexivity. Qed.

(** The same holds for centre and radius of a circle, for points and width of a path and for the points of a
    polygon without rounded corners, one for one and in the order given. *)
Theorem C139_circle : forall user data div o r, reachable_pt user data o -> reachable user data r ->
  exists c k, shape_circle (make_units user data) div o r = Ok (Circle c k div) /\ about_pt user data o c /\ about user data r k.
Proof.
  intros user data div o r A B. destruct (pt_about _ _ _ A) as (c & Ec & Ac), (coord_about _ _ _ B) as (k & Ek & Ak).
  exists (zpt c), (inject_Z k). unfold shape_circle. rewrite Ec. cbn [bind]. rewrite Ek. cbn [bind]. auto.
Qed.
Print Assumptions C139_circle.
Theorem C139_path : forall user data ps w, Forall (reachable_pt user data) ps -> reachable user data w ->
  exists cs k, shape_path (make_units user data) ps w = Ok (Path cs k) /\ Forall2 (about_pt user data) ps cs /\ about user data w k.
Proof.
  intros user data ps w A B. destruct (pts_about _ _ _ A) as (cs & Ec & Ac), (coord_about _ _ _ B) as (k & Ek & Ak).
  exists (map zpt cs), (inject_Z k). unfold shape_path. rewrite Ec. cbn [bind]. rewrite Ek. cbn [bind]. auto.
Qed.
Print Assumptions C139_path.
Theorem C139_polygon : forall rc user data div ps cornerR, Forall (reachable_pt user data) ps -> cornerR <= 0 ->
  exists cs, shape_polygon rc (make_units user data) div ps cornerR = Ok (Poly cs) /\
    create_polygon (make_units user data) ps = Ok cs /\ Forall2 (about_pt user data) ps cs.
Proof.
  intros rc user data div ps cornerR A R. destruct (pts_about _ _ _ A) as (cs & Ec & Ac).
  exists (map zpt cs). unfold shape_polygon, create_polygon. apply Qle_bool_iff in R. rewrite R, Ec. cbn [bind]. auto.
Qed.
Print Assumptions C139_polygon.
(** With rounded corners they are the points the geometry library answers for the polygon given. *)
Theorem C139_round_corners : forall rc user data div ps cornerR, 0 < cornerR ->
  Forall (reachable_pt user data) (rc ps cornerR div) ->
  exists cs, shape_polygon rc (make_units user data) div ps cornerR = Ok (Poly cs) /\
    Forall2 (about_pt user data) (rc ps cornerR div) cs.
Proof.
  intros rc user data div ps cornerR R A. destruct (pts_about _ _ _ A) as (cs & Ec & Ac).
  exists (map zpt cs). unfold shape_polygon.
  destruct (Qle_bool cornerR 0) eqn:E; [apply Qle_bool_iff in E; lra|]. rewrite Ec. cbn [bind]. auto.
Qed.
Print Assumptions C139_round_corners.
Definition C139_triangle : list (Q * Q) := [(0, 0); (5 # 2, 0); (1, -(7 # 5))].
Example C139_polygon_case : Forall (reachable_pt Millimeter Nanometer) C139_triangle /\
  create_polygon (make_units Millimeter Nanometer) C139_triangle = Ok [(0, 0); (2500000, 0); (1000000, -(1400000))].
Proof. split; [repeat constructor; vm_compute; discriminate|vm_compute; reflexivity]. Qed.
Example C139_circle_case : reachable_pt Micrometer Nanometer (1, 2) /\ reachable Micrometer Nanometer (1 # 3) /\
  shape_circle (make_units Micrometer Nanometer) 12 (1, 2) (1 # 3) = Ok (Circle (1000, 2000) 333 12).
Proof. split; [split; vm_compute; discriminate|]. split; [vm_compute; discriminate|vm_compute; reflexivity]. Qed.

(** A list of coordinates is read in pairs. *)
Theorem C139_coordinate_list : forall rc cu div ps cornerR,
  shape_polygon_coords rc cu div (flat ps) cornerR = shape_polygon rc cu div ps cornerR.
Proof. intros. unfold shape_polygon_coords. rewrite (coords_pairs _ _ (le_n _)), pairs_flat. reflexivity. Qed.
Print Assumptions C139_coordinate_list.
(** Finding: the last of an odd number of coordinates is dropped without a sign. *)
Theorem C139_odd_coordinate_dropped : forall rc cu div ps x cornerR,
  shape_polygon_coords rc cu div (flat ps ++ [x]) cornerR = shape_polygon rc cu div ps cornerR.
Proof. intros. unfold shape_polygon_coords. rewrite (coords_pairs _ _ (le_n _)), pairs_flat_odd. reflexivity. Qed.
Print Assumptions C139_odd_coordinate_dropped.
Example C139_coordinate_list_case :
  shape_polygon_coords (fun ps _ _ => ps) (make_units Millimeter Nanometer) 12 (flat C139_triangle ++ [99]) 0 =
  Ok (Poly [(0, 0); (2500000, 0); (1000000, -(1400000))]).
Proof. vm_compute. reflexivity. Qed.

(** A placement keeps scale, rotation and mirror as given; its offset is the length given, up to less than one and
    a half data units. *)
Theorem C139_transform : forall user data scale rot off m, reachable_pt user data off ->
  exists o, create_transform (make_units user data) scale rot off m = Ok (mkT [mkTD scale rot m o] None) /\
    about_pt user data off o.
Proof.
  intros user data scale rot off m A. destruct (pt_about _ _ _ A) as (o & Eo & Ao).
  exists (zpt o). unfold create_transform. rewrite Eo. cbn [bind edit edit_last t_new t_seq td_default td_scale td_rot td_mirror td_off]. auto.
Qed.
Print Assumptions C139_transform.
(** Finding: a length that does not fit the coordinate type is undefined behaviour, not an error. *)
Theorem C139_too_long_is_ub : exists v, shape_rectangle default_units (0, 0) (v, 1) = UB.
Proof. exists 9300000000000000. vm_compute. reflexivity. Qed.
Print Assumptions C139_too_long_is_ub.

(** ** C141: sizes *)

(** The claim "a shape keeps its size wherever it is" holds up to less than three data units; missing is
    equality, which is false. *)
Theorem C141_size_partial : forall user data ll ur, reachable_pt user data ll -> reachable_pt user data ur ->
  exists b, create_box (make_units user data) ll ur = Ok b /\
    Qabs ((fst (snd b) - fst (fst b)) - exactly user data (fst ur - fst ll)) < 3 /\
    Qabs ((snd (snd b) - snd (fst b)) - exactly user data (snd ur - snd ll)) < 3.
Proof.
  intros user data ll ur A B. destruct (C139_rectangle user data ll ur A B) as (b & _ & E & [A1 A2] & [B1 B2]).
  exists b. split; [exact E|]. unfold about in *.
  apply abs_lt_inv in A1, A2, B1, B2. rewrite !exactly_ratio in *. split; apply abs_lt; lra.
Qed.
Print Assumptions C141_size_partial.
(** A radius, or a width, of two data units and more gives a valid circle, or path. *)
Theorem C141_circle_partial : forall user data div o r, reachable_pt user data o -> reachable user data r ->
  2 <= exactly user data r -> (3 <= div)%nat ->
  exists s, shape_circle (make_units user data) div o r = Ok s /\ valid s = true.
Proof.
  intros user data div o r A B R D. destruct (C139_circle user data div o r A B) as (c & k & E & _ & K).
  exists (Circle c k div). split; [exact E|]. cbn [valid]. unfold about in K. apply abs_lt_inv in K.
  apply andb_true_iff. split; [|apply Nat.leb_le; exact D].
  apply negb_true_iff. destruct (Qle_bool k 0) eqn:N; [|reflexivity]. apply Qle_bool_iff in N. lra.
Qed.
Print Assumptions C141_circle_partial.
Theorem C141_path_partial : forall user data ps w, Forall (reachable_pt user data) ps -> reachable user data w ->
  2 <= exactly user data w -> ps <> [] ->
  exists s, shape_path (make_units user data) ps w = Ok s /\ valid s = true.
Proof.
  intros user data ps w A B R D. destruct (C139_path user data ps w A B) as (cs & k & E & F & K).
  exists (Path cs k). split; [exact E|]. cbn [valid]. unfold about in K. apply abs_lt_inv in K.
  apply andb_true_iff. split; apply negb_true_iff.
  - destruct F as [|p c ps' cs' Hp F]; [congruence|]. reflexivity.
  - destruct (Qeq_bool k 0) eqn:N; [|reflexivity]. apply Qeq_bool_iff in N. lra.
Qed.
Print Assumptions C141_path_partial.
Example C141_path_case : Forall (reachable_pt Micrometer Nanometer) [(0, 0); (1, 0)] /\ reachable Micrometer Nanometer (1 # 10) /\
  2 <= exactly Micrometer Nanometer (1 # 10).
Proof. split; [repeat constructor; vm_compute; discriminate|split; vm_compute; discriminate]. Qed.

(** Finding: two boxes of the same width, half a nanometre apart, get different widths, because coordinates are
    truncated towards zero. *)
Theorem C141_same_size_refuted : exists a b w c d,
  create_box (make_units Nanometer Nanometer) (a, 0) (a + w, 1) = Ok c /\
  create_box (make_units Nanometer Nanometer) (b, 0) (b + w, 1) = Ok d /\
  fst (snd c) - fst (fst c) == 0 /\ fst (snd d) - fst (fst d) == 1.
Proof.
  exists (-(1 # 2)), (1 # 2), 1, ((0, 0), (0, 1)), ((0, 0), (1, 1)).
  split; [vm_compute; reflexivity|]. split; [vm_compute; reflexivity|]. split; vm_compute; reflexivity.
Qed.
Print Assumptions C141_same_size_refuted.
(** Finding: with metres as user unit a square 31 nanometres wide, given by the double nearest to 31e-9, is
    stored 30 nanometres wide. *)
Theorem C141_whole_size_refuted : exists w b, w = fl (31 # 1000000000) /\
  create_box (make_units Meter Nanometer) (0, 0) (w, w) = Ok b /\ fst (snd b) - fst (fst b) == 30.
Proof. eexists; exists ((0, 0), (30, 30)). split; [reflexivity|]. split; vm_compute; reflexivity. Qed.
Print Assumptions C141_whole_size_refuted.
(** Finding: a circle of positive radius, or a path of positive width, below one data unit is an invalid shape
    and no error is reported. *)
Theorem C141_small_refuted : exists r, 0 < r /\
  (exists s, shape_circle default_units 12 (1, 1) r = Ok s /\ valid s = false) /\
  (exists s, shape_path default_units [(0, 0); (1, 0)] r = Ok s /\ valid s = false).
Proof.
  exists (fl (9 # 10000)). split; [vm_compute; reflexivity|].
  split; eexists; (split; [vm_compute; reflexivity|vm_compute; reflexivity]).
Qed.
Print Assumptions C141_small_refuted.

(** ** C140: pins placed by lengths *)

(** CreateComponentDefPin once per entry *)
Fixpoint pins_made (cu : coord_units) (d : option cdef) (ps : list (string * (Q * Q))) : res (option cdef) :=
  match ps with
  | [] => Ok d
  | (n, p) :: ps' => r <- create_def_pin cu d n p ;; pins_made cu (fst r) ps'
  end.

Lemma made_first user data n ps : forall d v, Forall (fun q => reachable_pt user data (snd q)) ps ->
  find_pin (cd_pins d) n = None -> first_of ps n = Some v ->
  exists d' c, pins_made (make_units user data) (Some d) ps = Ok (Some d') /\ find_pin (cd_pins d') n = Some (zpt c) /\
    to_coord_pt (make_units user data) v = Ok c.
Proof.
  assert (A : forall l m (p : pt), find_pin (l ++ [(m, p)]) n =
             match find_pin l n with Some q => Some q | None => if String.eqb n m then Some p else None end).
  { induction l as [|[k q] l IH]; intros m p; cbn [app find_pin]; [reflexivity|]. destruct (String.eqb n k); auto. }
  assert (K : forall ps d q, Forall (fun q => reachable_pt user data (snd q)) ps -> find_pin (cd_pins d) n = Some q ->
              exists d', pins_made (make_units user data) (Some d) ps = Ok (Some d') /\ find_pin (cd_pins d') n = Some q).
  { clear - A. induction ps as [|[m p] ps IH]; intros d q F H; [exists d; split; auto|].
    inversion F as [|? ? R F']; subst. destruct (pt_about _ _ _ R) as (c & Ec & _). cbn [snd] in Ec.
    cbn [pins_made create_def_pin]. rewrite Ec. cbn [bind fst]. apply IH; auto.
    cbn [create_pin cd_pins]. rewrite A, H. reflexivity. }
  induction ps as [|[m p] ps IH]; intros d v F H E; [discriminate|].
  inversion F as [|? ? R F']; subst. destruct (pt_about _ _ _ R) as (c & Ec & _). cbn [snd] in Ec.
  cbn [pins_made create_def_pin]. rewrite Ec. cbn [bind fst]. cbn [first_of] in E. rewrite String.eqb_sym in E.
  destruct (String.eqb n m) eqn:S.
  - injection E as <-.
    destruct (K ps (create_pin d m (zpt c)) (zpt c) F') as (d' & P & Q); [cbn [create_pin cd_pins]; rewrite A, H, S; reflexivity|].
    exists d', c. auto.
  - apply IH; auto. cbn [create_pin cd_pins]. rewrite A, H, S. reflexivity.
Qed.

Lemma where_sum user data f m v o c k L :
  reachable_pt user data v -> reachable_pt user data o -> about_pt user data v (zpt c) -> about_pt user data o (zpt k) ->
  peq (shifted (zpt k) (mirrored m (flipped_over f (zpt c)))) (zpt L) ->
  off_by user data 4 (shifted o (mirrored m (flipped_over f v))) (to_unit_pt (make_units user data) L).
Proof.
  intros [R1 R2] [S1 S2] [A1 A2] [B1 B2] [W1 W2]. destruct L as [x y].
  unfold reachable, about in *. apply abs_le in R1, R2, S1, S2. apply abs_lt_inv in A1, A2, B1, B2.
  assert (Lx : (Z.abs x <= 2 ^ 50)%Z /\ Qabs (inject_Z x - exactly user data (fst (shifted o (mirrored m (flipped_over f v))))) < 3).
  { rewrite !exactly_ratio in *. set (r := ratio user data) in *. clearbody r.
    cbn [zpt fst snd] in W1. cbn [zpt fst snd] in *.
    assert (- inject_Z (2 ^ 50) <= inject_Z x /\ inject_Z x <= inject_Z (2 ^ 50) /\
            - (3) < inject_Z x - fst (shifted o (mirrored m (flipped_over f v))) * r /\
            inject_Z x - fst (shifted o (mirrored m (flipped_over f v))) * r < 3) as (P1 & P2 & P3 & P4).
    { change (inject_Z (2 ^ 50)) with 1125899906842624.
      rewrite <- W1. clear W1 W2. destruct f, m; unfold shifted, mirrored, flipped_over, zpt; cbn [fst snd]; repeat split; lra. }
    split; [|apply abs_lt; assumption]. rewrite <- inject_Z_opp, <- Zle_Qle in P1. rewrite <- Zle_Qle in P2. apply Z.abs_le. lia. }
  assert (Ly : (Z.abs y <= 2 ^ 50)%Z /\ Qabs (inject_Z y - exactly user data (snd (shifted o (mirrored m (flipped_over f v))))) < 3).
  { rewrite !exactly_ratio in *. set (r := ratio user data) in *. clearbody r.
    cbn [zpt fst snd] in W2. cbn [zpt fst snd] in *.
    assert (- inject_Z (2 ^ 50) <= inject_Z y /\ inject_Z y <= inject_Z (2 ^ 50) /\
            - (3) < inject_Z y - snd (shifted o (mirrored m (flipped_over f v))) * r /\
            inject_Z y - snd (shifted o (mirrored m (flipped_over f v))) * r < 3) as (P1 & P2 & P3 & P4).
    { change (inject_Z (2 ^ 50)) with 1125899906842624.
      rewrite <- W2. clear W1 W2. destruct f, m; unfold shifted, mirrored, flipped_over, zpt; cbn [fst snd]; repeat split; lra. }
    split; [|apply abs_lt; assumption]. rewrite <- inject_Z_opp, <- Zle_Qle in P1. rewrite <- Zle_Qle in P2. apply Z.abs_le. lia. }
  destruct Lx as [Zx Dx], Ly as [Zy Dy].
  pose proof (unit_back user data x Zx) as Ux. pose proof (unit_back user data y Zy) as Uy.
  apply abs_lt_inv in Dx, Dy, Ux, Uy. unfold off_by, to_unit_pt. cbn [fst snd]. split; apply abs_lt; lra.
Qed.

(** A pin made at [v] on a component placed at [off], possibly mirrored or flipped, is reported where it was put, up
    to less than four data units, and it is the first pin of its name that is reported.  Missing is equality, which
    is false. *)
Theorem C140_pin_location_partial :
  forall cosQ sinQ rnd user data b ps off m f n v loc,
    (forall q z, q == inject_Z z -> rnd q = z) ->
    Forall (fun q => reachable_pt user data (snd q)) ps -> reachable_pt user data off -> first_of ps n = Some v ->
    let cu := make_units user data in
    exists d t L, pins_made cu (Some (mkCDef b [])) ps = Ok (Some d) /\ create_transform cu 1 0 off m = Ok t /\
      component_pin_location cosQ sinQ rnd cu (Some (mkComp (Some d) t f)) n loc = Ok (true, L) /\
      off_by user data 4 (shifted off (mirrored m (flipped_over f v))) L.
Proof.
  intros cosQ sinQ rnd user data b ps off m f n v loc Hr Hp Ho Hn cu.
  destruct (made_first user data n ps (mkCDef b []) v Hp eq_refl Hn) as (d & c & Ed & Fd & Ec).
  destruct (pt_about user data off Ho) as (k & Ek & Ak).
  assert (Rv : reachable_pt user data v).
  { clear - Hp Hn. induction Hp as [|[k p] ps R _ IH]; [discriminate|]. cbn [first_of] in Hn. destruct (String.eqb k n); [|auto].
    injection Hn as <-. exact R. }
  destruct (pt_about user data v Rv) as (c' & Ec' & Ac). rewrite Ec in Ec'. injection Ec' as <-.
  destruct (whole_where f m c k) as (z & W).
  exists d, (mkT [mkTD 1 0 m (zpt k)] None), (to_unit_pt cu z).
  split; [exact Ed|]. split; [unfold create_transform, cu; rewrite Ek; reflexivity|]. split.
  - unfold component_pin_location, pin_location. cbn [c_def]. rewrite Fd. cbn [bind fst snd].
    destruct (placed_where cosQ sinQ (Some d) f m (zpt k) (zpt c)) as [P1 P2]. destruct W as [W1 W2].
    rewrite (Hr _ (fst z)), (Hr _ (snd z)).
    + reflexivity.
    + rewrite P2, W2. reflexivity.
    + rewrite P1, W1. reflexivity.
  - eapply where_sum; eauto.
Qed.
Print Assumptions C140_pin_location_partial.

(** A name without pin, or no component at all, is answered with false and the caller's point is left alone; making a
    pin without a definition does nothing. *)
Theorem C140_no_pin_untouched : forall cosQ sinQ rnd cu d t f n loc,
  ~ In n (map fst (cd_pins d)) ->
  component_pin_location cosQ sinQ rnd cu (Some (mkComp (Some d) t f)) n loc = Ok (false, loc) /\
  component_pin_location cosQ sinQ rnd cu None n loc = Ok (false, loc) /\
  (forall p, create_def_pin cu None n p = Ok (None, false)).
Proof.
  intros cosQ sinQ rnd cu d t f n loc H. split; [|split; reflexivity].
  unfold component_pin_location, pin_location. cbn [c_def].
  assert (E : find_pin (cd_pins d) n = None).
  { clear - H. induction (cd_pins d) as [|[m p] l IH]; [reflexivity|]. cbn [find_pin map fst In] in *.
    destruct (String.eqb_spec n m) as [->|]; [exfalso; apply H; left; reflexivity|]. apply IH. intros I. apply H. right. exact I. }
  rewrite E. reflexivity.
Qed.
Print Assumptions C140_no_pin_untouched.

Open Scope string_scope.
Definition C140_pins : list (string * (Q * Q)) := [("A", (1, 2)); ("B", (fl (4007 # 1000), -(1 # 2))); ("A", (9, 9))].
Definition C140_ask (off : Q * Q) (m : mirror2d) (f : bool) (n : string) : res (bool * (Q * Q)) :=
  d <- pins_made default_units (Some (mkCDef None [])) C140_pins ;;
  t <- create_transform default_units 1 0 off m ;;
  component_pin_location (fun _ => 1) (fun _ => 0) round_even default_units (Some (mkComp d t f)) n (0, 0).
Example C140_case :
  Forall (fun q => reachable_pt Micrometer Nanometer (snd q)) C140_pins /\ reachable_pt Micrometer Nanometer (10, 20) /\
  first_of C140_pins "A" = Some (1, 2) /\ (forall q z, q == inject_Z z -> round_even q = z) /\
  C140_ask (10, 20) MX true "A" = Ok (true, (9, 22)).
Proof.
  split; [repeat constructor; vm_compute; discriminate|]. split; [split; vm_compute; discriminate|].
  split; [reflexivity|]. split; [intros; apply round_even_int; assumption|]. vm_compute. reflexivity.
Qed.

(** Finding: the location reported is not the location given: with metres as user unit a pin made at 31e-9 on a
    component placed at the origin is reported nine tenths of a nanometre and more away. *)
Theorem C140_exact_refuted : exists v d t L, v = fl (31 # 1000000000) /\
  pins_made (make_units Meter Nanometer) (Some (mkCDef None [])) [("A", (v, 0))] = Ok (Some d) /\
  create_transform (make_units Meter Nanometer) 1 0 (0, 0) MNo = Ok t /\
  component_pin_location (fun _ => 1) (fun _ => 0) round_even (make_units Meter Nanometer) (Some (mkComp (Some d) t false)) "A" (0, 0)
    = Ok (true, L) /\ 9 # 10000000000 < v - fst L.
Proof.
  eexists; exists (mkCDef None [("A", (30, 0))]), (mkT [mkTD 1 0 MNo (0, 0)] None); eexists.
  split; [reflexivity|]. split; [vm_compute; reflexivity|]. split; [vm_compute; reflexivity|].
  split; [vm_compute; reflexivity|]. vm_compute. reflexivity.
Qed.
Print Assumptions C140_exact_refuted.
