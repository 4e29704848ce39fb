(** C179, C180: the geometry of prisms and the conduction through their sides. *)
From Coq Require Import Reals Lra Lia.
From Verif Require Import PrismGeom_Model PrismGeom_Spec.
Open Scope R_scope.

Section Geometry.
  Context (scale : R) (Hs : 0 < scale).

  Lemma corner_flat t i : flat (vertex t i) = corner t i.
  Proof. destruct i as [|[|i]]; reflexivity. Qed.
  Lemma next_following i : next i = following i.
  Proof. destruct i as [|[|i]]; reflexivity. Qed.
  Lemma dist_nonneg a b : 0 <= dist_sq a b.
  Proof. unfold dist_sq; pose proof (Rle_0_sqr (fst b - fst a)) as H1; pose proof (Rle_0_sqr (snd b - snd a)) as H2; unfold Rsqr in *; lra. Qed.

  Lemma turn_center t ie : (ie < 3)%nat ->
    turn (corner t ie) (corner t (following ie)) (center t) = signed t / 3.
  Proof. intros H; destruct ie as [|[|[|ie]]]; try lia; unfold turn, signed, turn, center; cbn; field. Qed.
  Lemma turn_third t ie : (ie < 3)%nat ->
    turn (corner t ie) (corner t (following ie)) (corner t (following (following ie))) = signed t.
  Proof. intros H; destruct ie as [|[|[|ie]]]; try lia; unfold turn, signed, turn; cbn; ring. Qed.

  (** a proper triangle has proper sides *)
  Lemma side_pos t ie : (ie < 3)%nat -> ~ collinear t -> 0 < dist_sq (corner t ie) (corner t (following ie)).
  Proof.
    intros Hi Hc; destruct (Rle_lt_or_eq_dec _ _ (dist_nonneg (corner t ie) (corner t (following ie)))) as [H|H]; [exact H|exfalso].
    apply Hc; unfold collinear; rewrite <- (turn_third t ie Hi); unfold turn; unfold dist_sq in H; symmetry in H.
    apply Rplus_sqr_eq_0 in H as [H1 H2]; rewrite H1, H2; ring.
  Qed.
  Lemma line_dist t ie c : (ie < 3)%nat -> ~ collinear t ->
    sqrt (line_dist_sq c (corner t ie) (corner t (following ie))) =
    Rabs (turn (corner t ie) (corner t (following ie)) c) / sqrt (dist_sq (corner t ie) (corner t (following ie))).
  Proof.
    intros Hi Hc; pose proof (side_pos t ie Hi Hc) as Hp; unfold line_dist_sq.
    fold (turn (corner t ie) (corner t (following ie)) c); set (x := turn _ _ _); rewrite sqrt_div_alt by exact Hp.
    f_equal; apply sqrt_Rsqr_abs.
  Qed.

  Lemma center_side t ie : (ie < 3)%nat -> ~ collinear t ->
    center_to_side scale t ie = Rabs (signed t) / 3 / sqrt (dist_sq (corner t ie) (corner t (following ie))) * scale.
  Proof.
    intros Hi Hc; unfold center_to_side; rewrite next_following, !corner_flat, (line_dist t ie _ Hi Hc), (turn_center t ie Hi).
    unfold Rdiv; rewrite Rabs_mult, (Rabs_pos_eq (/ 3)) by lra; reflexivity.
  Qed.

  Lemma edge_sqrt t ie : edge_length scale t ie = sqrt (dist_sq (corner t ie) (corner t (following ie))) * scale.
  Proof. destruct ie as [|[|ie]]; reflexivity. Qed.

  (** ** C179: the area of the horizontal faces of a level prism is that of the triangle in square metres; it vanishes only for
      corners on a line. *)
  Theorem C179_top_area : forall t, level t -> top_area scale t = Rabs (signed t) / 2 * (scale * scale) /\ (0 < top_area scale t <-> ~ collinear t).
  Proof.
    intros t [H1 H2].
    assert (E : top_area scale t = Rabs (signed t) / 2 * (scale * scale)).
    { unfold top_area; rewrite H1, H2; f_equal; f_equal; rewrite <- sqrt_Rsqr_abs; f_equal; unfold Rsqr, signed, turn; cbn; ring. }
    split; [exact E|]; rewrite E; unfold collinear; split.
    - intros H E0; rewrite E0, Rabs_R0 in H; lra.
    - intros H; apply Rabs_pos_lt in H; pose proof (Rmult_lt_0_compat _ _ Hs Hs); apply Rmult_lt_0_compat; lra.
  Qed.

  (** From the centre every side is as far as makes a third of the area: the three parts between the centre and the sides add
      up to the face. *)
  Theorem C179_center_to_side : forall t ie, level t -> ~ collinear t -> (ie < 3)%nat ->
    0 < center_to_side scale t ie /\ 0 < edge_length scale t ie /\
    center_to_side scale t ie * edge_length scale t ie / 2 = top_area scale t / 3.
  Proof.
    intros t ie Hl Hc Hi; destruct (C179_top_area t Hl) as [E _]; rewrite E, (center_side t ie Hi Hc).
    rewrite edge_sqrt.
    pose proof (sqrt_lt_R0 _ (side_pos t ie Hi Hc)) as Hq; set (q := sqrt (dist_sq (corner t ie) (corner t (following ie)))) in *.
    assert (Ha : 0 < Rabs (signed t)) by (apply Rabs_pos_lt; exact Hc).
    split; [|split].
    - apply Rmult_lt_0_compat; [|exact Hs]; apply Rdiv_lt_0_compat; lra.
    - apply Rmult_lt_0_compat; auto.
    - field; lra.
  Qed.

  (** Volume and side areas do not depend on which of two prisms sharing a side is asked, and a prism cut in two has the volume
      of its parts. *)
  Theorem C179_shared_side : forall thickness t ie u je, adjacent t ie u je -> side_area scale thickness t ie = side_area scale thickness u je.
  Proof.
    intros thickness t ie u je (_ & _ & E1 & E2 & _); unfold side_area; rewrite !edge_sqrt, E1, E2.
    assert (D : forall a b, dist_sq a b = dist_sq b a) by (intros; unfold dist_sq; ring); rewrite D; reflexivity.
  Qed.
  Theorem C179_volume_of_parts : forall thickness a b c w, 0 <= w <= 1 ->
    level (mkT a b c) ->
    let m := mkP (px b + w * (px c - px b)) (py b + w * (py c - py b)) (pz b + w * (pz c - pz b)) in
    volume scale thickness (mkT a b m) + volume scale thickness (mkT a m c) = volume scale thickness (mkT a b c).
  Proof.
    intros thickness a b c w Hw [H1 H2] m; cbn in H1, H2.
    assert (L1 : level (mkT a b m)) by (split; cbn; rewrite ?H1, ?H2; ring).
    assert (L2 : level (mkT a m c)) by (split; cbn; rewrite ?H1, ?H2; ring).
    assert (L0 : level (mkT a b c)) by (split; auto).
    unfold volume; rewrite (proj1 (C179_top_area _ L1)), (proj1 (C179_top_area _ L2)), (proj1 (C179_top_area _ L0)).
    assert (E1 : signed (mkT a b m) = w * signed (mkT a b c)) by (unfold signed, turn, m; cbn; ring).
    assert (E2 : signed (mkT a m c) = (1 - w) * signed (mkT a b c)) by (unfold signed, turn, m; cbn; ring).
    rewrite E1, E2, !Rabs_mult, (Rabs_pos_eq w), (Rabs_pos_eq (1 - w)) by lra; field.
  Qed.

  (** ** C180: centres are never nearer than the two ways to the common side *)
  Lemma cauchy ex ey wx wy : Rabs (ex * wy - ey * wx) <= sqrt (ex * ex + ey * ey) * sqrt (wx * wx + wy * wy).
  Proof.
    assert (N : forall a b, 0 <= a * a + b * b) by (intros a b; pose proof (Rle_0_sqr a); pose proof (Rle_0_sqr b); unfold Rsqr in *; lra).
    rewrite <- sqrt_mult by apply N; rewrite <- sqrt_Rsqr_abs; apply sqrt_le_1.
    - apply Rle_0_sqr.
    - apply Rmult_le_pos; apply N.
    - pose proof (Rle_0_sqr (ex * wx + ey * wy)); unfold Rsqr in *; lra.
  Qed.
  Lemma opposite_abs x y : x * y < 0 -> Rabs (y - x) = Rabs x + Rabs y.
  Proof.
    intros H; unfold Rabs; destruct (Rcase_abs x), (Rcase_abs y), (Rcase_abs (y - x)); try lra; exfalso; nra.
  Qed.

  Lemma adjacent_proper t ie u je : adjacent t ie u je -> ~ collinear t /\ ~ collinear u.
  Proof.
    intros (Hi & Hj & E1 & E2 & H); rewrite (turn_third t ie Hi), E1, E2 in H.
    assert (T : turn (corner u (following je)) (corner u je) (corner u (following (following je))) = - signed u)
      by (rewrite <- (turn_third u je Hj); unfold turn; ring).
    rewrite T in H; unfold collinear; split; intros E; rewrite E in H; lra.
  Qed.
  Lemma turn_linear a b c c' : turn a b c' - turn a b c = (fst b - fst a) * (snd c' - snd c) - (snd b - snd a) * (fst c' - fst c).
  Proof. unfold turn; ring. Qed.

  Lemma far_apart t ie u je : adjacent t ie u je ->
    center_to_side scale t ie + center_to_side scale u je <= sqrt (dist_sq (center t) (center u)) * scale /\
    (straight t ie u -> center_to_side scale t ie + center_to_side scale u je = sqrt (dist_sq (center t) (center u)) * scale).
  Proof.
    intros H; destruct (adjacent_proper t ie u je H) as [Ct Cu]; destruct H as (Hi & Hj & E1 & E2 & Ho).
    rewrite (turn_third t ie Hi) in Ho; rewrite E1, E2 in Ho.
    assert (T : turn (corner u (following je)) (corner u je) (corner u (following (following je))) = - signed u)
      by (rewrite <- (turn_third u je Hj); unfold turn; ring).
    rewrite T in Ho.
    rewrite (center_side t ie Hi Ct), (center_side u je Hj Cu).
    assert (D : dist_sq (corner u je) (corner u (following je)) = dist_sq (corner t ie) (corner t (following ie)))
      by (rewrite E1, E2; unfold dist_sq; ring); rewrite D.
    pose proof (side_pos t ie Hi Ct) as Hp; pose proof (sqrt_lt_R0 _ Hp) as Hq.
    set (a := corner t ie) in *; set (b := corner t (following ie)) in *.
    assert (Tt : turn a b (center t) = signed t / 3) by (apply turn_center; exact Hi).
    assert (Tu : turn a b (center u) = - (signed u / 3)).
    { rewrite <- (turn_center u je Hj), E1, E2; unfold turn; ring. }
    assert (O : Rabs (turn a b (center u) - turn a b (center t)) = Rabs (signed t) / 3 + Rabs (signed u) / 3).
    { rewrite opposite_abs; [|rewrite Tt, Tu; lra]; rewrite Tt, Tu, Rabs_Ropp; unfold Rdiv; rewrite !Rabs_mult, (Rabs_pos_eq (/ 3)) by lra; reflexivity. }
    rewrite turn_linear in O.
    set (q := sqrt (dist_sq a b)) in *; set (D' := sqrt (dist_sq (center t) (center u))).
    assert (S : (Rabs (signed t) / 3 / q * scale + Rabs (signed u) / 3 / q * scale = (Rabs (signed t) / 3 + Rabs (signed u) / 3) / q * scale)) by (field; lra).
    rewrite S, <- O; split.
    - apply Rmult_le_compat_r; [lra|]; apply (Rmult_le_reg_r q); [exact Hq|].
      unfold Rdiv; rewrite Rmult_assoc, Rinv_l, Rmult_1_r, (Rmult_comm D' q) by lra.
      exact (cauchy (fst b - fst a) (snd b - snd a) (fst (center u) - fst (center t)) (snd (center u) - snd (center t))).
    - intros Hst; unfold straight in Hst; fold a b in Hst.
      f_equal; apply (Rmult_eq_reg_r q); [|lra]; unfold Rdiv; rewrite Rmult_assoc, Rinv_l, Rmult_1_r by lra.
      unfold D', q; rewrite <- sqrt_mult by apply dist_nonneg; rewrite <- sqrt_Rsqr_abs; f_equal; unfold Rsqr, dist_sq.
      set (ex := fst b - fst a) in *; set (ey := snd b - snd a) in *.
      set (wx := fst (center u) - fst (center t)) in *; set (wy := snd (center u) - snd (center t)) in *.
      assert (Z : (ex * wx + ey * wy) * (ex * wx + ey * wy) = 0) by (rewrite Hst; ring).
      transitivity ((ex * wy - ey * wx) * (ex * wy - ey * wx) + (ex * wx + ey * wy) * (ex * wx + ey * wy)); [rewrite Z; ring|ring].
  Qed.

  (** The resistance between adjacent prisms is positive and at least that of the two ways from the centres to the common side;
      it is exactly that where the way between the centres crosses the side at a right angle. *)
  Theorem C180_resistance : forall thickness t ie k u je ku, 0 < thickness -> 0 < k -> 0 < ku -> adjacent t ie u je ->
    let ways := (center_to_side scale t ie / k + center_to_side scale u je / ku) / side_area scale thickness t ie in
    0 < ways /\ ways <= side_resistance scale thickness t ie k u ku /\
    (straight t ie u -> side_resistance scale thickness t ie k u ku = ways).
  Proof.
    intros thickness t ie k u je ku Ht Hk Hku Ha ways.
    destruct (adjacent_proper t ie u je Ha) as [Ct Cu]; destruct (far_apart t ie u je Ha) as [F1 F2]; destruct Ha as (Hi & Hj & _).
    assert (P : forall x i, (i < 3)%nat -> ~ collinear x -> 0 < center_to_side scale x i).
    { intros x i Hx Hc; rewrite (center_side x i Hx Hc); apply Rmult_lt_0_compat; [|exact Hs].
      apply Rdiv_lt_0_compat; [apply Rabs_pos_lt in Hc; lra|apply sqrt_lt_R0, side_pos; auto]. }
    pose proof (P t ie Hi Ct) as Pt; pose proof (P u je Hj Cu) as Pu.
    assert (A : 0 < side_area scale thickness t ie).
    { unfold side_area, height; rewrite edge_sqrt; repeat apply Rmult_lt_0_compat; auto; apply sqrt_lt_R0, side_pos; auto. }
    set (A' := side_area scale thickness t ie) in *; set (dt := center_to_side scale t ie) in *; set (du := center_to_side scale u je) in *.
    set (D := sqrt (dist_sq (center t) (center u)) * scale) in *.
    assert (E : forall x, dt / k / A' + x / ku / A' = (dt / k + x / ku) / A') by (intros; field; lra).
    assert (R : side_resistance scale thickness t ie k u ku = (dt / k + (D - dt) / ku) / A') by apply E.
    rewrite R; unfold ways; split; [|split].
    - apply Rdiv_lt_0_compat; [|exact A]; apply Rplus_lt_0_compat; apply Rdiv_lt_0_compat; auto.
    - unfold Rdiv; apply Rmult_le_compat_r; [left; apply Rinv_0_lt_compat; exact A|]; apply Rplus_le_compat_l, Rmult_le_compat_r; [left; apply Rinv_0_lt_compat; exact Hku|lra].
    - intros S; rewrite <- (F2 S); f_equal; f_equal; f_equal; lra.
  Qed.

  (** Between prisms of one material it is the same from either prism. *)
  Theorem C180_same_material : forall thickness t ie k u je, adjacent t ie u je ->
    side_resistance scale thickness t ie k u k = side_resistance scale thickness u je k t k.
  Proof.
    intros thickness t ie k u je Ha; unfold side_resistance; rewrite <- (C179_shared_side thickness t ie u je Ha).
    assert (D : dist_sq (center t) (center u) = dist_sq (center u) (center t)) by (unfold dist_sq; ring); rewrite D.
    unfold Rdiv; ring.
  Qed.
  (** In whatever position: the squared area by Lagrange's identity. *)
  Theorem C179_area_in_space : forall t,
    let dot a b := (px a - px (v0 t)) * (px b - px (v0 t)) + (py a - py (v0 t)) * (py b - py (v0 t)) + (pz a - pz (v0 t)) * (pz b - pz (v0 t)) in
    0 <= top_area scale t /\
    4 * (top_area scale t * top_area scale t) =
      (dot (v1 t) (v1 t) * dot (v2 t) (v2 t) - dot (v1 t) (v2 t) * dot (v1 t) (v2 t)) * (scale * scale) * (scale * scale).
  Proof.
    intros t dot; unfold top_area; cbv zeta.
    match goal with |- context [sqrt ?x] => set (r := x) end.
    assert (Hr : 0 <= r).
    { unfold r; pose proof (Rle_0_sqr) as S; unfold Rsqr in S; repeat apply Rplus_le_le_0_compat; apply S. }
    pose proof (sqrt_sqrt r Hr) as E; pose proof (sqrt_pos r) as P; pose proof (Rmult_lt_0_compat _ _ Hs Hs) as H2; split.
    - apply Rmult_le_pos; lra.
    - transitivity (sqrt r * sqrt r * (scale * scale) * (scale * scale)); [field|rewrite E; unfold r, dot; ring].
  Qed.
  (** The sides and the volume of an upright prism. *)
  Theorem C179_side_area : forall thickness t ie, 0 < thickness -> (ie < 3)%nat ->
    let a := corner t ie in let b := corner t (following ie) in
    0 <= side_area scale thickness t ie /\
    side_area scale thickness t ie * side_area scale thickness t ie =
      (thickness * scale) * (thickness * scale) * ((fst b - fst a) * (fst b - fst a) + (snd b - snd a) * (snd b - snd a)) * (scale * scale).
  Proof.
    intros thickness t ie Ht Hi a b; unfold side_area, height; rewrite edge_sqrt; fold a b.
    assert (Hd : 0 <= dist_sq a b) by (unfold dist_sq; pose proof (Rle_0_sqr) as S; unfold Rsqr in S; apply Rplus_le_le_0_compat; apply S).
    pose proof (sqrt_sqrt _ Hd) as E; pose proof (sqrt_pos (dist_sq a b)) as P; split.
    - apply Rmult_le_pos; apply Rmult_le_pos; lra.
    - transitivity ((thickness * scale) * (thickness * scale) * (sqrt (dist_sq a b) * sqrt (dist_sq a b)) * (scale * scale)); [ring|].
      rewrite E; unfold dist_sq; ring.
  Qed.
  Theorem C179_volume : forall thickness t, level t -> volume scale thickness t = Rabs (signed t) / 2 * thickness * (scale * scale * scale).
  Proof. intros thickness t Hl; unfold volume, height; rewrite (proj1 (C179_top_area t Hl)); field. Qed.
End Geometry.
Print Assumptions C179_top_area.
Print Assumptions C179_area_in_space.
Print Assumptions C179_side_area.
Print Assumptions C179_volume.
Print Assumptions C179_center_to_side.
Print Assumptions C179_shared_side.
Print Assumptions C179_volume_of_parts.
Print Assumptions C180_resistance.
Print Assumptions C180_same_material.

(** ** Two prisms whose centres are 3 and 5 from the common side and 10 apart *)
Definition left_prism : tri := mkT (mkP 0 0 1) (mkP 0 6 1) (mkP (-9) 0 1).
Definition right_prism : tri := mkT (mkP 0 6 1) (mkP 0 0 1) (mkP 15 18 1).
Example prisms_adjacent : adjacent left_prism 0 right_prism 0 /\ adjacent right_prism 0 left_prism 0 /\ level left_prism /\ ~ collinear left_prism.
Proof.
  unfold adjacent, level, collinear, signed, turn; cbn; repeat split; try lia; try (f_equal; lra); lra.
Qed.
Lemma left_distance : center_to_side 1 left_prism 0 = 3 /\ center_to_side 1 right_prism 0 = 5 /\ edge_length 1 left_prism 0 = 6 /\ edge_length 1 right_prism 0 = 6 /\
  sqrt (dist_sq (center left_prism) (center right_prism)) = 10 /\ sqrt (dist_sq (center right_prism) (center left_prism)) = 10.
Proof.
  assert (Q : forall x r, 0 <= r -> x = r * r -> sqrt x = r) by (intros x r Hr ->; apply sqrt_square; exact Hr).
  unfold center_to_side, edge_length, line_dist_sq, dist_sq, center; cbn.
  repeat split; rewrite ?Rmult_1_r; apply Q; try lra; field.
Qed.
Example C179_example : center_to_side 1 left_prism 0 * edge_length 1 left_prism 0 / 2 = 9 /\ top_area 1 left_prism = 27.
Proof.
  destruct left_distance as (E1 & _ & E3 & _); rewrite E1, E3; split; [lra|].
  rewrite (proj1 (C179_top_area 1 Rlt_0_1 left_prism ltac:(split; reflexivity))); unfold signed, turn; cbn.
  unfold Rabs; destruct (Rcase_abs _); lra.
Qed.

Example C179_space_example : 4 * (top_area 1 (mkT (mkP 0 0 0) (mkP 1 0 1) (mkP 0 2 1)) * top_area 1 (mkT (mkP 0 0 0) (mkP 1 0 1) (mkP 0 2 1))) = 9.
Proof. rewrite (proj2 (C179_area_in_space 1 Rlt_0_1 _)); cbn; ring. Qed.
Example C179_prism_example : volume 1 2 left_prism = 54 /\ side_area 1 2 left_prism 0 * side_area 1 2 left_prism 0 = 144.
Proof.
  split.
  - rewrite (C179_volume 1 Rlt_0_1 2 left_prism ltac:(split; reflexivity)); unfold signed, turn; cbn; unfold Rabs; destruct (Rcase_abs _); lra.
  - rewrite (proj2 (C179_side_area 1 Rlt_0_1 2 left_prism 0 ltac:(lra) ltac:(lia))); cbn; ring.
Qed.

(** mirrored prisms: the way between the centres is straight, and the two halves of it are 3 long *)
Definition mirror_a : tri := mkT (mkP 0 0 0) (mkP 0 6 0) (mkP (-9) 3 0).
Definition mirror_b : tri := mkT (mkP 0 6 0) (mkP 0 0 0) (mkP 9 3 0).
Example C180_example : adjacent mirror_a 0 mirror_b 0 /\ straight mirror_a 0 mirror_b /\ center_to_side 1 mirror_a 0 = 3 /\
  side_resistance 1 1 mirror_a 0 2 mirror_b 3 = (3 / 2 + 3 / 3) / 6.
Proof.
  assert (Q : forall x r, 0 <= r -> x = r * r -> sqrt x = r) by (intros x r Hr ->; apply sqrt_square; exact Hr).
  assert (A : adjacent mirror_a 0 mirror_b 0) by (unfold adjacent, turn; cbn; repeat split; try lia; try (f_equal; lra); lra).
  assert (S : straight mirror_a 0 mirror_b) by (unfold straight, center; cbn; field).
  assert (E : center_to_side 1 mirror_a 0 = 3 /\ center_to_side 1 mirror_b 0 = 3 /\ edge_length 1 mirror_a 0 = 6).
  { unfold center_to_side, edge_length, line_dist_sq, dist_sq, center; cbn; repeat split; rewrite ?Rmult_1_r; apply Q; try lra; field. }
  destruct E as (E1 & E2 & E3); split; [exact A|split; [exact S|split; [exact E1|]]].
  destruct (C180_resistance 1 Rlt_0_1 1 mirror_a 0 2 mirror_b 0 3 ltac:(lra) ltac:(lra) ltac:(lra) A) as (_ & _ & H); rewrite (H S).
  unfold side_area, height; rewrite E1, E2, E3; field.
Qed.

(** Between prisms of different materials the resistance depends on which of them comes first in the model: the part of the way
    that leads along the side is always counted in the material of the second. *)
Theorem C180_order_refuted : exists thickness t ie k u je ku, 0 < thickness /\ 0 < k /\ 0 < ku /\ adjacent t ie u je /\ adjacent u je t ie /\
  side_resistance 1 thickness t ie k u ku <> side_resistance 1 thickness u je ku t k.
Proof.
  exists 1, left_prism, 0%nat, 1, right_prism, 0%nat, 2.
  destruct prisms_adjacent as (A1 & A2 & _); destruct left_distance as (E1 & E2 & E3 & E4 & E5 & E6).
  split; [lra|split; [lra|split; [lra|split; [exact A1|split; [exact A2|]]]]].
  unfold side_resistance, side_area, height; rewrite E1, E2, E3, E4, E5, E6; lra.
Qed.
Print Assumptions C180_order_refuted.
