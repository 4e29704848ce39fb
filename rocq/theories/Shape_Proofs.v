From Verif Require Import Base QSum.
From Verif Require Import Transform_Model Transform_Spec Transform_Proofs Shape_Model Shape_Spec.
Local Open Scope Q_scope.

Ltac mm := repeat match goal with
  | |- context [Qmin ?a ?b] => destruct (Q.min_spec a b) as [[? ?]|[? ?]]
  | |- context [Qmax ?a ?b] => destruct (Q.max_spec a b) as [[? ?]|[? ?]]
  end.

Lemma union_l a b p : in_box p a -> in_box p (box_union a b).
Proof.
  intros [[H1 H2] [H3 H4]]. unfold in_box, box_union. cbn [fst snd].
  pose proof (Q.le_min_l (fst (fst a)) (fst (fst b))). pose proof (Q.le_min_l (snd (fst a)) (snd (fst b))).
  pose proof (Q.le_max_l (fst (snd a)) (fst (snd b))). pose proof (Q.le_max_l (snd (snd a)) (snd (snd b))).
  repeat split; lra.
Qed.
Lemma union_r a b p : in_box p b -> in_box p (box_union a b).
Proof.
  intros [[H1 H2] [H3 H4]]. unfold in_box, box_union. cbn [fst snd].
  pose proof (Q.le_min_r (fst (fst a)) (fst (fst b))). pose proof (Q.le_min_r (snd (fst a)) (snd (fst b))).
  pose proof (Q.le_max_r (fst (snd a)) (fst (snd b))). pose proof (Q.le_max_r (snd (snd a)) (snd (snd b))).
  repeat split; lra.
Qed.

Lemma least_union ps qs a b : least_box ps a -> least_box qs b -> least_box (ps ++ qs) (box_union a b).
Proof.
  intros (A0 & A1 & A2 & A3 & A4) (B0 & B1 & B2 & B3 & B4). split; [|unfold box_union; cbn [fst snd]; repeat split].
  - intros p Hp. apply in_app_or in Hp as [Hp|Hp]; [apply union_l|apply union_r]; auto.
  - destruct A1 as (p & Hp & Ep), B1 as (q & Hq & Eq). destruct (Q.min_spec (fst (fst a)) (fst (fst b))) as [[_ E]|[_ E]];
      [exists p|exists q]; (split; [apply in_or_app; auto|rewrite E; assumption]).
  - destruct A2 as (p & Hp & Ep), B2 as (q & Hq & Eq). destruct (Q.min_spec (snd (fst a)) (snd (fst b))) as [[_ E]|[_ E]];
      [exists p|exists q]; (split; [apply in_or_app; auto|rewrite E; assumption]).
  - destruct A3 as (p & Hp & Ep), B3 as (q & Hq & Eq). destruct (Q.max_spec (fst (snd a)) (fst (snd b))) as [[_ E]|[_ E]];
      [exists q|exists p]; (split; [apply in_or_app; auto|rewrite E; assumption]).
  - destruct A4 as (p & Hp & Ep), B4 as (q & Hq & Eq). destruct (Q.max_spec (snd (snd a)) (snd (snd b))) as [[_ E]|[_ E]];
      [exists q|exists p]; (split; [apply in_or_app; auto|rewrite E; assumption]).
Qed.

Lemma least_one p : least_box [p] (p, p).
Proof.
  split; [intros q [<-|[]]; split; cbn [fst snd]; split; apply Qle_refl|].
  cbn [fst snd]. repeat split; exists p; (split; [left; reflexivity|reflexivity]).
Qed.

Lemma extent1_least p ps : least_box (p :: ps) (extent1 p ps).
Proof.
  unfold extent1.
  assert (G : forall ps qs b, least_box qs b -> least_box (qs ++ ps) (fold_left (fun b q => box_union b (q, q)) ps b)).
  { clear. induction ps as [|p ps IH]; intros qs b H; cbn [fold_left]; [rewrite app_nil_r; exact H|].
    replace (qs ++ p :: ps) with ((qs ++ [p]) ++ ps) by (rewrite <- app_assoc; reflexivity).
    apply IH, least_union; [exact H|apply least_one]. }
  exact (G ps [p] (p, p) (least_one p)).
Qed.
Lemma extent_least ps b : extent ps = Some b -> least_box ps b.
Proof. destruct ps as [|p ps]; [discriminate|]. intros [= <-]. apply extent1_least. Qed.
Lemma extent_some ps : ps <> [] -> exists b, extent ps = Some b.
Proof. destruct ps; [congruence|]. intros _. eexists. reflexivity. Qed.

Lemma corners_in b p : fst (fst b) <= fst (snd b) -> snd (fst b) <= snd (snd b) -> In p (corners b) -> in_box p b.
Proof.
  intros Hx Hy Hp. unfold corners in Hp. unfold in_box.
  destruct Hp as [<-|[<-|[<-|[<-|[]]]]]; cbn [fst snd]; repeat split; try apply Qle_refl; assumption.
Qed.
Lemma corners_least b : fst (fst b) <= fst (snd b) -> snd (fst b) <= snd (snd b) -> least_box (corners b) b.
Proof.
  intros Hx Hy. split; [intros p; apply corners_in; assumption|].
  unfold corners. repeat split.
  - exists (fst b). split; [left; reflexivity|reflexivity].
  - exists (fst b). split; [left; reflexivity|reflexivity].
  - exists (snd b). split; [do 2 right; left; reflexivity|reflexivity].
  - exists (snd b). split; [do 2 right; left; reflexivity|reflexivity].
Qed.

Lemma lin_up a x l u : l <= x <= u -> a * x <= a * l \/ a * x <= a * u.
Proof. intros [H1 H2]. destruct (Qlt_le_dec a 0); [left|right]; nra. Qed.
Lemma lin_dn a x l u : l <= x <= u -> a * l <= a * x \/ a * u <= a * x.
Proof. intros [H1 H2]. destruct (Qlt_le_dec a 0); [right|left]; nra. Qed.

Lemma corner_up a c b p : in_box p b -> exists k, In k (corners b) /\ a * fst p + c * snd p <= a * fst k + c * snd k.
Proof.
  intros [Hx Hy]. destruct (lin_up a _ _ _ Hx) as [G|G], (lin_up c _ _ _ Hy) as [F|F].
  - exists (fst b). split; [left; reflexivity|lra].
  - exists (fst (fst b), snd (snd b)). split; [do 3 right; left; reflexivity|cbn [fst snd]; lra].
  - exists (fst (snd b), snd (fst b)). split; [right; left; reflexivity|cbn [fst snd]; lra].
  - exists (snd b). split; [do 2 right; left; reflexivity|lra].
Qed.
Lemma corner_dn a c b p : in_box p b -> exists k, In k (corners b) /\ a * fst k + c * snd k <= a * fst p + c * snd p.
Proof.
  intros H. destruct (corner_up (-a) (-c) b p H) as (k & Hk & L). exists k. split; [exact Hk|lra].
Qed.

Section P.
  Context (cosQ sinQ rnd : Q -> Q).
  Context (stroke : list pt -> Q -> list pt) (inscribed : pt -> Q -> nat -> list pt).
  Notation pmap := (pmap rnd).
  Notation turn_box := (turn_box rnd).
  Notation move := (move cosQ sinQ rnd).
  Notation contour := (contour cosQ sinQ rnd stroke inscribed).
  Notation bbox := (bbox cosQ sinQ rnd stroke).
  Notation get := (get_transform cosQ sinQ).

  Lemma turn_box_least m b : least_box (map (pmap m) (corners b)) (turn_box m b).
  Proof.
    pose proof (extent1_least (pmap m (fst b)) (map (pmap m) (corners b))) as (G0 & G1).
    split; [intros p Hp; apply G0; right; exact Hp|].
    assert (E : forall P : pt -> Prop, (exists p, In p (pmap m (fst b) :: map (pmap m) (corners b)) /\ P p) ->
       exists p, In p (map (pmap m) (corners b)) /\ P p).
    { intros P (p & [<-|Hp] & HP); [|exists p; auto]. exists (pmap m (fst b)). split; [left; reflexivity|exact HP]. }
    destruct G1 as (G1 & G2 & G3 & G4). repeat split; apply E; assumption.
  Qed.

  Lemma turn_box_in (Hm : monotone rnd) m b p : in_box p b -> in_box (pmap m p) (turn_box m b).
  Proof.
    intros H. destruct (turn_box_least m b) as (G & _).
    assert (C : forall k, In k (corners b) -> in_box (pmap m k) (turn_box m b)).
    { intros k Hk. apply G, in_map, Hk. }
    unfold Shape_Model.pmap, aff_apply in *. cbn [fst snd] in *.
    destruct (corner_up (a11 m) (a12 m) b p H) as (k1 & K1 & L1), (corner_dn (a11 m) (a12 m) b p H) as (k2 & K2 & L2),
      (corner_up (a21 m) (a22 m) b p H) as (k3 & K3 & L3), (corner_dn (a21 m) (a22 m) b p H) as (k4 & K4 & L4).
    apply C in K1, K2, K3, K4. unfold in_box in *. cbn [fst snd] in *.
    repeat split.
    - eapply Qle_trans; [apply K2|apply Hm; lra].
    - eapply Qle_trans; [apply Hm|apply K1]; lra.
    - eapply Qle_trans; [apply K4|apply Hm; lra].
    - eapply Qle_trans; [apply Hm|apply K3]; lra.
  Qed.

  Lemma rnd_eq (Hm : monotone rnd) x y : x == y -> rnd x == rnd y.
  Proof. intros H. apply Qle_antisym; apply Hm; rewrite H; apply Qle_refl. Qed.

  (** ** Right angles *)
  Definition axis (m : aff) : Prop := (a12 m == 0 /\ a21 m == 0) \/ (a11 m == 0 /\ a22 m == 0).
  Lemma axis_id : axis aff_id.
  Proof. left; split; reflexivity. Qed.
  Lemma axis_mul m n : axis m -> axis n -> axis (aff_mul m n).
  Proof.
    unfold axis, aff_mul; cbn [a11 a12 a21 a22].
    intros [[A B]|[A B]] [[C D]|[C D]]; [left|right|right|left]; split; rewrite ?A, ?B, ?C, ?D; ring.
  Qed.
  Lemma axis_item d : (cosQ (td_rot d) == 0 \/ sinQ (td_rot d) == 0) -> axis (td_transform cosQ sinQ d).
  Proof.
    intros H. unfold td_transform.
    assert (S : axis (mk_scale (td_scale d))) by (left; split; reflexivity).
    assert (M : axis (mk_mirror (td_mirror d))) by (destruct (td_mirror d); left; split; reflexivity).
    assert (O : axis (mk_shift (td_off d))) by (left; split; reflexivity).
    assert (R : axis (mk_rotate cosQ sinQ (td_rot d))).
    { unfold mk_rotate, axis. cbn [a11 a12 a21 a22]. destruct H as [H|H]; [right|left]; split; rewrite ?H; try reflexivity; ring. }
    pose proof axis_id as I.
    destruct (is_scaled d), (is_rotated d), (is_mirrored d), (is_offsetted d); repeat (first [assumption|apply axis_mul]).
  Qed.
  Lemma axis_seq l : (forall d, In d l -> (cosQ (td_rot d) == 0 \/ sinQ (td_rot d) == 0)) -> axis (seq_transform cosQ sinQ l).
  Proof.
    unfold seq_transform. generalize axis_id. generalize aff_id.
    induction l as [|d l IH]; intros m Hm H; cbn [fold_left]; [exact Hm|].
    apply IH; [|intros; apply H; right; assumption].
    destruct (is_transformed d); [|exact Hm]. apply axis_mul; [|exact Hm]. apply axis_item, H. left; reflexivity.
  Qed.
  Lemma aff_ext m n : (forall p, peq (aff_apply m p) (aff_apply n p)) ->
    a11 m == a11 n /\ a12 m == a12 n /\ a13 m == a13 n /\ a21 m == a21 n /\ a22 m == a22 n /\ a23 m == a23 n.
  Proof.
    intros H. destruct (H (0, 0)) as [A B], (H (1, 0)) as [C D], (H (0, 1)) as [E F].
    unfold aff_apply in *. cbn [fst snd] in *. repeat split; lra.
  Qed.
  Lemma axis_ext m n : (forall p, peq (aff_apply m p) (aff_apply n p)) -> axis n -> axis m.
  Proof.
    intros H [[A B]|[A B]]; destruct (aff_ext m n H) as (E1 & E2 & _ & E4 & E5 & _);
      [left; rewrite E2, E4|right; rewrite E1, E5]; auto.
  Qed.
  Lemma axis_get t : consistent cosQ sinQ t -> right_angles cosQ sinQ t -> axis (get t).
  Proof. intros Hc Hr. eapply axis_ext; [exact Hc|]. apply axis_seq, Hr. Qed.

  Lemma lin_surj a c l u x : l <= u ->
    (exists k, (k == l \/ k == u) /\ a * k + c <= x) -> (exists k, (k == l \/ k == u) /\ x <= a * k + c) ->
    exists z, l <= z <= u /\ a * z + c == x.
  Proof.
    intros Hlu (k1 & K1 & L1) (k2 & K2 & L2).
    assert (E1 : a * k1 == a * l \/ a * k1 == a * u) by (destruct K1 as [K|K]; [left|right]; rewrite K; reflexivity).
    assert (E2 : a * k2 == a * l \/ a * k2 == a * u) by (destruct K2 as [K|K]; [left|right]; rewrite K; reflexivity).
    destruct (Q_dec a 0) as [[Ha|Ha]|Ha].
    - exists ((x - c) / a). assert (E : a * ((x - c) / a) == x - c) by (field; lra). split; [|rewrite E; ring].
      assert (a * u <= a * ((x - c) / a) <= a * l) by (rewrite E; nra). nra.
    - exists ((x - c) / a). assert (E : a * ((x - c) / a) == x - c) by (field; lra). split; [|rewrite E; ring].
      assert (a * l <= a * ((x - c) / a) <= a * u) by (rewrite E; nra). nra.
    - exists l. split; [lra|]. assert (a * l == 0) by (rewrite Ha; ring). assert (a * u == 0) by (rewrite Ha; ring). lra.
  Qed.

  Lemma corner_coord b k : In k (corners b) ->
    (fst k == fst (fst b) \/ fst k == fst (snd b)) /\ (snd k == snd (fst b) \/ snd k == snd (snd b)).
  Proof. unfold corners. intros [<-|[<-|[<-|[<-|[]]]]]; cbn [fst snd]; split; (left + right); reflexivity. Qed.

  Lemma turn_box_onto (He : exact rnd) m b p : axis m -> fst (fst b) <= fst (snd b) -> snd (fst b) <= snd (snd b) ->
    in_box p (turn_box m b) -> exists q, in_box q b /\ peq (pmap m q) p.
  Proof.
    intros Ha Hx Hy Hp. destruct (turn_box_least m b) as (_ & (p1 & P1 & E1) & (p2 & P2 & E2) & (p3 & P3 & E3) & (p4 & P4 & E4)).
    destruct Hp as [[X1 X2] [Y1 Y2]].
    apply in_map_iff in P1 as (k1 & <- & K1), P2 as (k2 & <- & K2), P3 as (k3 & <- & K3), P4 as (k4 & <- & K4).
    apply corner_coord in K1, K2, K3, K4.
    unfold Shape_Model.pmap, aff_apply in *. cbn [fst snd] in *.
    rewrite (He (a11 m * fst k1 + a12 m * snd k1 + a13 m)) in E1. rewrite (He (a21 m * fst k2 + a22 m * snd k2 + a23 m)) in E2.
    rewrite (He (a11 m * fst k3 + a12 m * snd k3 + a13 m)) in E3. rewrite (He (a21 m * fst k4 + a22 m * snd k4 + a23 m)) in E4.
    destruct Ha as [[A B]|[A B]].
    - destruct (lin_surj (a11 m) (a13 m) _ _ (fst p) Hx) as (x & Ix & Ex).
      { exists (fst k1). split; [apply K1|]. assert (Z : a12 m * snd k1 == 0) by (rewrite A; ring). lra. }
      { exists (fst k3). split; [apply K3|]. assert (Z : a12 m * snd k3 == 0) by (rewrite A; ring). lra. }
      destruct (lin_surj (a22 m) (a23 m) _ _ (snd p) Hy) as (y & Iy & Ey).
      { exists (snd k2). split; [apply K2|]. assert (Z : a21 m * fst k2 == 0) by (rewrite B; ring). lra. }
      { exists (snd k4). split; [apply K4|]. assert (Z : a21 m * fst k4 == 0) by (rewrite B; ring). lra. }
      exists (x, y). split; [split; assumption|]. split; cbn [fst snd].
      + rewrite (He _). assert (Z : a12 m * y == 0) by (rewrite A; ring). lra.
      + rewrite (He _). assert (Z : a21 m * x == 0) by (rewrite B; ring). lra.
    - destruct (lin_surj (a12 m) (a13 m) _ _ (fst p) Hy) as (y & Iy & Ey).
      { exists (snd k1). split; [apply K1|]. assert (Z : a11 m * fst k1 == 0) by (rewrite A; ring). lra. }
      { exists (snd k3). split; [apply K3|]. assert (Z : a11 m * fst k3 == 0) by (rewrite A; ring). lra. }
      destruct (lin_surj (a21 m) (a23 m) _ _ (snd p) Hx) as (x & Ix & Ex).
      { exists (fst k2). split; [apply K2|]. assert (Z : a22 m * snd k2 == 0) by (rewrite B; ring). lra. }
      { exists (fst k4). split; [apply K4|]. assert (Z : a22 m * snd k4 == 0) by (rewrite B; ring). lra. }
      exists (x, y). split; [split; assumption|]. split; cbn [fst snd].
      + rewrite (He _). assert (Z : a11 m * x == 0) by (rewrite A; ring). lra.
      + rewrite (He _). assert (Z : a22 m * y == 0) by (rewrite B; ring). lra.
  Qed.

  Lemma turn_box_least_points (Hm : monotone rnd) m b ps : axis m -> least_box ps b ->
    least_box (map (pmap m) ps) (turn_box m b).
  Proof.
    intros Ha (G0 & (q1 & Q1 & F1) & (q2 & Q2 & F2) & (q3 & Q3 & F3) & (q4 & Q4 & F4)). split.
    { intros p Hp. apply in_map_iff in Hp as (q & <- & Hq). apply turn_box_in; auto. }
    destruct (turn_box_least m b) as (_ & (p1 & P1 & E1) & (p2 & P2 & E2) & (p3 & P3 & E3) & (p4 & P4 & E4)).
    apply in_map_iff in P1 as (k1 & <- & K1), P2 as (k2 & <- & K2), P3 as (k3 & <- & K3), P4 as (k4 & <- & K4).
    apply corner_coord in K1, K2, K3, K4.
    assert (FX : forall k : pt, fst k == fst (fst b) \/ fst k == fst (snd b) -> exists q, In q ps /\ fst q == fst k).
    { intros k [E|E]; [exists q1|exists q3]; (split; [assumption|rewrite E; assumption]). }
    assert (FY : forall k : pt, snd k == snd (fst b) \/ snd k == snd (snd b) -> exists q, In q ps /\ snd q == snd k).
    { intros k [E|E]; [exists q2|exists q4]; (split; [assumption|rewrite E; assumption]). }
    assert (TX : forall k : pt, (fst k == fst (fst b) \/ fst k == fst (snd b)) /\ (snd k == snd (fst b) \/ snd k == snd (snd b)) ->
      exists p, In p (map (pmap m) ps) /\ fst p == fst (pmap m k)).
    { intros k [Kx Ky]. destruct Ha as [[A B]|[A B]].
      - destruct (FX k Kx) as (q & Hq & Eq). exists (pmap m q). split; [apply in_map, Hq|].
        cbn [fst]. apply (rnd_eq Hm). unfold aff_apply. cbn [fst snd]. rewrite A, Eq. ring.
      - destruct (FY k Ky) as (q & Hq & Eq). exists (pmap m q). split; [apply in_map, Hq|].
        cbn [fst]. apply (rnd_eq Hm). unfold aff_apply. cbn [fst snd]. rewrite A, Eq. ring. }
    assert (TY : forall k : pt, (fst k == fst (fst b) \/ fst k == fst (snd b)) /\ (snd k == snd (fst b) \/ snd k == snd (snd b)) ->
      exists p, In p (map (pmap m) ps) /\ snd p == snd (pmap m k)).
    { intros k [Kx Ky]. destruct Ha as [[A B]|[A B]].
      - destruct (FY k Ky) as (q & Hq & Eq). exists (pmap m q). split; [apply in_map, Hq|].
        cbn [snd]. apply (rnd_eq Hm). unfold aff_apply. cbn [fst snd]. rewrite B, Eq. ring.
      - destruct (FX k Kx) as (q & Hq & Eq). exists (pmap m q). split; [apply in_map, Hq|].
        cbn [snd]. apply (rnd_eq Hm). unfold aff_apply. cbn [fst snd]. rewrite B, Eq. ring. }
    repeat split.
    - destruct (TX k1 K1) as (p & Hp & Ep). exists p. split; [exact Hp|]. rewrite Ep. exact E1.
    - destruct (TY k2 K2) as (p & Hp & Ep). exists p. split; [exact Hp|]. rewrite Ep. exact E2.
    - destruct (TX k3 K3) as (p & Hp & Ep). exists p. split; [exact Hp|]. rewrite Ep. exact E3.
    - destruct (TY k4 K4) as (p & Hp & Ep). exists p. split; [exact Hp|]. rewrite Ep. exact E4.
  Qed.

  (** ** Distances *)
  Lemma dist2_peq p q p' q' : peq p p' -> peq q q' -> dist2 p q == dist2 p' q'.
  Proof. intros [A B] [C D]. unfold dist2. rewrite A, B, C, D. reflexivity. Qed.
  Lemma iso_item d p q : cosQ (td_rot d) * cosQ (td_rot d) + sinQ (td_rot d) * sinQ (td_rot d) == 1 -> td_scale d == 1 ->
    dist2 (aff_apply (td_transform cosQ sinQ d) p) (aff_apply (td_transform cosQ sinQ d) q) == dist2 p q.
  Proof.
    intros Hr Hs.
    assert (G : forall m n, (forall p q, dist2 (aff_apply m p) (aff_apply m q) == dist2 p q) ->
      (forall p q, dist2 (aff_apply n p) (aff_apply n q) == dist2 p q) ->
      forall p q, dist2 (aff_apply (aff_mul m n) p) (aff_apply (aff_mul m n) q) == dist2 p q).
    { intros m n Hm Hn a b. rewrite (dist2_peq _ _ _ _ (apply_mul m n a) (apply_mul m n b)), Hm. apply Hn. }
    assert (S : forall p q, dist2 (aff_apply (mk_scale (td_scale d)) p) (aff_apply (mk_scale (td_scale d)) q) == dist2 p q).
    { intros a b. unfold dist2, aff_apply, mk_scale. cbn [fst snd a11 a12 a13 a21 a22 a23]. rewrite Hs. ring. }
    assert (M : forall p q, dist2 (aff_apply (mk_mirror (td_mirror d)) p) (aff_apply (mk_mirror (td_mirror d)) q) == dist2 p q).
    { intros a b. destruct (td_mirror d); unfold dist2, aff_apply, mk_mirror, aff_id; cbn [fst snd a11 a12 a13 a21 a22 a23]; ring. }
    assert (O : forall p q, dist2 (aff_apply (mk_shift (td_off d)) p) (aff_apply (mk_shift (td_off d)) q) == dist2 p q).
    { intros a b. unfold dist2, aff_apply, mk_shift. cbn [fst snd a11 a12 a13 a21 a22 a23]. ring. }
    assert (R : forall p q, dist2 (aff_apply (mk_rotate cosQ sinQ (td_rot d)) p) (aff_apply (mk_rotate cosQ sinQ (td_rot d)) q) == dist2 p q).
    { intros a b. unfold dist2, aff_apply, mk_rotate. cbn [fst snd a11 a12 a13 a21 a22 a23].
      set (c := cosQ (td_rot d)) in *. set (s := sinQ (td_rot d)) in *.
      transitivity ((c * c + s * s) * ((fst a - fst b) * (fst a - fst b) + (snd a - snd b) * (snd a - snd b))); [ring|rewrite Hr; ring]. }
    assert (I : forall p q, dist2 (aff_apply aff_id p) (aff_apply aff_id q) == dist2 p q).
    { intros a b. unfold dist2, aff_apply, aff_id. cbn [fst snd a11 a12 a13 a21 a22 a23]. ring. }
    unfold td_transform. destruct (is_scaled d), (is_rotated d), (is_mirrored d), (is_offsetted d); repeat (first [exact I|exact S|exact M|exact O|exact R|exact (I p q)|exact (S p q)|exact (M p q)|exact (O p q)|exact (R p q)|apply G]).
  Qed.
  Lemma iso_seq l : (forall d, In d l -> cosQ (td_rot d) * cosQ (td_rot d) + sinQ (td_rot d) * sinQ (td_rot d) == 1 /\ td_scale d == 1) ->
    forall p q, dist2 (aff_apply (seq_transform cosQ sinQ l) p) (aff_apply (seq_transform cosQ sinQ l) q) == dist2 p q.
  Proof.
    intros H p q. rewrite (dist2_peq _ _ _ _ (seqt_apply cosQ sinQ l p) (seqt_apply cosQ sinQ l q)).
    revert p q. induction l as [|d l IH]; intros p q; cbn [fold_left]; [reflexivity|].
    rewrite IH by (intros; apply H; right; assumption). apply iso_item; apply H; left; reflexivity.
  Qed.

  (** ** Shapes with a template *)
  Lemma shape_ind' (P : shape -> Prop) :
    (forall b, P (Rect b)) -> (forall ps w, P (Path ps w)) -> (forall o r d, P (Circle o r d)) -> (forall ps, P (Poly ps)) ->
    (forall o hs, P (PolyH o hs)) -> (forall t, P (Templ None t)) -> (forall s t, P s -> P (Templ (Some s) t)) -> forall s, P s.
  Proof.
    intros H1 H2 H3 H4 H5 H6 H7. fix IH 1. intros [b|ps w|o r d|ps|o hs|[s|] t];
      [apply H1|apply H2|apply H3|apply H4|apply H5|apply H7, IH|apply H6].
  Qed.

  Lemma queried_valid s : valid (queried cosQ sinQ s) = valid s.
  Proof.
    induction s using shape_ind'; try reflexivity. cbn [queried]. destruct (valid s) eqn:E; cbn [valid]; congruence.
  Qed.
  Lemma queried_same s : contour (queried cosQ sinQ s) = contour s /\ bbox (queried cosQ sinQ s) = bbox s /\
    with_holes cosQ sinQ rnd stroke inscribed (queried cosQ sinQ s) = with_holes cosQ sinQ rnd stroke inscribed s /\
    has_hole (queried cosQ sinQ s) = has_hole s.
  Proof.
    induction s using shape_ind'; try (repeat split; reflexivity). destruct IHs as (A & B & C & D).
    cbn [queried]. destruct (valid s) eqn:E; [|repeat split; reflexivity].
    cbn [Shape_Model.contour Shape_Model.bbox with_holes has_hole]. rewrite queried_valid, E, A, B, C, D. repeat split; reflexivity.
  Qed.
End P.
