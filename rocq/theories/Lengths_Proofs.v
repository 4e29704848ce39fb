From Verif Require Import Base QSum Units_Model Units_Spec Units_Proofs Transform_Model Transform_Spec Transform_Proofs Shape_Model Component_Model.
From Verif Require Import Lengths_Model Lengths_Spec.
From Coq Require Import Qround Qabs Qpower.
Open Scope res_scope.
Open Scope Q_scope.

(** ** Rounding keeps the order *)
Lemma round_even_mono p q : p <= q -> (round_even p <= round_even q)%Z.
Proof.
  intros L.
  assert (Hf : (Qfloor p <= Qfloor q)%Z) by (apply Qfloor_resp_le; auto).
  assert (B : forall x, (Qfloor x <= round_even x <= Qfloor x + 1)%Z).
  { intros x; unfold round_even. destruct (Qcompare _ _); [destruct (Z.even _)| |]; lia. }
  destruct (Z.eq_dec (Qfloor p) (Qfloor q)) as [E|E].
  - unfold round_even. rewrite E. set (f := Qfloor q) in *.
    destruct (Qcompare_spec (p - inject_Z f) (1 # 2)) as [C1|C1|C1]; destruct (Qcompare_spec (q - inject_Z f) (1 # 2)) as [C2|C2|C2];
      try destruct (Z.even f); try lia; exfalso; lra.
  - destruct (B p) as [_ P1]; destruct (B q) as [Q1 _]; lia.
Qed.

Lemma two_mono a b : (a <= b)%Z -> 2 ^ a <= 2 ^ b.
Proof.
  intros L. replace b with (a + (b - a))%Z by lia. rewrite two_plus.
  rewrite <- (Qmult_1_r (2 ^ a)) at 1. rewrite !(Qmult_comm (2 ^ a)). apply Qmult_le_compat_r; [|apply Qlt_le_weak, two_pos].
  rewrite <- two_Z by lia. change 1 with (inject_Z 1). rewrite <- Zle_Qle.
  pose proof (Z.pow_pos_nonneg 2 (b - a)). lia.
Qed.

Lemma scaled q e : q == q / 2 ^ e * 2 ^ e.
Proof. field. pose proof (two_pos e). lra. Qed.

Lemma fl_pos_range q : 0 < q -> 2 ^ 52 * 2 ^ exponent q <= fl_pos q /\ fl_pos q <= 2 ^ 53 * 2 ^ exponent q.
Proof.
  intros P. destruct (exponent_spec q P) as [A B]. unfold fl_pos. pose proof (two_pos (exponent q)) as T.
  split; apply Qmult_le_compat_r; try lra.
  - assert (E : 2 ^ 52 == inject_Z (2 ^ 52)) by (rewrite two_Z; [reflexivity|lia]).
    rewrite E, <- Zle_Qle, <- (round_even_int (2 ^ 52) (2 ^ 52) E). apply round_even_mono, A.
  - assert (E : 2 ^ 53 == inject_Z (2 ^ 53)) by (rewrite two_Z; [reflexivity|lia]).
    rewrite E, <- Zle_Qle, <- (round_even_int (2 ^ 53) (2 ^ 53) E). apply round_even_mono. lra.
Qed.

Lemma exponent_mono p q : 0 < p -> p <= q -> (exponent p <= exponent q)%Z.
Proof.
  intros P L. assert (P' : 0 < q) by lra.
  destruct (exponent_spec p P) as [A _], (exponent_spec q P') as [_ B].
  destruct (Z_le_gt_dec (exponent p) (exponent q)) as [|G]; auto. exfalso.
  assert (M : 2 ^ (exponent q + 1) <= 2 ^ exponent p) by (apply two_mono; lia).
  rewrite two_S in M.
  pose proof (two_pos (exponent p)) as T1; pose proof (two_pos (exponent q)) as T2.
  assert (A' : 2 ^ 52 * 2 ^ exponent p <= p).
  { rewrite (scaled p (exponent p)) at 2. apply Qmult_le_compat_r; lra. }
  assert (B' : q < 2 ^ 53 * 2 ^ exponent q).
  { rewrite (scaled q (exponent q)) at 1. apply Qmult_lt_compat_r; lra. }
  rewrite two52 in A'. rewrite two53 in B'. lra.
Qed.

Lemma fl_pos_mono p q : 0 < p -> p <= q -> fl_pos p <= fl_pos q.
Proof.
  intros P L. assert (P' : 0 < q) by lra. pose proof (exponent_mono p q P L) as E.
  destruct (Z.eq_dec (exponent p) (exponent q)) as [e|N].
  - unfold fl_pos. rewrite e. pose proof (two_pos (exponent q)) as T.
    apply Qmult_le_compat_r; [|lra]. rewrite <- Zle_Qle. apply round_even_mono.
    unfold Qdiv. apply Qmult_le_compat_r; auto. apply Qlt_le_weak, Qinv_lt_0_compat; auto.
  - destruct (fl_pos_range p P) as [_ A], (fl_pos_range q P') as [B _].
    assert (M : 2 ^ (exponent p + 1) <= 2 ^ exponent q) by (apply two_mono; lia).
    rewrite two_S in M. rewrite two53 in A. rewrite two52 in B. lra.
Qed.

Lemma fl_mono p q : p <= q -> fl p <= fl q.
Proof.
  intros L. destruct (fl_cases p) as [[A ->]|[[A ->]|[A ->]]]; destruct (fl_cases q) as [[B ->]|[[B ->]|[B ->]]]; try lra.
  - destruct (fl_pos_close q B) as [C _]. unfold ulp in C. lra.
  - apply fl_pos_mono; auto.
  - assert (0 < - p) as P by lra. destruct (fl_pos_close (- p) P) as [C _]. unfold ulp in C. lra.
  - assert (0 < - p) as P by lra. destruct (fl_pos_close (- p) P) as [C _], (fl_pos_close q B) as [D _]. unfold ulp in C, D. lra.
  - apply Qopp_le_compat, fl_pos_mono; lra.
Qed.

Lemma trunc_mono p q : p <= q -> (trunc p <= trunc q)%Z.
Proof.
  intros L. unfold trunc. destruct (Qle_bool 0 p) eqn:A; destruct (Qle_bool 0 q) eqn:B.
  - apply Qfloor_resp_le; auto.
  - apply Qle_bool_iff in A. assert (Qle_bool 0 q = true) by (apply Qle_bool_iff; lra). congruence.
  - apply Qle_bool_iff in B. assert (C : p < 0).
    { destruct (Qlt_le_dec p 0) as [|C]; auto. apply Qle_bool_iff in C. congruence. }
    assert (Qceiling p <= 0)%Z by (change 0%Z with (Qceiling 0); apply Qceiling_resp_le; lra).
    assert (0 <= Qfloor q)%Z by (change 0%Z with (Qfloor 0); apply Qfloor_resp_le; lra). lia.
  - apply Qceiling_resp_le; auto.
Qed.

Lemma to_int64_ok w z : to_int64 w = Ok z -> z = trunc w.
Proof. unfold to_int64. destruct (_ && _); congruence. Qed.

Lemma scale_pos cu : 0 < cu_unit cu -> 0 < scale2coord cu.
Proof. intros P. apply fl_pos_sign. apply Qlt_shift_div_l; lra. Qed.

Lemma to_coord_mono cu v w a b : 0 < cu_unit cu -> v <= w -> to_coord cu v = Ok a -> to_coord cu w = Ok b -> (a <= b)%Z.
Proof.
  intros P L A B. unfold to_coord in *. apply to_int64_ok in A, B. subst. apply trunc_mono, fl_mono.
  apply Qmult_le_compat_r; auto. apply Qlt_le_weak, scale_pos; auto.
Qed.

(** ** Rounding and truncation are symmetric *)
Lemma fl_opp q : fl (- q) == - fl q.
Proof.
  destruct (fl_cases q) as [[A ->]|[[A ->]|[A ->]]]; destruct (fl_cases (- q)) as [[B ->]|[[B ->]|[B ->]]]; try lra.
  assert (E : fl_pos (- - q) <= fl_pos q /\ fl_pos q <= fl_pos (- - q)) by (split; apply fl_pos_mono; lra). lra.
Qed.
Lemma trunc_eq p q : p == q -> trunc p = trunc q.
Proof. intros E. apply Z.le_antisymm; apply trunc_mono; lra. Qed.
Lemma trunc_opp q : trunc (- q) = (- trunc q)%Z.
Proof.
  unfold trunc. destruct (Qle_bool 0 (- q)) eqn:A; destruct (Qle_bool 0 q) eqn:B.
  - apply Qle_bool_iff in A, B. assert (E : q == 0) by lra.
    rewrite (Qfloor_comp (- q) 0), (Qfloor_comp q 0) by lra. reflexivity.
  - unfold Qceiling. lia.
  - unfold Qceiling. rewrite Qopp_opp. reflexivity.
  - exfalso. destruct (Qlt_le_dec 0 q) as [L|L].
    + assert (Qle_bool 0 q = true) by (apply Qle_bool_iff; lra). congruence.
    + assert (Qle_bool 0 (- q) = true) by (apply Qle_bool_iff; lra). congruence.
Qed.
Lemma to_coordf_opp cu v : to_coordf cu (- v) == - to_coordf cu v.
Proof.
  unfold to_coordf. rewrite <- fl_opp. set (k := scale2coord cu).
  assert (E : - v * k == - (v * k)) by ring.
  apply Qle_antisym; apply fl_mono; lra.
Qed.

(** ** How far a coordinate is from the length *)
Definition ratio (user data : length_unit) : Q := in_metres user / in_metres data.
Definition within (e x y : Q) : bool := Qle_bool (x * (1 - e)) y && Qle_bool y (x * (1 + e)).
Definition all_units : list length_unit := [Nanometer; Micrometer; Millimeter; Centimeter; Decimeter; Meter; Inch].
Lemma all_units_in u : In u all_units.
Proof. destruct u; cbn; tauto. Qed.
Lemma scale_table :
  forallb (fun u => forallb (fun d => within (4 * ulp) (ratio u d) (scale2coord (make_units u d)) &&
                                      within (4 * ulp) (1 / ratio u d) (cu_unit (make_units u d))) all_units) all_units = true.
Proof. vm_compute. reflexivity. Qed.
Lemma scale_close user data :
  (ratio user data * (1 - 4 * ulp) <= scale2coord (make_units user data) /\
   scale2coord (make_units user data) <= ratio user data * (1 + 4 * ulp)) /\
  (1 / ratio user data * (1 - 4 * ulp) <= cu_unit (make_units user data) /\
   cu_unit (make_units user data) <= 1 / ratio user data * (1 + 4 * ulp)).
Proof.
  pose proof (proj1 (forallb_forall _ _) scale_table user (all_units_in user)) as H.
  pose proof (proj1 (forallb_forall _ _) H data (all_units_in data)) as G. cbv beta in G.
  apply andb_true_iff in G as [G1 G2]. unfold within in G1, G2.
  apply andb_true_iff in G1 as [A B]. apply andb_true_iff in G2 as [C D].
  apply Qle_bool_iff in A, B, C, D. auto.
Qed.
Lemma ratio_pos user data : 0 < ratio user data.
Proof. destruct user, data; vm_compute; reflexivity. Qed.
Lemma exactly_ratio user data v : exactly user data v == v * ratio user data.
Proof. unfold exactly, ratio, Qdiv. ring. Qed.

Lemma close_scaled e x k l : 0 < k -> 0 <= e -> e <= 1 -> k * (1 - e) <= l -> l <= k * (1 + e) -> close e (x * k) (x * l).
Proof.
  intros K E1 E2 A B. split; intros S.
  - assert (0 <= x).
    { destruct (Qlt_le_dec x 0) as [N|]; auto. exfalso. assert (x * k < 0 * k) by (apply Qmult_lt_compat_r; auto). lra. }
    assert (x * (k * (1 - e)) <= x * l) by (rewrite !(Qmult_comm x); apply Qmult_le_compat_r; auto).
    assert (x * l <= x * (k * (1 + e))) by (rewrite !(Qmult_comm x); apply Qmult_le_compat_r; auto).
    lra.
  - assert (x <= 0).
    { destruct (Qlt_le_dec 0 x) as [N|]; auto. exfalso. assert (0 * k < x * k) by (apply Qmult_lt_compat_r; auto). lra. }
    assert (- x * (k * (1 - e)) <= - x * l) by (rewrite !(Qmult_comm (- x)); apply Qmult_le_compat_r; lra).
    assert (- x * l <= - x * (k * (1 + e))) by (rewrite !(Qmult_comm (- x)); apply Qmult_le_compat_r; lra).
    lra.
Qed.

Lemma coordf_close user data v : close (6 * ulp) (exactly user data v) (to_coordf (make_units user data) v).
Proof.
  destruct (scale_close user data) as [[A B] _].
  eapply close_comp; [symmetry; apply exactly_ratio|reflexivity|].
  assert (C : close (4 * ulp) (v * ratio user data) (v * scale2coord (make_units user data))).
  { apply close_scaled; [apply ratio_pos| | |exact A|exact B]; unfold ulp; lra. }
  clear A B. apply (close_round (4 * ulp)) in C; [|unfold ulp; lra|unfold ulp; lra].
  eapply close_weaken; [|exact C]. unfold ulp; lra.
Qed.

Lemma abs_le x k : Qabs x <= k -> - k <= x /\ x <= k.
Proof. intros H. apply Qabs_Qle_condition in H. lra. Qed.
Lemma abs_lt x k : - k < x -> x < k -> Qabs x < k.
Proof. intros A B. apply Qabs_case; intros _; lra. Qed.
Lemma abs_lt_inv x k : Qabs x < k -> - k < x /\ x < k.
Proof. intros H. pose proof (Qle_Qabs x). pose proof (Qle_Qabs (- x)). rewrite Qabs_opp in *. lra. Qed.

Lemma close_abs k x w : close (6 * ulp) x w -> 0 <= k -> - k <= x -> x <= k ->
  - (6 * ulp * k) <= w - x /\ w - x <= 6 * ulp * k.
Proof.
  intros [C1 C2] K A B. destruct (Qlt_le_dec x 0) as [N|N].
  - destruct (C2 ltac:(lra)) as [D1 D2]. unfold ulp in *. lra.
  - destruct (C1 N) as [D1 D2]. unfold ulp in *. lra.
Qed.

Lemma trunc_off w : (- (1) < inject_Z (trunc w) - w /\ inject_Z (trunc w) - w < 1)%Q.
Proof.
  unfold trunc. destruct (Qle_bool 0 w) eqn:W.
  - pose proof (Qfloor_le w) as F1. pose proof (Qlt_floor w) as F2. rewrite inject_Z_plus in F2. change (inject_Z 1) with 1%Q in F2. lra.
  - pose proof (Qle_ceiling w) as F1. pose proof (Qceiling_lt w) as F2. unfold Z.sub in F2. rewrite inject_Z_plus in F2. change (inject_Z (- (1))) with (-(1))%Q in F2. lra.
Qed.

Lemma coord_about user data v : reachable user data v ->
  exists c, to_coord (make_units user data) v = Ok c /\ about user data v (inject_Z c).
Proof.
  intros R. apply abs_le in R. pose proof (coordf_close user data v) as C.
  unfold to_coord. set (w := to_coordf _ v) in *. clearbody w.
  destruct (close_abs 281474976710656 _ _ C) as [D1 D2]; try lra.
  destruct (trunc_off w) as [T1 T2]. exists (trunc w). unfold ulp in D1, D2. split.
  - unfold to_int64. cbv zeta.
    assert (- 2 ^ 60 < trunc w)%Z as H1 by (rewrite Zlt_Qlt; change (inject_Z (- 2 ^ 60)) with (- (1152921504606846976)); lra).
    assert (trunc w < 2 ^ 60)%Z as H2 by (rewrite Zlt_Qlt; change (inject_Z (2 ^ 60)) with (1152921504606846976); lra).
    replace ((- 2 ^ 63 <=? trunc w)%Z) with true by (symmetry; apply Z.leb_le; lia).
    replace ((trunc w <? 2 ^ 63)%Z) with true by (symmetry; apply Z.ltb_lt; lia). reflexivity.
  - unfold about. apply abs_lt; lra.
Qed.

Lemma pt_about user data p : reachable_pt user data p ->
  exists c, to_coord_pt (make_units user data) p = Ok c /\ about_pt user data p (zpt c).
Proof.
  intros [R1 R2]. destruct (coord_about _ _ _ R1) as (x & Ex & Ax), (coord_about _ _ _ R2) as (y & Ey & Ay).
  exists (x, y). unfold to_coord_pt. rewrite Ex, Ey. split; [reflexivity|split; assumption].
Qed.
Lemma pts_about user data ps : Forall (reachable_pt user data) ps ->
  exists cs, to_coord_pts (make_units user data) ps = Ok cs /\ Forall2 (about_pt user data) ps (map zpt cs).
Proof.
  induction 1 as [|p ps R _ (cs & E & A)]; [exists []; split; [reflexivity|constructor]|].
  destruct (pt_about _ _ _ R) as (c & Ec & Ac). exists (c :: cs). cbn [to_coord_pts]. rewrite Ec. cbn [bind]. rewrite E.
  split; [reflexivity|constructor; assumption].
Qed.

(** ** Lists of coordinates *)
Lemma pairs_step x y l : coords_points (x :: y :: l) = (x, y) :: coords_points l.
Proof.
  unfold coords_points. replace (List.length (x :: y :: l) / 2)%nat with (Datatypes.S (List.length l / 2)).
  - cbn [seq map]. f_equal. rewrite <- seq_shift, map_map. apply map_ext. intros i.
    replace (Datatypes.S i * 2)%nat with (Datatypes.S (Datatypes.S (i * 2))) by lia. reflexivity.
  - cbn [List.length]. change (Datatypes.S (Datatypes.S (List.length l))) with (2 + List.length l)%nat.
    rewrite (Nat.add_comm 2). replace (List.length l + 2)%nat with (List.length l + 1 * 2)%nat by lia.
    rewrite Nat.div_add by lia. lia.
Qed.
Lemma coords_pairs n : forall l, (List.length l <= n)%nat -> coords_points l = pairs l.
Proof.
  induction n as [|n IH]; intros [|x [|y l]] L; try reflexivity; cbn [List.length] in L; try lia.
  rewrite pairs_step. cbn [pairs]. rewrite IH by lia. reflexivity.
Qed.
Lemma pairs_flat ps : pairs (flat ps) = ps.
Proof. induction ps as [|[x y] ps IH]; [reflexivity|]. cbn [flat pairs fst snd]. rewrite IH. reflexivity. Qed.
Lemma pairs_flat_odd ps x : pairs (flat ps ++ [x]) = ps.
Proof. induction ps as [|[a b] ps IH]; [reflexivity|]. cbn [flat app pairs fst snd]. rewrite IH. reflexivity. Qed.

(** ** Pins *)
Lemma create_transform_plain cu off m t : create_transform cu 1 0 off m = Ok t ->
  exists o, to_coord_pt cu off = Ok o /\ t = mkT [mkTD 1 0 m (zpt o)] None.
Proof.
  unfold create_transform. destruct (to_coord_pt cu off) as [o| | |]; cbn [bind]; try discriminate.
  intros [= <-]. exists o. split; reflexivity.
Qed.

Lemma plain_item cosQ sinQ m o p :
  peq (aff_apply (seq_transform cosQ sinQ [mkTD 1 0 m o]) p) (shifted o (mirrored m p)).
Proof.
  eapply peq_trans; [apply seqt_apply|]. cbn [fold_left]. unfold td_transform, is_scaled, is_rotated.
  cbn [td_scale td_rot]. change (Qeq_bool 1 1) with true. change (Qeq_bool 0 0) with true. cbn [negb].
  unfold is_offsetted, is_mirrored. cbn [td_off td_mirror].
  eapply peq_trans; [apply shift_step|]. apply (shift_pt_peq o).
  eapply peq_trans; [apply mirror_step|]. apply (mirror_pt_peq m). apply apply_id.
Qed.

Lemma placed_where cosQ sinQ d f m o p :
  peq (aff_apply (get_transform cosQ sinQ (comp_transform cosQ sinQ (mkComp d (mkT [mkTD 1 0 m o] None) f))) p)
      (shifted o (mirrored m (flipped_over f p))).
Proof.
  unfold comp_transform. cbn [c_flipped c_tr].
  assert (T : exists k, (if f then edit (fun d => mkTD (td_scale d) (td_rot d) MXY (td_off d)) t_new else t_new) =
                        mkT [mkTD 1 0 k (0, 0)] None /\ forall p, peq (shifted (0, 0) (mirrored k p)) (flipped_over f p)).
  { destruct f; [exists MXY|exists MNo]; (split; [reflexivity|intros [x y]; split; cbn [shifted mirrored flipped_over fst snd]; ring]). }
  destruct T as (k & -> & K). unfold append. cbn [t_cache t_seq]. unfold get_transform. cbn [t_cache t_seq].
  eapply peq_trans; [apply seqt_append|].
  eapply peq_trans; [apply plain_item|]. apply (shift_pt_peq o), (mirror_pt_peq m).
  eapply peq_trans; [apply plain_item|]. apply K.
Qed.

Lemma whole_where f m c o : exists z, peq (shifted (zpt o) (mirrored m (flipped_over f (zpt c)))) (zpt z).
Proof.
  destruct c as [cx cy], o as [ox oy].
  exists (match xorb f match m with MY | MXY => true | _ => false end with true => - cx | false => cx end + ox,
     match xorb f match m with MX | MXY => true | _ => false end with true => - cy | false => cy end + oy)%Z.
  destruct f, m; unfold peq, shifted, mirrored, flipped_over, zpt; cbn [fst snd xorb]; split;
    rewrite ?inject_Z_plus, ?inject_Z_opp; ring.
Qed.

(** a coordinate read back in the user unit *)
Lemma unit_back user data z : (Z.abs z <= 2 ^ 50)%Z ->
  Qabs (exactly user data (to_unit (make_units user data) z) - inject_Z z) < 1.
Proof.
  intros L. destruct (scale_close user data) as [_ [A B]]. pose proof (ratio_pos user data) as R.
  set (k := ratio user data) in *. set (u := cu_unit (make_units user data)) in *.
  assert (E : fl (inject_Z z) == inject_Z z) by (apply int_coord; lia).
  assert (K : 0 < 1 / k) by (apply Qlt_shift_div_l; lra).
  assert (C : close (4 * ulp) (fl (inject_Z z) * (1 / k)) (fl (inject_Z z) * u)).
  { apply close_scaled; auto; unfold ulp; lra. }
  clear A B. apply (close_round (4 * ulp)) in C; [|unfold ulp; lra|unfold ulp; lra].
  apply (close_mult _ _ _ k) in C; auto.
  assert (D : close (6 * ulp) (inject_Z z) (exactly user data (to_unit (make_units user data) z))).
  { eapply close_weaken; [|eapply close_comp; [| |exact C]].
    - unfold ulp; lra.
    - rewrite E. field. lra.
    - rewrite exactly_ratio. reflexivity. }
  assert (B1 : - inject_Z (2 ^ 50) <= inject_Z z) by (rewrite <- inject_Z_opp, <- Zle_Qle; lia).
  assert (B2 : inject_Z z <= inject_Z (2 ^ 50)) by (rewrite <- Zle_Qle; lia).
  change (inject_Z (2 ^ 50)) with 1125899906842624 in B1, B2.
  destruct (close_abs 1125899906842624 _ _ D) as [F1 F2]; try lra.
  unfold ulp in F1, F2. apply abs_lt; lra.
Qed.

Lemma find_pin_first ps n : find_pin (map (fun q => (fst q, snd q)) ps) n = first_of ps n.
Proof.
  induction ps as [|[m p] ps IH]; [reflexivity|]. cbn [map find_pin first_of fst snd]. rewrite String.eqb_sym, IH. reflexivity.
Qed.
