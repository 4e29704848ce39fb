From Verif Require Import Base QSum ThermalNetwork_Model LayerCut_Model LayerCut_Spec.
Local Open Scope Z_scope.

(** * Slicing one range *)
Lemma round_half_spec s : 2 * round_half s = s \/ (0 < s /\ 2 * round_half s = s + 1) \/ (s <= 0 /\ 2 * round_half s = s - 1).
Proof.
  unfold round_half; destruct (Z.even s) eqn:E.
  - apply Z.even_spec in E as [k ->]; left; rewrite (Z.mul_comm 2 k), Z_div_mult by lia; lia.
  - assert (O : Z.odd s = true) by (rewrite <- Z.negb_even, E; reflexivity); apply Z.odd_spec in O as [k ->].
    destruct (Z.ltb_spec 0 (2 * k + 1)); right; [left|right]; split; try lia.
    + replace (2 * k + 1 + 1) with ((k + 1) * 2) by lia; rewrite Z_div_mult by lia; lia.
    + replace (2 * k + 1 - 1) with (k * 2) by lia; rewrite Z_div_mult by lia; lia.
Qed.

Lemma slice_spec r : exists mid, slice r = (mkR (hi r) mid, mkR mid (lo r)) /\ (lo r <= hi r -> lo r <= mid <= hi r).
Proof.
  exists (round_half (hi r + lo r)); split; [reflexivity|]; intros H; pose proof (round_half_spec (hi r + lo r)); lia.
Qed.

Inductive split1 : list lrange -> list lrange -> Prop :=
| split1_here a r b mid : (lo r <= hi r -> lo r <= mid <= hi r) -> split1 (a ++ r :: b) (a ++ mkR (hi r) mid :: mkR mid (lo r) :: b).
Inductive refines : list lrange -> list lrange -> Prop :=
| ref_refl l : refines l l
| ref_step l1 l2 l3 : split1 l1 l2 -> refines l2 l3 -> refines l1 l3.

Lemma refines_trans l1 l2 l3 : refines l1 l2 -> refines l2 l3 -> refines l1 l3.
Proof. induction 1; auto; intros; econstructor; eauto. Qed.

Lemma split_if_refines b p c rest p' c' : split_if b p c = (p', c') -> refines (rev p ++ c :: rest) (rev p' ++ c' :: rest).
Proof.
  unfold split_if; destruct b; [|intros [= <- <-]; constructor].
  destruct (slice_spec c) as (mid & E & H); rewrite E; intros [= <- <-].
  cbn [rev]; rewrite <- app_assoc; econstructor; [apply split1_here; exact H|constructor].
Qed.

Lemma pass_refines ratio rest : forall p c l s, slice_pass ratio p c rest = (l, s) -> refines (rev p ++ c :: rest) l.
Proof.
  induction rest as [|nx rest IH]; intros p c l s; cbn [slice_pass].
  - set (s1 := match p with [] => false | pr :: _ => too_thick ratio (thick c) (thick pr) end).
    destruct (split_if s1 p c) as [p1 c1] eqn:E1; destruct (split_if false p1 c1) as [p2 c2] eqn:E2; intros [= <- <-].
    apply (split_if_refines _ _ _ []) in E1; apply (split_if_refines _ _ _ []) in E2.
    cbn [rev]; eapply refines_trans; eauto.
  - set (s1 := match p with [] => false | pr :: _ => too_thick ratio (thick c) (thick pr) end).
    destruct (split_if s1 p c) as [p1 c1] eqn:E1.
    set (s2 := too_thick ratio (thick c) (thick nx)); destruct (split_if s2 p1 c1) as [p2 c2] eqn:E2.
    destruct (slice_pass ratio (c2 :: p2) nx rest) as [l' s'] eqn:E3; intros [= <- <-].
    apply (split_if_refines _ _ _ (nx :: rest)) in E1; apply (split_if_refines _ _ _ (nx :: rest)) in E2.
    apply IH in E3; cbn [rev] in E3; rewrite <- app_assoc in E3; cbn [app] in E3.
    eapply refines_trans; [exact E1|]; eapply refines_trans; [exact E2|exact E3].
Qed.

Lemma once_refines ratio l l' s : slice_once ratio l = (l', s) -> refines l l'.
Proof. destruct l as [|c r]; simpl; [intros [= <- <-]; constructor|intros H; apply pass_refines in H; exact H]. Qed.

(** * What refinement preserves *)
Definition total (l : list lrange) : Z := fold_right (fun r a => thick r + a) 0 l.
Lemma total_app a b : total (a ++ b) = total a + total b.
Proof. unfold total; induction a; simpl; lia. Qed.
Definition nonneg (l : list lrange) : Prop := Forall (fun r => lo r <= hi r) l.

Lemma contiguous_app a r b : contiguous (a ++ r :: b) <-> contiguous (a ++ [r]) /\ contiguous (r :: b).
Proof.
  induction a as [|x a IH]; simpl; [tauto|].
  destruct a as [|y a]; simpl in *; [destruct b; tauto|tauto].
Qed.

Lemma contiguous_snoc a r r' : hi r' = hi r -> contiguous (a ++ [r]) -> contiguous (a ++ [r']).
Proof.
  intros E; induction a as [|x a IH]; simpl; auto.
  destruct a as [|y a]; simpl in *; [rewrite E; tauto|tauto].
Qed.

Lemma split1_pres l1 l2 : split1 l1 l2 ->
  (contiguous l1 -> contiguous l2) /\ (nonneg l1 -> nonneg l2) /\ total l2 = total l1 /\
  (forall t b, spans l1 t b -> spans l2 t b) /\ (forall h, cuts l1 h -> cuts l2 h) /\
  List.length l2 = Datatypes.S (List.length l1) /\
  (nonneg l1 -> (exists r, In r l1 /\ thick r = 0) -> exists r, In r l2 /\ thick r = 0).
Proof.
  intros [a r b mid H]; split; [|split; [|split; [|split; [|split; [|split]]]]].
  - rewrite contiguous_app; intros [H1 H2]; rewrite contiguous_app; split.
    + eapply contiguous_snoc; [|exact H1]; reflexivity.
    + simpl; split; [reflexivity|]; destruct b; simpl in *; auto.
  - unfold nonneg; rewrite !Forall_app; intros [H1 H2]; inversion H2; subst; split; [auto|].
    specialize (H H4); repeat constructor; simpl; auto; lia.
  - rewrite !total_app; unfold total; simpl; unfold thick; simpl; lia.
  - intros t bt (x & y & Hx & Hy & Ht & Hb).
    assert (Hfst : forall (l : list lrange) c d e, hd_error (l ++ c :: d) = hd_error (l ++ c :: e)) by (intros [|]; reflexivity).
    rewrite rev_app_distr in Hy; cbn [rev] in Hy.
    destruct (rev b) as [|z b'] eqn:Eb.
    + assert (b = []) by (rewrite <- (rev_involutive b), Eb; reflexivity); subst b; simpl in Hy; injection Hy as <-.
      destruct a as [|x' a]; simpl in Hx; injection Hx as <-.
      * exists (mkR (hi r) mid), (mkR mid (lo r)); repeat split; auto.
      * exists x', (mkR mid (lo r)); repeat split; auto.
        rewrite rev_app_distr; reflexivity.
    + simpl in Hy; injection Hy as ->.
      destruct a as [|x' a]; simpl in Hx; injection Hx as <-.
      * exists (mkR (hi r) mid), y; repeat split; auto; simpl; rewrite Eb; reflexivity.
      * exists x', y; repeat split; auto; rewrite rev_app_distr; cbn [rev]; rewrite Eb; reflexivity.
  - intros h (x & Hin & Hh); apply in_app_iff in Hin as [Hin|[<-|Hin]].
    + exists x; split; auto; apply in_app_iff; auto.
    + destruct Hh as [Hh|Hh].
      * exists (mkR (hi r) mid); split; [apply in_app_iff; right; now left|left; auto].
      * exists (mkR mid (lo r)); split; [apply in_app_iff; right; right; now left|right; auto].
    + exists x; split; auto; apply in_app_iff; right; right; right; auto.
  - rewrite !app_length; simpl; lia.
  - intros Hn (x & Hin & Hz); apply in_app_iff in Hin as [Hin|[<-|Hin]].
    + exists x; split; auto; apply in_app_iff; auto.
    + exists (mkR (hi r) mid); split; [apply in_app_iff; right; now left|].
      unfold nonneg in Hn; rewrite Forall_app in Hn; destruct Hn as [_ Hn]; inversion Hn; subst; specialize (H H2).
      unfold thick in *; simpl; lia.
    + exists x; split; auto; apply in_app_iff; right; right; right; auto.
Qed.

Lemma refines_pres l1 l2 : refines l1 l2 ->
  (contiguous l1 -> contiguous l2) /\ (nonneg l1 -> nonneg l2) /\ total l2 = total l1 /\
  (forall t b, spans l1 t b -> spans l2 t b) /\ (forall h, cuts l1 h -> cuts l2 h) /\
  (List.length l1 <= List.length l2)%nat /\
  (nonneg l1 -> (exists r, In r l1 /\ thick r = 0) -> exists r, In r l2 /\ thick r = 0).
Proof.
  induction 1 as [l|l1 l2 l3 H1 H2 (A & B & C & D & E & F & G)]; [repeat split; auto|].
  destruct (split1_pres _ _ H1) as (A' & B' & C' & D' & E' & F' & G').
  split; [auto|split; [auto|split; [congruence|split; [auto|split; [auto|split; [lia|auto]]]]]].
Qed.

(** * A pass that slices nothing, and one that slices *)
Lemma too_thick_false ratio a b : too_thick ratio a b = false <-> (inject_Z a <= ratio * inject_Z b)%Q.
Proof. unfold too_thick, Qltb; rewrite negb_false_iff, Qle_bool_iff; tauto. Qed.
Lemma too_thick_true ratio a b : too_thick ratio a b = true <-> (ratio * inject_Z b < inject_Z a)%Q.
Proof.
  unfold too_thick, Qltb; rewrite negb_true_iff; split.
  - intros H; apply Qnot_le_lt; intros Hle; apply Qle_bool_iff in Hle; congruence.
  - intros H; apply not_true_iff_false; intros Hle; apply Qle_bool_iff in Hle; lra.
Qed.

Lemma pass_false ratio rest : forall p c l, slice_pass ratio p c rest = (l, false) ->
  l = rev p ++ c :: rest /\ (forall pr p', p = pr :: p' -> (inject_Z (thick c) <= ratio * inject_Z (thick pr))%Q) /\ graded ratio (c :: rest).
Proof.
  induction rest as [|nx rest IH]; intros p c l; cbn [slice_pass].
  - set (s1 := match p with [] => false | pr :: _ => too_thick ratio (thick c) (thick pr) end).
    destruct (split_if s1 p c) as [p1 c1] eqn:E1; cbn [split_if].
    intros [= <- Hs]; rewrite orb_false_r in Hs; rewrite Hs in E1; injection E1 as <- <-.
    split; [reflexivity|split; [|exact I]].
    intros pr p' ->; unfold s1 in Hs; now apply too_thick_false.
  - set (s1 := match p with [] => false | pr :: _ => too_thick ratio (thick c) (thick pr) end).
    destruct (split_if s1 p c) as [p1 c1] eqn:E1.
    destruct (too_thick ratio (thick c) (thick nx)) eqn:E2.
    + destruct (split_if true p1 c1) as [p2 c2]; destruct (slice_pass ratio (c2 :: p2) nx rest) as [l' s'].
      intros [= _ Hs]; rewrite orb_true_r in Hs; discriminate.
    + cbn [split_if]; destruct (slice_pass ratio (c1 :: p1) nx rest) as [l' s'] eqn:E3.
      intros [= <- Hs]; rewrite orb_false_r in Hs; apply orb_false_iff in Hs as [Hs1 ->].
      rewrite Hs1 in E1; injection E1 as <- <-.
      destruct (IH _ _ _ E3) as (H1 & H2 & H3).
      split; [rewrite H1; cbn [rev]; rewrite <- app_assoc; reflexivity|split].
      * intros pr p' ->; unfold s1 in Hs1; now apply too_thick_false.
      * split; [now apply too_thick_false|split; [eapply H2; reflexivity|exact H3]].
Qed.

Lemma once_false ratio l l' : slice_once ratio l = (l', false) -> l' = l /\ graded ratio l.
Proof.
  destruct l as [|c r]; simpl; [intros [= <-]; auto|].
  intros H; apply pass_false in H as (H1 & _ & H2); auto.
Qed.

Lemma refines_length_eq l1 l2 : refines l1 l2 -> List.length l1 = List.length l2 -> l1 = l2.
Proof.
  intros [l|a b c H1 H2] E; auto.
  apply split1_pres in H1 as (_ & _ & _ & _ & _ & H & _); apply refines_pres in H2 as (_ & _ & _ & _ & _ & H' & _); lia.
Qed.

Lemma split_if_length b p c p' c' : split_if b p c = (p', c') -> List.length p' = (List.length p + (if b then 1 else 0))%nat.
Proof. unfold split_if; destruct b; [destruct (slice c)|]; intros [= <- <-]; simpl; lia. Qed.

Lemma pass_length ratio rest : forall p c l, slice_pass ratio p c rest = (l, true) -> (List.length p + Datatypes.S (List.length rest) < List.length l)%nat.
Proof.
  assert (G : forall rest p c l s, slice_pass ratio p c rest = (l, s) -> (List.length p + Datatypes.S (List.length rest) + (if s then 1 else 0) <= List.length l)%nat).
  { clear; induction rest as [|nx rest IH]; intros p c l s; cbn [slice_pass].
    - set (s1 := match p with [] => false | pr :: _ => too_thick ratio (thick c) (thick pr) end).
      destruct (split_if s1 p c) as [p1 c1] eqn:E1; cbn [split_if]; intros [= <- <-].
      apply split_if_length in E1; rewrite orb_false_r, app_length, rev_length; simpl; lia.
    - set (s1 := match p with [] => false | pr :: _ => too_thick ratio (thick c) (thick pr) end).
      destruct (split_if s1 p c) as [p1 c1] eqn:E1.
      set (s2 := too_thick ratio (thick c) (thick nx)); destruct (split_if s2 p1 c1) as [p2 c2] eqn:E2.
      destruct (slice_pass ratio (c2 :: p2) nx rest) as [l' s'] eqn:E3; intros [= <- <-].
      apply split_if_length in E1; apply split_if_length in E2; apply IH in E3; simpl in *.
      destruct s1, s2, s'; simpl in *; lia. }
  intros p c l H; apply G in H; lia.
Qed.
Lemma once_length ratio l l' : slice_once ratio l = (l', true) -> (List.length l < List.length l')%nat.
Proof. destruct l as [|c r]; simpl; [discriminate|intros H; apply pass_length in H; simpl in H; lia]. Qed.

(** * The whole loop *)
Lemma slice_all_spec ratio fuel : forall l l', slice_all fuel ratio l = Ok l' -> refines l l' /\ graded ratio l'.
Proof.
  induction fuel as [|k IH]; intros l l'; cbn [slice_all]; [discriminate|].
  destruct (slice_once ratio l) as [l1 s] eqn:E; pose proof (once_refines _ _ _ _ E) as R; destruct s.
  - intros H; apply IH in H as [H1 H2]; split; [eapply refines_trans; eauto|auto].
  - intros [= <-]; destruct (once_false _ _ _ E) as [-> H]; split; [constructor|auto].
Qed.

Lemma graded_zero ratio l : nonneg l -> graded ratio l -> (exists r, In r l /\ thick r = 0) -> total l = 0.
Proof.
  intros Hn Hg (z & Hin & Hz).
  assert (Z0 : forall a b, lo b <= hi b -> thick a = 0 -> (inject_Z (thick b) <= ratio * inject_Z (thick a))%Q -> thick b = 0).
  { intros a b Hb Ha H; rewrite Ha in H; assert (H' : (inject_Z (thick b) <= inject_Z 0)%Q) by (change (inject_Z 0) with 0%Q in *; lra).
    rewrite <- Zle_Qle in H'; unfold thick in *; lia. }
  (* all zero *)
  assert (Hhead : forall l a, nonneg (a :: l) -> graded ratio (a :: l) -> thick a = 0 -> Forall (fun r => thick r = 0) (a :: l)).
  { clear - Z0; induction l as [|b l IH]; intros a Hn Hg Ha; [repeat constructor; auto|].
    inversion Hn; subst; inversion H2; subst; destruct Hg as (G1 & G2 & G3).
    constructor; [auto|]; apply IH; auto; eapply Z0; eauto. }
  assert (Hall : forall l, nonneg l -> graded ratio l -> (exists r, In r l /\ thick r = 0) -> Forall (fun r => thick r = 0) l).
  { clear - Z0 Hhead; induction l as [|a l IH]; intros Hn Hg (z & Hin & Hz); [destruct Hin|].
    destruct Hin as [->|Hin]; [apply Hhead; auto|].
    destruct l as [|b l]; [destruct Hin|]; inversion Hn; subst; destruct Hg as (G1 & G2 & G3).
    assert (Hl : Forall (fun r => thick r = 0) (b :: l)) by (apply IH; auto; exists z; auto).
    inversion Hl; subst; constructor; [|auto]; eapply Z0; eauto. }
  specialize (Hall l Hn Hg (ex_intro _ z (conj Hin Hz))); clear - Hall; unfold total.
  induction Hall as [|r l H Hall IH]; simpl; lia.
Qed.

Lemma positive_nonneg l : all_positive l -> nonneg l.
Proof. unfold all_positive, nonneg; apply Forall_impl; intros; lia. Qed.
Lemma positive_total l : all_positive l -> (Z.of_nat (List.length l) <= total l).
Proof. unfold all_positive, total; induction 1; simpl; [lia|unfold thick in *; lia]. Qed.
Lemma nonneg_nozero l : nonneg l -> ~ (exists r, In r l /\ thick r = 0) -> all_positive l.
Proof.
  intros Hn H; unfold all_positive; apply Forall_forall; intros r Hin; unfold nonneg in Hn; rewrite Forall_forall in Hn.
  specialize (Hn r Hin); destruct (Z.eq_dec (thick r) 0) as [E|]; [exfalso; apply H; eauto|unfold thick in *; lia].
Qed.
Lemma zero_dec (l : list lrange) : (exists r, In r l /\ thick r = 0) \/ ~ (exists r, In r l /\ thick r = 0).
Proof.
  induction l as [|r l [H|H]].
  - right; intros (r & [] & _).
  - left; destruct H as (x & Hx & Hz); exists x; split; [now right|auto].
  - destruct (Z.eq_dec (thick r) 0) as [E|E]; [left; exists r; split; [now left|auto]|].
    right; intros (x & [<-|Hx] & Hz); [auto|apply H; eauto].
Qed.

Lemma diverges ratio fuel : forall l, nonneg l -> 0 < total l -> (exists r, In r l /\ thick r = 0) -> slice_all fuel ratio l = OutOfFuel.
Proof.
  induction fuel as [|k IH]; intros l Hn Ht Hz; [reflexivity|]; cbn [slice_all].
  destruct (slice_once ratio l) as [l1 s] eqn:E; destruct s.
  - destruct (refines_pres _ _ (once_refines _ _ _ _ E)) as (_ & B & C & _ & _ & _ & G).
    apply IH; auto; lia.
  - exfalso; destruct (once_false _ _ _ E) as [_ Hg]; pose proof (graded_zero ratio l Hn Hg Hz); lia.
Qed.

(** * Termination for moderate ratios *)
Definition safe (ratio : Q) (bottom : Z) : Prop := (3 <= ratio)%Q \/ ((2 <= ratio)%Q /\ 0 <= bottom).

Lemma safe_slice ratio bottom c other : safe ratio bottom -> bottom <= lo c -> 1 <= other -> too_thick ratio (thick c) other = true ->
  exists mid, slice c = (mkR (hi c) mid, mkR mid (lo c)) /\ 1 <= hi c - mid /\ 2 <= mid - lo c.
Proof.
  intros Hs Hb Ho Ht; apply too_thick_true in Ht.
  exists (round_half (hi c + lo c)); split; [reflexivity|].
  pose proof (round_half_spec (hi c + lo c)) as R.
  assert (Hone : (1 <= inject_Z other)%Q) by (change 1%Q with (inject_Z 1); rewrite <- Zle_Qle; auto).
  destruct Hs as [Hs|[Hs Hb0]].
  - assert (H3 : (inject_Z 3 < inject_Z (thick c))%Q) by (change (inject_Z 3) with 3%Q; nra).
    rewrite <- Zlt_Qlt in H3; unfold thick in *; lia.
  - assert (H2 : (inject_Z 2 < inject_Z (thick c))%Q) by (change (inject_Z 2) with 2%Q; nra).
    rewrite <- Zlt_Qlt in H2; unfold thick in *; lia.
Qed.

Definition above (bottom : Z) (l : list lrange) : Prop := Forall (fun r => bottom <= lo r) l.

Lemma pass_safe ratio bottom rest : safe ratio bottom -> forall p c l s, slice_pass ratio p c rest = (l, s) ->
  all_positive p -> all_positive (c :: rest) -> above bottom p -> above bottom (c :: rest) ->
  all_positive l /\ above bottom l.
Proof.
  intros Hs; unfold all_positive, above.
  assert (Step : forall p c (rest : list lrange) p1 c1 p2 c2 s2,
    split_if (match p with [] => false | pr :: _ => too_thick ratio (thick c) (thick pr) end) p c = (p1, c1) ->
    (s2 = true -> exists other, 1 <= other /\ too_thick ratio (thick c) other = true) ->
    split_if s2 p1 c1 = (p2, c2) ->
    Forall (fun r => lo r < hi r) p -> lo c < hi c -> Forall (fun r => bottom <= lo r) p -> bottom <= lo c ->
    Forall (fun r => lo r < hi r) (c2 :: p2) /\ Forall (fun r => bottom <= lo r) (c2 :: p2)).
  { intros p c rest' p1 c1 p2 c2 s2 E1 Hs2 E2 Pp Pc Bp Bc.
    set (s1 := match p with [] => false | pr :: _ => too_thick ratio (thick c) (thick pr) end) in *.
    destruct s1 eqn:Es1.
    - destruct p as [|pr p]; [discriminate|].
      inversion Pp; subst.
      destruct (safe_slice ratio bottom c (thick pr) Hs Bc) as (mid & Esl & H1' & H2'); [unfold thick; lia|auto|].
      cbn [split_if] in E1; rewrite Esl in E1; injection E1 as <- <-.
      destruct s2.
      + cbn [split_if slice hi lo] in E2.
        pose proof (round_half_spec (mid + lo c)) as R; set (m2 := round_half (mid + lo c)) in *; injection E2 as <- <-.
        split; repeat constructor; simpl; auto; try lia; inversion Bp; auto; lia.
      + injection E2 as <- <-; split; repeat constructor; simpl; auto; try lia; inversion Bp; auto.
    - injection E1 as <- <-; destruct s2.
      + destruct (Hs2 eq_refl) as (other & Ho & Ht).
        destruct (safe_slice ratio bottom c other Hs Bc Ho Ht) as (mid & Esl & H1' & H2').
        cbn [split_if] in E2; rewrite Esl in E2; injection E2 as <- <-.
        split; repeat constructor; simpl; auto; lia.
      + injection E2 as <- <-; split; constructor; auto. }
  induction rest as [|nx rest IH]; intros p c l s; cbn [slice_pass].
  - destruct (split_if _ p c) as [p1 c1] eqn:E1; destruct (split_if false p1 c1) as [p2 c2] eqn:E2.
    intros [= <- <-] Pp Pc Bp Bc; inversion Pc; inversion Bc; subst.
    destruct (Step p c [] p1 c1 p2 c2 false E1) as [A B]; auto; [discriminate|].
    split; apply Forall_rev in A; apply Forall_rev in B; auto.
  - destruct (split_if _ p c) as [p1 c1] eqn:E1.
    destruct (split_if (too_thick ratio (thick c) (thick nx)) p1 c1) as [p2 c2] eqn:E2.
    destruct (slice_pass ratio (c2 :: p2) nx rest) as [l' s'] eqn:E3; intros [= <- <-] Pp Pc Bp Bc.
    inversion Pc; inversion Bc; subst; inversion H2; subst.
    assert (Hs2 : too_thick ratio (thick c) (thick nx) = true -> exists other, 1 <= other /\ too_thick ratio (thick c) other = true).
    { intros Ht; exists (thick nx); split; [unfold thick; lia|auto]. }
    destruct (Step p c [] p1 c1 p2 c2 _ E1 Hs2 E2) as [A B]; auto.
    eapply IH; eauto.
Qed.

Lemma once_safe ratio bottom l l' s : safe ratio bottom -> slice_once ratio l = (l', s) -> all_positive l -> above bottom l -> all_positive l' /\ above bottom l'.
Proof.
  intros Hs; destruct l as [|c r]; simpl; [intros [= <- <-]; auto|].
  intros H P B; eapply (pass_safe ratio bottom r Hs [] c); eauto; constructor.
Qed.

Lemma terminates ratio bottom fuel : safe ratio bottom -> forall l, all_positive l -> above bottom l ->
  (total l - Z.of_nat (List.length l) < Z.of_nat fuel) -> exists l', slice_all fuel ratio l = Ok l'.
Proof.
  intros Hs; induction fuel as [|k IH]; intros l P B Hf.
  - pose proof (positive_total l P); lia.
  - cbn [slice_all]; destruct (slice_once ratio l) as [l1 s] eqn:E.
    destruct s; [|eauto].
    destruct (once_safe _ _ _ _ _ Hs E P B) as [P1 B1].
    pose proof (once_length _ _ _ E) as Hl.
    destruct (refines_pres _ _ (once_refines _ _ _ _ E)) as (_ & _ & C & _).
    apply IH; auto; lia.
Qed.

(** * Heights *)
Lemma decreasing_cons a l : decreasing (a :: l) <-> Forall (fun x => x < a) l /\ decreasing l.
Proof.
  revert a; induction l as [|b l IH]; intros a; simpl; [split; auto|].
  split.
  - intros [H1 H2]; split; auto; constructor; auto.
    apply (proj1 (IH b)) in H2 as [H2 _]; eapply Forall_impl; [|exact H2]; simpl; intros; lia.
  - intros [H1 H2]; split; auto; inversion H1; auto.
Qed.

Lemma zinsert_in h l x : In x (zinsert h l) <-> x = h \/ In x l.
Proof.
  induction l as [|y l IH]; simpl; [intuition auto|].
  destruct (y <? h); simpl; [intuition auto|]; destruct (Z.eqb_spec y h); simpl; [subst; intuition auto|].
  rewrite IH; intuition auto.
Qed.
Lemma zinsert_decreasing h l : decreasing l -> decreasing (zinsert h l).
Proof.
  induction l as [|y l IH]; intros H; [exact I|]; cbn [zinsert].
  destruct (Z.ltb_spec y h).
  - split; auto.
  - destruct (Z.eqb_spec y h); [auto|].
    apply decreasing_cons in H as [H1 H2]; apply decreasing_cons; split; auto.
    apply Forall_forall; intros x Hx; apply zinsert_in in Hx as [->|Hx]; [lia|]; rewrite Forall_forall in H1; auto.
Qed.
Lemma fold_zinsert_in l x : In x (fold_right zinsert [] l) <-> In x l.
Proof. induction l; simpl; [tauto|]; rewrite zinsert_in, IHl; intuition auto. Qed.
Lemma fold_zinsert_decreasing l : decreasing (fold_right zinsert [] l).
Proof. induction l; simpl; auto; now apply zinsert_decreasing. Qed.
Lemma layer_order_in ss h : In h (layer_order ss) <-> exists s, In s ss /\ In h (shape_heights s).
Proof.
  unfold layer_order; rewrite fold_zinsert_in, <- in_rev, in_flat_map; tauto.
Qed.
Lemma layer_order_decreasing ss : decreasing (layer_order ss).
Proof. apply fold_zinsert_decreasing. Qed.

Lemma index_of_nth l h i : index_of h l = Some i -> nth_error l i = Some h.
Proof.
  revert i; induction l as [|x l IH]; intros i; simpl; [discriminate|].
  destruct (Z.eqb_spec x h); [intros [= <-]; subst; auto|].
  destruct (index_of h l) as [j|]; simpl; [intros [= <-]; simpl; auto|discriminate].
Qed.
Lemma nth_index_of l h i : decreasing l -> nth_error l i = Some h -> index_of h l = Some i.
Proof.
  revert i; induction l as [|x l IH]; intros [|i] Hd; simpl; try discriminate.
  - intros [= ->]; rewrite Z.eqb_refl; reflexivity.
  - intros H; apply decreasing_cons in Hd as [H1 H2]; pose proof (nth_error_In _ _ H) as Hin; rewrite Forall_forall in H1.
    specialize (H1 h Hin); destruct (Z.eqb_spec x h); [lia|]; rewrite (IH i H2 H); reflexivity.
Qed.
Lemma index_of_none l h : index_of h l = None <-> ~ In h l.
Proof.
  induction l as [|x l IH]; simpl; [tauto|].
  destruct (Z.eqb_spec x h); [split; [discriminate|intros H; exfalso; auto]|].
  destruct (index_of h l); simpl; split; try discriminate.
  - intros H; exfalso; destruct IH as [_ IH]; assert (~ In h l) by tauto; discriminate (IH H0).
  - intros _ [?|?]; [auto|]; destruct IH as [IH _]; apply IH; auto.
  - reflexivity.
Qed.
Lemma decreasing_nth l i j a b : decreasing l -> nth_error l i = Some a -> nth_error l j = Some b -> (i < j)%nat -> b < a.
Proof.
  revert i j; induction l as [|x l IH]; intros [|i] [|j] Hd Ha Hb Hij; simpl in *; try discriminate; try lia.
  - injection Ha as ->; apply decreasing_cons in Hd as [H1 _]; rewrite Forall_forall in H1; apply H1; eapply nth_error_In; eauto.
  - apply decreasing_cons in Hd as [_ H2]; eapply (IH i j); eauto; lia.
Qed.
Lemma decreasing_nth_iff l i j a b : decreasing l -> nth_error l i = Some a -> nth_error l j = Some b -> ((i <= j)%nat <-> b <= a).
Proof.
  intros Hd Ha Hb; split; intros H.
  - destruct (Nat.eq_dec i j) as [->|]; [rewrite Ha in Hb; injection Hb as ->; lia|].
    assert (b < a) by (eapply (decreasing_nth l i j); eauto; lia); lia.
  - destruct (le_lt_dec i j); auto; assert (a < b) by (eapply (decreasing_nth l j i); eauto); lia.
Qed.

(** * Polygon lists *)
Definition covers_b (r : lrange) (top bot : Z) : bool := ((lo r <=? bot) && (top <=? hi r))%bool.

Fixpoint covering (i : nat) (ss : list shape) (top bot : Z) : list nat :=
  match ss with
  | [] => []
  | s :: ss' => (if r_valid (s_range s) && covers_b (s_range s) top bot then [i] else []) ++ covering (Datatypes.S i) ss' top bot
  end.

Lemma fold_push i ls m L : NoDup ls -> fold_left (fun m l => push m i l) ls m L =
  if existsb (Nat.eqb L) ls then Some (match m L with Some v => v | None => [] end ++ [i]) else m L.
Proof.
  revert m; induction ls as [|l ls IH]; intros m Hnd; simpl; auto.
  inversion Hnd as [|? ? Hn Hnd']; subst; rewrite IH by auto; unfold push.
  destruct (Nat.eqb_spec L l) as [->|]; simpl; [|reflexivity].
  destruct (existsb (Nat.eqb l) ls) eqn:E; [|reflexivity].
  apply existsb_exists in E as (x & Hx & E); apply Nat.eqb_eq in E; subst; tauto.
Qed.

Definition dflt (o : option (list nat)) : list nat := match o with Some v => v | None => [] end.

Lemma fill_spec order ss : decreasing order -> forall i m m', fill order i ss m = Ok m' ->
  forall L top bot, nth_error order L = Some top -> nth_error order (Datatypes.S L) = Some bot ->
  dflt (m' L) = dflt (m L) ++ covering i ss top bot /\ (m L <> Some [] -> m' L <> Some []).
Proof.
  intros Hd; induction ss as [|s ss IH]; intros i m m'; cbn [fill].
  - intros [= <-] L top bot _ _; simpl; rewrite app_nil_r; auto.
  - destruct (r_valid (s_range s)) eqn:Ev.
    + unfold at_height; destruct (index_of (hi (s_range s)) order) as [sl|] eqn:E1; cbn [bind]; [|discriminate].
      destruct (index_of (lo (s_range s)) order) as [el|] eqn:E2; cbn [bind]; [|discriminate].
      intros H L top bot Ht Hb; destruct (IH _ _ _ H L top bot Ht Hb) as [A B]; rewrite A.
      apply index_of_nth in E1; apply index_of_nth in E2.
      rewrite fold_push in A, B |- * by apply seq_NoDup.
      assert (Ec : existsb (Nat.eqb L) (seq sl (Nat.min (total_layers order) el - sl)) = covers_b (s_range s) top bot).
      { assert (Hlen : (Datatypes.S L < List.length order)%nat) by (apply nth_error_Some; rewrite Hb; discriminate).
        assert (Hex : existsb (Nat.eqb L) (seq sl (Nat.min (total_layers order) el - sl)) = true <-> (sl <= L < el)%nat).
        { rewrite existsb_exists; unfold total_layers; split.
          - intros (x & Hx & E); apply Nat.eqb_eq in E; subst x; apply in_seq in Hx; lia.
          - intros Hr; exists L; split; [apply in_seq; lia|apply Nat.eqb_refl]. }
        assert (Hcov : covers_b (s_range s) top bot = true <-> (sl <= L < el)%nat).
        { unfold covers_b; rewrite andb_true_iff, !Z.leb_le.
          pose proof (decreasing_nth_iff order sl L _ _ Hd E1 Ht) as I1.
          pose proof (decreasing_nth_iff order (Datatypes.S L) el _ _ Hd Hb E2) as I2; lia. }
        apply eq_true_iff_eq; rewrite Hex, Hcov; reflexivity. }
      rewrite Ec in *; cbn [covering]; rewrite Ev; cbn [andb].
      destruct (covers_b (s_range s) top bot).
      * cbn [dflt]; split; [unfold dflt; rewrite <- app_assoc; reflexivity|].
        intros _; apply B; destruct (m L) as [[|]|]; discriminate.
      * split; [reflexivity|exact B].
    + intros H L top bot Ht Hb; destruct (IH _ _ _ H L top bot Ht Hb) as [A B]; rewrite A; cbn [covering]; rewrite Ev; auto.
Qed.

Lemma fill_heights order ss : forall i m m', fill order i ss m = Ok m' ->
  forall s, In s ss -> r_valid (s_range s) = true -> In (hi (s_range s)) order /\ In (lo (s_range s)) order.
Proof.
  induction ss as [|s ss IH]; intros i m m'; cbn [fill]; [intros _ s []|].
  destruct (r_valid (s_range s)) eqn:Ev.
  - unfold at_height; destruct (index_of (hi (s_range s)) order) as [sl|] eqn:E1; cbn [bind]; [|discriminate].
    destruct (index_of (lo (s_range s)) order) as [el|] eqn:E2; cbn [bind]; [|discriminate].
    intros H s' [<-|Hin] Hv; [|eapply IH; eauto].
    split; eapply nth_error_In, index_of_nth; eauto.
  - intros H s' [<-|Hin] Hv; [congruence|eapply IH; eauto].
Qed.

(** * Ranges between heights *)
Lemma ranges_of_facts order : decreasing order -> contiguous (ranges_of order) /\ all_positive (ranges_of order) /\
  forall a b r, order = a :: b :: r -> (forall h, In h order <-> cuts (ranges_of order) h) /\
  hd_error (map hi (ranges_of order)) = Some a /\ order = order_of (ranges_of order) 0.
Proof.
  induction order as [|a order IH]; intros Hd; [repeat split; try constructor; discriminate|].
  destruct order as [|b order]; [repeat split; try constructor; discriminate|].
  destruct Hd as [H1 H2]; destruct (IH H2) as (C & P & F).
  split; [|split].
  - cbn [ranges_of]; destruct order as [|c order]; [exact I|]; simpl; split; auto.
  - cbn [ranges_of]; constructor; [simpl; auto|exact P].
  - intros a' b' r' [= -> -> ->]; destruct r' as [|c r'].
    + split; [|split; reflexivity].
      intros h; simpl; split.
      * intros [<-|[<-|[]]]; exists (mkR a' b'); split; simpl; auto.
      * intros (x & [<-|[]] & [E|E]); simpl in E; auto.
    + destruct (F b' c r' eq_refl) as (F1 & F2 & F3); split; [|split].
      * intros h; split.
        -- intros [<-|Hin]; [exists (mkR a' b'); split; [now left|now left]|].
           apply F1 in Hin as (x & Hx & Hh); exists x; split; [now right|auto].
        -- intros (x & [<-|Hx] & Hh); [destruct Hh as [<-|<-]; [now left|right; now left]|].
           right; apply F1; exists x; auto.
      * reflexivity.
      * unfold order_of in *; cbn [ranges_of map hi lo app]; f_equal; exact F3.
Qed.

Lemma order_of_decreasing rs d : contiguous rs -> all_positive rs -> decreasing (order_of rs d).
Proof.
  unfold order_of; induction rs as [|r rs IH]; intros C P; [exact I|].
  inversion P; subst; destruct rs as [|r' rs]; [simpl; auto|].
  destruct C as [C1 C2]; specialize (IH C2 H2); cbn [map app] in *; cbn [last] in *.
  split; [lia|exact IH].
Qed.

Lemma order_of_in rs d h : rs <> [] -> contiguous rs -> (In h (order_of rs d) <-> cuts rs h).
Proof.
  unfold order_of; induction rs as [|r rs IH]; intros Hne C; [congruence|].
  destruct rs as [|r' rs].
  - cbn [map app last In]; split.
    + intros [<-|[<-|[]]]; exists r; split; try (now left); auto.
    + intros (x & [<-|[]] & [<-|<-]); auto.
  - destruct C as [C1 C2]; specialize (IH ltac:(discriminate) C2); cbn [map app last] in *; split.
    + intros [<-|Hin]; [exists r; split; [now left|now left]|].
      apply IH in Hin as (x & Hx & Hh); exists x; split; [now right|auto].
    + intros (x & [<-|Hx] & Hh).
      * destruct Hh as [<-|<-]; [now left|right; apply IH; exists r'; split; [now left|left; auto]].
      * right; apply IH; exists x; auto.
Qed.

(** * Relabelling after slicing *)
Lemma relabel_length old m hs : forall prev vs, relabel old m prev hs = Ok vs -> List.length vs = List.length hs.
Proof.
  induction hs as [|h hs IH]; intros prev vs; cbn [relabel]; [intros [= <-]; reflexivity|].
  destruct (match index_of h old with Some j => _ | None => prev end) as [v| | |]; simpl; try discriminate.
  destruct (relabel old m (Ok v) hs) as [vs'| | |] eqn:E; simpl; try discriminate; intros [= <-]; simpl; erewrite IH; eauto.
Qed.

Lemma covering_ext ss : forall i t1 b1 t2 b2,
  (forall s, In s ss -> r_valid (s_range s) = true -> covers_b (s_range s) t1 b1 = covers_b (s_range s) t2 b2) ->
  covering i ss t1 b1 = covering i ss t2 b2.
Proof.
  induction ss as [|s ss IH]; intros i t1 b1 t2 b2 H; simpl; auto.
  rewrite (IH (Datatypes.S i) t1 b1 t2 b2) by (intros; apply H; auto; now right).
  destruct (r_valid (s_range s)) eqn:E; [rewrite (H s (or_introl eq_refl) E)|]; reflexivity.
Qed.

Section Relabel.
  Context (old : list Z) (m : lmap) (ss : list shape).
  Context (Hd : decreasing old).
  Context (Hm : forall L top bot, nth_error old L = Some top -> nth_error old (Datatypes.S L) = Some bot -> dflt (m L) = covering 0 ss top bot).
  Context (Hh : forall s, In s ss -> r_valid (s_range s) = true -> In (hi (s_range s)) old /\ In (lo (s_range s)) old).

  (** a layer [t, b] lying between consecutive old heights has the old layer's shapes *)
  Lemma sub_layer j top bot t b : nth_error old j = Some top -> nth_error old (Datatypes.S j) = Some bot ->
    bot <= b < t -> t <= top -> covering 0 ss t b = dflt (m j).
  Proof.
    intros Ht Hb H1 H2; rewrite (Hm j top bot Ht Hb); apply covering_ext; intros s Hs Hv.
    destruct (Hh s Hs Hv) as [I1 I2]; unfold covers_b.
    apply In_nth_error in I1 as [k1 I1]; apply In_nth_error in I2 as [k2 I2].
    pose proof (decreasing_nth_iff old k1 j _ _ Hd I1 Ht) as A1.
    pose proof (decreasing_nth_iff old k1 (Datatypes.S j) _ _ Hd I1 Hb) as A2.
    pose proof (decreasing_nth_iff old j k2 _ _ Hd Ht I2) as B1.
    pose proof (decreasing_nth_iff old (Datatypes.S j) k2 _ _ Hd Hb I2) as B2.
    assert (C1 : t <= hi (s_range s) <-> top <= hi (s_range s)).
    { split; intros H; [|lia]; apply A1; destruct (le_lt_dec k1 j) as [|Hlt]; auto; exfalso.
      pose proof (decreasing_nth_iff old (Datatypes.S j) k1 _ _ Hd Hb I1); lia. }
    assert (C2 : lo (s_range s) <= b <-> lo (s_range s) <= bot).
    { split; intros H; [|lia]; apply B2; destruct (le_lt_dec (Datatypes.S j) k2) as [|Hlt]; auto; exfalso.
      pose proof (decreasing_nth_iff old k2 j _ _ Hd I2 Ht); lia. }
    rewrite <- !Z.leb_le in C1, C2.
    destruct (t <=? hi (s_range s)), (top <=? hi (s_range s)), (lo (s_range s) <=? b), (lo (s_range s) <=? bot); simpl; intuition congruence.
  Qed.

  (** [new] are the remaining new heights, ending at the old bottom; [j] the old layer of the
      previous one, if any *)
  Lemma relabel_spec hs : forall last_h prev vs,
    decreasing (hs ++ [last_h]) ->
    (forall h, In h old -> (exists x, hd_error (hs ++ [last_h]) = Some x /\ h <= x) -> In h (hs ++ [last_h])) ->
    nth_error old (List.length old - 1) = Some last_h -> 
    (match hs with [] => True | h :: _ => 
       In h old \/ exists j top bot v, prev = Ok v /\ v = dflt (m j) /\ nth_error old j = Some top /\ nth_error old (Datatypes.S j) = Some bot /\ bot < h < top end) ->
    relabel old m prev hs = Ok vs ->
    forall L t b, nth_error (hs ++ [last_h]) L = Some t -> nth_error (hs ++ [last_h]) (Datatypes.S L) = Some b ->
    nth_error vs L = Some (covering 0 ss t b).
  Proof.
    induction hs as [|h hs IH]; intros last_h prev vs Hdec Hin Hlast Hprev Hrel L t b Ht Hb.
    - destruct L; simpl in Hb; [discriminate|destruct L; discriminate].
    - cbn [relabel] in Hrel.
      assert (Hd' := Hdec); cbn [app] in Hd'; apply decreasing_cons in Hd' as [Hlt Hdec'].
      rewrite Forall_forall in Hlt.
      assert (Hnx : exists nx r, hs ++ [last_h] = nx :: r) by (destruct hs; simpl; eauto).
      destruct Hnx as (nx & r & Enx).
      assert (Hnxlt : nx < h) by (apply Hlt; rewrite Enx; now left).
      (* the old layer containing [h, nx] *)
      assert (Hj : exists j top bot v, nth_error old j = Some top /\ nth_error old (Datatypes.S j) = Some bot /\ bot <= nx /\ h <= top /\
        v = dflt (m j) /\ (match index_of h old with Some j => match m j with Some v => Ok v | None => Throw end | None => prev end) = Ok v \/
        (match index_of h old with Some j => match m j with Some v => Ok v | None => Throw end | None => prev end) = Throw).
      { destruct (index_of h old) as [j|] eqn:Ei.
        - destruct (m j) as [v|] eqn:Em; [|exists j, 0, 0, []; right; reflexivity].
          pose proof (index_of_nth _ _ _ Ei) as Hjh.
          assert (Hj1 : (j < List.length old - 1)%nat).
          { destruct (le_lt_dec (List.length old - 1) j) as [Hle|]; auto; exfalso.
            assert (j < List.length old)%nat by (apply nth_error_Some; congruence).
            assert (j = (List.length old - 1)%nat) by lia; subst j; rewrite Hlast in Hjh; injection Hjh as ->.
            assert (h < h); [|lia]. apply Hlt; apply in_app_iff; right; now left. }
          destruct (nth_error old (Datatypes.S j)) as [bot|] eqn:Eb; [|apply nth_error_None in Eb; lia].
          exists j, h, bot, v; left; repeat split; auto; [|lia|rewrite Em; reflexivity].
          (* bot is among the new heights below h, so bot <= nx *)
          assert (Hbh : bot < h) by (eapply (decreasing_nth old j (Datatypes.S j)); eauto).
          assert (Hb' : In bot ((h :: hs) ++ [last_h])).
          { apply Hin; [eapply nth_error_In; eauto|exists h; split; [reflexivity|lia]]. }
          cbn [app] in Hb'; destruct Hb' as [->|Hb']; [lia|]; rewrite Enx in Hb', Hdec'.
          destruct Hb' as [->|Hb']; [lia|]; apply decreasing_cons in Hdec' as [Hf _]; rewrite Forall_forall in Hf; specialize (Hf bot Hb'); lia.
        - apply index_of_none in Ei; destruct Hprev as [Hprev|(j & top & bot & v & E1 & E2 & E3 & E4 & E5)]; [tauto|].
          exists j, top, bot, v; left; repeat split; auto; [|lia].
          assert (Hb' : In bot ((h :: hs) ++ [last_h])).
          { apply Hin; [eapply nth_error_In; eauto|exists h; split; [reflexivity|lia]]. }
          cbn [app] in Hb'; destruct Hb' as [->|Hb']; [lia|]; rewrite Enx in Hb', Hdec'.
          destruct Hb' as [->|Hb']; [lia|]; apply decreasing_cons in Hdec' as [Hf _]; rewrite Forall_forall in Hf; specialize (Hf bot Hb'); lia. }
      destruct Hj as (j & top & bot & v & [(J1 & J2 & J3 & J4 & J5 & J6)|J]); [|rewrite J in Hrel; discriminate].
      rewrite J6 in Hrel; cbn [bind] in Hrel.
      destruct (relabel old m (Ok v) hs) as [vs'| | |] eqn:Er; simpl in Hrel; try discriminate; injection Hrel as <-.
      destruct L as [|L].
      + cbn [app nth_error] in Ht, Hb; injection Ht as <-; rewrite Enx in Hb; injection Hb as <-; cbn [nth_error]; f_equal.
        rewrite (sub_layer j top bot h nx J1 J2) by lia; exact J5.
      + cbn [nth_error]; cbn [app nth_error] in Ht, Hb; eapply (IH last_h (Ok v)); eauto.
        * intros h' Hin' (x & Hx & Hle).
          assert (Hx' : x < h) by (rewrite Enx in Hx; injection Hx as <-; auto).
          assert (Hi : In h' ((h :: hs) ++ [last_h])) by (apply Hin; auto; exists h; split; [reflexivity|lia]).
          cbn [app] in Hi; destruct Hi as [->|Hi]; [lia|auto].
        * destruct hs as [|h2 hs2]; [exact I|]; simpl in Enx; injection Enx as -> _.
          destruct (in_dec Z.eq_dec nx old) as [Hi|Hn]; [left; auto|right].
          exists j, top, bot, v; repeat split; auto; [|lia].
          destruct (Z.eq_dec bot nx) as [->|]; [|lia]; exfalso; apply Hn; eapply nth_error_In; eauto.
  Qed.
End Relabel.

Lemma covering_filter ss top bot : forall i, covering i ss top bot =
  filter (fun k => match nth_error ss (k - i) with
                   | Some s => r_valid (s_range s) && ((lo (s_range s) <=? bot) && (top <=? hi (s_range s)))
                   | None => false end) (seq i (List.length ss)).
Proof.
  induction ss as [|s ss IH]; intros i; [reflexivity|].
  cbn [covering List.length seq filter]; rewrite Nat.sub_diag; cbn [nth_error]; unfold covers_b; rewrite IH.
  rewrite (filter_ext_in (fun k => match nth_error ss (k - Datatypes.S i) with
                   | Some s => r_valid (s_range s) && ((lo (s_range s) <=? bot) && (top <=? hi (s_range s)))
                   | None => false end) (fun k => match nth_error (s :: ss) (k - i) with
                   | Some s => r_valid (s_range s) && ((lo (s_range s) <=? bot) && (top <=? hi (s_range s)))
                   | None => false end)).
  - destruct (r_valid (s_range s) && _); reflexivity.
  - intros k Hk; apply in_seq in Hk; replace (k - i)%nat with (Datatypes.S (k - Datatypes.S i)) by lia; reflexivity.
Qed.
Lemma covering_spec ss top bot : covering 0 ss top bot = shapes_in_layer ss top bot.
Proof.
  rewrite covering_filter; unfold shapes_in_layer; apply filter_ext; intros k; rewrite Nat.sub_0_r; reflexivity.
Qed.

Lemma last_lo rs r d : hd_error (rev rs) = Some r -> last (map lo rs) d = lo r.
Proof.
  intros H; destruct (rev rs) as [|x l] eqn:E; [discriminate|]; injection H as ->.
  rewrite <- (rev_involutive rs), E; cbn [rev]; rewrite map_app; cbn [map]; apply last_last.
Qed.
Lemma spans_exists rs : rs <> [] -> exists t b, spans rs t b.
Proof.
  intros H; destruct rs as [|a rs]; [congruence|].
  destruct (rev (a :: rs)) as [|x l] eqn:E.
  - apply (f_equal (@List.length _)) in E; rewrite rev_length in E; discriminate.
  - exists (hi a), (lo x), a, x; rewrite E; repeat split.
Qed.

Lemma build_spec fuel ratio ss m : build_lut fuel ratio ss = Ok m ->
  decreasing (l_order m) /\
  (forall h, In h (layer_order ss) -> In h (l_order m)) /\
  (forall s, In s ss -> r_valid (s_range s) = true -> In (hi (s_range s)) (l_order m) /\ In (lo (s_range s)) (l_order m)) /\
  (forall L top bot, nth_error (l_order m) L = Some top -> nth_error (l_order m) (Datatypes.S L) = Some bot ->
     dflt (layer_polygons m L) = shapes_in_layer ss top bot).
Proof.
  unfold build_lut; set (order := layer_order ss).
  assert (Hd : decreasing order) by apply layer_order_decreasing.
  destruct (fill order 0 ss (fun _ => None)) as [m0| | |] eqn:Ef; cbn [bind]; try discriminate.
  assert (Hm : forall L top bot, nth_error order L = Some top -> nth_error order (Datatypes.S L) = Some bot -> dflt (m0 L) = covering 0 ss top bot)
    by (intros L top bot H1 H2; destruct (fill_spec _ _ Hd _ _ _ Ef L top bot H1 H2) as [A _]; exact A).
  pose proof (fill_heights _ _ _ _ _ Ef) as Hh.
  destruct (Qltb 1 ratio); [|intros [= <-]; cbn [l_order l_polys]; unfold layer_polygons; cbn [l_polys]; repeat split; auto;
    [apply Hh; auto|apply Hh; auto|intros; rewrite <- covering_spec; auto]].
  destruct order as [|a order'] eqn:Eo; [discriminate|]; rewrite <- Eo in *.
  destruct (slice_all fuel ratio (ranges_of order)) as [rs| | |] eqn:Es; cbn [bind]; try discriminate.
  destruct rs as [|r0 rs0] eqn:Ers; [discriminate|]; rewrite <- Ers in *.
  destruct (relabel order m0 Throw (map hi rs)) as [vs| | |] eqn:Er; cbn [bind]; try discriminate; intros [= <-].
  cbn [l_order]; unfold layer_polygons; cbn [l_polys].
  apply slice_all_spec in Es as [Href Hg].
  destruct (ranges_of_facts order Hd) as (C & P & F).
  destruct (refines_pres _ _ Href) as (P1 & P2 & P3 & P4 & P5 & P6 & P7).
  destruct order' as [|b order'].
  { exfalso; rewrite Eo in Href; cbn [ranges_of] in Href; inversion Href as [|? ? ? H1 H2]; subst; [discriminate|].
    inversion H1 as [x r y mid Hx E1 E2]; destruct x; discriminate. }
  destruct (F _ _ _ Eo) as (F1 & F2 & F3).
  assert (Hne : ranges_of order <> []) by (rewrite Eo; discriminate).
  assert (Crs : contiguous rs) by auto.
  assert (Hzero : all_positive rs).
  { apply nonneg_nozero; [apply P2, positive_nonneg, P|]; intros Hz.
    pose proof (graded_zero ratio rs (P2 (positive_nonneg _ P)) Hg Hz) as H0.
    pose proof (positive_total _ P) as H1; rewrite Eo in H1, P3; cbn [ranges_of List.length] in H1, P3; lia. }
  destruct (spans_exists _ Hne) as (top & bot & Hsp).
  pose proof (P4 _ _ Hsp) as Hsp'.
  assert (Hne' : rs <> []) by (rewrite Ers; discriminate).
  pose proof (order_of_decreasing rs 0 Crs Hzero) as Hd'.
  assert (Hsub : forall h, In h order -> In h (order_of rs 0)).
  { intros h Hin; apply order_of_in; auto; apply P5, F1, Hin. }
  split; [exact Hd'|split; [exact Hsub|split; [intros s Hs Hv; destruct (Hh s Hs Hv); auto|]]].
  intros L t bt Ht Hb; rewrite <- covering_spec.
  destruct Hsp as (x & y & S1 & S2 & S3 & S4), Hsp' as (x' & y' & S1' & S2' & S3' & S4').
  unfold order_of in Ht, Hb, Hd', Hsub; rewrite (last_lo rs y' 0 S2') in Ht, Hb, Hd', Hsub; rewrite S4' in *.
  assert (Elast : nth_error order (List.length order - 1) = Some bot).
  { rewrite F3 at 1 2; unfold order_of; rewrite (last_lo _ y 0 S2), S4, app_length; cbn [List.length].
    rewrite nth_error_app2 by lia; replace (_ - _)%nat with 0%nat by lia; reflexivity. }
  erewrite (relabel_spec order m0 ss Hd Hm Hh (map hi rs) bot Throw vs Hd'); eauto; [reflexivity|].
  rewrite Ers; cbn [map]; left.
  rewrite Ers in S1'; injection S1' as <-; rewrite S3', <- S3; rewrite Eo; left.
  rewrite Eo in S1; cbn [ranges_of hd_error] in S1; injection S1 as <-; reflexivity.
Qed.
