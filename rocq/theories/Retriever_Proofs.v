From Verif Require Import Base QSum ThermalNetwork_Model Retriever_Model Retriever_Spec.
From Coq Require Import Qround Qabs.

(** * Stack-up *)
Lemma update_static ls : forall up, map static (update_from up ls) = map static ls.
Proof.
  induction ls as [|l ls IH]; intros up; [reflexivity|]; cbn [update_from].
  destruct (sl_stackup l) eqn:E; cbn [map]; rewrite IH; [|reflexivity].
  destruct up; unfold static; cbn; rewrite ?E; reflexivity.
Qed.

Lemma static_stackup a b : static a = static b -> sl_stackup a = sl_stackup b.
Proof. unfold static; intros [= _ _ H _]; exact H. Qed.

Lemma update_stacked ls : forall up,
  chain (fun a b => sl_elev b == sl_elev a - sl_thick a) (match up with Some u => [u] | None => [] end ++ stackup (update_from up ls)).
Proof.
  unfold stackup; induction ls as [|l ls IH]; intros up; cbn [update_from].
  - cbn [filter]; destruct up; exact I.
  - destruct (sl_stackup l) eqn:E.
    + set (l' := match up with None => l | Some u => _ end).
      assert (E' : sl_stackup l' = true) by (unfold l'; destruct up; auto).
      cbn [filter]; rewrite E'; specialize (IH (Some l')); cbn [app] in IH.
      destruct up as [u|]; cbn [app]; [|exact IH].
      cbn [chain]; split; [unfold l'; cbn [sl_elev]; reflexivity|exact IH].
    + cbn [filter]; rewrite E; apply IH.
Qed.

Lemma update_stackup_static ls up : map static (stackup (update_from up ls)) = map static (stackup ls).
Proof.
  unfold stackup; pose proof (update_static ls up) as H.
  revert H; generalize (update_from up ls) as ls'; intros ls'; revert ls'; clear up.
  induction ls as [|l ls IH]; intros [|l' ls']; cbn [map]; try discriminate; auto.
  intros H; assert (H1 : static l' = static l) by congruence; assert (H2 : map static ls' = map static ls) by congruence.
  cbn [filter]; rewrite (static_stackup _ _ H1); destruct (sl_stackup l); cbn [map]; rewrite IH by auto; congruence.
Qed.

Lemma lookup_in ls l : NoDup (map sl_id ls) -> In l ls -> lookup (map (fun l => (sl_id l, (sl_elev l, sl_thick l))) ls) (sl_id l) = Some (sl_elev l, sl_thick l).
Proof.
  induction ls as [|x ls IH]; intros Hn Hin; [destruct Hin|]; cbn [map lookup].
  cbn [map] in Hn; inversion Hn as [|? ? Hx Hn']; subst.
  destruct Hin as [->|Hin]; [rewrite Z.eqb_refl; reflexivity|].
  destruct (Z.eqb_spec (sl_id x) (sl_id l)) as [E|]; [|auto].
  exfalso; apply Hx; rewrite E; apply in_map; auto.
Qed.

Lemma stacked_heights l ls b : chain (fun a b => sl_elev b == sl_elev a - sl_thick a) (l :: ls) -> hd_error (rev (l :: ls)) = Some b ->
  sl_elev l - sl_elev b + sl_thick b == sumf sl_thick (l :: ls).
Proof.
  revert l; induction ls as [|x ls IH]; intros l Hc Hb.
  - injection Hb as <-; simpl; lra.
  - destruct Hc as [H1 H2]; cbn [rev] in Hb.
    assert (Hb' : hd_error (rev (x :: ls)) = Some b).
    { cbn [rev]; destruct (rev ls ++ [x]) eqn:E; [destruct (rev ls); discriminate|]; exact Hb. }
    specialize (IH x H2 Hb'); cbn [sumf] in *; lra.
Qed.

Lemma Qltb_spec a b : Qltb a b = true <-> a < b.
Proof.
  unfold Qltb; rewrite negb_true_iff; split.
  - intros H; apply Qnot_le_lt; intros Hc; apply Qle_bool_iff in Hc; congruence.
  - intros H; apply not_true_iff_false; intros Hc; apply Qle_bool_iff in Hc; lra.
Qed.

Lemma search_spec m ls h : (forall l, In l ls -> lookup m (sl_id l) = Some (sl_elev l, sl_thick l)) ->
  exists o, search_stackup m ls h = Ok o /\
  match o with Some l => In l ls /\ inside l h | None => forall l, In l ls -> ~ inside l h end.
Proof.
  induction ls as [|l ls IH]; intros Hl; cbn [search_stackup]; [eexists; split; [reflexivity|intros l []]|].
  rewrite (Hl l (or_introl eq_refl)).
  destruct (Qltb (sl_elev l - sl_thick l) h && Qle_bool h (sl_elev l)) eqn:E.
  - apply andb_true_iff in E as [E1 E2]; apply Qltb_spec in E1; apply Qle_bool_iff in E2.
    eexists; split; [reflexivity|split; [now left|split; auto]].
  - destruct IH as (o & H1 & H2); [intros; apply Hl; now right|]; exists o; split; [exact H1|].
    destruct o as [x|]; [destruct H2; split; auto; now right|].
    intros x [<-|Hx]; [|auto]; intros [Hi1 Hi2]; apply Qltb_spec in Hi1; apply Qle_bool_iff in Hi2; rewrite Hi1, Hi2 in E; discriminate.
Qed.

(** in a stack of non-negative layers every height between bottom and top is in some layer, and in only one *)
Lemma stacked_cover l ls b h : chain (fun a b => sl_elev b == sl_elev a - sl_thick a) (l :: ls) -> hd_error (rev (l :: ls)) = Some b ->
  sl_elev b - sl_thick b < h -> h <= sl_elev l -> exists x, In x (l :: ls) /\ inside x h.
Proof.
  revert l; induction ls as [|y ls IH]; intros l Hc Hb H1 H2.
  - injection Hb as <-; exists l; split; [now left|split; auto].
  - destruct Hc as [Hc1 Hc2].
    assert (Hb' : hd_error (rev (y :: ls)) = Some b).
    { cbn [rev] in *; destruct (rev ls ++ [y]) eqn:E; [destruct (rev ls); discriminate|]; exact Hb. }
    destruct (Qlt_le_dec (sl_elev l - sl_thick l) h) as [Hl|Hl].
    + exists l; split; [now left|split; auto].
    + destruct (IH y Hc2 Hb' H1) as (x & Hx & Hi); [lra|]; exists x; split; [now right|auto].
Qed.
Lemma stacked_below l ls x h : chain (fun a b => sl_elev b == sl_elev a - sl_thick a) (l :: ls) -> Forall (fun y => 0 <= sl_thick y) (l :: ls) ->
  In x ls -> inside x h -> h <= sl_elev l - sl_thick l.
Proof.
  revert l; induction ls as [|y ls IH]; intros l Hc Hp Hx [H1 H2]; [destruct Hx|].
  destruct Hc as [Hc1 Hc2]; inversion Hp as [|? ? P1 P2]; subst.
  destruct Hx as [->|Hx]; [lra|].
  specialize (IH y Hc2 P2 Hx (conj H1 H2)); inversion P2; subst; lra.
Qed.
Lemma stacked_unique ls x y h : chain (fun a b => sl_elev b == sl_elev a - sl_thick a) ls -> Forall (fun y => 0 <= sl_thick y) ls ->
  In x ls -> In y ls -> inside x h -> inside y h -> x = y.
Proof.
  induction ls as [|l ls IH]; intros Hc Hp Hx Hy Ix Iy; [destruct Hx|].
  assert (Hc' : chain (fun a b => sl_elev b == sl_elev a - sl_thick a) ls) by (destruct ls; [exact I|apply Hc]).
  inversion Hp; subst.
  destruct Hx as [->|Hx], Hy as [->|Hy]; auto.
  - pose proof (stacked_below _ _ _ _ Hc Hp Hy Iy); destruct Ix; lra.
  - pose proof (stacked_below _ _ _ _ Hc Hp Hx Ix); destruct Iy; lra.
Qed.

(** * Refinement by count *)
Lemma refine_from_length w ws : List.length (refine_from w ws) = (2 * List.length ws)%nat.
Proof. revert w; induction ws; intros w; cbn [refine_from List.length]; [|rewrite IHws]; lia. Qed.
Lemma refine_thread w ws : thread eq ws (refine_from w ws).
Proof. revert w; induction ws; intros w; cbn [refine_from]; [constructor|]; apply th_skip, th_keep; auto. Qed.
Lemma thread_refl {A} (l : list A) : thread eq l l.
Proof. induction l; constructor; auto. Qed.
Lemma thread_trans {A} (l1 l2 l3 : list A) : thread eq l1 l2 -> thread eq l2 l3 -> thread eq l1 l3.
Proof.
  intros H1 H2; revert l1 H1; induction H2 as [l|a b l l' E H IH|b l l' H IH]; intros l1 H1.
  - inversion H1; subst; constructor.
  - subst b; inversion H1; subst; constructor; auto.
  - constructor; auto.
Qed.
Lemma refine_last w ws d : last (refine_from w ws) d = last ws d.
Proof.
  revert w; induction ws as [|x ws IH]; intros w; [reflexivity|]; cbn [refine_from].
  destruct ws as [|y ws]; [reflexivity|].
  specialize (IH x); cbn [refine_from last] in IH |- *; exact IH.
Qed.

Lemma min_seg_spec fuel n : forall ws out, min_seg fuel n ws = Ok out ->
  (n <= List.length out)%nat /\ thread eq ws out /\ hd_error out = hd_error ws /\ forall d, last out d = last ws d.
Proof.
  induction fuel as [|k IH]; intros ws out; cbn [min_seg]; [discriminate|].
  destruct (Nat.leb_spec n (List.length ws)).
  - intros [= <-]; split; [auto|split; [apply thread_refl|auto]].
  - destruct ws as [|w ws]; cbn [refine bind]; [discriminate|].
    intros H1; apply IH in H1 as (A & B & C & D); split; [exact A|split; [|split; [exact C|]]].
    + eapply thread_trans; [|exact B]; constructor; [reflexivity|apply refine_thread].
    + intros d; rewrite D; destruct ws as [|y ws]; [reflexivity|].
      pose proof (refine_last w (y :: ws) d) as R; cbn [refine_from last] in R |- *; exact R.
Qed.

Lemma min_seg_terminates n fuel : forall ws, (2 <= List.length ws)%nat -> (n < fuel + List.length ws)%nat -> (0 < fuel)%nat -> exists out, min_seg fuel n ws = Ok out.
Proof.
  induction fuel as [|k IH]; intros ws H2 Hf H0; cbn [min_seg]; [lia|].
  destruct (Nat.leb_spec n (List.length ws)); [eauto|].
  destruct ws as [|w ws]; [simpl in H2; lia|]; cbn [refine bind].
  apply IH; cbn [List.length] in *; rewrite ?refine_from_length; lia.
Qed.

Lemma last_cons {A} (x d : A) l : last (x :: l) d = last l x.
Proof.
  revert x d; induction l as [|y l IH]; intros x d; [reflexivity|].
  change (last (x :: y :: l) d) with (last (y :: l) d); rewrite (IH y d), (IH y x); reflexivity.
Qed.

(** * Refinement by length: what an outcome looks like *)
Section MaxLen.
  Context (scale : Q).
  Notation same := (same scale).
  Notation dist_sq := (dist_sq scale).
  Notation zc := (zc scale).

  Lemma same_spec a b : same a b = true <-> same_place scale a b.
  Proof.
    unfold Retriever_Model.same, same_place; rewrite !andb_true_iff, !Z.eqb_eq; destruct a as [[ax ay] ah], b as [[bx b_y] bh]; cbn [fst snd]; split.
    - intros [[-> ->] H]; auto.
    - intros [[= -> ->] H]; auto.
  Qed.
  Lemma same_dist a b : same_place scale a b -> dist_sq a b = 0%Z.
  Proof.
    intros [H1 H2]; unfold Retriever_Model.dist_sq; rewrite H1, H2; lia.
  Qed.

  Lemma max_loop_spec fuel max_sq final : (0 <= max_sq)%Z -> forall back cur t rest out,
    max_loop scale fuel max_sq final back cur t rest = Ok out -> final = last rest t ->
    chain (fun a b => dist_sq a b <= max_sq)%Z (back :: out) /\
    thread (same_place scale) (t :: rest) out /\
    exists l a, out = l ++ [a; final] /\ same_place scale a final.
  Proof.
    intros Hm; induction fuel as [|k IH]; intros back cur t rest out; cbn [max_loop]; [discriminate|].
    destruct (Z.ltb_spec max_sq (dist_sq back cur)); [apply IH|].
    destruct (same cur t) eqn:Es.
    - apply same_spec in Es; destruct rest as [|t' rest].
      + cbn [rmap bind]; intros [= <-] ->; cbn [last]; split; [|split].
        * cbn [chain]; repeat split; auto; rewrite same_dist; auto.
        * constructor; [destruct Es; split; auto|constructor].
        * exists [], cur; split; [reflexivity|exact Es].
      + destruct (max_loop scale k max_sq final cur t' t' rest) as [o| | |] eqn:E; cbn [rmap bind]; try discriminate.
        intros [= <-] Hf; destruct (IH _ _ _ _ _ E) as (A & B & l & a & C & D).
        { rewrite Hf; apply last_cons. }
        split; [cbn [chain]; split; auto|split].
        * constructor; [destruct Es; split; auto|exact B].
        * exists (cur :: l), a; rewrite C; split; [reflexivity|exact D].
    - destruct (max_loop scale k max_sq final cur t t rest) as [o| | |] eqn:E; cbn [rmap bind]; try discriminate.
      intros [= <-] Hf; destruct (IH _ _ _ _ _ E Hf) as (A & B & l & a & C & D).
      split; [cbn [chain]; split; auto|split].
      + apply th_skip; exact B.
      + exists (cur :: l), a; rewrite C; split; [reflexivity|exact D].
  Qed.

  (** ** Termination *)
  Lemma trunc_close a b : (inject_Z (Z.abs (trunc a - trunc b)) < Qabs.Qabs (a - b) + 1).
  Proof.
    assert (F : forall q, inject_Z (Qfloor q) <= q /\ q < inject_Z (Qfloor q) + 1).
    { intros q; split; [apply Qfloor_le|]; pose proof (Qlt_floor q) as H; rewrite inject_Z_plus in H; change (inject_Z 1) with 1 in H; lra. }
    assert (C : forall q, q <= inject_Z (Qceiling q) /\ inject_Z (Qceiling q) < q + 1).
    { intros q; split; [apply Qle_ceiling|]; pose proof (Qceiling_lt q) as H; unfold Z.sub in H; rewrite inject_Z_plus, inject_Z_opp in H; change (inject_Z 1) with 1 in H; lra. }
    assert (N : forall q, q < 0 -> (Qceiling q <= 0)%Z).
    { intros q Hq; change 0%Z with (Qceiling 0); apply Qceiling_resp_le; lra. }
    assert (P : forall q, 0 <= q -> (0 <= Qfloor q)%Z).
    { intros q Hq; change 0%Z with (Qfloor 0); apply Qfloor_resp_le; lra. }
    assert (A : forall z q, (inject_Z z < q -> inject_Z (- z) < q -> inject_Z (Z.abs z) < q)).
    { intros z q H1 H2; destruct (Z.abs_spec z) as [[_ ->]|[_ ->]]; auto. }
    pose proof (Qabs.Qle_Qabs (a - b)) as L1; pose proof (Qabs.Qle_Qabs (- (a - b))) as L2; rewrite Qabs.Qabs_opp in L2.
    apply A; unfold Z.sub; rewrite ?Z.opp_add_distr, ?Z.opp_involutive, inject_Z_plus, inject_Z_opp; unfold trunc;
      destruct (Qle_bool 0 a) eqn:Ea, (Qle_bool 0 b) eqn:Eb;
      repeat match goal with
      | H : Qle_bool 0 ?q = true |- _ => apply Qle_bool_iff in H
      | H : Qle_bool 0 ?q = false |- _ => assert (q < 0) by (apply Qnot_le_lt; intros Hc; apply Qle_bool_iff in Hc; congruence); clear H
      end;
      pose proof (F a); pose proof (F b); pose proof (C a); pose proof (C b); try lra.
    all: repeat match goal with
      | H : ?q < 0 |- _ => pose proof (N q H) as HN; rewrite Zle_Qle in HN; revert H
      | H : 0 <= ?q |- _ => pose proof (P q H) as HP; rewrite Zle_Qle in HP; revert H
      end; intros; change (inject_Z 0) with 0 in *; lra.
  Qed.

  Definition zr (w : wpt) : Q := snd w * scale.
  Definition rr (a b : wpt) : Q := Qabs.Qabs (zr a - zr b).
  Definition DD (a b : wpt) : Z := (Z.abs (fst (fst a) - fst (fst b)) + Z.abs (snd (fst a) - snd (fst b)) + Qceiling (2 * rr a b))%Z.
  Definition MM (a b : wpt) : Z := (Z.abs (fst (fst a) - fst (fst b)) + Z.abs (snd (fst a) - snd (fst b)) + Qceiling (rr a b))%Z.

  Lemma rr_nonneg a b : 0 <= rr a b.
  Proof. apply Qabs.Qabs_nonneg. Qed.
  Lemma ceil_nonneg q : 0 <= q -> (0 <= Qceiling q)%Z.
  Proof. intros H; change 0%Z with (Qceiling 0); apply Qceiling_resp_le; auto. Qed.
  Lemma DD_nonneg a b : (0 <= DD a b)%Z.
  Proof. unfold DD; pose proof (ceil_nonneg (2 * rr a b)); pose proof (rr_nonneg a b); lia || (assert (0 <= 2 * rr a b) by lra; specialize (H H1); lia). Qed.
  Lemma MM_nonneg a b : (0 <= MM a b)%Z.
  Proof. unfold MM; pose proof (ceil_nonneg (rr a b) (rr_nonneg a b)); lia. Qed.

  (** [c] lies between [a] and [b] in each coordinate *)
  Definition zbetween (a c b : Z) : Prop := ((a <= c <= b) \/ (b <= c <= a))%Z.
  Definition qbetween (a c b : Q) : Prop := (a <= c /\ c <= b) \/ (b <= c /\ c <= a).
  Definition between (a c b : wpt) : Prop :=
    zbetween (fst (fst a)) (fst (fst c)) (fst (fst b)) /\ zbetween (snd (fst a)) (snd (fst c)) (snd (fst b)) /\ qbetween (zr a) (zr c) (zr b).

  Lemma quot_mid a c : let m := Z.quot (a + c) 2 in zbetween a m c /\ (2 <= Z.abs (a - c) -> 1 <= Z.abs (m - a) /\ Z.abs (a - m) < Z.abs (a - c))%Z /\ (Z.abs (a - m) <= Z.abs (a - c))%Z.
  Proof.
    intros m; assert (H : (2 * m = a + c \/ (2 * m = a + c - 1 /\ 0 < a + c) \/ (2 * m = a + c + 1 /\ a + c < 0))%Z).
    { unfold m; pose proof (Z.quot_rem' (a + c) 2) as Q; pose proof (Z.rem_bound_abs (a + c) 2); pose proof (Z.rem_sign_nz (a + c) 2).
      destruct (Z.eq_dec (Z.rem (a + c) 2) 0); lia. }
    unfold zbetween; lia.
  Qed.

  Lemma zr_mid a c : zr (wmid a c) == (zr a + zr c) / 2.
  Proof. unfold zr, wmid, hmid; cbn [snd]; field. Qed.
  Lemma rr_mid a c : rr a (wmid a c) == rr a c / 2.
  Proof.
    unfold rr; setoid_replace (zr a - zr (wmid a c)) with ((1 # 2) * (zr a - zr c)) by (rewrite zr_mid; field).
    rewrite Qabs.Qabs_Qmult; change (Qabs.Qabs (1 # 2)) with (1 # 2); field.
  Qed.
  Lemma qmid_between a c : qbetween (zr a) (zr (wmid a c)) (zr c).
  Proof.
    pose proof (zr_mid a c); unfold qbetween.
    assert (E : (zr a + zr c) / 2 == (1 # 2) * (zr a + zr c)) by field; rewrite E in H.
    destruct (Qlt_le_dec (zr a) (zr c)); [left|right]; lra.
  Qed.

  Lemma zbetween_trans a m c t : zbetween a m c -> zbetween a c t -> zbetween a m t.
  Proof. unfold zbetween; lia. Qed.
  Lemma qbetween_trans a m c t : qbetween a m c -> qbetween a c t -> qbetween a m t.
  Proof.
    unfold qbetween; intros [[H1 H2]|[H1 H2]] [[H3 H4]|[H3 H4]].
    - left; lra.
    - assert (a == c) by lra; assert (m == c) by lra; right; lra.
    - assert (a == c) by lra; assert (m == c) by lra; left; lra.
    - right; lra.
  Qed.
  Lemma qbetween_abs a c t : qbetween a c t -> Qabs.Qabs (a - t) == Qabs.Qabs (a - c) + Qabs.Qabs (c - t).
  Proof.
    intros [[H1 H2]|[H1 H2]].
    - rewrite !Qabs.Qabs_neg by lra; lra.
    - rewrite !Qabs.Qabs_pos by lra; lra.
  Qed.

  Lemma zbetween_abs a m t : zbetween a m t -> (Z.abs (m - t) = Z.abs (a - t) - Z.abs (m - a) /\ 0 <= Z.abs (m - a))%Z.
  Proof. unfold zbetween; lia. Qed.

  Lemma far_cases a c : (4 < dist_sq a c)%Z ->
    (2 <= Z.abs (fst (fst a) - fst (fst c)))%Z \/ (2 <= Z.abs (snd (fst a) - snd (fst c)))%Z \/ 1 < rr a c.
  Proof.
    unfold Retriever_Model.dist_sq; intros H.
    destruct (Z_le_gt_dec 2 (Z.abs (fst (fst a) - fst (fst c)))) as [|H1]; auto.
    destruct (Z_le_gt_dec 2 (Z.abs (snd (fst a) - snd (fst c)))) as [|H2]; auto.
    right; right.
    assert (H3 : (2 <= Z.abs (zc a - zc c))%Z) by nia.
    pose proof (trunc_close (zr a) (zr c)) as T; fold (zc a) (zc c) in T.
    rewrite Zle_Qle in H3; change (inject_Z 2) with 2 in H3; unfold zr in T; fold (zc a) (zc c) in T; unfold rr, zr.
    unfold Retriever_Model.zc in *; lra.
  Qed.

  Lemma MM_decreases a c : (4 < dist_sq a c)%Z -> (MM a (wmid a c) < MM a c)%Z.
  Proof.
    intros H; apply far_cases in H; unfold MM; cbn [wmid fst snd pmid].
    destruct (quot_mid (fst (fst a)) (fst (fst c))) as (_ & A2 & A3).
    destruct (quot_mid (snd (fst a)) (snd (fst c))) as (_ & B2 & B3).
    fold (pmid (fst a) (fst c)); fold (hmid (snd a) (snd c)); fold (wmid a c).
    assert (C : (Qceiling (rr a (wmid a c)) <= Qceiling (rr a c))%Z)
      by (apply Qceiling_resp_le; rewrite rr_mid; pose proof (rr_nonneg a c); assert (E : rr a c / 2 == (1 # 2) * rr a c) by field; lra).
    destruct H as [H|[H|H]]; [lia|lia|].
    assert (C' : (Qceiling (rr a (wmid a c)) < Qceiling (rr a c))%Z).
    { assert (H2 : (2 <= Qceiling (rr a c))%Z).
      { assert (1 < inject_Z (Qceiling (rr a c))) by (pose proof (Qle_ceiling (rr a c)); lra).
        change 1 with (inject_Z 1) in H0; rewrite <- Zlt_Qlt in H0; lia. }
      enough (Qceiling (rr a (wmid a c)) <= Qceiling (rr a c) - 1)%Z by lia.
      rewrite <- (Qceiling_Z (Qceiling (rr a c) - 1)); apply Qceiling_resp_le.
      rewrite rr_mid; unfold Z.sub; rewrite inject_Z_plus; change (inject_Z (-(1))) with (-(1)).
      rewrite Zle_Qle in H2; change (inject_Z 2) with 2 in H2.
      pose proof (Qle_ceiling (rr a c)); assert (E : rr a c / 2 == (1 # 2) * rr a c) by field; lra. }
    lia.
  Qed.

  Lemma DD_between a c t : between a c t -> (DD c t <= DD a t)%Z.
  Proof.
    intros (A & B & C); unfold DD.
    assert (H : (Qceiling (2 * rr c t) <= Qceiling (2 * rr a t))%Z).
    { apply Qceiling_resp_le; unfold rr; pose proof (qbetween_abs _ _ _ C) as E; pose proof (Qabs.Qabs_nonneg (zr a - zr c)); lra. }
    unfold zbetween in *; lia.
  Qed.

  Lemma mid_advances a c t : (4 < dist_sq a c)%Z -> between a c t -> between a (wmid a c) t /\ (DD (wmid a c) t < DD a t)%Z.
  Proof.
    intros H (A & B & C).
    destruct (quot_mid (fst (fst a)) (fst (fst c))) as (A1 & A2 & A3).
    destruct (quot_mid (snd (fst a)) (snd (fst c))) as (B1 & B2 & B3).
    assert (Hb : between a (wmid a c) t).
    { split; [|split]; cbn [wmid pmid fst snd]; [eapply zbetween_trans; eauto|eapply zbetween_trans; eauto|].
      fold (pmid (fst a) (fst c)); fold (hmid (snd a) (snd c)); fold (wmid a c).
      eapply qbetween_trans; [apply qmid_between|exact C]. }
    split; [exact Hb|].
    pose proof (DD_between _ _ _ Hb) as Hd; destruct Hb as (Hx & Hy & Hz).
    unfold DD in *; cbn [wmid pmid fst snd] in *; fold (pmid (fst a) (fst c)) in *; fold (hmid (snd a) (snd c)) in *; fold (wmid a c) in *.
    assert (Hc : (Qceiling (2 * rr (wmid a c) t) <= Qceiling (2 * rr a t))%Z).
    { apply Qceiling_resp_le; unfold rr; pose proof (qbetween_abs _ _ _ Hz) as E; pose proof (Qabs.Qabs_nonneg (zr a - zr (wmid a c))); lra. }
    destruct (zbetween_abs _ _ _ Hx) as [X1 X2]; destruct (zbetween_abs _ _ _ Hy) as [Y1 Y2].
    apply far_cases in H; rewrite X1, Y1; clear - H A2 B2 X2 Y2 Hc Hz; destruct H as [H|[H|H]].
    - specialize (A2 H); lia.
    - specialize (B2 H); lia.
    - assert (Hc' : (Qceiling (2 * rr (wmid a c) t) < Qceiling (2 * rr a t))%Z).
      { enough (Qceiling (2 * rr (wmid a c) t) <= Qceiling (2 * rr a t) - 1)%Z by lia.
        rewrite <- (Qceiling_Z (Qceiling (2 * rr a t) - 1)); apply Qceiling_resp_le.
        unfold Z.sub; rewrite inject_Z_plus; change (inject_Z (-(1))) with (-(1)).
        pose proof (Qle_ceiling (2 * rr a t)); pose proof (qbetween_abs _ _ _ Hz) as E; fold (rr a t) in E; fold (rr a (wmid a c)) in E; fold (rr (wmid a c) t) in E.
        pose proof (rr_mid a c) as R; assert (E2 : rr a c / 2 == (1 # 2) * rr a c) by field; lra. }
      clear - X2 Y2 Hc'; lia.
  Qed.

  Lemma between_end a t : between a t t.
  Proof. unfold between, zbetween, qbetween; repeat split; try lia; destruct (Qlt_le_dec (zr a) (zr t)); [left|right]; lra. Qed.

  Lemma max_loop_terminates max_sq final : (4 <= max_sq)%Z -> forall rest t back, exists fuel out, max_loop scale fuel max_sq final back t t rest = Ok out.
  Proof.
    intros Hm; induction rest as [|t' rest IHr]; intros t.
    all: enough (G : forall d back cur, (Z.to_nat (DD back t) < d)%nat -> between back cur t -> cur = t \/ (DD cur t < DD back t)%Z ->
      exists fuel out, max_loop scale fuel max_sq final back cur t _ = Ok out)
      by (intros back; apply (G (Datatypes.S (Z.to_nat (DD back t)))); [lia|apply between_end|auto]).
    all: induction d as [|d IHd]; intros back cur Hd Hb Hc; [lia|].
    all: remember (Datatypes.S (Z.to_nat (MM back cur))) as n eqn:En; assert (Hn : (Z.to_nat (MM back cur) < n)%nat) by lia; clear En;
      revert cur Hb Hc Hn; induction n as [|n IHn]; intros cur Hb Hc Hn; [lia|].
    all: destruct (Z.ltb_spec max_sq (dist_sq back cur)) as [Hf|Hf].
    1,3: assert (H4 : (4 < dist_sq back cur)%Z) by lia;
      destruct (mid_advances _ _ _ H4 Hb) as [Hb' Hd'];
      pose proof (MM_decreases _ _ H4); pose proof (MM_nonneg back (wmid back cur)); pose proof (MM_nonneg back cur);
      destruct (IHn (wmid back cur) Hb' (or_intror Hd')) as (fuel & out & E); [lia|];
      exists (Datatypes.S fuel), out; cbn [max_loop]; rewrite (proj2 (Z.ltb_lt _ _)) by lia; exact E.
    all: destruct (same cur t) eqn:Es.
    2,4: assert (Hne : cur <> t) by (intros ->; assert (same t t = true) by (apply same_spec; split; reflexivity); congruence);
      destruct Hc as [Hc|Hc]; [tauto|]; pose proof (DD_nonneg cur t); pose proof (DD_nonneg back t);
      destruct (IHd cur t) as (fuel & out & E); [lia|apply between_end|auto|];
      exists (Datatypes.S fuel), (cur :: out); cbn [max_loop]; rewrite (proj2 (Z.ltb_ge _ _)) by lia; rewrite Es, E; reflexivity.
    - exists 1%nat, [cur; final]; cbn [max_loop]; rewrite (proj2 (Z.ltb_ge _ _)) by lia; rewrite Es; reflexivity.
    - destruct (IHr t' cur) as (fuel & out & E).
      exists (Datatypes.S fuel), (cur :: out); cbn [max_loop]; rewrite (proj2 (Z.ltb_ge _ _)) by lia; rewrite Es, E; reflexivity.
  Qed.
End MaxLen.
