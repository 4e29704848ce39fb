From Verif Require Import Base QSum LayerCut_Model PrismExtract_Model PrismExtract_Spec.

Section P.
  Context {pt table : Type} (pq_top : list nat -> option nat) (shared : nat -> bool).

  Lemma make_trees_spec m n s trees : shares m shared -> (forall l, (s <= l < s + n)%nat -> layer_polygons m l <> None) ->
    (forall l, alookup Nat.eqb l trees = if (l <? s)%nat then layer_polygons m l else None) ->
    (forall l, (l < s)%nat -> layer_polygons m l <> None) ->
    exists trees', make_trees shared m (seq s n) trees = Ok trees' /\
      forall l, alookup Nat.eqb l trees' = if (l <? s + n)%nat then layer_polygons m l else None.
  Proof.
    intros Sh; revert s trees; induction n as [|n IH]; intros s trees Hl Ht Hd; cbn [seq make_trees].
    - exists trees; split; [reflexivity|]; rewrite Nat.add_0_r; exact Ht.
    - destruct (layer_polygons m s) as [v|] eqn:Ev; [|exfalso; apply (Hl s); [lia|exact Ev]].
      assert (E : (if ((0 <? s)%nat && shared s)%bool
              then match alookup Nat.eqb (s - 1)%nat trees with Some t => Ok t | None => Throw end else Ok v) = Ok v).
      { destruct (Nat.ltb_spec 0 s); cbn [andb]; [|reflexivity]; destruct (shared s) eqn:Es; [|reflexivity].
        rewrite Ht; destruct (Nat.ltb_spec (s - 1) s); [|lia].
        destruct s as [|s]; [lia|]; rewrite (Sh s Es) in Ev; replace (S s - 1)%nat with s by lia; rewrite Ev; reflexivity. }
      rewrite E; cbn [bind]; destruct (IH (S s) (aemplace Nat.eqb s v trees)) as (t' & E' & V).
      + intros l L; apply Hl; lia.
      + intros l; rewrite (alookup_emplace _ Nat.eqb_spec), Ht.
        destruct (Nat.ltb_spec l s), (Nat.ltb_spec l (S s)), (Nat.eqb_spec l s); try lia; try (subst; congruence); try reflexivity.
        * destruct (layer_polygons m l) eqn:El; [reflexivity|exfalso; exact (Hd l H El)].
      + intros l L; destruct (Nat.eq_dec l s) as [->|]; [congruence|apply Hd; lia].
      + exists t'; split; [exact E'|]; intros l; rewrite V; replace (S s + n)%nat with (s + S n)%nat by lia; reflexivity.
  Qed.

  Lemma make_query_ok m : shares m shared -> l_order m <> [] -> (forall l, (l < total_layers (l_order m))%nat -> layer_polygons m l <> None) ->
    exists trees, make_query shared m = Ok trees /\ forall l, (l < total_layers (l_order m))%nat -> alookup Nat.eqb l trees = layer_polygons m l.
  Proof.
    intros Sh Ho Hl; unfold make_query; destruct (l_order m) as [|z0 o0] eqn:Eo; [congruence|]; rewrite <- Eo in *.
    destruct (make_trees_spec m (total_layers (l_order m)) 0 [] Sh) as (t & E & V).
    - intros l L; apply Hl; lia.
    - reflexivity.
    - intros; lia.
    - exists t; split; [exact E|]; intros l L; rewrite V; destruct (Nat.ltb_spec l (0 + total_layers (l_order m))); [reflexivity|lia].
  Qed.

  Lemma make_trees_gap m n s trees : shares m shared -> (exists l, (s <= l < s + n)%nat /\ layer_polygons m l = None) ->
    (forall l, alookup Nat.eqb l trees = if (l <? s)%nat then layer_polygons m l else None) ->
    (forall l, (l < s)%nat -> layer_polygons m l <> None) ->
    make_trees shared m (seq s n) trees = Throw.
  Proof.
    intros Sh; revert s trees; induction n as [|n IH]; intros s trees (g & Hg & Eg) Ht Hd; cbn [seq make_trees]; [lia|].
    destruct (layer_polygons m s) as [v|] eqn:Ev; [|reflexivity].
    assert (g <> s) by congruence.
    assert (E : (if ((0 <? s)%nat && shared s)%bool
            then match alookup Nat.eqb (s - 1)%nat trees with Some t => Ok t | None => Throw end else Ok v) = Ok v).
    { destruct (Nat.ltb_spec 0 s); cbn [andb]; [|reflexivity]; destruct (shared s) eqn:Es; [|reflexivity].
      rewrite Ht; destruct (Nat.ltb_spec (s - 1) s); [|lia].
      destruct s as [|s]; [lia|]; rewrite (Sh s Es) in Ev; replace (S s - 1)%nat with s by lia; rewrite Ev; reflexivity. }
    rewrite E; cbn [bind]; apply IH.
    - exists g; split; [lia|exact Eg].
    - intros l; rewrite (alookup_emplace _ Nat.eqb_spec), Ht.
      destruct (Nat.ltb_spec l s), (Nat.ltb_spec l (S s)), (Nat.eqb_spec l s); try lia; try (subst; congruence); try reflexivity.
      destruct (layer_polygons m l) eqn:El; [reflexivity|exfalso; exact (Hd l H0 El)].
    - intros l L; destruct (Nat.eq_dec l s) as [->|]; [congruence|apply Hd; lia].
  Qed.

  Context (ps : list (pdata pt table)) (m : lcm) (trees : list (nat * list nat)).
  Context (Hpq : smallest_first ps pq_top) (Hbox : boxes_hold ps).

  Lemma hits l v x i : layer_polygons m l = Some v ->
    In i (filter (hit ps p_in x) (filter (hit ps p_box x) v)) <-> contains_at ps m l x i.
  Proof.
    intros El; rewrite !filter_In; unfold hit, contains_at; split.
    - intros [[Hi _] H]; destruct (nth_error ps i) as [p|] eqn:Ep; [|discriminate]; exists v, p; auto.
    - intros (v' & p & El' & Hi & Ep & H); rewrite El in El'; injection El' as <-; rewrite Ep; repeat split; auto.
      apply Hbox; [eapply nth_error_In; eauto|exact H].
  Qed.

  Lemma search_spec l x v : alookup Nat.eqb l trees = Some v -> layer_polygons m l = Some v ->
    exists r, search pq_top ps m trees l x = Ok r /\
      match r with Some i => innermost ps m l x i | None => forall i, ~ contains_at ps m l x i end.
  Proof.
    intros Et El; unfold search; rewrite El, Et; pose proof (hits l v x) as H; specialize (fun i => H i El).
    destruct (filter (hit ps p_box x) v) as [|a r] eqn:Ef.
    - exists None; split; [reflexivity|]; intros i Hc; apply H in Hc; destruct Hc.
    - eexists; split; [reflexivity|]; specialize (Hpq (filter (hit ps p_in x) (a :: r))); destruct (pq_top _) as [i|].
      + destruct Hpq as [Hi Hm]; split; [apply H, Hi|]; intros j p q Hj Hp Hq; apply (Hm j p q); auto; apply H, Hj.
      + intros i Hc; apply H in Hc; rewrite Hpq in Hc; destruct Hc.
  Qed.

  (** * Elements *)
  Context (fluids : list Z).
  Definition kept (l : nat) (it : nat) (t : tri pt) (e : element table) (k : nat) : Prop :=
    exists pid p, innermost ps m l (t_center t) pid /\ nth_error ps pid = Some p /\ solid fluids p /\
      search pq_top ps m trees l (t_center t) = Ok (Some pid) /\ e = mkEl k it (p_mat p) (p_net p) (power_of m l p t).
  Definition skipped (l : nat) (t : tri pt) : Prop :=
    (search pq_top ps m trees l (t_center t) = Ok None /\ forall i, ~ contains_at ps m l (t_center t) i) \/
    exists pid p, innermost ps m l (t_center t) pid /\ nth_error ps pid = Some p /\ ~ solid fluids p /\ search pq_top ps m trees l (t_center t) = Ok (Some pid).

  (** The elements follow the triangles in order, some left out. *)
  Inductive layout (l : nat) : nat -> nat -> list (tri pt) -> list (element table) -> Prop :=
  | lay_nil it k : layout l it k [] []
  | lay_skip it k t ts es : skipped l t -> layout l (S it) k ts es -> layout l it k (t :: ts) es
  | lay_keep it k t ts e es : kept l it t e k -> layout l (S it) (S k) ts es -> layout l it k (t :: ts) (e :: es).

  Lemma build_layer_spec l v : alookup Nat.eqb l trees = Some v -> layer_polygons m l = Some v ->
    forall ts it acc, exists es, build_layer pq_top ps m trees fluids l ts it acc = Ok (acc ++ es) /\ layout l it (List.length acc) ts es.
  Proof.
    intros Et El; induction ts as [|t ts IH]; intros it acc; cbn [build_layer].
    - exists []; rewrite app_nil_r; split; [reflexivity|constructor].
    - destruct (search_spec l (t_center t) v Et El) as (r & Er & Hr); rewrite Er; cbn [bind]; destruct r as [pid|].
      + assert (Hp : exists p, nth_error ps pid = Some p) by (destruct Hr as [(v' & p & _ & _ & Hp & _) _]; eauto).
        destruct Hp as (p & Hp); rewrite Hp.
        destruct (existsb (Z.eqb (p_mat p)) fluids) eqn:Ef.
        { destruct (IH (S it) acc) as (es & E & L); exists es; split; [exact E|]; apply lay_skip; [|exact L]; right; exists pid, p.
          repeat split; auto; try apply Hr; intros [_ Hs]; apply Hs; apply existsb_exists in Ef as (y & Hy & Ey); apply Z.eqb_eq in Ey; subst; exact Hy. }
        destruct (Z.eqb_spec (p_mat p) noMaterial) as [Em|Em].
        { destruct (IH (S it) acc) as (es & E & L); exists es; split; [exact E|]; apply lay_skip; [|exact L]; right; exists pid, p.
          repeat split; auto; try apply Hr; intros [Hs _]; exact (Hs Em). }
        destruct (IH (S it) (acc ++ [mkEl (List.length acc) it (p_mat p) (p_net p) (power_of m l p t)])) as (es & E & L).
        exists (mkEl (List.length acc) it (p_mat p) (p_net p) (power_of m l p t) :: es); rewrite <- app_assoc in E; split; [exact E|].
        apply lay_keep; [|rewrite app_length in L; cbn [List.length] in L; rewrite Nat.add_1_r in L; exact L].
        exists pid, p; repeat split; auto; try apply Hr.
        intros Hi; assert (existsb (Z.eqb (p_mat p)) fluids = true) by (apply existsb_exists; exists (p_mat p); split; [exact Hi|apply Z.eqb_refl]); congruence.
      + destruct (IH (S it) acc) as (es & E & L); exists es; split; [exact E|]; apply lay_skip; [left; auto|exact L].
  Qed.

  Lemma layout_elems l : forall it k ts es, layout l it k ts es -> forall n e, nth_error es n = Some e ->
    x_id e = (k + n)%nat /\ (it <= x_tid e)%nat /\ exists t, nth_error ts (x_tid e - it) = Some t /\ kept l (x_tid e) t e (x_id e).
  Proof.
    induction 1 as [it k|it k t ts es Hs L IH|it k t ts e0 es Hk L IH]; intros n e Hn.
    - destruct n; discriminate.
    - destruct (IH n e Hn) as (A & B & t' & C & D); split; [exact A|]; split; [lia|]; exists t'; split; [|exact D].
      replace (x_tid e - it)%nat with (S (x_tid e - S it)) by lia; exact C.
    - destruct n as [|n]; cbn [nth_error] in Hn.
      + injection Hn as <-; pose proof Hk as (pid & p & _ & _ & _ & _ & ->); cbn [x_id x_tid]; repeat split; [lia|lia|].
        exists t; rewrite Nat.sub_diag; split; [reflexivity|exact Hk].
      + destruct (IH n e Hn) as (A & B & t' & C & D); split; [lia|]; split; [lia|]; exists t'; split; [|exact D].
        replace (x_tid e - it)%nat with (S (x_tid e - S it)) by lia; exact C.
  Qed.

  Lemma layout_tris l : forall it k ts es, layout l it k ts es -> forall n t, nth_error ts n = Some t ->
    skipped l t \/ exists e, In e es /\ x_tid e = (it + n)%nat.
  Proof.
    induction 1 as [it k|it k t0 ts es Hs L IH|it k t0 ts e0 es Hk L IH]; intros n t Hn.
    - destruct n; discriminate.
    - destruct n as [|n]; cbn [nth_error] in Hn; [injection Hn as <-; auto|].
      destruct (IH n t Hn) as [A|(e & A & B)]; [auto|right; exists e; split; [exact A|lia]].
    - destruct n as [|n]; cbn [nth_error] in Hn.
      + right; exists e0; split; [left; reflexivity|]; pose proof Hk as (pid & p & _ & _ & _ & _ & ->); cbn; lia.
      + destruct (IH n t Hn) as [A|(e & A & B)]; [auto|right; exists e; split; [right; exact A|lia]].
  Qed.

  Lemma layout_sorted l : forall it k ts es, layout l it k ts es -> forall a b ea eb, (a < b)%nat ->
    nth_error es a = Some ea -> nth_error es b = Some eb -> (x_tid ea < x_tid eb)%nat.
  Proof.
    induction 1 as [it k|it k t0 ts es Hs L IH|it k t0 ts e0 es Hk L IH]; intros a b ea eb Lt Ha Hb.
    - destruct a; discriminate.
    - eauto.
    - destruct b as [|b]; [lia|]; destruct a as [|a]; cbn [nth_error] in *; [|apply (IH a b); auto; lia].
      injection Ha as <-; destruct (layout_elems l _ _ _ _ L b eb Hb) as (_ & B & _).
      pose proof Hk as (pid & p & _ & _ & _ & _ & ->); cbn; lia.
  Qed.

  Lemma build_layers_spec mesh lyrs : (forall l, In l lyrs -> layer_polygons m l <> None /\ alookup Nat.eqb l trees = layer_polygons m l) ->
    exists ls, build_layers pq_top ps m trees fluids mesh lyrs = Ok ls /\ Forall2 (fun l es => layout l 0 0 (mesh l) es) lyrs ls.
  Proof.
    induction lyrs as [|l lyrs IH]; intros H; cbn [build_layers]; [exists []; split; [reflexivity|constructor]|].
    destruct (H l (or_introl eq_refl)) as [Hn Ht]; destruct (layer_polygons m l) as [v|] eqn:El; [|congruence].
    destruct (build_layer_spec l v Ht El (mesh l) 0 []) as (es & E & L); rewrite E; cbn [bind app].
    destruct IH as (ls & E' & F); [intros; apply H; right; auto|]; rewrite E'; cbn [bind]; exists (es :: ls); split; [reflexivity|constructor; auto].
  Qed.

  (** * Power *)
  (** Elements of other layers carry nothing of the block. *)
  Lemma layout_other l is_b pid :
    (forall j q r s t, nth_error ps j = Some q -> p_block q = Some (r, s, t) -> is_b (s, t) = true -> j = pid) ->
    forall p r s tb, nth_error ps pid = Some p -> p_block p = Some (r, s, tb) -> layer_by_height m (hi r) <> Some l ->
    forall it k ts es, layout l it k ts es -> (sumf (ratio_of is_b) es == 0)%Q.
  Proof.
    intros Hu p r s tb Hp Hb Hl; induction 1 as [it k|it k t ts es Hsk L IH|it k t ts e es Hk L IH]; cbn [sumf]; [reflexivity|exact IH|].
    rewrite IH; destruct Hk as (pid' & p' & _ & Hp' & Hs' & E & ->); unfold ratio_of; cbn [x_power]; unfold power_of.
    destruct (p_block p') as [[[r0 sc] lut]|] eqn:Eb; [|reflexivity]; destruct (layer_by_height m (hi r0)) as [l0|] eqn:El; [|reflexivity].
    destruct (Nat.eqb_spec l l0) as [<-|]; [|reflexivity]; destruct (is_b (sc, lut)) eqn:Eib; [|reflexivity]; exfalso.
    pose proof (Hu _ _ _ _ _ Hp' Eb Eib) as ->; congruence.
  Qed.

  Lemma layout_ratio l is_b pid p : nth_error ps pid = Some p ->
    (forall j q r s t, nth_error ps j = Some q -> p_block q = Some (r, s, t) -> is_b (s, t) = true -> j = pid) ->
    solid fluids p -> forall r s tb, p_block p = Some (r, s, tb) -> is_b (s, tb) = true -> layer_by_height m (hi r) = Some l ->
    forall it k ts es, layout l it k ts es ->
    (forall t, In t ts -> search pq_top ps m trees l (t_center t) = Ok (Some pid) <-> p_in p (t_center t) = true) ->
      (sumf (ratio_of is_b) es == sumf (fun t => if p_in p (t_center t) then t_area t / p_area p else 0) ts)%Q.
  Proof.
    intros Hp Hu Hsol r s tb Hb Hisb Hl; induction 1 as [it k|it k t ts es Hsk L IH|it k t ts e es Hk L IH]; intros Hs; cbn [sumf]; [reflexivity| |].
    - rewrite IH by (intros; apply Hs; right; auto); assert (Hn : p_in p (t_center t) = false).
      { destruct (p_in p (t_center t)) eqn:Ei; [|reflexivity]; apply (Hs t (or_introl eq_refl)) in Ei; destruct Hsk as [[E _]|(pid' & p' & _ & Hp' & Hns & E)].
        - congruence.
        - rewrite Ei in E; injection E as <-; rewrite Hp in Hp'; injection Hp' as <-; contradiction. }
      rewrite Hn; ring.
    - rewrite IH by (intros; apply Hs; right; auto); destruct Hk as (pid' & p' & _ & Hp' & Hs' & E & ->); unfold ratio_of; cbn [x_power]; unfold power_of.
      destruct (p_in p (t_center t)) eqn:Ei.
      + pose proof (proj2 (Hs t (or_introl eq_refl)) Ei) as E2; rewrite E in E2; injection E2 as ->; rewrite Hp in Hp'; injection Hp' as <-; rewrite Hb, Hl, Nat.eqb_refl, Hisb; ring.
      + assert (Hne : pid' <> pid) by (intros ->; apply (Hs t (or_introl eq_refl)) in E; congruence).
        destruct (p_block p') as [[[r0 sc] lut]|] eqn:Eb; [|ring]; destruct (layer_by_height m (hi r0)); [|ring].
        destruct (_ =? _)%nat; [|ring]; destruct (is_b (sc, lut)) eqn:Eib; [|ring]; exfalso; apply Hne; exact (Hu _ _ _ _ _ Hp' Eb Eib).
  Qed.
End P.
