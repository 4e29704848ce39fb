From Verif Require Import Base LookupTable_Model LookupTable_Spec LookupTable_Proofs Keyed_Model Keyed_Spec.
From Coq Require Import QArith Lqa.
Local Open Scope Q_scope.

Section K.
  Context {V : Type}.

  Lemma emplace_history (hist : list (nat * V)) k :
    alookup Nat.eqb k (fold_left (fun m s => aemplace Nat.eqb (fst s) (snd s) m) hist []) = first_set hist k.
  Proof.
    enough (G : forall m, alookup Nat.eqb k (fold_left (fun m s => aemplace Nat.eqb (fst s) (snd s) m) hist m) =
      match alookup Nat.eqb k m with Some w => Some w | None => first_set hist k end) by apply (G []).
    induction hist as [|[k' v] hist IH]; intros m; simpl.
    - destruct (alookup Nat.eqb k m); auto.
    - rewrite IH, (alookup_emplace Nat.eqb nat_eqb_reflect).
      destruct (alookup Nat.eqb k m); auto.
      rewrite Nat.eqb_sym; destruct (k' =? k)%nat; auto.
  Qed.

  Lemma first_set_app (a b : list (nat * V)) k :
    first_set (a ++ b) k = match first_set a k with Some v => Some v | None => first_set b k end.
  Proof. induction a as [|[k' v] a IH]; simpl; auto; destruct (k' =? k)%nat; auto. Qed.

  Lemma first_set_none (l : list (nat * V)) k : filter (fun s => (fst s =? k)%nat) l = [] -> first_set l k = None.
  Proof. induction l as [|[k' v] l IH]; simpl; auto; destruct (k' =? k)%nat; auto; discriminate. Qed.

  Lemma set_once_last (hist : list (nat * V)) k : set_once hist k -> last_set hist k = first_set hist k.
  Proof.
    unfold set_once, last_set; induction hist as [|[k' v] hist IH]; simpl; auto.
    rewrite first_set_app; simpl; destruct (k' =? k)%nat eqn:E; simpl; intros H.
    - assert (F : filter (fun s => (fst s =? k)%nat) hist = []) by (destruct (filter _ hist); simpl in H; auto; lia).
      assert (F' : filter (fun s : nat * V => (fst s =? k)%nat) (rev hist) = []).
      { clear - F; induction hist as [|s l IH]; simpl in *; auto.
        rewrite filter_app; simpl; destruct (fst s =? k)%nat; [discriminate|]; rewrite IH; auto. }
      rewrite (first_set_none _ _ F'); auto.
    - rewrite IH by auto; destruct (first_set hist k); auto.
  Qed.
End K.

(** grid tables *)
Section G.
  Context (pchip : list Q -> list Q -> Q -> res Q).

  Definition cache_ok (t : gtable) : Prop :=
    match gt_interp t with
    | None => True
    | Some i => fst i = map fst (gt_data t) /\
                forall x y, snd i x y = map (fun s => gr_at (snd s) x y) (gt_data t)
    end.

  Lemma query_ok t k x y : cache_ok t ->
    let (t', r) := gt_query pchip t k x y in
    query_spec pchip (gt_w t) (gt_h t) (gt_data t) k x y (fst r) (snd r) /\
    cache_ok t' /\ gt_data t' = gt_data t /\ gt_w t' = gt_w t /\ gt_h t' = gt_h t.
  Proof.
    intros Hc; unfold gt_query.
    destruct (gt_w t <=? x)%nat eqn:E1; [apply Nat.leb_le in E1; simpl; repeat split; auto; apply q_outside; auto|].
    destruct (gt_h t <=? y)%nat eqn:E2; [apply Nat.leb_le in E2; simpl; repeat split; auto; apply q_outside; auto|].
    apply Nat.leb_gt in E1, E2; cbn [orb].
    destruct (gt_data t) as [|[k0 d0] [|s1 r]] eqn:Ed.
    - simpl; repeat split; auto; apply q_empty; auto.
    - simpl; repeat split; auto; eapply q_first; eauto.
    - destruct (last ((k0, d0) :: s1 :: r) (0, d0)) as [kn dn] eqn:El.
      destruct (@exists_last _ ((k0, d0) :: s1 :: r)) as (r0 & [kn' dn'] & Er); [discriminate|].
      assert (Hl : (kn', dn') = (kn, dn)) by (rewrite <- El, Er; symmetry; apply last_last).
      injection Hl as -> ->.
      destruct (Qle_bool k k0) eqn:E3.
      { apply Qle_bool_iff in E3; simpl; repeat split; auto; eapply q_first; eauto. }
      assert (H3 : k0 < k) by (apply Qnot_le_lt; intros H; apply Qle_bool_iff in H; congruence).
      destruct (Qle_bool kn k) eqn:E4.
      { apply Qle_bool_iff in E4; cbn [fst snd]; split; [|auto].
        eapply (q_last _ _ _ _ _ _ _ kn dn r0); auto.
        - intros ->; simpl in Er; discriminate.
        - intros k1 d1 r' E; injection E as <- _ _; auto. }
      assert (H4 : k < kn) by (apply Qnot_le_lt; intros H; apply Qle_bool_iff in H; congruence).
      assert (Hin : query_spec pchip (gt_w t) (gt_h t) (gt_data t) k x y true
                      (pchip (map fst (gt_data t)) (map (fun s => gr_at (snd s) x y) (gt_data t)) k)).
      { rewrite Ed; apply q_inside; auto; [| |discriminate].
        - intros k1 d1 r' E; injection E as <- _ _; auto.
        - intros k1 d1 r' E; rewrite Er in E; apply app_inj_tail in E as [_ E]; injection E as <- _; auto. }
      unfold gt_build, cache_ok in *; destruct (gt_interp t) as [[ks vs]|] eqn:Ei; cbn [fst snd] in *.
      + destruct Hc as [Hc1 Hc2]; rewrite Hc1, Hc2, Ei; cbn [fst snd]; rewrite Ed in *; repeat split; auto.
      + rewrite Ed in *; repeat split; auto.
  Qed.

  Lemma run_ok ops : forall t, cache_ok t ->
    outputs_spec pchip (gt_w t) (gt_h t) (gt_data t) ops (snd (gt_run pchip t ops)) /\
    gt_data (fst (gt_run pchip t ops)) = fold_left add_sample (accepted (gt_w t) (gt_h t) ops) (gt_data t).
  Proof.
    induction ops as [|[k d|k x y] ops IH]; intros t Hc; simpl.
    - split; auto; constructor.
    - unfold gt_add.
      assert (Eb : negb (gr_w d =? gt_w t)%nat || negb (gr_h d =? gt_h t)%nat
                   = negb ((gr_w d =? gt_w t) && (gr_h d =? gt_h t))%nat)
        by (destruct (gr_w d =? gt_w t)%nat, (gr_h d =? gt_h t)%nat; auto).
      rewrite Eb; destruct ((gr_w d =? gt_w t) && (gr_h d =? gt_h t))%nat eqn:E; cbn [negb].
      + specialize (IH (mkGT (gt_w t) (gt_h t) (tbl_emplace k d (gt_data t)) None) I).
        destruct (gt_run pchip _ ops) as [t2 outs]; simpl in *; destruct IH as [I1 I2]; split; auto.
        econstructor; [symmetry; exact E|exact I1].
      + specialize (IH t Hc); destruct (gt_run pchip t ops) as [t2 outs]; simpl in *; destruct IH as [I1 I2].
        split; auto; econstructor; [symmetry; exact E|exact I1].
    - pose proof (query_ok t k x y Hc) as Hq; destruct (gt_query pchip t k x y) as [t1 [b r]].
      destruct Hq as (Hq & Hc1 & Hd & Hw & Hh); cbn [fst snd] in *.
      specialize (IH t1 Hc1); rewrite Hd, Hw, Hh in IH.
      destruct (gt_run pchip t1 ops) as [t2 outs]; simpl in *; destruct IH as [I1 I2]; split; auto.
      econstructor; eauto.
  Qed.

  Lemma get_table_value t k : gt_get_table t k = value_at (gt_data t) k.
  Proof.
    unfold gt_get_table; induction (gt_data t) as [|[k' d] l IH]; simpl; auto; destruct (Qeq_bool k' k); auto.
  Qed.
End G.
