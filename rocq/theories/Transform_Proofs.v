From Verif Require Import Base Names_Spec Transform_Model Transform_Spec.
From Coq Require Import Qring Setoid Lqa.
Local Open Scope Q_scope.

Lemma peq_refl p : peq p p.
Proof. split; reflexivity. Qed.
Lemma peq_sym p q : peq p q -> peq q p.
Proof. intros [H1 H2]; split; symmetry; auto. Qed.
Lemma peq_trans p q r : peq p q -> peq q r -> peq p r.
Proof. intros [H1 H2] [H3 H4]; split; etransitivity; eauto. Qed.

Lemma apply_mul m n p : peq (aff_apply (aff_mul m n) p) (aff_apply m (aff_apply n p)).
Proof. destruct p; split; unfold aff_apply, aff_mul; cbn [fst snd a11 a12 a13 a21 a22 a23]; ring. Qed.

Lemma apply_id p : peq (aff_apply aff_id p) p.
Proof. destruct p; split; unfold aff_apply, aff_id; cbn [fst snd a11 a12 a13 a21 a22 a23]; ring. Qed.

Lemma apply_peq m p q : peq p q -> peq (aff_apply m p) (aff_apply m q).
Proof. intros [H1 H2]; split; unfold aff_apply; simpl; rewrite H1, H2; reflexivity. Qed.

Section P.
  Context (cosQ sinQ : Q -> Q).
  Notation seqt := (seq_transform cosQ sinQ).
  Notation get := (get_transform cosQ sinQ).

  Lemma untransformed_id d : is_transformed d = false -> td_transform cosQ sinQ d = aff_id.
  Proof.
    unfold is_transformed, td_transform; intros H.
    apply orb_false_iff in H as [H H4]; apply orb_false_iff in H as [H H3]; apply orb_false_iff in H as [H1 H2].
    rewrite H1, H2, H3, H4; auto.
  Qed.

  Lemma seq_apply l : forall m p,
    peq (aff_apply (fold_left (fun t d => if is_transformed d then aff_mul (td_transform cosQ sinQ d) t else t) l m) p)
        (fold_left (fun q d => aff_apply (td_transform cosQ sinQ d) q) l (aff_apply m p)).
  Proof.
    assert (Hc : forall l p q, peq p q ->
      peq (fold_left (fun q d => aff_apply (td_transform cosQ sinQ d) q) l p)
          (fold_left (fun q d => aff_apply (td_transform cosQ sinQ d) q) l q)).
    { induction l0 as [|d l0 IH]; simpl; intros p q H; auto; apply IH, apply_peq, H. }
    induction l as [|d l IH]; simpl; intros m p; [apply peq_refl|].
    eapply peq_trans; [apply IH|]; apply Hc.
    destruct (is_transformed d) eqn:E; [apply apply_mul|].
    rewrite (untransformed_id d E); apply peq_sym, apply_id.
  Qed.

  Lemma fold_apply_peq l : forall p q, peq p q ->
      peq (fold_left (fun q d => aff_apply (td_transform cosQ sinQ d) q) l p)
          (fold_left (fun q d => aff_apply (td_transform cosQ sinQ d) q) l q).
  Proof. induction l as [|d l IH]; simpl; intros p q H; auto; apply IH, apply_peq, H. Qed.

  Lemma seqt_apply l p : peq (aff_apply (seqt l) p)
    (fold_left (fun q d => aff_apply (td_transform cosQ sinQ d) q) l p).
  Proof. eapply peq_trans; [apply seq_apply|apply fold_apply_peq, apply_id]. Qed.

  Lemma fold_filter l : forall p,
    peq (fold_left (fun q d => aff_apply (td_transform cosQ sinQ d) q) (filter is_transformed l) p)
        (fold_left (fun q d => aff_apply (td_transform cosQ sinQ d) q) l p).
  Proof.
    induction l as [|d l IH]; simpl; intros p; [apply peq_refl|].
    destruct (is_transformed d) eqn:E; simpl; auto.
    eapply peq_trans; [apply IH|]; apply fold_apply_peq; rewrite (untransformed_id d E); apply peq_sym, apply_id.
  Qed.

  Lemma seqt_append l u p :
    peq (aff_apply (seqt (l ++ filter is_transformed u)) p) (aff_apply (seqt u) (aff_apply (seqt l) p)).
  Proof.
    eapply peq_trans; [apply seqt_apply|]; rewrite fold_left_app.
    eapply peq_trans; [apply fold_filter|]; apply peq_sym.
    eapply peq_trans; [apply seqt_apply|]; apply fold_apply_peq, seqt_apply.
  Qed.

  (** an item does what the documentation says *)
  Lemma Qeq_bool_true a b : Qeq_bool a b = true -> a == b.
  Proof. apply Qeq_bool_iff. Qed.

  Lemma scale_pt_peq s p q : peq p q -> peq (scale_pt s p) (scale_pt s q).
  Proof. intros [H1 H2]; split; unfold scale_pt; cbn [fst snd]; [rewrite H1|rewrite H2]; reflexivity. Qed.
  Lemma rotate_pt_peq r p q : peq p q -> peq (rotate_pt cosQ sinQ r p) (rotate_pt cosQ sinQ r q).
  Proof. intros [H1 H2]; split; unfold rotate_pt; cbn [fst snd]; rewrite H1, H2; reflexivity. Qed.
  Lemma mirror_pt_peq m p q : peq p q -> peq (mirror_pt m p) (mirror_pt m q).
  Proof.
    intros [H1 H2]; destruct m; split; unfold mirror_pt; cbn [fst snd]; auto;
      try (rewrite H1; reflexivity); rewrite H2; reflexivity.
  Qed.
  Lemma shift_pt_peq o p q : peq p q -> peq (shift_pt o p) (shift_pt o q).
  Proof. intros [H1 H2]; split; unfold shift_pt; cbn [fst snd]; [rewrite H1|rewrite H2]; reflexivity. Qed.

  Lemma scale_step s t p :
    peq (aff_apply (if negb (Qeq_bool s 1) then aff_mul (mk_scale s) t else t) p) (scale_pt s (aff_apply t p)).
  Proof.
    destruct (Qeq_bool s 1) eqn:E; cbn [negb].
    - apply Qeq_bool_true in E; unfold scale_pt; split; cbn [fst snd]; rewrite E; ring.
    - eapply peq_trans; [apply apply_mul|]; destruct (aff_apply t p) as [x y].
      split; unfold aff_apply, mk_scale, scale_pt; cbn [fst snd a11 a12 a13 a21 a22 a23]; ring.
  Qed.

  Lemma rotate_step r t p :
    cosQ 0 == 1 -> sinQ 0 == 0 -> Proper (Qeq ==> Qeq) cosQ -> Proper (Qeq ==> Qeq) sinQ ->
    peq (aff_apply (if negb (Qeq_bool r 0) then aff_mul (mk_rotate cosQ sinQ r) t else t) p)
        (rotate_pt cosQ sinQ r (aff_apply t p)).
  Proof.
    intros Hc Hs Pc Ps; destruct (Qeq_bool r 0) eqn:E; cbn [negb].
    - apply Qeq_bool_true in E; destruct (aff_apply t p) as [x y].
      assert (Ec : cosQ r == 1) by (rewrite <- Hc; apply Pc, E).
      assert (Es : sinQ r == 0) by (rewrite <- Hs; apply Ps, E).
      unfold rotate_pt; split; cbn [fst snd]; rewrite Ec, Es; ring.
    - eapply peq_trans; [apply apply_mul|]; destruct (aff_apply t p) as [x y].
      split; unfold aff_apply, mk_rotate, rotate_pt; cbn [fst snd a11 a12 a13 a21 a22 a23]; ring.
  Qed.

  Lemma mirror_step m t p :
    peq (aff_apply (if match m with MNo => false | _ => true end then aff_mul (mk_mirror m) t else t) p)
        (mirror_pt m (aff_apply t p)).
  Proof.
    destruct m; cbn [mirror_pt]; [apply peq_refl|..];
      (eapply peq_trans; [apply apply_mul|]; destruct (aff_apply t p) as [x y];
       split; unfold aff_apply, mk_mirror, mirror_pt; cbn [fst snd a11 a12 a13 a21 a22 a23]; ring).
  Qed.

  Lemma shift_step o t p :
    peq (aff_apply (if negb (Qeq_bool (fst o) 0 && Qeq_bool (snd o) 0) then aff_mul (mk_shift o) t else t) p)
        (shift_pt o (aff_apply t p)).
  Proof.
    destruct (Qeq_bool (fst o) 0 && Qeq_bool (snd o) 0) eqn:E; cbn [negb].
    - apply andb_prop in E as [E1 E2]; apply Qeq_bool_true in E1, E2.
      unfold shift_pt; split; cbn [fst snd]; [rewrite E1|rewrite E2]; ring.
    - eapply peq_trans; [apply apply_mul|]; destruct (aff_apply t p) as [x y].
      split; unfold aff_apply, mk_shift, shift_pt; cbn [fst snd a11 a12 a13 a21 a22 a23]; ring.
  Qed.

  Lemma item_correct d p : cosQ 0 == 1 -> sinQ 0 == 0 -> Proper (Qeq ==> Qeq) cosQ -> Proper (Qeq ==> Qeq) sinQ ->
    peq (aff_apply (td_transform cosQ sinQ d) p) (item_pt cosQ sinQ d p).
  Proof.
    intros Hc Hs Pc Ps; unfold td_transform, item_pt, is_scaled, is_rotated, is_mirrored, is_offsetted.
    eapply peq_trans; [apply shift_step|]; apply shift_pt_peq.
    eapply peq_trans; [apply mirror_step|]; apply mirror_pt_peq.
    eapply peq_trans; [apply rotate_step; auto|]; apply rotate_pt_peq.
    eapply peq_trans; [apply scale_step|]; apply scale_pt_peq, apply_id.
  Qed.

  Lemma seqt_items l p : cosQ 0 == 1 -> sinQ 0 == 0 -> Proper (Qeq ==> Qeq) cosQ -> Proper (Qeq ==> Qeq) sinQ ->
    peq (aff_apply (seqt l) p) (items_pt cosQ sinQ l p).
  Proof.
    intros Hc Hs Pc Ps; eapply peq_trans; [apply seqt_apply|].
    unfold items_pt; enough (H : forall l p q, peq p q ->
      peq (fold_left (fun q d => aff_apply (td_transform cosQ sinQ d) q) l p)
          (fold_left (fun q d => item_pt cosQ sinQ d q) l q)) by (apply H, peq_refl).
    induction l0 as [|d l0 IH]; simpl; intros a b H; auto; apply IH.
    eapply peq_trans; [apply apply_peq, H|apply item_correct; auto].
  Qed.

  (** Append composes, whatever is cached *)
  Lemma append_moves t u p :
    peq (moves cosQ sinQ (append cosQ sinQ t u) p)
        (aff_apply (get u) (moves cosQ sinQ t p)) \/ t_cache t = None.
  Proof.
    unfold moves, append, get_transform; destruct (t_cache t) as [m|]; [left|auto]; simpl; apply apply_mul.
  Qed.

  (** the cache, when present, acts like the sequence *)
  Definition synced (t : transform) : Prop :=
    match t_cache t with None => True | Some m => forall p, peq (aff_apply m p) (aff_apply (seqt (t_seq t)) p) end.

  Lemma synced_moves t p : synced t -> peq (moves cosQ sinQ t p) (aff_apply (seqt (t_seq t)) p).
  Proof.
    unfold moves, get_transform, synced; destruct (t_cache t); intros H; [apply H|apply peq_refl].
  Qed.

  Lemma append_composes t u p : synced u \/ t_cache t <> None ->
    peq (moves cosQ sinQ (append cosQ sinQ t u) p) (moves cosQ sinQ u (moves cosQ sinQ t p)).
  Proof.
    intros H; destruct (append_moves t u p) as [H'|H']; [exact H'|].
    destruct H as [H|H]; [|congruence].
    unfold moves at 1, append, get_transform; rewrite H'; simpl.
    eapply peq_trans; [apply seqt_append|]; apply peq_sym.
    eapply peq_trans; [apply synced_moves, H|].
    unfold moves, get_transform; rewrite H'; apply peq_refl.
  Qed.

  (** histories *)
  Lemma run_uncached ops : forall t,
    synced t ->
    appends_uncached (match t_cache t with Some _ => true | None => false end) ops = true ->
    let t' := t_run cosQ sinQ t ops in
    synced t' /\ t_seq t' = fold_left ref_step ops (t_seq t).
  Proof.
    induction ops as [|o ops IH]; simpl; intros t Hs H; auto.
    destruct o as [|f|u]; simpl in H.
    - apply (IH (read cosQ sinQ t)); auto.
      unfold synced, read, get_transform in *; simpl; destruct (t_cache t); auto; intros; apply peq_refl.
    - apply (IH (edit f t)); auto; unfold synced; simpl; auto.
    - apply andb_prop in H as [H1 H2]; cbn [t_step ref_step]; unfold append; destruct (t_cache t) eqn:E; [discriminate|].
      apply (IH (mkT (t_seq t ++ filter is_transformed (t_seq u)) None)); auto; unfold synced; simpl; auto.
  Qed.

  Lemma ref_without_reads ops : forall l, fold_left ref_step (without_reads ops) l = fold_left ref_step ops l.
  Proof. induction ops as [|[|f|u] ops IH]; simpl; auto. Qed.

  Lemma uncached_without_reads ops : appends_uncached false (without_reads ops) = true.
  Proof. induction ops as [|[|f|u] ops IH]; simpl; auto. Qed.

  (** reads and appends only *)
  Lemma run_appends ops : forall t t0,
    (forall p, peq (moves cosQ sinQ t p) (moves cosQ sinQ t0 p)) ->
    forallb (fun o => negb (is_edit o)) ops = true ->
    (forall u, In (TAppend u) ops -> synced u) ->
    forall p, peq (moves cosQ sinQ (t_run cosQ sinQ t ops) p)
                  (moves cosQ sinQ (t_run cosQ sinQ t0 (without_reads ops)) p).
  Proof.
    induction ops as [|[|f|u] ops IH]; simpl; intros t t0 Ht H Hu; auto; try discriminate.
    - apply IH; auto; intros p.
      assert (Hsu : synced u) by (apply Hu; auto).
      eapply peq_trans; [apply append_composes; auto|].
      apply peq_sym; eapply peq_trans; [apply append_composes; auto|].
      unfold moves at 1 3; apply apply_peq, peq_sym, Ht.
  Qed.
End P.

(** self append *)
Lemma self_append_diverges_loop fuel : forall l todo,
  existsb is_transformed todo = true -> self_append_loop fuel l todo = OutOfFuel.
Proof.
  induction fuel as [|fuel IH]; intros l todo H; simpl; auto.
  destruct todo as [|d todo]; [discriminate|]; simpl in H.
  destruct (is_transformed d) eqn:E; apply IH.
  - rewrite existsb_app; simpl; rewrite E; apply orb_true_iff; auto.
  - auto.
Qed.

Lemma self_append_ok fuel : forall l todo,
  existsb is_transformed todo = false -> (List.length todo < fuel)%nat -> self_append_loop fuel l todo = Ok l.
Proof.
  induction fuel as [|fuel IH]; intros l todo H Hf; simpl; [lia|].
  destruct todo as [|d todo]; auto; simpl in H; apply orb_false_iff in H as [-> H]; apply IH; auto.
  simpl in Hf; lia.
Qed.
