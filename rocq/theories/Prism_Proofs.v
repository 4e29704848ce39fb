(** Proofs about the prism model. *)
From Verif Require Import Base Prism_Model Prism_Spec.
From Coq Require Import QArith.
Close Scope Q_scope.
Open Scope nat_scope.
Open Scope res_scope.

(** ** Numbering *)

Lemma offsets_head acc ns : exists r, offsets_from acc ns = acc :: r.
Proof. destruct ns; simpl; eauto. Qed.

Lemma offsets_len acc ns : List.length (offsets_from acc ns) = Datatypes.S (List.length ns).
Proof. revert acc; induction ns; intros; simpl; auto. Qed.

Lemma pairs_len k ns : List.length (pairs_from k ns) = list_sum ns.
Proof.
  revert k; induction ns as [|n ns IH]; intros k; simpl; auto.
  rewrite app_length, map_length, seq_length, IH; reflexivity.
Qed.

Lemma offsets_last acc ns : last (offsets_from acc ns) 0 = acc + list_sum ns.
Proof.
  revert acc; induction ns as [|n ns IH]; intros acc; [simpl; lia|].
  cbn [offsets_from list_sum fold_right]. destruct (offsets_head (acc + n) ns) as (r & E).
  change (last (acc :: offsets_from (acc + n) ns) 0) with
      (match offsets_from (acc + n) ns with [] => acc | _ => last (offsets_from (acc + n) ns) 0 end).
  rewrite IH, E. simpl. unfold list_sum. lia.
Qed.

Lemma total_pairs layers : total (offsets layers) = Ok (List.length (all_prisms layers)).
Proof.
  unfold total, offsets, all_prisms. destruct (offsets_head 0 (sizes layers)) as (r & E).
  rewrite pairs_len. rewrite <- (Nat.add_0_l (list_sum _)), <- offsets_last. now rewrite E.
Qed.

Lemma nth_error_seq0 n i : i < n -> nth_error (seq 0 n) i = Some i.
Proof.
  intros H. rewrite (nth_error_nth' _ 0) by (rewrite seq_length; lia). now rewrite seq_nth by lia.
Qed.

Lemma nth_pairs_cons k n ns i :
  nth_error (pairs_from k (n :: ns)) i =
  if i <? n then Some (k, i) else nth_error (pairs_from (Datatypes.S k) ns) (i - n).
Proof.
  cbn [pairs_from]. destruct (Nat.ltb_spec i n) as [H|H].
  - rewrite nth_error_app1 by (rewrite map_length, seq_length; lia).
    apply (map_nth_error (pair k)). now apply nth_error_seq0.
  - rewrite nth_error_app2 by (rewrite map_length, seq_length; lia).
    now rewrite map_length, seq_length.
Qed.

Lemma local_pairs ns : forall acc k i,
  local_from (offsets_from acc ns) k (acc + i) =
  match nth_error (pairs_from k ns) i with Some p => Ok p | None => UB end.
Proof.
  induction ns as [|n ns IH]; intros acc k i.
  - simpl. now destruct i.
  - rewrite nth_pairs_cons. cbn [offsets_from].
    destruct (offsets_head (acc + n) ns) as (r & E).
    specialize (IH (acc + n) (Datatypes.S k) (i - n)).
    rewrite E in *. cbn [local_from].
    replace (acc <=? acc + i) with true by (symmetry; apply Nat.leb_le; lia).
    cbn [andb]. destruct (Nat.ltb_spec (acc + i) (acc + n)); destruct (Nat.ltb_spec i n); try lia.
    + now replace (acc + i - acc) with i by lia.
    + replace (acc + n + (i - n)) with (acc + i) in IH by lia. exact IH.
Qed.

Lemma offs_nth ns : forall acc l, l <= List.length ns ->
  nth_error (offsets_from acc ns) l = Some (acc + list_sum (firstn l ns)).
Proof.
  induction ns as [|n ns IH]; intros acc l H; simpl in H.
  - assert (l = 0) by lia; subst; simpl. now rewrite Nat.add_0_r.
  - destruct l as [|l]; cbn [offsets_from nth_error firstn].
    + simpl. now rewrite Nat.add_0_r.
    + rewrite IH by lia. f_equal. simpl. unfold list_sum. lia.
Qed.

Lemma pairs_pos ns : forall k l e i,
  nth_error (pairs_from k ns) i = Some (k + l, e) <->
  exists n, nth_error ns l = Some n /\ e < n /\ i = list_sum (firstn l ns) + e.
Proof.
  induction ns as [|n ns IH]; intros k l e i.
  - simpl. destruct i, l; simpl; split; try discriminate; intros (n & H & _); discriminate.
  - rewrite nth_pairs_cons. destruct (Nat.ltb_spec i n) as [H|H].
    + split.
      * intros E; injection E as E1 E2. assert (l = 0) by lia; subst. exists n; simpl. repeat split; auto.
      * intros (n' & E1 & E2 & E3). destruct l as [|l]; simpl in *.
        -- injection E1 as ->. subst. now rewrite Nat.add_0_r.
        -- unfold list_sum in *. lia.
    + destruct l as [|l].
      * split.
        -- intros E. exfalso. apply nth_error_In in E. clear -E.
           assert (G : forall ns k x, In x (pairs_from k ns) -> k <= fst x).
           { clear; induction ns as [|n ns IH]; intros k x; simpl; [tauto|].
             rewrite in_app_iff, in_map_iff. intros [(y & <- & _)|H]; simpl; auto.
             apply IH in H. lia. }
           apply G in E. simpl in E. lia.
        -- intros (n' & E1 & E2 & E3); simpl in *. injection E1 as ->. lia.
      * replace (k + Datatypes.S l) with (Datatypes.S k + l) by lia. rewrite IH. simpl.
        split; intros (n' & E1 & E2 & E3); exists n'; repeat split; auto; unfold list_sum in *; lia.
Qed.

Lemma sizes_nth layers l n : nth_error (sizes layers) l = Some n <->
  exists y, nth_error layers l = Some y /\ n = List.length (y_elems y).
Proof.
  unfold sizes. rewrite nth_error_map. destruct (nth_error layers l); simpl.
  - split; [intros H; injection H as <-; eauto|intros (y & E & ->); now injection E as ->].
  - split; [discriminate|intros (y & E & _); discriminate].
Qed.

Lemma numbered_iff layers l e i : numbered layers l e i <->
  exists y, nth_error layers l = Some y /\ e < List.length (y_elems y) /\
            i = list_sum (firstn l (sizes layers)) + e.
Proof.
  unfold numbered, all_prisms. rewrite (pairs_pos (sizes layers) 0 l e i). split.
  - intros (n & E1 & E2 & E3). apply sizes_nth in E1 as (y & E & ->). eauto.
  - intros (y & E1 & E2 & E3). exists (List.length (y_elems y)).
    repeat split; auto. apply sizes_nth; eauto.
Qed.

Lemma local_numbered layers i l e : local_index (offsets layers) i = Ok (l, e) <-> numbered layers l e i.
Proof.
  unfold local_index, offsets, numbered, all_prisms. rewrite <- (Nat.add_0_l i) at 1.
  rewrite local_pairs. destruct (nth_error _ i) as [[? ?]|]; split; congruence.
Qed.

Lemma local_ub layers i : local_index (offsets layers) i = UB <-> List.length (all_prisms layers) <= i.
Proof.
  unfold local_index, offsets. rewrite <- (Nat.add_0_l i) at 1. rewrite local_pairs.
  rewrite <- nth_error_None. unfold all_prisms. destruct (nth_error _ i); split; congruence.
Qed.

Lemma global_numbered layers l e y : nth_error layers l = Some y -> e < List.length (y_elems y) ->
  exists i, global_index (offsets layers) l e = Ok i /\ numbered layers l e i.
Proof.
  intros E L. exists (list_sum (firstn l (sizes layers)) + e). split.
  - unfold global_index, vidx, offsets. rewrite offs_nth; [reflexivity|].
    unfold sizes. rewrite map_length. apply Nat.lt_le_incl, nth_error_Some. congruence.
  - apply numbered_iff; eauto.
Qed.

(** ** Corner points *)

Lemma keqb_spec a b : reflect (a = b) (keqb a b).
Proof.
  destruct a as [a1 a2], b as [b1 b2]; unfold keqb; simpl.
  destruct (Nat.eqb_spec a1 b1), (Nat.eqb_spec a2 b2); simpl; constructor; congruence.
Qed.

Section Corners.
  Context (pos : nat * nat -> pt3).

  Definition st (ks : list (nat * nat)) : pstate := (combine ks (seq 0 (List.length ks)), map pos ks).

  Lemma alookup_combine ks : forall a k n,
    NoDup ks -> alookup keqb k (combine ks (seq a (List.length ks))) = Some n <->
    exists j, n = a + j /\ nth_error ks j = Some k.
  Proof.
    induction ks as [|x ks IH]; intros a k n ND; simpl.
    - split; [discriminate|]. intros (j & _ & H). destruct j; discriminate.
    - inversion ND as [|? ? NI ND']; subst. destruct (keqb_spec k x) as [->|Ne].
      + split.
        * intros H; injection H as <-. exists 0; split; [lia|reflexivity].
        * intros ([|j] & -> & H); [f_equal; lia|]. simpl in H. apply nth_error_In in H. contradiction.
      + rewrite IH by assumption. split.
        * intros (j & -> & H). exists (Datatypes.S j). split; [lia|exact H].
        * intros ([|j] & -> & H); simpl in H; [congruence|]. exists j; split; [lia|exact H].
  Qed.

  Lemma touch_st level x ps ks : NoDup ks -> ps = Ok (pos (level, x)) ->
    exists ks' n, touch level x ps (st ks) = Ok (n, st (ks ++ ks')) /\ NoDup (ks ++ ks') /\
      nth_error (ks ++ ks') n = Some (level, x).
  Proof.
    intros ND ->. unfold touch. cbn [fst st].
    destruct (alookup keqb (level, x) _) as [n|] eqn:E.
    - apply alookup_combine in E as (j & -> & E); [|assumption]. simpl.
      exists [], j. rewrite app_nil_r. repeat split; auto.
    - exists [(level, x)], (List.length ks). cbn [bind]. split; [|split].
      + unfold st; cbn [fst snd].
        assert (G : forall (ks : list (nat * nat)) a k q,
          combine (ks ++ [k]) (seq a (List.length ks) ++ [q]) = combine ks (seq a (List.length ks)) ++ [(k, q)]).
        { clear; induction ks as [|z ks IH]; intros; simpl; [reflexivity|]. now rewrite IH. }
        rewrite map_app, map_length, app_length. cbn [List.length map]. rewrite seq_app. cbn [seq Nat.add].
        now rewrite G.
      + apply (Permutation_NoDup (l := (level, x) :: ks)); [apply Permutation_cons_append|].
        constructor; [|assumption]. intros HIn. apply In_nth_error in HIn as (j & Hj).
        assert (X : alookup keqb (level, x) (combine ks (seq 0 (List.length ks))) = Some (0 + j))
          by (apply alookup_combine; [assumption|eauto]).
        congruence.
      + rewrite nth_error_app2 by lia. now rewrite Nat.sub_diag.
  Qed.

  Lemma nth_app_some {A} (l r : list A) n a : nth_error l n = Some a -> nth_error (l ++ r) n = Some a.
  Proof. intros H. rewrite nth_error_app1; [assumption|]. apply nth_error_Some; congruence. Qed.

  Context (layers : list player) (temps : list (nat * template)) (scale : Q).

  Definition is_corner (ks : list (nat * nat)) (lyr x : nat) (ab : nat * nat) : Prop :=
    nth_error ks (fst ab) = Some (lyr, x) /\ nth_error ks (snd ab) = Some (lyr + 1, x).

  Lemma corners_st lyr ele full : (forall v x, nth_error full v = Some x ->
      get_point layers temps scale lyr ele v = Ok (pos (lyr, x)) /\
      get_point layers temps scale lyr ele (v + 3) = Ok (pos (lyr + 1, x))) ->
    forall vs v ks, NoDup ks -> skipn v full = vs ->
    exists ks' c, corners layers temps scale lyr ele v vs (st ks) = Ok (c, st (ks ++ ks')) /\
      NoDup (ks ++ ks') /\ Forall2 (is_corner (ks ++ ks') lyr) vs c.
  Proof.
    intros HP. induction vs as [|x vs IH]; intros v ks ND Hs.
    - exists [], []. rewrite app_nil_r. repeat split; auto.
    - assert (Hx : nth_error full v = Some x).
      { rewrite <- (firstn_skipn v full), Hs, nth_error_app2; rewrite firstn_length.
        - assert (v < List.length full).
          { destruct (Nat.lt_ge_cases v (List.length full)); [assumption|].
            rewrite skipn_all2 in Hs by assumption. discriminate. }
          replace (v - Nat.min v (List.length full)) with 0 by lia. reflexivity.
        - lia. }
      destruct (HP v x Hx) as (P1 & P2).
      cbn [corners]. destruct (touch_st lyr x _ ks ND P1) as (k1 & a & E1 & N1 & G1). rewrite E1. cbn [bind fst snd].
      destruct (touch_st (lyr + 1) x _ (ks ++ k1) N1 P2) as (k2 & b & E2 & N2 & G2).
      rewrite E2. cbn [bind fst snd].
      destruct (IH (v + 1) ((ks ++ k1) ++ k2) N2) as (k3 & c & E3 & N3 & F3).
      { rewrite Nat.add_1_r. clear -Hs. revert v Hs. induction full as [|y full IHf]; intros v Hs.
        - destruct v; discriminate.
        - destruct v; simpl in *; [congruence|]. now apply IHf. }
      rewrite E3. cbn [bind fst snd]. exists (k1 ++ k2 ++ k3), ((a, b) :: c).
      rewrite !app_assoc in *. split; [reflexivity|]. split; [assumption|].
      constructor; [|assumption]. split; cbn [fst snd].
      + apply nth_app_some. apply nth_app_some. assumption.
      + apply nth_app_some. assumption.
  Qed.
End Corners.

(** ** Building *)

Definition inst_ok (layers : list player) (t : template) (ks : list (nat * nat)) (p : nat * nat) (i : inst) : Prop :=
  i_lyr i = fst p /\ i_ele i = snd p /\
  exists y e tri, nth_error layers (fst p) = Some y /\ nth_error (y_elems y) (snd p) = Some e /\
    nth_error (t_tris t) (e_tid e) = Some tri /\
    List.length (i_vs i) = 6 /\
    (forall v x, nth_error (t_vs tri) v = Some x -> exists a b,
        nth_error (i_vs i) v = Some a /\ nth_error (i_vs i) (v + 3) = Some b /\
        nth_error ks a = Some (fst p, x) /\ nth_error ks b = Some (fst p + 1, x)) /\
    Forall2 (nb_ok layers (fst p)) (e_side e) (i_side i) /\
    (match fst p with 0 => e_top e = None /\ i_top i = None | Datatypes.S l => nb_ok layers l (e_top e) (i_top i) end) /\
    nb_ok layers (fst p + 1) (e_bot e) (i_bot i).

Lemma inst_ok_app layers t ks ks' p i : inst_ok layers t ks p i -> inst_ok layers t (ks ++ ks') p i.
Proof.
  intros (H1 & H2 & y & e & tri & H3 & H4 & H5 & H6 & H7 & H8).
  split; [assumption|split; [assumption|]]. exists y, e, tri. repeat (split; [assumption|]). split; [|assumption].
  intros v x Hx. destruct (H7 v x Hx) as (a & b & A & B & C & D). exists a, b.
  repeat (split; [assumption|]). split; now apply nth_app_some.
Qed.

Lemma nb_global_ok layers l n : in_layer layers l n ->
  exists g, nb_global (offsets layers) l n = Ok g /\ nb_ok layers l n g.
Proof.
  destruct n as [k|]; simpl.
  - intros H. destruct (H k eq_refl) as (y & E & L).
    destruct (global_numbered layers l k y E L) as (i & G & N). rewrite G. cbn [bind]. eauto.
  - intros _. exists None. simpl; auto.
Qed.

Lemma mapM_ok {A B} (f : A -> res B) (R : A -> B -> Prop) l :
  Forall (fun a => exists b, f a = Ok b /\ R a b) l -> exists bs, mapM f l = Ok bs /\ Forall2 R l bs.
Proof.
  induction 1 as [|a l (b & E & H) _ IH]; simpl; [eauto|].
  destruct IH as (bs & E' & H'). rewrite E. cbn [bind]. rewrite E'. cbn [bind]. eauto.
Qed.

Definition pos_of (layers : list player) (t : template) (scale : Q) (k : nat * nat) : pt3 :=
  let xy := nth (snd k) (t_pts t) (0%Z, 0%Z) in
  {| px := inject_Z (fst xy) * scale; py := inject_Z (snd xy) * scale; pz := level_height layers (fst k) |}%Q.

Lemma last_map_some {A} (l : list A) y : nth_error l (List.length l - 1) = Some y ->
  last (map Some l) None = Some y.
Proof.
  induction l as [|a l IH]; [discriminate|]. destruct l as [|b l].
  - simpl. congruence.
  - intros H. change (last (map Some (a :: b :: l)) None) with (last (map Some (b :: l)) None).
    apply IH. simpl in *. now rewrite Nat.sub_0_r.
Qed.

Lemma get_point_ok m t scale l y ele e tri v x : wf_model m t ->
  nth_error (m_layers m) l = Some y -> nth_error (y_elems y) ele = Some e ->
  nth_error (t_tris t) (e_tid e) = Some tri -> nth_error (t_vs tri) v = Some x ->
  get_point (m_layers m) (m_temps m) scale l ele v = Ok (pos_of (m_layers m) t scale (l, x)) /\
  get_point (m_layers m) (m_temps m) scale l ele (v + 3) = Ok (pos_of (m_layers m) t scale (l + 1, x)).
Proof.
  intros (W0 & W1 & W2 & W3) Hy He Ht Hx.
  assert (Hl : l < List.length (m_layers m)) by (apply nth_error_Some; congruence).
  assert (Htri := nth_error_In _ _ Ht). rewrite Forall_forall in W2. destruct (W2 _ Htri) as (L3 & FV).
  assert (Hv : v < 3) by (rewrite <- L3; apply nth_error_Some; congruence).
  rewrite Forall_forall in FV. assert (Hxl := FV x (nth_error_In _ _ Hx)).
  destruct (nth_error (t_pts t) x) as [xy|] eqn:Exy; [|apply nth_error_None in Exy; lia].
  assert (Enth : nth x (t_pts t) (0%Z, 0%Z) = xy) by (now apply nth_error_nth).
  unfold get_point, get_template, vat. rewrite (W1 l Hl). cbn [bind]. rewrite Hy. cbn [bind].
  rewrite He. cbn [bind]. rewrite Ht. cbn [bind].
  replace (v <? 3) with true by (symmetry; apply Nat.ltb_lt; lia).
  replace (v + 3 <? 3) with false by (symmetry; apply Nat.ltb_ge; lia).
  replace ((v + 3) mod 3) with v.
  2:{ rewrite <- (Nat.mod_small v 3) at 1 by lia. rewrite <- Nat.add_mod_idemp_r by lia.
      rewrite Nat.mod_same by lia. now rewrite Nat.add_0_r. }
  rewrite (Nat.mod_small v 3) by lia. rewrite Hx. cbn [bind]. rewrite Exy. cbn [bind].
  unfold pos_of. cbn [fst snd]. rewrite Enth. unfold level_height at 1. rewrite Hy. split; [reflexivity|].
  unfold is_bot. destruct (Nat.eqb_spec (l + 1) (List.length (m_layers m))) as [El|Nl].
  - cbn [bind]. unfold level_height. replace (nth_error (m_layers m) (l + 1)) with (@None player)
      by (symmetry; apply nth_error_None; lia).
    rewrite (last_map_some _ y); [reflexivity|]. now replace (List.length (m_layers m) - 1) with l by lia.
  - destruct (nth_error (m_layers m) (l + 1)) as [y'|] eqn:E; [|apply nth_error_None in E; lia].
    cbn [bind]. unfold level_height. rewrite E. reflexivity.
Qed.

Lemma F2_length {A B} (R : A -> B -> Prop) l r : Forall2 R l r -> List.length l = List.length r.
Proof. induction 1; simpl; congruence. Qed.

Lemma map_pairs_nth {A B C} (R : A -> B * C -> Prop) l (c : list (B * C)) v x : Forall2 R l c -> nth_error l v = Some x ->
  exists ab, nth_error c v = Some ab /\ R x ab.
Proof.
  intros F. revert v. induction F as [|a ab l c H F IH]; intros [|v] E; simpl in *; try discriminate.
  - injection E as ->; eauto.
  - eauto.
Qed.

Lemma build_one_ok m t scale i ks p : wf_model m t -> nth_error (all_prisms (m_layers m)) i = Some p -> NoDup ks ->
  exists ins ks', build_one (m_layers m) (m_temps m) scale (offsets (m_layers m)) (t_tris t) i (st (pos_of (m_layers m) t scale) ks)
      = Ok (ins, st (pos_of (m_layers m) t scale) (ks ++ ks')) /\
    NoDup (ks ++ ks') /\ inst_ok (m_layers m) t (ks ++ ks') p ins.
Proof.
  intros W Hp ND. pose proof W as (W0 & W1 & W2 & W3). destruct p as [l ele].
  assert (Hloc : local_index (offsets (m_layers m)) i = Ok (l, ele)) by (apply local_numbered; exact Hp).
  assert (Hn : numbered (m_layers m) l ele i) by exact Hp.
  apply numbered_iff in Hn as (y & Hy & Hlt & _).
  destruct (nth_error (y_elems y) ele) as [e|] eqn:He; [|apply nth_error_None in He; lia].
  destruct (W3 l y e Hy (nth_error_In _ _ He)) as (T1 & T2 & T3 & T4).
  destruct (nth_error (t_tris t) (e_tid e)) as [tri|] eqn:Ht; [|apply nth_error_None in Ht; lia].
  unfold build_one. rewrite Hloc. cbn [bind fst snd]. unfold vidx, vat. rewrite Hy. cbn [bind].
  rewrite He. cbn [bind]. rewrite Ht. cbn [bind].
  destruct (corners_st (pos_of (m_layers m) t scale) (m_layers m) (m_temps m) scale l ele (t_vs tri)) with (vs := t_vs tri) (v := 0) (ks := ks)
    as (ks' & c & Ec & Nc & Fc); auto.
  { intros v x Hx. eapply get_point_ok; eauto. }
  rewrite Ec. cbn [bind fst snd].
  destruct (mapM_ok (nb_global (offsets (m_layers m)) l) (nb_ok (m_layers m) l) (e_side e)) as (sd & Esd & Fsd).
  { eapply Forall_impl; [|exact T2]. intros a Ha. now apply nb_global_ok. }
  rewrite Esd. cbn [bind].
  assert (Htop : exists tp, (match e_top e with None => Ok None
           | Some k => match l with 0 => UB | Datatypes.S l => nb_global (offsets (m_layers m)) l (Some k) end end) = Ok tp /\
     (match l with 0 => e_top e = None /\ tp = None | Datatypes.S l => nb_ok (m_layers m) l (e_top e) tp end)).
  { destruct (e_top e) as [k|] eqn:Et.
    - destruct (T3 k eq_refl) as (l' & -> & Hin). destruct (nb_global_ok _ _ _ Hin) as (g & Eg & Hg). eauto.
    - exists None. split; [reflexivity|]. destruct l; simpl; auto. }
  destruct Htop as (tp & Etp & Htp). rewrite Etp. cbn [bind].
  destruct (nb_global_ok _ _ _ T4) as (bt & Ebt & Hbt). rewrite Ebt. cbn [bind].
  eexists _, ks'. split; [reflexivity|]. split; [assumption|].
  split; [reflexivity|]. split; [reflexivity|]. exists y, e, tri. cbn [fst snd i_vs i_side i_top i_bot].
  repeat (split; [assumption|]).
  assert (Hlen : List.length c = 3).
  { rewrite <- (F2_length _ _ _ Fc). rewrite Forall_forall in W2. now destruct (W2 tri (nth_error_In _ _ Ht)). }
  split; [rewrite app_length, !map_length; lia|].
  split; [|split; [assumption|split; assumption]].
  intros v x Hx. destruct (map_pairs_nth _ _ _ v x Fc Hx) as (ab & Eab & (A & B)).
  exists (fst ab), (snd ab). assert (v < 3) by (rewrite <- Hlen; apply nth_error_Some; congruence).
  split; [|split; [|split; assumption]].
  - rewrite nth_error_app1 by (rewrite map_length; lia). now apply map_nth_error.
  - rewrite nth_error_app2 by (rewrite map_length; lia). rewrite map_length, Hlen, Nat.add_sub. now apply map_nth_error.
Qed.

Lemma build_loop_ok m t scale : wf_model m t -> forall is ks, NoDup ks ->
  (forall i, In i is -> i < List.length (all_prisms (m_layers m))) ->
  exists insts ks', build_loop (m_layers m) (m_temps m) scale (offsets (m_layers m)) (t_tris t) is (st (pos_of (m_layers m) t scale) ks)
      = Ok (insts, st (pos_of (m_layers m) t scale) (ks ++ ks')) /\ NoDup (ks ++ ks') /\
    Forall2 (fun i ins => exists p, nth_error (all_prisms (m_layers m)) i = Some p /\
                                    inst_ok (m_layers m) t (ks ++ ks') p ins) is insts.
Proof.
  intros W. induction is as [|i is IH]; intros ks ND Hin.
  - exists [], []. rewrite app_nil_r. repeat split; auto.
  - assert (Hi := Hin i (or_introl eq_refl)).
    destruct (nth_error (all_prisms (m_layers m)) i) as [p|] eqn:Ep; [|apply nth_error_None in Ep; lia].
    destruct (build_one_ok m t scale i ks p W Ep ND) as (ins & k1 & E1 & N1 & O1).
    cbn [build_loop]. rewrite E1. cbn [bind fst snd].
    destruct (IH (ks ++ k1) N1) as (insts & k2 & E2 & N2 & F2); [intros; apply Hin; now right|].
    rewrite E2. cbn [bind fst snd]. exists (ins :: insts), (k1 ++ k2). rewrite app_assoc.
    split; [reflexivity|]. split; [assumption|]. constructor; [|assumption].
    exists p. split; [assumption|]. now apply inst_ok_app.
Qed.

Theorem build_ok m t scale : wf_model m t ->
  exists m' ks, build scale m = Ok m' /\ NoDup ks /\
    m_layers m' = m_layers m /\ m_offs m' = offsets (m_layers m) /\ m_lines m' = m_lines m /\
    m_points m' = map (pos_of (m_layers m) t scale) ks /\
    exists insts, m_prisms m' = m_prisms m ++ insts /\
      Forall2 (inst_ok (m_layers m) t ks) (all_prisms (m_layers m)) insts.
Proof.
  intros W. pose proof W as (W0 & _). unfold build, get_template. rewrite W0. cbn [bind].
  rewrite total_pairs. cbn [bind].
  destruct (build_loop_ok m t scale W (seq 0 (List.length (all_prisms (m_layers m)))) [] (NoDup_nil _))
    as (insts & ks & E & N & F).
  { intros i Hi. apply in_seq in Hi. lia. }
  cbn [app] in *. change (st (pos_of (m_layers m) t scale) []) with (@nil ((nat * nat) * nat), @nil pt3) in E.
  rewrite E. cbn [bind fst snd]. eexists _, ks. split; [reflexivity|]. split; [assumption|].
  do 3 (split; [reflexivity|]). split; [reflexivity|]. exists insts. split; [reflexivity|].
  clear -F. revert F. generalize (inst_ok (m_layers m) t ks). intros R.
  assert (G : forall (l : list (nat * nat)) a (P : list (nat * nat)) insts, (forall j, nth_error l j = nth_error P (a + j)) ->
    Forall2 (fun i ins => exists p, nth_error P i = Some p /\ R p ins) (seq a (List.length l)) insts ->
    Forall2 R l insts).
  { clear. induction l as [|p l IH]; intros a P insts H F; simpl in F; inversion F as [|? ? ? ? (q & Eq & HR) F']; subst; constructor.
    - rewrite <- (Nat.add_0_r a), <- (H 0) in Eq. injection Eq as ->. exact HR.
    - eapply (IH (Datatypes.S a) P); [|exact F']. intros j. replace (Datatypes.S a + j) with (a + Datatypes.S j) by lia. apply (H (Datatypes.S j)). }
  apply (G (all_prisms (m_layers m)) 0 (all_prisms (m_layers m))). reflexivity.
Qed.

Lemma Forall2_nth {A B} (R : A -> B -> Prop) l r i a : Forall2 R l r -> nth_error l i = Some a ->
  exists b, nth_error r i = Some b /\ R a b.
Proof.
  intros F. revert i. induction F as [|x y l r H F IH]; intros [|i] E; simpl in *; try discriminate; eauto.
  injection E as ->; eauto.
Qed.

Lemma nth_inj {A} (l : list A) i j a : NoDup l -> nth_error l i = Some a -> nth_error l j = Some a -> i = j.
Proof.
  intros N E1 E2. rewrite NoDup_nth_error in N. apply N; [apply nth_error_Some; congruence|congruence].
Qed.

(** ** Bond wires *)

Lemma link_prev_app pre p l : link_prev (pre ++ [p; l]) =
  pre ++ [{| l_id := l_id p; l_ends := l_ends p; l_front := l_front p; l_back := l_back p ++ [l_id l] |};
          {| l_id := l_id l; l_ends := l_ends l; l_front := l_front l ++ [l_id p]; l_back := l_back l |}].
Proof.
  induction pre as [|q pre IH]; [reflexivity|]. rewrite <- !app_comm_cons. cbn [link_prev]. rewrite IH.
  destruct pre as [|q' [|q'' pre]]; reflexivity.
Qed.

Lemma link_last_app n pre l : link_last n (pre ++ [l]) =
  pre ++ [{| l_id := l_id l; l_ends := l_ends l; l_front := l_front l; l_back := l_back l ++ [n] |}].
Proof.
  induction pre as [|q pre IH]; [reflexivity|]. rewrite <- !app_comm_cons. cbn [link_last]. rewrite IH.
  destruct pre as [|q' pre]; reflexivity.
Qed.

Definition at_ends (pts : list pt3) (seg : pt3 * pt3) (l : line) : Prop :=
  nth_error pts (fst (l_ends l)) = Some (fst seg) /\ nth_error pts (snd (l_ends l)) = Some (snd seg).

Lemma at_ends_app pts r seg l : at_ends pts seg l -> at_ends (pts ++ r) seg l.
Proof. intros (A & B). split; now apply nth_app_some. Qed.

(** What a wire leaves unchanged. *)
Definition frame (m m' : pmodel) : Prop :=
  m_layers m' = m_layers m /\ m_temps m' = m_temps m /\ m_scale m' = m_scale m /\ m_offs m' = m_offs m /\
  m_prisms m' = m_prisms m /\ exists r, m_points m' = m_points m ++ r.

Lemma frame_refl m : frame m m.
Proof. repeat split; auto. exists []; now rewrite app_nil_r. Qed.

Lemma frame_trans a b c : frame a b -> frame b c -> frame a c.
Proof.
  intros (A1 & A2 & A3 & A4 & A5 & r & A6) (B1 & B2 & B3 & B4 & B5 & r' & B6).
  repeat split; try congruence. exists (r ++ r'). rewrite B6, A6. now rewrite app_assoc.
Qed.

Lemma nth_app_len {A} (l : list A) a b : nth_error (l ++ [a; b]) (List.length l) = Some a /\
  nth_error (l ++ [a; b]) (List.length l + 1) = Some b.
Proof.
  split; rewrite nth_error_app2 by lia.
  - now rewrite Nat.sub_diag.
  - now replace (List.length l + 1 - List.length l) with 1 by lia.
Qed.

Lemma wire_cont first fin T : forall rest a b m pre l, total (m_offs m) = Ok T -> 0 < T ->
  m_lines m = pre ++ [l] -> l_back l = [] -> l_id l = T + List.length pre ->
  exists m' new, wire_from false first fin (a :: b :: rest) m = Ok m' /\ frame m m' /\
    m_lines m' = pre ++ {| l_id := l_id l; l_ends := l_ends l; l_front := l_front l; l_back := [Datatypes.S (l_id l)] |} :: new /\
    map ties new = path (Datatypes.S (l_id l)) (l_id l) fin (Datatypes.S (List.length rest)) /\
    Forall2 (at_ends (m_points m')) (segments (a :: b :: rest)) new.
Proof.
  induction rest as [|c rest IH]; intros a b m pre l HT Pos HL HB HI; cbn [wire_from].
  - unfold add_line. rewrite HT. cbn [bind]. rewrite (proj2 (Nat.ltb_lt 0 T) Pos). cbn [bind].
    unfold with_lines; cbn [m_lines m_layers m_temps m_scale m_offs m_points m_prisms].
    rewrite HL, <- app_assoc. cbn [app]. rewrite link_prev_app. cbn [l_id l_ends l_front l_back].
    rewrite (app_assoc pre [_] [_] : pre ++ [_; _] = _).
    rewrite link_last_app, <- app_assoc. cbn [app l_id l_ends l_front l_back].
    rewrite HB. cbn [app]. rewrite app_length. cbn [List.length].
    eexists _, [_]. split; [reflexivity|]. split.
    { repeat split; cbn; auto. now exists [a; b]. }
    cbn [m_lines m_points]. split.
    { do 3 f_equal. f_equal. lia. }
    split.
    { cbn. repeat f_equal; unfold ties; cbn [l_id l_front l_back]. repeat f_equal; lia. }
    constructor; [|constructor]. destruct (nth_app_len (m_points m) a b). split; assumption.
  - unfold add_line. rewrite HT. cbn [bind]. rewrite (proj2 (Nat.ltb_lt 0 T) Pos). cbn [bind].
    set (m2 := with_lines _ _).
    assert (HL2 : m_lines m2 = (pre ++ [{| l_id := l_id l; l_ends := l_ends l; l_front := l_front l; l_back := [Datatypes.S (l_id l)] |}])
       ++ [{| l_id := Datatypes.S (l_id l); l_ends := (List.length (m_points m), List.length (m_points m) + 1); l_front := [l_id l]; l_back := [] |}]).
    { unfold m2, with_lines; cbn [m_lines]. rewrite HL, <- app_assoc. cbn [app]. rewrite link_prev_app.
      cbn [l_id l_ends l_front l_back]. rewrite HB, app_length. cbn [List.length app].
      rewrite <- app_assoc. cbn [app]. do 2 f_equal; [do 2 f_equal; lia|]. do 2 f_equal. lia. }
    assert (F2 : frame m m2). { repeat split; cbn; auto. now exists [a; b]. }
    destruct (IH b c m2 _ _ (HT : total (m_offs m2) = Ok T) Pos HL2) as (m' & new & E & F & L' & P' & S').
    + reflexivity.
    + cbn [l_id]. rewrite app_length. cbn. lia.
    + exists m', ({| l_id := Datatypes.S (l_id l); l_ends := (List.length (m_points m), List.length (m_points m) + 1);
                     l_front := [l_id l]; l_back := [Datatypes.S (Datatypes.S (l_id l))] |} :: new).
      split; [exact E|]. split; [now apply (frame_trans m m2 m')|]. split.
      { rewrite L', <- app_assoc. reflexivity. }
      split.
      { cbn [map List.length path ties l_id l_front l_back]. f_equal. exact P'. }
      change (segments (a :: b :: c :: rest)) with ((a, b) :: segments (b :: c :: rest)).
      constructor; [|exact S']. destruct F as (_ & _ & _ & _ & _ & r & Er). rewrite Er.
      apply at_ends_app. cbn [m_points m2 with_lines]. destruct (nth_app_len (m_points m) a b). split; assumption.
Qed.

Lemma wire_ok first fin T a b rest m : total (m_offs m) = Ok T -> 0 < T ->
  exists m' new, add_wire (first, fin, a :: b :: rest) m = Ok m' /\ frame m m' /\
    m_lines m' = m_lines m ++ new /\
    map ties new = path (T + List.length (m_lines m)) first fin (Datatypes.S (List.length rest)) /\
    Forall2 (at_ends (m_points m')) (segments (a :: b :: rest)) new.
Proof.
  intros HT Pos. unfold add_wire. cbn [fst snd wire_from]. unfold add_line. rewrite HT. cbn [bind].
  rewrite (proj2 (Nat.ltb_lt 0 T) Pos). cbn [bind].
  destruct rest as [|c rest].
  - unfold with_lines. cbn [m_lines m_layers m_temps m_scale m_offs m_points m_prisms wire_from].
    rewrite link_last_app. cbn [app l_id l_ends l_front l_back].
    eexists _, [_]. split; [reflexivity|]. split.
    { repeat split; cbn; auto. now exists [a; b]. }
    split; [reflexivity|]. split; [reflexivity|].
    constructor; [|constructor]. destruct (nth_app_len (m_points m) a b). split; assumption.
  - set (m1 := {| m_layers := _ |}).
    assert (F1 : frame m m1). { repeat split; cbn; auto. now exists [a; b]. }
    destruct (wire_cont first fin T rest b c m1 (m_lines m) _ (HT : total (m_offs m1) = Ok T) Pos eq_refl eq_refl eq_refl)
      as (m' & new & E & F & L' & P' & S').
    cbn [l_id l_ends l_front] in *.
    exists m', ({| l_id := T + List.length (m_lines m); l_ends := (List.length (m_points m), List.length (m_points m) + 1);
                   l_front := [first]; l_back := [Datatypes.S (T + List.length (m_lines m))] |} :: new).
    split; [exact E|]. split; [now apply (frame_trans m m1 m')|]. split; [exact L'|]. split.
    { cbn [map List.length path ties l_id l_front l_back]. f_equal. exact P'. }
    change (segments (a :: b :: c :: rest)) with ((a, b) :: segments (b :: c :: rest)).
    constructor; [|exact S']. destruct F as (_ & _ & _ & _ & _ & r & Er). rewrite Er.
    apply at_ends_app. cbn [m_points m1]. destruct (nth_app_len (m_points m) a b). split; assumption.
Qed.

Lemma path_ids fin : forall n id prev, map (fun x => fst (fst x)) (path id prev fin n) = seq id n.
Proof. induction n as [|n IH]; intros; simpl; [reflexivity|]. now rewrite IH. Qed.

Lemma wires_ids ws : forall m m' T, total (m_offs m) = Ok T -> 0 < T ->
  map l_id (m_lines m) = seq T (List.length (m_lines m)) ->
  add_wires ws m = Ok m' -> map l_id (m_lines m') = seq T (List.length (m_lines m')) /\ frame m m'.
Proof.
  induction ws as [|[[f e] pts] ws IH]; intros m m' T HT Pos HI; cbn [add_wires].
  - intros H; injection H as <-. split; [assumption|apply frame_refl].
  - destruct pts as [|a [|b rest]].
    + unfold add_wire. cbn [snd bind]. discriminate.
    + unfold add_wire. cbn [fst snd wire_from bind]. apply IH; assumption.
    + destruct (wire_ok f e T a b rest m HT Pos) as (m1 & new & E & F & L & P & _). rewrite E. cbn [bind].
      intros H. pose proof F as (_ & _ & _ & Fo & _).
      destruct (IH m1 m' T) as (G1 & G2); auto; [now rewrite Fo| |].
      * rewrite L, map_app, app_length, seq_app. f_equal; [assumption|].
        assert (Hl : List.length new = Datatypes.S (List.length rest)).
        { rewrite <- (map_length ties new), P.
          rewrite <- (map_length (fun x : nat * list nat * list nat => fst (fst x))), path_ids. apply seq_length. }
        rewrite Hl. rewrite <- (path_ids e _ _ f), <- P, map_map. reflexivity.
      * split; [assumption|]. now apply (frame_trans m m1 m').
Qed.

(** ** Mesh extraction *)

Lemma id_of_iff tids : NoDup tids -> forall t k, id_of tids t = Some k <-> nth_error tids k = Some t.
Proof.
  induction 1 as [|x tids NI ND IH]; intros t k; simpl.
  - destruct k; split; discriminate.
  - destruct (Nat.eqb_spec x t) as [->|Ne].
    + destruct k as [|k]; simpl; split; try reflexivity; try discriminate.
      intros E. apply nth_error_In in E. contradiction.
    + destruct k as [|k]; simpl.
      * split; [|congruence]. destruct (id_of tids t); discriminate.
      * rewrite <- IH. destruct (id_of tids t); simpl; split; congruence.
Qed.

Lemma extract_nodup s n : NoDup (extract_layer s n).
Proof. apply NoDup_filter, seq_NoDup. Qed.

Definition ext_elem_ok (tris : list triangle) (above cur below : option (list nat)) (tid : nat) (e : elem) : Prop :=
  e_tid e = tid /\ (exists l, cur = Some l /\ nth_error l (e_id e) = Some tid) /\
  exists tri, nth_error tris tid = Some tri /\
    Forall2 (fun nb sd => forall k, sd = Some k <-> exists t l, nb = Some t /\ cur = Some l /\ nth_error l k = Some t)
            (t_nb tri) (e_side e) /\
    (forall k, e_top e = Some k <-> exists l, above = Some l /\ nth_error l k = Some tid) /\
    (forall k, e_bot e = Some k <-> exists l, below = Some l /\ nth_error l k = Some tid).

Lemma look_iff (m : option (list nat)) t k : (forall l, m = Some l -> NoDup l) ->
  match m with Some l => id_of l t | None => None end = Some k <-> exists l, m = Some l /\ nth_error l k = Some t.
Proof.
  intros H. destruct m as [l|].
  - rewrite (id_of_iff l (H l eq_refl)). split; [eauto|]. intros (l' & E & E'). now injection E as <-.
  - split; [discriminate|]. intros (l & E & _). discriminate.
Qed.

Lemma extract_elem_ok above l below tris tid :
  (forall q, above = Some q -> NoDup q) -> NoDup l -> (forall q, below = Some q -> NoDup q) ->
  In tid l -> tid < List.length tris ->
  exists e, extract_elem above (Some l) below tris tid = Ok e /\ ext_elem_ok tris above (Some l) below tid e.
Proof.
  intros Ha Hl Hb Hin Hlt. unfold extract_elem, vat.
  destruct (nth_error tris tid) as [tri|] eqn:Et; [|apply nth_error_None in Et; lia]. cbn [bind].
  apply In_nth_error in Hin as (k & Hk). rewrite (proj2 (id_of_iff l Hl tid k) Hk).
  eexists. split; [reflexivity|]. split; [reflexivity|]. cbn [e_id e_tid e_side e_top e_bot].
  split; [eauto|]. exists tri. split; [assumption|]. split; [|split; intros; now apply look_iff].
  induction (t_nb tri) as [|n ns IH]; simpl; constructor; auto.
  intros j. destruct n as [t|].
  - rewrite (id_of_iff l Hl). split; [eauto|]. intros (t' & l' & E1 & E2 & E3). congruence.
  - split; [discriminate|]. intros (t' & l' & E1 & _). discriminate.
Qed.

Lemma extract_ok solids tris :
  exists ls, extract_layers solids tris = Ok ls /\
    Forall2 (fun l es => exists tids, nth_error (extract_tids solids (List.length tris)) l = Some tids /\
       Forall2 (ext_elem_ok tris (prev_layer (extract_tids solids (List.length tris)) l) (Some tids)
                            (nth_error (extract_tids solids (List.length tris)) (l + 1))) tids es)
      (seq 0 (List.length solids)) ls.
Proof.
  unfold extract_layers. set (tids := extract_tids solids (List.length tris)).
  assert (Hn : forall l q, nth_error tids l = Some q -> NoDup q /\ (forall t, In t q -> t < List.length tris)).
  { intros l q. unfold tids, extract_tids. rewrite nth_error_map. destruct (nth_error solids l); simpl; [|discriminate].
    intros E; injection E as <-. split; [apply extract_nodup|].
    intros t Ht. apply filter_In in Ht as (Ht & _). apply in_seq in Ht. lia. }
  replace (List.length solids) with (List.length tids) by (unfold tids, extract_tids; apply map_length).
  apply mapM_ok. apply Forall_forall. intros l Hl. apply in_seq in Hl.
  destruct (nth_error tids l) as [q|] eqn:Eq; [|apply nth_error_None in Eq; lia].
  destruct (mapM_ok (extract_elem (prev_layer tids l) (Some q) (nth_error tids (l + 1)) tris)
     (ext_elem_ok tris (prev_layer tids l) (Some q) (nth_error tids (l + 1))) q) as (es & E & F); [|eauto].
  apply Forall_forall. intros t Ht. destruct (Hn l q Eq) as (N1 & N2). apply extract_elem_ok; auto.
  - intros q' H. destruct l; [discriminate|]. simpl in H. now apply (Hn l).
  - intros q' H. now apply (Hn (l + 1)).
Qed.
