From Verif Require Import Base Names_Model Names_Spec Names_Proofs LayerMap_Model LayerMap_Spec LayerMap_Proofs
  Layers_Model Layers_Spec.

Lemma sublist_refl {A} (l : list A) : sublist l l.
Proof. induction l; [apply sub_nil|apply sub_take; auto]. Qed.

Lemma sublist_app_r {A} (a l r : list A) : sublist a l -> sublist a (l ++ r).
Proof. induction 1; simpl; [apply sub_nil|apply sub_skip; auto|apply sub_take; auto]. Qed.

Lemma sublist_filter {A} (f : A -> bool) l : sublist (filter f l) l.
Proof. induction l as [|x l IH]; simpl; [apply sub_nil|destruct (f x); [apply sub_take|apply sub_skip]; auto]. Qed.

Lemma sublist_map {A B} (f : A -> B) a l : sublist a l -> sublist (map f a) (map f l).
Proof. induction 1; simpl; [apply sub_nil|apply sub_skip; auto|apply sub_take; auto]. Qed.

Lemma sublist_trans {A} (b c : list A) : sublist b c -> forall a, sublist a b -> sublist a c.
Proof.
  induction 1 as [l|b x c H IH|x b c H IH]; intros a Ha.
  - inversion Ha; apply sub_nil.
  - apply sub_skip; auto.
  - inversion Ha; subst; [apply sub_nil|apply sub_skip; auto|apply sub_take; auto].
Qed.

(** appending *)
Lemma append_layer_spec c n t c' i :
  append_layer c n t = (c', i) ->
  ly_list c' = ly_list c ++ [mkLayer (ly_next c) n t i] /\ i = Z.of_nat (List.length (ly_list c)) /\
  ly_next c' = S (ly_next c).
Proof. unfold append_layer; intros H; injection H as <- <-; auto. Qed.

Lemma position_snoc ls l : id_is_position ls -> l_id l = Z.of_nat (List.length ls) -> id_is_position (ls ++ [l]).
Proof.
  intros H E i x Hx; destruct (lt_dec i (List.length ls)).
  - rewrite nth_error_app1 in Hx by auto; auto.
  - rewrite nth_error_app2 in Hx by lia.
    destruct (i - List.length ls) as [|k] eqn:Ek; simpl in Hx.
    + injection Hx as <-; rewrite E; f_equal; lia.
    + destruct k; discriminate.
Qed.

Definition inv (c : layers) : Prop := id_is_position (ly_list c) /\ distinct_objects c.

Lemma inv_append c n t c' i : inv c -> append_layer c n t = (c', i) -> inv c'.
Proof.
  intros [H1 [H2 H3]] E; apply append_layer_spec in E as (El & Ei & En); split; [|split].
  - rewrite El; apply position_snoc; auto.
  - rewrite El, map_app; simpl; apply nodup_snoc; auto.
    intros Hin; apply in_map_iff in Hin as (l & E & Hl); apply H3 in Hl; lia.
  - rewrite El, En; intros l Hl; apply in_app_or in Hl as [Hl|[<-|[]]]; [apply H3 in Hl; lia|simpl; lia].
Qed.

Lemma append_layers_spec ls : forall c c' is,
  append_layers c ls = (c', is) -> inv c ->
  inv c' /\ exists new, ly_list c' = ly_list c ++ new /\
    map (fun l => (l_name l, l_type l)) new = ls /\ map l_id new = is /\ ly_next c <= ly_next c'.
Proof.
  induction ls as [|[n t] ls IH]; intros c c' is E I.
  - injection E as <- <-; split; auto; exists []; rewrite app_nil_r; auto.
  - cbn [append_layers] in E; destruct (append_layer c n t) as [c1 i] eqn:E1; destruct (append_layers c1 ls) as [c2 is2] eqn:E2.
    injection E as <- <-.
    destruct (IH _ _ _ E2 (inv_append _ _ _ _ _ I E1)) as (I2 & new & El & En & Ei & Hnx).
    apply append_layer_spec in E1 as (El1 & Ei1 & En1).
    split; auto; exists (mkLayer (ly_next c) n t i :: new); rewrite El, El1, <- app_assoc; simpl.
    repeat split; [congruence|congruence|lia].
Qed.

(** ordering *)
Lemma make_ordered_list ls : forall i m, 
  map ident (fst (make_ordered i ls m)) = map ident ls /\
  List.length (fst (make_ordered i ls m)) = List.length ls /\
  forall j l, nth_error (fst (make_ordered i ls m)) j = Some l -> l_id l = Z.of_nat (i + j).
Proof.
  induction ls as [|x ls IH]; intros i m; simpl.
  - repeat split; auto; intros [|j] l H; discriminate.
  - set (m' := if (l_id x =? noLayer)%Z then m else set_mapping (l_id x, Z.of_nat i) m).
    destruct (IH (S i) m') as (H1 & H2 & H3); destruct (make_ordered (S i) ls m') as [r m'']; simpl in *.
    repeat split; [f_equal; auto|lia|].
    intros [|j] l H; simpl in H; [injection H as <-; simpl; f_equal; lia|rewrite (H3 _ _ H); f_equal; lia].
Qed.

Local Open Scope Z_scope.

Lemma make_ordered_map ls : forall i m,
  inj m ->
  (forall p, In p m -> snd p < Z.of_nat i) ->
  (forall p l, In p m -> In l ls -> l_id l <> noLayer -> fst p <> l_id l) ->
  (forall a b la lb, nth_error ls a = Some la -> nth_error ls b = Some lb ->
      l_id la <> noLayer -> l_id la = l_id lb -> a = b) ->
  let m' := snd (make_ordered i ls m) in
  inj m' /\
  forall x y, In (x, y) m' <-> In (x, y) m \/
    exists j l, nth_error ls j = Some l /\ l_id l = x /\ x <> noLayer /\ y = Z.of_nat (i + j).
Proof.
  induction ls as [|l0 ls IH]; intros i m Hi Hr Hl Hd; simpl.
  - split; auto; intros x y; split; auto; intros [H|([|j] & l & H & _)]; auto; discriminate.
  - set (m1 := if l_id l0 =? noLayer then m else set_mapping (l_id l0, Z.of_nat i) m).
    assert (Hm1 : forall x y, In (x, y) m1 <-> In (x, y) m \/ (l_id l0 <> noLayer /\ x = l_id l0 /\ y = Z.of_nat i)).
    { intros x y; unfold m1; destruct (Z.eqb_spec (l_id l0) noLayer) as [E|E].
      - split; auto; intros [H|H]; auto; tauto.
      - rewrite set_mapping_in; split.
        + intros [H|[H _]]; auto; injection H as -> ->; auto.
        + intros [H|(H1 & -> & ->)]; auto; right; split; auto.
          intros (q & Hq & [Hc|Hc]); simpl in Hc.
          * apply (Hl q l0 Hq (or_introl eq_refl) E); auto.
          * specialize (Hr q Hq); lia. }
    assert (Hi1 : inj m1) by (unfold m1; destruct (l_id l0 =? noLayer); auto using set_mapping_inj).
    destruct (IH (S i) m1) as [IHi IHm]; auto.
    + intros [x y] H; apply Hm1 in H as [H|(_ & _ & ->)]; [specialize (Hr _ H); simpl in *; lia|simpl; lia].
    + intros [x y] l H Hin Hid; apply Hm1 in H as [H|(H0 & -> & _)]; [apply Hl; simpl; auto|].
      simpl; intros E; apply In_nth_error in Hin as [b Hb].
      specialize (Hd 0%nat (S b) l0 l eq_refl Hb H0 E); discriminate.
    + intros a b la lb Ha Hb H0 E; specialize (Hd (S a) (S b) la lb Ha Hb H0 E); lia.
    + fold m1; destruct (make_ordered (S i) ls m1) as [r m''] eqn:Emo; simpl in *.
      split; auto; intros x y; rewrite IHm, Hm1; split.
      * intros [[H|(H0 & -> & ->)]|(j & l & Hj & Hid & Hx & ->)]; auto.
        -- right; exists 0%nat, l0; rewrite Nat.add_0_r; auto.
        -- right; exists (S j), l; repeat split; auto; f_equal; lia.
      * intros [H|([|j] & l & Hj & Hid & Hx & ->)]; auto.
        -- simpl in Hj; injection Hj as ->; left; right; rewrite Nat.add_0_r; subst; auto.
        -- right; exists j, l; repeat split; auto; f_equal; lia.
Qed.

Local Close Scope Z_scope.

(** the insertion loop *)
Lemma next_layer_name_ok names base :
  exists r, get_next_layer_name (S (List.length names)) names base = Ok r /\ ~ In r names.
Proof.
  unfold get_next_layer_name.
  pose proof (layer_name_used_spec names) as Hc.
  destruct (layer_name_used names base) eqn:E; simpl negb; cbv iota.
  - destruct (loop_terminates names (layer_name_used names) Hc base 1) as [r Hr].
    exists r; split; [exact Hr|]; apply (loop_sound names _ Hc) in Hr; tauto.
  - exists base; split; auto; intros H; apply Hc in H; congruence.
Qed.


Lemma is_conducting_spec a b :
  is_conducting (l_type a) && is_conducting (l_type b) = true <-> both_conducting a b.
Proof. unfold both_conducting; destruct (l_type a), (l_type b); simpl; intuition congruence. Qed.

Lemma neighbours_snoc {A} (R : A -> A -> Prop) l a b :
  neighbours R (l ++ [a]) -> R a b -> neighbours R (l ++ [a; b]).
Proof.
  induction l as [|x l IH]; intros H Hab; [simpl; auto|].
  destruct l as [|y l]; [simpl in *; tauto|].
  destruct H as [H1 H2]; split; [exact H1|exact (IH H2 Hab)].
Qed.


Lemma older_app nx a b : older nx (a ++ b) = older nx a ++ older nx b.
Proof. apply filter_app. Qed.
Lemma newer_app nx a b : newer nx (a ++ b) = newer nx a ++ newer nx b.
Proof. apply filter_app. Qed.

Lemma in_newer nx L l : In l (newer nx L) <-> In l L /\ nx <= l_obj l.
Proof.
  unfold newer; rewrite filter_In, negb_true_iff, Nat.ltb_ge; tauto.
Qed.
Lemma in_older nx L l : In l (older nx L) <-> In l L /\ l_obj l < nx.
Proof. unfold older; rewrite filter_In, Nat.ltb_lt; tauto. Qed.

Lemma names_ok_insert nx A d B :
  names_ok nx (A ++ B) -> nx <= l_obj d -> ~ In (l_name d) (map l_name (A ++ B)) -> names_ok nx (A ++ d :: B).
Proof.
  intros [H1 H2] Hd Hf.
  assert (En : newer nx (A ++ d :: B) = newer nx A ++ d :: newer nx B).
  { rewrite newer_app; unfold newer at 2; simpl; destruct (Nat.ltb_spec (l_obj d) nx); [lia|auto]. }
  assert (Eo : older nx (A ++ d :: B) = older nx (A ++ B)).
  { rewrite !older_app; unfold older at 2; simpl; destruct (Nat.ltb_spec (l_obj d) nx); [lia|auto]. }
  assert (Hsub : forall n, In n (map l_name (newer nx (A ++ B))) -> In n (map l_name (A ++ B))).
  { intros n Hn; apply in_map_iff in Hn as (l & <- & Hl); apply in_map; apply in_newer in Hl; tauto. }
  split.
  - rewrite En, map_app; simpl.
    apply (Permutation_NoDup (l := l_name d :: map l_name (newer nx (A ++ B)))).
    + rewrite newer_app, map_app; apply Permutation_middle.
    + constructor; auto.
  - intros n; rewrite En, Eo, map_app; simpl; rewrite in_app_iff; simpl; intros Hn Ho.
    assert (n = l_name d \/ In n (map l_name (newer nx (A ++ B)))) as [->|Hn'].
    { rewrite newer_app, map_app, in_app_iff; intuition. }
    + apply Hf; apply in_map_iff in Ho as (l & El & Hl); rewrite <- El; apply in_map; apply in_older in Hl; tauto.
    + eapply H2; eauto.
Qed.

Lemma conducting_pairs_cons a b l :
  conducting_pairs (a :: b :: l) =
  (if is_conducting (l_type a) && is_conducting (l_type b) then 1 else 0) + conducting_pairs (b :: l).
Proof. reflexivity. Qed.

Lemma add_diel_spec nx0 rest : forall done curr nx,
  nx0 <= nx ->
  Forall (fun l => l_obj l < nx0) (curr :: rest) ->
  names_ok nx0 (done ++ curr :: rest) ->
  NoDup (map l_obj (done ++ curr :: rest)) ->
  (forall l, In l (done ++ curr :: rest) -> l_obj l < nx) ->
  (forall l, In l (newer nx0 done) -> l_type l = LDielectric /\ l_id l = noLayer) ->
  neighbours no_both (done ++ [curr]) ->
  exists out nx', add_diel done curr rest nx = Ok (out, nx') /\ nx <= nx' /\
    older nx0 out = older nx0 (done ++ curr :: rest) /\
    List.length (newer nx0 out) = List.length (newer nx0 done) + conducting_pairs (curr :: rest) /\
    names_ok nx0 out /\ NoDup (map l_obj out) /\ (forall l, In l out -> l_obj l < nx') /\
    (forall l, In l (newer nx0 out) -> l_type l = LDielectric /\ l_id l = noLayer) /\
    neighbours no_both out.
Proof.
  induction rest as [|next rest IH]; intros done curr nx Hnx Hold Hn Hnd Hlt Hnew Hnb.
  - inversion Hold as [|? ? Hcur _]; subst.
    assert (Enew : newer nx0 (done ++ [curr]) = newer nx0 done).
    { rewrite newer_app; unfold newer at 2; simpl; apply Nat.ltb_lt in Hcur; rewrite Hcur; simpl; apply app_nil_r. }
    simpl; exists (done ++ [curr]), nx; rewrite Enew.
    refine (conj eq_refl (conj _ (conj eq_refl (conj _ (conj Hn (conj Hnd (conj Hlt (conj Hnew Hnb)))))))); lia.
  - inversion Hold as [|? ? Hcur Hold']; subst; inversion Hold' as [|? ? Hnxt _]; subst.
    rewrite conducting_pairs_cons; cbn [add_diel].
    destruct (is_conducting (l_type curr) && is_conducting (l_type next)) eqn:Eb.
    + set (L := done ++ curr :: next :: rest) in *.
      destruct (next_layer_name_ok (map l_name L) "Dielectric") as (nm & Hnm & Hfresh).
      rewrite Hnm; cbn [bind].
      set (d := mkLayer nx nm LDielectric noLayer).
      assert (EL' : (done ++ [curr; d]) ++ next :: rest = (done ++ [curr]) ++ d :: next :: rest)
        by (rewrite <- !app_assoc; auto).
      assert (EL : L = (done ++ [curr]) ++ next :: rest) by (unfold L; rewrite <- app_assoc; auto).
      destruct (IH (done ++ [curr; d]) next (S nx)) as
        (out & nx' & Hrun & Hle & Hol & Hlen & Hno & Hnd' & Hlt' & Hnw & Hnb').
      * lia.
      * auto.
      * rewrite EL'; apply names_ok_insert; [rewrite <- EL; exact Hn|exact Hnx|rewrite <- EL; exact Hfresh].
      * rewrite EL', map_app; simpl.
        apply (Permutation_NoDup (l := nx :: map l_obj L)).
        -- rewrite EL, map_app; apply Permutation_middle.
        -- constructor; auto; intros H; apply in_map_iff in H as (l & El & Hl); apply Hlt in Hl; lia.
      * rewrite EL'; intros l Hl; apply in_app_or in Hl as [Hl|[<-|Hl]]; [|simpl; lia|];
          (assert (Hin : In l L) by (rewrite EL; apply in_or_app; auto); apply Hlt in Hin; lia).
      * intros l Hl; apply in_newer in Hl as [Hl Hge]; apply in_app_or in Hl as [Hl|[<-|[<-|[]]]].
        -- apply Hnew, in_newer; auto.
        -- lia.
        -- auto.
      * replace ((done ++ [curr; d]) ++ [next]) with ((done ++ [curr]) ++ [d; next]) by (rewrite <- !app_assoc; auto).
        apply neighbours_snoc; [|intros [H _]; discriminate].
        rewrite <- app_assoc; apply neighbours_snoc; auto; intros [_ H]; discriminate.
      * exists out, nx'; split; [exact Hrun|]; split; [lia|]; split.
        { rewrite Hol, EL', EL, !older_app; f_equal.
          unfold older; cbn [filter]; change (l_obj d) with nx; destruct (Nat.ltb_spec nx nx0); [lia|auto]. }
        split; [|auto].
        rewrite Hlen, newer_app, app_length.
        unfold newer at 2; cbn [filter]; change (l_obj d) with nx.
        apply Nat.ltb_lt in Hcur; rewrite Hcur; destruct (Nat.ltb_spec nx nx0); [lia|]; cbn [negb List.length]; lia.
    + assert (EL : (done ++ [curr]) ++ next :: rest = done ++ curr :: next :: rest) by (rewrite <- app_assoc; auto).
      destruct (IH (done ++ [curr]) next nx) as
        (out & nx' & Hrun & Hle & Hol & Hlen & Hrest); rewrite ?EL; auto.
      * intros l Hl; apply in_newer in Hl as [Hl Hge]; apply in_app_or in Hl as [Hl|[<-|[]]]; [|lia].
        apply Hnew, in_newer; auto.
      * rewrite <- app_assoc; apply neighbours_snoc; auto; intros H; apply is_conducting_spec in H; congruence.
      * exists out, nx'; split; [exact Hrun|]; split; [auto|]; split; [rewrite Hol, EL; auto|].
        split; [|auto].
        rewrite Hlen, newer_app, app_length.
        unfold newer at 2; cbn [filter]; apply Nat.ltb_lt in Hcur; rewrite Hcur; cbn [negb List.length]; lia.
Qed.

Lemma older_all nx ls : (forall l, In l ls -> l_obj l < nx) -> older nx ls = ls /\ newer nx ls = [].
Proof.
  induction ls as [|x ls IH]; simpl; auto; intros H.
  destruct IH as [I1 I2]; auto.
  assert (Hx : l_obj x < nx) by auto; apply Nat.ltb_lt in Hx; rewrite Hx; simpl; fold (older nx ls) (newer nx ls).
  rewrite I1, I2; auto.
Qed.

(** ident determines what the specification looks at *)
Lemma ident_older nx a : forall b, map ident a = map ident b -> map ident (older nx a) = map ident (older nx b).
Proof.
  induction a as [|x a IH]; intros [|y b] H; try discriminate; auto.
  simpl in H; injection H as Ho Hn Ht H.
  unfold older; simpl; rewrite Ho; fold (older nx a) (older nx b).
  destruct (l_obj y <? nx); simpl; [f_equal; auto; unfold ident; congruence|auto].
Qed.

Lemma ident_newer nx a : forall b, map ident a = map ident b -> map ident (newer nx a) = map ident (newer nx b).
Proof.
  induction a as [|x a IH]; intros [|y b] H; try discriminate; auto.
  simpl in H; injection H as Ho Hn Ht H.
  unfold newer; simpl; rewrite Ho; fold (newer nx a) (newer nx b).
  destruct (l_obj y <? nx); simpl; [auto|f_equal; auto; unfold ident; congruence].
Qed.

Lemma map_ident_proj {B} (f : layer -> B) (g : nat * string * layer_type -> B) a b :
  (forall l, f l = g (ident l)) -> map ident a = map ident b -> map f a = map f b.
Proof.
  intros Hf H; rewrite (map_ext f (fun l => g (ident l)) Hf a), (map_ext f (fun l => g (ident l)) Hf b).
  rewrite <- (map_map ident g a), <- (map_map ident g b), H; auto.
Qed.

Lemma neighbours_ident a : forall b, map ident a = map ident b -> neighbours no_both a -> neighbours no_both b.
Proof.
  induction a as [|x a IH]; intros [|y b] H Hn; try discriminate; auto.
  injection H as Ho Hna Ht H.
  destruct b as [|y' b]; simpl; auto.
  destruct a as [|x' a]; [discriminate|].
  destruct Hn as [H1 H2]; pose proof H as H'; simpl in H'; injection H' as Ho' Hna' Ht' H'; split.
  - unfold no_both, both_conducting in *; rewrite <- Ht, <- Ht'; auto.
  - apply (IH (y' :: b)); auto.
Qed.

Lemma obj_at_nodup ls a b la lb : NoDup (map l_obj ls) ->
  nth_error ls a = Some la -> nth_error ls b = Some lb -> l_obj la = l_obj lb -> a = b.
Proof.
  intros Hnd Ha Hb E; rewrite NoDup_nth_error in Hnd; apply Hnd.
  - rewrite map_length; apply nth_error_Some; congruence.
  - rewrite !nth_error_map, Ha, Hb; simpl; congruence.
Qed.

Lemma add_dielectrics_full c :
  inv c -> ly_list c <> [] ->
  exists c' m, add_default_dielectrics c = Ok (c', m) /\ inv c' /\
    map ident (older (ly_next c) (ly_list c')) = map ident (ly_list c) /\
    (forall l, In l (newer (ly_next c) (ly_list c')) -> l_type l = LDielectric) /\
    List.length (newer (ly_next c) (ly_list c')) = conducting_pairs (ly_list c) /\
    names_ok (ly_next c) (ly_list c') /\
    neighbours no_both (ly_list c') /\
    (forall i j l l', nth_error (ly_list c) i = Some l -> nth_error (ly_list c') j = Some l' ->
       l_obj l = l_obj l' -> forward m (Z.of_nat i) = Z.of_nat j /\ backward m (Z.of_nat j) = Z.of_nat i) /\
    (forall j l', nth_error (ly_list c') j = Some l' -> ly_next c <= l_obj l' -> backward m (Z.of_nat j) = noLayer) /\
    (forall i, (List.length (ly_list c) <= i)%nat -> forward m (Z.of_nat i) = noLayer).
Proof.
  intros [Hpos [Hnd Hlt]] Hne; unfold add_default_dielectrics.
  destruct (ly_list c) as [|l0 ls] eqn:Elist; [congruence|clear Hne].
  destruct (older_all (ly_next c) (l0 :: ls)) as [Hold Hnew]; [auto|].
  destruct (add_diel_spec (ly_next c) ls [] l0 (ly_next c)) as
    (out & nx' & Hrun & Hle & Hol & Hlen & Hno & Hnd' & Hlt' & Hnw & Hnb); simpl app; auto.
  - rewrite Forall_forall; auto.
  - split; rewrite Hnew; simpl; [constructor|tauto].
  - intros l [].
  - simpl; auto.
  - rewrite Hrun; cbn [app] in Hol; rewrite Hold in Hol; cbn [bind fst snd].
    destruct (make_ordered_list out 0 lm_new) as (Hid & Hlo & Hposo).
    assert (Holdid : forall l, In l out -> l_obj l < ly_next c -> exists i, nth_error (l0 :: ls) i = Some l /\ l_id l = Z.of_nat i).
    { intros l Hl Ho; assert (Hin : In l (l0 :: ls)) by (rewrite <- Hol; apply in_older; auto).
      apply In_nth_error in Hin as [i Hi]; exists i; split; auto. }
    assert (Hnewid : forall l, In l out -> ~ l_obj l < ly_next c -> l_id l = noLayer).
    { intros l Hl Ho; apply Hnw, in_newer; split; auto; lia. }
    destruct (make_ordered_map out 0 lm_new) as [Hmi Hmm].
    { apply new_inj. }
    { intros p Hp; apply new_in in Hp as [->| ->]; reflexivity. }
    { intros p l Hp Hl Hid0; destruct (lt_dec (l_obj l) (ly_next c)) as [Ho|Ho].
      - destruct (Holdid l Hl Ho) as (i & _ & ->); apply new_in in Hp as [->| ->]; simpl; unfold noLayer, ComponentLayer; lia.
      - exfalso; auto. }
    { intros a b la lb Ha Hb Hida E.
      assert (Ha' := nth_error_In _ _ Ha); assert (Hb' := nth_error_In _ _ Hb).
      destruct (lt_dec (l_obj la) (ly_next c)) as [Hoa|Hoa]; [|exfalso; auto].
      destruct (lt_dec (l_obj lb) (ly_next c)) as [Hob|Hob]; [|rewrite E in Hida; exfalso; auto].
      destruct (Holdid la Ha' Hoa) as (i & Hi & Ei), (Holdid lb Hb' Hob) as (k & Hk & Ek).
      assert (i = k) by lia; subst k; assert (la = lb) by congruence; subst lb.
      apply (obj_at_nodup out a b la la); auto. }
    destruct (make_ordered 0 out lm_new) as [r m] eqn:Emo; cbn [fst snd] in *.
    assert (Eob : map l_obj r = map l_obj out)
      by (apply (map_ident_proj l_obj (fun p => fst (fst p))); auto).
    assert (Gm : good m).
    { constructor; auto; apply Hmm; left; apply new_in; auto. }
    assert (Hnth : forall j l', nth_error r j = Some l' -> exists l, nth_error out j = Some l /\ ident l = ident l').
    { intros j l' Hj; assert (Hj' : nth_error (map ident r) j = Some (ident l')) by (rewrite nth_error_map, Hj; auto).
      rewrite Hid, nth_error_map in Hj'; destruct (nth_error out j) as [l|]; [|discriminate].
      injection Hj' as Hj'; exists l; split; auto; unfold ident; congruence. }
    exists (mkLayers r nx'), m; cbn [ly_list ly_next].
    split; [reflexivity|]; split.
    { split; [intros j l Hj; apply Hposo in Hj; rewrite Hj; f_equal|split].
      - cbn [ly_list]; rewrite Eob; auto.
      - cbn [ly_list ly_next]; intros l Hl; apply In_nth_error in Hl as [j Hj].
        destruct (Hnth j l Hj) as (l' & Hl' & E); apply nth_error_In in Hl'; apply Hlt' in Hl'.
        unfold ident in E; congruence. }
    split; [rewrite (ident_older _ r out Hid), Hol; auto|].
    split.
    { intros l Hl; apply in_newer in Hl as [Hl Ho]; apply In_nth_error in Hl as [j Hj].
      destruct (Hnth j l Hj) as (l' & Hl' & E); unfold ident in E; injection E as E1 E2 E3.
      rewrite <- E3; apply Hnw, in_newer; split; [eapply nth_error_In; eauto|lia]. }
    split.
    { rewrite <- (map_length ident), (ident_newer _ r out Hid), map_length, Hlen; auto. }
    split.
    { destruct Hno as [N1 N2].
      assert (A1 : map l_name (newer (ly_next c) r) = map l_name (newer (ly_next c) out))
        by (apply (map_ident_proj l_name (fun p => snd (fst p))); auto; apply ident_newer; auto).
      assert (A2 : map l_name (older (ly_next c) r) = map l_name (older (ly_next c) out))
        by (apply (map_ident_proj l_name (fun p => snd (fst p))); auto; apply ident_older; auto).
      split; rewrite A1, ?A2; auto. }
    split; [apply (neighbours_ident out r); auto|].
    split; [|split].
    + intros i j l l' Hi Hj Eo; destruct (Hnth j l' Hj) as (l2 & Hl2 & E2).
      unfold ident in E2; injection E2 as E2o _ _.
      assert (Hol2 : l_obj l2 < ly_next c).
      { assert (In l (l0 :: ls)) as H0 by (eapply nth_error_In; eauto).
        apply Hlt in H0; rewrite E2o, <- Eo; auto. }
      destruct (Holdid l2 (nth_error_In _ _ Hl2) Hol2) as (i2 & Hi2 & Eid).
      assert (i = i2) by (apply (obj_at_nodup (l0 :: ls) i i2 l l2); auto; congruence); subst i2.
      assert (Hin : In (Z.of_nat i, Z.of_nat j) m).
      { apply Hmm; right; exists j, l2; repeat split; auto; unfold noLayer; lia. }
      split; [apply forward_in|apply backward_in]; auto.
    + intros j l' Hj Ho; apply (bwd_no m _ Gm); right; intros x Hx; apply Hmm in Hx as [Hx|(k & l2 & Hk & Hidk & Hx & Hy)].
      * apply new_in in Hx as [Hx|Hx]; injection Hx as _ Hx; unfold noLayer, ComponentLayer in *; lia.
      * assert (k = j) by lia; subst k.
        destruct (Hnth j l' Hj) as (l3 & Hl3 & E3); assert (l3 = l2) by congruence; subst l3.
        unfold ident in E3; injection E3 as E3o _ _.
        apply Hx; rewrite <- Hidk; apply Hnewid; [eapply nth_error_In; eauto|lia].
    + intros i Hi; apply (fwd_no m _ Gm); right; intros y Hy; apply Hmm in Hy as [Hy|(k & l2 & Hk & Hidk & Hx & Hy)].
      * apply new_in in Hy as [Hy|Hy]; injection Hy as Hy _; unfold noLayer, ComponentLayer in *; lia.
      * destruct (lt_dec (l_obj l2) (ly_next c)) as [Ho|Ho].
        -- destruct (Holdid l2 (nth_error_In _ _ Hk) Ho) as (i2 & Hi2 & Eid).
           assert (i2 = i) by lia; subst i2.
           assert (i < List.length (l0 :: ls)) by (apply nth_error_Some; congruence); lia.
        -- apply Hx; rewrite <- Hidk; apply Hnewid; auto; eapply nth_error_In; eauto.
Qed.

Lemma inv_init : inv ly_init.
Proof. split; [intros [|i] l H; discriminate|split; [constructor|intros l []]]. Qed.

Lemma layer_step_inv c o c' out : inv c -> layer_step c o = Ok (c', out) ->
  inv c' /\ sublist (map ident (ly_list c)) (map ident (ly_list c')).
Proof.
  intros I E; destruct o as [n t|ls|]; cbn [layer_step] in E.
  - destruct (append_layer c n t) as [c1 i] eqn:E1; injection E as <- <-.
    split; [eapply inv_append; eauto|].
    apply append_layer_spec in E1 as (-> & _); rewrite map_app; apply sublist_app_r, sublist_refl.
  - destruct (append_layers c ls) as [c1 is] eqn:E1; injection E as <- <-.
    destruct (append_layers_spec _ _ _ _ E1 I) as (I1 & new & -> & _); split; auto.
    rewrite map_app; apply sublist_app_r, sublist_refl.
  - destruct (ly_list c) eqn:El.
    + unfold add_default_dielectrics in E; rewrite El in E; discriminate.
    + assert (Hne : ly_list c <> []) by congruence.
      destruct (add_dielectrics_full c I Hne) as (c1 & m & E1 & I1 & Ho & _); rewrite E1 in E.
      injection E as <- <-; split; auto; rewrite <- El, <- Ho; apply sublist_map, sublist_filter.
Qed.

Lemma layer_run_inv ops : forall c c' outs, inv c -> layer_run c ops = Ok (c', outs) ->
  inv c' /\ sublist (map ident (ly_list c)) (map ident (ly_list c')).
Proof.
  induction ops as [|o ops IH]; simpl; intros c c' outs I E.
  - injection E as <- <-; split; auto using sublist_refl.
  - destruct (layer_step c o) as [[c1 out]| | |] eqn:E1; try discriminate; simpl in E.
    destruct (layer_run c1 ops) as [[c2 outs2]| | |] eqn:E2; try discriminate; simpl in E; injection E as <- <-.
    destruct (layer_step_inv _ _ _ _ I E1) as [I1 S1], (IH _ _ _ I1 E2) as [I2 S2].
    split; auto; eapply sublist_trans; eauto.
Qed.

Lemma append_found c n t c' i : inv c -> append_layer c n t = (c', i) ->
  find_layer_by_id c' i = Some (mkLayer (ly_next c) n t i).
Proof.
  intros _ E; apply append_layer_spec in E as (El & -> & _); unfold find_layer_by_id.
  destruct (Z.ltb_spec (Z.of_nat (List.length (ly_list c))) 0); [lia|].
  rewrite El, Nat2Z.id, nth_error_app2, Nat.sub_diag by lia; auto.
Qed.

Lemma layer_run_total ops : forall c, inv c -> ly_list c <> [] -> exists c' outs, layer_run c ops = Ok (c', outs).
Proof.
  induction ops as [|o ops IH]; simpl; intros c I Hne; eauto.
  assert (exists c1 out, layer_step c o = Ok (c1, out) /\ ly_list c1 <> []) as (c1 & out & E1 & Hne1).
  { destruct o as [n t|ls|]; cbn [layer_step].
    - destruct (append_layer c n t) as [c1 i] eqn:E1; exists c1, (OIds [i]); split; auto.
      apply append_layer_spec in E1 as (-> & _); destruct (ly_list c); discriminate.
    - destruct (append_layers c ls) as [c1 is] eqn:E1; exists c1, (OIds is); split; auto.
      destruct (append_layers_spec _ _ _ _ E1 I) as (_ & new & -> & _); destruct (ly_list c); [congruence|discriminate].
    - destruct (add_dielectrics_full c I Hne) as (c1 & m & E1 & I1 & Ho & _); rewrite E1; simpl.
      exists c1, (OMap m); split; auto; intros H; rewrite H in Ho; destruct (ly_list c); [congruence|discriminate]. }
  rewrite E1; simpl; destruct (layer_step_inv _ _ _ _ I E1) as [I1 _].
  destruct (IH c1 I1 Hne1) as (c2 & outs & E2); rewrite E2; simpl; eauto.
Qed.

(** FindLayerByLayerId only returns the layer whose id is asked for *)
Lemma find_by_id_sound c i l : inv c -> find_layer_by_id c i = Some l <-> In l (ly_list c) /\ l_id l = i.
Proof.
  intros [Hp _]; unfold find_layer_by_id; split.
  - destruct (Z.ltb_spec i 0); [discriminate|]; intros H1; split; [eapply nth_error_In; eauto|].
    rewrite (Hp _ _ H1); lia.
  - intros [Hin E]; apply In_nth_error in Hin as [k Hk]; pose proof (Hp _ _ Hk) as Hid.
    destruct (Z.ltb_spec i 0); [lia|]; replace (Z.to_nat i) with k by lia; auto.
Qed.

(** default layer map *)
Lemma default_map_spec c i : inv c ->
  forward (default_layer_map c) (Z.of_nat i) = if i <? List.length (ly_list c) then Z.of_nat i else noLayer.
Proof.
  intros [Hp _]; unfold default_layer_map.
  assert (Hg : forall ls m, good m ->
    (forall p, In p m -> snd p = fst p) ->
    let m' := fold_left (fun m l => set_mapping (l_id l, l_id l) m) ls m in
    good m' /\ (forall p, In p m' -> snd p = fst p) /\
    forall x, (exists y, In (x, y) m') <-> (exists y, In (x, y) m) \/ exists l, In l ls /\ l_id l = x).
  { induction ls as [|l ls IH]; simpl; intros m G Hd.
    - split; [auto|split; [auto|]]; intros x; split; [auto|intros [H|(l & [] & _)]; auto].
    - destruct (IH (set_mapping (l_id l, l_id l) m)) as (G' & Hd' & Hx); [apply good_set; auto| |].
      { intros p Hpp; apply set_mapping_in in Hpp as [Hpp|[-> _]]; auto. }
      split; [auto|split; [auto|]]; intros x; split.
      + intros H; apply Hx in H as [[y Hy]|(l' & Hl' & E)].
        * apply set_mapping_in in Hy as [Hy|[Hy _]]; [left; eauto|injection Hy as -> _; right; eauto].
        * right; exists l'; auto.
      + intros H; apply Hx; destruct H as [[y Hy]|(l' & [<-|Hl'] & E)].
        * left; exists y; apply set_mapping_in; auto.
        * left; destruct (clash_dec (l_id l, l_id l) m) as [([a b] & Hin & Hc)|Hc].
          -- pose proof (Hd _ Hin) as Hab; simpl in Hab, Hc; subst b.
             exists a; apply set_mapping_in; left; subst x; destruct Hc as [-> | ->]; auto.
          -- exists (l_id l); apply set_mapping_in; right; subst; auto.
        * right; eauto. }
  destruct (Hg (ly_list c) lm_new good_new) as (G & Hd & Hx).
  { intros p H; apply new_in in H as [->| ->]; auto. }
  clear Hg; set (m := fold_left _ _ _) in *.
  destruct (Nat.ltb_spec i (List.length (ly_list c))) as [Hi|Hi].
  - destruct (nth_error (ly_list c) i) as [l|] eqn:E; [|apply nth_error_None in E; lia].
    assert (exists y, In (Z.of_nat i, y) m) as [y Hy].
    { apply Hx; right; exists l; split; [eapply nth_error_In; eauto|apply Hp; auto]. }
    pose proof (Hd _ Hy) as Hy'; simpl in Hy'; rewrite (forward_in m _ _ (g_inj m G) Hy); auto.
  - apply (fwd_no m _ G); right; intros y Hy.
    destruct (proj1 (Hx (Z.of_nat i)) (ex_intro _ y Hy)) as [[z Hz]|(l & Hl & E)].
    + apply new_in in Hz as [Hz|Hz]; injection Hz as Hz _; unfold noLayer, ComponentLayer in *; lia.
    + apply In_nth_error in Hl as [k Hk]; pose proof (Hp _ _ Hk) as Hk'.
      assert (k < List.length (ly_list c)) by (apply nth_error_Some; congruence); lia.
Qed.
