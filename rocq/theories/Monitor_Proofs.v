From Verif Require Import Base QSum Prism_Model Prism_Spec Prism_Proofs PrismNet_Model PrismNet_Spec PrismNet_Proofs PrismNet_Props Units_Model Monitor_Model Monitor_Spec.
From Coq Require Import QArith Qround Lqa.
Close Scope Q_scope.
Open Scope nat_scope.
Open Scope res_scope.

Lemma counts_offsets acc ns : counts acc ns = offsets_from acc ns.
Proof. revert acc; induction ns as [|n ns IH]; intros acc; cbn [counts offsets_from]; [reflexivity|rewrite IH; reflexivity]. Qed.

Lemma build_built m t scale m' : wf_model m t -> m_prisms m = [] -> build scale m = Ok m' -> built m'.
Proof.
  intros W HP E; destruct (build_ok m t scale W) as (m2 & ks & E0 & N & E1 & E2 & E3 & E4 & insts & E5 & F).
  assert (m2 = m') by congruence; subst m2; rewrite HP in E5; cbn [app] in E5.
  assert (L : m_layers m' = m_layers m /\ m_temps m' = m_temps m).
  { revert E; unfold build; destruct (get_template (m_temps m) 0); cbn [bind]; try discriminate; destruct (total _); cbn [bind]; try discriminate; destruct (build_loop _ _ _ _ _ _ _); cbn [bind]; try discriminate; intros [= <-]; auto. }
  destruct L as [L1 L2]; split; [|split].
  - rewrite counts_offsets, L1, E2; reflexivity.
  - rewrite E5, L1; clear - F; induction F as [|p i ps is (H1 & H2 & _) F IH]; cbn [map]; [reflexivity|rewrite IH, H1, H2, <- surjective_pairing; reflexivity].
  - rewrite L1, L2; intros l Hl; destruct W as (_ & W & _); exists t; apply W; exact Hl.
Qed.

Section Built.
  Context {K : Type} (key : template -> nat -> K) (m : pmodel) (B : built m).

  Lemma prism_of_fun l i t tid t' tid' : prism_of m l i t tid -> prism_of m l i t' tid' -> t = t' /\ tid = tid'.
  Proof.
    intros (y & k & e & Hy & He & <- & N & Ht) (y' & k' & e' & Hy' & He' & <- & N' & Ht').
    apply numbered_iff in N as (_ & _ & _ & N), N' as (_ & _ & _ & N').
    assert (k = k') by lia; subst k'; rewrite Hy in Hy'; injection Hy' as <-; rewrite He in He'; injection He' as <-; split; congruence.
  Qed.

  Lemma entry_ok l i t tid : prism_of m l i t tid -> entry key m t l i = Ok (key t tid, i).
  Proof.
    intros (y & k & e & Hy & He & <- & N & Ht); destruct B as (_ & P & _); unfold entry, vat, vidx.
    assert (H : nth_error (map (fun p => (i_lyr p, i_ele p)) (m_prisms m)) i = Some (l, k)) by (rewrite P; exact N).
    rewrite nth_error_map in H; destruct (nth_error (m_prisms m) i) as [p|]; [|discriminate]; cbn [option_map] in H; injection H as H1 H2.
    cbn [bind]; rewrite H1, Nat.eqb_refl, Hy; cbn [bind]; rewrite H2, He; reflexivity.
  Qed.

  Lemma entries_ok l t is : (forall i, In i is -> exists tid, prism_of m l i t tid) ->
    exists tr, entries key m t l is = Ok tr /\ Forall2 (fun i v => exists tid, prism_of m l i t tid /\ v = (key t tid, i)) is tr.
  Proof.
    induction is as [|i is IH]; intros H; cbn [entries]; [eauto|].
    destruct (H i (or_introl eq_refl)) as [tid Hi]; rewrite (entry_ok _ _ _ _ Hi); cbn [bind].
    destruct IH as (tr & -> & F); [intros j Hj; apply H; right; exact Hj|]; cbn [bind]; eexists; split; [reflexivity|constructor; eauto].
  Qed.

  Lemma layer_tree_ok l y : nth_error (m_layers m) l = Some y -> exists t tr, alookup Nat.eqb l (m_temps m) = Some t /\
    layer_tree key m l = Ok tr /\ List.length tr = List.length (y_elems y) /\ NoDup (map snd tr) /\
    forall v, In v tr <-> exists i tid, prism_of m l i t tid /\ v = (key t tid, i).
  Proof.
    intros Hy; destruct B as (O & P & T).
    assert (Hl : l < List.length (m_layers m)) by (apply nth_error_Some; congruence).
    destruct (T l Hl) as [t Ht]; exists t; unfold layer_tree, get_template, vat; rewrite Ht, O, counts_offsets; cbn [bind].
    change (map (fun y => List.length (y_elems y)) (m_layers m)) with (sizes (m_layers m)).
    assert (Hs : List.length (sizes (m_layers m)) = List.length (m_layers m)) by (unfold sizes; apply map_length).
    rewrite !offs_nth by lia; cbn [bind].
    assert (Hn : nth_error (sizes (m_layers m)) l = Some (List.length (y_elems y))) by (apply sizes_nth; eauto).
    assert (Hf : list_sum (firstn (l + 1) (sizes (m_layers m))) = list_sum (firstn l (sizes (m_layers m))) + List.length (y_elems y)).
    { revert Hn; generalize (sizes (m_layers m)); clear; induction l as [|l IH]; intros [|a s]; cbn [nth_error Nat.add firstn]; try discriminate.
      - intros [= ->]; cbn; lia.
      - intros H; change (list_sum (a :: firstn (l + 1) s)) with (a + list_sum (firstn (l + 1) s)); change (list_sum (a :: firstn l s)) with (a + list_sum (firstn l s)); rewrite (IH s H); lia. }
    rewrite Hf; replace (0 + (list_sum (firstn l (sizes (m_layers m))) + List.length (y_elems y)) - (0 + list_sum (firstn l (sizes (m_layers m)))))
      with (List.length (y_elems y)) by lia.
    set (b := list_sum (firstn l (sizes (m_layers m)))) in *; cbn [Nat.add].
    assert (In1 : forall i, In i (seq b (List.length (y_elems y))) -> exists tid, prism_of m l i t tid).
    { intros i Hi; apply in_seq in Hi. destruct (nth_error (y_elems y) (i - b)) as [e|] eqn:Ee; [|apply nth_error_None in Ee; lia].
      exists (e_tid e), y, (i - b), e; split; [exact Hy|split; [exact Ee|split; [reflexivity|split; [|exact Ht]]]].
      apply numbered_iff; exists y; fold b; split; [exact Hy|split; lia]. }
    destruct (entries_ok l t _ In1) as (tr & -> & F); exists tr; split; [reflexivity|split; [reflexivity|]].
    assert (M : map snd tr = seq b (List.length (y_elems y))).
    { clear - F; induction F as [|i v is tr (tid & _ & ->) F IH]; cbn [map snd]; [reflexivity|rewrite IH; reflexivity]. }
    split; [rewrite <- (map_length snd), M, seq_length; reflexivity|split; [rewrite M; apply seq_NoDup|]].
    intros v; split.
    - intros Hv; clear - F Hv; induction F as [|i w is tr (tid & H & ->) F IH]; [destruct Hv|]; destruct Hv as [<-|Hv]; eauto.
    - intros (i & tid & Hp & ->).
      assert (Hi : In i (seq b (List.length (y_elems y)))).
      { destruct Hp as (y' & k & e & Hy' & He & _ & N & _); apply numbered_iff in N as (y2 & Hy2 & Hk & ->); fold b.
        assert (y2 = y) by congruence; subst y2; apply in_seq; lia. }
      clear - F Hi Hp; induction F as [|j w is tr (tid' & H & ->) F IH]; [destruct Hi|].
      destruct Hi as [->|Hi]; [left; destruct (prism_of_fun _ _ _ _ _ _ H Hp) as [_ ->]; reflexivity|right; apply IH; exact Hi].
  Qed.

  (** The cache holds trees of the layers. *)
  Definition fresh (c : cache K) : Prop := forall l tr, alookup Nat.eqb l c = Some tr -> layer_tree key m l = Ok tr.
  Lemma fresh_nil : fresh [].
  Proof. intros l tr H; discriminate. Qed.
  Lemma query_fresh c l : fresh c ->
    match query_tree key m c l with
    | Ok (c', tr) => fresh c' /\ layer_tree key m l = Ok tr
    | Throw => layer_tree key m l = Throw | UB => layer_tree key m l = UB | OutOfFuel => layer_tree key m l = OutOfFuel
    end.
  Proof.
    intros F; unfold query_tree; destruct (alookup Nat.eqb l c) as [tr|] eqn:E; [split; auto|].
    destruct (layer_tree key m l) as [tr| | |] eqn:El; cbn [bind]; auto; split; [|reflexivity].
    intros l' tr'; rewrite (alookup_emplace _ nat_eqb_reflect).
    destruct (alookup Nat.eqb l' c) as [x|] eqn:E'; [intros [= <-]; apply F; exact E'|].
    destruct (Nat.eqb_spec l' l) as [->|]; [intros [= <-]; exact El|discriminate].
  Qed.
  Lemma layer_tree_cases l : (exists tr, layer_tree key m l = Ok tr) \/ layer_tree key m l = Throw.
  Proof.
    destruct (nth_error (m_layers m) l) as [y|] eqn:Hy; [left; destruct (layer_tree_ok l y Hy) as (t & tr & _ & E & _); eauto|right].
    apply nth_error_None in Hy; unfold layer_tree, get_template; destruct (alookup Nat.eqb l (m_temps m)); cbn [bind]; [|reflexivity].
    unfold vat; destruct (nth_error (m_offs m) l); cbn [bind]; [|reflexivity].
    destruct B as (O & _); rewrite (proj2 (nth_error_None (m_offs m) (l + 1))); [reflexivity|].
    rewrite O, counts_offsets, offsets_len, map_length; lia.
  Qed.
  Lemma warm_fresh s : forall c, fresh c -> exists c', warm key m c s = Ok c' /\ fresh c'.
  Proof.
    induction s as [|l s IH]; intros c F; cbn [warm]; [eauto|].
    assert (Q := query_fresh c l F); destruct (query_tree key m c l) as [[c' tr]| | |]; [apply IH, Q| |apply IH, F|];
      destruct (layer_tree_cases l) as [[tr E]|E]; congruence.
  Qed.
End Built.

(** A lookup does not depend on what is in the cache. *)
Lemma find_all_cache {K} (key : template -> nat -> K) nearest strict m mons : forall c c', fresh key m c -> fresh key m c' ->
  find_all key nearest strict m c mons = find_all key nearest strict m c' mons.
Proof.
  assert (A : forall mon c, fresh key m c ->
    match find_one key nearest strict m c mon, find_one key nearest strict m [] mon with
    | Ok (c1, i), Ok (_, j) => i = j /\ fresh key m c1
    | UB, UB => True | Throw, Throw => True | OutOfFuel, OutOfFuel => True | _, _ => False end).
  { intros [[x y] z] c F; unfold find_one; destruct (nearest_layer strict z (heights m)) as [l| | |]; cbn [bind]; auto.
    destruct (Qeq_bool (m_scale m) 0); [exact I|].
    destruct (to_int64 (x / m_scale m)) as [px| | |]; cbn [bind]; auto; destruct (to_int64 (y / m_scale m)) as [py| | |]; cbn [bind]; auto.
    assert (Q := query_fresh key m c l F); assert (Q0 := query_fresh key m [] l (fresh_nil key m)).
    destruct (query_tree key m c l) as [[c1 t1]| | |], (query_tree key m [] l) as [[c0 t0]| | |]; cbn [bind fst snd]; try (destruct Q; congruence); try (destruct Q0; congruence); try congruence; auto.
    destruct Q as [F1 E1], Q0 as [F0 E0]; assert (t1 = t0) by congruence; subst t1; destruct (nearest t0 (px, py)); auto. }
  induction mons as [|mon mons IH]; intros c c' F F'; cbn [find_all]; [reflexivity|].
  assert (A1 := A mon c F); assert (A2 := A mon c' F'); assert (A0 := A mon [] (fresh_nil key m)).
  destruct (find_one key nearest strict m c mon) as [[c1 i1]| | |], (find_one key nearest strict m c' mon) as [[c2 i2]| | |], (find_one key nearest strict m [] mon) as [[c0 i0]| | |];
    cbn [bind fst snd]; try contradiction; try reflexivity.
  destruct A1 as [-> F1], A2 as [-> F2]; rewrite (IH c1 c2 F1 F2); reflexivity.
Qed.

Lemma within_some ls h : forall k0 k, layer_within k0 h ls = Some k -> exists j, k = k0 + j /\ in_layer_k ls j h.
Proof.
  induction ls as [|[e t] ls IH]; intros k0 k; cbn [layer_within]; [discriminate|].
  destruct (Qle_bool (e - t) h && ThermalNetwork_Model.Qltb h e) eqn:E.
  - intros [= <-]; exists 0; split; [lia|]; apply andb_true_iff in E as [E1 E2]; exists e, t; split; [reflexivity|split; [apply Qle_bool_iff; exact E1|]].
    unfold ThermalNetwork_Model.Qltb in E2; apply negb_true_iff in E2; apply Qnot_le_lt; intros Hl; apply Qle_bool_iff in Hl; congruence.
  - intros H; destruct (IH _ _ H) as (j & -> & (e' & t' & H1 & H2)); exists (Datatypes.S j); split; [lia|exists e', t'; auto].
Qed.
Lemma within_none_below ls h : stacked ls -> (forall e t r, ls = (e, t) :: r -> (h < e)%Q) -> forall k, layer_within k h ls = None -> below_all ls h.
Proof.
  induction ls as [|[e t] ls IH]; intros S T k; cbn [layer_within]; [intros _ e t []|].
  assert (He : (h < e)%Q) by (eapply T; reflexivity).
  destruct (Qle_bool (e - t) h) eqn:E; cbn [andb].
  - unfold ThermalNetwork_Model.Qltb; destruct (Qle_bool e h) eqn:E2; cbn [negb]; [apply Qle_bool_iff in E2; lra|discriminate].
  - intros H; assert (Hb : (h < e - t)%Q) by (apply Qnot_le_lt; intros Hl; apply Qle_bool_iff in Hl; congruence).
    destruct S as (P & S & L); intros e' t' [[= <- <-]|I]; [exact Hb|].
    eapply (IH S); [|exact H|exact I]; intros e2 t2 r ->; lra.
Qed.
Lemma nearest_layer_at strict ls z e t r : stacked ls -> ls = (e, t) :: r -> (strict = true -> ~ z == e)%Q ->
  exists l, nearest_layer strict z ls = Ok l /\ layer_at ls z l /\ l < List.length ls.
Proof.
  intros S -> Hs; unfold nearest_layer.
  destruct (if strict then ThermalNetwork_Model.Qltb e z else Qle_bool e z) eqn:E.
  - exists 0; split; [reflexivity|split; [|cbn; lia]]; right; left; split; [reflexivity|exists e, t, r; split; [reflexivity|]].
    destruct strict; [|apply Qle_bool_iff; exact E].
    unfold ThermalNetwork_Model.Qltb in E; apply negb_true_iff in E; apply Qnot_lt_le; intros Hl.
    assert (X : (z <= e)%Q) by lra; apply Qle_bool_iff in X; congruence.
  - assert (He : (z < e)%Q).
    { destruct strict.
      - unfold ThermalNetwork_Model.Qltb in E; apply negb_false_iff, Qle_bool_iff in E; specialize (Hs eq_refl); destruct (Qlt_le_dec z e); [assumption|exfalso; apply Hs; lra].
      - apply Qnot_le_lt; intros Hl; apply Qle_bool_iff in Hl; congruence. }
    destruct (layer_within 0 z ((e, t) :: r)) as [k|] eqn:W.
    + destruct (within_some _ _ _ _ W) as (j & -> & I); exists j; split; [reflexivity|split; [left; exact I|]].
      destruct I as (e' & t' & N & _); apply nth_error_Some; congruence.
    + eexists; split; [reflexivity|split; [right; right|cbn; lia]]; split; [|split; [discriminate|reflexivity]].
      eapply within_none_below; [exact S| |exact W]; intros e2 t2 r2 [= <- <- <-]; exact He.
Qed.

Lemma to_int64_whole q z : to_int64 q = Ok z <-> whole q z.
Proof.
  unfold to_int64, trunc, whole; destruct (Qle_bool 0 q) eqn:E; destruct (Qlt_le_dec q 0) as [L|L];
    try (apply Qle_bool_iff in E; lra); try (exfalso; apply Qle_bool_iff in L; congruence).
  all: match goal with |- (if ((?a <=? ?b) && (_ <? ?c))%Z then _ else _) = _ <-> _ => destruct (Z.leb_spec a b), (Z.ltb_spec b c) end; cbn [andb];
    split; try discriminate; try (intros [= <-]; split; [reflexivity|lia]); try (intros [-> H1]; try reflexivity; lia).
Qed.
