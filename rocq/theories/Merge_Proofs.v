From Verif Require Import Base Names_Model Names_Spec Names_Proofs Net_Model Net_Spec Net_Proofs Bondwire_Model
  Merge_Model Merge_Spec.
Local Open Scope Z_scope.

Lemma rep_proper_next ops : forall t t' outs, spec_run t ops t' outs -> 0 <= nt_next t ->
  (forall n i, nt_ids t n = Some i -> 0 <= i) ->
  0 <= nt_next t' /\ (forall n i, nt_ids t' n = Some i -> 0 <= i).
Proof.
  induction ops as [|o ops IH]; intros t t' outs S Hn Hi; inversion S; subst; auto.
  assert (P : forall n, 0 <= nt_next (nt_put t n) /\ (forall m i, nt_ids (nt_put t n) m = Some i -> 0 <= i)).
  { intros n; unfold nt_put; simpl; split; [lia|]; intros m i.
    destruct (String.eqb m n); [intros [= <-]; auto|eauto]. }
  match goal with H : spec_step _ _ ?t1 _ |- _ =>
    assert (Q : 0 <= nt_next t1 /\ (forall n i, nt_ids t1 n = Some i -> 0 <= i)) by
      (inversion H; subst; auto; simpl; split; auto; try lia; discriminate) end.
  destruct Q; eapply IH; eauto.
Qed.

(** collections reached without renaming nets behind their back and without cloning are proper *)
Lemma reachable_proper ops c outs :
  forallb (fun o => negb (is_rename o || is_clone o)) ops = true ->
  net_run nc_init ops = Ok (c, outs) -> proper c.
Proof.
  intros H E.
  assert (Hr : forallb (fun o => negb (is_rename o)) ops = true).
  { rewrite forallb_forall in *; intros o Ho; specialize (H o Ho); destruct (is_rename o); auto. }
  destruct (run_refines_gen ops nc_init nt_empty rep_init Hr) as (c' & outs' & t & E' & S & R).
  rewrite E in E'; injection E' as <- <-.
  assert (I : table_inj t).
  { clear -S H; assert (I0 : table_inj nt_empty) by (split; simpl; intros; discriminate).
    revert I0; induction S as [|t o t' out ops t'' outs S1 S2 IH]; simpl in *; auto; intros I.
    apply andb_prop in H as [H1 H2]; apply IH; auto; eapply spec_step_inj; eauto.
    destruct (is_rename o), (is_clone o); auto; discriminate. }
  destruct (rep_proper_next _ _ _ _ S) as [N1 N2]; [simpl; lia|simpl; discriminate|].
  assert (F : forall n x, In (n, x) (nc_map c) -> nt_ids t n = Some (net_id x)).
  { intros n x Hx; rewrite (rep_ids _ _ R); unfold nc_find.
    rewrite (in_alookup String.eqb string_eqb_reflect n x); auto; apply R. }
  constructor.
  - apply R.
  - apply R.
  - intros n x Hx; split; [eapply N2; eauto|]; rewrite <- (rep_next _ _ R); eapply (proj2 I); eauto.
  - intros n m x y Hx Hy Hi; eapply (proj1 I); [apply F, Hx|rewrite Hi; apply F, Hy].
  - rewrite <- (rep_next _ _ R); auto.
Qed.

Lemma ff_named used base r : first_free used base r -> ~ In r used /\ named_after base r.
Proof. intros [H [[_ ->]|(_ & k & _ & -> & _)]]; split; auto; [left; auto|right; eauto]. Qed.

Lemma nc_add_spec c n : NoDup (akeys (nc_map c)) ->
  exists r, named_after n r /\ nc_find c r = None /\
  nc_add c n = Ok (mkNC (nc_map c ++ [(r, mkNet r (nc_uid c))]) (nc_uid c + 1) None, Some (mkNet r (nc_uid c))).
Proof.
  intros Hnd; unfold nc_add.
  destruct (next_key_returns (akeys (nc_map c)) (nc_count c) (count_keys c) n) as (r0 & _ & _).
  assert (Hx : exists r, nc_next_name c n = Ok r /\ first_free (akeys (nc_map c)) n r).
  { unfold nc_next_name, next_key; destruct (nc_count c n) eqn:E; simpl negb; cbv iota.
    - destruct (loop_terminates (akeys (nc_map c)) (nc_count c) (count_keys c) n 1) as [r Hr].
      unfold akeys in Hr; rewrite map_length in Hr; exists r; split; [exact Hr|].
      apply (loop_sound (akeys (nc_map c)) _ (count_keys c)) in Hr as (Hni & k & Hk & -> & Hall); split; auto.
      right; split; [now apply count_keys|exists k; auto].
    - exists n; split; auto; apply (count_false _ _ (count_keys c)) in E; split; auto; left; auto. }
  destruct Hx as (r & -> & Hff); apply ff_named in Hff as [Hni Hna]; simpl.
  assert (Hn : nc_find c r = None) by (apply (alookup_none String.eqb string_eqb_reflect); auto).
  exists r; split; auto; split; auto.
  assert (Ha : aemplace String.eqb r (mkNet r (nc_uid c)) (nc_map c) = nc_map c ++ [(r, mkNet r (nc_uid c))]).
  { unfold aemplace, acount; unfold nc_find in Hn; rewrite Hn; auto. }
  unfold nc_find at 1; simpl; rewrite find_after_put by exact Hn; rewrite Ha; auto.
Qed.

Fixpoint zids (u : Z) (n : nat) : list Z := match n with O => [] | S n' => u :: zids (u + 1) n' end.

Lemma in_zids u n z : In z (zids u n) -> u <= z < u + Z.of_nat n.
Proof. revert u; induction n as [|n IH]; intros u; [intros []|]; intros [<-|H]; [lia|apply IH in H; lia]. Qed.

Lemma merge_nets_spec prefix sep nets : forall tgt m, NoDup (akeys (nc_map tgt)) ->
  NoDup (map net_id nets) -> (forall x, In x nets -> ~ In (net_id x) (akeys m)) ->
  exists rs, List.length rs = List.length nets /\
    merge_nets prefix sep nets tgt m =
      Ok (mkNC (nc_map tgt ++ combine rs (map (fun p => mkNet (fst p) (snd p)) (combine rs (zids (nc_uid tgt) (List.length nets)))))
               (nc_uid tgt + Z.of_nat (List.length nets)) (match nets with [] => nc_lut tgt | _ => None end),
          m ++ combine (map net_id nets) (zids (nc_uid tgt) (List.length nets))) /\
    NoDup (akeys (nc_map tgt) ++ rs) /\
    Forall2 (fun x r => named_after (hier_name prefix sep (net_name x)) r) nets rs.
Proof.
  induction nets as [|x nets IH]; intros tgt m Hnd Hids Hm.
  - exists []; simpl; rewrite !app_nil_r, Z.add_0_r; split; auto; split; [destruct tgt; auto|split; auto].
  - destruct (nc_add_spec tgt (hier_name prefix sep (net_name x)) Hnd) as (r & Hr & Hf & E).
    apply (alookup_none String.eqb string_eqb_reflect) in Hf.
    cbn [merge_nets]; rewrite E; cbn [bind fst snd].
    assert (Hem : aemplace Z.eqb (net_id x) (net_id (mkNet r (nc_uid tgt))) m = m ++ [(net_id x, nc_uid tgt)]).
    { unfold aemplace, acount; destruct (alookup Z.eqb (net_id x) m) eqn:El; auto.
      exfalso; apply (Hm x); [simpl; auto|]; eapply (alookup_some_key Z.eqb Z_eqb_reflect); eauto. }
    rewrite Hem.
    set (tgt1 := mkNC (nc_map tgt ++ [(r, mkNet r (nc_uid tgt))]) (nc_uid tgt + 1) None).
    assert (Hk1 : akeys (nc_map tgt1) = akeys (nc_map tgt) ++ [r]) by (unfold akeys; simpl; rewrite map_app; auto).
    inversion Hids as [|? ? Hni Hids']; subst.
    destruct (IH tgt1 (m ++ [(net_id x, nc_uid tgt)])) as (rs & Hl & E2 & Hnd2 & HF).
    { rewrite Hk1; apply nodup_snoc; auto. }
    { auto. }
    { intros y Hy; unfold akeys; rewrite map_app, in_app_iff; intros [H1|[H1|[]]].
      - apply (Hm y); simpl; auto.
      - simpl in H1; apply Hni; rewrite H1; apply in_map; auto. }
    exists (r :: rs); split; [simpl; auto|]; split; [|split].
    + rewrite E2; unfold tgt1; cbn [nc_map nc_uid nc_lut List.length zids combine map fst snd].
      rewrite <- !app_assoc; cbn [app].
      f_equal; f_equal; f_equal; [lia|].
      destruct nets; auto.
    + rewrite Hk1, <- app_assoc in Hnd2; exact Hnd2.
    + constructor; auto.
Qed.

Section P.
  Context {G D : Type} (mv_geo : G -> G) (mv_pt : Z * Z -> Z * Z) (mv_data : D -> D) (forward : Z -> Z)
          (is_flipped : cptr -> bool).
  Notation layout := (layout G D).
  Notation merge := (merge mv_geo mv_pt mv_data forward is_flipped).

  Lemma add_comp_spec (cs : list (string * comp D)) c : NoDup (akeys cs) ->
    exists r, named_after (c_name c) r /\ ~ In r (akeys cs) /\
      add_comp cs c = Ok (cs ++ [(r, mkComp r (c_ref c) (c_layer c) (c_data c))], r).
  Proof.
    intros Hnd; unfold add_comp.
    assert (Hc : forall n, acount String.eqb n cs = true <-> In n (akeys cs))
      by (intros; apply acount_true, string_eqb_reflect).
    assert (Hx : exists r, next_key (S (List.length cs)) (fun n => acount String.eqb n cs) (c_name c) = Ok r /\
                           first_free (akeys cs) (c_name c) r).
    { unfold next_key; destruct (acount String.eqb (c_name c) cs) eqn:E; simpl negb; cbv iota.
      - destruct (loop_terminates (akeys cs) _ Hc (c_name c) 1) as [r Hr].
        unfold akeys in Hr; rewrite map_length in Hr; exists r; split; [exact Hr|].
        apply (loop_sound (akeys cs) _ Hc) in Hr as (Hni & k & Hk & -> & Hall); split; auto.
        right; split; [now apply Hc|exists k; auto].
      - exists (c_name c); split; auto; apply (count_false _ _ Hc) in E; split; auto; left; auto. }
    destruct Hx as (r & -> & Hff); apply ff_named in Hff as [Hni Hna]; simpl.
    exists r; split; auto; split; auto.
    unfold aemplace; destruct (acount String.eqb r cs) eqn:E; [apply Hc in E; contradiction|auto].
  Qed.

  Definition copied (prefix sep : string) (r : string) (c : comp D) : comp D :=
    mkComp r (c_ref c) (forward (c_layer c)) (mv_data (c_data c)).

  Lemma merge_comps_spec prefix sep (others : list (string * comp D)) : forall tgt m, NoDup (akeys tgt) ->
    NoDup (akeys others) -> (forall k, In k (akeys others) -> ~ In k (akeys m)) ->
    exists rs, List.length rs = List.length others /\
      merge_comps mv_data forward prefix sep others tgt m =
        Ok (tgt ++ combine rs (map (fun p => copied prefix sep (fst p) (snd p)) (combine rs (map snd others))),
            m ++ combine (akeys others) rs) /\
      NoDup (akeys tgt ++ rs) /\
      Forall2 (fun o r => named_after (hier_name prefix sep (c_name (snd o))) r) others rs.
  Proof.
    induction others as [|[k c] others IH]; intros tgt m Hnd Hids Hm.
    - exists []; simpl; rewrite !app_nil_r; auto.
    - set (c0 := mkComp (hier_name prefix sep (c_name c)) (c_ref c) (forward (c_layer c)) (mv_data (c_data c))).
      destruct (add_comp_spec tgt c0 Hnd) as (r & Hr & Hf & E).
      cbn [merge_comps]; fold c0; rewrite E; cbn [bind fst snd].
      assert (Hem : aemplace String.eqb k r m = m ++ [(k, r)]).
      { unfold aemplace, acount; destruct (alookup String.eqb k m) eqn:El; auto.
        exfalso; apply (Hm k); [simpl; auto|]; eapply (alookup_some_key String.eqb string_eqb_reflect); eauto. }
      rewrite Hem.
      set (tgt1 := tgt ++ [(r, mkComp r (c_ref c0) (c_layer c0) (c_data c0))]).
      assert (Hk1 : akeys tgt1 = akeys tgt ++ [r]) by (unfold akeys, tgt1; rewrite map_app; auto).
      simpl in Hids; inversion Hids as [|? ? Hni Hids']; subst.
      destruct (IH tgt1 (m ++ [(k, r)])) as (rs & Hl & E2 & Hnd2 & HF).
      { rewrite Hk1; apply nodup_snoc; auto. }
      { auto. }
      { intros y Hy; unfold akeys; rewrite map_app, in_app_iff; intros [H1|[H1|[]]].
        - apply (Hm y); simpl; auto.
        - simpl in H1; subst y; auto. }
      exists (r :: rs); split; [simpl; auto|]; split; [|split].
      + rewrite E2; unfold tgt1; simpl; rewrite <- !app_assoc; reflexivity.
      + rewrite Hk1, <- app_assoc in Hnd2; exact Hnd2.
      + constructor; auto.
  Qed.

  Lemma merge_prims_spec idB idA nm cm (l : list (prim G)) : forall acc r,
    merge_prims mv_geo mv_pt forward is_flipped idB idA nm cm l acc = Ok r ->
    exists new, r = acc ++ new /\
      Forall2 (fun p p' => merge_prim mv_geo mv_pt forward is_flipped idB idA nm cm p = Ok p') l new.
  Proof.
    induction l as [|p l IH]; simpl; intros acc r.
    - intros [= <-]; exists []; rewrite app_nil_r; auto.
    - destruct merge_prim as [p'| | |] eqn:E; try discriminate; cbn [bind]; intros H.
      apply IH in H as (new & -> & HF); exists (p' :: new); rewrite <- app_assoc; split; auto.
  Qed.

  Lemma merge_prims_ok idB idA nm cm (l : list (prim G)) :
    (forall p b, In p l -> p_body p = Bw b -> e_layer (b_end b) = ComponentLayer -> e_comp (b_end b) <> None) ->
    forall acc, exists r, merge_prims mv_geo mv_pt forward is_flipped idB idA nm cm l acc = Ok r.
  Proof.
    induction l as [|p l IH]; simpl; intros Hb acc; [eauto|].
    assert (Hp : exists p', merge_prim mv_geo mv_pt forward is_flipped idB idA nm cm p = Ok p').
    { unfold merge_prim; destruct (p_body p) as [| |b] eqn:Eb; eauto.
      unfold merge_bondwire, get_layer; cbn [b_end mv_end e_layer e_comp].
      specialize (Hb p b (or_introl eq_refl) Eb).
      destruct (Z.eqb_spec ComponentLayer (e_layer (b_end b))) as [E|E].
      - destruct (e_comp (b_end b)); [cbn [bind]; eauto|exfalso; apply Hb; auto].
      - cbn [bind]; eauto. }
    destruct Hp as [p' ->]; cbn [bind]; apply IH; eauto.
  Qed.

End P.

(** lookup in combined lists *)
Section L.
  Context {K V : Type} (keqb : K -> K -> bool) (Hk : forall a b, reflect (a = b) (keqb a b)).

  Lemma alookup_combine : forall (ks : list K) (vs : list V) k v, alookup keqb k (combine ks vs) = Some v ->
    exists i, nth_error ks i = Some k /\ nth_error vs i = Some v.
  Proof.
    induction ks as [|a ks IH]; intros [|b vs] k v; simpl; try discriminate.
    destruct (Hk k a) as [->|Hne].
    - intros [= <-]; exists 0%nat; auto.
    - intros H; destruct (IH _ _ _ H) as (i & ? & ?); exists (S i); auto.
  Qed.

  Lemma alookup_combine_nth : forall (ks : list K) (vs : list V) i k v, NoDup ks ->
    nth_error ks i = Some k -> nth_error vs i = Some v -> alookup keqb k (combine ks vs) = Some v.
  Proof.
    induction ks as [|a ks IH]; intros vs i k v Hnd; [destruct i; discriminate|].
    inversion Hnd; subst; destruct i as [|i], vs as [|b vs]; simpl; try discriminate.
    - intros [= ->] [= ->]; destruct (Hk k k); congruence.
    - intros H3 H4; destruct (Hk k a) as [->|]; [exfalso; apply H1; eapply nth_error_In; eauto|eauto].
  Qed.

  Lemma akeys_combine : forall (ks : list K) (vs : list V), List.length ks = List.length vs -> akeys (combine ks vs) = ks.
  Proof. induction ks as [|a ks IH]; intros [|b vs]; simpl; intros; try discriminate; auto; f_equal; auto. Qed.
End L.

Lemma zids_length u n : List.length (zids u n) = n.
Proof. revert u; induction n; simpl; auto. Qed.

Lemma nth_zids n : forall u i, (i < n)%nat -> nth_error (zids u n) i = Some (u + Z.of_nat i).
Proof.
  induction n as [|n IH]; intros u i Hi; [lia|].
  destruct i as [|i]; cbn [zids nth_error]; [f_equal; lia|].
  rewrite IH by lia; f_equal; lia.
Qed.

(** the net id map of a merge *)
Definition final_map (nets : list net) (u : Z) : list (Z * Z) :=
  (noNet, noNet) :: combine (map net_id nets) (zids u (List.length nets)).

Lemma map_net_none nets u : map_net (final_map nets u) noNet = noNet.
Proof. reflexivity. Qed.

Lemma map_net_nth nets u i x : NoDup (map net_id nets) -> net_id x <> noNet -> nth_error nets i = Some x ->
  map_net (final_map nets u) (net_id x) = u + Z.of_nat i.
Proof.
  intros Hnd Hx Hn; unfold map_net, final_map; cbn [alookup].
  destruct (Z.eqb_spec (net_id x) noNet); [contradiction|].
  rewrite (alookup_combine_nth Z.eqb Z_eqb_reflect) with (i := i) (v := u + Z.of_nat i); auto.
  - rewrite nth_error_map, Hn; auto.
  - apply nth_zids; apply nth_error_Some; rewrite Hn; discriminate.
Qed.
