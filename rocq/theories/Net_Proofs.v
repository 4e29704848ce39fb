From Verif Require Import Base Names_Model Names_Spec Names_Proofs Net_Model Net_Spec.
Local Open Scope Z_scope.

(** representation relation *)
Record rep (c : netcoll) (t : net_table) : Prop := {
  rep_nodup : NoDup (akeys (nc_map c));
  rep_name : forall n x, In (n, x) (nc_map c) -> net_name x = n;
  rep_ids : forall n, nt_ids t n = option_map net_id (nc_find c n);
  rep_next : nt_next t = nc_uid c;
  rep_lut : forall l, nc_lut c = Some l ->
      (forall i n, alookup Z.eqb i l = Some n -> exists x, nc_find c n = Some x /\ net_id x = i) /\
      (forall i, alookup Z.eqb i l = None -> forall n x, nc_find c n = Some x -> net_id x <> i)
}.

Lemma rep_init : rep nc_init nt_empty.
Proof. constructor; simpl; auto; [constructor|tauto|discriminate]. Qed.

Lemma count_keys c n : nc_count c n = true <-> In n (akeys (nc_map c)).
Proof. apply acount_true, string_eqb_reflect. Qed.

Lemma rep_find c t n x : rep c t -> nc_find c n = Some x -> x = mkNet n (net_id x) /\ nt_ids t n = Some (net_id x).
Proof.
  intros R H; split.
  - destruct x as [xn xi]; simpl; f_equal.
    apply (rep_name _ _ R n (mkNet xn xi)), alookup_in with (keqb := String.eqb); auto using string_eqb_reflect.
  - rewrite (rep_ids _ _ R), H; auto.
Qed.

Lemma rep_find_none c t n : rep c t -> nc_find c n = None <-> nt_ids t n = None.
Proof. intros R; rewrite (rep_ids _ _ R); destruct (nc_find c n); simpl; split; congruence. Qed.

Lemma rep_lists c t : rep c t -> lists_names t (akeys (nc_map c)).
Proof.
  intros R; split; [apply R|]; intros n.
  rewrite <- (rep_find_none c t n R); unfold nc_find.
  rewrite (alookup_none String.eqb string_eqb_reflect).
  split; [tauto|].
  intros H; destruct (in_dec String.string_dec n (akeys (nc_map c))); tauto.
Qed.

(** storing a fresh net *)
Lemma rep_put c t n :
  rep c t -> nc_count c n = false ->
  rep (mkNC (aemplace String.eqb n (mkNet n (nc_uid c)) (nc_map c)) (nc_uid c + 1) None) (nt_put t n).
Proof.
  intros R E; constructor; simpl.
  - apply aemplace_nodup; [exact string_eqb_reflect|apply R].
  - unfold aemplace; fold (nc_count c n); rewrite E; intros m x H.
    apply in_app_or in H as [H|[H|[]]]; [eapply rep_name; eauto|injection H as <- <-; auto].
  - intros m; unfold nc_find; simpl; rewrite (alookup_emplace String.eqb string_eqb_reflect).
    rewrite (rep_ids _ _ R m), (rep_next _ _ R); fold (nc_find c m).
    destruct (String.eqb_spec m n) as [->|Hne].
    + assert (Hn : nc_find c n = None).
      { unfold nc_count, acount in E; unfold nc_find; destruct (alookup String.eqb n (nc_map c)); congruence. }
      rewrite Hn; auto.
    + destruct (nc_find c m); auto.
  - rewrite (rep_next _ _ R); auto.
  - discriminate.
Qed.

(** the index *)
Lemma build_lut_spec m :
  NoDup (akeys m) -> (forall n x, In (n, x) m -> net_name x = n) ->
  forall i, match alookup Z.eqb i (build_lut m) with
            | Some n => exists x, In (n, x) m /\ net_id x = i
            | None => forall n x, In (n, x) m -> net_id x <> i
            end.
Proof.
  unfold build_lut; intros _ Hname i.
  enough (G : forall m0 l, (forall n x, In (n, x) m0 -> net_name x = n) ->
    match alookup Z.eqb i (fold_left (fun l e => aemplace Z.eqb (net_id (snd e)) (net_name (snd e)) l) m0 l) with
    | Some n => alookup Z.eqb i l = Some n \/ exists x, In (n, x) m0 /\ net_id x = i
    | None => alookup Z.eqb i l = None /\ forall n x, In (n, x) m0 -> net_id x <> i
    end).
  { specialize (G m [] Hname); simpl in G.
    destruct (alookup Z.eqb i _); [destruct G as [G|G]; [discriminate|auto]|tauto]. }
  clear m Hname; induction m0 as [|[k x] m0 IH]; intros l Hname; simpl.
  - destruct (alookup Z.eqb i l); auto.
  - specialize (IH (aemplace Z.eqb (net_id x) (net_name x) l) (fun n y H => Hname n y (or_intror H))).
    assert (Hk : net_name x = k) by (apply Hname; now left).
    destruct (alookup Z.eqb i (fold_left _ m0 _)) as [n|] eqn:E.
    + destruct IH as [H|(y & Hy & Hi)]; [|right; exists y; auto].
      rewrite (alookup_emplace Z.eqb Z_eqb_reflect) in H.
      destruct (alookup Z.eqb i l); [left; auto|].
      destruct (Z.eqb_spec i (net_id x)) as [->|]; [|discriminate].
      injection H as <-; right; exists x; rewrite Hk; auto.
    + destruct IH as [H Hall]; rewrite (alookup_emplace Z.eqb Z_eqb_reflect) in H.
      destruct (alookup Z.eqb i l) eqn:El; [discriminate|].
      destruct (Z.eqb_spec i (net_id x)) as [->|Hne]; [discriminate|].
      split; auto; intros n y [Hy|Hy]; [injection Hy as <- <-; congruence|eauto].
Qed.

Lemma rep_built c t : rep c t -> rep (nc_build_lut c) t /\ nc_map (nc_build_lut c) = nc_map c /\
  exists l, nc_lut (nc_build_lut c) = Some l.
Proof.
  intros R; unfold nc_build_lut; destruct (nc_lut c) as [l|] eqn:E; [split; [auto|split; [auto|exists l; auto]]|].
  simpl; split; [|split; [auto|eauto]].
  constructor; simpl; try apply R.
  intros l Hl; injection Hl as <-.
  pose proof (build_lut_spec (nc_map c) (rep_nodup _ _ R) (rep_name _ _ R)) as B.
  split.
  - intros i n H; specialize (B i); rewrite H in B; destruct B as (x & Hx & Hi).
    exists x; split; auto; unfold nc_find; simpl.
    apply (in_alookup String.eqb string_eqb_reflect); auto; apply R.
  - intros i H n x Hf; specialize (B i); rewrite H in B; apply (B n).
    apply (alookup_in String.eqb string_eqb_reflect); auto.
Qed.

Lemma nc_next_name_ok c t n : rep c t ->
  exists r, nc_next_name c n = Ok r /\ first_free (akeys (nc_map c)) n r.
Proof.
  intros R; unfold nc_next_name.
  pose proof (count_keys c) as Hc.
  unfold next_key; destruct (nc_count c n) eqn:E; simpl negb; cbv iota.
  - destruct (loop_terminates (akeys (nc_map c)) (nc_count c) Hc n 1) as [r Hr].
    unfold akeys in Hr; rewrite map_length in Hr; exists r; split; [exact Hr|].
    apply (loop_sound (akeys (nc_map c)) _ Hc) in Hr as (Hni & k & Hk & -> & Hall); split; auto.
    right; split; [now apply Hc|exists k; auto].
  - exists n; split; auto; apply (count_false _ _ Hc) in E; split; auto; left; auto.
Qed.

Lemma find_after_put (n : string) (x : net) (m : list (string * net)) : alookup String.eqb n m = None ->
  alookup String.eqb n (aemplace String.eqb n x m) = Some x.
Proof.
  intros H; rewrite (alookup_emplace String.eqb string_eqb_reflect), H, String.eqb_refl; auto.
Qed.

Lemma step_refines c t o :
  rep c t -> is_rename o = false ->
  exists c' out, net_step c o = Ok (c', out) /\ exists t', spec_step t o t' out /\ rep c' t'.
Proof.
  intros R Hren; destruct o as [n|n|n|i| | | | |k n]; simpl in *; try discriminate.
  - (* create *)
    unfold nc_create; destruct (nc_count c n) eqn:E.
    + eexists _, _; split; [reflexivity|]; exists t; split; auto; constructor.
      apply count_keys in E; rewrite <- (rep_find_none c t n R); unfold nc_find.
      rewrite (alookup_none String.eqb string_eqb_reflect); tauto.
    + eexists _, _; split; [reflexivity|]; exists (nt_put t n); split; [|apply rep_put; auto].
      rewrite <- (rep_next _ _ R); constructor.
      apply (rep_find_none c t n R); unfold nc_count, acount in E; unfold nc_find.
      destruct (alookup String.eqb n (nc_map c)); congruence.
  - (* add *)
    destruct (nc_next_name_ok c t n R) as (r & Hr & Hff); unfold nc_add; rewrite Hr; simpl.
    assert (Er : nc_count c r = false).
    { destruct (nc_count c r) eqn:E; auto; apply count_keys in E; destruct Hff; tauto. }
    unfold nc_find at 1; simpl; rewrite find_after_put
      by (unfold nc_count, acount in Er; destruct (alookup String.eqb r (nc_map c)); congruence).
    eexists _, _; split; [reflexivity|]; exists (nt_put t r); split; [|apply rep_put; auto].
    rewrite <- (rep_next _ _ R); econstructor; eauto using rep_lists.
  - (* find by name *)
    eexists _, _; split; [reflexivity|]; exists t; split; auto.
    destruct (nc_find c n) as [x|] eqn:E.
    + destruct (rep_find c t n x R E) as [-> Hi]; constructor; auto.
    + constructor; now apply (rep_find_none c t n R).
  - (* find by id *)
    unfold nc_find_id; destruct (rep_built c t R) as (R' & Hm & l & Hl); rewrite Hl.
    destruct (rep_lut _ _ R' l Hl) as [L1 L2].
    destruct (alookup Z.eqb i l) as [n|] eqn:E.
    + destruct (L1 _ _ E) as (x & Hx & Hi); rewrite Hx.
      eexists _, _; split; [reflexivity|]; exists t; split; auto.
      destruct (rep_find _ t n x R' Hx) as [-> Hi']; subst i; constructor; auto.
    + eexists _, _; split; [reflexivity|]; exists t; split; auto; constructor.
      intros n Hn; rewrite (rep_ids _ _ R') in Hn.
      destruct (nc_find (nc_build_lut c) n) as [x|] eqn:Ex; [|discriminate].
      injection Hn as Hn; eapply L2; eauto.
  - (* count *)
    eexists _, _; split; [reflexivity|]; exists t; split; auto.
    replace (List.length (nc_map c)) with (List.length (akeys (nc_map c))) by apply map_length.
    constructor; now apply rep_lists.
  - (* clear *)
    eexists _, _; split; [reflexivity|]; exists nt_empty; split; [constructor|apply rep_init].
  - (* clone *)
    eexists _, _; split; [reflexivity|]; eexists; split; [constructor|].
    constructor; simpl; try apply R; auto; discriminate.
  - (* reload *)
    eexists _, _; split; [reflexivity|]; exists t; split; [constructor|].
    constructor; simpl; try apply R; discriminate.
Qed.

Lemma run_refines_gen ops : forall c t,
  rep c t -> forallb (fun o => negb (is_rename o)) ops = true ->
  exists c' outs t', net_run c ops = Ok (c', outs) /\ spec_run t ops t' outs /\ rep c' t'.
Proof.
  induction ops as [|o ops IH]; simpl; intros c t R H.
  - exists c, [], t; split; [auto|split; [constructor|auto]].
  - apply andb_prop in H as [H1 H2]; apply negb_true_iff in H1.
    destruct (step_refines c t o R H1) as (c1 & out & E1 & t1 & S1 & R1).
    destruct (IH c1 t1 R1 H2) as (c2 & outs & t2 & E2 & S2 & R2).
    exists c2, (out :: outs), t2; rewrite E1; simpl; rewrite E2; simpl.
    split; [auto|split; [econstructor; eauto|auto]].
Qed.

Lemma run_refines ops :
  forallb (fun o => negb (is_rename o)) ops = true ->
  exists c' outs t', net_run nc_init ops = Ok (c', outs) /\ spec_run nt_empty ops t' outs.
Proof.
  intros H; destruct (run_refines_gen ops nc_init nt_empty rep_init H) as (c & o & t & E & S & _); eauto.
Qed.

(** id uniqueness without clones *)
Definition table_inj (t : net_table) : Prop :=
  (forall n m i, nt_ids t n = Some i -> nt_ids t m = Some i -> n = m) /\
  (forall n i, nt_ids t n = Some i -> i < nt_next t).

Lemma spec_step_inj t o t' out : spec_step t o t' out -> is_clone o = false -> table_inj t -> table_inj t'.
Proof.
  assert (Hput : forall t n, table_inj t -> table_inj (nt_put t n)).
  { intros t0 n [H1 H2]; split; unfold nt_put; simpl.
    - intros a b i Ha Hb; destruct (String.eqb_spec a n), (String.eqb_spec b n); subst; auto.
      + injection Ha as <-; apply H2 in Hb; lia.
      + injection Hb as <-; apply H2 in Ha; lia.
      + eauto.
    - intros a i Ha; destruct (String.eqb_spec a n); [injection Ha; lia|apply H2 in Ha; lia]. }
  intros S Hc I; destruct S; simpl in *; auto; try discriminate.
  split; simpl; intros; discriminate.
Qed.

Lemma ids_unique ops c outs n m x y :
  forallb (fun o => negb (is_rename o || is_clone o)) ops = true ->
  net_run nc_init ops = Ok (c, outs) ->
  nc_find c n = Some x -> nc_find c m = Some y -> net_id x = net_id y -> n = m.
Proof.
  intros H E Hx Hy Hid.
  assert (Hr : forallb (fun o => negb (is_rename o)) ops = true).
  { rewrite forallb_forall in *; intros o Ho; specialize (H o Ho).
    destruct (is_rename o); auto. }
  destruct (run_refines_gen ops nc_init nt_empty rep_init Hr) as (c' & outs' & t & E' & S & R).
  rewrite E in E'; injection E' as <- <-.
  assert (I : table_inj t).
  { clear -S H; assert (I0 : table_inj nt_empty) by (split; simpl; intros; discriminate).
    revert I0; induction S as [|t o t' out ops t'' outs S1 S2 IH]; simpl in *; auto; intros I.
    apply andb_prop in H as [H1 H2]; apply IH; auto; eapply spec_step_inj; eauto.
    destruct (is_rename o), (is_clone o); auto; discriminate. }
  destruct (rep_find c t n x R Hx) as [_ Hx'], (rep_find c t m y R Hy) as [_ Hy'].
  eapply (proj1 I); [exact Hx'|rewrite Hid; exact Hy'].
Qed.
