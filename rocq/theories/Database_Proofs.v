From Verif Require Import Base Names_Model Names_Spec Names_Proofs Database_Model Database_Spec.

Lemma kind_eqb_spec a b : reflect (a = b) (kind_eqb a b).
Proof. destruct a, b; simpl; constructor; congruence. Qed.

Lemma kind_eqb_refl k : kind_eqb k k = true.
Proof. destruct k; auto. Qed.

(** [b] says whether the id index is complete (no clone so far) *)
Record drep (b : bool) (d : db) (t : dtable) : Prop := {
  dr_nodup : forall k, NoDup (akeys (db_defs d k));
  dr_defs : forall k, dt_defs t k = map (fun e => (fst e, d_obj (snd e))) (db_defs d k);
  dr_at : forall k p n x, nth_error (db_defs d k) p = Some (n, x) -> d_kind x = k /\ d_mid x = id_at k p;
  dr_lut : b = true -> forall i, alookup Z.eqb i (db_lut d) =
             if (0 <=? i)%Z then option_map snd (nth_error (db_defs d KMaterialDef) (Z.to_nat i)) else None;
  dr_next : dt_serial t = db_next d
}.

Lemma drep_init : drep true db_init dt_empty.
Proof.
  constructor; simpl; auto; [constructor| |].
  - intros k [|p] n x H; discriminate.
  - intros _ i; destruct (0 <=? i)%Z; auto; destruct (Z.to_nat i); auto.
Qed.

Lemma drep_len b d t k : drep b d t -> List.length (dt_defs t k) = List.length (db_defs d k).
Proof. intros R; rewrite (dr_defs _ _ _ R), map_length; auto. Qed.

Lemma drep_names b d t k : drep b d t -> map fst (dt_defs t k) = akeys (db_defs d k).
Proof. intros R; rewrite (dr_defs _ _ _ R), map_map; unfold akeys; apply map_ext; intros []; auto. Qed.

Lemma drep_used b d t k n : drep b d t -> name_used t k n <-> acount String.eqb n (db_defs d k) = true.
Proof.
  intros R; unfold name_used; rewrite (drep_names b d t k R), (acount_true _ string_eqb_reflect); tauto.
Qed.

Lemma drep_get b d t k n x : drep b d t -> get_definition d k n = Some x -> exists p, is_def t k p n x.
Proof.
  intros R H; apply (alookup_in _ string_eqb_reflect) in H; apply In_nth_error in H as [p Hp].
  exists p; split; [|apply (dr_at _ _ _ R k p n x Hp)].
  rewrite (dr_defs _ _ _ R), nth_error_map, Hp; auto.
Qed.

Lemma set_kind_same f k l : set_kind f k l k = l.
Proof. unfold set_kind; rewrite kind_eqb_refl; auto. Qed.

Lemma nth_error_snoc {A} (l : list A) a p x :
  nth_error (l ++ [a]) p = Some x -> nth_error l p = Some x \/ (p = List.length l /\ x = a).
Proof.
  intros H; destruct (lt_dec p (List.length l)).
  - rewrite nth_error_app1 in H; auto.
  - rewrite nth_error_app2 in H by lia; right.
    destruct (p - List.length l) as [|q] eqn:E; simpl in H; [injection H as <-; split; auto; lia|].
    destruct q; discriminate.
Qed.

(** adding a definition under a free name *)
Lemma drep_add b d t k n :
  drep b d t -> ~ name_used t k n ->
  let x := mkDef (db_next d) k (id_at k (List.length (db_defs d k))) in
  exists d', add_definition (fst (alloc d k (d_mid x))) k n x = Ok (d', Some x) /\
             drep b d' (dt_add t k n).
Proof.
  intros R Hu x.
  assert (E : acount String.eqb n (db_defs d k) = false).
  { destruct (acount _ n _) eqn:E; auto; apply (drep_used b d t k n R) in E; tauto. }
  assert (En : alookup String.eqb n (db_defs d k) = None).
  { unfold acount in E; destruct (alookup String.eqb n (db_defs d k)); congruence. }
  assert (Hem : aemplace String.eqb n x (db_defs d k) = db_defs d k ++ [(n, x)]).
  { unfold aemplace; rewrite E; auto. }
  set (lut' := match k with KMaterialDef => aemplace Z.eqb (d_mid x) x (db_lut d) | _ => db_lut d end).
  set (d' := mkDb (set_kind (db_defs d) k (db_defs d k ++ [(n, x)])) lut' (S (db_next d))).
  exists d'; split.
  - assert (Hget : get_definition d' k n = Some x).
    { unfold get_definition, d'; simpl; rewrite set_kind_same, <- Hem.
      rewrite (alookup_emplace String.eqb string_eqb_reflect), En, String.eqb_refl; auto. }
    unfold add_definition, alloc; cbn [fst db_defs db_lut db_next].
    destruct k; rewrite ?E; rewrite Hem; fold d' in Hget |- *;
      unfold d' in *; unfold lut' in *; rewrite Hget; auto.
  - assert (Hother : forall k', kind_eqb k' k = false -> db_defs d' k' = db_defs d k').
    { intros k' Hk; unfold d', set_kind; simpl; rewrite Hk; auto. }
    assert (Hself : db_defs d' k = db_defs d k ++ [(n, x)]) by apply set_kind_same.
    constructor.
    + intros k'; destruct (kind_eqb_spec k' k) as [Heq|Hne]; [subst k'|].
      * rewrite Hself, <- Hem; apply aemplace_nodup; [exact string_eqb_reflect|apply R].
      * rewrite Hother; [apply R|destruct (kind_eqb_spec k' k); congruence].
    + intros k'; unfold dt_add; cbn [dt_defs]; destruct (kind_eqb k' k) eqn:Ek.
      * assert (k' = k) as -> by (destruct (kind_eqb_spec k' k); congruence).
        rewrite Hself, map_app, (dr_defs _ _ _ R k), (dr_next _ _ _ R); auto.
      * rewrite (Hother _ Ek); apply R.
    + intros k' p m y Hp; destruct (kind_eqb_spec k' k) as [Heq|Hne]; [subst k'|].
      * rewrite Hself in Hp; apply nth_error_snoc in Hp as [Hp|[-> Hp]]; [eapply (dr_at _ _ _ R); eauto|].
        injection Hp as Hm Hy; rewrite Hy; unfold x; auto.
      * rewrite Hother in Hp by (destruct (kind_eqb_spec k' k); congruence); eapply (dr_at _ _ _ R); eauto.
    + intros Hb i; pose proof (dr_lut _ _ _ R Hb i) as L.
      destruct (kind_eqb_spec k KMaterialDef) as [Heq|Hne].
      * assert (Hl : db_lut d' = aemplace Z.eqb (d_mid x) x (db_lut d)) by (unfold d', lut'; rewrite Heq; auto).
        assert (Hx : d_mid x = Z.of_nat (List.length (db_defs d KMaterialDef)))
          by (unfold x; simpl; rewrite Heq; auto).
        clearbody d' x; clear Hem lut'; subst k.
        rewrite Hself, Hl, Hx.
        rewrite (alookup_emplace Z.eqb Z_eqb_reflect), L.
        destruct (Z.leb_spec 0 i) as [Hi|Hi].
        -- destruct (lt_dec (Z.to_nat i) (List.length (db_defs d KMaterialDef))) as [Hlt|Hge].
           ++ rewrite nth_error_app1 by auto.
              destruct (nth_error (db_defs d KMaterialDef) (Z.to_nat i)) eqn:En'; simpl; auto.
              apply nth_error_None in En'; lia.
           ++ rewrite nth_error_app2 by lia.
              rewrite (proj2 (nth_error_None _ _)) by lia; simpl.
              destruct (Z.eqb_spec i (Z.of_nat (List.length (db_defs d KMaterialDef)))) as [->|Hi'].
              ** rewrite Nat2Z.id, Nat.sub_diag; auto.
              ** destruct (Z.to_nat i - List.length (db_defs d KMaterialDef)) eqn:Es; [lia|].
                 simpl; destruct n0; auto.
        -- destruct (Z.eqb_spec i (Z.of_nat (List.length (db_defs d KMaterialDef)))); auto; lia.
      * rewrite (Hother KMaterialDef) by (destruct (kind_eqb_spec KMaterialDef k); congruence).
        rewrite <- L; unfold d', lut'; simpl; destruct k; congruence.
    + unfold dt_add, d'; simpl; rewrite (dr_next _ _ _ R); auto.
Qed.

Lemma next_def_name_ok b d t k base : drep b d t ->
  exists r, next_def_name d k base = Ok r /\ first_free (map fst (dt_defs t k)) base r.
Proof.
  intros R; rewrite (drep_names b d t k R); unfold next_def_name.
  set (count := fun n => acount String.eqb n (db_defs d k)).
  assert (Hc : forall n, count n = true <-> In n (akeys (db_defs d k)))
    by (intros n; apply acount_true, string_eqb_reflect).
  unfold next_key; destruct (count base) eqn:E; simpl negb; cbv iota.
  - destruct (loop_terminates (akeys (db_defs d k)) count Hc base 1) as [r Hr].
    unfold akeys in Hr at 1; rewrite map_length in Hr; exists r; split; [exact Hr|].
    apply (loop_sound (akeys (db_defs d k)) _ Hc) in Hr as (Hni & j & Hk & -> & Hall); split; auto.
    right; split; [now apply Hc|exists j; auto].
  - exists base; split; auto; apply (count_false _ _ Hc) in E; split; auto; left; auto.
Qed.

Lemma db_step_refines b d t o :
  drep b d t -> (b = true \/ is_find_by_id o = false) ->
  exists d' out t', db_step d o = Ok (d', out) /\ dspec_step t o t' out /\
    drep (b && negb (is_clone_db o)) d' t'.
Proof.
  intros R Hb; destruct o as [k n|n|k n|i|k base|k|k|]; simpl in *; rewrite ?andb_true_r.
  - unfold create_def; destruct (get_definition d k n) as [y|] eqn:E.
    + exists d, (ODef None), t; split; [auto|split; auto; apply D_create_dup].
      apply (drep_used b d t k n R); unfold acount; unfold get_definition in E; rewrite E; auto.
    + assert (Hu : ~ name_used t k n).
      { intros H; apply (drep_used b d t k n R) in H; unfold acount in H; unfold get_definition in E.
        rewrite E in H; discriminate. }
      destruct (drep_add b d t k n R Hu) as (d' & Ha & R').
      assert (Hid : id_at k (List.length (db_defs d k)) =
        match k with KMaterialDef => Z.of_nat (List.length (db_defs d KMaterialDef)) | _ => (-1)%Z end)
        by (destruct k; auto).
      rewrite <- Hid; unfold alloc in *; simpl in Ha |- *; rewrite Ha; simpl.
      eexists _, _, _; split; [reflexivity|split; [|exact R']].
      apply D_create_new; auto; rewrite (drep_len b d t k R), (dr_next _ _ _ R); auto.
  - unfold add_layer_map, alloc; change (get_definition (mkDb (db_defs d) (db_lut d) (S (db_next d))) KLayerMap n)
      with (get_definition d KLayerMap n).
    destruct (get_definition d KLayerMap n) as [y|] eqn:E.
    + eexists _, _, _; split; [reflexivity|split].
      * apply D_addmap_dup, (drep_used b d t _ n R); unfold acount; unfold get_definition in E; rewrite E; auto.
      * constructor; simpl; try apply R; rewrite (dr_next _ _ _ R); auto.
    + assert (Hu : ~ name_used t KLayerMap n).
      { intros H; apply (drep_used b d t _ n R) in H; unfold acount in H; unfold get_definition in E.
        rewrite E in H; discriminate. }
      destruct (drep_add b d t KLayerMap n R Hu) as (d' & Ha & R').
      unfold alloc in Ha; cbn [fst d_mid] in Ha; change (id_at KLayerMap _) with (-1)%Z in Ha; rewrite Ha; simpl.
      eexists _, _, _; split; [reflexivity|split; [|exact R']].
      apply D_addmap_new; auto; rewrite (dr_next _ _ _ R); auto.
  - exists d, (ODef (get_definition d k n)), t; split; [auto|split; auto].
    destruct (get_definition d k n) as [x|] eqn:E.
    + destruct (drep_get b d t k n x R E) as [p Hp]; econstructor; eauto.
    + apply D_find_none; intros H; apply (drep_used b d t k n R) in H.
      unfold acount in H; unfold get_definition in E; rewrite E in H; discriminate.
  - destruct Hb as [->|]; [|discriminate].
    exists d, (ODef (find_material_by_id d i)), t; split; [auto|split; auto].
    unfold find_material_by_id; rewrite (dr_lut _ _ _ R eq_refl i).
    destruct (Z.leb_spec 0 i) as [Hi|Hi]; [|apply D_findid_none; auto].
    destruct (nth_error (db_defs d KMaterialDef) (Z.to_nat i)) as [[n x]|] eqn:E; simpl.
    + replace i with (Z.of_nat (Z.to_nat i)) by lia.
      apply (D_findid_some t (Z.to_nat i) n x); split; [|apply (dr_at _ _ _ R _ _ n x E)].
      rewrite (dr_defs _ _ _ R), nth_error_map, E; auto.
    + apply D_findid_none; right; apply nth_error_None in E; rewrite (drep_len true d t _ R); lia.
  - destruct (next_def_name_ok b d t k base R) as (r & Hr & Hff); rewrite Hr; simpl.
    eexists _, _, t; split; [reflexivity|split; auto; constructor; auto].
  - eexists _, _, t; split; [reflexivity|split; auto].
    rewrite <- (drep_len b d t k R); constructor.
  - eexists _, _, _; split; [reflexivity|split; [apply D_clear|]].
    constructor; simpl; unfold set_kind.
    + intros k'; destruct (kind_eqb k' k); [constructor|apply R].
    + intros k'; destruct (kind_eqb k' k); [auto|apply R].
    + intros k' p n x Hp; destruct (kind_eqb k' k); [destruct p; discriminate|eapply (dr_at _ _ _ R); eauto].
    + intros Hbt i; destruct (kind_eqb_spec KMaterialDef k) as [<-|Hne].
      * simpl; destruct (0 <=? i)%Z; auto; destruct (Z.to_nat i); auto.
      * rewrite <- (dr_lut _ _ _ R Hbt i); destruct k; congruence.
    + apply R.
  - eexists _, _, _; split; [reflexivity|split; [apply D_clone|]].
    rewrite andb_false_r; constructor; simpl.
    + intros k; unfold akeys; rewrite map_map; apply (dr_nodup _ _ _ R k).
    + intros k; rewrite (dr_defs _ _ _ R), !map_map; apply map_ext; intros [n x]; simpl.
      rewrite (dr_next _ _ _ R); auto.
    + intros k p n x Hp; rewrite nth_error_map in Hp.
      destruct (nth_error (db_defs d k) p) as [[m y]|] eqn:E; [|discriminate].
      injection Hp as <- <-; simpl; eapply (dr_at _ _ _ R); eauto.
    + discriminate.
    + rewrite (dr_next _ _ _ R); auto.
Qed.

Lemma db_run_refines_gen ops : forall b d t,
  drep b d t ->
  (b = true /\ forallb (fun o => negb (is_clone_db o)) ops = true) \/
  forallb (fun o => negb (is_find_by_id o)) ops = true ->
  exists d' outs t' b', db_run d ops = Ok (d', outs) /\ dspec_run t ops t' outs /\ drep b' d' t'.
Proof.
  induction ops as [|o ops IH]; simpl; intros b d t R H.
  - exists d, [], t, b; split; [auto|split; [constructor|auto]].
  - rewrite !andb_true_iff, !negb_true_iff in H.
    destruct (db_step_refines b d t o R) as (d1 & out & t1 & E1 & S1 & R1); [tauto|].
    destruct (IH _ d1 t1 R1) as (d2 & outs & t2 & b2 & E2 & S2 & R2).
    { destruct H as [(-> & Hc & Hr)|(Hc & Hr)]; [left; rewrite Hc; auto|right; auto]. }
    exists d2, (out :: outs), t2, b2; rewrite E1; simpl; rewrite E2; simpl.
    split; [auto|split; [econstructor; eauto|auto]].
Qed.

Lemma db_run_refines ops :
  forallb (fun o => negb (is_clone_db o)) ops = true \/
  forallb (fun o => negb (is_find_by_id o)) ops = true ->
  exists d outs t, db_run db_init ops = Ok (d, outs) /\ dspec_run dt_empty ops t outs.
Proof.
  intros H; destruct (db_run_refines_gen ops true db_init dt_empty drep_init) as (d & outs & t & b & E & S & _);
    [tauto|eauto].
Qed.

(** registry *)
Definition rrep (r : registry) (t : rtable) : Prop :=
  NoDup (akeys (rg_map r)) /\ (forall n, rt_live t n = alookup String.eqb n (rg_map r)) /\ rt_serial t = rg_next r.

Lemma aerase_length (n : string) (m : list (string * nat)) :
  (List.length (aerase String.eqb n m) <=? List.length m) = true /\
  Nat.ltb (List.length (aerase String.eqb n m)) (List.length m) =
  match alookup String.eqb n m with Some _ => true | None => false end.
Proof.
  induction m as [|[k v] m [IH1 IH2]]; simpl; auto.
  apply Nat.leb_le in IH1.
  destruct (String.eqb n k) eqn:E; simpl.
  - split; [apply Nat.leb_le|apply Nat.ltb_lt]; lia.
  - split; [apply Nat.leb_le; lia|rewrite <- IH2; reflexivity].
Qed.

Lemma reg_add r t n :
  rrep r t -> alookup String.eqb n (rg_map r) = None ->
  let m := aemplace String.eqb n (rg_next r) (rg_map r) in
  alookup String.eqb n m = Some (rg_next r) /\
  rrep (mkReg m (S (rg_next r))) (rt_set t n (Some (rt_serial t)) (S (rt_serial t))).
Proof.
  intros (H1 & H2 & H3) E m; split.
  - unfold m; rewrite (alookup_emplace String.eqb string_eqb_reflect), E, String.eqb_refl; auto.
  - split; [apply aemplace_nodup; auto using string_eqb_reflect|split; simpl; [|congruence]].
    intros x; unfold m; rewrite (alookup_emplace String.eqb string_eqb_reflect), H2, H3.
    destruct (String.eqb_spec x n) as [->|Hne]; [rewrite E; auto|destruct (alookup String.eqb x (rg_map r)); auto].
Qed.

Lemma reg_step_refines r t o : rrep r t ->
  exists r' t' x, reg_step r o = (r', x) /\ rspec_step t o = (t', x) /\ rrep r' t'.
Proof.
  intros R; pose proof R as (H1 & H2 & H3); destruct o as [n|n|n| |[n|]]; simpl; rewrite ?H2.
  - unfold acount; destruct (alookup String.eqb n (rg_map r)) eqn:E; [eexists _, _, _; eauto|].
    destruct (reg_add r t n R E) as [Ea Ra]; rewrite Ea.
    eexists _, _, _; split; [reflexivity|]; rewrite H3 in *; split; [reflexivity|exact Ra].
  - eexists _, _, _; split; [reflexivity|]; split; [reflexivity|exact R].
  - eexists _, _, _; split; [reflexivity|]; rewrite (proj2 (aerase_length n (rg_map r))); split; [reflexivity|].
    split; simpl; [apply aerase_nodup; auto using string_eqb_reflect|split; auto].
    intros m; rewrite (alookup_erase String.eqb string_eqb_reflect), H2; auto.
  - eexists _, _, _; split; [reflexivity|]; split; [reflexivity|].
    split; [constructor|split; auto].
  - unfold acount; destruct (alookup String.eqb n (rg_map r)) eqn:E.
    + eexists _, _, _; split; [reflexivity|]; split; [reflexivity|].
      split; [auto|split; simpl; auto].
    + destruct (reg_add r t n R E) as [Ea Ra]; rewrite Ea.
      eexists _, _, _; split; [reflexivity|]; rewrite H3 in *; split; [reflexivity|exact Ra].
  - eexists _, _, _; split; [reflexivity|]; split; [reflexivity|].
    split; [auto|split; simpl; auto].
Qed.

Lemma reg_run_refines_gen ops : forall r t, rrep r t -> snd (reg_run r ops) = snd (rspec_run t ops).
Proof.
  induction ops as [|o ops IH]; simpl; intros r t R; auto.
  destruct (reg_step_refines r t o R) as (r' & t' & x & E1 & E2 & R'); rewrite E1, E2.
  specialize (IH r' t' R'); destruct (reg_run r' ops), (rspec_run t' ops); simpl in *; congruence.
Qed.

Lemma reg_run_refines ops : snd (reg_run rg_init ops) = snd (rspec_run rt_empty ops).
Proof. apply reg_run_refines_gen; repeat split; constructor. Qed.

(** every history whatsoever keeps the representation (the id index possibly incomplete) *)
Lemma db_run_rep ops : forall b d t, drep b d t ->
  exists d' outs t', db_run d ops = Ok (d', outs) /\
    drep (b && forallb (fun o => negb (is_clone_db o)) ops) d' t'.
Proof.
  induction ops as [|o ops IH]; simpl; intros b d t R.
  - exists d, [], t; rewrite andb_true_r; auto.
  - assert (exists d1 out t1, db_step d o = Ok (d1, out) /\ drep (b && negb (is_clone_db o)) d1 t1)
      as (d1 & out & t1 & E1 & R1).
    { destruct (is_find_by_id o) eqn:Ef.
      - destruct o; try discriminate; simpl; rewrite andb_true_r; eexists _, _, t; split; [reflexivity|auto].
      - destruct (db_step_refines b d t o R (or_intror Ef)) as (d1 & out & t1 & E1 & S1 & R1); eauto. }
    destruct (IH _ d1 t1 R1) as (d2 & outs & t2 & E2 & R2).
    rewrite E1; simpl; rewrite E2; simpl; rewrite andb_assoc; eexists _, _, t2; split; eauto.
Qed.

Lemma nth_error_In_get d k p n x :
  NoDup (akeys (db_defs d k)) -> nth_error (db_defs d k) p = Some (n, x) -> get_definition d k n = Some x.
Proof. intros Hnd H; apply nth_error_In in H; apply (in_alookup _ string_eqb_reflect); auto. Qed.

Lemma material_ids_dense ops d outs :
  db_run db_init ops = Ok (d, outs) ->
  exists names : list string, NoDup names /\
    forall n, match get_definition d KMaterialDef n with
              | Some x => (0 <= d_mid x)%Z /\ nth_error names (Z.to_nat (d_mid x)) = Some n
              | None => ~ In n names
              end.
Proof.
  intros E; destruct (db_run_rep ops true db_init dt_empty drep_init) as (d' & outs' & t & E' & R).
  rewrite E in E'; injection E' as <- <-.
  exists (akeys (db_defs d KMaterialDef)); split; [apply R|]; intros n.
  destruct (get_definition d KMaterialDef n) as [x|] eqn:Ex.
  - apply (alookup_in _ string_eqb_reflect) in Ex; apply In_nth_error in Ex as [p Hp].
    destruct (dr_at _ _ _ R _ _ _ _ Hp) as [_ Hm]; simpl in Hm; rewrite Hm; split; [lia|].
    rewrite Nat2Z.id; unfold akeys; rewrite nth_error_map, Hp; auto.
  - now apply (alookup_none _ string_eqb_reflect) in Ex.
Qed.

Lemma material_find_by_id ops d outs :
  forallb (fun o => negb (is_clone_db o)) ops = true ->
  db_run db_init ops = Ok (d, outs) ->
  forall i x, find_material_by_id d i = Some x <->
              exists n, get_definition d KMaterialDef n = Some x /\ d_mid x = i.
Proof.
  intros Hc E i x; destruct (db_run_rep ops true db_init dt_empty drep_init) as (d' & outs' & t & E' & R).
  rewrite E in E'; injection E' as <- <-; rewrite Hc in R; simpl in R.
  unfold find_material_by_id; rewrite (dr_lut _ _ _ R eq_refl i); split.
  - destruct (Z.leb_spec 0 i) as [Hi|Hi]; [|discriminate].
    destruct (nth_error (db_defs d KMaterialDef) (Z.to_nat i)) as [[n y]|] eqn:En; simpl; [|discriminate].
    intros Hy; injection Hy as <-; exists n; split.
    + eapply nth_error_In_get; [apply R|eauto].
    + destruct (dr_at _ _ _ R _ _ _ _ En) as [_ Hm]; simpl in Hm; lia.
  - intros (n & Hg & Hm); apply (alookup_in _ string_eqb_reflect) in Hg; apply In_nth_error in Hg as [p Hp].
    destruct (dr_at _ _ _ R _ _ _ _ Hp) as [_ Hm']; simpl in Hm'.
    rewrite <- Hm, Hm'; destruct (Z.leb_spec 0 (Z.of_nat p)); [|lia].
    rewrite Nat2Z.id, Hp; auto.
Qed.

Lemma clone_keeps_definitions d k n :
  option_map (fun x => (d_kind x, d_mid x)) (get_definition (clone_db d) k n) =
  option_map (fun x => (d_kind x, d_mid x)) (get_definition d k n).
Proof.
  unfold get_definition, clone_db; simpl; induction (db_defs d k) as [|[m x] l IH]; simpl; auto.
  destruct (String.eqb n m); auto.
Qed.
