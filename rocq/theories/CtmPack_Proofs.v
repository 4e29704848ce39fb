From Verif Require Import Base Ctm_Model Ctm_Spec Ctm_Proofs Ctm_Props CtmTable_Model CtmTable_Spec CtmTable_Props CtmPack_Model CtmPack_Spec.
From Coq Require Import QArith Qminmax Lqa.
Local Close Scope Q_scope.
Local Open Scope res_scope.

Lemma text_eqb_spec : forall a b, reflect (a = b) (text_eqb a b).
Proof. intros a b. unfold text_eqb. destruct (list_eq_dec Z.eq_dec a b); constructor; assumption. Qed.
Lemma file_eqb_spec : forall a b, reflect (a = b) (file_eqb a b).
Proof.
  intros [|i|] [|j|]; cbn; try (constructor; congruence).
  destruct (Nat.eqb_spec i j); constructor; congruence.
Qed.

Lemma get_put : forall f g c d, get g (put f c d) = if file_eqb g f then Some c else get g d.
Proof.
  intros f g c d. unfold get, put. cbn [alookup]. destruct (file_eqb g f) eqn:E; [reflexivity|].
  rewrite (alookup_erase _ file_eqb_spec). now rewrite E.
Qed.

(** ** The steps of the writer *)
Definition put_step (s : step) : Prop := exists f c, s = Put f c.
Lemma power_steps_puts : forall ps ts i, Forall put_step (fst (power_steps ps i ts)).
Proof.
  intros ps. induction ts as [|t ts IH]; intros i; cbn [power_steps]; [constructor|].
  destruct (alookup Z.eqb t ps) as [tb|]; [|constructor]. specialize (IH (S i)).
  destruct (power_steps ps (S i) ts) as [ss b]. cbn in *. constructor; [red; eauto|exact IH].
Qed.
Lemma puts_pack : forall ss, Forall put_step ss -> forall k, k_pack (do_steps k ss) = k_pack k.
Proof.
  induction ss as [|s ss IH]; intros H k; [reflexivity|]. inversion H as [|? ? [f [c ->]] H']; subst.
  unfold do_steps in *. cbn. rewrite IH by exact H'. reflexivity.
Qed.

Definition written (ps : list (Z * tab)) (i : nat) (ts : list Z) : list step :=
  map (fun e => Put (FPower (fst e + 1)) (CWords (match alookup Z.eqb (snd e) ps with Some tb => tb_vals tb | None => [] end)))
      (combine (seq i (List.length ts)) ts).
Lemma power_steps_all : forall ps ts i,
  (forall t, In t ts -> exists tb, alookup Z.eqb t ps = Some tb) -> power_steps ps i ts = (written ps i ts, true).
Proof.
  intros ps. induction ts as [|t ts IH]; intros i H; [reflexivity|].
  cbn [power_steps]. destruct (H t (or_introl eq_refl)) as [tb E]. rewrite E.
  rewrite IH by (intros u U; apply H; right; exact U).
  unfold written, write_power. cbn [List.length seq combine map fst snd]. rewrite E. reflexivity.
Qed.
Lemma power_steps_true : forall ps ts i, snd (power_steps ps i ts) = true ->
  forall t, In t ts -> exists tb, alookup Z.eqb t ps = Some tb.
Proof.
  intros ps. induction ts as [|t ts IH]; intros i H u U; [destruct U|].
  cbn [power_steps] in H. destruct (alookup Z.eqb t ps) as [tb|] eqn:E; [|discriminate].
  destruct U as [<-|U]; [eauto|]. apply (IH (S i)); [|exact U].
  destruct (power_steps ps (S i) ts) as [ss b]. exact H.
Qed.

Lemma layer_tabs_some : forall ds ls tabs, layer_tabs ds ls = Some tabs <->
  Forall2 (fun l tb => alookup text_eqb (l_name l) ds = Some (Some tb)) ls tabs.
Proof.
  intros ds. induction ls as [|l ls IH]; intros tabs; cbn [layer_tabs].
  - split; [intros [= <-]; constructor|intros H; inversion H; reflexivity].
  - destruct (alookup text_eqb (l_name l) ds) as [[tb|]|] eqn:E.
    + destruct (layer_tabs ds ls) as [ts|] eqn:F; cbn.
      * split; [intros [= <-]; constructor; [exact E|now apply IH]|].
        intros H; inversion H; subst. rewrite E in *. 
        match goal with A : Forall2 _ ls _ |- _ => apply IH in A end. congruence.
      * split; [discriminate|]. intros H; inversion H; subst.
        match goal with A : Forall2 _ ls _ |- _ => apply IH in A end. discriminate.
    + split; [discriminate|]. intros H; inversion H; congruence.
    + split; [discriminate|]. intros H; inversion H; congruence.
Qed.
Lemma layer_tabs_all : forall ds ls, (forall l, In l ls -> exists tb, alookup text_eqb (l_name l) ds = Some (Some tb)) ->
  exists tabs, layer_tabs ds ls = Some tabs.
Proof.
  intros ds. induction ls as [|l ls IH]; intros H; [eexists; reflexivity|]. cbn [layer_tabs].
  destruct (H l (or_introl eq_refl)) as [tb E]. rewrite E.
  destruct IH as [ts F]; [intros u U; apply H; right; exact U|]. rewrite F. eexists. reflexivity.
Qed.

(** ** What is in the folder afterwards *)
Lemma written_get : forall ps ts i k f,
  get f (k_dir (do_steps k (written ps i ts))) =
  match f with
  | FPower j => if ((i <? j) && (j <=? i + List.length ts))%nat
                then Some (CWords (match alookup Z.eqb (nth (j - i - 1) ts 0%Z) ps with Some tb => tb_vals tb | None => [] end))
                else get f (k_dir k)
  | _ => get f (k_dir k)
  end.
Proof.
  intros ps. induction ts as [|t ts IH]; intros i k f.
  - change (do_steps k (written ps i [])) with k. destruct f as [|j|]; try reflexivity. cbn [List.length].
    destruct (Nat.ltb_spec i j), (Nat.leb_spec j (i + 0)); cbn [andb]; try reflexivity; lia.
  - unfold written in *. cbn [List.length seq combine map fst snd]. unfold do_steps in *. cbn [fold_left do_step].
    rewrite IH. cbn [k_dir]. destruct f as [|j|]; rewrite ?get_put; cbn [file_eqb]; try reflexivity.
    destruct (Nat.ltb_spec (S i) j), (Nat.leb_spec j (S i + List.length ts)), (Nat.ltb_spec i j), (Nat.leb_spec j (i + S (List.length ts)));
      cbn [andb]; try lia;
      destruct (Nat.eqb_spec j (i + 1)); try lia; try reflexivity.
    + replace (j - i - 1)%nat with (S (j - S i - 1)) by lia. reflexivity.
    + subst j. replace (i + 1 - i - 1)%nat with 0%nat by lia. reflexivity.
Qed.

Lemma do_steps_app : forall a b k, do_steps k (a ++ b) = do_steps (do_steps k a) b.
Proof. intros. unfold do_steps. apply fold_left_app. Qed.

(** ** Reading the power files *)
Lemma read_powers_all : forall d w h ts i acc (v : Z -> list Z),
  (forall j, (j < List.length ts)%nat -> get (FPower (i + j + 1)) d = Some (CWords (v (nth j ts 0%Z)))) ->
  exists ps, read_powers d w h i ts acc = Some ps /\
    forall t, alookup Z.eqb t ps =
      match alookup Z.eqb t acc with
      | Some x => Some x
      | None => if existsb (Z.eqb t) ts then Some (mktab w h (read_power (v t) (repeat 0%Z (w * h)))) else None
      end.
Proof.
  intros d w h. induction ts as [|t ts IH]; intros i acc v H.
  - exists acc. split; [reflexivity|]. intros t. cbn. destruct (alookup Z.eqb t acc); reflexivity.
  - cbn [read_powers]. pose proof (H 0%nat ltac:(cbn; lia)) as H0. rewrite Nat.add_0_r in H0. rewrite H0. cbn [nth].
    destruct (IH (S i) (aemplace Z.eqb t (mktab w h (read_power (v t) (repeat 0%Z (w * h)))) acc) v) as [ps [E P]].
    + intros j J. specialize (H (S j) ltac:(cbn; lia)). replace (S i + j + 1)%nat with (i + S j + 1)%nat by lia. exact H.
    + exists ps. split; [exact E|]. intros u. rewrite P. rewrite (alookup_emplace _ Z.eqb_spec).
      destruct (alookup Z.eqb u acc); [reflexivity|]. cbn [existsb].
      destruct (Z.eqb_spec u t) as [->|N]; reflexivity.
Qed.

Lemma read_powers_keys : forall d w h ts i acc ps, NoDup (akeys acc) -> read_powers d w h i ts acc = Some ps -> NoDup (akeys ps).
Proof.
  intros d w h. induction ts as [|t ts IH]; intros i acc ps N E; cbn [read_powers] in E; [congruence|].
  destruct (get _ _) as [[|ws]|]; try discriminate. eapply IH; [|exact E]. apply (aemplace_nodup _ Z.eqb_spec). exact N.
Qed.

(** ** Densities by name *)
Lemma dens_fold : forall w h names vs, List.length names = List.length vs -> forall acc n,
  alookup text_eqb n (fold_left (fun ds e => aemplace text_eqb (fst e) (Some (mktab w h (snd e))) ds) (combine names vs) acc) =
  match alookup text_eqb n acc with
  | Some x => Some x
  | None => option_map (fun v => Some (mktab w h v)) (alookup text_eqb n (combine names vs))
  end.
Proof.
  intros w h. induction names as [|m names IH]; intros [|v vs] L acc n; try discriminate L.
  - cbn. destruct (alookup text_eqb n acc); reflexivity.
  - cbn [combine fold_left]. rewrite IH by (cbn in L; lia). cbn [fst snd].
    rewrite (alookup_emplace _ text_eqb_spec).
    destruct (alookup text_eqb n acc) as [x|]; [reflexivity|]. cbn [alookup].
    destruct (text_eqb n m); reflexivity.
Qed.
Lemma combine_lookup : forall ds ls tabs, Forall2 (fun l tb => alookup text_eqb (l_name l) ds = Some (Some tb)) ls tabs ->
  forall n, alookup text_eqb n (combine (map l_name ls) (map tb_vals tabs)) =
    if existsb (fun l => text_eqb n (l_name l)) ls
    then match alookup text_eqb n ds with Some (Some tb) => Some (tb_vals tb) | _ => None end else None.
Proof.
  intros ds ls tabs F n. induction F as [|l tb ls tabs E F IH]; [reflexivity|]. cbn [map combine alookup existsb].
  destruct (text_eqb_spec n (l_name l)) as [->|N]; cbn [orb]; [rewrite E; reflexivity|exact IH].
Qed.

(** ** Range *)
Lemma widen_fold : forall vs r, match fold_left widen vs r with
  | None => vs = [] /\ r = None
  | Some (lo, hi) =>
      (forall v, In v vs \/ (exists a b, r = Some (a, b) /\ (v = a \/ v = b)) -> (lo <= v <= hi)%Z \/ (exists a b, r = Some (a, b) /\ (b < a)%Z)) /\
      (In lo vs \/ exists b, r = Some (lo, b)) /\ (In hi vs \/ exists a, r = Some (a, hi))
  end.
Proof.
  induction vs as [|v vs IH]; intros r; cbn [fold_left].
  - destruct r as [[lo hi]|]; [|auto]. split; [|split; right; eauto]. intros v [[]|[a [b [[= <- <-] H]]]].
    destruct (Z_lt_le_dec hi lo); [right; eauto|left; lia].
  - specialize (IH (widen r v)). destruct (fold_left widen vs (widen r v)) as [[lo hi]|].
    + destruct IH as [B [L H]]. destruct r as [[a b]|]; cbn [widen] in *.
      * split; [|split].
        -- intros u U. destruct (Z_lt_le_dec b a) as [G|G]; [right; eauto|left].
           assert (K : (lo <= u <= hi)%Z \/ (exists x y, Some (Z.min a v, Z.max b v) = Some (x, y) /\ (y < x)%Z) \/
                       ((lo <= Z.min a v <= hi) /\ (lo <= Z.max b v <= hi) /\ (Z.min a v <= u <= Z.max b v))%Z).
           { destruct U as [[<-|U]|[x [y [[= <- <-] U]]]].
             - right. destruct (B (Z.min a v)) as [P|P]; [right; eauto|..]; [|left; exact P].
               destruct (B (Z.max b v)) as [Q|Q]; [right; eauto|..]; [|left; exact Q]. right. lia.
             - destruct (B u (or_introl U)) as [P|P]; [left; exact P|right; left; exact P].
             - right. destruct (B (Z.min a v)) as [P|P]; [right; eauto|..]; [|left; exact P].
               destruct (B (Z.max b v)) as [Q|Q]; [right; eauto|..]; [|left; exact Q]. right. lia. }
           destruct K as [K|[[x [y [[= <- <-] K]]]|K]]; lia.
        -- destruct L as [L|[y [= <- L]]]; [left; right; exact L|].
           destruct (Z.min_spec a v) as [[_ ->]|[_ ->]]; [right; eauto|left; left; reflexivity].
        -- destruct H as [H|[x [= H <-]]]; [left; right; exact H|].
           destruct (Z.max_spec b v) as [[_ ->]|[_ ->]]; [left; left; reflexivity|right; eauto].
      * split; [|split].
        -- intros u [[<-|U]|[x [y [? _]]]]; [| |discriminate].
           ++ destruct (B v) as [P|[x [y [[= <- <-] P]]]]; [right; eauto|left; exact P|lia].
           ++ destruct (B u (or_introl U)) as [P|[x [y [[= <- <-] P]]]]; [left; exact P|lia].
        -- destruct L as [L|[y [= <- L]]]; left; [right; exact L|left; reflexivity].
        -- destruct H as [H|[x [= H <-]]]; left; [right; exact H|left; reflexivity].
    + destruct IH as [_ IH]. destruct r as [[a b]|]; discriminate IH.
Qed.

Lemma get_range_flat : forall ps, get_range ps = fold_left widen (flat_map (fun s => tb_vals (snd s)) ps) None.
Proof.
  intros ps. unfold get_range. generalize (@None (Z * Z)). induction ps as [|s ps IH]; intros r; [reflexivity|].
  cbn [fold_left flat_map]. rewrite fold_left_app. apply IH.
Qed.

Lemma tab_eqb_spec : forall a b, reflect (a = b) (tab_eqb a b).
Proof.
  intros [w h v] [w' h' v']. unfold tab_eqb. cbn.
  destruct (Nat.eqb_spec w w'); cbn; [|constructor; congruence].
  destruct (Nat.eqb_spec h h'); cbn; [|constructor; congruence].
  destruct (text_eqb_spec v v'); constructor; congruence.
Qed.

(** ** The writer's answer *)
Lemma write_accepted : forall pos boxw m, snd (write_steps pos boxw m) = true <-> acceptable m.
Proof.
  intros pos boxw m. unfold write_steps, acceptable, sample, density. split.
  - destruct (Nat.ltb_spec (List.length (temps (ch_hdr m))) 5) as [L|L]; [discriminate|].
    destruct (ch_powers m) as [ps|]; [|discriminate].
    pose proof (power_steps_true ps (temps (ch_hdr m)) 0) as PT.
    destruct (power_steps ps 0 (temps (ch_hdr m))) as [s1 b]. cbn [snd] in PT. destruct b; [|discriminate]. specialize (PT eq_refl).
    destruct (layer_tabs (ch_dens m) (layers (ch_hdr m))) as [tabs|] eqn:T; [|discriminate].
    apply layer_tabs_some in T.
    destruct tabs as [|t0 tabs]; [discriminate|]. cbn [density_words].
    destruct (forallb _ (t0 :: tabs)) eqn:F; [|discriminate]. intros _. rewrite forallb_forall in F.
    split; [exact L|]. split; [inversion T; discriminate|]. split; [eauto|]. split.
    + intros t I. destruct (PT t I) as [tb E]. exists tb, ps. auto.
    + revert F. induction T as [|l tb ls ts E T IH]; intros F l' I; [destruct I|].
      destruct I as [<-|I].
      * exists tb. split; [exact E|]. specialize (F tb (or_introl eq_refl)). apply Nat.eqb_eq in F. exact F.
      * apply IH; [|exact I]. intros x X. apply F. right. exact X.
  - intros [L [N [[ps P] [Pw D]]]]. destruct (Nat.ltb_spec (List.length (temps (ch_hdr m))) 5); [lia|].
    rewrite P. rewrite power_steps_all.
    + destruct (layer_tabs_all (ch_dens m) (layers (ch_hdr m))) as [tabs T].
      { intros l I. destruct (D l I) as [tb [E _]]. eauto. }
      rewrite T. apply layer_tabs_some in T. destruct tabs as [|t0 tabs]; [inversion T; congruence|].
      cbn [density_words].
      replace (forallb _ (t0 :: tabs)) with true; [reflexivity|]. symmetry. apply forallb_forall.
      clear - T D. induction T as [|l tb ls ts E T IH]; intros x X; [destruct X|].
      destruct X as [<-|X].
      * destruct (D l (or_introl eq_refl)) as [tb' [E' L]]. rewrite E in E'. injection E' as <-. apply Nat.eqb_eq. exact L.
      * apply IH; [intros l' I; apply D; right; exact I|exact X].
    + intros t I. destruct (Pw t I) as [tb [ps' [E1 E2]]]. replace ps with ps' by congruence. eauto.
Qed.

Lemma write_shape : forall pos boxw m, acceptable m -> exists ps tabs t0,
  ch_powers m = Some ps /\ (forall t, In t (temps (ch_hdr m)) -> exists tb, alookup Z.eqb t ps = Some tb) /\
  Forall2 (fun l tb => alookup text_eqb (l_name l) (ch_dens m) = Some (Some tb)) (layers (ch_hdr m)) tabs /\
  hd_error tabs = Some t0 /\ Forall (fun t => List.length (tb_vals t) = tile_count (ch_hdr m)) tabs /\
  write_steps pos boxw m = ([Put FHeader (CText (write_header (ch_hdr m)))] ++ written ps 0 (temps (ch_hdr m)) ++
    [Put FDensity (CWords (write_density pos boxw (tb_w t0) (tb_h t0) (map tb_vals tabs))); Pack], true).
Proof.
  intros pos boxw m A. pose proof (proj2 (write_accepted pos boxw m) A) as E.
  destruct A as [L [N [[ps P] [Pw D]]]].
  assert (Pw' : forall t, In t (temps (ch_hdr m)) -> exists tb, alookup Z.eqb t ps = Some tb).
  { intros t I. destruct (Pw t I) as [tb [ps' [E1 E2]]]. replace ps with ps' by congruence. eauto. }
  unfold write_steps in *.
  destruct (Nat.ltb_spec (List.length (temps (ch_hdr m))) 5); [lia|]. rewrite P in *. rewrite power_steps_all in * by exact Pw'.
  destruct (layer_tabs (ch_dens m) (layers (ch_hdr m))) as [tabs|] eqn:T; [|discriminate].
  apply layer_tabs_some in T. destruct tabs as [|t0 tabs]; [discriminate|]. cbn [density_words] in *.
  destruct (forallb _ (t0 :: tabs)) eqn:F; [|discriminate].
  exists ps, (t0 :: tabs), t0. repeat (split; [first [reflexivity|assumption]|]). split; [|reflexivity].
  apply Forall_forall. rewrite forallb_forall in F. intros x X. apply Nat.eqb_eq. apply F. exact X.
Qed.

(** ** Reading what was written *)
Lemma existsb_name : forall n ls, existsb (fun l => text_eqb n (l_name l)) ls = true <-> exists l, In l ls /\ l_name l = n.
Proof.
  intros n ls. rewrite existsb_exists. split; intros [l [I E]]; exists l; (split; [exact I|]);
    destruct (text_eqb_spec n (l_name l)); congruence.
Qed.
Lemma existsb_temp : forall t ts, existsb (Z.eqb t) ts = true <-> In t ts.
Proof.
  intros t ts. rewrite existsb_exists. split; [intros [x [I E]]; apply Z.eqb_eq in E; congruence|].
  intros I. exists t. split; [exact I|apply Z.eqb_refl].
Qed.

Lemma package_get : forall pos boxw m k, acceptable m -> forall ps tabs t0,
  write_steps pos boxw m = ([Put FHeader (CText (write_header (ch_hdr m)))] ++ written ps 0 (temps (ch_hdr m)) ++
    [Put FDensity (CWords (write_density pos boxw (tb_w t0) (tb_h t0) (map tb_vals tabs))); Pack], true) ->
  exists d, k_pack (snd (write_package pos boxw m k)) = Some d /\ k_dir (snd (write_package pos boxw m k)) = d /\
    get FHeader d = Some (CText (write_header (ch_hdr m))) /\
    get FDensity d = Some (CWords (write_density pos boxw (tb_w t0) (tb_h t0) (map tb_vals tabs))) /\
    forall j, get (FPower j) d =
      if ((0 <? j) && (j <=? List.length (temps (ch_hdr m))))%nat
      then Some (CWords (match alookup Z.eqb (nth (j - 1) (temps (ch_hdr m)) 0%Z) ps with Some tb => tb_vals tb | None => [] end))
      else get (FPower j) (k_dir k).
Proof.
  intros pos boxw m k A ps tabs t0 E. unfold write_package. rewrite E. cbn [fst snd].
  rewrite !do_steps_app. set (k1 := do_steps k [Put FHeader _]).
  assert (K1 : k_dir k1 = put FHeader (CText (write_header (ch_hdr m))) (k_dir k)) by reflexivity.
  set (k2 := do_steps k1 _). pose proof (fun f => written_get ps (temps (ch_hdr m)) 0 k1 f) as G. fold k2 in G.
  eexists. cbn [do_steps fold_left do_step k_dir k_pack]. split; [reflexivity|]. split; [reflexivity|].
  rewrite !get_put. cbn [file_eqb]. split; [rewrite G, K1, get_put; reflexivity|]. split; [reflexivity|].
  intros j. rewrite get_put. cbn [file_eqb]. rewrite G, K1, get_put. cbn [file_eqb Nat.add]. rewrite Nat.sub_0_r. reflexivity.
Qed.

Lemma read_core : forall boxw m k, (forall x y, List.length (boxw x y) = 4%nat) -> writable (ch_hdr m) -> acceptable m ->
  (forall n tb, density m n tb -> List.length (tb_vals tb) = (tb_w tb * tb_h tb)%nat) ->
  exists k' m', write_package column_order boxw m k = (true, k') /\ read_package (k_pack k') = Ok (Some m') /\
    ch_hdr m' = read_back (ch_hdr m) /\
    (forall t tb, In t (temps (ch_hdr m)) -> sample m t tb ->
       sample m' t (mktab (Z.to_nat (fst (tiles (ch_hdr m)))) (Z.to_nat (snd (tiles (ch_hdr m))))
                          (read_power (tb_vals tb) (repeat 0%Z (tile_count (ch_hdr m)))))) /\
    (forall t tb, sample m' t tb -> In t (temps (ch_hdr m))) /\
    (forall l tb, In l (layers (ch_hdr m)) -> density m (l_name l) tb ->
       density m' (l_name l) (mktab (Z.to_nat (fst (tiles (ch_hdr m)))) (Z.to_nat (snd (tiles (ch_hdr m)))) (tb_vals tb))) /\
    (forall n tb, density m' n tb -> exists l, In l (layers (ch_hdr m)) /\ l_name l = n).
Proof.
  intros boxw m k Hb W A WF. destruct (write_shape column_order boxw m A) as [ps [tabs [t0 [P [Pw [T [T0 [TL E]]]]]]]].
  destruct (package_get column_order boxw m k A ps tabs t0 E) as [d [D1 [D2 [G1 [G2 G3]]]]].
  assert (Bk : write_package column_order boxw m k = (true, snd (write_package column_order boxw m k)))
    by (unfold write_package; rewrite E; reflexivity).
  exists (snd (write_package column_order boxw m k)). rewrite D1.
  set (w := Z.to_nat (fst (tiles (ch_hdr m)))) in *. set (h := Z.to_nat (snd (tiles (ch_hdr m)))) in *.
  destruct (read_powers_all d w h (temps (ch_hdr m)) 0 [] (fun t => match alookup Z.eqb t ps with Some tb => tb_vals tb | None => [] end)) as [ps' [R1 R2]].
  { intros j J. rewrite G3. cbn [Nat.add]. replace ((0 <? j + 1) && (j + 1 <=? List.length (temps (ch_hdr m))))%nat with true.
    - replace (j + 1 - 1)%nat with j by lia. reflexivity.
    - symmetry. apply andb_true_intro. split; [apply Nat.ltb_lt; lia|apply Nat.leb_le; lia]. }
  assert (TC : tile_count (ch_hdr m) = (w * h)%nat) by reflexivity.
  assert (S0 : (tb_w t0 * tb_h t0)%nat = (w * h)%nat).
  { destruct tabs as [|t1 tabs]; [discriminate|]. injection T0 as ->. inversion TL; subst. inversion T; subst.
    rewrite <- TC, <- H1. symmetry. apply (WF (l_name x)). assumption. }
  assert (RD : read_density (w * h) (write_density column_order boxw (tb_w t0) (tb_h t0) (map tb_vals tabs))
                 (map (fun _ => repeat 0%Z (w * h)) (layers (ch_hdr m))) = Ok (map tb_vals tabs)).
  { rewrite <- S0. apply C69_density_partial; [exact Hb| | |].
    - rewrite !map_length. clear - T. induction T; cbn; congruence.
    - apply Forall_forall. intros v V. apply in_map_iff in V as [t [<- I]]. rewrite Forall_forall in TL. rewrite S0. apply TL. exact I.
    - apply Forall_forall. intros v V. apply in_map_iff in V as [t [<- I]]. apply repeat_length. }
  eexists. split; [exact Bk|]. split.
  { cbn [read_package]. rewrite G1. rewrite (parse_write _ W). cbn [bind]. cbn [read_back tiles temps layers]. fold w h.
    rewrite R1, G2, RD. cbn [bind]. reflexivity. }
  cbn [ch_hdr ch_powers ch_dens]. split; [reflexivity|]. unfold sample, density. cbn [ch_powers ch_dens].
  assert (LN : List.length (map l_name (layers (ch_hdr m))) = List.length (map tb_vals tabs))
    by (rewrite !map_length; clear - T; induction T; cbn; congruence).
  split; [|split; [|split]].
  - intros t tb I [ps0 [E1 E2]]. replace ps0 with ps in E2 by congruence. exists ps'. split; [reflexivity|].
    rewrite R2. cbn [alookup]. rewrite (proj2 (existsb_temp t _) I), E2. reflexivity.
  - intros t tb [ps0 [[= <-] E2]]. rewrite R2 in E2. cbn [alookup] in E2.
    destruct (existsb (Z.eqb t) (temps (ch_hdr m))) eqn:X; [now apply existsb_temp|discriminate].
  - intros l tb I D. rewrite dens_fold by exact LN. cbn [alookup]. rewrite (combine_lookup _ _ _ T).
    rewrite (proj2 (existsb_name (l_name l) _)) by eauto. rewrite D. reflexivity.
  - intros n tb D. rewrite dens_fold in D by exact LN. cbn [alookup] in D. rewrite (combine_lookup _ _ _ T) in D.
    destruct (existsb _ _) eqn:X in D; [now apply existsb_name|discriminate].
Qed.
