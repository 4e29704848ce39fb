From Verif Require Import Base LayerMap_Model LayerMap_Spec.
From Coq Require Import Sorting.Sorted.
Local Open Scope Z_scope.

Definition inj (m : lmap) : Prop :=
  forall p q, In p m -> In q m -> fst p = fst q \/ snd p = snd q -> p = q.

Lemma sorted_insert_in p m x : In x (sorted_insert p m) <-> x = p \/ In x m.
Proof.
  induction m as [|q m IH]; simpl; [intuition|].
  destruct (fst p <? fst q); simpl; rewrite ?IH; intuition.
Qed.

Lemma blocked_iff p m :
  existsb (fun q => (fst q =? fst p) || (snd q =? snd p)) m = true <->
  exists q, In q m /\ (fst q = fst p \/ snd q = snd p).
Proof.
  rewrite existsb_exists; split; intros (q & Hq & H); exists q; split; auto.
  - apply orb_prop in H as [H|H]; apply Z.eqb_eq in H; auto.
  - apply orb_true_iff; destruct H as [H|H]; apply Z.eqb_eq in H; auto.
Qed.

Definition clash (p : Z * Z) (m : lmap) : Prop := exists q, In q m /\ (fst q = fst p \/ snd q = snd p).

Lemma clash_dec p m : clash p m \/ ~ clash p m.
Proof.
  unfold clash; rewrite <- blocked_iff; destruct (existsb _ m); [left|right]; congruence.
Qed.

Lemma set_mapping_clash p m : clash p m -> set_mapping p m = m.
Proof. intros H; unfold set_mapping; apply blocked_iff in H; rewrite H; auto. Qed.

Lemma set_mapping_fresh p m : ~ clash p m -> set_mapping p m = sorted_insert p m.
Proof.
  intros H; unfold set_mapping; destruct (existsb _ m) eqn:E; auto; apply blocked_iff in E; tauto.
Qed.

Lemma set_mapping_in p m x : In x (set_mapping p m) <-> In x m \/ (x = p /\ ~ clash p m).
Proof.
  destruct (clash_dec p m) as [H|H].
  - rewrite set_mapping_clash; auto; tauto.
  - rewrite set_mapping_fresh, sorted_insert_in; auto; tauto.
Qed.

Lemma set_mapping_inj p m : inj m -> inj (set_mapping p m).
Proof.
  intros Hi x y; rewrite !set_mapping_in; intros [Hx|[-> Hc]] [Hy|[-> Hc']] Hor; auto.
  - exfalso; apply Hc'; exists x; auto.
  - exfalso; apply Hc; exists y; split; auto; intuition congruence.
Qed.

Lemma new_in x : In x lm_new <-> x = (noLayer, noLayer) \/ x = (ComponentLayer, ComponentLayer).
Proof. simpl; intuition. Qed.

Lemma new_inj : inj lm_new.
Proof.
  intros p q; rewrite !new_in; intros [->| ->] [->| ->]; simpl; auto; unfold noLayer, ComponentLayer;
    intros [H|H]; discriminate.
Qed.

Lemma forward_in m x y : inj m -> In (x, y) m -> forward m x = y.
Proof.
  intros Hi H; unfold forward; destruct (find _ m) as [q|] eqn:E.
  - apply find_some in E as [Hq E]; apply Z.eqb_eq in E.
    specialize (Hi (x, y) q H Hq); rewrite <- Hi; auto.
  - apply find_none with (x := (x, y)) in E; auto; simpl in E; rewrite Z.eqb_refl in E; discriminate.
Qed.

Lemma backward_in m x y : inj m -> In (x, y) m -> backward m y = x.
Proof.
  intros Hi H; unfold backward; destruct (find _ m) as [q|] eqn:E.
  - apply find_some in E as [Hq E]; apply Z.eqb_eq in E.
    specialize (Hi (x, y) q H Hq); rewrite <- Hi; auto.
  - apply find_none with (x := (x, y)) in E; auto; simpl in E; rewrite Z.eqb_refl in E; discriminate.
Qed.

Lemma forward_cases m x : In (x, forward m x) m \/ (forward m x = noLayer /\ forall y, ~ In (x, y) m).
Proof.
  unfold forward; destruct (find _ m) as [[a b]|] eqn:E.
  - apply find_some in E as [Hq E]; apply Z.eqb_eq in E; simpl in *; subst; auto.
  - right; split; auto; intros y H; apply find_none with (x := (x, y)) in E; auto.
    simpl in E; rewrite Z.eqb_refl in E; discriminate.
Qed.

Lemma backward_cases m y : In (backward m y, y) m \/ (backward m y = noLayer /\ forall x, ~ In (x, y) m).
Proof.
  unfold backward; destruct (find _ m) as [[a b]|] eqn:E.
  - apply find_some in E as [Hq E]; apply Z.eqb_eq in E; simpl in *; subst; auto.
  - right; split; auto; intros x H; apply find_none with (x := (x, y)) in E; auto.
    simpl in E; rewrite Z.eqb_refl in E; discriminate.
Qed.

Record good (m : lmap) : Prop := {
  g_inj : inj m;
  g_no : In (noLayer, noLayer) m;
  g_comp : In (ComponentLayer, ComponentLayer) m
}.

Lemma good_new : good lm_new.
Proof. constructor; [apply new_inj|apply new_in; auto|apply new_in; auto]. Qed.

Lemma good_set p m : good m -> good (set_mapping p m).
Proof.
  intros [H1 H2 H3]; constructor; [apply set_mapping_inj; auto| |]; apply set_mapping_in; auto.
Qed.

Lemma good_run_gen calls : forall m, good m -> good (fold_left (fun m p => set_mapping p m) calls m).
Proof. induction calls as [|p calls IH]; simpl; intros m H; auto; apply IH, good_set, H. Qed.

Lemma good_run calls : good (lm_run calls).
Proof. apply good_run_gen, good_new. Qed.

Lemma fwd_bwd m x y : good m -> x <> noLayer -> y <> noLayer -> (forward m x = y <-> backward m y = x).
Proof.
  intros G Hx Hy; split; intros H.
  - destruct (forward_cases m x) as [Hin|[Hn _]]; [|congruence].
    rewrite H in Hin; apply backward_in; auto; apply G.
  - destruct (backward_cases m y) as [Hin|[Hn _]]; [|congruence].
    rewrite H in Hin; apply forward_in; auto; apply G.
Qed.

Lemma mapped_iff m x y : good m -> x <> noLayer -> y <> noLayer -> (In (x, y) m <-> forward m x = y).
Proof.
  intros G Hx Hy; split; intros H; [apply forward_in; auto; apply G|].
  destruct (forward_cases m x) as [Hin|[Hn _]]; congruence.
Qed.

Lemma fwd_no m x : good m -> (forward m x = noLayer <-> x = noLayer \/ forall y, ~ In (x, y) m).
Proof.
  intros G; split.
  - destruct (forward_cases m x) as [Hin|[Hn Hall]]; auto; intros H; left.
    rewrite H in Hin; pose proof (g_inj m G _ _ Hin (g_no m G)) as Hp; simpl in Hp.
    assert ((x, noLayer) = (noLayer, noLayer)) by auto; congruence.
  - intros [->|H]; [apply forward_in; apply G|].
    destruct (forward_cases m x) as [Hin|[Hn _]]; auto; exfalso; eapply H; eauto.
Qed.

Lemma bwd_no m y : good m -> (backward m y = noLayer <-> y = noLayer \/ forall x, ~ In (x, y) m).
Proof.
  intros G; split.
  - destruct (backward_cases m y) as [Hin|[Hn Hall]]; auto; intros H; left.
    rewrite H in Hin; pose proof (g_inj m G _ _ Hin (g_no m G)) as Hp; simpl in Hp.
    assert ((noLayer, y) = (noLayer, noLayer)) by auto; congruence.
  - intros [->|H]; [apply backward_in; apply G|].
    destruct (backward_cases m y) as [Hin|[Hn _]]; auto; exfalso; eapply H; eauto.
Qed.

(** a further call *)
Lemma forward_stable m p x : good m -> forward m x <> noLayer -> forward (set_mapping p m) x = forward m x.
Proof.
  intros G H; destruct (forward_cases m x) as [Hin|[Hn _]]; [|congruence].
  apply forward_in; [apply good_set, G|apply set_mapping_in; auto].
Qed.

Lemma set_effective m x y :
  good m -> x <> noLayer -> y <> noLayer -> forward m x = noLayer -> backward m y = noLayer ->
  forward (set_mapping (x, y) m) x = y /\ backward (set_mapping (x, y) m) y = x /\
  (forall x', x' <> x -> forward (set_mapping (x, y) m) x' = forward m x').
Proof.
  intros G Hx Hy Hf Hb.
  assert (Hc : ~ clash (x, y) m).
  { apply (fwd_no m x G) in Hf as [?|Hf]; [congruence|].
    apply (bwd_no m y G) in Hb as [?|Hb]; [congruence|].
    intros ([a b] & Hin & [E|E]); simpl in E; subst; [eapply Hf|eapply Hb]; eauto. }
  assert (Hin : In (x, y) (set_mapping (x, y) m)) by (apply set_mapping_in; auto).
  pose proof (good_set (x, y) m G) as G'; split; [|split].
  - apply forward_in; auto; apply G'.
  - apply backward_in; auto; apply G'.
  - intros x' Hne; destruct (forward_cases m x') as [Hi|[Hn Hall]].
    + apply forward_in; [apply G'|apply set_mapping_in; auto].
    + rewrite Hn; apply (fwd_no _ x' G'); right; intros z Hz.
      apply set_mapping_in in Hz as [Hz|[Hz _]]; [eapply Hall; eauto|congruence].
Qed.

Lemma set_refused m x y :
  good m -> x = noLayer \/ y = noLayer \/ forward m x <> noLayer \/ backward m y <> noLayer ->
  set_mapping (x, y) m = m.
Proof.
  intros G H; apply set_mapping_clash; destruct H as [->|[->|[H|H]]].
  - exists (noLayer, noLayer); split; auto; apply G.
  - exists (noLayer, noLayer); split; auto; apply G.
  - destruct (forward_cases m x) as [Hi|[Hn _]]; [|congruence]; eexists; split; eauto.
  - destruct (backward_cases m y) as [Hi|[Hn _]]; [|congruence]; eexists; split; eauto.
Qed.

(** sortedness of the left view *)
Definition lsorted (m : lmap) : Prop := StronglySorted (fun p q => fst p < fst q) m.

Lemma sorted_insert_sorted p m : lsorted m -> (forall q, In q m -> fst q <> fst p) -> lsorted (sorted_insert p m).
Proof.
  induction 1 as [|q m Hs IH Hall]; simpl; intros Hne; [repeat constructor|].
  destruct (Z.ltb_spec (fst p) (fst q)).
  - constructor; [constructor; auto|]; constructor; auto.
    rewrite Forall_forall in *; intros z Hz; specialize (Hall z Hz); lia.
  - assert (fst q <> fst p) by (apply Hne; auto).
    constructor; [apply IH; intros; apply Hne; auto|].
    rewrite Forall_forall in *; intros z Hz; apply sorted_insert_in in Hz as [->|Hz]; [lia|auto].
Qed.

Lemma set_mapping_sorted p m : lsorted m -> lsorted (set_mapping p m).
Proof.
  intros H; destruct (clash_dec p m) as [Hc|Hc]; [rewrite set_mapping_clash; auto|].
  rewrite set_mapping_fresh by auto; apply sorted_insert_sorted; auto.
  intros q Hq E; apply Hc; exists q; auto.
Qed.

Lemma run_sorted_gen calls : forall m, lsorted m -> lsorted (fold_left (fun m p => set_mapping p m) calls m).
Proof. induction calls; simpl; auto using set_mapping_sorted. Qed.

Lemma run_sorted calls : lsorted (lm_run calls).
Proof. apply run_sorted_gen; unfold lm_new; apply set_mapping_sorted, set_mapping_sorted; constructor. Qed.

(** composition *)

Definition proper (p : Z * Z) : Prop := fst p <> noLayer /\ snd p <> noLayer.

Lemma fold_set_in (ps : list (Z * Z)) : forall acc,
  In (noLayer, noLayer) acc ->
  (forall p q, In p ps -> proper p -> In q acc -> fst q <> fst p /\ snd q <> snd p) ->
  ForallOrdPairs (fun p q => proper p -> proper q -> fst p <> fst q /\ snd p <> snd q) ps ->
  forall x, In x (fold_left (fun a p => set_mapping p a) ps acc) <-> In x acc \/ (In x ps /\ proper x).
Proof.
  induction ps as [|p ps IH]; simpl; intros acc Hno Hfr Hop x; [tauto|].
  inversion Hop as [|? ? Hp Hop']; subst; rewrite Forall_forall in Hp.
  assert (Hdec : proper p \/ ~ proper p).
  { unfold proper; destruct (Z.eq_dec (fst p) noLayer), (Z.eq_dec (snd p) noLayer); tauto. }
  destruct Hdec as [Hpp|Hnp].
  - assert (Hc : ~ clash p acc) by (intros (q & Hq & E); destruct (Hfr p q (or_introl eq_refl) Hpp Hq); tauto).
    rewrite IH; auto.
    + rewrite set_mapping_in; split; intros H.
      * destruct H as [[H|[-> _]]|[H H']]; auto.
      * destruct H as [H|[[->|H] H']]; auto.
    + apply set_mapping_in; auto.
    + intros p' q Hp' Hpp' Hq; apply set_mapping_in in Hq as [Hq|[-> _]]; [apply Hfr; auto|].
      apply Hp; auto.
  - assert (Hc : clash p acc).
    { exists (noLayer, noLayer); split; auto; simpl; unfold proper in Hnp.
      destruct (Z.eq_dec (fst p) noLayer), (Z.eq_dec (snd p) noLayer); auto; tauto. }
    rewrite set_mapping_clash by auto; rewrite IH; auto.
    split; [tauto|]; intros [H|[[->|H] H']]; tauto.
Qed.

Lemma good_split m : good m -> lsorted m -> (forall p, In p m -> valid_id (fst p)) ->
  exists rest, m = (ComponentLayer, ComponentLayer) :: (noLayer, noLayer) :: rest /\
    forall p, In p rest -> 0 <= fst p.
Proof.
  intros G Hs Hv; destruct m as [|p m]; [destruct (g_no _ G)|].
  inversion Hs as [|? ? Hs1 Hall1]; subst; rewrite Forall_forall in Hall1.
  assert (Hp : p = (ComponentLayer, ComponentLayer)).
  { destruct (g_comp _ G) as [Hp|Hp]; auto; exfalso.
    apply Hall1 in Hp; specialize (Hv p (or_introl eq_refl)); unfold valid_id, noLayer, ComponentLayer in *; simpl in Hp; lia. }
  subst p; destruct m as [|q m].
  { destruct (g_no _ G) as [H|[]]; discriminate. }
  inversion Hs1 as [|? ? Hs2 Hall2]; subst; rewrite Forall_forall in Hall2.
  assert (Hq : q = (noLayer, noLayer)).
  { destruct (g_no _ G) as [H|[Hp|Hp]]; [discriminate|auto|exfalso].
    apply Hall2 in Hp; specialize (Hall1 q (or_introl eq_refl)); specialize (Hv q (or_intror (or_introl eq_refl)));
      unfold valid_id, noLayer, ComponentLayer in *; simpl in *; lia. }
  subst q; exists m; split; auto.
  intros p Hp; specialize (Hall2 p Hp); specialize (Hv p (or_intror (or_intror Hp))).
  unfold valid_id, noLayer, ComponentLayer in *; simpl in *; lia.
Qed.

Lemma fold_map_set (f : Z * Z -> Z * Z) l : forall acc,
  fold_left (fun a q => set_mapping (f q) a) l acc = fold_left (fun a p => set_mapping p a) (map f l) acc.
Proof. induction l; simpl; auto. Qed.

Lemma ordpairs_of_sorted (R : Z * Z -> Z * Z -> Prop) l :
  lsorted l -> (forall p q, In p l -> In q l -> fst p < fst q -> R p q) -> ForallOrdPairs R l.
Proof.
  induction 1 as [|p l Hs IH Hall]; intros HR; constructor.
  - rewrite Forall_forall in *; intros q Hq; apply HR; simpl; auto.
  - apply IH; intros; apply HR; simpl; auto.
Qed.

Lemma ordpairs_map (f : Z * Z -> Z * Z) (R : Z * Z -> Z * Z -> Prop) l :
  ForallOrdPairs (fun p q => R (f p) (f q)) l -> ForallOrdPairs R (map f l).
Proof.
  induction 1 as [|p l H Hs IH]; simpl; constructor; auto.
  rewrite Forall_forall in *; intros q Hq; apply in_map_iff in Hq as (z & <- & Hz); auto.
Qed.

Lemma forward_inj o x y : good o -> forward o x = forward o y -> forward o x <> noLayer -> x = y.
Proof.
  intros G E H; destruct (forward_cases o x) as [Hx|[Hn _]]; [|congruence].
  destruct (forward_cases o y) as [Hy|[Hn _]]; [|congruence].
  rewrite <- E in Hy; assert ((x, forward o x) = (y, forward o x)) by (apply (g_inj o G); auto); congruence.
Qed.

Definition lm_ok (m : lmap) : Prop := good m /\ lsorted m /\ forall p, In p m -> valid_id (fst p).

Lemma lm_ok_tail m rest : lm_ok m ->
  m = (ComponentLayer, ComponentLayer) :: (noLayer, noLayer) :: rest -> lsorted rest /\ inj m.
Proof.
  intros (G & Hs & _) ->; inversion Hs as [|? ? Hs1 _]; inversion Hs1; split; auto; apply G.
Qed.

Lemma mapping_right_in m o x : lm_ok m -> good o ->
  (In x (mapping_right m o) <->
   x = (noLayer, noLayer) \/ x = (ComponentLayer, ComponentLayer) \/
   (exists b, In (fst x, b) m /\ 0 <= fst x /\ snd x = forward o b /\ snd x <> noLayer)).
Proof.
  intros Hm Go; pose proof Hm as (Gm & Hs & Hv).
  destruct (good_split m Gm Hs Hv) as (rest & Em & Hpos).
  destruct (lm_ok_tail m rest Hm Em) as [Hsr Him].
  assert (Hrm : forall p, In p rest -> In p m) by (intros p; rewrite Em; simpl; auto).
  pose proof (g_no m Gm) as Hmn; pose proof (g_comp m Gm) as Hmc.
  assert (Hfold : mapping_right m o = fold_left (fun a p => set_mapping p a) (map (fun q => (fst q, forward o (snd q))) rest)
                    [(ComponentLayer, ComponentLayer); (noLayer, noLayer)]).
  { unfold mapping_right; rewrite Em; simpl.
    rewrite (forward_in o _ _ (g_inj o Go) (g_comp o Go)), (forward_in o _ _ (g_inj o Go) (g_no o Go)).
    apply (fold_map_set (fun q => (fst q, forward o (snd q)))). }
  rewrite Hfold, fold_set_in.
  - split.
    + intros [[<-|[<-|[]]]|[H [Hp1 Hp2]]]; auto; right; right.
      apply in_map_iff in H as ([a b] & <- & Hab); simpl in *; exists b.
      pose proof (Hpos _ Hab); auto.
    + intros [->|[->|(b & Hb & H0 & H1 & H2)]]; [left; simpl; auto|left; simpl; auto|right].
      rewrite Em in Hb; destruct Hb as [Hb|[Hb|Hb]].
      { injection Hb as Hb _; unfold ComponentLayer in Hb; lia. }
      { injection Hb as Hb _; unfold noLayer in Hb; lia. }
      split; [|split; auto; unfold noLayer; lia].
      apply in_map_iff; exists (fst x, b); split; auto; simpl; rewrite <- H1; destruct x; auto.
  - simpl; auto.
  - intros p q Hp [Hp1 Hp2] Hq; apply in_map_iff in Hp as ([a b] & <- & Hab); simpl in *.
    pose proof (Hpos _ Hab) as Ha; simpl in Ha.
    destruct Hq as [<-|[<-|[]]]; simpl; split; try congruence.
    + unfold ComponentLayer; lia.
    + intros E.
      assert (b = ComponentLayer).
      { apply (forward_inj o b ComponentLayer Go); [|congruence].
        rewrite (forward_in o _ _ (g_inj o Go) (g_comp o Go)); auto. }
      assert (Hx : (a, b) = (ComponentLayer, ComponentLayer))
        by (apply Him; simpl; auto).
      injection Hx as Hx _; unfold ComponentLayer in Hx; lia.
  - apply ordpairs_map, ordpairs_of_sorted; auto; simpl.
    intros p q Hp Hq Hlt [_ Hp2] [_ Hq2]; simpl in *; split; [lia|]; intros E.
    assert (snd p = snd q) by (apply (forward_inj o _ _ Go); auto).
    assert (p = q) by (apply Him; simpl; auto); subst; lia.
Qed.

Lemma mapping_left_in m o x : lm_ok m -> good o ->
  (In x (mapping_left m o) <->
   x = (noLayer, noLayer) \/ x = (ComponentLayer, ComponentLayer) \/
   (exists a, In (a, snd x) m /\ 0 <= a /\ fst x = forward o a /\ fst x <> noLayer)).
Proof.
  intros Hm Go; pose proof Hm as (Gm & Hs & Hv).
  destruct (good_split m Gm Hs Hv) as (rest & Em & Hpos).
  destruct (lm_ok_tail m rest Hm Em) as [Hsr Him].
  assert (Hrm : forall p, In p rest -> In p m) by (intros p; rewrite Em; simpl; auto).
  pose proof (g_no m Gm) as Hmn; pose proof (g_comp m Gm) as Hmc.
  assert (Hrest : forall p, In p rest -> snd p <> noLayer /\ snd p <> ComponentLayer).
  { intros p Hp; pose proof (Hpos p Hp) as H0; split; intros E.
    - assert (p = (noLayer, noLayer)) by (apply Him; simpl; auto); subst; unfold noLayer in *; simpl in *; lia.
    - assert (p = (ComponentLayer, ComponentLayer)) by (apply Him; simpl; auto); subst;
        unfold ComponentLayer in *; simpl in *; lia. }
  assert (Hfold : mapping_left m o = fold_left (fun a p => set_mapping p a) (map (fun q => (forward o (fst q), snd q)) rest)
                    [(ComponentLayer, ComponentLayer); (noLayer, noLayer)]).
  { unfold mapping_left; rewrite Em; simpl.
    rewrite (forward_in o _ _ (g_inj o Go) (g_comp o Go)), (forward_in o _ _ (g_inj o Go) (g_no o Go)).
    apply (fold_map_set (fun q => (forward o (fst q), snd q))). }
  rewrite Hfold, fold_set_in.
  - split.
    + intros [[<-|[<-|[]]]|[H [Hp1 Hp2]]]; auto; right; right.
      apply in_map_iff in H as ([a b] & <- & Hab); simpl in *; exists a.
      pose proof (Hpos _ Hab); auto.
    + intros [->|[->|(a & Hb & H0 & H1 & H2)]]; [left; simpl; auto|left; simpl; auto|right].
      rewrite Em in Hb; destruct Hb as [Hb|[Hb|Hb]].
      { injection Hb as Hb _; unfold ComponentLayer in Hb; lia. }
      { injection Hb as Hb _; unfold noLayer in Hb; lia. }
      split; [|split; auto; apply (Hrest _ Hb)].
      apply in_map_iff; exists (a, snd x); split; auto; simpl; rewrite <- H1; destruct x; auto.
  - simpl; auto.
  - intros p q Hp [Hp1 Hp2] Hq; apply in_map_iff in Hp as ([a b] & <- & Hab); simpl in *.
    pose proof (Hpos _ Hab) as Ha; simpl in Ha; pose proof (Hrest _ Hab) as [Hr1 Hr2]; simpl in *.
    destruct Hq as [<-|[<-|[]]]; simpl; split; try congruence.
    intros E.
    assert (a = ComponentLayer).
    { apply (forward_inj o a ComponentLayer Go); [|congruence].
      rewrite (forward_in o _ _ (g_inj o Go) (g_comp o Go)); auto. }
    unfold ComponentLayer in *; lia.
  - apply ordpairs_map, ordpairs_of_sorted; auto; simpl.
    intros p q Hp Hq Hlt [Hp1 _] [Hq1 _]; simpl in *; split; intros E.
    + assert (fst p = fst q) by (apply (forward_inj o _ _ Go); auto); lia.
    + assert (p = q) by (apply Him; simpl; auto); subst; lia.
Qed.

Lemma fold_set_inj ps : forall acc, inj acc -> inj (fold_left (fun a p => set_mapping p a) ps acc).
Proof. induction ps; simpl; auto using set_mapping_inj. Qed.

Lemma mapping_right_good m o : lm_ok m -> good o -> good (mapping_right m o).
Proof.
  intros Hm Go; constructor; [|apply mapping_right_in; auto|apply mapping_right_in; auto].
  unfold mapping_right; rewrite (fold_map_set (fun q => (fst q, forward o (snd q)))).
  apply fold_set_inj; intros ? ? [].
Qed.

Lemma mapping_left_good m o : lm_ok m -> good o -> good (mapping_left m o).
Proof.
  intros Hm Go; constructor; [|apply mapping_left_in; auto|apply mapping_left_in; auto].
  unfold mapping_left; rewrite (fold_map_set (fun q => (forward o (fst q), snd q))).
  apply fold_set_inj; intros ? ? [].
Qed.

Lemma reserved_fwd m : good m -> forward m noLayer = noLayer /\ forward m ComponentLayer = ComponentLayer /\
  backward m noLayer = noLayer /\ backward m ComponentLayer = ComponentLayer.
Proof.
  intros [H1 H2 H3]; repeat split; [apply forward_in|apply forward_in|apply backward_in|apply backward_in]; auto.
Qed.

Lemma compose_right_fwd m o x : lm_ok m -> good o -> forward (mapping_right m o) x = forward o (forward m x).
Proof.
  intros Hm Go; pose proof (mapping_right_good m o Hm Go) as G; pose proof Hm as (Gm & _ & Hv).
  destruct (reserved_fwd m Gm) as (R1 & R2 & _), (reserved_fwd o Go) as (S1 & S2 & _).
  destruct (forward_cases m x) as [Hin|[Hn Hall]].
  - destruct (Hv _ Hin) as [H0|[H0|H0]]; simpl in H0.
    + destruct (Z.eq_dec (forward o (forward m x)) noLayer) as [E|E].
      * rewrite E; apply (fwd_no _ x G); right; intros y Hy; apply mapping_right_in in Hy; auto.
        destruct Hy as [Hy|[Hy|(b & Hb & _ & Hy & Hy')]]; simpl in *.
        -- injection Hy as Hy _; unfold noLayer in *; lia.
        -- injection Hy as Hy _; unfold ComponentLayer in *; lia.
        -- rewrite (forward_in m x b (g_inj m Gm) Hb) in E; congruence.
      * apply forward_in; [apply G|]; apply mapping_right_in; auto; right; right; exists (forward m x); auto.
    + subst; rewrite R1, S1; apply (reserved_fwd _ G).
    + subst; rewrite R2, S2; apply (reserved_fwd _ G).
  - rewrite Hn, S1; apply (fwd_no _ x G).
    destruct (Z.eq_dec x noLayer); auto; right; intros y Hy; apply mapping_right_in in Hy; auto.
    destruct Hy as [Hy|[Hy|(b & Hb & _)]]; simpl in *; [congruence| |eapply Hall; eauto].
    injection Hy as -> _; apply (Hall ComponentLayer), Gm.
Qed.

Lemma fwd_bwd_full m1 f : good m1 ->
  (forall x, forward m1 x = f x) -> forall x y, f x = y -> y <> noLayer -> x <> noLayer -> backward m1 y = x.
Proof. intros G H x y E H1 H2; apply fwd_bwd; auto; rewrite H; auto. Qed.

Lemma compose_right_bwd m o z : lm_ok m -> good o -> backward (mapping_right m o) z = backward m (backward o z).
Proof.
  intros Hm Go; pose proof (mapping_right_good m o Hm Go) as G; pose proof Hm as (Gm & _ & Hv).
  pose proof (fun x => compose_right_fwd m o x Hm Go) as F.
  destruct (reserved_fwd m Gm) as (_ & _ & R1 & R2), (reserved_fwd o Go) as (_ & _ & S1 & S2).
  destruct (Z.eq_dec z noLayer) as [->|Hz]; [rewrite S1, R1; apply (reserved_fwd _ G)|].
  destruct (Z.eq_dec (backward m (backward o z)) noLayer) as [E|E].
  - rewrite E; destruct (Z.eq_dec (backward (mapping_right m o) z) noLayer) as [|N]; auto; exfalso.
    assert (H : forward (mapping_right m o) (backward (mapping_right m o) z) = z) by (apply fwd_bwd; auto).
    set (w := backward (mapping_right m o) z) in *.
    rewrite F in H.
    assert (N2 : forward m w <> noLayer).
    { intros E2; rewrite E2 in H; destruct (reserved_fwd o Go) as (S & _); congruence. }
    apply (fwd_bwd o _ z Go N2 Hz) in H; rewrite H in E.
    assert (backward m (forward m w) = w) by (apply fwd_bwd; auto); congruence.
  - assert (E2 : backward o z <> noLayer) by (intros E2; rewrite E2, R1 in E; congruence).
    apply fwd_bwd; auto; rewrite F.
    assert (forward m (backward m (backward o z)) = backward o z) as -> by (apply fwd_bwd; auto).
    apply fwd_bwd; auto.
Qed.

Lemma compose_left_bwd m o y : lm_ok m -> good o -> backward (mapping_left m o) y = forward o (backward m y).
Proof.
  intros Hm Go; pose proof (mapping_left_good m o Hm Go) as G; pose proof Hm as (Gm & _ & Hv).
  destruct (reserved_fwd m Gm) as (_ & _ & R1 & R2), (reserved_fwd o Go) as (S1 & S2 & _).
  destruct (backward_cases m y) as [Hin|[Hn Hall]].
  - destruct (Hv _ Hin) as [H0|[H0|H0]]; simpl in H0.
    + destruct (Z.eq_dec (forward o (backward m y)) noLayer) as [E|E].
      * rewrite E; apply (bwd_no _ y G).
        destruct (Z.eq_dec y noLayer) as [|Hy0]; auto; right; intros x Hx; apply mapping_left_in in Hx; auto.
        destruct Hx as [Hx|[Hx|(a & Ha & _ & Hx & Hx')]]; simpl in *; [congruence| |].
        -- injection Hx as _ ->; rewrite R2 in H0; unfold ComponentLayer in *; lia.
        -- rewrite (backward_in m a y (g_inj m Gm) Ha) in E; congruence.
      * apply backward_in; [apply G|]; apply mapping_left_in; auto; right; right; exists (backward m y); auto.
    + assert (y = noLayer).
      { pose proof (forward_in m _ _ (g_inj m Gm) Hin) as Hf; rewrite H0 in Hf.
        destruct (reserved_fwd m Gm); congruence. }
      rewrite H0, S1; subst y; apply (reserved_fwd _ G).
    + assert (y = ComponentLayer).
      { pose proof (forward_in m _ _ (g_inj m Gm) Hin) as Hf; rewrite H0 in Hf.
        destruct (reserved_fwd m Gm) as (_ & ? & _); congruence. }
      rewrite H0, S2; subst y; apply (reserved_fwd _ G).
  - rewrite Hn, S1; apply (bwd_no _ y G).
    destruct (Z.eq_dec y noLayer); auto; right; intros x Hx; apply mapping_left_in in Hx; auto.
    destruct Hx as [Hx|[Hx|(a & Ha & _)]]; simpl in *; [congruence| |eapply Hall; eauto].
    injection Hx as _ ->; apply (Hall ComponentLayer), Gm.
Qed.

Lemma compose_left_fwd m o z : lm_ok m -> good o -> forward (mapping_left m o) z = forward m (backward o z).
Proof.
  intros Hm Go; pose proof (mapping_left_good m o Hm Go) as G; pose proof Hm as (Gm & _ & Hv).
  pose proof (fun x => compose_left_bwd m o x Hm Go) as F.
  destruct (reserved_fwd m Gm) as (R1 & R2 & R3 & _), (reserved_fwd o Go) as (S0 & _ & S1 & S2).
  destruct (Z.eq_dec z noLayer) as [->|Hz]; [rewrite S1, R1; apply (reserved_fwd _ G)|].
  destruct (Z.eq_dec (forward m (backward o z)) noLayer) as [E|E].
  - rewrite E; destruct (Z.eq_dec (forward (mapping_left m o) z) noLayer) as [|N]; auto; exfalso.
    assert (H : backward (mapping_left m o) (forward (mapping_left m o) z) = z) by (apply fwd_bwd; auto).
    set (w := forward (mapping_left m o) z) in *.
    rewrite F in H.
    assert (N2 : backward m w <> noLayer) by (intros E2; rewrite E2 in H; congruence).
    apply (fwd_bwd o _ z Go N2 Hz) in H; rewrite H in E.
    assert (forward m (backward m w) = w) by (apply fwd_bwd; auto); congruence.
  - assert (E2 : backward o z <> noLayer) by (intros E2; rewrite E2, R1 in E; congruence).
    apply fwd_bwd; auto; rewrite F.
    assert (backward m (forward m (backward o z)) = backward o z) as -> by (apply fwd_bwd; auto).
    apply fwd_bwd; auto.
Qed.

Lemma run_valid_gen calls : forall m, (forall p, In p m -> valid_id (fst p)) ->
  (forall p, In p calls -> valid_id (fst p)) ->
  forall p, In p (fold_left (fun m p => set_mapping p m) calls m) -> valid_id (fst p).
Proof.
  induction calls as [|c calls IH]; simpl; intros m Hm Hc p Hp; auto.
  apply (IH (set_mapping c m)); auto.
  intros q Hq; apply set_mapping_in in Hq as [Hq|[-> _]]; auto.
Qed.

Lemma run_ok calls : (forall p, In p calls -> valid_id (fst p)) -> lm_ok (lm_run calls).
Proof.
  intros H; split; [apply good_run|split; [apply run_sorted|]].
  apply run_valid_gen; auto; intros p Hp; apply new_in in Hp as [->| ->]; unfold valid_id; simpl; auto.
Qed.

Lemma run_snoc calls p : lm_run (calls ++ [p]) = set_mapping p (lm_run calls).
Proof. unfold lm_run; rewrite fold_left_app; auto. Qed.
