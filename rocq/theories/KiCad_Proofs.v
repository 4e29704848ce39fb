(** Lemmas about the KiCad reader. *)
From Verif Require Import Base KiCad_Model KiCad_Spec.
Local Open Scope Z_scope.
Local Open Scope res_scope.

Lemma is_ws_spec c : is_ws c = true <-> blank c.
Proof. unfold is_ws, blank. rewrite !orb_true_iff, !Z.eqb_eq. tauto. Qed.

Lemma not_delim_ws c : ~ delimiter c -> is_ws c = false /\ (c =? LP) = false /\ (c =? RP) = false /\ (c =? QUOTE) = false.
Proof.
  intros H. unfold delimiter in H. repeat split.
  - destruct (is_ws c) eqn:E; [|reflexivity]. apply is_ws_spec in E. tauto.
  - apply Z.eqb_neq. tauto.
  - apply Z.eqb_neq. tauto.
  - apply Z.eqb_neq. tauto.
Qed.

Lemma read_whitespace_app w inp : Forall blank w -> read_whitespace (w ++ inp) = read_whitespace inp.
Proof.
  induction w as [|c w IH]; intros H; [reflexivity|]. inversion H; subst. cbn [app read_whitespace].
  rewrite (proj2 (is_ws_spec c)) by assumption. now apply IH.
Qed.

Lemma read_whitespace_stop c inp : is_ws c = false -> read_whitespace (c :: inp) = c :: inp.
Proof. intros H. cbn [read_whitespace]. now rewrite H. Qed.

Lemma read_until_app u inp c : ~ In c u -> read_until (u ++ c :: inp) c = inp.
Proof.
  induction u as [|x u IH]; intros H; cbn [app read_until].
  - now rewrite Z.eqb_refl.
  - destruct (Z.eqb_spec x c); [exfalso; apply H; now left|]. apply IH. intros Hin. apply H. now right.
Qed.

Definition stop (c : Z) : Prop := is_ws c || (c =? RP) = true.

Lemma read_word_ok : forall s fuel acc c rest,
  Forall (fun c => ~ delimiter c) s -> stop c -> (List.length s + 1 <= fuel)%nat ->
  read_word fuel (s ++ c :: rest) acc = Ok (acc ++ s, c :: rest).
Proof.
  induction s as [|b s IH]; intros fuel acc c rest Hs Hc Hf; (destruct fuel as [|f]; [cbn in Hf; lia|]);
    cbn [read_word app].
  - rewrite Hc. now rewrite app_nil_r.
  - inversion Hs as [|? ? Hb Hs']; subst. destruct (not_delim_ws b Hb) as (-> & _ & -> & _). cbn [orb].
    rewrite IH; [now rewrite <- app_assoc|assumption|assumption|cbn in Hf; lia].
Qed.

Lemma read_word_eof : forall fuel s acc, Forall (fun c => ~ stop c) s -> read_word fuel s acc = OutOfFuel.
Proof.
  induction fuel as [|f IH]; intros s acc H; [reflexivity|]. cbn [read_word].
  destruct s as [|b s]; [now apply IH|]. inversion H as [|? ? Hb Hs]; subst.
  unfold stop in Hb. destruct (is_ws b || (b =? RP)); [congruence|now apply IH].
Qed.

Lemma quoted_loop_ok : forall v s u a fuel acc rest,
  quoted_text s -> s = u ++ v ->
  (u = [] -> a = hd_error (v ++ QUOTE :: rest)) -> (forall u' x, u = u' ++ [x] -> a = Some x) ->
  (List.length v + 1 <= fuel)%nat ->
  quoted_loop fuel a (v ++ QUOTE :: rest) acc = Ok (acc ++ v, QUOTE :: rest).
Proof.
  induction v as [|b v IH]; intros s u a fuel acc rest Hq Hs H0 H1 Hf;
    (destruct fuel as [|f]; [cbn in Hf; lia|]); cbn [quoted_loop app].
  - rewrite app_nil_r in Hs. subst u.
    assert (E : match a with Some a0 => a0 =? BACKSLASH | None => false end = false).
    { destruct s as [|x s] using rev_ind.
      - rewrite (H0 eq_refl). reflexivity.
      - rewrite (H1 s x eq_refl). apply Z.eqb_neq. intros ->. now apply (proj2 Hq s). }
    rewrite E. cbn. now rewrite app_nil_r.
  - destruct ((b =? QUOTE) && _) eqn:E.
    + exfalso. apply andb_prop in E as [Eb Ea]. apply Z.eqb_eq in Eb. subst b.
      destruct (proj1 Hq u v Hs) as [u' ->]. rewrite (H1 u' BACKSLASH eq_refl) in Ea. cbn in Ea. discriminate.
    + rewrite (IH s (u ++ [b])); [now rewrite <- app_assoc|assumption|now rewrite <- app_assoc|
        intros Hn; now apply app_eq_nil in Hn as [_ Hn]|
        intros u' x Hx; apply app_inj_tail in Hx as [_ ->]; reflexivity|cbn in Hf; lia].
Qed.

Lemma read_quoted_ok s fuel rest : quoted_text s -> (List.length s + 1 <= fuel)%nat ->
  read_quoted fuel (s ++ QUOTE :: rest) = Ok (s, QUOTE :: rest).
Proof.
  intros H Hf. unfold read_quoted.
  apply (quoted_loop_ok s s [] _ _ [] _ H eq_refl); [reflexivity| |exact Hf].
  intros u' x Hx. destruct u'; discriminate.
Qed.

Lemma quoted_loop_eof : forall fuel v s u a acc,
  (forall x y, s = x ++ QUOTE :: y -> exists x', x = x' ++ [BACKSLASH]) -> s = u ++ v ->
  (u = [] -> a = hd_error v) -> (forall u' x, u = u' ++ [x] -> a = Some x) ->
  quoted_loop fuel a v acc = OutOfFuel.
Proof.
  induction fuel as [|f IH]; intros v s u a acc Hq Hs H0 H1; [reflexivity|]. cbn [quoted_loop].
  destruct v as [|b v].
  - clear. generalize (@None Z), (acc ++ [0]). induction f as [|f IH]; intros a' acc'; [reflexivity|]. apply IH.
  - destruct ((b =? QUOTE) && _) eqn:E.
    + exfalso. apply andb_prop in E as [Eb Ea]. apply Z.eqb_eq in Eb. subst b.
      destruct (Hq u v Hs) as [u' ->]. rewrite (H1 u' BACKSLASH eq_refl) in Ea. cbn in Ea. discriminate.
    + apply (IH v s (u ++ [b])); [assumption|now rewrite <- app_assoc|
        intros Hn; now apply app_eq_nil in Hn as [_ Hn]|
        intros u' x Hx; apply app_inj_tail in Hx as [_ ->]; reflexivity].
Qed.

(** *** Well-formed texts *)

Scheme renders_mind := Minimality for renders Sort Prop
  with items_mind := Minimality for items_text Sort Prop.
Combined Scheme renders_items_ind from renders_mind, items_mind.

Lemma items_text_head : forall es t, items_text false es t -> exists c t', t = c :: t' /\ stop c.
Proof.
  intros es t H. inversion H as [cl w Hw|cl w e te es' t' Hw Hc He Hi]; subst.
  - destruct w as [|c w].
    + exists RP, []. split; reflexivity.
    + inversion Hw as [|? ? Hb ?]; subst. exists c, (w ++ [RP]). split; [reflexivity|].
      unfold stop. now rewrite (proj2 (is_ws_spec c) Hb).
  - destruct Hc as [Hc|Hc]; [discriminate|]. destruct w as [|c w]; [congruence|].
    inversion Hw as [|? ? Hb ?]; subst. exists c, (w ++ te ++ t'). split; [reflexivity|].
    unfold stop. now rewrite (proj2 (is_ws_spec c) Hb).
Qed.

Lemma items_text_length : forall b es t, items_text b es t -> (1 <= List.length t)%nat.
Proof.
  intros b es t H. induction H; rewrite ?app_length; cbn [List.length]; lia.
Qed.

Lemma round_trip_mutual :
  (forall e t, renders e t ->
     match e with
     | Lst _ _ => forall fuel rest junk, ~ In LP junk -> (List.length t <= fuel)%nat ->
         read_tree fuel (junk ++ t ++ rest) = Ok (tree_of e, rest)
     | _ => True
     end) /\
  (forall b es t, items_text b es t -> forall fuel rest acc, (List.length t + 1 <= fuel)%nat ->
     read_branches fuel (t ++ rest) acc = Ok (acc ++ map tree_of es, rest)).
Proof.
  apply renders_items_ind.
  - intros s Hs. exact I.
  - intros s Hs. exact I.
  - intros n es w t Hw Hn Hi IH fuel rest junk Hj Hf.
    cbn [List.length] in Hf. rewrite !app_length in Hf. pose proof (items_text_length _ _ _ Hi) as Hl.
    destruct fuel as [|f]; [lia|]. destruct Hn as [Hne Hn].
    assert (Hnl : (1 <= List.length n)%nat) by (destruct n; [congruence|cbn; lia]).
    cbn [read_tree]. change (junk ++ (LP :: w ++ n ++ t) ++ rest) with (junk ++ LP :: (w ++ n ++ t) ++ rest).
    rewrite read_until_app by exact Hj. rewrite <- !app_assoc, read_whitespace_app by exact Hw.
    assert (Hws : read_whitespace (n ++ t ++ rest) = n ++ t ++ rest).
    { destruct n as [|c n]; [congruence|]. inversion Hn as [|? ? Hc ?]; subst. cbn [app].
      apply read_whitespace_stop. now apply not_delim_ws. }
    rewrite Hws. destruct (items_text_head _ _ Hi) as (c & t' & Ht & Hc).
    rewrite Ht at 1. cbn [app].
    rewrite read_word_ok; [|exact Hn|exact Hc|lia]. cbn [bind app].
    change (c :: t' ++ rest) with ((c :: t') ++ rest). rewrite <- Ht.
    rewrite IH by lia. reflexivity.
  - intros closed w Hw fuel rest acc Hf. rewrite app_length in Hf. cbn [List.length] in Hf.
    destruct fuel as [|f]; [lia|]. cbn [read_branches]. rewrite <- app_assoc, read_whitespace_app by exact Hw.
    cbn [app]. rewrite read_whitespace_stop by reflexivity. cbn. now rewrite app_nil_r.
  - intros closed w e te es t Hw Hc He IHe Hi IHi fuel rest acc Hf. rewrite !app_length in Hf.
    destruct fuel as [|f]; [lia|]. cbn [read_branches map].
    rewrite <- !app_assoc, read_whitespace_app by exact Hw.
    replace (acc ++ tree_of e :: map tree_of es) with ((acc ++ [tree_of e]) ++ map tree_of es)
      by (now rewrite <- app_assoc).
    pose proof (items_text_length _ _ _ Hi) as Hl.
    inversion He as [s Hs|s Hs|n es' w' t' Hw' Hn Hi']; subst.
    + destruct Hs as [Hne Hs]. destruct te as [|c te]; [congruence|].
      inversion Hs as [|? ? Hcd Hs']; subst. destruct (not_delim_ws c Hcd) as (E1 & E2 & E3 & E4).
      cbn [app]. rewrite read_whitespace_stop by exact E1. rewrite E3, E2, E4.
      destruct (items_text_head _ _ Hi) as (d & t' & Ht & Hd).
      change (c :: te ++ t ++ rest) with ((c :: te) ++ t ++ rest). rewrite Ht at 1. cbn [app] in *.
      change (c :: te ++ d :: t' ++ rest) with ((c :: te) ++ d :: t' ++ rest).
      rewrite read_word_ok; [|exact Hs|exact Hd|cbn [List.length] in *; lia]. cbn [bind app tree_of].
      change (d :: t' ++ rest) with ((d :: t') ++ rest). rewrite <- Ht. apply IHi. cbn [List.length] in Hf. lia.
    + cbn [List.length] in Hf. rewrite app_length in Hf. cbn [List.length] in Hf.
      cbn [app]. rewrite read_whitespace_stop by reflexivity.
      change (QUOTE =? RP) with false. change (QUOTE =? LP) with false. change (QUOTE =? QUOTE) with true.
      cbn iota. rewrite <- app_assoc. cbn [app].
      rewrite read_quoted_ok; [|exact Hs|lia]. cbn [bind tl tree_of]. apply IHi. lia.
    + assert (Hlen : (List.length (LP :: w' ++ n ++ t') <= f)%nat) by lia.
      cbn [app]. rewrite read_whitespace_stop by reflexivity.
      change (LP =? RP) with false. change (LP =? LP) with true. cbn iota.
      pose proof (IHe f (t ++ rest) [] (fun H => H) Hlen) as R. cbn [app] in R. rewrite R.
      cbn [bind]. apply IHi. cbn [List.length] in Hf. lia.
Qed.

(** *** Texts that end with a closing parenthesis and have no quotes *)

Definition suffix (rest inp : str) : Prop := exists x, inp = x ++ rest.
Definition tame (inp : str) : Prop := ~ In QUOTE inp /\ (inp = [] \/ exists u, inp = u ++ [RP]).

Lemma suffix_refl l : suffix l l.
Proof. now exists []. Qed.
Lemma suffix_trans a b c : suffix a b -> suffix b c -> suffix a c.
Proof. intros [x ->] [y ->]. exists (y ++ x). now rewrite app_assoc. Qed.
Lemma suffix_cons x a b : suffix a b -> suffix a (x :: b).
Proof. intros [y ->]. now exists (x :: y). Qed.
Lemma suffix_length a b : suffix a b -> (List.length a <= List.length b)%nat.
Proof. intros [y ->]. rewrite app_length. lia. Qed.

Lemma tame_suffix a b : suffix a b -> tame b -> tame a.
Proof.
  intros [x ->] [Hq He]. split.
  - intros Hin. apply Hq. apply in_or_app. now right.
  - destruct He as [He|[u Hu]].
    + apply app_eq_nil in He as [_ ->]. now left.
    + destruct a as [|y a] using rev_ind; [now left|]. right. exists a.
      rewrite app_assoc in Hu. apply app_inj_tail in Hu as [_ ->]. reflexivity.
Qed.

Lemma read_whitespace_suffix inp : suffix (read_whitespace inp) inp.
Proof.
  induction inp as [|c inp IH]; [apply suffix_refl|]. cbn [read_whitespace].
  destruct (is_ws c); [now apply suffix_cons|apply suffix_refl].
Qed.

Lemma read_word_tame : forall fuel inp acc, In RP inp -> (List.length inp + 1 <= fuel)%nat ->
  exists s rest, read_word fuel inp acc = Ok (s, rest) /\ suffix rest inp /\ rest <> [] /\
    ((forall c i, inp = c :: i -> ~ stop c) -> (List.length rest < List.length inp)%nat).
Proof.
  induction fuel as [|f IH]; intros inp acc Hin Hf; [lia|]. cbn [read_word].
  destruct inp as [|b inp]; [destruct Hin|]. destruct (is_ws b || (b =? RP)) eqn:E.
  - exists acc, (b :: inp). split; [reflexivity|]. split; [apply suffix_refl|]. split; [discriminate|].
    intros H. exfalso. apply (H b inp eq_refl). exact E.
  - assert (Hin' : In RP inp).
    { destruct Hin as [->|H]; [|exact H]. rewrite orb_false_iff in E. destruct E as [_ E].
      rewrite Z.eqb_refl in E. discriminate. }
    destruct (IH inp (acc ++ [b]) Hin') as (s & rest & R & Hs & Hn & _); [cbn in Hf; lia|].
    exists s, rest. split; [exact R|]. split; [now apply suffix_cons|]. split; [exact Hn|].
    intros _. apply suffix_length in Hs. cbn [List.length]. lia.
Qed.

Lemma read_whitespace_head inp c i : read_whitespace inp = c :: i -> is_ws c = false.
Proof.
  induction inp as [|x inp IH]; cbn [read_whitespace]; [discriminate|].
  destruct (is_ws x) eqn:E; [exact IH|]. intros H. inversion H; now subst.
Qed.

Lemma read_whitespace_In inp c : In c inp -> is_ws c = false -> In c (read_whitespace inp).
Proof.
  induction inp as [|x inp IH]; intros Hin Hc; [destruct Hin|]. cbn [read_whitespace].
  destruct (is_ws x) eqn:E; [|exact Hin]. destruct Hin as [->|Hin]; [congruence|now apply IH].
Qed.

Lemma tame_In inp : tame inp -> inp <> [] -> In RP inp.
Proof. intros [_ [->|[u ->]]] H; [congruence|]. apply in_or_app. right. now left. Qed.

Lemma tame_terminates : forall fuel,
  (forall inp, tame (LP :: inp) -> (2 * List.length inp + 2 <= fuel)%nat ->
     exists t rest, read_tree fuel (LP :: inp) = Ok (t, rest) /\ suffix rest inp) /\
  (forall inp acc, tame inp -> (2 * List.length inp + 1 <= fuel)%nat ->
     exists bs rest, read_branches fuel inp acc = Ok (bs, rest) /\ suffix rest inp).
Proof.
  induction fuel as [|f [IHt IHb]]; [split; intros; lia|]. split.
  - intros inp Ht Hf. cbn [read_tree read_until].
    change (LP =? LP) with true. cbn iota.
    assert (Hti : tame inp) by (eapply tame_suffix; [apply suffix_cons, suffix_refl|exact Ht]).
    assert (Hne : inp <> []).
    { intros ->. destruct Ht as [_ [E|[u E]]]; [discriminate|]. change [LP] with ([] ++ [LP]) in E.
      apply app_inj_tail in E as [_ E]. discriminate. }
    pose proof (tame_In _ Hti Hne) as HRP.
    pose proof (read_whitespace_suffix inp) as Hws.
    destruct (read_word_tame f (read_whitespace inp) []) as (s & rest & R & Hs & Hn & _).
    { now apply read_whitespace_In. }
    { apply suffix_length in Hws. destruct inp; [congruence|]. cbn [List.length] in *. lia. }
    rewrite R. cbn [bind].
    assert (Hsuf : suffix rest inp) by (eapply suffix_trans; eassumption).
    assert (Hlen : (2 * List.length rest + 1 <= f)%nat) by (apply suffix_length in Hsuf; lia).
    destruct (IHb rest [] (tame_suffix _ _ Hsuf Hti) Hlen) as (bs & rest' & R' & Hs').
    rewrite R'. cbn [bind]. eexists. eexists. split; [reflexivity|]. eapply suffix_trans; eassumption.
  - intros inp acc Hti Hf. cbn [read_branches].
    pose proof (read_whitespace_suffix inp) as Hws.
    destruct (read_whitespace inp) as [|b rest] eqn:Ew.
    { exists acc, []. split; [reflexivity|exact Hws]. }
    assert (Htr : tame (b :: rest)) by (eapply tame_suffix; eassumption).
    assert (Hsr : suffix rest inp) by (eapply suffix_trans; [apply suffix_cons, suffix_refl|exact Hws]).
    assert (Htr' : tame rest) by (eapply tame_suffix; eassumption).
    pose proof (suffix_length _ _ Hws) as Hl. cbn [List.length] in Hl.
    destruct (b =? RP) eqn:EP; [exists acc, rest; split; [reflexivity|exact Hsr]|].
    destruct (Z.eqb_spec b LP) as [->|ELP].
    { destruct (IHt rest Htr) as (t & rest' & R & Hs); [lia|]. rewrite R. cbn [bind].
      pose proof (suffix_length _ _ Hs).
      destruct (IHb rest' (acc ++ [t])) as (bs & rest2 & R2 & Hs2);
        [eapply tame_suffix; eassumption|lia|].
      rewrite R2. eexists. eexists. split; [reflexivity|].
      eapply suffix_trans; [exact Hs2|]. eapply suffix_trans; eassumption. }
    destruct (Z.eqb_spec b QUOTE) as [->|EQ].
    { exfalso. apply (proj1 Htr). now left. }
    destruct (read_word_tame f (b :: rest) []) as (s & rest' & R & Hs & Hn & Hlt).
    { apply tame_In; [exact Htr|discriminate]. }
    { cbn [List.length]. lia. }
    rewrite R. cbn [bind].
    assert (Hl' : (List.length rest' < List.length (b :: rest))%nat).
    { apply Hlt. intros c i Hci. inversion Hci; subst. unfold stop.
      rewrite (read_whitespace_head _ _ _ Ew), EP. discriminate. }
    cbn [List.length] in Hl'.
    assert (Hs' : suffix rest' inp) by (eapply suffix_trans; eassumption).
    destruct (IHb rest' (acc ++ [Node s []])) as (bs & rest2 & R2 & Hs2);
      [eapply tame_suffix; eassumption|lia|].
    rewrite R2. eexists. eexists. split; [reflexivity|]. eapply suffix_trans; eassumption.
Qed.
