(** Sections and whole files are read as written. *)
From Coq Require Import Ascii QArith.
From Verif Require Import Base Text_Proofs Qi_Model XflText_Model XflText_Spec XflText_Proofs XflText_Reads.
Close Scope Q_scope.
Open Scope list_scope.
Open Scope qi_scope.
Open Scope string_scope.
Open Scope nat_scope.

Lemma str_length_app a b : String.length (a ++ b) = String.length a + String.length b.
Proof. induction a as [|c a IH]; cbn; [reflexivity|now rewrite IH]. Qed.
(** ** Loops over sections *)
Lemma rloop_ploop {A} (p : P A) (f : A -> call) : forall n db s,
  rloop n (act p f) db s = match ploop n p s with Some (l, r) => ((db ++ map f l)%list, Some r) | None => (db, None) end.
Proof.
  induction n as [|n IH]; intros db s; cbn [rloop ploop]; [cbn; now rewrite app_nil_r|]. unfold act at 1. destruct (p s) as [[a r]|]; [|cbn; now rewrite app_nil_r].
  rewrite IH. destruct (ploop n p r) as [[l r']|] eqn:E; [cbn; now rewrite <- app_assoc|].
  destruct (ploop_total p n r) as (l & r' & X). congruence.
Qed.
Lemma rstar_act {A} (p : P A) (f : A -> call) db s l r : pstar p s = Some (l, r) -> rstar (act p f) db s = ((db ++ map f l)%list, Some r).
Proof. intros H. unfold rstar. rewrite rloop_ploop. unfold pstar in H. now rewrite H. Qed.
Definition reats (p : R) : Prop := forall db s db' r, p db s = (db', Some r) -> String.length r < String.length s.
Lemma rloop_more p : reats p -> forall n m db s, String.length s < n -> String.length s < m -> rloop n p db s = rloop m p db s.
Proof.
  intros E. induction n as [|n IH]; intros [|m] db s Hn Hm; try lia. cbn. destruct (p db s) as [db' [r|]] eqn:Ps; [|reflexivity].
  apply E in Ps. apply IH; lia.
Qed.
Lemma rstar_eq p : reats p -> forall db s,
  rstar p db s = match p db s with (db', Some r) => rstar p db' r | (db', None) => (db', Some s) end.
Proof.
  intros E db s. unfold rstar at 1. cbn [rloop]. destruct (p db s) as [db' [r|]] eqn:Ps; [|reflexivity].
  apply E in Ps. unfold rstar. apply rloop_more; [exact E|lia|lia].
Qed.
Lemma reats_act {A} (p : P A) f : eats p -> reats (act p f).
Proof. intros E db s db' r H. unfold act in H. destruct (p s) as [[a r']|] eqn:Ps; [|discriminate]. injection H as _ <-. now apply E in Ps. Qed.
Lemma reats_alt p q : reats p -> reats q -> reats (ralt p q).
Proof.
  intros A B db s db' r H. unfold ralt in H. destruct (p db s) as [d [x|]] eqn:Ps; [injection H as <- <-; now apply A in Ps|now apply B in H].
Qed.
Lemma reats_nothing p : eats p -> reats (nothing p).
Proof. intros E db s db' r H. unfold nothing in H. destruct (p s) as [[a r']|] eqn:Ps; [|discriminate]. injection H as _ <-. now apply E in Ps. Qed.
Lemma dot_ne nm : ("." ++ nm <> "")%string. Proof. discriminate. Qed.
Lemma end_ne nm : (".end " ++ nm <> "")%string. Proof. discriminate. Qed.
Lemma reats_section nm {A} (p : P A) f : keeps p -> reats (section nm p f).
Proof.
  intros K db s db' r H. unfold section in H. destruct (kw ("." ++ nm) s) as [[u r1]|] eqn:E1; [|discriminate].
  unfold rstar in H. rewrite rloop_ploop in H. destruct (ploop_total p (S (String.length r1)) r1) as (l & r2 & E2). rewrite E2 in H.
  destruct (kw (".end " ++ nm) r2) as [[u' r3]|] eqn:E3; [|discriminate]. injection H as _ <-.
  apply (kw_eats _ (dot_ne nm)) in E1. apply (ploop_length p K) in E2. apply (kw_eats _ (end_ne nm)) in E3. lia.
Qed.
Lemma ralt_l {p q : R} {db s x r} : p db s = (x, Some r) -> ralt p q db s = (x, Some r).
Proof. unfold ralt. now intros ->. Qed.
Lemma ralt_r {p q : R} {db s} : p db s = (db, None) -> ralt p q db s = q db s.
Proof. unfold ralt. now intros ->. Qed.
Lemma act_none {A} (p : P A) f db s : p s = None -> act p f db s = (db, None).
Proof. unfold act. now intros ->. Qed.
Lemma act_some {A} (p : P A) f db s a r : p s = Some (a, r) -> act p f db s = ((db ++ [f a])%list, Some r).
Proof. unfold act. now intros ->. Qed.
Lemma nothing_none p db s : p s = None -> nothing p db s = (db, None).
Proof. unfold nothing. now intros ->. Qed.
Lemma section_none nm {A} (p : P A) f db s : kw ("." ++ nm) s = None -> section nm p f db s = (db, None).
Proof. unfold section. now intros ->. Qed.
Lemma section_some nm {A} (p : P A) f db s r l r' r'' :
  kw ("." ++ nm) s = Some (tt, r) -> pstar p r = Some (l, r') -> kw (".end " ++ nm) r' = Some (tt, r'') ->
  section nm p f db s = ((db ++ map f l)%list, Some r'').
Proof. intros A1 A2 A3. unfold section. rewrite A1. rewrite (rstar_act p f db r l r' A2), A3. reflexivity. Qed.

(** ** Ends of sections *)
Lemma dot_sound nm : sound_key ("." ++ nm). Proof. reflexivity. Qed.
Lemma wide_end : forall c, lower c = "e"%char \/ lower c = "n"%char \/ lower c = "d"%char -> wide_char c = true.
Proof. intros [[|] [|] [|] [|] [|] [|] [|] [|]]; vm_compute; intros [H|[H|H]]; try reflexivity; discriminate. Qed.
Lemma lower_blank : forall c, lower c = " "%char -> c = " "%char. Proof. brute. Qed.
Lemma end_split nm e : keyword (".end " ++ nm) e -> exists a b, e = (String "." a ++ String " " b)%string /\ chars (fun c => wide_char c = true) a /\ keyword nm b /\ String.length a = 3.
Proof.
  intros H. destruct e as [|c0 [|c1 [|c2 [|c3 [|c4 b]]]]]; cbn in H; try tauto. destruct H as (A0 & A1 & A2 & A3 & A4 & Kb).
  apply alike_lower in A0, A1, A2, A3, A4. cbn in A1, A2, A3. apply lower_dot in A0 as ->. apply lower_blank in A4 as ->.
  exists (String c1 (String c2 (String c3 ""))), b. repeat split; try assumption; apply wide_end; auto.
Qed.
Lemma textNC_end nm e ws s t : keyword (".end " ++ nm) e -> written (e :: ws) s t -> exists a b y, textNC s = Some (a, String " " (b ++ y)) /\ keyword nm b.
Proof.
  intros K W. destruct (end_split nm e K) as (a & b & -> & C & Kb & _). apply written_inv in W as (g & r & -> & G & _ & _).
  exists (String "." a), b, r. split; [|exact Kb]. unfold textNC. rewrite append_assoc. unfold tok. rewrite skip_gap; [|exact G|reflexivity].
  apply (many1_reads wide_char (String "." a)); [discriminate|split; [reflexivity|exact C]|reflexivity].
Qed.

Section File.
  Context (value : string -> Q).

  Lemma section_reads nm {A} (p : P A) (f : A -> list string -> Prop) (T : string -> Prop) g db l ws s t :
    eats p -> (forall a w x m, f a w -> written w x m -> T m -> p x = Some (a, m)) -> (forall a w x m, f a w -> written w x m -> T x) ->
    (forall e u m y, keyword (".end " ++ nm) e -> written (e :: u) m y -> T m /\ p m = None) ->
    section_words nm f l ws -> written ws s t -> section nm p g db s = ((db ++ map g l)%list, Some t).
  Proof.
    intros E R St En H W. destruct H as [k l ws e K Al Ke].
    destruct (read_kw _ _ _ _ _ (dot_sound nm) K W) as (r & E1 & W1). destruct (written_app _ _ _ _ W1) as (m & V & V').
    destruct (En e [] m t Ke V') as [Tm Nm].
    assert (E2 := all_star p f T E R St l ws r m Al V Tm Nm).
    destruct (read_kw _ _ _ _ _ (dot_sound ("end " ++ nm)) Ke V') as (r'' & E3 & W3). inversion W3; subst.
    eapply section_some; eassumption.
  Qed.
  Lemma section_reads0 nm {A} (p : P A) (f : A -> list string -> Prop) g db l ws s t :
    eats p -> (forall a w x m, f a w -> written w x m -> p x = Some (a, m)) ->
    (forall e u m y, keyword (".end " ++ nm) e -> written (e :: u) m y -> p m = None) ->
    section_words nm f l ws -> written ws s t -> section nm p g db s = ((db ++ map g l)%list, Some t).
  Proof. intros E R En H W. eapply (section_reads nm p f (fun _ => True)); eauto. Qed.

  Lemma material_end e u m y : keyword ".end material" e -> written (e :: u) m y -> real value m = None /\ material_ value m = None.
  Proof.
    intros K W. split.
    - destruct (end_split "material" e K) as (a & b & -> & C & _ & L). apply written_inv in W as (g & r & -> & G & _ & _).
      unfold real, tok. rewrite skip_gap; [|exact G|reflexivity].
      assert (D : exists c a', a = String c a' /\ lower c = "e"%char).
      { destruct a as [|c a]; [discriminate|]. exists c, a. split; [reflexivity|]. cbn in K. destruct K as (_ & A1 & _). now apply alike_lower in A1. }
      destruct D as (c & a' & -> & Lc). cbn [append]. unfold real_. apply pbind_none. unfold double_text.
      rewrite (@pbind_some _ _ _ _ _ None (String "." (String c ((a' ++ String " " b) ++ r)))); [|reflexivity]. apply pbind_none.
      unfold mantissa. rewrite palt_r; [|reflexivity]. rewrite (@pbind_some _ _ _ _ _ "."%char (String c ((a' ++ String " " b) ++ r))); [|reflexivity].
      apply pbind_none, many1_rejects. revert Lc. clear. revert c. brute.
    - unfold material_. rewrite palt_r; apply pbind_none; refine (kw_rejects _ ".end material" _ _ _ _ (eq_refl : sound_key ".end material") K _ W); intros ?; reflexivity.
  Qed.
  Lemma dq_end nm e u m y : keyword (".end " ++ nm) e -> written (e :: u) m y -> textDQ m = None.
  Proof. intros K W. destruct (end_dot nm e K) as (r & ->). exact (textDQ_no "." r _ _ _ eq_refl eq_refl W). Qed.
  Lemma int_end nm e u m y : keyword (".end " ++ nm) e -> written (e :: u) m y -> int m = None.
  Proof. intros K W. destruct (end_dot nm e K) as (r & ->). exact (int_no "." r _ _ _ eq_refl eq_refl W). Qed.
  Lemma keyword_p : forall c, alike "p" c -> one_of "RCD" c = false /\ eq_char "{" c = false /\ firm c = true.
  Proof. intros c A. apply alike_lower in A. revert A. revert c. intros [[|] [|] [|] [|] [|] [|] [|] [|]]; vm_compute; auto; discriminate. Qed.
  Lemma keyword_v : forall c, alike "v" c -> intstart c = false /\ eq_char " " c = false.
  Proof. intros c A. apply alike_lower in A. revert A. revert c. intros [[|] [|] [|] [|] [|] [|] [|] [|]]; vm_compute; auto; discriminate. Qed.
  Lemma part_end e u m y : keyword ".end part" e -> written (e :: u) m y -> part_ value m = None.
  Proof.
    intros K W. destruct (textNC_end "part" e _ _ _ K W) as (a & b & z & E & Kb). unfold part_. rewrite (pbind_some E).
    destruct b as [|c b]; [contradiction|]. destruct Kb as [A _]. destruct (keyword_p c A) as (O & B & F). cbn [append].
    assert (X : skip (String " " (String c (b ++ z))) = String c (b ++ z)) by (rewrite skip_white by reflexivity; now apply skip_firm).
    rewrite (@pbind_some _ _ _ _ _ None (String " " (String c (b ++ z)))).
    - apply pbind_none. unfold sym, tok. rewrite X. cbn [lit]. now rewrite B.
    - apply popt_none, pbind_none. unfold chr, tok. rewrite X. unfold one. now rewrite O.
  Qed.
  Lemma via_end e u m y : keyword ".end via" e -> written (e :: u) m y -> via_ value m = None.
  Proof.
    intros K W. destruct (textNC_end "via" e _ _ _ K W) as (a & b & z & E & Kb). unfold via_. unfold textNC, tok in E. unfold tok. rewrite (pbind_some E).
    destruct b as [|c b]; [contradiction|]. destruct Kb as [A _]. destruct (keyword_v c A) as (O & B).
    rewrite (pbind_some (blanks_reads "" (String c b ++ z) I B)). apply pbind_none. cbn [append]. now apply int_rejects.
  Qed.

  (** ** Sections that are read over *)
  Definition over (k : string) : P (list ascii) := pstar (pminus (tok (one (fun _ => true))) (kw k)).
  Lemma over_eats k : eats (pminus (tok (one (fun _ => true))) (kw k)).
  Proof. apply eats_minus, eats_tok, eats_one. Qed.
  Lemma plain_firm w : plain_word w -> chars (fun c => firm c = true) w.
  Proof.
    intros [_ C]. revert C. apply chars_impl. intros c [Wc Hc]. unfold firm. apply andb_true_iff. split; apply negb_true_iff.
    - destruct (space c) eqn:E; [|reflexivity]. exfalso. apply Wc. revert E. clear. unfold white, newline. revert c.
      intros [[|] [|] [|] [|] [|] [|] [|] [|]]; vm_compute; intros H; try discriminate; auto 10.
    - apply eq_char_neq. congruence.
  Qed.
  (** the word [u] with [r] behind it does not start the end of the section *)
  Definition no_end (k u r : string) : Prop := forall a b, u = (a ++ b)%string -> b <> "" -> kw k (b ++ r) = None.
  Lemma firm_suffix u : chars (fun c => firm c = true) u -> forall r, u <> "" -> skip (u ++ r) = (u ++ r)%string.
  Proof. destruct u as [|c u]; [contradiction|]. intros [F _] r _. now apply skip_firm. Qed.
  Lemma over_word k u r l t : chars (fun c => firm c = true) u -> no_end k u r -> over k r = Some (l, t) -> exists l', over k (u ++ r) = Some (l', t).
  Proof.
    intros F N E. induction u as [|c u IH]; [exists l; exact E|]. unfold over. rewrite (pstar_eq _ (over_eats k)). unfold pminus at 1.
    rewrite (N "" (String c u) eq_refl) by discriminate. destruct F as [Fc F].
    assert (X : tok (one (fun _ => true)) (String c u ++ r) = Some (c, (u ++ r)%string)) by (unfold tok; rewrite firm_suffix; [reflexivity|split; assumption|discriminate]).
    rewrite X. destruct IH as (l' & E'); [exact F|intros a b Eu Nb; apply (N (String c a) b); [cbn; now rewrite Eu|exact Nb]|].
    unfold over in E'. rewrite E'. eauto.
  Qed.
  Lemma gap_skip g x : gap g -> skip (g ++ x) = skip x.
  Proof.
    intros G. induction G as [|c g Wc G IH|b c g B N G IH]; [reflexivity| |].
    - cbn [append]. rewrite skip_white; [exact IH|now apply white_space].
    - cbn [append]. unfold skip at 1. cbn [skip_from]. change (space "#") with false. change (eq_char "#" "#") with true. cbv iota.
      rewrite append_assoc. cbn [append]. rewrite skip_comment; assumption.
  Qed.
  Lemma over_gap k g x l t : gap g -> x <> t -> over k x = Some (l, t) -> over k (g ++ x) = Some (l, t).
  Proof.
    intros G D E. unfold over in *. rewrite (pstar_eq _ (over_eats k)) in *. unfold pminus in *. unfold tok, kw in *. unfold tok in *. rewrite (gap_skip g x G).
    destruct (nocase k (skip x)); [injection E as _ E; contradiction|]. destruct (one (fun _ => true) (skip x)) as [[a r]|]; [exact E|]. injection E as _ E. contradiction.
  Qed.
  Lemma over_words k (f : string -> Prop) :
    (forall w g r, f w -> apart w r -> gap g -> no_end k w r) -> (forall w, f w -> w <> "" /\ chars (fun c => firm c = true) w) ->
    forall ws s t, Forall f ws -> written ws s t -> kw k t <> None -> exists l, over k s = Some (l, t).
  Proof.
    intros N F ws. induction ws as [|w ws IH]; intros s t Fo W K.
    - inversion W; subst. exists []. unfold over. rewrite (pstar_eq _ (over_eats k)). unfold pminus. destruct (kw k t); [reflexivity|contradiction].
    - apply written_inv in W as (g & r & -> & G & A & W). inversion Fo as [|? ? Fw Fws]; subst. destruct (IH r t Fws W K) as (l & E).
      destruct (F w Fw) as [Ne Fi]. destruct (over_word k w r l t Fi (N w g r Fw A G) E) as (l' & E'). exists l'. apply over_gap; [exact G| |exact E'].
      intros X. assert (Y : String.length t <= String.length r) by (apply (keeps_star _ (eats_keeps _ (over_eats k))) in E; exact E).
      rewrite <- X in Y. destruct w as [|c w]; [contradiction|]. cbn in Y. rewrite str_length_app in Y. lia.
  Qed.

  Lemma lower_alike a b : lower b = lower a -> alike a b.
  Proof.
    assert (Lt : forall c, nat_of_ascii c < 256) by apply nat_ascii_bounded.
    unfold lower, between, code, alike. destruct ((65 <=? nat_of_ascii b) && (nat_of_ascii b <=? 90)) eqn:B; destruct ((65 <=? nat_of_ascii a) && (nat_of_ascii a <=? 90)) eqn:A; intros H.
    - left. apply (f_equal nat_of_ascii) in H. apply andb_true_iff in A as [A1 A2], B as [B1 B2]. rewrite Nat.leb_le in A1, A2, B1, B2.
      rewrite !nat_ascii_embedding in H by lia. rewrite <- (ascii_nat_embedding a), <- (ascii_nat_embedding b). f_equal. lia.
    - right. apply andb_true_iff in B as [B1 B2]. rewrite Nat.leb_le in B1, B2. exists (nat_of_ascii b). split; [lia|]. right. split; [congruence|symmetry; apply ascii_nat_embedding].
    - right. apply andb_true_iff in A as [A1 A2]. rewrite Nat.leb_le in A1, A2. exists (nat_of_ascii a). split; [lia|]. left. split; [symmetry; apply ascii_nat_embedding|exact H].
    - now left.
  Qed.
  Lemma nocase_inv a k s x : nocase (String a k) s = Some x -> exists c s', s = String c s' /\ lower c = lower a /\ nocase k s' = Some x.
  Proof.
    destruct s as [|c s]; [discriminate|]. cbn. destruct (eq_char (lower a) (lower c)) eqn:E; [|discriminate]. apply eq_char_eq in E. eauto 10.
  Qed.
  Lemma stop_letter c s : stops (String c s) -> lower c = "e"%char \/ lower c = "n"%char \/ lower c = "d"%char -> False.
  Proof. intros [[->|[->|[->|[->|[->| ->]]]]]|[->|[->|[->| ->]]]] [H|[H|H]]; discriminate. Qed.
  Lemma firm_apart w r : chars (fun c => firm c = true) w -> apart w r -> w = "{" \/ w = "}" \/ stops r.
  Proof.
    intros F [->|[->|[(u & c & -> & N)|S]]]; auto. apply chars_app in F as [_ [F _]]. destruct N as [->| ->]; discriminate.
  Qed.
  Lemma kw_firm k b r : chars (fun c => firm c = true) b -> b <> "" -> kw k (b ++ r) = nocase k (b ++ r).
  Proof. intros F N. unfold kw, tok. now rewrite firm_suffix. Qed.
  Lemma end_chain (w r : string) k' a b x : chars (fun c => firm c = true) w -> apart w r -> w = (a ++ b)%string -> b <> "" ->
    nocase (".end" ++ k') (b ++ r) = Some x -> exists b1 b2, b = (b1 ++ b2)%string /\ keyword ".end" b1 /\ nocase k' (b2 ++ r) = Some x.
  Proof.
    intros F A E N H. assert (Fb : chars (fun c => firm c = true) b) by (rewrite E in F; now apply chars_app in F).
    apply nocase_inv in H as (c0 & s0 & E0 & L0 & H). apply nocase_inv in H as (c1 & s1 & -> & L1 & H). apply nocase_inv in H as (c2 & s2 & -> & L2 & H).
    apply nocase_inv in H as (c3 & s3 & -> & L3 & H). cbn [lower] in L0, L1, L2, L3.
    assert (S : stops r).
    { destruct (firm_apart w r F A) as [X|[X|X]]; [..|exact X].
      - rewrite X in E. destruct a as [|c [|c' a]]; [|injection E as _ E; symmetry in E; contradiction|discriminate]. cbn in E. rewrite <- E in E0. cbn in E0. injection E0 as <- _. discriminate.
      - rewrite X in E. destruct a as [|c [|c' a]]; [|injection E as _ E; symmetry in E; contradiction|discriminate]. cbn in E. rewrite <- E in E0. cbn in E0. injection E0 as <- _. discriminate. }
    destruct b as [|d0 b]; [contradiction|]. cbn in E0. injection E0 as -> E0.
    destruct b as [|d1 b]; [cbn in E0; rewrite E0 in S; destruct (stop_letter _ _ S); auto|]. cbn in E0. injection E0 as -> E0.
    destruct b as [|d2 b]; [cbn in E0; rewrite E0 in S; destruct (stop_letter _ _ S); auto|]. cbn in E0. injection E0 as -> E0.
    destruct b as [|d3 b]; [cbn in E0; rewrite E0 in S; destruct (stop_letter _ _ S); auto|]. cbn in E0. injection E0 as -> E0.
    exists (String c0 (String c1 (String c2 (String c3 "")))), b. split; [reflexivity|]. split; [|now rewrite E0].
    repeat split; apply lower_alike; assumption.
  Qed.
  Lemma skipped_no_end nm w r : plain_word w -> ~ ends_in ".end" w -> apart w r -> no_end (".end " ++ nm) w r.
  Proof.
    intros Pw Ne A a b E N. assert (F := plain_firm w Pw). assert (Fb : chars (fun c => firm c = true) b) by (rewrite E in F; now apply chars_app in F).
    rewrite kw_firm by assumption. destruct (nocase (".end " ++ nm) (b ++ r)) as [x|] eqn:X; [exfalso|reflexivity].
    destruct (end_chain w r (" " ++ nm) a b x F A E N X) as (b1 & b2 & -> & K & H). apply nocase_inv in H as (c & s' & E2 & L & _). apply lower_blank in L as ->.
    destruct b2 as [|d b2].
    - apply Ne. exists a, b1. rewrite append_empty in E. now split.
    - cbn in E2. injection E2 as -> _. apply chars_app in Fb as [_ [Fc _]]. discriminate.
  Qed.
  Lemma unknown_no_end w r : plain_word w -> ~ has ".end" w -> apart w r -> no_end ".end" w r.
  Proof.
    intros Pw Ne A a b E N. assert (F := plain_firm w Pw). assert (Fb : chars (fun c => firm c = true) b) by (rewrite E in F; now apply chars_app in F).
    rewrite kw_firm by assumption. destruct (nocase ".end" (b ++ r)) as [x|] eqn:X; [exfalso|reflexivity].
    destruct (end_chain w r "" a b x F A E N X) as (b1 & b2 & -> & K & _). apply Ne. exists a, b1, b2. now split.
  Qed.
  Lemma skipped_reads nm k ws e s t : keyword ("." ++ nm) k -> Forall (fun w => plain_word w /\ ~ ends_in ".end" w) ws -> keyword (".end " ++ nm) e ->
    written (k :: ws ++ [e])%list s t -> skipped nm s = Some (tt, t).
  Proof.
    intros K Fo Ke W. unfold skipped. destruct (read_kw _ _ _ _ _ (dot_sound nm) K W) as (r & E1 & W1). rewrite (pbind_some E1).
    destruct (written_app _ _ _ _ W1) as (m & V & V'). destruct (read_kw _ _ _ _ _ (dot_sound ("end " ++ nm)) Ke V') as (r' & E2 & W2). inversion W2; subst.
    destruct (over_words (".end " ++ nm) (fun w => plain_word w /\ ~ ends_in ".end" w)) with (ws := ws) (s := r) (t := m) as (l & E3).
    - intros w g y [Pw Nw] A _. now apply skipped_no_end.
    - intros w [Pw _]. split; [apply Pw|now apply plain_firm].
    - exact Fo.
    - exact V.
    - change (".end " ++ nm) with ("." ++ ("end " ++ nm)). rewrite E2. discriminate.
    - unfold over in E3. rewrite (pbind_some E3). exact E2.
  Qed.

  (** ** Items *)
  Lemma skipped_eats nm : eats (skipped nm).
  Proof.
    apply eats_bind; [apply kw_eats, dot_ne|]. intros _. apply keeps_bind; [apply keeps_star, eats_keeps, over_eats|]. intros _. apply eats_keeps, kw_eats, end_ne.
  Qed.
  Lemma unknown_eats : eats unknown.
  Proof.
    apply eats_bind; [apply sym_eats; discriminate|]. intros _. apply keeps_bind; [apply keeps_not|]. intros _. apply keeps_bind; [apply eats_keeps, textNC_eats|]. intros n.
    apply keeps_bind; [apply keeps_star, eats_keeps, over_eats|]. intros _. apply keeps_bind; [apply eats_keeps, kw_eats; discriminate|]. intros _.
    apply keeps_bind; [apply keeps_tok, keeps_lit|]. intros _. apply keeps_ret.
  Qed.
  Lemma board_keeps : keeps (board_ value).
  Proof.
    assert (Kk : forall k, k <> "" -> keeps (kw k)) by (intros k H; now apply eats_keeps, kw_eats).
    unfold board_. apply keeps_alt; [|apply keeps_alt; [|apply keeps_alt]]; (apply keeps_bind; [apply Kk; discriminate|intros _]).
    - apply keeps_bind; [apply polygon_keeps|intros ?; apply keeps_ret].
    - apply keeps_bind; [apply composite_keeps|intros ?; apply keeps_ret].
    - apply keeps_bind; [apply eats_keeps, int_eats|intros ?]. apply keeps_bind; [apply eats_keeps, point_eats|intros ?].
      apply keeps_bind; [apply eats_keeps, real_eats|intros ?]. apply keeps_bind; [apply eats_keeps, chr_eats|intros ?; apply keeps_ret].
    - apply keeps_bind; [apply eats_keeps, int_eats|intros ?]. apply keeps_bind; [apply eats_keeps, point_eats|intros ?].
      apply keeps_bind; [apply eats_keeps, chr_eats|intros ?]. apply keeps_bind; [apply eats_keeps, real_eats|intros ?; apply keeps_ret].
  Qed.
  Lemma board_eats : reats (board_section value).
  Proof.
    intros db s db' r H. unfold board_section in H. destruct (kw ".board_geom" s) as [[u r1]|] eqn:E1; [|discriminate].
    apply kw_eats in E1; [|discriminate].
    assert (X : exists d r2, match board_ value r1 with Some (b, r0) => ((db ++ [CBoard b])%list, r0) | None => (db, r1) end = (d, r2) /\ String.length r2 <= String.length r1).
    { destruct (board_ value r1) as [[b r0]|] eqn:E2; [apply board_keeps in E2|]; eauto. }
    destruct X as (d & r2 & X & L). rewrite X in H. destruct (kw ".end board_geom" r2) as [[u' r3]|] eqn:E3; [|discriminate]. injection H as _ <-.
    apply kw_eats in E3; [|discriminate]. lia.
  Qed.
  Lemma others_eats : reats (others value).
  Proof.
    unfold others. repeat apply reats_alt; apply reats_act; (apply eats_bind; [apply kw_eats; discriminate|intros _]).
    - apply keeps_bind; [apply eats_keeps, int_eats|intros ?]. apply keeps_bind; [apply eats_keeps, int_eats|intros ?; apply keeps_ret].
    - apply eats_keeps, text_eats.
    - apply eats_keeps, text_eats.
    - apply eats_keeps, real_eats.
  Qed.
  Lemma item_eats : reats (item value).
  Proof.
    unfold item. apply reats_alt; [apply others_eats|]. repeat apply reats_alt; try (apply reats_nothing, skipped_eats); try (apply reats_section, eats_keeps).
    - apply material_eats.
    - apply layer_eats.
    - apply shape_eats.
    - apply board_eats.
    - apply padstack_eats.
    - apply via_eats.
    - apply part_eats.
    - apply net_eats.
    - apply route_eats.
    - apply reats_act, unknown_eats.
    - apply reats_act, textEOL_eats.
  Qed.

  (** no item starts with a keyword that is none of the known ones *)
  Lemma others_none db s : kw ".version" s = None -> kw ".unit" s = None -> kw ".design_type" s = None -> kw ".scale" s = None -> others value db s = (db, None).
  Proof.
    intros A B C D. unfold others. rewrite ralt_r; [|apply act_none; now apply pbind_none]. rewrite ralt_r; [|apply act_none; now apply pbind_none].
    rewrite ralt_r; [|apply act_none; now apply pbind_none]. apply act_none. now apply pbind_none.
  Qed.
  Lemma skipped_none nm s : kw ("." ++ nm) s = None -> skipped nm s = None.
  Proof. intros H. unfold skipped. now rewrite (pbind_none H). Qed.
  Lemma board_none db s : kw ".board_geom" s = None -> board_section value db s = (db, None).
  Proof. intros H. unfold board_section. now rewrite H. Qed.
  Ltac kwx W := lazymatch type of W with
    | written (?x :: _) _ _ => lazymatch goal with
       | H : keyword ?k0 x |- _ => refine (kw_rejects _ k0 x _ _ _ (dot_sound _) H _ W); intros ?; reflexivity
       end
    end.
  Ltac over_alt W := rewrite ralt_r; [|first [apply others_none; kwx W | apply section_none; kwx W | apply nothing_none, skipped_none; kwx W | apply board_none; kwx W]].

  Lemma unknown_reads n ws e s t : free_name n -> ~ (exists r, n = ("end" ++ r)%string) -> Forall (fun w => plain_word w /\ ~ has ".end" w) ws -> keyword ".end" e ->
    written ((("." ++ n)%string :: ws ++ [e; n])%list) s t -> unknown s = Some (n, t).
  Proof.
    intros Fn Ne Fo Ke W. apply written_inv in W as (g & r & -> & G & A & W). unfold unknown.
    assert (Q : quiet r) by (eapply plain_apart; [|exact A]; split; [reflexivity|now apply free_plain]).
    destruct (free_start n Fn) as (c & n' & En & Wc). assert (Fc := wide_firm c Wc).
    assert (Sk : skip (n ++ r) = (n ++ r)%string) by (rewrite En; now apply skip_firm).
    rewrite (@pbind_some _ _ _ _ _ tt (n ++ r)%string).
    2:{ unfold sym, tok. rewrite append_assoc. rewrite skip_gap; [reflexivity|exact G|reflexivity]. }
    rewrite (@pbind_some _ _ _ _ _ tt (n ++ r)%string).
    2:{ unfold pnot. destruct (sym "end" (n ++ r)) as [x|] eqn:E; [|reflexivity]. exfalso. apply Ne. unfold sym, tok in E. rewrite Sk in E.
        assert (I : forall d k y z, lit (String d k) y = Some z -> exists y', y = String d y' /\ lit k y' = Some z).
        { intros d k y z X. destruct y as [|d' y]; [discriminate|]. cbn in X. destruct (eq_char d d') eqn:Ed; [|discriminate]. apply eq_char_eq in Ed as ->. eauto. }
        apply I in E as (y1 & X1 & E). apply I in E as (y2 & -> & E). apply I in E as (y3 & -> & E).
        rewrite En in X1. cbn in X1. injection X1 as -> X1. assert (Qr : forall d y, r = String d y -> loud d = true -> False) by (intros d y -> L; cbn in Q; congruence).
        destruct n' as [|d1 n']; [cbn in X1; destruct (Qr _ _ X1 eq_refl)|]. cbn in X1. injection X1 as -> X1.
        destruct n' as [|d2 n']; [cbn in X1; destruct (Qr _ _ X1 eq_refl)|]. cbn in X1. injection X1 as -> X1. exists n'. exact En. }
    rewrite (@pbind_some _ _ _ _ _ n r).
    2:{ unfold textNC, tok. rewrite Sk. now apply free_raw. }
    destruct (written_app _ _ _ _ W) as (m & V & V'). destruct (read_kw ".end" _ _ _ _ eq_refl Ke V') as (r' & E2 & W2).
    destruct (over_words ".end" (fun w => plain_word w /\ ~ has ".end" w)) with (ws := ws) (s := r) (t := m) as (l & E3).
    - intros w g' y [Pw Nw] A' _. now apply unknown_no_end.
    - intros w [Pw _]. split; [apply Pw|now apply plain_firm].
    - exact Fo.
    - exact V.
    - rewrite E2. discriminate.
    - unfold over in E3. rewrite (pbind_some E3), (pbind_some E2). apply written_inv in W2 as (g2 & r2 & -> & G2 & A2 & W2). inversion W2; subst r2.
      rewrite (@pbind_some _ _ _ _ _ tt t); [reflexivity|]. unfold sym, tok. rewrite skip_gap; [|exact G2|rewrite En; exact Fc].
      clear. induction n as [|d n IH]; [reflexivity|]. cbn. now rewrite eq_char_refl.
  Qed.
  Lemma known_rejects k n ws s t : chars (fun c => loud c = true) k -> free_name n -> ~ starts_with k n -> written (("." ++ n)%string :: ws) s t -> kw ("." ++ k) s = None.
  Proof.
    intros Lk Fn Ns W. apply written_inv in W as (g & r & -> & G & A & _). assert (Q : quiet r) by (eapply plain_apart; [|exact A]; split; [reflexivity|now apply free_plain]).
    unfold kw, tok. rewrite append_assoc. rewrite skip_gap; [|exact G|reflexivity]. cbn [append nocase]. change (eq_char (lower ".") (lower ".")) with true. cbv iota.
    destruct (nocase k (n ++ r)) as [x|] eqn:E; [exfalso|reflexivity]. apply Ns. clear - Lk Q E. revert n E. induction k as [|a k IH]; intros n E.
    - exists "", n. split; [reflexivity|exact I].
    - destruct Lk as [La Lk]. apply nocase_inv in E as (c & s' & Es & Lc & E). destruct n as [|d n].
      + cbn in Es. rewrite Es in Q. cbn in Q. exfalso. assert (X : loud c = loud a).
        { assert (Y : forall y, loud (lower y) = loud y) by brute. now rewrite <- (Y c), <- (Y a), Lc. }
        congruence.
      + cbn in Es. injection Es as -> <-. destruct (IH Lk n E) as (u & v & -> & Ku). exists (String c u), v. split; [reflexivity|]. split; [now apply lower_alike|exact Ku].
  Qed.

  Lemma item_reads calls ws s t db : entry_words value calls ws -> written ws s t -> item value db s = ((db ++ calls)%list, Some t).
  Proof.
    intros H W. unfold item. destruct H as [k a wa b wb K Ha Hb|k u K Hu|k u K Hu|k q w K Hq|l ws Hl|l ws Hl|l ws Hl|k b ws e K Hb Ke|k e K Ke|l ws Hl|l ws Hl|l ws Hl|l ws Hl|l ws Hl|nm k ws e Hn K Fo Ke|n ws e Fn Ne Kn Fo Ke].
    - apply ralt_l. unfold others. apply ralt_l. apply (act_some _ (fun x => CVersion (fst x) (snd x)) db s (a, b) t).
      destruct (read_kw ".version" _ _ _ _ eq_refl K W) as (r & E1 & W1). destruct (read_int _ _ _ _ _ Ha W1) as (r2 & E2 & W2). destruct (read_int _ _ _ _ _ Hb W2) as (r3 & E3 & W3).
      inversion W3; subst. rewrite (pbind_some E1), (pbind_some E2), (pbind_some E3). reflexivity.
    - apply ralt_l. unfold others. rewrite ralt_r; [|apply act_none, pbind_none; kwx W]. apply ralt_l. apply act_some.
      destruct (read_kw ".unit" _ _ _ _ eq_refl K W) as (r & E1 & W1). destruct (read_name _ _ _ _ Hu W1) as (r2 & E2 & W2). inversion W2; subst. now rewrite (pbind_some E1).
    - apply ralt_l. unfold others. do 2 (rewrite ralt_r; [|apply act_none, pbind_none; kwx W]). apply ralt_l. apply act_some.
      destruct (read_kw ".design_type" _ _ _ _ eq_refl K W) as (r & E1 & W1). destruct (read_name _ _ _ _ Hu W1) as (r2 & E2 & W2). inversion W2; subst. now rewrite (pbind_some E1).
    - apply ralt_l. unfold others. do 3 (rewrite ralt_r; [|apply act_none, pbind_none; kwx W]). apply act_some.
      destruct (read_kw ".scale" _ _ _ _ eq_refl K W) as (r & E1 & W1). destruct (read_num value _ _ _ _ _ Hq W1) as (r2 & E2 & W2). inversion W2; subst. now rewrite (pbind_some E1).
    - assert (S := section_reads "material" _ _ (fun m => real value m = None) CMaterial db l ws s t (material_eats value) (material_reads value) (material_start value) material_end Hl W).
      destruct Hl as [k l ws e K _ _]. over_alt W. now apply ralt_l.
    - assert (S := section_reads0 "layer" _ _ CLayer db l ws s t (layer_eats value) (layer_reads value) (fun e u m y Ke We => pbind_none (dq_end "layer" e u m y Ke We)) Hl W).
      destruct Hl as [k l ws e K _ _]. do 3 over_alt W. now apply ralt_l.
    - assert (S := section_reads0 "shape" _ _ CShape db l ws s t (shape_eats value) (shape_reads value) (fun e u m y Ke We => pbind_none (int_end "shape" e u m y Ke We)) Hl W).
      destruct Hl as [k l ws e K _ _]. do 4 over_alt W. now apply ralt_l.
    - do 5 over_alt W. apply ralt_l. unfold board_section. destruct (read_kw ".board_geom" _ _ _ _ eq_refl K W) as (r & E1 & W1). rewrite E1.
      destruct (written_app _ _ _ _ W1) as (m & V & V'). rewrite (board_reads value _ _ _ _ Hb V).
      destruct (read_kw ".end board_geom" _ _ _ _ eq_refl Ke V') as (r' & E2 & W2). inversion W2; subst. now rewrite E2.
    - do 5 over_alt W. apply ralt_l. unfold board_section. destruct (read_kw ".board_geom" _ _ _ _ eq_refl K W) as (r & E1 & W1). rewrite E1.
      assert (N : board_ value r = None).
      { unfold board_. repeat rewrite palt_r; apply pbind_none; clear W; kwx W1. }
      rewrite N. destruct (read_kw ".end board_geom" _ _ _ _ eq_refl Ke W1) as (r' & E2 & W2). inversion W2; subst. now rewrite E2, app_nil_r.
    - assert (S := section_reads0 "padstack" _ _ CPadstack db l ws s t (padstack_eats value) (padstack_reads value) (fun e u m y Ke We => pbind_none (int_end "padstack" e u m y Ke We)) Hl W).
      destruct Hl as [k l ws e K _ _]. do 6 over_alt W. now apply ralt_l.
    - assert (S := section_reads0 "via" _ _ CVia db l ws s t (via_eats value) (via_reads value) via_end Hl W).
      destruct Hl as [k l ws e K _ _]. do 7 over_alt W. now apply ralt_l.
    - assert (S := section_reads0 "part" _ _ CPart db l ws s t (part_eats value) (part_reads value) part_end Hl W).
      destruct Hl as [k l ws e K _ _]. do 8 over_alt W. now apply ralt_l.
    - assert (S := section_reads0 "netlist" _ _ CNet db l ws s t (net_eats value) (net_reads value) (fun e u m y Ke We => pbind_none (dq_end "netlist" e u m y Ke We)) Hl W).
      destruct Hl as [k l ws e K _ _]. do 11 over_alt W. now apply ralt_l.
    - assert (S := section_reads0 "route" _ _ CRoute db l ws s t (route_eats value) (route_reads value) (fun e u m y Ke We => pbind_none (dq_end "route" e u m y Ke We)) Hl W).
      destruct Hl as [k l ws e K _ _]. do 12 over_alt W. now apply ralt_l.
    - assert (S := skipped_reads nm k ws e s t K Fo Ke W). rewrite app_nil_r.
      assert (S' : nothing (skipped nm) db s = (db, Some t)) by (unfold nothing; now rewrite S).
      destruct Hn as [<-|[<-|[<-|[]]]].
      + rewrite ralt_r; [|apply others_none; kwx W]. rewrite ralt_r; [now apply ralt_l|].
        (* the section of materials starts with this keyword, but does not go on *)
        assert (X : exists k1 k2, k = (k1 ++ String "_" k2)%string /\ keyword ".material" k1).
        { clear - K. cbn in K. do 10 (destruct k as [|? k]; [exfalso; revert K; cbn; tauto|]). destruct K as (A0 & A1 & A2 & A3 & A4 & A5 & A6 & A7 & A8 & A9 & _).
          assert (U : a8 = "_"%char) by (apply alike_lower in A9; revert A9; revert a8; brute). subst a8.
          exists (String a (String a0 (String a1 (String a2 (String a3 (String a4 (String a5 (String a6 (String a7 ""))))))))), k. split; [reflexivity|]. repeat split; assumption. }
        destruct X as (k1 & k2 & -> & K1). apply written_inv in W as (g & r & -> & G & _ & _).
        assert (E1 : kw ".material" (g ++ (k1 ++ String "_" k2) ++ r) = Some (tt, String "_" (k2 ++ r))).
        { unfold kw, tok. rewrite append_assoc. destruct (keyword_start ".material" k1 eq_refl K1) as (c & k1' & E & Fc & _). rewrite skip_gap; [|exact G|rewrite E; exact Fc].
          cbn [append]. now apply nocase_reads, keyword_fold. }
        assert (N : forall a k', eq_char (lower a) "_" = false -> kw (String a k') (String "_" (k2 ++ r)) = None).
        { intros a k' Ha. unfold kw, tok. rewrite skip_firm by reflexivity. cbn [nocase]. change (lower "_") with "_"%char. now rewrite Ha. }
        assert (E2 : pstar (material_ value) (String "_" (k2 ++ r)) = Some ([], String "_" (k2 ++ r))).
        { rewrite (pstar_eq _ (material_eats value)). unfold material_. rewrite palt_r; rewrite pbind_none; try reflexivity; now apply N. }
        unfold section. change ("." ++ "material") with ".material". rewrite E1, (rstar_act _ _ _ _ _ _ E2). cbn [map]. rewrite app_nil_r.
        change (".end " ++ "material") with (String "." "end material"). rewrite N by reflexivity. reflexivity.
      + do 9 over_alt W. now apply ralt_l.
      + do 10 over_alt W. now apply ralt_l.
    - assert (Rj : forall k, In k known -> kw ("." ++ k) s = None).
      { intros k Hk. rewrite Forall_forall in Kn. eapply known_rejects; [|exact Fn|exact (Kn k Hk)|exact W].
        assert (X : forallb (fun k => (fix go s := match s with "" => true | String c r => loud c && go r end) k) known = true) by reflexivity.
        rewrite forallb_forall in X. specialize (X k Hk). clear - X. induction k as [|c k IH]; [exact I|]. apply andb_true_iff in X as [A B]. split; [exact A|now apply IH]. }
      rewrite ralt_r; [|apply others_none; apply Rj; cbn; tauto].
      do 12 (rewrite ralt_r; [|first [apply section_none; apply Rj; cbn; tauto | apply nothing_none, skipped_none; apply Rj; cbn; tauto | apply board_none; apply (Rj "board_geom"); cbn; tauto]]).
      apply ralt_l. apply act_some. eapply unknown_reads; eassumption.
  Qed.

  Lemma item_stops db t : gap t -> item value db t = (db, None).
  Proof.
    intros G. assert (S : skip t = "") by (rewrite <- (append_empty t); now apply skip_gap).
    assert (K : forall k, k <> "" -> kw k t = None) by (intros [|c k] H; [contradiction|]; unfold kw, tok; now rewrite S).
    assert (Sy : forall k, k <> "" -> sym k t = None) by (intros [|c k] H; [contradiction|]; unfold sym, tok; now rewrite S).
    unfold item. rewrite ralt_r; [|apply others_none; apply K; discriminate].
    do 12 (rewrite ralt_r; [|first [apply section_none; apply K; discriminate | apply nothing_none, skipped_none; apply K; discriminate | apply board_none; apply K; discriminate]]).
    rewrite ralt_r; [|apply act_none; unfold unknown; apply pbind_none; apply Sy; discriminate]. apply act_none. unfold textEOL, tok. now rewrite S.
  Qed.

  Lemma file_reads calls ws s t : file_words value calls ws -> written ws s t -> gap t -> read value s = (true, calls).
  Proof.
    intros (entries & -> & Al) W G. unfold read.
    assert (X : forall db, rstar (item value) db s = ((db ++ List.concat entries)%list, Some t)).
    { clear - Al W G. revert s W. induction Al as [|c w l wl Hc Al IH]; intros s W db; rewrite (rstar_eq _ item_eats).
      - inversion W; subst. rewrite (item_stops db t G). cbn. now rewrite app_nil_r.
      - destruct (written_app _ _ _ _ W) as (m & W1 & W2). rewrite (item_reads _ _ _ _ db Hc W1), (IH m W2). cbn [List.concat]. now rewrite app_assoc. }
    rewrite (X []). rewrite <- (append_empty t), (skip_gap t "" G I). reflexivity.
  Qed.
End File.
