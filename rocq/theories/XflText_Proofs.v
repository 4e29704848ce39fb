(** Lemmas for the reading of XFL files. *)
From Coq Require Import Ascii QArith.
From Verif Require Import Base Text_Proofs Qi_Model XflText_Model XflText_Spec.
Close Scope Q_scope.
Open Scope string_scope.
Open Scope nat_scope.
Open Scope list_scope.
Open Scope qi_scope.
Open Scope string_scope.
Open Scope nat_scope.

Ltac brute := let c := fresh "c" in intros c; destruct c as [[|] [|] [|] [|] [|] [|] [|] [|]]; vm_compute; intros; try reflexivity; try discriminate; auto.

(** ** Characters *)
Definition firm (c : ascii) : bool := negb (space c) && negb (eq_char "#" c).
Definition numstart (c : ascii) : bool := digit c || one_of "+-." c.
Definition intstart (c : ascii) : bool := digit c || one_of "+-" c.
(** nothing of a number or a name *)
Definition loud (c : ascii) : bool := wide_char c || eq_char "+" c.

Lemma eq_char_refl c : eq_char c c = true. Proof. apply Ascii.eqb_refl. Qed.
Lemma eq_char_eq a c : eq_char a c = true <-> a = c. Proof. apply Ascii.eqb_eq. Qed.
Lemma eq_char_neq a c : eq_char a c = false <-> a <> c. Proof. apply Ascii.eqb_neq. Qed.
Lemma newline_line_end c : newline c <-> line_end c = true.
Proof.
  split; [intros [->| ->]; reflexivity|]. unfold newline. revert c. intros [[|] [|] [|] [|] [|] [|] [|] [|]]; vm_compute; intros H; try discriminate; auto.
Qed.
Lemma white_space c : white c -> space c = true.
Proof. intros [->|[->|[->|[->|[->| ->]]]]]; reflexivity. Qed.
Lemma is_digit_digit c : is_digit c -> digit c = true.
Proof. unfold is_digit, range, digit, between, code. change (nat_of_ascii "0") with 48. change (nat_of_ascii "9") with 57. intros H. apply andb_true_iff. now rewrite !Nat.leb_le. Qed.
Lemma is_letter_letter c : is_letter c -> letter c = true.
Proof.
  unfold is_letter, range, letter, between, code. intros [H|[H| ->]]; [..|reflexivity].
  - change (nat_of_ascii "a") with 97 in H. change (nat_of_ascii "z") with 122 in H.
    replace ((97 <=? nat_of_ascii c) && (nat_of_ascii c <=? 122)) with true; [now rewrite orb_true_r|]. symmetry. apply andb_true_iff. now rewrite !Nat.leb_le.
  - change (nat_of_ascii "A") with 65 in H. change (nat_of_ascii "Z") with 90 in H.
    replace ((65 <=? nat_of_ascii c) && (nat_of_ascii c <=? 90)) with true; [reflexivity|]. symmetry. apply andb_true_iff. now rewrite !Nat.leb_le.
Qed.
Lemma digit_wide : forall c, digit c = true -> wide_char c = true. Proof. brute. Qed.
Lemma name_wide : forall c, name_char c = true -> wide_char c = true. Proof. brute. Qed.
Lemma letter_wide : forall c, letter c = true -> wide_char c = true. Proof. brute. Qed.
Lemma wide_firm : forall c, wide_char c = true -> firm c = true. Proof. brute. Qed.
Lemma digit_firm : forall c, digit c = true -> firm c = true. Proof. brute. Qed.
Lemma letter_firm : forall c, letter c = true -> firm c = true. Proof. brute. Qed.
Lemma numstart_firm : forall c, numstart c = true -> firm c = true. Proof. brute. Qed.
Lemma intstart_numstart c : intstart c = true -> numstart c = true.
Proof. unfold intstart, numstart. revert c. brute. Qed.
Lemma digit_sign : forall c, digit c = true -> one_of "+-" c = false. Proof. brute. Qed.
Lemma quiet_wide c : loud c = false -> wide_char c = false.
Proof. unfold loud. intros H. now apply orb_false_iff in H. Qed.
Lemma quiet_name c : loud c = false -> name_char c = false.
Proof. intros H. apply quiet_wide in H. unfold wide_char in H. now apply orb_false_iff in H. Qed.
Lemma quiet_digit : forall c, loud c = false -> digit c = false. Proof. brute. Qed.
Lemma quiet_point : forall c, loud c = false -> eq_char "." c = false. Proof. brute. Qed.
Lemma quiet_exp : forall c, loud c = false -> one_of "eE" c = false. Proof. brute. Qed.
Lemma exp_digit : forall c, one_of "eE" c = true -> digit c = false. Proof. brute. Qed.
Lemma exp_point : forall c, one_of "eE" c = true -> eq_char "." c = false. Proof. brute. Qed.

(** ** Texts that end a word *)
Definition quiet (s : string) : Prop := match s with "" => True | String c _ => loud c = false end.
Lemma stops_quiet s : stops s -> quiet s.
Proof. destruct s as [|c s]; [easy|]. intros [[->|[->|[->|[->|[->| ->]]]]]|[->|[->|[->| ->]]]]; reflexivity. Qed.
(** words inside which nothing looks like a line or a bracket *)
Definition plain (w : string) : Prop := chars (fun c => loud c = true) w.
Lemma chars_app f a b : chars f (a ++ b) <-> chars f a /\ chars f b.
Proof. induction a as [|c a IH]; cbn; [tauto|]. rewrite IH. tauto. Qed.
Lemma chars_impl (f g : ascii -> Prop) : (forall c, f c -> g c) -> forall w, chars f w -> chars g w.
Proof. intros I. induction w as [|c w IH]; cbn; [easy|]. intros [A B]. auto. Qed.
Lemma plain_apart w s : plain w -> apart w s -> quiet s.
Proof.
  intros Pl [->|[->|[(u & c & -> & N)|S]]]; [destruct Pl as [X _]; discriminate|destruct Pl as [X _]; discriminate| |now apply stops_quiet].
  apply chars_app in Pl as [_ [X _]]. destruct N as [->| ->]; discriminate.
Qed.

(** ** Skipping *)
Lemma skip_white c s : space c = true -> skip (String c s) = skip s.
Proof. unfold skip. intros H. cbn [skip_from]. now rewrite H. Qed.
Lemma skip_firm c s : firm c = true -> skip (String c s) = String c s.
Proof. unfold skip, firm. intros H. apply andb_true_iff in H as [A B]. cbn [skip_from]. apply negb_true_iff in A, B. now rewrite A, B. Qed.
Lemma skip_comment b c s t : chars (fun d => ~ newline d) b -> newline c -> skip_from (Some t) (b ++ String c s) = skip s.
Proof.
  intros B N. induction b as [|d b IH].
  - cbn. apply newline_line_end in N. now rewrite N.
  - destruct B as [D B]. cbn. destruct (line_end d) eqn:E; [now apply newline_line_end in E|]. now apply IH.
Qed.
Definition firm_start (x : string) : Prop := match x with "" => True | String c _ => firm c = true end.
Lemma skip_gap g x : gap g -> firm_start x -> skip (g ++ x) = x.
Proof.
  intros G F. induction G as [|c g Wc G IH|b c g B N G IH].
  - destruct x as [|c x]; [reflexivity|]. now apply skip_firm.
  - cbn [append]. rewrite skip_white; [exact IH|now apply white_space].
  - cbn [append]. unfold skip at 1. cbn [skip_from]. change (space "#") with false. change (eq_char "#" "#") with true. cbv iota.
    rewrite append_assoc. cbn [append]. rewrite skip_comment; assumption.
Qed.
Lemma written_inv w ws s t : written (w :: ws) s t -> exists g r, s = (g ++ w ++ r)%string /\ gap g /\ apart w r /\ written ws r t.
Proof. intros W. inversion W; subst. eauto 10. Qed.
Lemma written_app a b s t : written (a ++ b) s t -> exists m, written a s m /\ written b m t.
Proof.
  revert s. induction a as [|w a IH]; intros s W; cbn in *.
  - exists s. split; [constructor|exact W].
  - apply written_inv in W as (g & r & -> & G & A & W). destruct (IH _ W) as (m & W1 & W2). exists m. split; [|exact W2]. now constructor.
Qed.

(** ** Loops *)
Definition eats {A} (p : P A) : Prop := forall s a r, p s = Some (a, r) -> String.length r < String.length s.
Definition keeps {A} (p : P A) : Prop := forall s a r, p s = Some (a, r) -> String.length r <= String.length s.
Lemma eats_keeps {A} (p : P A) : eats p -> keeps p.
Proof. intros E s a r H. apply E in H. lia. Qed.
Lemma ploop_total {A} (p : P A) : forall n s, exists l r, ploop n p s = Some (l, r).
Proof. induction n as [|n IH]; intros s; cbn; [eauto|]. destruct (p s) as [[a r]|]; [|eauto]. destruct (IH r) as (l & r' & ->). eauto. Qed.
Lemma ploop_more {A} (p : P A) : eats p -> forall n m s, String.length s < n -> String.length s < m -> ploop n p s = ploop m p s.
Proof.
  intros E. induction n as [|n IH]; intros [|m] s Hn Hm; try lia. cbn. destruct (p s) as [[a r]|] eqn:Ps; [|reflexivity].
  apply E in Ps. rewrite (IH m r); [reflexivity|lia|lia].
Qed.
Lemma pstar_eq {A} (p : P A) : eats p -> forall s,
  pstar p s = match p s with
              | Some (a, r) => match pstar p r with Some (l, r') => Some (a :: l, r') | None => None end
              | None => Some ([], s)
              end.
Proof.
  intros E s. unfold pstar. cbn [ploop]. destruct (p s) as [[a r]|] eqn:Ps; [|reflexivity].
  apply E in Ps. rewrite (ploop_more p E (String.length s) (S (String.length r)) r); [reflexivity|lia|lia].
Qed.
Lemma ploop_length {A} (p : P A) : keeps p -> forall n s l r, ploop n p s = Some (l, r) -> String.length r <= String.length s.
Proof.
  intros K. induction n as [|n IH]; intros s l r H; cbn in H; [injection H as <- <-; lia|].
  destruct (p s) as [[a r1]|] eqn:Ps; [|injection H as <- <-; lia]. destruct (ploop n p r1) as [[l' r']|] eqn:L; [|discriminate].
  injection H as <- <-. apply K in Ps. apply IH in L. lia.
Qed.
Lemma keeps_star {A} (p : P A) : keeps p -> keeps (pstar p).
Proof. intros K s l r H. now apply ploop_length in H. Qed.
Lemma keeps_ret {A} (a : A) : keeps (pret a).
Proof. intros s x r H. injection H as <- <-. lia. Qed.
Lemma keeps_bind {A B} (p : P A) (f : A -> P B) : keeps p -> (forall a, keeps (f a)) -> keeps (pbind p f).
Proof. intros K F s b r H. unfold pbind in H. destruct (p s) as [[a r1]|] eqn:E; [|discriminate]. apply K in E. apply F in H. lia. Qed.
Lemma eats_bind {A B} (p : P A) (f : A -> P B) : eats p -> (forall a, keeps (f a)) -> eats (pbind p f).
Proof. intros K F s b r H. unfold pbind in H. destruct (p s) as [[a r1]|] eqn:E; [|discriminate]. apply K in E. apply F in H. lia. Qed.
Lemma eats_bind_r {A B} (p : P A) (f : A -> P B) : keeps p -> (forall a, eats (f a)) -> eats (pbind p f).
Proof. intros K F s b r H. unfold pbind in H. destruct (p s) as [[a r1]|] eqn:E; [|discriminate]. apply K in E. apply F in H. lia. Qed.
Lemma eats_alt {A} (p q : P A) : eats p -> eats q -> eats (palt p q).
Proof. intros K F s b r H. unfold palt in H. destruct (p s) as [x|] eqn:E; [injection H as ->; now apply K in E|now apply F in H]. Qed.
Lemma keeps_alt {A} (p q : P A) : keeps p -> keeps q -> keeps (palt p q).
Proof. intros K F s b r H. unfold palt in H. destruct (p s) as [x|] eqn:E; [injection H as ->; now apply K in E|now apply F in H]. Qed.
Lemma keeps_opt {A} (p : P A) : keeps p -> keeps (popt p).
Proof. intros K s b r H. unfold popt in H. destruct (p s) as [[a r1]|] eqn:E; injection H as <- <-; [now apply K in E|lia]. Qed.
Lemma eats_minus {A B} (p : P A) (q : P B) : eats p -> eats (pminus p q).
Proof. intros K s b r H. unfold pminus in H. destruct (q s); [discriminate|]. now apply K in H. Qed.
Lemma keeps_not {A} (p : P A) : keeps (pnot p).
Proof. intros s b r H. unfold pnot in H. destruct (p s); [discriminate|]. injection H as <- <-. lia. Qed.
Lemma skip_from_length : forall s o, String.length (skip_from o s) <= match o with Some t => Nat.max (String.length t) (String.length s) | None => String.length s end.
Proof.
  induction s as [|c s IH]; intros [t|]; cbn [skip_from String.length]; try lia.
  - destruct (line_end c); [specialize (IH None)|specialize (IH (Some t))]; cbn in IH; lia.
  - destruct (space c); [specialize (IH None); cbn in IH; lia|]. destruct (eq_char "#" c); [|cbn; lia].
    specialize (IH (Some (String c s))). cbn [String.length] in IH. lia.
Qed.
Lemma skip_length s : String.length (skip s) <= String.length s.
Proof. apply (skip_from_length s None). Qed.
Lemma eats_tok {A} (p : P A) : eats p -> eats (tok p).
Proof. intros K s b r H. unfold tok in H. apply K in H. assert (X := skip_length s). lia. Qed.
Lemma keeps_tok {A} (p : P A) : keeps p -> keeps (tok p).
Proof. intros K s b r H. unfold tok in H. apply K in H. assert (X := skip_length s). lia. Qed.
Lemma eats_one f : eats (one f).
Proof. intros [|c s] a r H; cbn in H; [discriminate|]. destruct (f c); [|discriminate]. injection H as <- <-. cbn. lia. Qed.
Lemma span_length f : forall s, String.length (fst (span f s)) + String.length (snd (span f s)) = String.length s.
Proof. induction s as [|c s IH]; cbn; [reflexivity|]. destruct (f c); [|reflexivity]. destruct (span f s). cbn in *. lia. Qed.
Lemma keeps_many f : keeps (many f).
Proof. intros s a r H. assert (H' : span f s = (a, r)) by (unfold many in H; congruence). assert (X := span_length f s). rewrite H' in X. cbn in X. lia. Qed.
Lemma eats_many1 f : eats (many1 f).
Proof.
  intros s a r H. unfold many1 in H. assert (X := span_length f s). destruct (span f s) as [[|c w] r1]; [discriminate|]. injection H as <- <-. cbn in X. lia.
Qed.
Lemma keeps_lit w : keeps (lit w).
Proof.
  induction w as [|a w IH]; intros s x r H; cbn in H; [injection H as _ <-; lia|].
  destruct s as [|c s]; [discriminate|]. destruct (eq_char a c); [|discriminate]. apply IH in H. cbn. lia.
Qed.
Lemma eats_lit w : w <> "" -> eats (lit w).
Proof.
  destruct w as [|a w]; [contradiction|]. intros _ s x r H. cbn in H. destruct s as [|c s]; [discriminate|]. destruct (eq_char a c); [|discriminate].
  apply keeps_lit in H. cbn. lia.
Qed.
Lemma keeps_nocase w : keeps (nocase w).
Proof.
  induction w as [|a w IH]; intros s x r H; cbn in H; [injection H as _ <-; lia|].
  destruct s as [|c s]; [discriminate|]. destruct (eq_char (lower a) (lower c)); [|discriminate]. apply IH in H. cbn. lia.
Qed.
Lemma eats_nocase w : w <> "" -> eats (nocase w).
Proof.
  destruct w as [|a w]; [contradiction|]. intros _ s x r H. cbn in H. destruct s as [|c s]; [discriminate|]. destruct (eq_char (lower a) (lower c)); [|discriminate].
  apply keeps_nocase in H. cbn. lia.
Qed.
Lemma keeps_eol : keeps eol.
Proof.
  intros [|c s] x r H; unfold eol in H; [discriminate|]. destruct (eq_char "013" c).
  - destruct s as [|d s]; [injection H as _ <-; cbn; lia|]. destruct (eq_char "010" d); injection H as _ <-; cbn; lia.
  - destruct (eq_char "010" c); [|discriminate]. injection H as _ <-. cbn. lia.
Qed.
Lemma eats_int : eats int_.
Proof.
  apply eats_bind_r; [apply keeps_opt, eats_keeps, eats_one|]. intros o. apply eats_bind; [apply eats_many1|].
  intros w s z r H. cbv zeta in H. match type of H with (if ?b then _ else _) = _ => destruct b end; [|discriminate]. injection H as _ <-. lia.
Qed.
Lemma eats_mantissa : eats mantissa.
Proof.
  apply eats_alt.
  - apply eats_bind; [apply eats_many1|]. intros a. apply keeps_bind; [|intros b; apply keeps_ret]. apply keeps_opt, keeps_bind; [apply eats_keeps, eats_one|].
    intros _. apply keeps_many.
  - apply eats_bind; [apply eats_one|]. intros _. apply keeps_bind; [apply eats_keeps, eats_many1|]. intros f. apply keeps_ret.
Qed.
Lemma keeps_exponent : keeps exponent.
Proof.
  apply keeps_bind; [apply eats_keeps, eats_one|]. intros e. apply keeps_bind; [apply keeps_opt, eats_keeps, eats_one|].
  intros sg. apply keeps_bind; [apply eats_keeps, eats_many1|]. intros w. apply keeps_ret.
Qed.
Lemma eats_double : eats double_text.
Proof.
  apply eats_bind_r; [apply keeps_opt, eats_keeps, eats_one|]. intros o. apply eats_bind; [apply eats_mantissa|]. intros m.
  apply keeps_bind; [apply keeps_opt, keeps_exponent|]. intros e. apply keeps_ret.
Qed.

(** ** Words *)
Lemma chars_true f w : chars (fun c => f c = true) w -> forall s, match s with "" => True | String c _ => f c = false end -> span f (w ++ s) = (w, s).
Proof.
  induction w as [|c w IH]; intros H s Q.
  - cbn. destruct s as [|c s]; [reflexivity|]. cbn. now rewrite Q.
  - destruct H as [A B]. cbn. rewrite A, (IH B s Q). reflexivity.
Qed.
Lemma many_reads f w s : chars (fun c => f c = true) w -> match s with "" => True | String c _ => f c = false end -> many f (w ++ s) = Some (w, s).
Proof. intros A B. unfold many. now rewrite chars_true. Qed.
Lemma many1_reads f w s : w <> "" -> chars (fun c => f c = true) w -> match s with "" => True | String c _ => f c = false end -> many1 f (w ++ s) = Some (w, s).
Proof. intros N A B. unfold many1. rewrite chars_true by assumption. destruct w; [contradiction|reflexivity]. Qed.
Lemma many1_rejects f s : match s with "" => True | String c _ => f c = false end -> many1 f s = None.
Proof. unfold many1. destruct s as [|c s]; cbn; [reflexivity|]. now intros ->. Qed.
Lemma pbind_some {A B} {p : P A} {f : A -> P B} {s a r} : p s = Some (a, r) -> pbind p f s = f a r.
Proof. unfold pbind. now intros ->. Qed.
Lemma pbind_none {A B} {p : P A} {f : A -> P B} {s} : p s = None -> pbind p f s = None.
Proof. unfold pbind. now intros ->. Qed.
Lemma palt_l {A} {p q : P A} {s x} : p s = Some x -> palt p q s = Some x.
Proof. unfold palt. now intros ->. Qed.
Lemma palt_r {A} {p q : P A} {s} : p s = None -> palt p q s = q s.
Proof. unfold palt. now intros ->. Qed.
Lemma popt_some {A} {p : P A} {s a r} : p s = Some (a, r) -> popt p s = Some (Some a, r).
Proof. unfold popt. now intros ->. Qed.
Lemma popt_none {A} {p : P A} {s} : p s = None -> popt p s = Some (None, s).
Proof. unfold popt. now intros ->. Qed.

Lemma sign_reads sg s : plus_minus sg -> match s with "" => False | String c _ => one_of "+-" c = false end ->
  exists o, sign (sg ++ s) = Some (o, s) /\ of_sign o = sg.
Proof.
  intros [->|[->| ->]] Q; cbn [append].
  - exists None. split; [|reflexivity]. unfold sign. apply popt_none. destruct s as [|c s]; [reflexivity|]. unfold one. now rewrite Q.
  - eexists. split; reflexivity.
  - eexists. split; reflexivity.
Qed.
Lemma digits_value_decimal : forall w acc, chars is_digit w -> digits_value acc w = (acc * 10 ^ Z.of_nat (String.length w) + decimal w)%Z.
Proof.
  induction w as [|c w IH]; intros acc H; [cbn [digits_value decimal String.length]; change (10 ^ Z.of_nat 0)%Z with 1%Z; lia|].
  destruct H as [D H]. cbn [digits_value decimal String.length]. rewrite IH by exact H. rewrite Nat2Z.inj_succ, Z.pow_succ_r by lia.
  assert (E : Z.of_nat (code c - 48) = (Z.of_nat (nat_of_ascii c) - 48)%Z).
  { unfold code. unfold is_digit, range in D. change (nat_of_ascii "0") with 48 in D. lia. }
  rewrite E. ring.
Qed.
Lemma digits_true w : chars is_digit w -> chars (fun c => digit c = true) w.
Proof. apply chars_impl. apply is_digit_digit. Qed.
Lemma quiet_no f s : (forall c, loud c = false -> f c = false) -> quiet s -> match s with "" => True | String c _ => f c = false end.
Proof. intros H. destruct s; [easy|]. cbn. auto. Qed.
Lemma figures_cons d : figures d -> exists c r, d = String c r /\ digit c = true.
Proof. intros [N H]. destruct d as [|c d]; [contradiction|]. destruct H as [D _]. exists c, d. split; [reflexivity|now apply is_digit_digit]. Qed.
Lemma int_reads z w s : whole z w -> quiet s -> int_ (w ++ s) = Some (z, s).
Proof.
  intros (sg & d & -> & S & F & V & B) Q. unfold int_. destruct (figures_cons d F) as (c & r & Ed & Dc).
  destruct (sign_reads sg (d ++ s) S) as (o & E & O); [rewrite Ed; cbn; now apply digit_sign|].
  rewrite append_assoc, (pbind_some E). destruct F as [N F].
  rewrite (pbind_some (many1_reads digit d s N (digits_true d F) (quiet_no digit s quiet_digit Q))). cbv zeta.
  rewrite digits_value_decimal by exact F. rewrite Z.mul_0_l, Z.add_0_l.
  assert (X : (match o with Some c => if eq_char "-" c then - decimal d else decimal d | None => decimal d end)%Z = z).
  { rewrite V. destruct S as [->|[->| ->]].
    - destruct o; [discriminate|reflexivity].
    - destruct o as [x|]; [|discriminate]. injection O as ->. reflexivity.
    - destruct o as [x|]; [|discriminate]. injection O as ->. reflexivity. }
  rewrite X. replace ((-2147483648 <=? z) && (z <=? 2147483647))%Z with true; [reflexivity|]. symmetry. apply andb_true_iff. rewrite !Z.leb_le. exact B.
Qed.
Lemma number_nonempty w : number w -> exists c r, w = String c r /\ numstart c = true.
Proof.
  intros (sg & m & e & -> & S & M & _). destruct S as [->|[->| ->]]; [|cbn; eauto..].
  destruct M as [F|(a & b & -> & [[F _]|[-> F]])].
  - destruct (figures_cons m F) as (c & r & -> & D). cbn. eexists; eexists; split; [reflexivity|]. unfold numstart. now rewrite D.
  - destruct (figures_cons a F) as (c & r & -> & D). cbn. eexists; eexists; split; [reflexivity|]. unfold numstart. now rewrite D.
  - cbn. eauto.
Qed.
Lemma double_reads w s : number w -> quiet s -> double_text (w ++ s) = Some (w, s).
Proof.
  intros (sg & m & e & -> & S & M & X) Q. unfold double_text.
  assert (Qd := quiet_no digit s quiet_digit Q). assert (Qp := quiet_no _ s quiet_point Q). assert (Qe := quiet_no _ s quiet_exp Q).
  assert (Pe : popt exponent (e ++ s) = Some (if String.eqb e "" then None else Some e, s)).
  { destruct X as [->|(c & s' & d & -> & C & S' & F)].
    - cbn [append String.eqb]. apply popt_none. unfold exponent. apply pbind_none. destruct s as [|y s]; [reflexivity|]. unfold one. now rewrite Qe.
    - cbn [append String.eqb]. apply popt_some. unfold exponent.
      assert (Ec : one (one_of "eE") (String c ((s' ++ d) ++ s)) = Some (c, ((s' ++ d) ++ s)%string)) by (destruct C as [->| ->]; reflexivity).
      rewrite (pbind_some Ec). rewrite append_assoc. destruct (figures_cons d F) as (y & r & Ed & Dy).
      destruct (sign_reads s' (d ++ s) S') as (o & E & O); [rewrite Ed; cbn; now apply digit_sign|]. rewrite (pbind_some E).
      destruct F as [N F]. rewrite (pbind_some (many1_reads digit d s N (digits_true d F) Qd)). unfold pret. now rewrite O. }
  assert (De : match (e ++ s)%string with "" => True | String c _ => digit c = false end).
  { destruct X as [->|(c & s' & d & -> & C & _)]; [exact Qd|]. destruct C as [->| ->]; reflexivity. }
  assert (Ne : match (e ++ s)%string with "" => True | String c _ => eq_char "." c = false end).
  { destruct X as [->|(c & s' & d & -> & C & _)]; [exact Qp|]. destruct C as [->| ->]; reflexivity. }
  assert (Pm : mantissa (m ++ e ++ s) = Some (m, (e ++ s)%string)).
  { unfold mantissa. destruct M as [[N F]|(a & b & -> & [[[N F] B]|[-> [N F]]])].
    - apply palt_l. rewrite (pbind_some (many1_reads digit m (e ++ s) N (digits_true m F) De)).
      rewrite (@pbind_some _ _ _ _ _ None (e ++ s)%string).
      + unfold pret. now rewrite append_empty.
      + apply popt_none, pbind_none. destruct (e ++ s)%string as [|y z]; [reflexivity|]. unfold one. now rewrite Ne.
    - apply palt_l. rewrite append_assoc. rewrite (pbind_some (many1_reads digit a (("." ++ b) ++ e ++ s) N (digits_true a F) eq_refl)).
      rewrite (@pbind_some _ _ _ _ _ (Some b) (e ++ s)%string); [reflexivity|].
      apply popt_some. cbn [append]. rewrite (@pbind_some _ _ _ _ _ "."%char (b ++ e ++ s)%string); [|reflexivity].
      apply many_reads; [now apply digits_true|exact De].
    - cbn [append]. rewrite palt_r.
      + rewrite (@pbind_some _ _ _ _ _ "."%char (b ++ e ++ s)%string); [|reflexivity].
        now rewrite (pbind_some (many1_reads digit b (e ++ s) N (digits_true b F) De)).
      + apply pbind_none. reflexivity. }
  assert (Hm : match (m ++ e ++ s)%string with "" => False | String c _ => one_of "+-" c = false end).
  { destruct M as [F|(a & b & -> & [[F _]|[-> F]])].
    - destruct (figures_cons m F) as (c & r & -> & D). cbn. now apply digit_sign.
    - destruct (figures_cons a F) as (c & r & -> & D). cbn. now apply digit_sign.
    - reflexivity. }
  destruct (sign_reads sg (m ++ e ++ s) S Hm) as (o & E & O).
  replace ((sg ++ m ++ e) ++ s)%string with (sg ++ (m ++ e ++ s))%string by now rewrite !append_assoc.
  rewrite (pbind_some E), (pbind_some Pm), (pbind_some Pe). unfold pret. rewrite O.
  destruct X as [->|(c & s' & d & -> & _)]; reflexivity.
Qed.
Lemma number_plain w : number w -> plain w.
Proof.
  assert (D : forall d, chars is_digit d -> plain d).
  { intros d. apply chars_impl. intros c H. unfold loud. rewrite (digit_wide c); [reflexivity|now apply is_digit_digit]. }
  assert (S : forall s, plus_minus s -> plain s) by (intros s [->|[->| ->]]; repeat split).
  intros (sg & m & e & -> & Sg & M & X). unfold plain. rewrite !chars_app. repeat split.
  - now apply S.
  - destruct M as [[_ F]|(a & b & -> & [[[_ F] B]|[-> [_ F]]])].
    + now apply D.
    + apply chars_app. split; [now apply D|]. split; [reflexivity|now apply D].
    + cbn. split; [reflexivity|now apply D].
  - destruct X as [->|(c & s' & d & -> & C & S' & [_ F])]; [easy|]. cbn. split; [destruct C as [->| ->]; reflexivity|].
    apply chars_app. split; [now apply S|now apply D].
Qed.
Lemma whole_number z w : whole z w -> number w.
Proof.
  intros (s & d & -> & S & F & _). exists s, d, "". rewrite append_empty. repeat split; [exact S|now left|now left].
Qed.
Lemma whole_start z w : whole z w -> exists c r, w = String c r /\ intstart c = true.
Proof.
  intros (s & d & -> & S & F & _). destruct S as [->|[->| ->]]; [|cbn; eauto..].
  destruct (figures_cons d F) as (c & r & -> & D). cbn. eexists; eexists; split; [reflexivity|]. unfold intstart. now rewrite D.
Qed.

(** ** Parsers at a word of a written text *)
Definition reads {A} (p : P A) (f : A -> list string -> Prop) : Prop :=
  forall a w, f a w -> forall ws s t, written (w ++ ws) s t -> exists r, p s = Some (a, r) /\ written ws r t.
Lemma tok_at {A} (p : P A) g c w r : gap g -> firm c = true -> tok p (g ++ String c w ++ r) = p (String c w ++ r)%string.
Proof. intros G F. unfold tok. now rewrite skip_gap. Qed.
Definition word {A} (f : A -> string -> Prop) : A -> list string -> Prop := fun a w => exists x, w = [x] /\ f a x.
Lemma word_reads {A} (q : P A) (f : A -> string -> Prop) :
  (forall a x s, f a x -> apart x s -> q (x ++ s)%string = Some (a, s)) -> (forall a x, f a x -> exists c r, x = String c r /\ firm c = true) ->
  forall a x ws s t, f a x -> written (x :: ws) s t -> exists r, tok q s = Some (a, r) /\ written ws r t.
Proof.
  intros H F a x ws s t Hf W. apply written_inv in W as (g & r & -> & G & A' & W). destruct (F a x Hf) as (c & y & -> & Fc).
  rewrite tok_at by assumption. exists r. split; [now apply H|exact W].
Qed.
Lemma read_int z x ws s t : whole z x -> written (x :: ws) s t -> exists r, int s = Some (z, r) /\ written ws r t.
Proof.
  apply (word_reads int_ whole).
  - intros a y r Hy Ap. apply int_reads; [exact Hy|]. eapply plain_apart; [|exact Ap]. eapply number_plain, whole_number, Hy.
  - intros a y Hy. destruct (whole_start a y Hy) as (c & r & -> & I). exists c, r. split; [reflexivity|]. now apply numstart_firm, intstart_numstart.
Qed.
Lemma read_quoted n x ws s t : quoted n x -> written (x :: ws) s t -> exists r, textDQ s = Some (n, r) /\ written ws r t.
Proof.
  apply (word_reads _ quoted).
  - intros a y r (-> & N & C) _. cbn [append]. rewrite append_assoc. cbn [append].
    rewrite (@pbind_some _ _ _ _ _ quote (a ++ String "034" r)%string); [|reflexivity].
    rewrite (@pbind_some _ _ _ _ _ a (String "034" r)); [reflexivity|]. apply many1_reads; [exact N| |reflexivity].
    revert C. apply chars_impl. intros c Hc. apply negb_true_iff, eq_char_neq. unfold quote. congruence.
  - intros a y (-> & _ & _). eauto.
Qed.
Lemma read_name x ws s t : name x -> written (x :: ws) s t -> exists r, text s = Some (x, r) /\ written ws r t.
Proof.
  intros Hx. apply (word_reads _ (fun a y => a = y /\ name y)); [| |now split].
  - intros a y r (-> & N) Ap. destruct y as [|c y]; [contradiction|]. destruct N as [L C]. apply is_letter_letter in L.
    assert (C' : chars (fun d => name_char d = true) y).
    { revert C. apply chars_impl. unfold name_char. intros d [H|[H| ->]]; [now rewrite (is_letter_letter d H)|rewrite (is_digit_digit d H); now rewrite orb_true_r|reflexivity]. }
    assert (Q : quiet r).
    { eapply plain_apart; [|exact Ap]. split; [unfold loud; now rewrite letter_wide|]. revert C'. apply chars_impl. intros d H. unfold loud. now rewrite name_wide. }
    cbn [append]. rewrite (@pbind_some _ _ _ _ _ c (y ++ r)%string); [|unfold one; now rewrite L].
    rewrite (@pbind_some _ _ _ _ _ y r); [reflexivity|]. apply many_reads; [exact C'|]. apply (quiet_no name_char); [apply quiet_name|exact Q].
  - intros a y (-> & N). destruct y as [|c y]; [contradiction|]. destruct N as [L _]. exists c, y. split; [reflexivity|]. now apply letter_firm, is_letter_letter.
Qed.
Lemma free_wide x : free_name x -> chars (fun d => wide_char d = true) x.
Proof.
  intros [_ C]. revert C. apply chars_impl. unfold wide_char, name_char.
  intros d [H|[H|[-> | ->]]]; [now rewrite (is_letter_letter d H)|rewrite (is_digit_digit d H); now rewrite orb_true_r|reflexivity|reflexivity].
Qed.
Lemma free_start x : free_name x -> exists c r, x = String c r /\ wide_char c = true.
Proof. intros F. assert (C := free_wide x F). destruct x as [|c x]; [now destruct F|]. destruct C as [C _]. eauto. Qed.
Lemma free_plain x : free_name x -> plain x.
Proof. intros F. generalize (free_wide x F). apply chars_impl. intros d H. unfold loud. now rewrite H. Qed.
Lemma free_raw x s : free_name x -> quiet s -> many1 wide_char (x ++ s) = Some (x, s).
Proof. intros F Q. apply many1_reads; [apply F|now apply free_wide|]. apply (quiet_no wide_char); [apply quiet_wide|exact Q]. Qed.
Lemma read_free x ws s t : free_name x -> written (x :: ws) s t -> exists r, textNC s = Some (x, r) /\ written ws r t.
Proof.
  intros Hx. apply (word_reads _ (fun a y => a = y /\ free_name y)); [| |now split].
  - intros a y r (-> & N) Ap. apply free_raw; [exact N|]. eapply plain_apart; [|exact Ap]. now apply free_plain.
  - intros a y (-> & N). destruct (free_start y N) as (c & r & -> & Wc). exists c, r. split; [reflexivity|]. now apply wide_firm.
Qed.
Lemma one_of_app c a b : one_of (a ++ String c b) c = true.
Proof. induction a as [|d a IH]; cbn; [now rewrite eq_char_refl|]. now rewrite IH, orb_true_r. Qed.
Lemma read_char cs c x ws s t : (forall d, one_of cs d = true -> firm d = true) -> one_char cs c x -> written (x :: ws) s t -> exists r, chr cs s = Some (c, r) /\ written ws r t.
Proof.
  intros Fi. apply (word_reads _ (one_char cs)).
  - intros a y r (-> & u & v & ->) _. cbn. unfold one. now rewrite one_of_app.
  - intros a y (-> & u & v & E). exists a, "". split; [reflexivity|]. apply Fi. rewrite E. apply one_of_app.
Qed.

(** ** Keywords *)
Fixpoint fold_case (s : string) : string := match s with "" => "" | String c r => String (lower c) (fold_case r) end.
Fixpoint begins (k s : string) : bool :=
  match k, s with "", _ => true | String a k', String c s' => eq_char a c && begins k' s' | String _ _, "" => false end.
Lemma fold_app a b : fold_case (a ++ b) = (fold_case a ++ fold_case b)%string.
Proof. induction a as [|c a IH]; cbn; [reflexivity|now rewrite IH]. Qed.
Lemma nocase_rejects k s : begins (fold_case k) (fold_case s) = false -> nocase k s = None.
Proof.
  revert s. induction k as [|a k IH]; intros s H; [discriminate|]. destruct s as [|c s]; [reflexivity|]. cbn in *.
  destruct (eq_char (lower a) (lower c)); [|reflexivity]. now apply IH.
Qed.
Lemma nocase_reads k w s : fold_case w = fold_case k -> nocase k (w ++ s) = Some (tt, s).
Proof.
  revert w. induction k as [|a k IH]; intros [|c w] H; try discriminate; [reflexivity|]. cbn in *. injection H as H1 H2.
  rewrite H1, eq_char_refl. now apply IH.
Qed.
Lemma alike_lower a b : alike a b -> lower b = lower a.
Proof.
  intros [->|(n & Hn & H)]; [reflexivity|].
  assert (X : lower (ascii_of_nat n) = lower (ascii_of_nat (n + 32))).
  { assert (K : n = 65 + (n - 65)) by lia. rewrite K. assert (L : n - 65 <= 25) by lia. generalize (n - 65) L. clear. intros m L.
    do 26 (destruct m as [|m]; [reflexivity|]). lia. }
  destruct H as [[-> ->]|[-> ->]]; congruence.
Qed.
Lemma keyword_fold k : forall w, keyword k w -> fold_case w = fold_case k.
Proof. induction k as [|a k IH]; intros [|b w] H; cbn in H; try contradiction; [reflexivity|]. destruct H as [A B]. cbn. now rewrite (IH _ B), (alike_lower a b A). Qed.
Lemma lower_firm : forall c, firm (lower c) = firm c. Proof. brute. Qed.
(** the first character of a word stands, whatever its case *)
Definition sound_key (k : string) : Prop := match k with String c _ => firm c = true | "" => False end.
Lemma keyword_start k w : sound_key k -> keyword k w -> exists c r, w = String c r /\ firm c = true /\ lower c = match k with String a _ => lower a | "" => c end.
Proof.
  destruct k as [|a k]; [contradiction|]. destruct w as [|c w]; [contradiction|]. intros F [A _]. exists c, w. apply alike_lower in A.
  split; [reflexivity|]. split; [|exact A]. cbn in F. rewrite <- lower_firm, A, lower_firm. exact F.
Qed.
Lemma read_kw k x ws s t : sound_key k -> keyword k x -> written (x :: ws) s t -> exists r, kw k s = Some (tt, r) /\ written ws r t.
Proof.
  intros So Hx. apply (word_reads _ (fun (_ : unit) y => keyword k y)); [| |exact Hx].
  - intros [] y r Hy _. now apply nocase_reads, keyword_fold.
  - intros _ y Hy. destruct (keyword_start k y So Hy) as (c & r & -> & F & _). eauto.
Qed.
Lemma kw_rejects k k0 x ws s t : sound_key k0 -> keyword k0 x -> (forall y, begins (fold_case k) (fold_case k0 ++ y) = false) -> written (x :: ws) s t -> kw k s = None.
Proof.
  intros So Hx B W. apply written_inv in W as (g & r & -> & G & _ & _). destruct (keyword_start k0 x So Hx) as (c & y & E & F & _).
  unfold kw, tok. rewrite skip_gap; [|exact G|rewrite E; exact F]. apply nocase_rejects. rewrite fold_app, (keyword_fold _ _ Hx). apply B.
Qed.
Lemma read_brace b ws s t : b = "{" \/ b = "}" -> written (b :: ws) s t -> exists r, sym b s = Some (tt, r) /\ written ws r t.
Proof.
  intros Hb W. apply written_inv in W as (g & r & -> & G & _ & W). exists r. split; [|exact W]. unfold sym, tok.
  destruct Hb as [->| ->]; cbn [append]; rewrite skip_gap; try assumption; reflexivity.
Qed.
(** what a parser does at a word depends on the characters it starts with *)
Lemma rejects_at {A} (q : P A) x ws s t : (exists c r, x = String c r /\ firm c = true /\ forall y, q (String c y) = None) -> written (x :: ws) s t -> tok q s = None.
Proof. intros (c & r & -> & F & H) W. apply written_inv in W as (g & y & -> & G & _ & _). rewrite tok_at by assumption. apply H. Qed.
Lemma int_rejects c s : intstart c = false -> int_ (String c s) = None.
Proof.
  unfold intstart. intros H. apply orb_false_iff in H as [D S]. unfold int_. rewrite (@pbind_some _ _ _ _ _ None (String c s)).
  - apply pbind_none. apply many1_rejects. exact D.
  - apply popt_none. unfold one. now rewrite S.
Qed.
Lemma double_rejects c s : numstart c = false -> double_text (String c s) = None.
Proof.
  unfold numstart. intros H. apply orb_false_iff in H as [D S]. unfold double_text.
  assert (S2 : one_of "+-" c = false /\ eq_char "." c = false) by (revert S; clear; revert c; brute). destruct S2 as [S2 S3].
  rewrite (@pbind_some _ _ _ _ _ None (String c s)); [|apply popt_none; unfold one; now rewrite S2].
  apply pbind_none. unfold mantissa. rewrite palt_r; [|apply pbind_none, many1_rejects; exact D].
  apply pbind_none. unfold one. now rewrite S3.
Qed.
Section Values.
  Context (value : string -> Q).
  Lemma real_raw_reads q w s : num value q w -> quiet s -> real_ value (w ++ s) = Some (q, s).
  Proof. intros [N V] Q. unfold real_. rewrite (pbind_some (double_reads w s N Q)). unfold pret. now rewrite V. Qed.
  Lemma read_num q x ws s t : num value q x -> written (x :: ws) s t -> exists r, real value s = Some (q, r) /\ written ws r t.
  Proof.
    apply (word_reads (real_ value) (num value)).
    - intros a y r Hy Ap. apply real_raw_reads; [exact Hy|]. eapply plain_apart; [|exact Ap]. apply number_plain, Hy.
    - intros a y [N _]. destruct (number_nonempty y N) as (c & r & -> & I). exists c, r. split; [reflexivity|]. now apply numstart_firm.
  Qed.
  Lemma real_rejects c s : numstart c = false -> real_ value (String c s) = None.
  Proof. intros H. unfold real_. now rewrite (pbind_none (double_rejects c s H)). Qed.
End Values.
