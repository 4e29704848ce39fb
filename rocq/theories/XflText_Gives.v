(** What the rules of the grammar give, whatever the text is. *)
From Coq Require Import Ascii QArith.
From Verif Require Import Base Text_Proofs Qi_Model XflText_Model XflText_Spec XflText_Proofs XflText_Reads XflText_File.
Close Scope Q_scope.
Open Scope list_scope.
Open Scope qi_scope.
Open Scope string_scope.
Open Scope nat_scope.

Definition gives {A} (p : P A) (F : A -> Prop) : Prop := forall s a r, p s = Some (a, r) -> F a.
Lemma gives_any {A} (p : P A) : gives p (fun _ => True). Proof. intros s a r _. exact I. Qed.
Lemma gives_ret {A} (a : A) (F : A -> Prop) : F a -> gives (pret a) F.
Proof. intros H s x r E. injection E as <- _. exact H. Qed.
Lemma gives_bind {A B} (p : P A) (f : A -> P B) F G : gives p F -> (forall a, F a -> gives (f a) G) -> gives (pbind p f) G.
Proof. intros Hp Hf s b r E. unfold pbind in E. destruct (p s) as [[a r1]|] eqn:Ep; [|discriminate]. eapply Hf; [eapply Hp; exact Ep|exact E]. Qed.
Lemma gives_skip {A B} (p : P A) (f : A -> P B) G : (forall a, gives (f a) G) -> gives (pbind p f) G.
Proof. intros Hf. apply (gives_bind p f (fun _ => True)); [apply gives_any|auto]. Qed.
Lemma gives_alt {A} (p q : P A) F : gives p F -> gives q F -> gives (palt p q) F.
Proof. intros Hp Hq s a r E. unfold palt in E. destruct (p s) as [x|] eqn:Ep; [injection E as ->; eapply Hp; exact Ep|eapply Hq; exact E]. Qed.
Lemma gives_opt {A} (p : P A) F : gives p F -> gives (popt p) (fun o => match o with Some a => F a | None => True end).
Proof. intros Hp s a r E. unfold popt in E. destruct (p s) as [[x r1]|] eqn:Ep; injection E as <- _; [eapply Hp; exact Ep|exact I]. Qed.
Lemma gives_star {A} (p : P A) F : gives p F -> gives (pstar p) (Forall F).
Proof.
  intros Hp s l r. unfold pstar. generalize (S (String.length s)). intros n. revert s l r. induction n as [|n IH]; intros s l r E; cbn in E; [injection E as <- _; constructor|].
  destruct (p s) as [[a r1]|] eqn:Ep; [|injection E as <- _; constructor]. destruct (ploop n p r1) as [[l' r']|] eqn:El; [|discriminate]. injection E as <- _.
  constructor; [eapply Hp; exact Ep|eapply IH; exact El].
Qed.
Lemma gives_tok {A} (p : P A) F : gives p F -> gives (tok p) F.
Proof. intros Hp s a r E. eapply Hp. exact E. Qed.
Lemma gives_one f : gives (one f) (fun c => f c = true).
Proof. intros [|c s] a r E; cbn in E; [discriminate|]. destruct (f c) eqn:Ef; [|discriminate]. injection E as <- _. exact Ef. Qed.
Lemma span_chars f : forall s, chars (fun c => f c = true) (fst (span f s)).
Proof. induction s as [|c s IH]; cbn; [exact I|]. destruct (f c) eqn:E; [|exact I]. destruct (span f s). cbn in *. now split. Qed.
Lemma gives_many f : gives (many f) (chars (fun c => f c = true)).
Proof. intros s a r E. assert (X : span f s = (a, r)) by (unfold many in E; congruence). generalize (span_chars f s). now rewrite X. Qed.
Lemma gives_many1 f : gives (many1 f) (fun w => w <> "" /\ chars (fun c => f c = true) w).
Proof.
  intros s a r E. unfold many1 in E. generalize (span_chars f s). destruct (span f s) as [[|c w] r']; [discriminate|]. injection E as <- _. intros H. split; [discriminate|exact H].
Qed.
Lemma gives_int : gives int_ int32.
Proof.
  apply gives_skip. intros sg. apply gives_skip. intros w s z r E. cbv zeta in E. match type of E with (if ?b then _ else _) = _ => destruct b eqn:X end; [|discriminate].
  injection E as <- _. apply andb_true_iff in X as [A B]. rewrite Z.leb_le in A, B. now split.
Qed.
Lemma gives_int' : gives int int32. Proof. apply gives_tok, gives_int. Qed.
Lemma among_of cs c : one_of cs c = true -> among cs c.
Proof.
  induction cs as [|d cs IH]; [discriminate|]. cbn. intros H. apply orb_true_iff in H as [H|H].
  - apply eq_char_eq in H as ->. exists "", cs. reflexivity.
  - destruct (IH H) as (a & b & ->). exists (String d a), b. reflexivity.
Qed.
Lemma gives_chr cs : gives (chr cs) (among cs).
Proof. apply gives_tok. intros s a r E. apply among_of. eapply gives_one. exact E. Qed.
Lemma digit_is c : digit c = true -> is_digit c.
Proof.
  unfold digit, between, code, is_digit, range. intros H. apply andb_true_iff in H as [A B]. rewrite Nat.leb_le in A, B.
  change (nat_of_ascii "0") with 48. change (nat_of_ascii "9") with 57. lia.
Qed.
Lemma letter_is c : letter c = true -> is_letter c.
Proof.
  unfold letter, between, code, is_letter, range. change (nat_of_ascii "a") with 97. change (nat_of_ascii "z") with 122. change (nat_of_ascii "A") with 65. change (nat_of_ascii "Z") with 90.
  intros H. apply orb_true_iff in H as [H|H].
  - apply orb_true_iff in H as [H|H]; apply andb_true_iff in H as [A B]; rewrite Nat.leb_le in A, B; lia.
  - apply Nat.eqb_eq in H. right. right. rewrite <- (ascii_nat_embedding c), H. reflexivity.
Qed.
Lemma name_char_is c : name_char c = true -> is_letter c \/ is_digit c \/ c = "-"%char.
Proof.
  unfold name_char. intros H. apply orb_true_iff in H as [H|H]; [apply orb_true_iff in H as [H|H]|].
  - left. now apply letter_is.
  - right. left. now apply digit_is.
  - right. right. symmetry. now apply eq_char_eq.
Qed.
Lemma gives_text : gives text name.
Proof.
  apply gives_tok. apply (gives_bind _ _ (fun c => letter c = true)); [apply gives_one|]. intros a Ha. apply (gives_bind _ _ (chars (fun c => name_char c = true))); [apply gives_many|].
  intros w Hw. apply gives_ret. split; [now apply letter_is|]. revert Hw. apply chars_impl. apply name_char_is.
Qed.
Lemma wide_free w : w <> "" /\ chars (fun c => wide_char c = true) w -> free_name w.
Proof.
  intros [N C]. split; [exact N|]. revert C. apply chars_impl. intros c H. unfold wide_char in H. apply orb_true_iff in H as [H|H].
  - apply name_char_is in H. tauto.
  - apply eq_char_eq in H as <-. tauto.
Qed.
Lemma gives_textNC : gives textNC free_name.
Proof. apply gives_tok. intros s w r E. apply wide_free. eapply gives_many1. exact E. Qed.
Lemma gives_textDQ : gives textDQ quotable.
Proof.
  apply gives_tok. apply gives_skip. intros _. apply (gives_bind _ _ (fun w => w <> "" /\ chars (fun c => negb (eq_char quote c) = true) w)); [apply gives_many1|]. intros w [N C].
  apply gives_skip. intros _. apply gives_ret. split; [exact N|]. revert C. apply chars_impl. intros c H. apply negb_true_iff, eq_char_neq in H. unfold quote in H. congruence.
Qed.
Lemma gives_textEOL : gives textEOL (fun l => l <> "" /\ chars (fun c => ~ newline c) l).
Proof.
  apply gives_tok. apply (gives_bind _ _ (fun w => w <> "" /\ chars (fun c => negb (line_end c) = true) w)); [apply gives_many1|]. intros w [N C].
  apply gives_skip. intros _. apply gives_ret. split; [exact N|]. revert C. apply chars_impl. intros c H X. apply newline_line_end in X. rewrite X in H. discriminate.
Qed.
Lemma zero32 : int32 0. Proof. unfold int32. lia. Qed.

Section Rules.
  Context (value : string -> Q).
  (** the next word of a rule *)
  Ltac gv := lazymatch goal with
    | |- gives (pbind int _) _ => eapply gives_bind; [apply gives_int'|intros ? ?]
    | |- gives (pbind int_ _) _ => eapply gives_bind; [apply gives_int|intros ? ?]
    | |- gives (pbind (chr _) _) _ => eapply gives_bind; [apply gives_chr|intros ? ?]
    | |- gives (pbind text _) _ => eapply gives_bind; [apply gives_text|intros ? ?]
    | |- gives (pbind textNC _) _ => eapply gives_bind; [apply gives_textNC|intros ? ?]
    | |- gives (pbind textDQ _) _ => eapply gives_bind; [apply gives_textDQ|intros ? ?]
    | |- gives (pbind (many1 wide_char) _) _ => eapply gives_bind; [apply gives_many1|let H := fresh "H" in intros ? H; apply wide_free in H]
    | |- gives (pbind (popt (chr _)) _) _ => eapply gives_bind; [apply gives_opt, gives_chr|intros ? ?]
    | |- gives (pbind _ _) _ => apply gives_skip; intros ?
    | |- gives (palt _ _) _ => apply gives_alt
    | |- gives (pret _) _ => apply gives_ret
    | |- gives (two _ _) _ => unfold two
    | |- gives (three _ _) _ => unfold three
    end.
  Lemma g_piece : gives (palt (q <~ point_ value ;; pret (PPoint q)) (arc value)) arc_ok.
  Proof.
    apply gives_alt; [gv; gv; exact I|]. unfold arc. apply (gives_bind _ _ (fun k => k = 0%Z \/ k = 1%Z)).
    - (* "ARC" is tried before "ARC3" and succeeds whenever that does *)
      unfold arc_kind. intros s k r E. unfold palt in E. destruct ((kw "ARC" >> pret 0%Z) s) as [x|] eqn:E1; [injection E as ->; unfold pbind in E1; destruct (kw "ARC" s) as [[u v]|]; [|discriminate]; injection E1 as <- _; now left|].
      destruct ((kw "RARC" >> pret 1%Z) s) as [x|] eqn:E2; [injection E as ->; unfold pbind in E2; destruct (kw "RARC" s) as [[u v]|]; [|discriminate]; injection E2 as <- _; now right|].
      exfalso. unfold pbind in E, E1. destruct (kw "ARC" s) as [[u v]|] eqn:K; [discriminate|]. destruct (kw "ARC3" s) as [[u v]|] eqn:K3; [|discriminate].
      unfold kw, tok in K, K3. apply nocase_inv in K3 as (c0 & s0 & E0 & L0 & K3). apply nocase_inv in K3 as (c1 & s1 & -> & L1 & K3). apply nocase_inv in K3 as (c2 & s2 & -> & L2 & _).
      assert (X : nocase "ARC" (skip s) = Some (tt, s2)).
      { rewrite E0. apply (nocase_reads "ARC" (String c0 (String c1 (String c2 ""))) s2). cbn. cbn in L0, L1, L2. now rewrite L0, L1, L2. }
      rewrite X in K. discriminate.
    - intros k Hk. gv. gv. gv. exact Hk.
  Qed.
  Lemma g_composite : gives (composite value) contour_ok.
  Proof.
    unfold composite. gv. gv. eapply gives_bind; [apply gives_star, g_piece|]. intros cs Hcs. gv. gv. split; [eauto|]. constructor; [exact I|exact Hcs].
  Qed.
  Lemma g_form : gives (form_ value) shape_ok.
  Proof.
    unfold form_. repeat apply gives_alt; try (unfold two, three, square, circle; repeat gv; exact I).
    gv. eapply gives_bind; [apply g_composite|]. intros cs Hcs. gv. exact Hcs.
  Qed.
  Lemma g_material : gives (material_ value) (fun m => call_ok (CMaterial m)).
  Proof.
    unfold material_. apply gives_alt; gv; gv.
    - repeat gv. split; [assumption|exact zero32].
    - gv. gv. gv. apply (gives_bind _ _ (fun l => int32 (snd l))); [|intros l Hl; gv; now split].
      intros s l r E. unfold loss in E. destruct (real value s) as [[q r1]|]; [|injection E as <- _; exact zero32].
      destruct (int r1) as [[i r2]|] eqn:Ei; injection E as <- _; [eapply gives_int'; exact Ei|exact zero32].
  Qed.
  Lemma g_layer : gives (layer_ value) (fun l => call_ok (CLayer l)).
  Proof. unfold layer_. repeat gv. cbn. tauto. Qed.
  Lemma g_shape : gives (shape_ value) (fun t => call_ok (CShape t)).
  Proof. unfold shape_. gv. eapply gives_bind; [apply g_form|]. intros f Hf. gv. now split. Qed.
  Lemma g_board : gives (board_ value) (fun b => call_ok (CBoard b)).
  Proof.
    unfold board_. repeat apply gives_alt.
    - gv. gv. gv. exact I.
    - gv. eapply gives_bind; [apply g_composite|]. intros cs Hcs. gv. exact Hcs.
    - repeat gv. now split.
    - repeat gv. now split.
  Qed.
  Lemma g_padstack : gives (padstack_ value) (fun p => call_ok (CPadstack p)).
  Proof.
    unfold padstack_. gv. gv. eapply gives_bind; [apply (gives_star _ (fun d => int32 (p_layer d) /\ int32 (p_shape d) /\ int32 (p_ap_shape d)))|].
    - unfold pad_. apply gives_tok. gv. gv. gv. gv. gv.
      eapply (gives_bind _ _ (fun o : option (Z * Q) => match o with Some x => int32 (fst x) | None => True end)).
      + apply (gives_opt _ (fun x => int32 (fst x))). repeat gv. assumption.
      + intros [[i q]|] Ho; repeat gv; cbn in *; (split; [assumption|split; [assumption|]]); [exact Ho|unfold int32; lia].
    - intros ps Hps. gv. gv. now split.
  Qed.
  Lemma g_via : gives (via_ value) (fun v => call_ok (CVia v)).
  Proof. unfold via_. apply gives_tok. repeat gv. cbn. auto. Qed.
  Lemma g_part : gives (part_ value) (fun p => call_ok (CPart p)).
  Proof.
    unfold part_. gv. gv. gv. eapply gives_bind; [apply (gives_star _ pin_ok)|].
    - unfold pin_. gv. gv. gv. eapply (gives_bind _ _ (fun o : option (Z * Z) => match o with Some x => int32 (fst x) /\ int32 (snd x) | None => True end)).
      + apply (gives_opt _ (fun x => int32 (fst x) /\ int32 (snd x))). repeat gv. now split.
      + intros [[i j]|] Ho; gv; cbn in *; unfold pin_ok; cbn; [tauto|]. split; [assumption|split; [assumption|split; unfold int32; lia]].
    - intros ps Hps. gv. gv. now split.
  Qed.
  Lemma g_net : gives (net_ value) (fun n => call_ok (CNet n)).
  Proof.
    unfold net_. gv. gv. gv. gv. gv. eapply gives_bind; [apply (gives_star _ node_ok)|].
    - unfold node_. repeat gv. unfold node_ok. cbn. tauto.
    - intros ns Hns. gv. gv. cbn. auto.
  Qed.
  Lemma g_object : gives (object_ value) object_ok.
  Proof.
    assert (D : forall k, gives (void_or k) (fun _ => True)) by (intros k; apply gives_any).
    unfold object_. repeat apply gives_alt.
    - unfold inst_path. gv. gv. gv. eapply gives_bind; [apply g_composite|]. intros cs Hcs. gv. now split.
    - unfold inst_via. gv. gv. gv. gv. gv. gv. gv. gv. cbn. repeat (split; [assumption|]). match goal with |- among _ (match ?o with _ => _ end) => destruct o as [c|]; [assumption|] end. exists "", "Y01". reflexivity.
    - unfold inst_bondwire. repeat gv. cbn. auto.
    - unfold inst_polygon. repeat gv. cbn. auto.
    - unfold inst_rectangle. gv. gv. apply (gives_bind _ _ (fun s => exists x y, s = SRectangle x y)); [unfold two; repeat gv; eauto|]. intros s (x & y & ->). gv. gv. cbn. auto.
    - unfold inst_square. gv. gv. apply (gives_bind _ _ (fun s => exists x, s = SSquare x)); [unfold square; repeat gv; eauto|]. intros s (x & ->). gv. gv. cbn. auto.
    - unfold inst_circle. gv. gv. apply (gives_bind _ _ (fun s => exists x, s = SCircle x)); [unfold circle; repeat gv; eauto|]. intros s (x & ->). gv. gv. cbn. auto.
    - unfold inst_annular. gv. gv. apply (gives_bind _ _ (fun s => exists x y, s = SAnnular x y)); [unfold two; repeat gv; eauto|]. intros s (x & y & ->). gv. gv. cbn. split; [assumption|split; [exact I|discriminate]].
    - unfold inst_composite. gv. gv. eapply gives_bind; [apply g_composite|]. intros cs Hcs. gv. now split.
    - unfold inst_shape. gv. gv. gv. gv. apply gives_alt; repeat gv; cbn; auto.
  Qed.
  Lemma g_route : gives (route_ value) (fun r => call_ok (CRoute r)).
  Proof. unfold route_. gv. gv. eapply gives_bind; [apply gives_star, g_object|]. intros os Hos. gv. gv. now split. Qed.
  Lemma g_unknown : gives unknown free_name.
  Proof. unfold unknown. gv. gv. gv. gv. gv. gv. gv. assumption. Qed.

  (** ** The whole file *)
  Definition adds (p : R) : Prop := forall db s db' o, p db s = (db', o) -> Forall call_ok db -> Forall call_ok db'.
  Lemma adds_act {A} (p : P A) f : gives p (fun a => call_ok (f a)) -> adds (act p f).
  Proof.
    intros G db s db' o E F. unfold act in E. destruct (p s) as [[a r]|] eqn:Ep; injection E as <- _; [|exact F].
    apply Forall_app. split; [exact F|]. constructor; [eapply G; exact Ep|constructor].
  Qed.
  Lemma adds_alt p q : adds p -> adds q -> adds (ralt p q).
  Proof. intros A B db s db' o E F. unfold ralt in E. destruct (p db s) as [d [r|]] eqn:Ep; [injection E as <- _|apply B in E]; try (eapply A; eassumption). apply E. eapply A; eassumption. Qed.
  Lemma adds_loop p : adds p -> forall n, adds (rloop n p).
  Proof.
    intros A. induction n as [|n IH]; intros db s db' o E F; cbn in E; [injection E as <- _; exact F|].
    destruct (p db s) as [d [r|]] eqn:Ep; [eapply IH; [exact E|eapply A; eassumption]|]. injection E as <- _. eapply A; eassumption.
  Qed.
  Lemma adds_nothing p : adds (nothing p).
  Proof. intros db s db' o E F. unfold nothing in E. destruct (p s) as [[a r]|]; injection E as <- _; exact F. Qed.
  Lemma adds_section nm {A} (p : P A) f : gives p (fun a => call_ok (f a)) -> adds (section nm p f).
  Proof.
    intros G db s db' o E F. unfold section in E. destruct (kw ("." ++ nm) s) as [[u r]|]; [|injection E as <- _; exact F].
    destruct (rstar (act p f) db r) as [d [r'|]] eqn:Es; apply (adds_loop _ (adds_act p f G)) in Es; specialize (Es F).
    - destruct (kw (".end " ++ nm) r') as [[u' r'']|]; injection E as <- _; exact Es.
    - injection E as <- _. exact Es.
  Qed.
  Lemma adds_item : adds (item value).
  Proof.
    unfold item, others.
    repeat match goal with |- adds (ralt _ _) => apply adds_alt | |- adds (section _ _ _) => apply adds_section | |- adds (nothing _) => apply adds_nothing | |- adds (act _ _) => apply adds_act end.
    - repeat gv. now split.
    - gv. apply gives_text.
    - gv. apply gives_text.
    - gv. apply gives_any.
    - apply g_material.
    - apply g_layer.
    - apply g_shape.
    - intros db s db' o E F. unfold board_section in E. destruct (kw ".board_geom" s) as [[u r]|]; [|injection E as <- _; exact F].
      destruct (board_ value r) as [[b r1]|] eqn:Eb.
      + assert (X : Forall call_ok (db ++ [CBoard b])%list) by (apply Forall_app; split; [exact F|constructor; [eapply g_board; exact Eb|constructor]]).
        destruct (kw ".end board_geom" r1) as [[u' r2]|]; injection E as <- _; exact X.
      + destruct (kw ".end board_geom" r) as [[u' r2]|]; injection E as <- _; exact F.
    - apply g_padstack.
    - apply g_via.
    - apply g_part.
    - apply g_net.
    - apply g_route.
    - apply g_unknown.
    - apply gives_textEOL.
  Qed.
  Lemma read_ok s : Forall call_ok (snd (read value s)).
  Proof.
    unfold read. destruct (rstar (item value) [] s) as [db [r|]] eqn:E; apply (adds_loop _ adds_item) in E; exact (E (Forall_nil _)).
  Qed.
End Rules.

(** ** A file that ends with a comment without a line end *)
Lemma open_comment : forall b t, chars (fun d => ~ newline d) b -> skip_from (Some t) b = t.
Proof.
  induction b as [|c b IH]; intros t H; [reflexivity|]. destruct H as [H Hb]. cbn [skip_from]. destruct (line_end c) eqn:E; [|now apply IH].
  exfalso. apply H. unfold line_end in E. apply orb_true_iff in E as [E|E]; apply Nat.eqb_eq in E; unfold code in E; [left|right]; rewrite <- (ascii_nat_embedding c), E; reflexivity.
Qed.
Lemma comment_skip g b : gap g -> chars (fun d => ~ newline d) b -> skip (g ++ String "#" b) = String "#" b.
Proof.
  intros G C. rewrite (gap_skip g _ G). unfold skip. cbn [skip_from]. change (space "#") with false. change (eq_char "#" "#") with true. cbv iota. now apply open_comment.
Qed.
Lemma span_all f b : chars (fun c => f c = true) b -> span f b = (b, "").
Proof. induction b as [|c b IH]; intros H; [reflexivity|]. destruct H as [H Hb]. cbn. now rewrite H, (IH Hb). Qed.
Lemma item_comment value db g b : gap g -> chars (fun d => ~ newline d) b -> item value db (g ++ String "#" b) = (db, None).
Proof.
  intros G C. pose proof (comment_skip g b G C) as S. revert S. generalize (g ++ String "#" b). intros t S.
  assert (K : forall k, kw (String "." k) t = None) by (intros k; unfold kw, tok; rewrite S; reflexivity).
  assert (Sy : sym "." t = None) by (unfold sym, tok; rewrite S; reflexivity).
  unfold item. rewrite ralt_r; [|apply others_none; apply K].
  do 12 (rewrite ralt_r; [|first [apply section_none; apply K | apply nothing_none, skipped_none; apply K | apply board_none; apply K]]).
  rewrite ralt_r; [|apply act_none; unfold unknown; apply pbind_none; exact Sy]. apply act_none. unfold textEOL, tok. rewrite S. unfold many1, pbind.
  rewrite (span_all _ (String "#" b)); [reflexivity|]. split; [reflexivity|]. revert C. apply chars_impl. intros c H. apply negb_true_iff.
  destruct (line_end c) eqn:E; [|reflexivity]. exfalso. apply H. unfold line_end in E. apply orb_true_iff in E as [E|E]; apply Nat.eqb_eq in E; unfold code in E; [left|right]; rewrite <- (ascii_nat_embedding c), E; reflexivity.
Qed.
Lemma file_open_comment value calls ws s g b :
  file_words value calls ws -> written ws s (g ++ "#" ++ b) -> gap g -> chars (fun d => ~ newline d) b -> read value s = (false, calls).
Proof.
  cbn [append]. intros (entries & -> & Al) W G C. unfold read.
  assert (X : forall db, rstar (item value) db s = ((db ++ List.concat entries)%list, Some (g ++ String "#" b))).
  { clear - Al W G C. revert s W. induction Al as [|c w l wl Hc Al IH]; intros s W db; rewrite (rstar_eq _ (item_eats value)).
    - inversion W; subst. rewrite (item_comment value db g b G C). cbn. now rewrite app_nil_r.
    - destruct (written_app _ _ _ _ W) as (m & W1 & W2). rewrite (item_reads value _ _ _ _ db Hc W1), (IH m W2). cbn [List.concat]. now rewrite app_assoc. }
  rewrite (X []), (comment_skip g b G C). reflexivity.
Qed.
