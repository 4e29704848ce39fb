(** Each rule of the grammar reads the words of its element. *)
From Coq Require Import Ascii QArith.
From Verif Require Import Base Text_Proofs Qi_Model XflText_Model XflText_Spec XflText_Proofs.
Close Scope Q_scope.
Open Scope list_scope.
Open Scope qi_scope.
Open Scope string_scope.
Open Scope nat_scope.

Lemma firm_sdp : forall d, one_of "SDP" d = true -> firm d = true. Proof. brute. Qed.
Lemma firm_xyn : forall d, one_of "XYN" d = true -> firm d = true. Proof. brute. Qed.
Lemma firm_spg : forall d, one_of "SPG" d = true -> firm d = true. Proof. brute. Qed.
Lemma firm_ny01 : forall d, one_of "NY01" d = true -> firm d = true. Proof. brute. Qed.
Lemma firm_ny : forall d, one_of "NY" d = true -> firm d = true. Proof. brute. Qed.
Lemma firm_rlc : forall d, one_of "RLCSDMO" d = true -> firm d = true. Proof. brute. Qed.
Lemma firm_rcd : forall d, one_of "RCD" d = true -> firm d = true. Proof. brute. Qed.
Lemma lower_dot : forall c, lower c = "."%char -> c = "."%char. Proof. brute. Qed.
Lemma end_dot nm e : keyword (".end " ++ nm) e -> exists r, e = String "." r.
Proof. destruct e as [|c e]; [contradiction|]. intros [A _]. apply alike_lower in A. apply lower_dot in A as ->. eauto. Qed.

(** ** Stepping through the words: [W] is what is written *)
Ltac nx W K := let r := fresh "r" in let E := fresh "E" in let V := fresh "V" in
  destruct K as (r & E & V); first [rewrite (pbind_some E) | idtac]; clear W; rename V into W; cbn [app] in W.
Ltac nt W := lazymatch type of W with
  | written (?x :: _) _ _ => lazymatch goal with
     | H : whole _ x |- _ => nx W (read_int _ _ _ _ _ H W)
     | H : num _ _ x |- _ => nx W (read_num _ _ _ _ _ _ H W)
     | H : quoted _ x |- _ => nx W (read_quoted _ _ _ _ _ H W)
     | H : name x |- _ => nx W (read_name _ _ _ _ H W)
     | H : free_name x |- _ => nx W (read_free _ _ _ _ H W)
     | H : keyword ?k x |- _ => nx W (read_kw k _ _ _ _ (eq_refl : sound_key k) H W)
     | H : one_char "SDP" _ x |- _ => nx W (read_char _ _ _ _ _ _ firm_sdp H W)
     | H : one_char "XYN" _ x |- _ => nx W (read_char _ _ _ _ _ _ firm_xyn H W)
     | H : one_char "SPG" _ x |- _ => nx W (read_char _ _ _ _ _ _ firm_spg H W)
     | H : one_char "NY01" _ x |- _ => nx W (read_char _ _ _ _ _ _ firm_ny01 H W)
     | H : one_char "NY" _ x |- _ => nx W (read_char _ _ _ _ _ _ firm_ny H W)
     | H : one_char "RLCSDMO" _ x |- _ => nx W (read_char _ _ _ _ _ _ firm_rlc H W)
     | H : one_char "RCD" _ x |- _ => nx W (read_char _ _ _ _ _ _ firm_rcd H W)
     | _ => lazymatch x with
            | "{" => nx W (read_brace "{" _ _ _ (or_introl eq_refl) W)
            | "}" => nx W (read_brace "}" _ _ _ (or_intror eq_refl) W)
            end
     end
  end.
(** a sub-element of which [L] says what it reads *)
Ltac sub W L H := let m := fresh "m" in let V := fresh "V" in let V' := fresh "V" in
  destruct (written_app _ _ _ _ W) as (m & V & V'); rewrite (pbind_some (L _ _ _ _ H V)); clear W V; rename V' into W; cbn [app] in W.
Ltac fin W := inversion W; subst; reflexivity.
Ltac kwr W := lazymatch type of W with
  | written (?x :: _) _ _ => lazymatch goal with
     | H : keyword ?k0 x |- _ => refine (kw_rejects _ k0 x _ _ _ (eq_refl : sound_key k0) H _ W); intros ?; reflexivity
     end
  end.
(** nothing is read at a word that starts with a certain character *)
Ltac at_char := eexists; eexists; split; [reflexivity|split; [first [eassumption|reflexivity]|intros ?]].

Lemma two_lists {A} (a b c : list A) : (a ++ b ++ c)%list = ((a ++ b) ++ c)%list.
Proof. apply app_assoc. Qed.

Lemma all_star {A} (p : P A) (f : A -> list string -> Prop) (T : string -> Prop) :
  eats p ->
  (forall a w s m, f a w -> written w s m -> T m -> p s = Some (a, m)) ->
  (forall a w s m, f a w -> written w s m -> T s) ->
  forall l ws s t, all_words f l ws -> written ws s t -> T t -> p t = None -> pstar p s = Some (l, t).
Proof.
  intros E R St l ws s t Al. revert s. induction Al as [|a w l wl Fa Al IH]; intros s W Tt N; rewrite (pstar_eq p E).
  - inversion W; subst. now rewrite N.
  - destruct (written_app _ _ _ _ W) as (m & W1 & W2).
    assert (Tm : T m).
    { inversion Al as [E1 E2|a' w' l' wl' Fa' Al' E1 E2]; subst; [inversion W2; now subst|].
      destruct (written_app _ _ _ _ W2) as (m' & W3 & _). eapply St; eassumption. }
    rewrite (R _ _ _ _ Fa W1 Tm), (IH m W2 Tt N). reflexivity.
Qed.
Lemma all_star0 {A} (p : P A) (f : A -> list string -> Prop) :
  eats p -> (forall a w s m, f a w -> written w s m -> p s = Some (a, m)) ->
  forall l ws s t, all_words f l ws -> written ws s t -> p t = None -> pstar p s = Some (l, t).
Proof. intros E R l ws s t Al W N. eapply (all_star p f (fun _ => True)); eauto. Qed.

Lemma kw_eats k : k <> "" -> eats (kw k).
Proof. intros H. now apply eats_tok, eats_nocase. Qed.
Lemma sym_eats k : k <> "" -> eats (sym k).
Proof. intros H. now apply eats_tok, eats_lit. Qed.
Lemma chr_eats cs : eats (chr cs). Proof. apply eats_tok, eats_one. Qed.
Lemma int_eats : eats int. Proof. apply eats_tok, eats_int. Qed.
Lemma textNC_eats : eats textNC. Proof. apply eats_tok, eats_many1. Qed.
Lemma text_eats : eats text.
Proof. apply eats_tok, eats_bind; [apply eats_one|]. intros a. apply keeps_bind; [apply keeps_many|]. intros w. apply keeps_ret. Qed.
Lemma textDQ_eats : eats textDQ.
Proof.
  apply eats_tok, eats_bind; [apply eats_one|]. intros _. apply keeps_bind; [apply eats_keeps, eats_many1|]. intros w.
  apply keeps_bind; [apply eats_keeps, eats_one|]. intros _. apply keeps_ret.
Qed.
Lemma textEOL_eats : eats textEOL.
Proof. apply eats_tok, eats_bind; [apply eats_many1|]. intros w. apply keeps_bind; [apply keeps_eol|]. intros _. apply keeps_ret. Qed.

Section Rules.
  Context (value : string -> Q).
  Notation real := (real value).
  Lemma real__eats : eats (real_ value).
  Proof. apply eats_bind; [apply eats_double|]. intros w. apply keeps_ret. Qed.
  Lemma real_eats : eats real.
  Proof. apply eats_tok, real__eats. Qed.
  Lemma point_eats : eats (point_ value).
  Proof. unfold point_. apply eats_bind; [apply real_eats|]. intros x. apply keeps_bind; [apply eats_keeps, real_eats|]. intros y. apply keeps_ret. Qed.
  (** [keeping] shows that a rule does not give back more than it got, [eating] that it takes something. *)
  Ltac keeping := lazymatch goal with
    | |- keeps (pbind _ _) => apply keeps_bind; [keeping|intros ?; keeping]
    | |- keeps (palt _ _) => apply keeps_alt; keeping
    | |- keeps (popt _) => apply keeps_opt; keeping
    | |- keeps (pstar _) => apply keeps_star; keeping
    | |- keeps (pret _) => apply keeps_ret
    | |- keeps (kw _) => apply eats_keeps, kw_eats; discriminate
    | |- keeps (sym _) => apply eats_keeps, sym_eats; discriminate
    | |- keeps (chr _) => apply eats_keeps, chr_eats
    | |- keeps int => apply eats_keeps, int_eats
    | |- keeps int_ => apply eats_keeps, eats_int
    | |- keeps real => apply eats_keeps, real_eats
    | |- keeps (real_ value) => apply eats_keeps, real__eats
    | |- keeps text => apply eats_keeps, text_eats
    | |- keeps textNC => apply eats_keeps, textNC_eats
    | |- keeps textDQ => apply eats_keeps, textDQ_eats
    | |- keeps (many1 _) => apply eats_keeps, eats_many1
    | |- keeps (many _) => apply keeps_many
    | |- keeps eol => apply keeps_eol
    | |- keeps (point_ value) => apply eats_keeps, point_eats
    | |- keeps _ => idtac
    end.
  Ltac eating := lazymatch goal with
    | |- eats (pbind _ _) => apply eats_bind; [eating|intros ?; keeping]
    | |- eats (palt _ _) => apply eats_alt; eating
    | |- eats (tok _) => apply eats_tok; eating
    | |- eats (kw _) => apply kw_eats; discriminate
    | |- eats (sym _) => apply sym_eats; discriminate
    | |- eats (chr _) => apply chr_eats
    | |- eats int => apply int_eats
    | |- eats int_ => apply eats_int
    | |- eats real => apply real_eats
    | |- eats text => apply text_eats
    | |- eats textNC => apply textNC_eats
    | |- eats textDQ => apply textDQ_eats
    | |- eats (many1 _) => apply eats_many1
    | |- eats (point_ value) => apply point_eats
    | |- eats _ => idtac
    end.

  Lemma real_no c r ws s t : numstart c = false -> firm c = true -> written (String c r :: ws) s t -> real s = None.
  Proof. intros H F W. refine (rejects_at _ _ _ _ _ _ W). at_char. now apply real_rejects. Qed.
  Lemma int_no c r ws s t : intstart c = false -> firm c = true -> written (String c r :: ws) s t -> int s = None.
  Proof. intros H F W. refine (rejects_at _ _ _ _ _ _ W). at_char. now apply int_rejects. Qed.
  Lemma textDQ_no c r ws s t : eq_char quote c = false -> firm c = true -> written (String c r :: ws) s t -> textDQ s = None.
  Proof. intros H F W. refine (rejects_at _ _ _ _ _ _ W). at_char. apply pbind_none. unfold one. now rewrite H. Qed.
  Lemma textNC_no c r ws s t : wide_char c = false -> firm c = true -> written (String c r :: ws) s t -> textNC s = None.
  Proof. intros H F W. refine (rejects_at _ _ _ _ _ _ W). at_char. apply many1_rejects. exact H. Qed.
  Lemma chr_no cs c r ws s t : one_of cs c = false -> firm c = true -> written (String c r :: ws) s t -> chr cs s = None.
  Proof. intros H F W. refine (rejects_at _ _ _ _ _ _ W). at_char. unfold one. now rewrite H. Qed.
  Lemma kw_no k a c r ws s t : (exists k', k = String a k') -> eq_char (lower a) (lower c) = false -> firm c = true -> written (String c r :: ws) s t -> kw k s = None.
  Proof. intros (k' & ->) H F W. refine (rejects_at _ _ _ _ _ _ W). at_char. cbn. now rewrite H. Qed.
  Lemma sym_no k a c r ws s t : (exists k', k = String a k') -> eq_char a c = false -> firm c = true -> written (String c r :: ws) s t -> sym k s = None.
  Proof. intros (k' & ->) H F W. refine (rejects_at _ _ _ _ _ _ W). at_char. cbn. now rewrite H. Qed.

  (** ** Points and shapes *)
  Lemma point_reads p w s m : point_words value p w -> written w s m -> point_ value s = Some (p, m).
  Proof. intros H W. destruct H. unfold point_. nt W. nt W. fin W. Qed.
  Lemma polygon_reads ps w s m : polygon_words value ps w -> written w s m -> polygon value s = Some (ps, m).
  Proof.
    intros H W. destruct H as [ps ws Al]. unfold polygon. nt W. destruct (written_app _ _ _ _ W) as (x & V & V').
    rewrite (@pbind_some _ _ _ _ _ ps x); [clear W V; rename V' into W; nt W; fin W|].
    refine (all_star0 _ _ point_eats point_reads _ _ _ _ Al V _). unfold point_. apply pbind_none. now apply (real_no "}" "" [] x m).
  Qed.
  Lemma keyword_numstart k x : (match k with String a _ => between 97 122 (lower a) | "" => false end) = true -> keyword k x -> exists c r, x = String c r /\ firm c = true /\ numstart c = false.
  Proof.
    destruct k as [|a k]; [discriminate|]. intros H K. destruct x as [|c x]; [contradiction|]. destruct K as [A _]. apply alike_lower in A. exists c, x.
    rewrite <- A in H. split; [reflexivity|]. revert H. clear. revert c. intros [[|] [|] [|] [|] [|] [|] [|] [|]]; vm_compute; auto.
  Qed.
  Lemma piece_reads c w s m : piece_words value c w -> written w s m -> palt (q <~ point_ value ;; pret (PPoint q)) (arc value) s = Some (c, m).
  Proof.
    intros H W. destruct H as [p ws Hp|k e we n wm K He Hn|k e we n wm K He Hn].
    - apply palt_l. rewrite (pbind_some (point_reads _ _ _ _ Hp W)). reflexivity.
    - rewrite palt_r.
      + unfold arc, arc_kind, palt.
        destruct (read_kw "ARC" k _ _ _ eq_refl K W) as (r & E & V). unfold pbind at 1 2. rewrite E. clear W. rename V into W. cbn [pret].
        sub W point_reads He. rewrite (pbind_some (point_reads _ _ _ _ Hn W)). reflexivity.
      + unfold point_. destruct (keyword_numstart "ARC" k eq_refl K) as (c & r & -> & F & N). apply pbind_none, pbind_none. eapply real_no; eassumption.
    - rewrite palt_r.
      + unfold arc. unfold arc_kind, palt.
        assert (N : kw "ARC" s = None) by kwr W.
        destruct (read_kw "RARC" k _ _ _ eq_refl K W) as (r & E & V). unfold pbind at 1 2. rewrite N. unfold pbind at 1. rewrite E. clear W. rename V into W. cbn [pret].
        sub W point_reads He. rewrite (pbind_some (point_reads _ _ _ _ Hn W)). reflexivity.
      + unfold point_. destruct (keyword_numstart "RARC" k eq_refl K) as (c & r & -> & F & N). apply pbind_none, pbind_none. eapply real_no; eassumption.
  Qed.

  Lemma arc_eats : eats (arc value).
  Proof. unfold arc, arc_kind. eating. Qed.
  Lemma piece_eats : eats (palt (q <~ point_ value ;; pret (PPoint q)) (arc value)).
  Proof. apply eats_alt; [eating|apply arc_eats]. Qed.
  Lemma composite_reads cs w s m : composite_words value cs w -> written w s m -> composite value s = Some (cs, m).
  Proof.
    intros H W. destruct H as [p wp cs ws Hp Al]. unfold composite. nt W. sub W point_reads Hp. destruct (written_app _ _ _ _ W) as (x & V & V').
    rewrite (@pbind_some _ _ _ _ _ cs x); [clear W V; rename V' into W; nt W; fin W|].
    refine (all_star0 _ _ piece_eats piece_reads _ _ _ _ Al V _). rewrite palt_r.
    - unfold arc, arc_kind, palt. unfold pbind at 1 2. rewrite (kw_no "ARC" "A" "}" "" [] x m); eauto. unfold pbind at 1.
      rewrite (kw_no "RARC" "R" "}" "" [] x m); eauto. unfold pbind. rewrite (kw_no "ARC3" "A" "}" "" [] x m); eauto.
    - unfold point_. apply pbind_none, pbind_none. now apply (real_no "}" "" [] x m).
  Qed.
  Ltac inv H := inversion H; subst; clear H.
  Ltac ins := repeat match goal with
    | H : nums _ (_ :: _) _ |- _ => inv H
    | H : nums _ [] _ |- _ => inv H
    end.
  Lemma form_reads f w s m : shape_words value f w -> written w s m -> form_ value s = Some (f, m).
  Proof.
    intros H W. unfold form_. destruct H; ins;
      repeat (rewrite palt_r; [|apply pbind_none; kwr W]); try apply palt_l; nt W;
      first [ unfold two, three, square, circle; repeat nt W; fin W
            | match goal with Hp : polygon_words _ _ _ |- _ => rewrite (pbind_some (polygon_reads _ _ _ _ Hp W)); reflexivity end
            | match goal with Hp : composite_words _ _ _ |- _ => rewrite (pbind_some (composite_reads _ _ _ _ Hp W)); reflexivity end ].
  Qed.
  Lemma shape_reads f w s m : template_words value f w -> written w s m -> shape_ value s = Some (f, m).
  Proof. intros H W. destruct H as [i wi f ws Hi Hf]. unfold shape_. nt W. now rewrite (pbind_some (form_reads _ _ _ _ Hf W)). Qed.
  Lemma polygon_keeps : keeps (polygon value).
  Proof. unfold polygon. keeping. Qed.
  Lemma composite_keeps : keeps (composite value).
  Proof. unfold composite. keeping. apply eats_keeps, arc_eats. Qed.
  Lemma form_keeps : keeps (form_ value).
  Proof. unfold form_, two, three, square, circle. keeping; first [apply polygon_keeps|apply composite_keeps]. Qed.
  Lemma shape_eats : eats (shape_ value).
  Proof. unfold shape_. eating. apply form_keeps. Qed.

  Lemma one_char_start cs x wx : one_char cs x wx -> wx = String x "" /\ one_of cs x = true.
  Proof. intros (-> & a & b & ->). split; [reflexivity|apply one_of_app]. Qed.
  Lemma xyn_num : forall c, one_of "XYN" c = true -> numstart c = false. Proof. brute. Qed.
  Lemma ny_num : forall c, one_of "NY" c = true -> numstart c = false. Proof. brute. Qed.
  Lemma board_reads b w s m : board_words value b w -> written w s m -> board_ value s = Some (b, m).
  Proof.
    intros H W. unfold board_. destruct H as [k ps ws K Hp|k cs ws K Hp|k i wi p wp r wr y wm K Hi Hp Hr Hm|k i wi p wp r wr y wm K Hi Hp Hr Hm];
      repeat (rewrite palt_r; [|apply pbind_none; kwr W]).
    - apply palt_l. nt W. now rewrite (pbind_some (polygon_reads _ _ _ _ Hp W)).
    - apply palt_l. nt W. now rewrite (pbind_some (composite_reads _ _ _ _ Hp W)).
    - apply palt_l. nt W. nt W. sub W point_reads Hp. nt W. nt W. fin W.
    - rewrite palt_r.
      + nt W. nt W. sub W point_reads Hp. nt W. nt W. fin W.
      + nt W. nt W. sub W point_reads Hp. apply pbind_none. destruct (one_char_start _ _ _ Hm) as [-> O].
        exact (real_no _ _ _ _ _ (xyn_num _ O) (firm_xyn _ O) W).
  Qed.

  (** ** Materials and layers *)
  Lemma lower_cd : forall c, lower c = "c"%char \/ lower c = "d"%char -> numstart c = false.
  Proof. intros [[|] [|] [|] [|] [|] [|] [|] [|]]; vm_compute; intros [H|H]; try reflexivity; discriminate. Qed.
  Lemma material_start a w s m : material_words value a w -> written w s m -> real s = None.
  Proof.
    intros H W. assert (X : exists k ws, w = k :: ws /\ (keyword "C" k \/ keyword "D" k)) by (destruct H; eauto).
    destruct X as (k & ws & -> & K). assert (Y : exists c r, k = String c r /\ firm c = true /\ (lower c = "c"%char \/ lower c = "d"%char)).
    { destruct K as [K|K]; [destruct (keyword_start "C" _ eq_refl K) as (c & r & -> & F & L)|destruct (keyword_start "D" _ eq_refl K) as (c & r & -> & F & L)];
      exists c, r; cbn in L; auto. }
    destruct Y as (c & r & -> & F & L). eapply real_no; [apply lower_cd; exact L|exact F|exact W].
  Qed.
  Lemma material_reads a w s m : material_words value a w -> written w s m -> real m = None -> material_ value s = Some (a, m).
  Proof.
    intros H W N. unfold material_. destruct H.
    - apply palt_l. do 3 nt W. fin W.
    - rewrite palt_r; [|apply pbind_none; kwr W]. do 5 nt W. inversion W; subst.
      rewrite (@pbind_some _ _ (loss value) _ m (0%Q, 0%Z) m); [reflexivity|]. unfold loss. now rewrite N.
    - rewrite palt_r; [|apply pbind_none; kwr W]. do 5 nt W.
      destruct (read_num value _ _ _ _ _ ltac:(eassumption) W) as (r5 & E5 & W5).
      destruct (read_int _ _ _ _ _ ltac:(eassumption) W5) as (r6 & E6 & W6). inversion W6; subst.
      rewrite (@pbind_some _ _ (loss value) _ r3 (d, i) m); [reflexivity|]. unfold loss. now rewrite E5, E6.
  Qed.
  Lemma loss_keeps : keeps (loss value).
  Proof.
    intros s a r H. unfold loss in H. destruct (real s) as [[q r1]|] eqn:E1; [|injection H as <- <-; lia]. apply real_eats in E1.
    destruct (int r1) as [[i r2]|] eqn:E2; injection H as <- <-; [apply int_eats in E2|]; lia.
  Qed.
  Lemma material_eats : eats (material_ value).
  Proof. unfold material_. eating. apply loss_keeps. Qed.
  Lemma layer_reads a w s m : layer_words value a w -> written w s m -> layer_ value s = Some (a, m).
  Proof. intros H W. destruct H. unfold layer_. do 5 nt W. fin W. Qed.
  Lemma layer_eats : eats (layer_ value).
  Proof. unfold layer_. eating. Qed.

  (** ** Lines *)
  Definition line_tail (e : string) : Prop := e = String "010" "" \/ e = String "013" (String "010" "").
  Lemma spaces_true b : spaces b -> chars (fun c => eq_char " " c = true) b.
  Proof. apply chars_impl. intros c ->. reflexivity. Qed.
  Lemma blanks_reads b r : spaces b -> match r with "" => True | String c _ => eq_char " " c = false end -> blanks (String " " (b ++ r)) = Some (String " " b, r).
  Proof. intros B R. change (String " " (b ++ r)) with (String " " b ++ r). apply many1_reads; [discriminate| |exact R]. split; [reflexivity|now apply spaces_true]. Qed.
  Lemma tail_quiet b e m : spaces b -> line_tail e -> quiet (b ++ e ++ m).
  Proof. intros B E. destruct b as [|c b]; [destruct E as [->| ->]; reflexivity|]. destruct B as [-> _]. reflexivity. Qed.
  Lemma tail_none {A} (p : P A) b e m : spaces b -> line_tail e -> (forall c y, newline c -> p (String c y) = None) -> popt (blanks >> p) (b ++ e ++ m) = Some (None, b ++ e ++ m).
  Proof.
    intros B E N. apply popt_none. assert (X : match (e ++ m) with "" => True | String c _ => eq_char " " c = false end) by (destruct E as [->| ->]; reflexivity).
    destruct b as [|c b].
    - cbn [append]. apply pbind_none. now apply many1_rejects.
    - destruct B as [-> B]. cbn [append]. rewrite (pbind_some (blanks_reads b (e ++ m) B X)).
      destruct E as [->| ->]; cbn [append]; apply N; [now left|now right].
  Qed.
  Lemma tail_reads {A} (a : A) b e m : spaces b -> line_tail e -> (blanks0 >> eol >> pret a) (b ++ e ++ m) = Some (a, m).
  Proof.
    intros B E. rewrite (@pbind_some _ _ _ _ _ b (e ++ m)).
    - destruct E as [->| ->]; reflexivity.
    - apply many_reads; [now apply spaces_true|]. destruct E as [->| ->]; reflexivity.
  Qed.
  Lemma newline_int c : newline c -> intstart c = false. Proof. intros [->| ->]; reflexivity. Qed.
  Lemma newline_num c : newline c -> numstart c = false. Proof. intros [->| ->]; reflexivity. Qed.
  Lemma num_space : forall c, numstart c = true -> eq_char " " c = false. Proof. brute. Qed.
  Lemma wide_space : forall c, wide_char c = true -> eq_char " " c = false. Proof. brute. Qed.
  Lemma number_head w x : number w -> match (w ++ x) with "" => True | String c _ => eq_char " " c = false end.
  Proof. intros N. destruct (number_nonempty w N) as (c & r & -> & C). cbn. now apply num_space. Qed.
  Lemma free_head w x : free_name w -> match (w ++ x) with "" => True | String c _ => eq_char " " c = false end.
  Proof. intros N. destruct (free_start w N) as (c & r & -> & C). cbn. now apply wide_space. Qed.
  (** the next field of a line *)
  Ltac fld := lazymatch goal with
    | H : whole ?z ?w |- pbind int_ _ (?w ++ ?x) = _ => rewrite (pbind_some (int_reads z w x H ltac:(first [reflexivity | apply tail_quiet; assumption])))
    | H : num _ ?q ?w |- pbind (real_ _) _ (?w ++ ?x) = _ => rewrite (pbind_some (real_raw_reads value q w x H ltac:(first [reflexivity | apply tail_quiet; assumption])))
    | H : free_name ?w |- pbind (many1 wide_char) _ (?w ++ ?x) = _ => rewrite (pbind_some (free_raw w x H ltac:(first [reflexivity | apply tail_quiet; assumption])))
    | H : spaces ?b |- pbind blanks _ (String " " (?b ++ ?x)) = _ =>
        rewrite (pbind_some (blanks_reads b x H ltac:(first [apply number_head; first [eapply whole_number; eassumption | match goal with Hn : num _ _ _ |- _ => exact (proj1 Hn) end] | apply free_head; assumption])))
    end.
  Ltac lines := repeat match goal with
    | H : line (_ :: _ :: _) _ |- _ => destruct H as (? & ? & -> & ? & H)
    | H : line [_] _ |- _ => destruct H as (? & ? & -> & ? & ?)
    end.

  Lemma firm_app w x : (exists c r, w = String c r /\ firm c = true) -> firm_start (w ++ x).
  Proof. intros (c & r & -> & F). exact F. Qed.
  Lemma whole_firm z w : whole z w -> exists c r, w = String c r /\ firm c = true.
  Proof. intros H. destruct (whole_start _ _ H) as (c & y & -> & I). exists c, y. split; [reflexivity|]. now apply numstart_firm, intstart_numstart. Qed.
  Lemma free_firm w : free_name w -> exists c r, w = String c r /\ firm c = true.
  Proof. intros H. destruct (free_start _ H) as (c & y & -> & I). exists c, y. split; [reflexivity|]. now apply wide_firm. Qed.
  Lemma pad_reads a w s m : pad_words value a w -> written w s m -> pad_ value s = Some (a, m).
  Proof.
    intros H W. unfold pad_, tok. destruct H as [l wl sh ws q wq w Hl Hs Hr L|l wl sh ws q wq a wa q2 wq2 w Hl Hs Hr Ha Hq L];
      lines; apply written_inv in W as (g & r' & -> & G & _ & W); inversion W; subst;
      rewrite skip_gap; try exact G; try (rewrite ?append_assoc; eapply firm_app, whole_firm, Hl);
      rewrite ?append_assoc; cbn [append]; rewrite ?append_assoc.
    - do 5 fld. match goal with |- pbind _ _ ?x = _ => rewrite (@pbind_some _ _ _ _ _ None x) end.
      + now apply tail_reads.
      + apply tail_none; [assumption..|]. intros c y Hc. apply pbind_none. now apply int_rejects, newline_int.
    - do 5 fld. match goal with |- pbind _ _ (String _ (_ ++ _ ++ String _ (_ ++ _ ++ ?x))) = _ => rewrite (@pbind_some _ _ _ _ _ (Some (a, q2)) x) end.
      + now apply tail_reads.
      + apply popt_some. do 4 fld. reflexivity.
  Qed.
  Lemma pad_eats : eats (pad_ value).
  Proof. unfold pad_, blanks, blanks0. apply eats_tok. eating. Qed.
  Lemma padstack_reads a w s m : padstack_words value a w -> written w s m -> padstack_ value s = Some (a, m).
  Proof.
    intros H W. destruct H as [i wi ps ws Hi Al]. unfold padstack_. do 2 nt W. destruct (written_app _ _ _ _ W) as (x & V & V').
    rewrite (@pbind_some _ _ _ _ _ ps x); [clear W V; rename V' into W; nt W; fin W|].
    refine (all_star0 _ _ pad_eats pad_reads _ _ _ _ Al V _). unfold pad_. refine (rejects_at _ _ _ _ _ _ V'). at_char. apply pbind_none. now apply int_rejects.
  Qed.
  Lemma padstack_eats : eats (padstack_ value).
  Proof. unfold padstack_. eating. apply eats_keeps, pad_eats. Qed.
  Lemma via_reads a w s m : via_words value a w -> written w s m -> via_ value s = Some (a, m).
  Proof.
    intros H W. unfold via_, tok. destruct H as [n p wp pr wpr sh ws sr wsr w Hn Hp Hpr Hs Hsr L|n p wp pr wpr sh ws sr wsr t wt mt w Hn Hp Hpr Hs Hsr Ht Hm L];
      lines; apply written_inv in W as (g & r' & -> & G & _ & W); inversion W; subst;
      rewrite skip_gap; try exact G; try (rewrite ?append_assoc; eapply firm_app, free_firm, Hn);
      rewrite ?append_assoc; cbn [append]; rewrite ?append_assoc.
    - do 9 fld. match goal with |- pbind _ _ ?x = _ => rewrite (@pbind_some _ _ _ _ _ None x) end.
      + now apply tail_reads.
      + apply tail_none; [assumption..|]. intros c y Hc. apply pbind_none. now apply real_rejects, newline_num.
    - do 9 fld. match goal with |- pbind _ _ (String _ (_ ++ _ ++ String _ (_ ++ _ ++ ?x))) = _ => rewrite (@pbind_some _ _ _ _ _ (Some (t, mt)) x) end.
      + now apply tail_reads.
      + apply popt_some. do 4 fld. reflexivity.
  Qed.
  Lemma via_eats : eats (via_ value).
  Proof. unfold via_, blanks, blanks0. apply eats_tok. eating. Qed.

  (** ** Nets *)
  Lemma node_reads a w s m : node_words value a w -> written w s m -> node_ value s = Some (a, m).
  Proof.
    intros H W. unfold node_. destruct H as [c p io loc wl l wy Hc Hp Hio Hl Hy|c p io x wx y wy loc wl l wz Hc Hp Hio Hx Hy Hl Hz]; do 3 nt W.
    - match goal with |- pbind _ _ ?x = _ => rewrite (@pbind_some _ _ _ _ _ None x) end.
      + nt W. sub W point_reads Hl. do 2 nt W. fin W.
      + apply popt_none, pbind_none. exact (int_no "{" "" _ _ _ eq_refl eq_refl W).
    - destruct (read_int _ _ _ _ _ Hx W) as (u & F1 & W1). destruct (read_int _ _ _ _ _ Hy W1) as (v & F2 & W2). clear W. rename W2 into W.
      rewrite (@pbind_some _ _ _ _ _ (Some (x, y)) v).
      + nt W. sub W point_reads Hl. do 2 nt W. fin W.
      + apply popt_some. rewrite (pbind_some F1), (pbind_some F2). reflexivity.
  Qed.
  Lemma node_eats : eats (node_ value).
  Proof. unfold node_. eating. Qed.
  Lemma nodes_read ns ws s t u : all_words (node_words value) ns ws -> written ws s t -> written ["}"] t u -> pstar (node_ value) s = Some (ns, t).
  Proof.
    intros Al V W. refine (all_star0 _ _ node_eats node_reads _ _ _ _ Al V _). unfold node_. apply pbind_none. exact (textNC_no "}" "" _ _ _ eq_refl eq_refl W).
  Qed.
  Lemma net_reads a w s m : net_words value a w -> written w s m -> net_ value s = Some (a, m).
  Proof.
    intros H W. unfold net_. destruct H as [n wn k wk b wb ns ws Hn Hk Hb Al|n wn k wk b wb x wx y wy z wz ns ws Hn Hk Hb Hx Hy Hz Al]; do 3 nt W.
    - match goal with |- pbind _ _ ?x = _ => rewrite (@pbind_some _ _ _ _ _ None x) end.
      + nt W. destruct (written_app _ _ _ _ W) as (v & V & V'). rewrite (pbind_some (nodes_read _ _ _ _ _ Al V V')). clear W V. rename V' into W. nt W. fin W.
      + apply popt_none, pbind_none. exact (int_no "{" "" _ _ _ eq_refl eq_refl W).
    - destruct (read_int _ _ _ _ _ Hx W) as (u & F1 & W1). destruct (read_int _ _ _ _ _ Hy W1) as (v & F2 & W2). destruct (read_int _ _ _ _ _ Hz W2) as (e & F3 & W3).
      clear W W1 W2. rename W3 into W. rewrite (@pbind_some _ _ _ _ _ (Some (x, y, z)) e).
      + nt W. destruct (written_app _ _ _ _ W) as (o & V & V'). rewrite (pbind_some (nodes_read _ _ _ _ _ Al V V')). clear W V. rename V' into W. nt W. fin W.
      + apply popt_some. rewrite (pbind_some F1), (pbind_some F2), (pbind_some F3). reflexivity.
  Qed.
  Lemma net_eats : eats (net_ value).
  Proof. unfold net_. eating. apply eats_keeps, node_eats. Qed.

  (** ** Routes *)
  Lemma void_or_reads k v x ws s t : sound_key k -> (forall y, begins (fold_case k) (fold_case ("void_" ++ k) ++ y) = false) -> void_word k v x ->
    written (x :: ws) s t -> exists r, void_or k s = Some (v, r) /\ written ws r t.
  Proof.
    intros So B H W. unfold void_or. destruct v; cbn [void_word] in H.
    - destruct (read_kw ("void_" ++ k) x _ _ _ (eq_refl : sound_key ("void_" ++ k)) H W) as (r & E & V). exists r. split; [|exact V]. rewrite palt_r.
      + now rewrite (pbind_some E).
      + apply pbind_none. exact (kw_rejects _ _ _ _ _ _ (eq_refl : sound_key ("void_" ++ k)) H B W).
    - destruct (read_kw k x _ _ _ So H W) as (r & E & V). exists r. split; [|exact V]. apply palt_l. now rewrite (pbind_some E).
  Qed.
  Ltac vw W := lazymatch type of W with
    | written (?x :: _) _ _ => lazymatch goal with
       | H : void_word ?k _ x |- _ => nx W (void_or_reads k _ _ _ _ _ (eq_refl : sound_key k) (fun y => eq_refl) H W)
       end
    end.
  Ltac kwv W := lazymatch type of W with
    | written (?x :: _) _ _ => lazymatch goal with
       | H : keyword _ x |- _ => kwr W
       | H : void_word ?k ?v x |- _ => destruct v; cbn [void_word] in H; kwr W
       end
    end.
  Ltac no_inst W := unfold inst_path, inst_via, inst_bondwire, inst_polygon, inst_rectangle, inst_square, inst_circle, inst_annular, inst_composite;
    apply pbind_none; first [kwv W | unfold void_or; rewrite palt_r; apply pbind_none; kwv W].
  Definition quiet_next (t : string) : Prop := chr "NY01" t = None.
  Lemma lower_object : forall c, one_of "NY01" c = true -> one_of "ny01" (lower c) = true. Proof. brute. Qed.
  Lemma object_key k x ws s t : sound_key k -> match k with String a _ => one_of "ny01" (lower a) = false | "" => False end -> keyword k x -> written (x :: ws) s t -> quiet_next s.
  Proof.
    intros So N K W. destruct (keyword_start k x So K) as (c & r & -> & F & L). refine (chr_no _ c r _ _ _ _ F W).
    destruct (one_of "NY01" c) eqn:O; [|reflexivity]. apply lower_object in O. destruct k as [|a k]; [contradiction|]. rewrite L, N in O. discriminate.
  Qed.
  Lemma object_start a w s m : object_words value a w -> written w s m -> quiet_next s.
  Proof.
    intros H W. destruct H; match goal with
      | K : keyword ?k _ |- _ => exact (object_key k _ _ _ _ (eq_refl : sound_key k) eq_refl K W)
      | K : void_word ?k ?v _ |- _ => destruct v; cbn [void_word] in K;
          match type of K with keyword ?k _ => exact (object_key k _ _ _ _ (eq_refl : sound_key k) eq_refl K W) end
      end.
  Qed.
  Lemma object_reads a w s m : object_words value a w -> written w s m -> quiet_next m -> object_ value s = Some (a, m).
  Proof.
    intros H W Q. unfold object_. destruct H; ins; repeat (rewrite palt_r; [|no_inst W]); try apply palt_l.
    - unfold inst_path. do 3 nt W. match goal with Hc : composite_words _ _ _ |- _ => now rewrite (pbind_some (composite_reads _ _ _ _ Hc W)) end.
    - unfold inst_via. do 4 nt W. match goal with Hp : point_words _ _ _ |- _ => sub W point_reads Hp end. nt W. inversion W; subst.
      rewrite (pbind_some (popt_none Q)). reflexivity.
    - unfold inst_via. do 4 nt W. match goal with Hp : point_words _ _ _ |- _ => sub W point_reads Hp end. nt W.
      destruct (read_char _ _ _ _ _ _ firm_ny01 ltac:(eassumption) W) as (u & F1 & W1). rewrite (pbind_some (popt_some F1)). fin W1.
    - unfold inst_bondwire. do 4 nt W. match goal with Hp : point_words _ p _ |- _ => sub W point_reads Hp end. match goal with Hp : point_words _ q _ |- _ => sub W point_reads Hp end.
      destruct (read_free a _ _ _ ltac:(eassumption) W) as (u & F1 & W1). destruct (read_free b _ _ _ ltac:(eassumption) W1) as (v & F2 & W2).
      inversion W2; subst. rewrite (@pbind_some _ _ _ _ _ (Some b) m); [reflexivity|]. apply popt_some. now rewrite (pbind_some F1).
    - unfold inst_polygon. vw W. nt W. match goal with Hc : polygon_words _ _ _ |- _ => now rewrite (pbind_some (polygon_reads _ _ _ _ Hc W)) end.
    - unfold inst_composite. vw W. nt W. match goal with Hc : composite_words _ _ _ |- _ => now rewrite (pbind_some (composite_reads _ _ _ _ Hc W)) end.
    - unfold inst_rectangle, two. vw W. nt W. cbn [app] in W. unfold pbind at 1. do 2 nt W. unfold pret at 1. match goal with Hp : point_words _ _ _ |- _ => now rewrite (pbind_some (point_reads _ _ _ _ Hp W)) end.
    - unfold inst_square, square. vw W. nt W. cbn [app] in W. unfold pbind at 1. nt W. unfold pret at 1. match goal with Hp : point_words _ _ _ |- _ => now rewrite (pbind_some (point_reads _ _ _ _ Hp W)) end.
    - unfold inst_circle, circle. vw W. nt W. cbn [app] in W. unfold pbind at 1. nt W. unfold pret at 1. match goal with Hp : point_words _ _ _ |- _ => now rewrite (pbind_some (point_reads _ _ _ _ Hp W)) end.
    - unfold inst_annular, two. nt W. nt W. cbn [app] in W. unfold pbind at 1. do 2 nt W. unfold pret at 1. match goal with Hp : point_words _ _ _ |- _ => now rewrite (pbind_some (point_reads _ _ _ _ Hp W)) end.
    - unfold inst_shape. vw W. do 2 nt W. match goal with Hp : point_words _ _ _ |- _ => sub W point_reads Hp end. apply palt_l. do 2 nt W. fin W.
    - unfold inst_shape. vw W. do 2 nt W. match goal with Hp : point_words _ _ _ |- _ => sub W point_reads Hp end. rewrite palt_r.
      + do 2 nt W. fin W.
      + apply pbind_none. match goal with Hm : one_char _ _ _ |- _ => destruct (one_char_start _ _ _ Hm) as [-> O] end.
        exact (real_no _ _ _ _ _ (ny_num _ O) (firm_ny _ O) W).
  Qed.
  Lemma void_or_eats k : k <> "" -> eats (void_or k).
  Proof. intros H. unfold void_or. apply eats_alt; (apply eats_bind; [apply kw_eats|intros _; apply keeps_ret]); [exact H|discriminate]. Qed.
  Lemma object_eats : eats (object_ value).
  Proof.
    unfold object_, inst_path, inst_via, inst_bondwire, inst_polygon, inst_rectangle, inst_square, inst_circle, inst_annular, inst_composite, inst_shape, two, square, circle.
    eating; first [apply void_or_eats; discriminate | apply polygon_keeps | apply composite_keeps].
  Qed.
  Lemma route_reads a w s m : route_words value a w -> written w s m -> route_ value s = Some (a, m).
  Proof.
    intros H W. destruct H as [n wn os ws Hn Al]. unfold route_. do 2 nt W. destruct (written_app _ _ _ _ W) as (x & V & V').
    rewrite (@pbind_some _ _ _ _ _ os x); [clear W V; rename V' into W; nt W; fin W|].
    refine (all_star _ _ quiet_next object_eats object_reads object_start _ _ _ _ Al V _ _).
    - exact (chr_no "NY01" "}" "" _ _ _ eq_refl eq_refl V').
    - assert (N : forall k a, (exists k', k = String a k') -> eq_char (lower a) (lower "}") = false -> kw k x = None) by (intros k a Hk Ha; exact (kw_no k a "}" "" _ _ _ Hk Ha eq_refl V')).
      unfold object_. repeat rewrite palt_r;
        unfold inst_path, inst_via, inst_bondwire, inst_polygon, inst_rectangle, inst_square, inst_circle, inst_annular, inst_composite, inst_shape;
        apply pbind_none; unfold void_or; try (rewrite palt_r; apply pbind_none); (eapply N; [eexists; reflexivity|reflexivity]).
  Qed.
  Lemma route_eats : eats (route_ value).
  Proof. unfold route_. eating. apply eats_keeps, object_eats. Qed.

  (** ** Parts *)
  Definition at_brace (m : string) : Prop := exists ws t, written ("{" :: ws) m t.
  Lemma pins_start ps x l : pins_words value ps (x :: l) -> free_name x.
  Proof. intros H. inversion H as [|p ws qs wps Hp Hps E1 E2|]; subst; [|assumption]. destruct Hp. cbn in E2. injection E2 as <- _. assumption. Qed.
  Lemma no_number_int x : free_name x -> no_number [x] -> exists c r, x = String c r /\ intstart c = false /\ firm c = true.
  Proof.
    intros F N. destruct (free_start x F) as (c & r & -> & Wc). exists c, r. split; [reflexivity|]. split; [|now apply wide_firm].
    cbn in N. destruct N as (D & Pl & Mi). unfold intstart. apply orb_false_iff. split.
    - destruct (digit c) eqn:E; [|reflexivity]. exfalso. apply D. unfold digit, between, code in E. apply andb_true_iff in E as [A B]. rewrite Nat.leb_le in A, B.
      unfold is_digit, range. change (nat_of_ascii "0") with 48. change (nat_of_ascii "9") with 57. lia.
    - unfold one_of. rewrite !orb_false_iff. repeat split; apply eq_char_neq; congruence.
  Qed.
  Lemma pin_eats : eats (pin_ value).
  Proof. unfold pin_. eating. Qed.
  Lemma pins_read ps ws s t u : pins_words value ps ws -> written ws s t -> written ["}"] t u -> pstar (pin_ value) s = Some (ps, t).
  Proof.
    intros H. revert s. induction H as [|p w ps wps Hp Hps IH|n p wp io ps wps Hn Hp Hio Hps IH Nn]; intros s W B; rewrite (pstar_eq _ pin_eats).
    - inversion W; subst. unfold pin_. rewrite (pbind_none (textNC_no "}" "" _ _ _ eq_refl eq_refl B)). reflexivity.
    - destruct (written_app _ _ _ _ W) as (m & V & V'). assert (E : pin_ value s = Some (p, m)).
      { clear W. destruct Hp as [n q wq io a wa b wb Hn Hq Hio Ha Hb]. unfold pin_. nt V. sub V point_reads Hq. nt V.
        destruct (read_int _ _ _ _ _ Ha V) as (x & F1 & W1). destruct (read_int _ _ _ _ _ Hb W1) as (y & F2 & W2). inversion W2; subst.
        rewrite (@pbind_some _ _ _ _ _ (Some (a, b)) m); [reflexivity|]. apply popt_some. now rewrite (pbind_some F1), (pbind_some F2). }
      rewrite E, (IH m V' B). reflexivity.
    - destruct (read_free _ _ _ _ Hn W) as (x & F1 & W1). cbn [app] in W1. destruct (written_app _ _ _ _ W1) as (y & W2 & W3).
      destruct (read_name _ _ _ _ Hio W3) as (z & F2 & W4).
      assert (I : int z = None).
      { destruct wps as [|x0 wps].
        - inversion W4; subst. exact (int_no "}" "" _ _ _ eq_refl eq_refl B).
        - destruct (no_number_int x0 (pins_start _ _ _ Hps) Nn) as (c & r & -> & Ic & Fc). exact (int_no c r _ _ _ Ic Fc W4). }
      assert (E : pin_ value s = Some (mkPin n io p (0, 0)%Z, z)).
      { unfold pin_. rewrite (pbind_some F1), (pbind_some (point_reads _ _ _ _ Hp W2)), (pbind_some F2).
        rewrite (@pbind_some _ _ _ _ _ None z); [reflexivity|]. apply popt_none. now apply pbind_none. }
      rewrite E, (IH z W4 B). reflexivity.
  Qed.
  Lemma brace_free m : at_brace m -> textNC m = None.
  Proof. intros (ws & t & W). exact (textNC_no "{" "" _ _ _ eq_refl eq_refl W). Qed.
  Lemma lower_n : forall c, c <> "n"%char -> c <> "N"%char -> eq_char "n" (lower c) = false. Proof. intros c A B. apply eq_char_neq. intros E. symmetry in E. revert A B E. revert c. intros [[|] [|] [|] [|] [|] [|] [|] [|]]; vm_compute; congruence. Qed.
  Lemma kind_reads a w s m : kind_words value a w -> written w s m -> at_brace m -> part_kind value s = Some (a, m).
  Proof.
    intros H W B. assert (N := brace_free m B). assert (K : kw "noflip" m = None) by (destruct B as (bs & b & Wb); exact (kw_no "noflip" "n" "{" "" _ _ _ (ex_intro _ _ eq_refl) eq_refl eq_refl Wb)).
    unfold part_kind. destruct H as [k wk v wv Hk Hv|k wk v wv f Hk Hv Hf|k wk v wv f y Hk Hv Hf Hy|k wk v wv y Hk Hv Hy Ny]; do 2 nt W.
    - inversion W; subst. rewrite (pbind_some (popt_none K)), (pbind_some (popt_none N)). reflexivity.
    - destruct (read_kw "noflip" _ _ _ _ eq_refl Hf W) as (x & F1 & W1). inversion W1; subst. rewrite (pbind_some (popt_some F1)), (pbind_some (popt_none N)). reflexivity.
    - destruct (read_kw "noflip" _ _ _ _ eq_refl Hf W) as (x & F1 & W1). destruct (read_free _ _ _ _ Hy W1) as (z & F2 & W2). inversion W2; subst.
      rewrite (pbind_some (popt_some F1)), (pbind_some (popt_some F2)). reflexivity.
    - assert (K2 : kw "noflip" r0 = None).
      { destruct (free_firm y Hy) as (c & q & -> & Fc). destruct Ny as [N1 N2]. refine (kw_no "noflip" "n" c q _ _ _ (ex_intro _ _ eq_refl) _ Fc W). now apply lower_n. }
      destruct (read_free _ _ _ _ Hy W) as (z & F2 & W2). inversion W2; subst. rewrite (pbind_some (popt_none K2)), (pbind_some (popt_some F2)). reflexivity.
  Qed.
  Definition extra_ : P part_extra := (s <~ chr "RCD" ;; a <~ point_ value ;; b <~ point_ value ;; h <~ real ;; k <~ popt (part_kind value) ;; pret (mkExtra s a b h k))%qi.
  Lemma extra_reads a w s m : extra_words value a w -> written w s m -> at_brace m -> extra_ s = Some (a, m).
  Proof.
    intros H W B. unfold extra_. destruct H as [c wc a wa b wb h wh Hc Ha Hb Hh|c wc a wa b wb h wh k wk Hc Ha Hb Hh Hk]; nt W; sub W point_reads Ha; sub W point_reads Hb; nt W.
    - inversion W; subst. rewrite (@pbind_some _ _ _ _ _ None m); [reflexivity|]. apply popt_none. unfold part_kind. apply pbind_none.
      destruct B as (bs & b0 & Wb). exact (chr_no "RLCSDMO" "{" "" _ _ _ eq_refl eq_refl Wb).
    - rewrite (pbind_some (popt_some (kind_reads _ _ _ _ Hk W B))). reflexivity.
  Qed.
  Lemma kind_keeps : keeps (part_kind value).
  Proof. unfold part_kind. keeping. Qed.
  Lemma part_reads a w s m : part_words value a w -> written w s m -> part_ value s = Some (a, m).
  Proof.
    intros H W. unfold part_. fold extra_. destruct H as [n ps ws Hn Hps|n x wx ps ws Hn Hx Hps]; nt W.
    - rewrite (@pbind_some _ _ _ _ r None r).
      + nt W. destruct (written_app _ _ _ _ W) as (y & V & V'). rewrite (pbind_some (pins_read _ _ _ _ _ Hps V V')). clear W V. rename V' into W. nt W. fin W.
      + apply popt_none. unfold extra_. apply pbind_none. exact (chr_no "RCD" "{" "" _ _ _ eq_refl eq_refl W).
    - destruct (written_app _ _ _ _ W) as (y & V & V'). rewrite (pbind_some (popt_some (extra_reads _ _ _ _ Hx V (ex_intro _ _ (ex_intro _ _ V'))))).
      clear W V. rename V' into W. nt W. destruct (written_app _ _ _ _ W) as (z & V & V'). rewrite (pbind_some (pins_read _ _ _ _ _ Hps V V')). clear W V. rename V' into W. nt W. fin W.
  Qed.
  Lemma part_eats : eats (part_ value).
  Proof. unfold part_. eating; first [apply kind_keeps | apply eats_keeps, pin_eats]. Qed.
End Rules.
