(** Lemmas for the text of DMC and DOM files. *)
From Coq Require Import Ascii Qround.
From Verif Require Import Base QSum Units_Model Units_Spec Units_Proofs Names_Model Net_Model LayerMap_Model Layers_Model Database_Model Dmc_Model Dmc_Spec Qi_Model
  Text_Proofs XflText_Spec XflText_Proofs DmcText_Model DmcText_Spec.
Open Scope res_scope.
Open Scope list_scope.
Open Scope string_scope.
Open Scope Z_scope.

(** ** Characters *)
Lemma space_white c : space c = true -> white c.
Proof. revert c. intros [[|] [|] [|] [|] [|] [|] [|] [|]]; vm_compute; intros; try discriminate; auto 10. Qed.
Lemma firm_space c : ~ white c -> space c = false.
Proof. intros N. destruct (space c) eqn:E; [|reflexivity]. now apply space_white in E. Qed.
Lemma white_quiet c : white c -> digit c = false /\ eq_char "." c = false /\ one_of "eE" c = false.
Proof. intros [->|[->|[->|[->|[->| ->]]]]]; repeat split. Qed.
Definition ends (r : string) : Prop := r = "" \/ exists c r', r = String c r' /\ white c.
Definition begins (f : ascii -> bool) (r : string) : Prop := match r with "" => True | String c _ => f c = false end.
Lemma ends_digit r : ends r -> begins digit r.
Proof. intros [->|(c & r' & -> & W)]; [exact I|]. apply (white_quiet c W). Qed.

Lemma skip_blanks b s : blanks b -> begins space s -> skip_ws (b ++ s) = s.
Proof.
  intros B S. unfold skip_ws. rewrite chars_true; [reflexivity| |exact S].
  revert B. apply chars_impl. intros c [W _]. now apply white_space.
Qed.
Lemma word_firm w r : word w -> begins space (w ++ r).
Proof. intros [N H]. destruct w as [|c w]; [contradiction|]. destruct H as [A _]. cbn. now apply firm_space. Qed.

Lemma sign_true sg s : plus_minus sg -> (match s with "" => True | String c _ => eq_char "-" c = false /\ eq_char "+" c = false end) ->
  get_sign (sg ++ s) = (String.eqb sg "-", s).
Proof.
  intros [->|[->| ->]] H; [|reflexivity|reflexivity]. cbn [append]. destruct s as [|c s]; [reflexivity|].
  destruct H as [A B]. cbn [get_sign]. now rewrite A, B.
Qed.
Lemma digit_unsigned c : digit c = true -> eq_char "-" c = false /\ eq_char "+" c = false.
Proof. revert c. intros [[|] [|] [|] [|] [|] [|] [|] [|]]; vm_compute; intros; try discriminate; auto. Qed.
Lemma with_sign_signed sg z : signed (String.eqb sg "-") z = with_sign sg z.
Proof. reflexivity. Qed.
Lemma value_decimal d : chars is_digit d -> digits_value 0 d = decimal d.
Proof. intros H. rewrite digits_value_decimal by exact H. lia. Qed.

Lemma digits_read b sg d r : blanks b -> plus_minus sg -> figures d -> word (sg ++ d) -> ends r ->
  get_digits (b ++ (sg ++ d) ++ r) = Some (String.eqb sg "-", decimal d, r).
Proof.
  intros B S F W E. unfold get_digits. rewrite skip_blanks; [|exact B|now apply word_firm].
  destruct (figures_cons d F) as (c & d' & Ed & Dc). rewrite append_assoc.
  rewrite sign_true; [|exact S|rewrite Ed; now apply digit_unsigned].
  destruct F as [N F]. rewrite chars_true; [|now apply digits_true|now apply ends_digit]. rewrite value_decimal by exact F.
  destruct d; [contradiction|reflexivity].
Qed.

(** ** A word of a line *)
Lemma line_inv w ws l : line_of (w :: ws) l -> exists b r, l = (b ++ w ++ r)%string /\ blanks b /\ word w /\ ends r /\ line_of ws r.
Proof. intros H. inversion H; subst. eauto 10. Qed.
Lemma int_word z w ws l : whole z w -> line_of (w :: ws) l -> exists r, get_int l = Some (z, r) /\ line_of ws r.
Proof.
  intros (sg & d & -> & S & F & V & R) L. destruct (line_inv _ _ _ L) as (b & r & -> & B & W & E & L'). exists r. split; [|exact L'].
  unfold get_int. rewrite digits_read by assumption. rewrite with_sign_signed. unfold with_sign. rewrite <- V.
  unfold in_int. rewrite !(proj2 (Z.leb_le _ _)) by lia. reflexivity.
Qed.
Lemma size_word w ws l : figures w -> decimal w < 2 ^ 64 -> line_of (w :: ws) l -> exists r, get_size l = Some (decimal w, r) /\ line_of ws r.
Proof.
  intros F R L. destruct (line_inv _ _ _ L) as (b & r & -> & B & W & E & L'). exists r. split; [|exact L'].
  unfold get_size. change w with ("" ++ w)%string. rewrite digits_read; [|exact B|now left|exact F|exact W|exact E].
  change (String.eqb "" "-") with false. change (signed false (decimal w)) with (decimal w).
  assert (0 <= decimal w).
  { destruct F as [_ F]. clear - F. induction w as [|c w IH]; [now cbn|]. destruct F as [D F]. cbn [decimal]. specialize (IH F).
    unfold is_digit, range in D. change (nat_of_ascii "0") with 48%nat in D. pose proof (Z.pow_nonneg 10 (Z.of_nat (String.length w))). nia. }
  rewrite (proj2 (Z.ltb_lt _ _)) by exact R. rewrite Z.mod_small by lia. reflexivity.
Qed.
Lemma word_word w ws l : line_of (w :: ws) l -> exists r, get_word l = Some (w, r) /\ line_of ws r.
Proof.
  intros L. destruct (line_inv _ _ _ L) as (b & r & -> & B & W & E & L'). exists r. split; [|exact L'].
  unfold get_word. rewrite skip_blanks; [|exact B|now apply word_firm]. destruct W as [N W].
  rewrite (chars_true (fun c => negb (space c))).
  - destruct w; [contradiction|reflexivity].
  - revert W. apply chars_impl. intros c H. now rewrite firm_space.
  - destruct E as [->|(c & r' & -> & Wc)]; [exact I|]. now rewrite white_space.
Qed.
Lemma no_word l : line_of [] l -> get_word l = None.
Proof.
  intros L. inversion L as [b B|]; subst. unfold get_word. rewrite <- (append_empty l). rewrite skip_blanks by (auto; exact I). reflexivity.
Qed.

Lemma begins_app f a r : chars (fun c => f c = true) a -> begins f r -> span f (a ++ r) = (a, r).
Proof. intros A B. now apply chars_true. Qed.
Lemma double_word q w ws l : number_of q w -> line_of (w :: ws) l ->
  exists r q', get_double l = Some (fl q', r) /\ (q' == q)%Q /\ line_of ws r.
Proof.
  intros (s & a & p & b' & e & z & Ew & S & A & B' & P & N & X & Q) L. destruct (line_inv _ _ _ L) as (b & r & -> & B & W & E & L').
  unfold get_double. rewrite skip_blanks; [|exact B|now apply word_firm]. rewrite Ew, !append_assoc.
  assert (Xd : begins digit (e ++ r) /\ begins (eq_char ".") (e ++ r)).
  { destruct X as [[-> _]|(c & s' & d & -> & C & _)].
    - cbn [append]. destruct E as [->|(c & r' & -> & Wc)]; [now split|]. destruct (white_quiet c Wc) as (D1 & D2 & _). now split.
    - cbn [append]. destruct C as [->| ->]; now split. }
  rewrite sign_true; [|exact S|].
  2: { destruct a as [|c a]; cbn [append].
       - destruct P as [->|[-> ->]]; cbn [append]; [now split|]. now contradiction N.
       - destruct A as [A _]. apply digit_unsigned. now apply is_digit_digit. }
  rewrite (chars_true digit a); [|now apply digits_true|].
  2: { destruct P as [->|[-> ->]]; cbn [append]; [reflexivity|apply Xd]. }
  assert (E2 : (match (p ++ b' ++ e ++ r)%string with String c r0 => if eq_char "." c then span digit r0 else ("", (p ++ b' ++ e ++ r)%string) | "" => ("", (p ++ b' ++ e ++ r)%string) end) = (b', (e ++ r)%string)).
  { destruct P as [->|[-> ->]]; cbn [append].
    - change (eq_char "." ".") with true. cbv iota. apply chars_true; [now apply digits_true|apply Xd].
    - destruct Xd as [_ X2]. destruct (e ++ r)%string as [|c t]; [reflexivity|]. unfold begins in X2. now rewrite X2. }
  rewrite E2. assert (AB : chars is_digit (a ++ b')) by (apply chars_app; now split).
  rewrite (proj2 (String.eqb_neq _ _)) by exact N. rewrite (value_decimal (a ++ b')) by exact AB.
  destruct X as [[-> ->]|(c & s' & d & -> & C & S' & F & ->)]; cbn [append].
  - exists r, (inject_Z (signed (String.eqb s "-") (decimal (a ++ b'))) * ten (- Z.of_nat (String.length b')))%Q. split; [|split; [|exact L']].
    + destruct E as [->|(c & r' & -> & Wc)]; [reflexivity|]. destruct (white_quiet c Wc) as (_ & _ & D3). rewrite D3. reflexivity.
    + rewrite Q. rewrite with_sign_signed. unfold ten. change (inject_Z 10 ^ 0)%Q with 1%Q. ring.
  - assert (Ce : one_of "eE" c = true) by (destruct C as [->| ->]; reflexivity). rewrite Ce, append_assoc.
    destruct (figures_cons d F) as (k & d' & Ed & Dk).
    rewrite sign_true; [|exact S'|rewrite Ed; now apply digit_unsigned].
    destruct F as [Nd F]. rewrite chars_true; [|now apply digits_true|now apply ends_digit]. rewrite (value_decimal d) by exact F.
    exists r, (inject_Z (signed (String.eqb s "-") (decimal (a ++ b'))) * ten (- Z.of_nat (String.length b')) * ten (signed (String.eqb s' "-") (decimal d)))%Q.
    split; [|split; [|exact L']].
    + destruct d; [contradiction|reflexivity].
    + rewrite Q. rewrite !with_sign_signed. unfold ten. ring.
Qed.

(** ** Lines *)
Lemma line_chars l : chars (fun c => c <> "010"%char) l -> forall s, lines (l ++ String "010" s) = l :: lines s.
Proof.
  induction l as [|c l IH]; intros H s; [reflexivity|]. destruct H as [A H]. cbn [append lines].
  destruct (eq_char "010" c) eqn:E; [apply eq_char_eq in E; congruence|]. now rewrite IH.
Qed.
Lemma line_only l : chars (fun c => c <> "010"%char) l -> lines l = [l].
Proof.
  induction l as [|c l IH]; intros H; [reflexivity|]. destruct H as [A H]. cbn [lines].
  destruct (eq_char "010" c) eqn:E; [apply eq_char_eq in E; congruence|]. now rewrite IH.
Qed.
Lemma text_lines ls s : text_of ls s -> filled_lines s = ls.
Proof.
  induction 1 as [|l O|l ls s O T IH|ls s T IH].
  - reflexivity.
  - destruct O as [N O]. unfold filled_lines. rewrite line_only by exact O. cbn [filter]. now rewrite (proj2 (String.eqb_neq _ _)) by exact N.
  - destruct O as [N O]. unfold filled_lines in *. rewrite line_chars by exact O. cbn [filter]. rewrite (proj2 (String.eqb_neq _ _)) by exact N.
    cbn [negb]. now rewrite IH.
  - unfold filled_lines in *. cbn [lines]. change (eq_char "010" "010") with true. cbn [filter]. exact IH.
Qed.

(** ** Coordinates *)
Lemma default_scale : (scale2coord default_units == 1000)%Q.
Proof. vm_compute. reflexivity. Qed.
Lemma close_comp e x x' y y' : (x == x')%Q -> (y == y')%Q -> close e x y -> close e x' y'.
Proof. intros A B [C D]. split; intros X; rewrite <- A, <- B in *; auto. Qed.
Lemma coord_close q q' s : (q' == q)%Q -> (s == 1000)%Q -> close (3 * ulp) (1000 * q) (fl (fl q' * s)).
Proof.
  intros E S.
  assert (C1 : close ulp (1000 * q) (fl q' * s)).
  { pose proof (fl_close q') as [A B]. split; intros X.
    - destruct A as [A1 A2]; [lra|]. rewrite S. unfold ulp in *. lra.
    - destruct B as [B1 B2]; [lra|]. rewrite S. unfold ulp in *. lra. }
  apply (close_weaken (ulp + ulp + 5 * ulp * ulp)); [unfold ulp; lra|]. apply close_round; [unfold ulp; lra|unfold ulp; lra|exact C1].
Qed.
Lemma trunc_within w : (-(1) < inject_Z (trunc w) - w /\ inject_Z (trunc w) - w < 1)%Q.
Proof.
  unfold trunc. destruct (Qle_bool 0 w) eqn:W.
  - pose proof (Qfloor_le w) as F1. pose proof (Qlt_floor w) as F2. rewrite inject_Z_plus in F2. change (inject_Z 1) with 1%Q in F2. lra.
  - pose proof (Qle_ceiling w) as F1. pose proof (Qceiling_lt w) as F2. unfold Z.sub in F2. rewrite inject_Z_plus in F2. change (inject_Z (- (1))) with (-(1))%Q in F2. lra.
Qed.
Lemma to_int64_within w : (- inject_Z (2 ^ 60) <= w /\ w <= inject_Z (2 ^ 60))%Q -> to_int64 w = Ok (trunc w).
Proof.
  intros [A B]. destruct (trunc_within w) as [C D]. unfold to_int64. cbv zeta.
  assert (- 2 ^ 61 < trunc w < 2 ^ 61) as [H1 H2].
  { change (inject_Z (2 ^ 60)) with (1152921504606846976 # 1)%Q in A, B.
    split; rewrite Zlt_Qlt; [change (inject_Z (- 2 ^ 61)) with (- 2305843009213693952 # 1)%Q|change (inject_Z (2 ^ 61)) with (2305843009213693952 # 1)%Q]; lra. }
  assert ((- 2 ^ 63 <=? trunc w) && (trunc w <? 2 ^ 63) = true) as ->; [|reflexivity].
  change (2 ^ 61) with 2305843009213693952 in *. change (2 ^ 63) with 9223372036854775808.
  apply andb_true_intro. split; [apply Z.leb_le|apply Z.ltb_lt]; lia.
Qed.
Lemma coord_near q q' s : moderate q -> (q' == q)%Q -> (s == 1000)%Q -> exists c, coord s (fl q') = Ok c /\ near q c.
Proof.
  intros [M1 M2] E S. unfold coord. pose proof (coord_close q q' s E S) as C. set (w := fl (fl q' * s)) in *.
  change (inject_Z (2 ^ 50)) with (1125899906842624 # 1)%Q in M1, M2.
  assert (Hw : (- (3 # 8) <= w - 1000 * q /\ w - 1000 * q <= 3 # 8)%Q).
  { destruct C as [A B]. unfold ulp in A, B. destruct (Qlt_le_dec (1000 * q) 0) as [N|N]; [destruct B as [B1 B2]|destruct A as [A1 A2]]; lra. }
  exists (trunc w). split.
  - apply to_int64_within. change (inject_Z (2 ^ 60)) with (1152921504606846976 # 1)%Q. lra.
  - destruct (trunc_within w) as [T1 T2]. split; [lra|]. intros n Hn.
    apply trunc_near.
    + apply (close_weaken (3 * ulp)); [unfold ulp; lra|]. eapply close_comp; [exact Hn|reflexivity|exact C].
    + apply Z.abs_le. rewrite Hn in M1, M2. change (1125899906842624 # 1)%Q with (inject_Z (2 ^ 50)) in M1, M2.
      split; rewrite Zle_Qle; [rewrite inject_Z_opp|]; assumption.
Qed.

(** ** The lines of the two files *)
Lemma dom_line_reads s p ws l : (s == 1000)%Q -> moderate_point p -> point_words p ws -> line_of ws l -> exists c, dom_line s l = Ok c /\ near_point p c.
Proof.
  intros S [M1 M2] (x & y & more & -> & X & Y) L. unfold dom_line.
  destruct (double_word _ _ _ _ X L) as (r & q1 & -> & E1 & L1). destruct (double_word _ _ _ _ Y L1) as (r2 & q2 & -> & E2 & _).
  destruct (coord_near _ _ _ M1 E1 S) as (c1 & -> & N1). destruct (coord_near _ _ _ M2 E2 S) as (c2 & -> & N2).
  exists (c1, c2). split; [reflexivity|now split].
Qed.
Lemma dom_lines_read s : (s == 1000)%Q -> forall ps ls, Forall moderate_point ps ->
  Forall2 (fun p l => exists ws, point_words p ws /\ line_of ws l) ps ls -> exists cs, dom_lines s ls = Ok cs /\ Forall2 near_point ps cs.
Proof.
  intros S ps ls M F. induction F as [|p l ps ls (ws & W & L) F IH]; [exists []; now split|]. inversion M as [|? ? M1 M2]; subst.
  destruct (dom_line_reads s p ws l S M1 W L) as (c & Ec & Nc). destruct (IH M2) as (cs & Es & Ns).
  exists (c :: cs). cbn [dom_lines]. rewrite Ec. cbn [bind]. rewrite Es. split; [reflexivity|now constructor].
Qed.
Lemma signal_read split r sig : cuts split -> signal_words split r sig -> parse_sig stoi split sig = Ok (Some (r_via r, r_sig1 r, r_sig2 r)).
Proof.
  assert (ST : forall z w, whole z w -> stoi w = Some z).
  { intros z w W. assert (Ww : word w).
    { destruct W as (sg & d & -> & S & F & _ & _). split.
      - destruct F as [N F]. destruct S as [->|[->| ->]]; [destruct d; [contradiction|discriminate]|discriminate|discriminate].
      - apply chars_app. split.
        + destruct S as [->|[->| ->]]; [exact I|split; [|exact I]..]; intros X; apply white_space in X; discriminate X.
        + destruct F as [_ F]. revert F. apply chars_impl. intros c D X. apply is_digit_digit in D. apply white_quiet in X. destruct X as [X _]. congruence. }
    assert (L : line_of [w] w).
    { rewrite <- (append_empty w) at 2. apply (line_word "" w [] ""); [exact I|exact Ww|now left|now constructor]. }
    destruct (int_word z w [] w W L) as (r' & E & _). unfold stoi. now rewrite E. }
  intros C H. destruct H as [w V S2 W (c & w' & Ew & Nc)|V S1 S2|a b V A B Fa Fb].
  - unfold parse_sig. rewrite Ew. rewrite (proj2 (Ascii.eqb_neq _ _)) by exact Nc. unfold stoi_. rewrite <- Ew, (ST _ _ W). cbn [bind]. now rewrite V, S2.
  - cbn. now rewrite V, S1, S2.
  - unfold parse_sig. cbn [append]. change (Ascii.eqb "V" "V") with true. cbv iota.
    destruct (a ++ String "-" b)%string as [|c t] eqn:Et; [destruct Fa as [N _]; destruct a; [contradiction|discriminate]|].
    rewrite <- Et. change (a ++ String "-" b)%string with (a ++ "-" ++ b)%string. rewrite C by assumption.
    unfold stoi_. rewrite (ST _ _ A), (ST _ _ B). cbn [bind]. now rewrite V.
Qed.
Lemma dmc_line_reads split s r q ws l : (s == 1000)%Q -> cuts split -> moderate_box q -> record_words split r q ws -> line_of ws l ->
  exists b, dmc_line split s l = Ok (Some (r, b)) /\ near_box q b.
Proof.
  intros S C [[M1 M2] [M3 M4]] (n & dark & d & layer & x1 & x2 & y1 & y2 & net & sig & -> & Fn & Vn & Rn & Wd & Hd & Wl & X1 & X2 & Y1 & Y2 & Wn & Sg) L.
  cbn [app] in L. unfold dmc_line, dmc_fields.
  destruct (size_word _ _ _ Fn Rn L) as (r0 & -> & L0). clear L.
  destruct (int_word _ _ _ _ Wd L0) as (r1 & -> & L1). clear L0.
  destruct (int_word _ _ _ _ Wl L1) as (r2 & -> & L2). clear L1.
  destruct (double_word _ _ _ _ X1 L2) as (r3 & q1 & -> & E1 & L3). clear L2.
  destruct (double_word _ _ _ _ X2 L3) as (r4 & q2 & -> & E2 & L4). clear L3.
  destruct (double_word _ _ _ _ Y1 L4) as (r5 & q3 & -> & E3 & L5). clear L4.
  destruct (double_word _ _ _ _ Y2 L5) as (r6 & q4 & -> & E4 & L6). clear L5.
  destruct (int_word _ _ _ _ Wn L6) as (r7 & -> & L7). clear L6.
  destruct (word_word _ _ _ L7) as (r8 & -> & L8). clear L7.
  destruct (word_word _ _ _ L8) as (r9 & -> & L9). clear L8.
  assert (EL : (match get_word r9 with Some (w, _) => w | None => "" end) = r_lyrname r).
  { destruct (String.eqb (r_lyrname r) "") eqn:Q.
    - rewrite no_word by exact L9. symmetry. now apply String.eqb_eq.
    - destruct (word_word _ _ _ L9) as (r10 & -> & _). reflexivity. }
  rewrite EL, (signal_read split r sig C Sg). cbn [bind].
  destruct (coord_near _ _ _ M1 E1 S) as (c1 & -> & N1). destruct (coord_near _ _ _ M3 E2 S) as (c2 & -> & N2).
  destruct (coord_near _ _ _ M2 E3 S) as (c3 & -> & N3). destruct (coord_near _ _ _ M4 E4 S) as (c4 & -> & N4).
  exists ((c1, c3), (c2, c4)). cbn [bind]. split; [|split; (split; assumption)].
  rewrite Vn, Nat2Z.id. assert (EH : (d =? 0) = r_hole r).
  { destruct (r_hole r) eqn:Hr.
    - apply Z.eqb_eq. now apply Hd.
    - apply Z.eqb_neq. intros X. apply Hd in X. discriminate. }
  rewrite EH. destruct r; reflexivity.
Qed.
Lemma dmc_lines_read split s : (s == 1000)%Q -> cuts split -> forall rs qs ls, Forall moderate_box qs -> List.length rs = List.length qs ->
  Forall2 (fun rq l => exists ws, record_words split (fst rq) (snd rq) ws /\ line_of ws l) (combine rs qs) ls ->
  exists bs, dmc_lines split s ls = Ok (Some (combine rs bs)) /\ Forall2 near_box qs bs.
Proof.
  intros S C rs. induction rs as [|r rs IH]; intros [|q qs] ls M E F; try discriminate.
  - inversion F; subst. exists []. now split.
  - cbn [combine] in F. inversion F as [|? l ? ls' (ws & W & L) F']; subst. inversion M as [|? ? M1 M2]; subst.
    destruct (dmc_line_reads split s r q ws l S C M1 W L) as (b & Eb & Nb). destruct (IH qs ls' M2 (eq_add_S _ _ E) F') as (bs & Es & Ns).
    exists (b :: bs). cbn [dmc_lines]. rewrite Eb. cbn [bind]. rewrite Es. split; [reflexivity|now constructor].
Qed.

(** ** Figures *)
Lemma same_length {A B} (R : A -> B -> Prop) l k : Forall2 R l k -> List.length l = List.length k.
Proof. induction 1; cbn; congruence. Qed.
Lemma Forall2_app_l {A B} (R : A -> B -> Prop) (a b : list A) : forall l, Forall2 R (a ++ b)%list l ->
  exists x y, l = (x ++ y)%list /\ Forall2 R a x /\ Forall2 R b y.
Proof. intros l H. apply Forall2_app_inv_l in H. destruct H as (x & y & A1 & A2 & E). eauto. Qed.
Lemma holes_regroup {A B} (R : A -> B -> Prop) (hs : list (record * list A)) : forall l, Forall2 R (List.concat (map snd hs)) l ->
  exists ks, l = List.concat (map snd ks) /\ Forall2 (fun h k => fst k = fst h /\ Forall2 R (snd h) (snd k)) hs ks.
Proof.
  induction hs as [|[r h] hs IH]; intros l F; cbn in F.
  - inversion F. exists []. split; [reflexivity|constructor].
  - apply Forall2_app_l in F. destruct F as (x & y & -> & F1 & F2). destruct (IH y F2) as (ks & -> & G).
    exists ((r, x) :: ks). split; [reflexivity|]. constructor; [now split|exact G].
Qed.
Lemma points_regroup {A B} (R : A -> B -> Prop) (figs : list (figure A)) : forall l, Forall2 R (file_points figs) l ->
  exists figs', l = file_points figs' /\ Forall2 (arrives R) figs figs'.
Proof.
  induction figs as [|f figs IH]; intros l F; cbn in F.
  - inversion F. exists []. split; [reflexivity|constructor].
  - apply Forall2_app_l in F. destruct F as (x & y & -> & F1 & F2). apply Forall2_app_l in F1. destruct F1 as (o & h & -> & G1 & G2).
    destruct (IH y F2) as (gs & -> & G). destruct (holes_regroup R (f_holes f) h G2) as (ks & -> & K).
    exists ({| f_head := f_head f; f_outline := o; f_holes := ks |} :: gs). split; [reflexivity|]. constructor; [|exact G]. now repeat split.
Qed.
Section Heads.
  Context {A B : Type} (R : A -> B -> Prop).
  Lemma arrives_records figs figs' : Forall2 (arrives R) figs figs' -> file_records figs' = file_records figs.
  Proof.
    induction 1 as [|f g figs figs' (H & _ & K) F IH]; [reflexivity|]. cbn. unfold file_records in IH. rewrite IH, H.
    f_equal. f_equal. induction K as [|h k hs ks [E _] K IHK]; [reflexivity|]. cbn. now rewrite E, IHK.
  Qed.
  Lemma arrives_well figs figs' : Forall2 (arrives R) figs figs' -> Forall well_formed figs -> Forall well_formed figs'.
  Proof.
    induction 1 as [|f g figs figs' (H & O & K) F IH]; intros W; [constructor|]. inversion W as [|? ? (W1 & W2 & W3) W']; subst.
    constructor; [|now apply IH]. repeat split; [now rewrite H|rewrite H, <- W2; symmetry; eapply same_length; exact O|].
    clear - K W3. induction K as [|h k hs ks [E F] K IHK]; [constructor|]. inversion W3 as [|? ? [V1 V2] W]; subst.
    constructor; [|now apply IHK]. rewrite E. split; [exact V1|]. rewrite <- V2. symmetry. eapply same_length; exact F.
  Qed.
  Lemma arrives_find (p : record -> bool) {C} (get : record -> C) figs figs' : Forall2 (arrives R) figs figs' ->
    option_map (fun f => get (f_head f)) (List.find (fun f => p (f_head f)) figs') = option_map (fun f => get (f_head f)) (List.find (fun f => p (f_head f)) figs).
  Proof. induction 1 as [|f g figs figs' (H & _) F IH]; [reflexivity|]. cbn. rewrite H. destruct (p (f_head f)); [cbn; now rewrite H|exact IH]. Qed.
  Lemma arrives_net figs figs' n : Forall2 (arrives R) figs figs' -> net_name figs' n = net_name figs n.
  Proof. exact (arrives_find (fun r => Z.eqb (r_net r) n) r_netname figs figs'). Qed.
  Lemma arrives_signal figs figs' n : Forall2 (arrives R) figs figs' -> signal_layer figs' n = signal_layer figs n.
  Proof. exact (arrives_find (fun r => negb (r_via r) && Z.eqb (r_sig1 r) n) r_layer figs figs'). Qed.
  Lemma arrives_in figs figs' g : Forall2 (arrives R) figs figs' -> In g figs' -> exists f, In f figs /\ f_head g = f_head f.
  Proof.
    induction 1 as [|f g' figs figs' (H & _) F IH]; [intros []|]. intros [<-|I]; [exists f; split; [now left|exact H]|].
    destruct (IH I) as (f' & I' & E). exists f'. split; [now right|exact E].
  Qed.
  Lemma arrives_in_l figs figs' f : Forall2 (arrives R) figs figs' -> In f figs -> exists g, In g figs' /\ f_head g = f_head f.
  Proof.
    induction 1 as [|f' g figs figs' (H & _) F IH]; [intros []|]. intros [<-|I]; [exists g; split; [now left|exact H]|].
    destruct (IH I) as (g' & I' & E). exists g'. split; [now right|exact E].
  Qed.
  Lemma arrives_injective figs figs' : Forall2 (arrives R) figs figs' -> names_injective figs -> names_injective figs'.
  Proof. intros F NI n m nm. rewrite !(arrives_net _ _ _ F). apply NI. Qed.
  Lemma arrives_resolved figs figs' : Forall2 (arrives R) figs figs' -> vias_resolved figs -> vias_resolved figs'.
  Proof.
    intros F V g I Vg. destruct (arrives_in _ _ g F I) as (f & If & E). rewrite !(arrives_signal _ _ _ F), E. apply V; [exact If|].
    unfold is_via in *. now rewrite <- E.
  Qed.
  Lemma arrives_plain figs figs' : Forall2 (arrives R) figs figs' -> (exists f, In f figs /\ is_plain f = true) -> exists f, In f figs' /\ is_plain f = true.
  Proof. intros F (f & I & P). destruct (arrives_in_l _ _ f F I) as (g & Ig & E). exists g. split; [exact Ig|]. unfold is_plain in *. now rewrite E. Qed.
End Heads.

(** ** The boundary *)
Lemma join_hull bs : forall seen b, hull seen b -> exists b', fold_left join bs (Some b) = Some b' /\ hull (seen ++ bs)%list b'.
Proof.
  induction bs as [|x bs IH]; intros seen b H; [exists b; rewrite app_nil_r; now split|].
  destruct b as [[a1 a2] [a3 a4]], x as [[x1 x2] [x3 x4]]. cbn [fold_left join].
  destruct (IH (seen ++ [((x1, x2), (x3, x4))])%list ((Z.min a1 x1, Z.min a2 x2), (Z.max a3 x3, Z.max a4 x4))) as (b' & E & G).
  - destruct H as (F & E1 & E2 & E3 & E4). cbn [fst snd] in *. unfold hull. cbn [fst snd]. split; [|split; [|split; [|split]]].
    + apply Forall_app. split; [|repeat constructor; cbn; lia]. revert F. apply Forall_impl. intros y. lia.
    + apply Exists_app. destruct (Z.min_spec a1 x1) as [[_ ->]|[_ ->]]; [now left|right; now constructor].
    + apply Exists_app. destruct (Z.min_spec a2 x2) as [[_ ->]|[_ ->]]; [now left|right; now constructor].
    + apply Exists_app. destruct (Z.max_spec a3 x3) as [[_ ->]|[_ ->]]; [right; now constructor|now left].
    + apply Exists_app. destruct (Z.max_spec a4 x4) as [[_ ->]|[_ ->]]; [right; now constructor|now left].
  - exists b'. split; [exact E|]. now rewrite <- app_assoc in G.
Qed.
Lemma joined bs : bs <> [] -> exists b, fold_left join bs None = Some b /\ hull bs b.
Proof.
  destruct bs as [|x bs]; [contradiction|]. intros _. cbn [fold_left join].
  destruct (join_hull bs [x] x) as (b & E & H); [|exists b; now split].
  repeat split; repeat constructor; lia.
Qed.

(** ** Printed numbers *)
Lemma uint_value u : forall acc, digits_value (Z.of_nat acc) (DecimalString.NilEmpty.string_of_uint u) = Z.of_nat (Nat.of_uint_acc u acc).
Proof.
  induction u; intros acc; cbn [DecimalString.NilEmpty.string_of_uint digits_value Nat.of_uint_acc]; [reflexivity|..];
    rewrite <- IHu; f_equal; rewrite Nat.tail_mul_spec, ?Nat2Z.inj_succ, Nat2Z.inj_mul; unfold code;
    match goal with |- context [nat_of_ascii ?c] => let v := eval vm_compute in (nat_of_ascii c) in change (nat_of_ascii c) with v end; cbn [Nat.sub]; lia.
Qed.
Lemma uint_chars u : chars is_digit (DecimalString.NilEmpty.string_of_uint u).
Proof. induction u; cbn [DecimalString.NilEmpty.string_of_uint chars]; [exact I|..]; (split; [unfold is_digit, range; cbn; lia|exact IHu]). Qed.
Lemma dec_figures n : figures (to_dec n).
Proof.
  unfold to_dec. split; [destruct (Nat.to_uint n); discriminate|].
  destruct (Nat.to_uint n) eqn:E; [apply (uint_chars (Decimal.D0 Decimal.Nil))|..]; cbn [DecimalString.NilZero.string_of_uint]; apply uint_chars.
Qed.
Lemma dec_decimal n : decimal (to_dec n) = Z.of_nat n.
Proof.
  rewrite <- value_decimal by apply dec_figures. unfold to_dec. pose proof (DecimalNat.Unsigned.of_to n) as O.
  destruct (Nat.to_uint n) eqn:E; [cbn in O; subst n; reflexivity|..]; cbn [DecimalString.NilZero.string_of_uint]; rewrite (uint_value _ 0); unfold Nat.of_uint in O; now rewrite O.
Qed.
Lemma decimal_app a b : decimal (a ++ b) = decimal a * 10 ^ Z.of_nat (String.length b) + decimal b.
Proof.
  induction a as [|c a IH]; [reflexivity|]. cbn [append decimal]. rewrite IH.
  assert (L : String.length (a ++ b) = (String.length a + String.length b)%nat) by (clear; induction a; cbn; congruence).
  rewrite L, Nat2Z.inj_add, Z.pow_add_r by lia. ring.
Qed.
Lemma decimal_bound : forall w, chars is_digit w -> 0 <= decimal w < 10 ^ Z.of_nat (String.length w).
Proof.
  induction w as [|c w IH]; intros H; [cbn; lia|]. destruct H as [D H]. specialize (IH H). cbn [decimal String.length].
  rewrite Nat2Z.inj_succ, Z.pow_succ_r by lia. unfold is_digit, range in D. change (nat_of_ascii "0") with 48%nat in D. change (nat_of_ascii "9") with 57%nat in D. nia.
Qed.
Lemma last_digit n : let c := ascii_of_nat (48 + Z.to_nat (n mod 10)) in is_digit c /\ Z.of_nat (nat_of_ascii c) - 48 = n mod 10.
Proof.
  cbv zeta. pose proof (Z.mod_pos_bound n 10). unfold is_digit, range. rewrite nat_ascii_embedding by lia.
  change (nat_of_ascii "0") with 48%nat. change (nat_of_ascii "9") with 57%nat. split; lia.
Qed.
Lemma last_digits_true k : forall n, chars is_digit (last_digits k n) /\ String.length (last_digits k n) = k /\ decimal (last_digits k n) = n mod 10 ^ Z.of_nat k.
Proof.
  induction k as [|k IH]; intros n; [cbn; rewrite Z.mod_1_r; now repeat split|]. cbn [last_digits]. destruct (IH (n / 10)) as (A & B & C).
  destruct (last_digit n) as (D & E). split; [|split].
  - apply chars_app. split; [exact A|]. split; [exact D|exact I].
  - assert (L : forall a c, String.length (a ++ String c "") = S (String.length a)) by (clear; induction a; cbn; congruence). now rewrite L, B.
  - rewrite decimal_app, C. cbn [decimal String.length]. rewrite E. change (10 ^ Z.of_nat 1) with 10. change (10 ^ Z.of_nat 0) with 1.
    rewrite Nat2Z.inj_succ, Z.pow_succ_r by lia. rewrite (Z.rem_mul_r n 10) by (try lia; apply Z.pow_pos_nonneg; lia). ring.
Qed.
Lemma print_z_whole z : int32 z -> whole z (print_z z).
Proof.
  intros B. unfold print_z. exists (if z <? 0 then "-" else ""), (to_dec (Z.to_nat (Z.abs z))). split; [reflexivity|].
  split; [destruct (z <? 0); unfold plus_minus; auto|]. split; [apply dec_figures|]. rewrite dec_decimal. rewrite Z2Nat.id by lia.
  destruct (Z.ltb_spec z 0); (split; [|exact B]); cbn [String.eqb]; [change (Ascii.eqb "-" "-") with true; cbv iota|]; lia.
Qed.
Lemma default_unit : close ulp (1 # 1000) (cu_unit default_units).
Proof. split; intros X; [|exfalso; lra]. split; apply Qle_bool_iff; vm_compute; reflexivity. Qed.
Lemma to_unit_close c : Z.abs c <= 2 ^ 40 -> close (3 * ulp) (inject_Z c * (1 # 1000)) (to_unit default_units c).
Proof.
  intros B. unfold to_unit. apply (close_weaken (ulp + ulp + 5 * ulp * ulp)); [unfold ulp; lra|]. apply close_round; [unfold ulp; lra|unfold ulp; lra|].
  assert (E : (fl (inject_Z c) == inject_Z c)%Q) by (apply int_coord; change (2 ^ 40) with 1099511627776 in B; change (2 ^ 53) with 9007199254740992; lia).
  pose proof default_unit as [D _]. destruct D as [D1 D2]; [lra|]. set (u := cu_unit default_units) in *. clearbody u.
  assert (P : (0 <= inject_Z c \/ inject_Z c < 0)%Q) by (destruct (Qlt_le_dec (inject_Z c) 0); auto).
  unfold ulp in *. split; intros X.
  - assert (Hc : (0 <= inject_Z c)%Q) by lra. rewrite E. split; nra.
  - assert (Hc : (inject_Z c <= 0)%Q) by lra. rewrite E. split; nra.
Qed.
Lemma app_filled a b : a <> "" -> (a ++ b)%string <> "".
Proof. destruct a; [contradiction|discriminate]. Qed.
Lemma printed c : Z.abs c <= 2 ^ 40 -> number_of (inject_Z c * (1 # 1000)) (print6 (to_unit default_units c)).
Proof.
  intros B. pose proof (to_unit_close c B) as C. set (v := to_unit default_units c) in *. clearbody v.
  assert (Lc : (inject_Z (Z.abs c) <= 1099511627776)%Q) by (change 1099511627776%Q with (inject_Z (2 ^ 40)); rewrite <- Zle_Qle; exact B).
  assert (Hs : Qle_bool 0 v = (0 <=? c)).
  { destruct (Z.leb_spec 0 c) as [P|P].
    - apply Qle_bool_iff. destruct C as [C _]. assert ((0 <= inject_Z c)%Q) by (change 0%Q with (inject_Z 0); now rewrite <- Zle_Qle). destruct C as [C1 C2]; [lra|]. unfold ulp in *. lra.
    - destruct (Qle_bool 0 v) eqn:Q; [|reflexivity]. apply Qle_bool_iff in Q. assert (X : (inject_Z c <= inject_Z (-1))%Q) by (rewrite <- Zle_Qle; lia).
      change (inject_Z (-1)) with (-(1))%Q in X. destruct C as [_ C]. destruct C as [C1 C2]; [lra|]. unfold ulp in *. lra. }
  assert (Hn : round_even (Qabs.Qabs v * inject_Z 1000000) = Z.abs c * 1000).
  { destruct (round_even_near (Qabs.Qabs v * inject_Z 1000000)) as [R1 R2]. set (n := round_even _) in *. clearbody n. change (inject_Z 1000000) with 1000000%Q in *.
    assert (V : (inject_Z (Z.abs c) * (1 # 1000) * (1 - 3 * ulp) <= Qabs.Qabs v /\ Qabs.Qabs v <= inject_Z (Z.abs c) * (1 # 1000) * (1 + 3 * ulp))%Q).
    { destruct C as [C1 C2]. destruct (Z.leb_spec 0 c) as [P|P].
      - rewrite Z.abs_eq by lia. apply Qle_bool_iff in Hs. rewrite Qabs.Qabs_pos by exact Hs.
        assert ((0 <= inject_Z c)%Q) by (change 0%Q with (inject_Z 0); now rewrite <- Zle_Qle). apply C1. lra.
      - rewrite Z.abs_neq, inject_Z_opp by lia. assert (Hv : (v <= 0)%Q) by (apply Qlt_le_weak, Qnot_le_lt; intros X; apply Qle_bool_iff in X; congruence).
        rewrite Qabs.Qabs_neg by exact Hv. assert (X : (inject_Z c <= inject_Z (-1))%Q) by (rewrite <- Zle_Qle; lia). change (inject_Z (-1)) with (-(1))%Q in X.
        destruct C2 as [C2 C3]; [lra|]. lra. }
    assert (A0 : (0 <= inject_Z (Z.abs c))%Q) by (change 0%Q with (inject_Z 0); rewrite <- Zle_Qle; lia).
    assert (W : (inject_Z (Z.abs c * 1000 - 1) < inject_Z n /\ inject_Z n < inject_Z (Z.abs c * 1000 + 1))%Q).
    { unfold Z.sub. rewrite !inject_Z_plus, !inject_Z_mult. change (inject_Z 1000) with 1000%Q. change (inject_Z 1) with 1%Q. change (inject_Z (- (1))) with (-(1))%Q.
      destruct V as [V1 V2]. unfold ulp in *. lra. }
    rewrite <- !Zlt_Qlt in W. lia. }
  unfold print6. rewrite Hn, Hs. cbv zeta.
  destruct (last_digits_true 6 (Z.abs c * 1000)) as (A & L & D).
  exists (if 0 <=? c then "" else "-"), (to_dec (Z.to_nat (Z.abs c * 1000 / 1000000))), ".", (last_digits 6 (Z.abs c * 1000)), "", 0.
  split; [rewrite (append_empty (last_digits 6 (Z.abs c * 1000))); reflexivity|]. split; [destruct (0 <=? c); [now left|now right; right]|]. split; [apply dec_figures|]. split; [exact A|]. split; [now left|].
  split; [apply app_filled, dec_figures|]. split; [left; split; reflexivity|].
  rewrite decimal_app, dec_decimal, L, D, Z2Nat.id by (apply Z.div_pos; lia). change (10 ^ Z.of_nat 6) with 1000000. change (- Z.of_nat 6) with (-6).
  assert (E : Z.abs c * 1000 / 1000000 * 1000000 + (Z.abs c * 1000) mod 1000000 = Z.abs c * 1000) by (rewrite (Z.div_mod (Z.abs c * 1000) 1000000) at 3 by lia; ring).
  rewrite E. assert (G : with_sign (if 0 <=? c then "" else "-") (Z.abs c * 1000) = c * 1000).
  { destruct (Z.leb_spec 0 c); unfold with_sign; cbn [String.eqb]; [|change (Ascii.eqb "-" "-") with true; cbv iota]; lia. }
  rewrite G, inject_Z_mult. change (inject_Z 1000) with 1000%Q. change (inject_Z 10 ^ -6)%Q with (1 # 1000000)%Q. change (inject_Z 10 ^ 0)%Q with 1%Q. lra.
Qed.

(** ** Written texts *)
Lemma chars_word (f : ascii -> Prop) w : (forall c, f c -> ~ white c) -> w <> "" -> chars f w -> word w.
Proof. intros H N C. split; [exact N|]. revert C. now apply chars_impl. Qed.
Lemma digit_firm_char c : is_digit c -> ~ white c.
Proof. intros D X. apply is_digit_digit in D. apply white_quiet in X. destruct X as [X _]. congruence. Qed.
Lemma figures_word w : figures w -> word w.
Proof. intros [N H]. apply (chars_word is_digit); [exact digit_firm_char|exact N|exact H]. Qed.
Lemma sign_firm s : plus_minus s -> chars (fun c => ~ white c) s.
Proof. intros [->|[->| ->]]; [exact I|split; [|exact I]..]; intros X; apply white_space in X; discriminate X. Qed.
Lemma whole_word z w : whole z w -> word w.
Proof.
  intros (s & d & -> & S & F & _). destruct (figures_word d F) as [N C]. split.
  - destruct s; [exact N|discriminate].
  - apply chars_app. split; [now apply sign_firm|exact C].
Qed.
Lemma number_word q w : number_of q w -> word w.
Proof.
  intros (s & a & p & b & e & z & -> & S & A & B & P & N & X & _). split.
  - intros E. destruct s; [|discriminate]. destruct a; [|discriminate]. destruct P as [->|[-> ->]]; [discriminate|]. now apply N.
  - assert (D : forall w, chars is_digit w -> chars (fun c => ~ white c) w) by (intros w; apply chars_impl, digit_firm_char).
    repeat (apply chars_app; split); auto using sign_firm.
    + destruct P as [->|[-> _]]; [|exact I]. split; [|exact I]. intros Y. apply white_space in Y. discriminate Y.
    + destruct X as [[-> _]|(c & s' & d & -> & C & S' & [_ F] & _)]; [exact I|]. split; [|apply chars_app; auto using sign_firm].
      intros Y. apply white_space in Y. destruct C as [->| ->]; discriminate Y.
Qed.
Lemma line_blank ws l : line_of ws l -> line_of ws (String " " l).
Proof.
  assert (B1 : forall b, blanks b -> blanks (String " " b)) by (intros b B; split; [split; [now left|discriminate]|exact B]).
  intros L. destruct L as [b B|b w ws r B W E L]; [constructor; auto|]. apply (line_word (String " " b)); auto.
Qed.
Lemma line_next w ws l : word w -> line_of ws l -> line_of (w :: ws) (w ++ String " " l).
Proof. intros W L. apply (line_word "" w); [exact I|exact W|right; exists " "%char, l; split; [reflexivity|now left]|now apply line_blank]. Qed.
Lemma line_end w : word w -> line_of [w] w.
Proof. intros W. rewrite <- (append_empty w) at 2. apply (line_word "" w [] ""); [exact I|exact W|now left|now constructor]. Qed.
Lemma line_chars_of ws l : line_of ws l -> chars (fun c => c <> "010"%char) l.
Proof.
  induction 1 as [b B|b w ws r B [_ W] E L IH]; [revert B; apply chars_impl; intros c [_ H]; exact H|].
  repeat (apply chars_app; split); [revert B; apply chars_impl; intros c [_ H]; exact H| |exact IH].
  revert W. apply chars_impl. intros c H ->. apply H. right; right; right; right. left. reflexivity.
Qed.
Lemma line_one w ws l : line_of (w :: ws) l -> one_line l.
Proof.
  intros L. split; [|eapply line_chars_of; exact L]. destruct (line_inv _ _ _ L) as (b & r & -> & _ & [N _] & _).
  destruct b; [|discriminate]. destruct w; [contradiction|discriminate].
Qed.
Lemma cat_app a b : cat (a ++ b)%list = (cat a ++ cat b)%string.
Proof. induction a as [|s a IH]; [reflexivity|]. cbn [app cat]. now rewrite IH, append_assoc. Qed.
Lemma text_cat ls : Forall one_line ls -> text_of ls (cat (map (fun l => l ++ eol)%string ls)).
Proof.
  induction 1 as [|l ls O F IH]; [constructor|]. cbn [map cat]. unfold eol at 1. rewrite append_assoc. cbn [append]. now apply text_line.
Qed.

Definition micro (p : Z * Z) : Q * Q := ((inject_Z (fst p) * (1 # 1000))%Q, (inject_Z (snd p) * (1 # 1000))%Q).
Definition fig_parts {P} (f : figure P) : list (record * list P) := (f_head f, f_outline f) :: f_holes f.
Definition rec_of (x : piece) (p : list (Z * Z)) (hole : bool) : record :=
  {| r_points := List.length p; r_hole := hole; r_via := false; r_net := e_net x; r_netname := e_nname x; r_layer := e_layer x; r_lyrname := e_lname x; r_sig1 := e_layer x; r_sig2 := 0 |}.
Definition fig_of (x : piece) : figure (Z * Z) :=
  {| f_head := rec_of x (e_solid x) false; f_outline := e_solid x; f_holes := map (fun h => (rec_of x h true, h)) (e_holes x) |}.
Definition micro_fig (f : figure (Z * Z)) : figure (Q * Q) :=
  {| f_head := f_head f; f_outline := map micro (f_outline f); f_holes := map (fun h => (fst h, map micro (snd h))) (f_holes f) |}.
Section Written.
  Context (net_of layer_of : Z -> option string) (extent : list point -> box).
  Definition dmc_text (x : record * list (Z * Z)) : string :=
    let '((x1, y1), (x2, y2)) := extent (snd x) in
    to_dec (List.length (snd x)) ++ blank ++ (if r_hole (fst x) then "0" else "1") ++ blank ++ print_z (r_layer (fst x)) ++ blank ++
    print6 (to_unit default_units x1) ++ blank ++ print6 (to_unit default_units x2) ++ blank ++ print6 (to_unit default_units y1) ++ blank ++ print6 (to_unit default_units y2) ++ blank ++
    print_z (r_net (fst x)) ++ blank ++ r_netname (fst x) ++ blank ++ print_z (r_layer (fst x)) ++ blank ++ r_lyrname (fst x).
  Definition dom_text (a : Z * Z) : string := print6 (to_unit default_units (fst a)) ++ blank ++ print6 (to_unit default_units (snd a)).
  Lemma write_dmc_text x p hole : write_dmc default_units extent (e_layer x) (e_lname x) (e_net x) (e_nname x) p hole = (dmc_text (rec_of x p hole, p) ++ eol)%string.
  Proof. unfold write_dmc, dmc_text. cbn [fst snd rec_of r_hole r_layer r_net r_netname r_lyrname]. destruct (extent p) as [[x1 y1] [x2 y2]]. now rewrite !append_assoc. Qed.
  Lemma write_dom_text p : write_dom default_units p = cat (map (fun l => l ++ eol)%string (map dom_text p)).
  Proof. unfold write_dom, dom_text. rewrite map_map. f_equal. apply map_ext. intros a. now rewrite !append_assoc. Qed.
  Lemma write_text mergers : write default_units net_of layer_of extent mergers =
    (cat (map (fun l => l ++ eol)%string (map dmc_text (flat_map fig_parts (map fig_of (kept net_of layer_of mergers))))),
     cat (map (fun l => l ++ eol)%string (map dom_text (file_points (map fig_of (kept net_of layer_of mergers)))))).
  Proof.
    unfold write. cbv zeta. induction mergers as [|[l gs] mergers IH]; [reflexivity|].
    cbn [flat_map fst snd kept]. unfold file_points in *. rewrite !map_app, !flat_map_app, !map_app, !cat_app. injection IH as IH1 IH2. rewrite IH1, IH2. clear IH1 IH2. f_equal; f_equal.
    - induction gs as [|g gs IHg]; [reflexivity|]. cbn [map flat_map cat]. rewrite IHg. clear IHg. unfold write_one at 1. destruct (layer_of l) as [ln|]; destruct (net_of (g_net g)) as [nn|]; cbn [fst app map]; try reflexivity.
      set (x := {| e_layer := l; e_lname := ln; e_net := g_net g; e_nname := nn; e_solid := g_solid g; e_holes := g_holes g |}).
      change (write_dmc default_units extent l ln (g_net g) nn (g_solid g) false) with (write_dmc default_units extent (e_layer x) (e_lname x) (e_net x) (e_nname x) (e_solid x) false).
      rewrite write_dmc_text. cbn [flat_map fig_parts app map cat]. rewrite !append_assoc. f_equal. f_equal. rewrite !map_app, cat_app. f_equal.
      unfold fig_of. cbn [f_holes x e_holes]. rewrite !map_map. f_equal. apply map_ext. intros h. apply (write_dmc_text x h true).
    - induction gs as [|g gs IHg]; [reflexivity|]. cbn [map flat_map cat]. rewrite IHg. clear IHg. unfold write_one at 1. destruct (layer_of l) as [ln|]; destruct (net_of (g_net g)) as [nn|]; cbn [snd app map]; try reflexivity.
      cbn [flat_map fig_of f_outline f_holes e_solid e_holes map snd]. rewrite !map_app, !cat_app, write_dom_text. f_equal. f_equal. 
      induction (g_holes g) as [|h hs IHh]; [reflexivity|]. cbn [map cat List.concat snd]. now rewrite IHh, write_dom_text, !map_app, cat_app.
  Qed.
  Lemma file_parts {P} (figs : list (figure P)) : file_records figs = map fst (flat_map fig_parts figs) /\ file_points figs = List.concat (map snd (flat_map fig_parts figs)).
  Proof.
    induction figs as [|f figs [IH1 IH2]]; [now split|]. unfold file_records, file_points in *. cbn [flat_map fig_parts]. rewrite !map_app, !concat_app, IH1, IH2. cbn [map fst snd List.concat app].
    split; [reflexivity|]. now rewrite ?app_assoc.
  Qed.
  Lemma dom_text_words a : small_point a -> exists ws, point_words (micro a) ws /\ line_of ws (dom_text a).
  Proof.
    intros [A B]. pose proof (printed _ A) as NA. pose proof (printed _ B) as NB. eexists [_; _]. split.
    - exists (print6 (to_unit default_units (fst a))), (print6 (to_unit default_units (snd a))), []. split; [reflexivity|]. now split.
    - unfold dom_text. apply line_next; [eapply number_word; exact NA|]. apply line_end. eapply number_word; exact NB.
  Qed.
  Definition part_ok (x : record * list (Z * Z)) : Prop :=
    r_via (fst x) = false /\ r_sig1 (fst x) = r_layer (fst x) /\ r_sig2 (fst x) = 0 /\ r_points (fst x) = List.length (snd x) /\
    int32 (r_layer (fst x)) /\ int32 (r_net (fst x)) /\ word (r_lyrname (fst x)) /\ word (r_netname (fst x)) /\ Forall small_point (snd x) /\ Z.of_nat (List.length (snd x)) < 2 ^ 64.
  Definition micro_box (b : box) : corners Q := (micro (fst b), micro (snd b)).
  Lemma dmc_text_words cut x : part_ok x -> (small_point (fst (extent (snd x))) /\ small_point (snd (extent (snd x)))) ->
    exists ws, record_words cut (fst x) (micro_box (extent (snd x))) ws /\ line_of ws (dmc_text x).
  Proof.
    intros (V & S1 & S2 & P & IL & IN & WL & WN & _ & LN) [[A B] [C D]]. unfold dmc_text, micro_box. destruct (extent (snd x)) as [[x1 y1] [x2 y2]]. cbn [fst snd] in *.
    pose proof (printed _ A) as NA. pose proof (printed _ B) as NB. pose proof (printed _ C) as NC. pose proof (printed _ D) as ND.
    pose proof (print_z_whole _ IL) as HL. pose proof (print_z_whole _ IN) as HN. pose proof (dec_figures (List.length (snd x))) as HF.
    assert (HD : whole (if r_hole (fst x) then 0 else 1) (if r_hole (fst x) then "0" else "1")).
    { destruct (r_hole (fst x)); [exists "", "0"|exists "", "1"]; (split; [reflexivity|]); (split; [now left|]); (split; [split; [discriminate|split; [unfold is_digit, range; cbn; lia|exact I]]|]); split; cbn; lia. }
    eexists. split.
    - exists (to_dec (List.length (snd x))), (if r_hole (fst x) then "0" else "1"), (if r_hole (fst x) then 0 else 1), (print_z (r_layer (fst x))),
        (print6 (to_unit default_units x1)), (print6 (to_unit default_units x2)), (print6 (to_unit default_units y1)), (print6 (to_unit default_units y2)), (print_z (r_net (fst x))), (print_z (r_layer (fst x))).
      split; [reflexivity|]. split; [exact HF|]. rewrite dec_decimal, P. split; [reflexivity|]. split; [exact LN|]. split; [exact HD|].
      split; [destruct (r_hole (fst x)); split; congruence|]. split; [exact HL|]. cbn [micro fst snd]. split; [exact NA|]. split; [exact NC|]. split; [exact NB|]. split; [exact ND|]. split; [exact HN|].
      apply sw_layer; [exact V|exact S2|now rewrite S1|]. destruct HL as (s & d & -> & S & F & _). destruct S as [->|[->| ->]]; cbn [append]; [|eexists _, _; split; [reflexivity|discriminate]..].
      destruct F as [N F]. destruct d as [|c d]; [contradiction|]. exists c, d. split; [reflexivity|]. destruct F as [F _]. intros ->. unfold is_digit, range in F. cbn in F. lia.
    - destruct WL as [NL WL]. rewrite (proj2 (String.eqb_neq _ _)) by exact NL. cbn [app].
      repeat (apply line_next; [eauto using figures_word, whole_word, number_word|]). apply line_end. now split.
  Qed.
  Lemma fig_of_parts x : sound_piece x -> Forall part_ok (fig_parts (fig_of x)).
  Proof.
    intros (IL & IN & WL & WN & F). inversion F as [|? ? [F1 F2] F']; subst. constructor; [repeat split; try assumption; try (apply IL); try (apply IN); try (apply WL); try (apply WN)|].
    cbn [fig_of f_holes]. apply Forall_map. revert F'. apply Forall_impl. intros h [G1 G2]. repeat split; try assumption; try (apply IL); try (apply IN); try (apply WL); try (apply WN).
  Qed.
End Written.
