(** Lemmas for the chip thermal model header file. *)
From Verif Require Import Base Ctm_Model Ctm_Spec.
Local Open Scope res_scope.
Local Open Scope Z_scope.
Local Arguments Z.add : simpl never.
Local Arguments Z.mul : simpl never.
Local Arguments Z.div : simpl never.
Local Arguments Z.modulo : simpl never.

(** ** Encryption *)

Definition byte (c : Z) : Prop := 0 <= c < 256.

Lemma decrypt_encrypt s len : Forall byte s -> decrypt_text (encrypt s len) len = s.
Proof.
  intros H. unfold decrypt_text, encrypt. rewrite map_map. induction H as [|c s Hc _ IH]; [reflexivity|].
  cbn [map]. rewrite IH. f_equal. rewrite Zminus_mod_idemp_l.
  replace (c + shift len - shift len) with c by lia. apply Z.mod_small. exact Hc.
Qed.

(** ** Numbers *)

Definition digit_text (l : text) : Prop := Forall (fun c => 48 <= c <= 57) l.

Lemma val_app l c : val (l ++ [c]) = val l * 10 + (c - 48).
Proof. unfold val. rewrite fold_left_app. reflexivity. Qed.

Lemma dec_ok : forall fuel n, 0 <= n < 2 ^ Z.of_nat fuel -> digit_text (dec fuel n) /\ val (dec fuel n) = n /\ (fuel <> O -> dec fuel n <> []).
Proof.
  induction fuel as [|f IH]; intros n Hn; cbn [dec].
  - change (2 ^ Z.of_nat 0) with 1 in Hn. split; [constructor|]. split; [cbn; lia|congruence].
  - destruct (Z.ltb_spec n 10) as [L|L].
    + split; [constructor; [lia|constructor]|]. split; [unfold val; cbn [fold_left]; lia|discriminate].
    + assert (Hd : 0 <= n / 10 < 2 ^ Z.of_nat f).
      { split; [apply Z.div_pos; lia|]. apply Z.div_lt_upper_bound; [lia|].
        replace (Z.of_nat (S f)) with (Z.succ (Z.of_nat f)) in Hn by lia. rewrite Z.pow_succ_r in Hn by lia.
        pose proof (Z.pow_pos_nonneg 2 (Z.of_nat f)). lia. }
      destruct (IH _ Hd) as (D & V & _). pose proof (Z.mod_pos_bound n 10 ltac:(lia)) as M. split.
      * apply Forall_app. split; [exact D|]. constructor; [lia|constructor].
      * split; [|intros _ E; apply app_eq_nil in E; destruct E; discriminate].
        rewrite val_app, V. pose proof (Z.div_mod n 10). lia.
Qed.

Lemma digits_ok n : 0 <= n -> digit_text (digits n) /\ val (digits n) = n /\ digits n <> [].
Proof.
  intros Hn. unfold digits. destruct (dec_ok (S (Z.to_nat (Z.log2 n))) n) as (A & B & C).
  - split; [exact Hn|]. destruct (Z.eq_dec n 0) as [->|Hz]; [cbn; lia|].
    rewrite Nat2Z.inj_succ, Z2Nat.id by apply Z.log2_nonneg. apply Z.log2_spec. lia.
  - split; [exact A|]. split; [exact B|]. apply C. discriminate.
Qed.

Lemma dec_fixed_ok : forall k n, 0 <= n < 10 ^ Z.of_nat k ->
  digit_text (dec_fixed k n) /\ val (dec_fixed k n) = n /\ List.length (dec_fixed k n) = k.
Proof.
  induction k as [|k IH]; intros n Hn; cbn [dec_fixed].
  - change (10 ^ Z.of_nat 0) with 1 in Hn. split; [constructor|]. split; [cbn; lia|reflexivity].
  - assert (Hd : 0 <= n / 10 < 10 ^ Z.of_nat k).
    { split; [apply Z.div_pos; lia|]. apply Z.div_lt_upper_bound; [lia|].
      replace (Z.of_nat (S k)) with (Z.succ (Z.of_nat k)) in Hn by lia. rewrite Z.pow_succ_r in Hn by lia. lia. }
    destruct (IH _ Hd) as (D & V & L). pose proof (Z.mod_pos_bound n 10 ltac:(lia)) as M. split.
    + apply Forall_app. split; [exact D|]. constructor; [lia|constructor].
    + rewrite val_app, V, app_length, L. cbn [List.length]. pose proof (Z.div_mod n 10). split; lia.
Qed.

Lemma span_digits_app a b : digit_text a -> match b with c :: _ => is_digit c = false | [] => True end ->
  span_digits (a ++ b) = (a, b).
Proof.
  intros Ha Hb. induction Ha as [|c a Hc Ha IH].
  - destruct b as [|c b]; [reflexivity|]. cbn [app span_digits]. rewrite Hb. reflexivity.
  - cbn [app span_digits]. unfold is_digit at 1.
    replace ((48 <=? c) && (c <=? 57)) with true by (symmetry; apply andb_true_iff; lia). rewrite IH. reflexivity.
Qed.

Lemma sign_split_digit c l : 48 <= c <= 57 -> sign_split (c :: l) = (1, c :: l).
Proof.
  intros H. assert (C : c = 48 \/ c = 49 \/ c = 50 \/ c = 51 \/ c = 52 \/ c = 53 \/ c = 54 \/ c = 55 \/ c = 56 \/ c = 57) by lia.
  repeat (destruct C as [->|C]; [reflexivity|]). subst c. reflexivity.
Qed.

Lemma stol_digits n : 0 <= n < 2 ^ 63 -> stol (digits n) = Ok n.
Proof.
  intros Hn. destruct (digits_ok n ltac:(lia)) as (D & V & N). unfold stol.
  destruct (digits n) as [|c l] eqn:E; [congruence|]. pose proof (Forall_inv D) as Hc. cbv beta in Hc.
  rewrite sign_split_digit by exact Hc. pose proof (span_digits_app (c :: l) [] D I) as Sp. rewrite app_nil_r in Sp. rewrite Sp, V. rewrite Z.mul_1_l. 
  replace ((- 2 ^ 63 <=? n) && (n <? 2 ^ 63)) with true by (symmetry; apply andb_true_iff; lia). reflexivity.
Qed.

Lemma stod_fmt z : stod (fmt z) = Ok z.
Proof.
  unfold stod, fmt.
  destruct (digits_ok (Z.abs z / 1000000)) as (D & V & N); [apply Z.div_pos; lia|].
  destruct (dec_fixed_ok 6 (Z.abs z mod 1000000)) as (D6 & V6 & L6); [apply Z.mod_pos_bound; lia|].
  assert (S : sign_split ((if z <? 0 then [45] else []) ++ digits (Z.abs z / 1000000) ++ [46] ++ dec_fixed 6 (Z.abs z mod 1000000)) =
    (if z <? 0 then -1 else 1, digits (Z.abs z / 1000000) ++ 46 :: dec_fixed 6 (Z.abs z mod 1000000))).
  { destruct (z <? 0); [reflexivity|]. cbn [app].
    destruct (digits (Z.abs z / 1000000)) as [|c l]; [congruence|]. cbn [app]. apply sign_split_digit. inversion D; assumption. }
  rewrite S. rewrite span_digits_app; [|exact D|reflexivity]. cbv iota beta.
  pose proof (span_digits_app (dec_fixed 6 (Z.abs z mod 1000000)) [] D6 I) as Sp. rewrite app_nil_r in Sp. rewrite Sp.
  assert (F : frac (dec_fixed 6 (Z.abs z mod 1000000)) = Z.abs z mod 1000000).
  { unfold frac. rewrite firstn_app, L6, Nat.sub_diag, firstn_O, app_nil_r.
    rewrite firstn_all2 by (rewrite L6; lia). exact V6. }
  rewrite F, V. destruct (digits (Z.abs z / 1000000)) as [|c l]; [congruence|]. f_equal.
  pose proof (Z.div_mod (Z.abs z) 1000000). destruct (Z.ltb_spec z 0); lia.
Qed.

(** Characters of a printed number. *)
Definition num_char (c : Z) : Prop := 45 <= c <= 57.
Lemma fmt_chars z : Forall num_char (fmt z) /\ fmt z <> [].
Proof.
  unfold fmt.
  destruct (digits_ok (Z.abs z / 1000000)) as (D & V & N); [apply Z.div_pos; lia|].
  destruct (dec_fixed_ok 6 (Z.abs z mod 1000000)) as (D6 & V6 & L6); [apply Z.mod_pos_bound; lia|].
  assert (W : forall l, digit_text l -> Forall num_char l).
  { intros l Hl. eapply Forall_impl; [|exact Hl]. unfold num_char. intros; lia. }
  split.
  - apply Forall_app. split; [destruct (z <? 0); constructor; [unfold num_char; lia|constructor]|].
    apply Forall_app. split; [apply W; exact D|]. constructor; [unfold num_char; lia|apply W; exact D6].
  - intros E. apply app_eq_nil in E. destruct E as [_ E]. apply app_eq_nil in E. tauto.
Qed.

Lemma fmt_word z : word (fmt z).
Proof.
  destruct (fmt_chars z) as [H N]. split; [exact N|]. eapply Forall_impl; [|exact H].
  unfold num_char, blank. intros; lia.
Qed.

Lemma digits_word n : 0 <= n -> word (digits n).
Proof.
  intros Hn. destruct (digits_ok n Hn) as (D & _ & N). split; [exact N|]. eapply Forall_impl; [|exact D].
  unfold blank. intros; cbn in *; lia.
Qed.

Lemma num_word enc z len : (enc = true -> (len <= 61)%nat) -> word (num enc z len).
Proof.
  intros H. unfold num. destruct enc; [|apply fmt_word]. specialize (H eq_refl).
  destruct (fmt_chars z) as [F N]. split.
  - unfold encrypt. destruct (fmt z); [congruence|discriminate].
  - unfold encrypt. rewrite Forall_map. eapply Forall_impl; [|exact F]. unfold num_char, blank, shift. intros c Hc.
    assert (R : (c + (3 * Z.of_nat len + 22)) mod 256 = c + (3 * Z.of_nat len + 22) \/
                (c + (3 * Z.of_nat len + 22)) mod 256 = c + (3 * Z.of_nat len + 22) - 256).
    { destruct (Z_lt_le_dec (c + (3 * Z.of_nat len + 22)) 256) as [L|L].
      - left. apply Z.mod_small. lia.
      - right. symmetry. apply Z.mod_unique_pos with (q := 1); lia. }
    cbv beta. pose proof (Z.mod_pos_bound (c + (3 * Z.of_nat len + 22)) 256 ltac:(lia)). lia.
Qed.

Lemma num_length enc z len : List.length (num enc z len) = List.length (fmt z).
Proof. unfold num, encrypt. destruct enc; [apply map_length|reflexivity]. Qed.

Lemma read_num_num enc z len : cipherable enc z -> read_num enc (num enc z len) len = Ok z.
Proof.
  intros H. unfold read_num, num. destruct enc; [|apply stod_fmt]. unfold decrypt.
  rewrite decrypt_encrypt.
  - rewrite stod_fmt. cbn [bind]. specialize (H eq_refl). replace (0 <=? z) with true by (symmetry; apply Z.leb_le; exact H). reflexivity.
  - destruct (fmt_chars z) as [F _]. eapply Forall_impl; [|exact F]. unfold num_char, byte. intros; lia.
Qed.

(** ** Lines *)

Definition noeol (l : text) : Prop := ~ In eol l.

Lemma lines_from_app l : noeol l -> forall cur t, lines_from cur (l ++ eol :: t) = (rev cur ++ l) :: lines_from [] t.
Proof.
  induction l as [|c l IH]; intros H cur t; cbn [app lines_from].
  - rewrite Z.eqb_refl, app_nil_r. reflexivity.
  - destruct (Z.eqb_spec c eol) as [->|E]; [exfalso; apply H; left; reflexivity|].
    rewrite IH by (intros K; apply H; right; exact K). cbn [rev]. rewrite <- app_assoc. reflexivity.
Qed.

Lemma lines_of_unlines ls : Forall noeol ls -> lines_of (List.concat (map (fun l => l ++ [eol]) ls)) = ls ++ [[]].
Proof.
  unfold lines_of. induction 1 as [|l ls Hl _ IH]; [reflexivity|]. cbn [map List.concat]. rewrite <- app_assoc. cbn [app].
  rewrite lines_from_app by exact Hl. rewrite IH. reflexivity.
Qed.

Lemma noeol_app a b : noeol a -> noeol b -> noeol (a ++ b).
Proof. unfold noeol. rewrite in_app_iff. tauto. Qed.
Lemma word_noeol w : word w -> noeol w.
Proof. intros [_ H] K. rewrite Forall_forall in H. destruct (H _ K) as [_ H']. apply H'. right. unfold eol. lia. Qed.
Lemma const_noeol l : forallb (fun c => negb (c =? eol)) l = true -> noeol l.
Proof. intros H K. rewrite forallb_forall in H. specialize (H _ K). rewrite Z.eqb_refl in H. discriminate. Qed.
Lemma spaces_noeol k : noeol (repeat 32 k).
Proof. intros K. apply repeat_spec in K. discriminate. Qed.
Lemma pad_noeol w : word w -> noeol (pad21 w).
Proof. intros H. apply noeol_app; [apply word_noeol; exact H|apply spaces_noeol]. Qed.
Lemma spaced_noeol ws : Forall word ws -> noeol (spaced ws).
Proof.
  unfold spaced. induction 1 as [|w ws Hw _ IH]; [intros []|]. cbn [map List.concat].
  apply noeol_app; [apply noeol_app; [apply const_noeol; reflexivity|apply word_noeol; exact Hw]|exact IH].
Qed.

(** ** Words *)

Lemma is_blank_false c : ~ blank c -> is_blank c = false.
Proof.
  unfold blank, is_blank. intros H. apply orb_false_iff. split; [apply Z.eqb_neq; lia|].
  apply andb_false_iff. destruct (Z.leb_spec 9 c); [right; apply Z.leb_gt; lia|left; reflexivity].
Qed.

Lemma words_from_word w : Forall (fun c => 0 <= c < 256 /\ ~ blank c) w ->
  forall cur t, words_from cur (w ++ t) = words_from (rev w ++ cur) t.
Proof.
  induction 1 as [|c w [_ Hc] _ IH]; intros cur t; [reflexivity|].
  cbn [app words_from]. rewrite is_blank_false by exact Hc. rewrite IH. cbn [rev]. rewrite <- app_assoc. reflexivity.
Qed.

Lemma rev_cons_nonnil {A} (w : list A) : w <> [] -> exists x l, rev w = x :: l.
Proof. intros H. destruct (rev w) as [|x l] eqn:E; [|eauto]. apply (f_equal (@rev A)) in E. rewrite rev_involutive in E. contradiction. Qed.

Lemma words_word_blank w t : word w -> words (w ++ 32 :: t) = w :: words t.
Proof.
  intros [Hn Hw]. unfold words. rewrite words_from_word by exact Hw. rewrite app_nil_r. cbn [words_from].
  change (is_blank 32) with true. cbv iota. destruct (rev_cons_nonnil w Hn) as (x & l & E). rewrite E, <- E, rev_involutive. reflexivity.
Qed.

Lemma words_word w : word w -> words w = [w].
Proof.
  intros [Hn Hw]. unfold words. rewrite <- (app_nil_r w) at 1. rewrite words_from_word by exact Hw. rewrite app_nil_r. cbn [words_from].
  destruct (rev_cons_nonnil w Hn) as (x & l & E). rewrite E, <- E, rev_involutive. reflexivity.
Qed.

Lemma words_blank t : words (32 :: t) = words t.
Proof. reflexivity. Qed.
Lemma words_spaces k t : words (repeat 32 k ++ t) = words t.
Proof. induction k as [|k IH]; [reflexivity|]. cbn [repeat app]. rewrite words_blank. exact IH. Qed.

Lemma words_spaced w ws : word w -> Forall word ws -> words (w ++ spaced ws) = w :: ws.
Proof.
  intros Hw Hws. revert w Hw. induction Hws as [|v ws Hv _ IH]; intros w Hw; unfold spaced; cbn [map List.concat].
  - rewrite app_nil_r. apply words_word. exact Hw.
  - cbn [sp app]. rewrite words_word_blank by exact Hw. f_equal. apply IH. exact Hv.
Qed.

Lemma words_pad w t : word w -> (List.length w <= 20)%nat -> words (pad21 w ++ t) = w :: words t.
Proof.
  intros Hw L. unfold pad21. replace (21 - List.length w)%nat with (S (20 - List.length w)) by lia.
  cbn [repeat]. rewrite <- app_assoc. cbn [app]. rewrite words_word_blank by exact Hw. rewrite words_spaces. reflexivity.
Qed.

Lemma words_pad_last w : word w -> words (pad21 w) = [w].
Proof.
  intros Hw. unfold pad21. destruct (21 - List.length w)%nat as [|k].
  - cbn [repeat]. rewrite app_nil_r. apply words_word. exact Hw.
  - cbn [repeat]. rewrite words_word_blank by exact Hw. f_equal.
    rewrite <- (app_nil_r (repeat 32 k)), words_spaces. reflexivity.
Qed.

(** ** Reading the written lines *)

Lemma const_word s : forallb (fun c => (0 <=? c) && (c <? 256) && negb (is_blank c)) (bytes s) = true -> bytes s <> [] -> word (bytes s).
Proof.
  intros H N. split; [exact N|]. rewrite forallb_forall in H. apply Forall_forall. intros c Hc. specialize (H c Hc).
  apply andb_true_iff in H. destruct H as [H1 H2]. apply andb_true_iff in H1. split; [lia|].
  intros B. unfold is_blank in H2. unfold blank in B.
  assert (K : (c =? 32) || ((9 <=? c) && (c <=? 13)) = true).
  { apply orb_true_iff. destruct B as [->|B]; [left; reflexivity|right; apply andb_true_iff; lia]. }
  rewrite K in H2. discriminate.
Qed.

Lemma stods_fmt zs : stods (map fmt zs) = Ok zs.
Proof. induction zs as [|z zs IH]; [reflexivity|]. cbn [map stods]. rewrite stod_fmt. cbn [bind]. rewrite IH. reflexivity. Qed.

Lemma read_layers_ok enc ls : Forall (fun l => cipherable enc (l_thick l)) ls ->
  read_layers enc (flat_map (fun l => [l_name l; num enc (l_thick l) (List.length (l_name l))]) ls) = Ok ls.
Proof.
  induction 1 as [|l ls Hl _ IH]; [reflexivity|]. cbn [flat_map app read_layers].
  rewrite read_num_num by exact Hl. cbn [bind]. rewrite IH. cbn [bind]. destruct l; reflexivity.
Qed.

Lemma flat_map_length2 enc (ls : list lay) :
  List.length (flat_map (fun l => [l_name l; num enc (l_thick l) (List.length (l_name l))]) ls) = (2 * List.length ls)%nat.
Proof. induction ls as [|l ls IH]; [reflexivity|]. cbn [flat_map app List.length]. rewrite IH. lia. Qed.

(** Field updates of the header. *)
Definition set_layers h x := mkhdr (encrypted h) (head h) (resolution h) (scale h) (die h) (origin h) (tiles h) (temps h) x (tech h) (vias h) (metals h).
Definition set_die h x := mkhdr (encrypted h) (head h) (resolution h) (scale h) x (origin h) (tiles h) (temps h) (layers h) (tech h) (vias h) (metals h).
Definition set_origin h x := mkhdr (encrypted h) (head h) (resolution h) (scale h) (die h) x (tiles h) (temps h) (layers h) (tech h) (vias h) (metals h).
Definition set_temps h x := mkhdr (encrypted h) (head h) (resolution h) (scale h) (die h) (origin h) (tiles h) x (layers h) (tech h) (vias h) (metals h).
Definition set_tiles h x := mkhdr (encrypted h) (head h) (resolution h) (scale h) (die h) (origin h) x (temps h) (layers h) (tech h) (vias h) (metals h).
Definition set_resolution h x := mkhdr (encrypted h) (head h) x (scale h) (die h) (origin h) (tiles h) (temps h) (layers h) (tech h) (vias h) (metals h).
Definition set_scale h x := mkhdr (encrypted h) (head h) (resolution h) x (die h) (origin h) (tiles h) (temps h) (layers h) (tech h) (vias h) (metals h).
Definition set_tech h x := mkhdr (encrypted h) (head h) (resolution h) (scale h) (die h) (origin h) (tiles h) (temps h) (layers h) x (vias h) (metals h).
Definition set_vias h x := mkhdr (encrypted h) (head h) (resolution h) (scale h) (die h) (origin h) (tiles h) (temps h) (layers h) (tech h) x (metals h).
Definition set_metals h x := mkhdr (encrypted h) (head h) (resolution h) (scale h) (die h) (origin h) (tiles h) (temps h) (layers h) (tech h) (vias h) x.

Ltac const_word := apply const_word; [vm_compute; reflexivity|vm_compute; discriminate].

Lemma top_layers h0 ls : Forall (fun l => word (l_name l) /\ cipherable (encrypted h0) (l_thick l) /\
    (encrypted h0 = true -> (List.length (l_name l) <= 61)%nat)) ls -> Z.of_nat (List.length ls) < 2 ^ 62 ->
  top_line h0 (bytes "LAYER" ++ spaced (digits (Z.of_nat (List.length ls)) ::
      flat_map (fun l => [l_name l; num (encrypted h0) (l_thick l) (List.length (l_name l))]) ls)) =
  Ok (Go Top (set_layers h0 (layers h0 ++ ls))).
Proof.
  intros H L. unfold top_line. rewrite words_spaced.
  - change (starts (bytes "#Version") (bytes "LAYER" ++ ?x)) with false.
    change (starts (bytes "LAYER") (bytes "LAYER" ++ ?x)) with true. cbv iota.
    rewrite stol_digits by lia. cbn [bind].
    rewrite (Z.mod_small (Z.of_nat (List.length ls))) by (unfold two64; lia).
    assert (E : Z.of_nat (List.length (bytes "LAYER" :: digits (Z.of_nat (List.length ls)) ::
        flat_map (fun l => [l_name l; num (encrypted h0) (l_thick l) (List.length (l_name l))]) ls)) =
      Z.of_nat (List.length ls) * 2 + 2).
    { cbn [List.length]. rewrite flat_map_length2. lia. }
    rewrite E. rewrite (Z.mod_small (_ * 2 + 2)) by (unfold two64; lia). rewrite Z.eqb_refl.
    rewrite read_layers_ok by (eapply Forall_impl; [|exact H]; intros l (_ & A & _); exact A). reflexivity.
  - const_word.
  - constructor; [apply digits_word; lia|]. apply Forall_flat_map. eapply Forall_impl; [|exact H].
    intros l (A & B & C). constructor; [exact A|]. constructor; [|constructor]. apply num_word. exact C.
Qed.

Lemma box_word b : Forall word (box_words b).
Proof. repeat (constructor; [apply fmt_word|]). constructor. Qed.

Lemma top_die h0 b : top_line h0 (bytes "DIE" ++ spaced (box_words b)) = Ok (Go Top (set_die h0 b)).
Proof.
  unfold top_line. rewrite words_spaced; [|const_word|apply box_word].
  change (starts (bytes "#Version") (bytes "DIE" ++ ?x)) with false.
  change (starts (bytes "LAYER") (bytes "DIE" ++ ?x)) with false.
  change (starts (bytes "DIE") (bytes "DIE" ++ ?x)) with true.
  change (starts (bytes "DIE_ORIG") (bytes "DIE" ++ spaced (box_words b))) with false.
  unfold box_words. cbv iota. rewrite !stod_fmt. cbn [bind]. destruct b; reflexivity.
Qed.

Lemma top_origin h0 b : top_line h0 (bytes "DIE_ORIG" ++ spaced (box_words b)) = Ok (Go Top (set_origin h0 b)).
Proof.
  unfold top_line. rewrite words_spaced; [|const_word|apply box_word].
  change (starts (bytes "#Version") (bytes "DIE_ORIG" ++ ?x)) with false.
  change (starts (bytes "LAYER") (bytes "DIE_ORIG" ++ ?x)) with false.
  change (starts (bytes "DIE") (bytes "DIE_ORIG" ++ ?x)) with true.
  change (starts (bytes "DIE_ORIG") (bytes "DIE_ORIG" ++ spaced (box_words b))) with true.
  unfold box_words. cbv iota. rewrite !stod_fmt. cbn [bind]. destruct b; reflexivity.
Qed.

Lemma fmts_word zs : Forall word (map fmt zs).
Proof. induction zs; constructor; [apply fmt_word|assumption]. Qed.

Lemma top_temps h0 zs : (5 <= List.length zs)%nat -> top_line h0 (bytes "TEMP" ++ spaced (map fmt zs)) = Ok (Go Top (set_temps h0 (temps h0 ++ zs))).
Proof.
  intros L. unfold top_line. rewrite words_spaced; [|const_word|apply fmts_word].
  change (starts (bytes "#Version") (bytes "TEMP" ++ ?x)) with false.
  change (starts (bytes "LAYER") (bytes "TEMP" ++ ?x)) with false.
  change (starts (bytes "DIE") (bytes "TEMP" ++ ?x)) with false.
  change (starts (bytes "TEMP") (bytes "TEMP" ++ ?x)) with true. cbv iota. cbn [tl]. rewrite stods_fmt. cbn [bind].
  replace (Nat.ltb (List.length (temps h0 ++ zs)) 5) with false by (symmetry; apply Nat.ltb_ge; rewrite app_length; lia). reflexivity.
Qed.

Lemma top_tiles h0 x y : 0 <= x <= 100000 -> 0 <= y <= 100000 ->
  top_line h0 (bytes "TILE" ++ spaced [digits x; digits y]) = Ok (Go Top (set_tiles h0 (x, y))).
Proof.
  intros Hx Hy. unfold top_line. rewrite words_spaced; [|const_word|repeat (constructor; [apply digits_word; lia|]); constructor].
  change (starts (bytes "#Version") (bytes "TILE" ++ ?x)) with false.
  change (starts (bytes "LAYER") (bytes "TILE" ++ ?x)) with false.
  change (starts (bytes "DIE") (bytes "TILE" ++ ?x)) with false.
  change (starts (bytes "TEMP") (bytes "TILE" ++ ?x)) with false.
  change (starts (bytes "TILE") (bytes "TILE" ++ ?x)) with true. cbv iota.
  rewrite !stol_digits by lia. cbn [bind]. rewrite !Z.mod_small by (unfold two64; lia).
  replace ((100000 <? x) || (100000 <? y)) with false by (symmetry; apply orb_false_iff; split; apply Z.ltb_ge; lia). reflexivity.
Qed.

Lemma top_resolution h0 z : top_line h0 (bytes "RESOLUTION" ++ spaced [fmt z]) = Ok (Go Top (set_resolution h0 z)).
Proof.
  unfold top_line. rewrite words_spaced; [|const_word|repeat (constructor; [apply fmt_word|]); constructor].
  change (starts (bytes "#Version") (bytes "RESOLUTION" ++ ?x)) with false.
  change (starts (bytes "LAYER") (bytes "RESOLUTION" ++ ?x)) with false.
  change (starts (bytes "DIE") (bytes "RESOLUTION" ++ ?x)) with false.
  change (starts (bytes "TEMP") (bytes "RESOLUTION" ++ ?x)) with false.
  change (starts (bytes "TILE") (bytes "RESOLUTION" ++ ?x)) with false.
  change (starts (bytes "RESOLUTION") (bytes "RESOLUTION" ++ ?x)) with true. cbv iota. rewrite stod_fmt. reflexivity.
Qed.

Lemma top_scale h0 z : top_line h0 (bytes "SCALE_FACTOR" ++ spaced [fmt z]) = Ok (Go Top (set_scale h0 z)).
Proof.
  unfold top_line. rewrite words_spaced; [|const_word|repeat (constructor; [apply fmt_word|]); constructor].
  change (starts (bytes "#Version") (bytes "SCALE_FACTOR" ++ ?x)) with false.
  change (starts (bytes "LAYER") (bytes "SCALE_FACTOR" ++ ?x)) with false.
  change (starts (bytes "DIE") (bytes "SCALE_FACTOR" ++ ?x)) with false.
  change (starts (bytes "TEMP") (bytes "SCALE_FACTOR" ++ ?x)) with false.
  change (starts (bytes "TILE") (bytes "SCALE_FACTOR" ++ ?x)) with false.
  change (starts (bytes "RESOLUTION") (bytes "SCALE_FACTOR" ++ ?x)) with false.
  change (starts (bytes "SCALE_FACTOR") (bytes "SCALE_FACTOR" ++ ?x)) with true. cbv iota. rewrite stod_fmt. reflexivity.
Qed.

Lemma top_tech h0 ws : Forall word ws -> Z.of_nat (List.length ws) < 2 ^ 62 ->
  top_line h0 (bytes "ALL_LAYERS" ++ spaced (digits (Z.of_nat (List.length ws)) :: ws)) = Ok (Go Top (set_tech h0 (tech h0 ++ ws))).
Proof.
  intros H L. unfold top_line. rewrite words_spaced; [|const_word|constructor; [apply digits_word; lia|exact H]].
  change (starts (bytes "#Version") (bytes "ALL_LAYERS" ++ ?x)) with false.
  change (starts (bytes "LAYER") (bytes "ALL_LAYERS" ++ ?x)) with false.
  change (starts (bytes "DIE") (bytes "ALL_LAYERS" ++ ?x)) with false.
  change (starts (bytes "TEMP") (bytes "ALL_LAYERS" ++ ?x)) with false.
  change (starts (bytes "TILE") (bytes "ALL_LAYERS" ++ ?x)) with false.
  change (starts (bytes "RESOLUTION") (bytes "ALL_LAYERS" ++ ?x)) with false.
  change (starts (bytes "SCALE_FACTOR") (bytes "ALL_LAYERS" ++ ?x)) with false.
  change (starts (bytes "ALL_LAYERS") (bytes "ALL_LAYERS" ++ ?x)) with true. cbv iota.
  rewrite stol_digits by lia. cbn [bind]. rewrite (Z.mod_small (Z.of_nat (List.length ws))) by (unfold two64; lia).
  rewrite Z.mod_small by (unfold two64; lia).
  replace (Z.of_nat (List.length (bytes "ALL_LAYERS" :: digits (Z.of_nat (List.length ws)) :: ws)) =? Z.of_nat (List.length ws) + 2) with true;
    [reflexivity|]. symmetry. apply Z.eqb_eq. cbn [List.length]. lia.
Qed.

Lemma starts_app p t : starts p (p ++ t) = true.
Proof. induction p as [|c p IH]; [reflexivity|]. cbn [app starts]. rewrite Z.eqb_refl. exact IH. Qed.
Lemma contains_app a p b : contains p (a ++ p ++ b) = true.
Proof.
  induction a as [|c a IH]; cbn [app].
  - destruct (p ++ b) eqn:E; cbn [contains]; rewrite <- E, starts_app; reflexivity.
  - cbn [contains]. rewrite IH. apply orb_true_r.
Qed.

Lemma top_head h0 h : encrypted h0 = false -> (exists r, head h = bytes "#Version" ++ r /\ ~ In 10 r) ->
  (encrypted h = false -> contains_ci (bytes "Encrypted") (head h ++ [32]) = false) ->
  top_line h0 (head h ++ sp ++ (if encrypted h then bytes "(encrypted)" else [])) =
  Ok (Go Top (mkhdr (encrypted h) (head h ++ [32] ++ (if encrypted h then bytes "(encrypted)" else [])) (resolution h0) (scale h0)
    (die h0) (origin h0) (tiles h0) (temps h0) (layers h0) (tech h0) (vias h0) (metals h0))).
Proof.
  intros E0 (r & Er & _) Hc.
  assert (C : contains_ci (bytes "Encrypted") (head h ++ sp ++ (if encrypted h then bytes "(encrypted)" else [])) = encrypted h).
  { destruct (encrypted h); [|unfold sp; cbn [app]; apply Hc; reflexivity].
    unfold contains_ci. rewrite !map_app.
    assert (E : map lower sp ++ map lower (bytes "(encrypted)") = [32; 40] ++ map lower (bytes "Encrypted") ++ [41]) by reflexivity.
    rewrite E. rewrite app_assoc. apply contains_app. }
  assert (S : starts (bytes "#Version") (head h ++ sp ++ (if encrypted h then bytes "(encrypted)" else [])) = true).
  { rewrite Er, <- app_assoc. apply starts_app. }
  change [32] with sp. remember (head h ++ sp ++ (if encrypted h then bytes "(encrypted)" else [])) as l eqn:El.
  unfold top_line. rewrite E0, C, S. destruct l as [|c l]; [discriminate S|reflexivity].
Qed.

(** ** The blocks *)

Lemma trim_word w t : word w -> trim_left (w ++ t) = w ++ t.
Proof.
  intros [N H]. destruct w as [|c w]; [congruence|]. inversion H as [|? ? [_ Hc] _]; subst.
  cbn [app trim_left]. rewrite is_blank_false by exact Hc. reflexivity.
Qed.

Lemma block_start w t : word w -> hd 0 w <> 125 ->
  starts (bytes "}") (trim_left (sp ++ sp ++ pad21 w ++ t)) = false.
Proof.
  intros Hw Hh. change (trim_left (sp ++ sp ++ pad21 w ++ t)) with (trim_left (pad21 w ++ t)).
  unfold pad21. rewrite <- app_assoc. rewrite trim_word by exact Hw. destruct Hw as [N _]. destruct w as [|c w]; [congruence|].
  cbn [hd] in Hh. change (bytes "}") with [125]. cbn [app starts]. apply andb_false_iff. left. apply Z.eqb_neq. congruence.
Qed.

Lemma block_metal h0 m : word (m_name m) -> hd 0 (m_name m) <> 125 -> (List.length (m_name m) <= 20)%nat ->
  fits (m_thick m) -> fits (m_elev m) -> cipherable (encrypted h0) (m_thick m) -> cipherable (encrypted h0) (m_elev m) ->
  block_line Metals h0 (metal_line (encrypted h0) m) = Ok (Go Metals (set_metals h0 (metals h0 ++ [m]))).
Proof.
  intros Hw Hh L F1 F2 C1 C2. unfold block_line, metal_line.
  change (starts (bytes "#") (sp ++ ?x)) with false. cbv iota.
  rewrite block_start by assumption.
  change (words (sp ++ sp ++ ?x)) with (words x).
  rewrite (words_pad (m_name m)) by assumption.
  rewrite words_pad; [|apply num_word; intros; lia|rewrite num_length; exact F1].
  rewrite words_pad_last by (apply num_word; intros; lia).
  rewrite !read_num_num by assumption. cbn [bind sp app]. destruct m; reflexivity.
Qed.

Lemma none_word w : w = [] \/ word w -> word (none_if_empty w).
Proof. intros [->|H]; [const_word|]. destruct w; [destruct H; congruence|exact H]. Qed.

Lemma block_via h0 v : word (v_name v) -> hd 0 (v_name v) <> 125 -> (List.length (v_name v) <= 20)%nat ->
  (v_bot v = [] \/ word (v_bot v) /\ (List.length (v_bot v) <= 20)%nat) -> (v_top v = [] \/ word (v_top v)) ->
  block_line Vias h0 (via_line v) =
  Ok (Go Vias (set_vias h0 (vias h0 ++ [mkvl (v_name v) (none_if_empty (v_bot v)) (none_if_empty (v_top v))]))).
Proof.
  intros Hw Hh L Hb Ht. unfold block_line, via_line.
  change (starts (bytes "#") (sp ++ ?x)) with false. cbv iota.
  rewrite block_start by assumption.
  change (words (sp ++ sp ++ ?x)) with (words x).
  rewrite (words_pad (v_name v)) by assumption.
  rewrite words_pad.
  - rewrite words_pad_last by (apply none_word; exact Ht). reflexivity.
  - apply none_word. destruct Hb as [Hb|[Hb _]]; [left|right]; exact Hb.
  - destruct Hb as [->|[Hb Hl]]; [vm_compute; lia|]. destruct (v_bot v); [vm_compute; lia|exact Hl].
Qed.

Lemma parse_metals ls rest : forall h0,
  Forall (fun m => word (m_name m) /\ hd 0 (m_name m) <> 125 /\ (List.length (m_name m) <= 20)%nat /\
                   fits (m_thick m) /\ fits (m_elev m) /\
                   cipherable (encrypted h0) (m_thick m) /\ cipherable (encrypted h0) (m_elev m)) ls ->
  parse_lines Metals h0 (map (metal_line (encrypted h0)) ls ++ rest) =
  parse_lines Metals (set_metals h0 (metals h0 ++ ls)) rest.
Proof.
  induction ls as [|m ls IH]; intros h0 H; cbn [map app].
  - rewrite app_nil_r. destruct h0; reflexivity.
  - inversion H as [|? ? (A & B & C & D & E & F & G) Hls]; subst. cbn [parse_lines].
    rewrite block_metal by assumption. cbn [bind].
    specialize (IH (set_metals h0 (metals h0 ++ [m]))). cbn [encrypted set_metals] in IH.
    rewrite IH by exact Hls. cbn [set_metals metals]. rewrite <- app_assoc. reflexivity.
Qed.

Definition via_back (v : vialay) := mkvl (v_name v) (none_if_empty (v_bot v)) (none_if_empty (v_top v)).

Lemma parse_vias ls rest : forall h0,
  Forall (fun v => word (v_name v) /\ hd 0 (v_name v) <> 125 /\ (List.length (v_name v) <= 20)%nat /\
                   (v_bot v = [] \/ word (v_bot v) /\ (List.length (v_bot v) <= 20)%nat) /\
                   (v_top v = [] \/ word (v_top v))) ls ->
  parse_lines Vias h0 (map via_line ls ++ rest) = parse_lines Vias (set_vias h0 (vias h0 ++ map via_back ls)) rest.
Proof.
  induction ls as [|m ls IH]; intros h0 H; cbn [map app].
  - rewrite app_nil_r. destruct h0; reflexivity.
  - inversion H as [|? ? (A & B & C & D & E) Hls]; subst. cbn [parse_lines].
    rewrite block_via by assumption. cbn [bind].
    rewrite IH by exact Hls. cbn [set_vias vias]. rewrite <- app_assoc. reflexivity.
Qed.

(** ** Everything *)

Lemma write_noeol h : writable h -> Forall noeol (write_lines h).
Proof.
  intros W. unfold write_lines. apply Forall_app. split; [|apply Forall_app; split; [|apply Forall_app; split; [|apply Forall_app; split]]].
  - constructor.
    { destruct (w_head h W) as (r & -> & Hr). apply noeol_app; [apply noeol_app; [apply const_noeol; reflexivity|exact Hr]|].
      apply const_noeol. destruct (encrypted h); reflexivity. }
    constructor.
    { apply noeol_app; [apply const_noeol; reflexivity|]. apply spaced_noeol. constructor; [apply digits_word; lia|].
      apply Forall_flat_map. eapply Forall_impl; [|exact (w_layers h W)]. intros l (A & B & C).
      constructor; [exact A|]. constructor; [apply num_word; exact C|constructor]. }
    constructor; [apply noeol_app; [apply const_noeol; reflexivity|apply spaced_noeol, box_word]|].
    constructor; [apply noeol_app; [apply const_noeol; reflexivity|apply spaced_noeol, fmts_word]|].
    pose proof (w_tiles h W) as [T1 T2].
    constructor; [apply noeol_app; [apply const_noeol; reflexivity|apply spaced_noeol; repeat (constructor; [apply digits_word; lia|]); constructor]|].
    constructor; [apply noeol_app; [apply const_noeol; reflexivity|apply spaced_noeol; constructor; [apply fmt_word|constructor]]|].
    constructor; [apply noeol_app; [apply const_noeol; reflexivity|apply spaced_noeol, box_word]|].
    constructor; [apply noeol_app; [apply const_noeol; reflexivity|apply spaced_noeol; constructor; [apply fmt_word|constructor]]|].
    constructor; [apply noeol_app; [apply const_noeol; reflexivity|apply spaced_noeol; constructor; [apply digits_word; lia|exact (w_tech h W)]]|].
    repeat (constructor; [apply const_noeol; reflexivity|]). constructor.
  - rewrite Forall_map. eapply Forall_impl; [|exact (w_metals h W)]. intros m (A & _ & L & _). unfold metal_line.
    apply noeol_app; [apply const_noeol; reflexivity|]. apply noeol_app; [apply const_noeol; reflexivity|].
    apply noeol_app; [apply pad_noeol; exact A|].
    apply noeol_app; apply pad_noeol; apply num_word; intros; lia.
  - repeat (constructor; [apply const_noeol; reflexivity|]). constructor.
  - rewrite Forall_map. eapply Forall_impl; [|exact (w_vias h W)]. intros v (A & _ & L & B & C). unfold via_line.
    apply noeol_app; [apply const_noeol; reflexivity|]. apply noeol_app; [apply const_noeol; reflexivity|].
    apply noeol_app; [apply pad_noeol; exact A|].
    apply noeol_app; apply pad_noeol; apply none_word; [|exact C]. destruct B as [B|[B _]]; auto.
  - repeat (constructor; [apply const_noeol; reflexivity|]). constructor.
Qed.

Lemma parse_write h : writable h -> parse_header default_hdr (write_header h) = Ok (Some (read_back h)).
Proof.
  intros W. unfold parse_header, write_header. rewrite lines_of_unlines by (apply write_noeol; exact W).
  unfold write_lines. rewrite <- !app_assoc. cbn [app]. cbn [parse_lines].
  rewrite (top_head default_hdr h eq_refl (w_head h W) (w_head_enc h W)). cbn [bind].
  match goal with |- context [top_line ?h0 (bytes "LAYER" ++ _)] =>
    set (h1 := h0) end.
  assert (E1 : encrypted h1 = encrypted h) by reflexivity.
  pose proof (top_layers h1 (layers h)) as TL. rewrite E1 in TL.
  assert (TL' := TL (w_layers h W) (w_layers_n h W)). clear TL.
  rewrite TL'. cbn [bind]. rewrite top_die. cbn [bind]. rewrite top_temps by exact (w_temps h W). cbn [bind].
  rewrite top_tiles by apply (w_tiles h W). cbn [bind]. rewrite top_resolution. cbn [bind].
  rewrite top_origin. cbn [bind]. rewrite top_scale. cbn [bind].
  rewrite top_tech by (first [exact (w_tech h W)|exact (w_tech_n h W)]). cbn [bind].
  set (h2 := set_tech _ _).
  change (top_line h2 []) with (Ok (Go Top h2) : res outcome). cbn [bind].
  change (top_line h2 (bytes "METAL_LAYERS {")) with (Ok (Go Metals h2) : res outcome). cbn [bind].
  change (block_line Metals h2 (bytes "#<layer>        <thickness>        <height>")) with (Ok (Go Metals h2) : res outcome). cbn [bind].
  change (encrypted h) with (encrypted h2). rewrite (parse_metals (metals h)) by exact (w_metals h W).
  set (h3 := set_metals _ _). cbn [parse_lines].
  change (block_line Metals h3 (bytes "}")) with (Ok (Go Top h3) : res outcome). cbn [bind].
  change (top_line h3 (bytes "VIA_LAYERS {")) with (Ok (Go Vias h3) : res outcome). cbn [bind].
  change (block_line Vias h3 (bytes "#<layer>        <bottom_layer>        <top_layer>")) with (Ok (Go Vias h3) : res outcome). cbn [bind].
  rewrite (parse_vias (vias h)) by exact (w_vias h W).
  set (h4 := set_vias _ _). cbn [parse_lines].
  change (block_line Vias h4 (bytes "}")) with (Ok (Go Top h4) : res outcome). cbn [bind].
  change (top_line h4 []) with (Ok (Go Top h4) : res outcome). cbn [bind].
  subst h4 h3 h2 h1. unfold read_back. cbn -[bytes]. rewrite <- surjective_pairing. reflexivity.
Qed.
