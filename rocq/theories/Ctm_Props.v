(** C49: enciphered numbers and header files of chip thermal models. *)
From Verif Require Import Base Ctm_Model Ctm_Spec Ctm_Proofs.
Local Open Scope res_scope.
Local Open Scope Z_scope.

(** Deciphering with the same name length undoes enciphering, for every text and every length. *)
Theorem C49_cipher : forall s len, Forall (fun c => 0 <= c < 256) s ->
  decrypt_text (encrypt s len) len = s /\ List.length (encrypt s len) = List.length s /\
  Forall (fun c => 0 <= c < 256) (encrypt s len).
Proof.
  intros s len H. split; [exact (decrypt_encrypt s len H)|]. unfold encrypt. split; [apply map_length|].
  rewrite Forall_map. eapply Forall_impl; [|exact H]. intros c _. apply Z.mod_pos_bound. lia.
Qed.

(** Every non-negative number comes back; negative ones are read as zero. *)
Theorem C49_number : forall z len, decrypt (encrypt (fmt z) len) len = Ok (Z.max z 0).
Proof.
  intros z len. unfold decrypt. rewrite decrypt_encrypt.
  - rewrite stod_fmt. cbn [bind]. f_equal. destruct (Z.leb_spec 0 z); lia.
  - destruct (fmt_chars z) as [F _]. eapply Forall_impl; [|exact F]. unfold num_char, byte. intros; lia.
Qed.

(** A header that is written and read comes back with its encryption mark and all numbers and names,
    provided its version line starts with the word the reader looks for, its names are single words
    that leave a gap in their columns, and so on.  Missing for the full claim: the other headers, and
    the fields in which [read_back] differs from the header (origin, version line, None). *)
Theorem C49_header_partial : forall h, writable h ->
  parse_header default_hdr (write_header h) = Ok (Some (read_back h)).
Proof. exact parse_write. Qed.

(** Consequence: the mark "encrypted" is recognised. *)
Theorem C49_recognised_partial : forall h, writable h -> exists h',
  parse_header default_hdr (write_header h) = Ok (Some h') /\ encrypted h' = encrypted h /\
  layers h' = layers h /\ metals h' = metals h /\ tech h' = tech h.
Proof. intros h W. exists (read_back h). split; [apply parse_write; exact W|]. repeat split. Qed.

(** ** Where it fails *)

Definition five : list Z := [25000000; 50000000; 75000000; 100000000; 125000000].
Definition version_head : text := bytes "#Version 1.0".

(** With the default version line, which lacks the '#', the mark is not seen: the enciphered number is
    parsed as a number, which throws. *)
Definition default_encrypted : hdr :=
  mkhdr true default_head 10000000 1000000 (mkbox 0 0 0 0) (mkbox 0 0 0 0) (1, 1) five
    [mklay (bytes "M1") 1500000] [] [] [].
Theorem C49_recognised_refuted : exists h,
  encrypted h = true /\ head h = head default_hdr /\
  (parse_header default_hdr (write_header h) = Throw) /\
  parse_header default_hdr (write_header (mkhdr true (head h) 10000000 1000000 (mkbox 0 0 0 0) (mkbox 0 0 0 0) (1, 1) five [] [] [] []))
    = Ok (Some (mkhdr false (head h) 10000000 1000000 (mkbox 0 0 0 0) (mkbox 0 0 0 0) (1, 1) five [] [] [] [])).
Proof.
  exists default_encrypted. split; [reflexivity|]. split; [reflexivity|].
  split; vm_compute; reflexivity.
Qed.

(** The origin is overwritten by the size. *)
Theorem C49_origin_refuted : exists h h', writable h /\
  parse_header default_hdr (write_header h) = Ok (Some h') /\ origin h' <> origin h /\ origin h' = die h.
Proof.
  exists (mkhdr false version_head 10000000 1000000 (mkbox 0 0 5 5) (mkbox 1 1 6 6) (1, 1) five [] [] [] []).
  eexists. split; [|split; [apply parse_write|split; [discriminate|reflexivity]]].
  1,2: constructor; cbn; try (constructor; fail); try lia;
    try (exists (bytes " 1.0"); split; [reflexivity|vm_compute; intuition discriminate]);
    try (intros _; vm_compute; reflexivity); try (intuition lia).
Qed.

(** A layer name of 21 characters leaves no gap to its thickness, and the file is rejected. *)
Definition name21 : text := bytes "METAL_LAYER_NUMBER_01".
Theorem C49_long_name_refuted : exists h,
  Forall (fun m => word (m_name m)) (metals h) /\ parse_header default_hdr (write_header h) = Ok None.
Proof.
  exists (mkhdr false version_head 10000000 1000000 (mkbox 0 0 5 5) (mkbox 0 0 5 5) (1, 1) five [] [] [] [mkmet name21 1000000 1000000]).
  split; [constructor; [const_word|constructor]|]. vm_compute. reflexivity.
Qed.

(** With a layer name of 244 characters the decimal point is enciphered as a blank, and the file is
    rejected. *)
Theorem C49_cipher_blank_refuted : exists h,
  encrypted h = true /\ Forall (fun l => word (l_name l) /\ 0 <= l_thick l) (layers h) /\
  parse_header default_hdr (write_header h) = Ok None.
Proof.
  exists (mkhdr true version_head 10000000 1000000 (mkbox 0 0 5 5) (mkbox 0 0 5 5) (1, 1) five [mklay (repeat 77 244) 1000000] [] [] []).
  split; [reflexivity|]. split; [|vm_compute; reflexivity].
  constructor; [|constructor]. cbn [l_name l_thick]. split; [|lia]. split; [discriminate|].
  apply Forall_forall. intros c Hc. apply repeat_spec in Hc. subst c. unfold blank. lia.
Qed.

(** The version line grows every time a header is written and read. *)
Theorem C49_head_grows : forall h, writable h -> exists h',
  parse_header default_hdr (write_header h) = Ok (Some h') /\
  (List.length (head h) < List.length (head h'))%nat.
Proof.
  intros h W. exists (read_back h). split; [apply parse_write; exact W|]. cbn [head read_back].
  rewrite app_length. cbn [app List.length]. lia.
Qed.

(** A via without a neighbour comes back with a neighbour called None. *)
Theorem C49_none_refuted : exists h h' v, writable h /\ vias h = [v] /\ v_top v = [] /\
  parse_header default_hdr (write_header h) = Ok (Some h') /\ map v_top (vias h') = [bytes "None"].
Proof.
  exists (mkhdr false version_head 10000000 1000000 (mkbox 0 0 5 5) (mkbox 0 0 5 5) (1, 1) five [] []
    [mkvl (bytes "V1") (bytes "M1") []] []).
  eexists. eexists. split; [|split; [reflexivity|split; [reflexivity|split; [vm_compute; reflexivity|reflexivity]]]].
  constructor; cbn -[bytes contains_ci]; try (constructor; fail); try lia;
    try (exists (bytes " 1.0"); split; [reflexivity|vm_compute; intuition discriminate]);
    try (intros _; vm_compute; reflexivity); try (intuition lia).
  constructor; [|constructor]. cbn [v_name v_bot v_top].
  split; [const_word|]. split; [discriminate|]. split; [vm_compute; lia|]. split; [right; split; [const_word|vm_compute; lia]|left; reflexivity].
Qed.

(** A layer count of -2^63 passes the size check and lets the reader run past the end of the line. *)
Theorem C49_layer_count_is_ub : parse_header default_hdr (bytes "LAYER -9223372036854775808") = UB.
Proof. vm_compute. reflexivity. Qed.

Print Assumptions C49_cipher.
Print Assumptions C49_number.
Print Assumptions C49_header_partial.
Print Assumptions C49_recognised_partial.
Print Assumptions C49_recognised_refuted.
Print Assumptions C49_origin_refuted.
Print Assumptions C49_long_name_refuted.
Print Assumptions C49_cipher_blank_refuted.
Print Assumptions C49_head_grows.
Print Assumptions C49_none_refuted.
Print Assumptions C49_layer_count_is_ub.

(** An encrypted header with layers, metals and vias meets the hypotheses. *)
Example C49_example : hdr :=
  mkhdr true version_head 10000000 1000000 (mkbox 0 0 5000000 5000000) (mkbox 0 0 5000000 5000000) (2, 3) five
    [mklay (bytes "M1") 1500000; mklay (bytes "V1") 0] [bytes "M1"; bytes "V1"; bytes "M2"]
    [mkvl (bytes "V1") (bytes "M1") (bytes "M2")] [mkmet (bytes "M1") 1000000 12345678; mkmet (bytes "M2") 1 0].
Example C49_example_writable : writable C49_example.
Proof.
  constructor; cbn [C49_example head encrypted layers temps tiles tech metals vias fst snd].
  - exists (bytes " 1.0"). split; [reflexivity|vm_compute; intuition discriminate].
  - discriminate.
  - repeat (constructor; [cbn [l_name l_thick]; split; [const_word|split; [intros _; lia|intros _; vm_compute; lia]]|]). constructor.
  - cbn. lia.
  - cbn. lia.
  - lia.
  - repeat (constructor; [const_word|]). constructor.
  - cbn. lia.
  - repeat (constructor; [cbn [m_name m_thick m_elev]; split; [const_word|]; split; [discriminate|]; split; [vm_compute; lia|];
      split; [vm_compute; lia|]; split; [vm_compute; lia|]; split; intros _; lia|]). constructor.
  - constructor; [|constructor]. cbn [v_name v_bot v_top]. split; [const_word|]. split; [discriminate|]. split; [vm_compute; lia|].
    split; right; [split; [const_word|vm_compute; lia]|const_word].
Qed.
Example C49_example_read : parse_header default_hdr (write_header C49_example) = Ok (Some (read_back C49_example)).
Proof. vm_compute. reflexivity. Qed.

(** ** Malformed files *)

Definition keywords : list text :=
  [bytes "#Version"; bytes "LAYER"; bytes "DIE"; bytes "TEMP"; bytes "TILE"; bytes "RESOLUTION"; bytes "SCALE_FACTOR";
   bytes "ALL_LAYERS"; bytes "METAL_LAYERS"; bytes "VIA_LAYERS"].
(** A text in which no line starts with a keyword is accepted as a header: no die, no tiles, no layers. *)
Theorem C49_other_text_not_rejected : forall ls,
  Forall (fun l => ~ In 10 l /\ forall k t, In k keywords -> l <> k ++ t) ls ->
  parse_header default_hdr (List.concat (map (fun l => l ++ [10]) ls))
  = Ok (Some (mkhdr false (bytes "Version 1.0 2022 R2") 10000000 1000000 (mkbox 0 0 0 0) (mkbox 0 0 0 0) (0, 0) [] [] [] [] [])).
Proof.
  intros ls Hls; unfold parse_header; change 10 with eol.
  rewrite (lines_of_unlines ls) by (eapply Forall_impl; [|exact Hls]; cbn beta; intros l (H & _); exact H).
  assert (St : forall p t, starts p t = true -> exists u, t = p ++ u).
  { induction p as [|x p IH]; intros t Ht; [exists t; reflexivity|]. destruct t as [|y t]; cbn [starts] in Ht; [discriminate|].
    apply andb_prop in Ht as (Ex & Ht). apply Z.eqb_eq in Ex; subst y. destruct (IH t Ht) as (u & ->). exists u; reflexivity. }
  change (Ok (Some (mkhdr false (bytes "Version 1.0 2022 R2") 10000000 1000000 (mkbox 0 0 0 0) (mkbox 0 0 0 0) (0, 0) [] [] [] [] [])))
    with (Ok (Some default_hdr)).
  generalize default_hdr as h0; induction Hls as [|l ls (_ & Hk) _ IH]; intros h0; [reflexivity|].
  assert (K : forall k, In k keywords -> starts k l = false).
  { intros k Hin. destruct (starts k l) eqn:E; [|reflexivity]. destruct (St _ _ E) as (u & Eu). exfalso; exact (Hk k u Hin Eu). }
  cbn [app parse_lines].
  replace (top_line h0 l) with (Ok (Go Top h0)) by (destruct l as [|c l]; [reflexivity|]; unfold top_line; rewrite !K by (cbn; auto 12); reflexivity).
  cbn [bind]; apply IH.
Qed.
Print Assumptions C49_other_text_not_rejected.

(** A count which does not start like a number throws. *)
Theorem C49_bad_count_throws : forall k c r rest,
  In k [bytes "LAYER"; bytes "ALL_LAYERS"] -> word (c :: r) -> ~ 48 <= c <= 57 -> c <> 43 -> c <> 45 -> ~ In 10 (c :: r) ->
  parse_header default_hdr (k ++ 32 :: (c :: r) ++ 10 :: rest) = Throw.
Proof.
  intros k c r rest Hk Hw Hd Hp Hm He; unfold parse_header, lines_of.
  assert (Nk : noeol (k ++ 32 :: (c :: r))).
  { apply noeol_app; [|intros [H|H]; [discriminate|exact (He H)]].
    destruct Hk as [<-|[<-|[]]]; vm_compute; intuition discriminate. }
  replace (k ++ 32 :: (c :: r) ++ 10 :: rest) with ((k ++ 32 :: (c :: r)) ++ eol :: rest) by (rewrite <- app_assoc; reflexivity).
  rewrite (lines_from_app _ Nk); cbn [rev app parse_lines].
  assert (W : words (k ++ 32 :: c :: r) = [k; c :: r]).
  { rewrite words_word_blank, words_word by (try exact Hw; destruct Hk as [<-|[<-|[]]]; const_word); reflexivity. }
  assert (T : stol (c :: r) = Throw).
  { unfold stol.
    assert (E : sign_split (c :: r) = (1, c :: r)).
    { unfold sign_split. destruct c as [|p|p]; try reflexivity. repeat (destruct p as [p|p|]; try reflexivity); exfalso; lia. }
    rewrite E; cbn [span_digits].
    replace (is_digit c) with false; [reflexivity|]. symmetry; unfold is_digit; apply andb_false_iff; rewrite !Z.leb_gt; lia. }
  destruct Hk as [<-|[<-|[]]]; unfold top_line; rewrite W, T; reflexivity.
Qed.
Print Assumptions C49_bad_count_throws.
Example C49_bad_count_ex : parse_header default_hdr (bytes "LAYER two M1 1.0 M2 1.0") = Throw /\
  parse_header default_hdr (bytes "this is no header") = Ok (Some default_hdr).
Proof. split; vm_compute; reflexivity. Qed.
