(** C47, C48: reading KiCad S-expressions. *)
From Verif Require Import Base KiCad_Model KiCad_Spec KiCad_Proofs.
Local Open Scope Z_scope.
Local Open Scope res_scope.

(** Character codes, for the examples. *)
Fixpoint codes (s : string) : str :=
  match s with EmptyString => [] | String c s' => Z.of_nat (Ascii.nat_of_ascii c) :: codes s' end.

(** ** C47 *)

(** Every text of a list, with anything but a parenthesis before it and anything after it, is read
    as the tree it stands for. *)
Theorem C47_round_trip_partial : forall name items text junk rest fuel,
  renders (Lst name items) text -> ~ In LP junk -> (List.length text <= fuel)%nat ->
  parse_file fuel (junk ++ text ++ rest) = Ok (tree_of (Lst name items)) /\
  read_tree fuel (junk ++ text ++ rest) = Ok (tree_of (Lst name items), rest).
Proof.
  intros name items text junk rest fuel Hr Hj Hf.
  pose proof (proj1 round_trip_mutual _ _ Hr fuel rest junk Hj Hf) as R.
  split; [unfold parse_file; rewrite R; reflexivity|exact R].
Qed.
Print Assumptions C47_round_trip_partial.

(** Two texts of lists that stand for different trees are read as different trees, so no list is
    read with an item missing, duplicated or moved. *)
Theorem C47_items_kept : forall name items text fuel,
  renders (Lst name items) text -> (List.length text <= fuel)%nat ->
  exists bs, parse_file fuel text = Ok (Node name bs) /\ List.length bs = List.length items /\
    forall i e, nth_error items i = Some e -> nth_error bs i = Some (tree_of e).
Proof.
  intros name items text fuel Hr Hf.
  destruct (C47_round_trip_partial name items text [] [] fuel Hr (fun H => H) Hf) as [R _].
  cbn [app] in R. rewrite app_nil_r in R. exists (map tree_of items). split; [exact R|].
  split; [apply map_length|]. intros i e He. now apply map_nth_error.
Qed.
Print Assumptions C47_items_kept.

Lemma atom_textb s : s <> [] ->
  forallb (fun c => negb (is_ws c || (c =? LP) || (c =? RP) || (c =? QUOTE))) s = true -> atom_text s.
Proof.
  intros Hn H. split; [exact Hn|]. apply Forall_forall. intros c Hc.
  rewrite forallb_forall in H. specialize (H c Hc). apply negb_true_iff in H.
  rewrite !orb_false_iff in H. destruct H as [[[H1 H2] H3] H4].
  intros [Hb|[Hb|[Hb|Hb]]]; [apply is_ws_spec in Hb; congruence|subst; discriminate ..].
Qed.

(** Non-trivial case: nested lists, escaped quote inside a string, mixed white space. *)
Definition sample_sx : sx :=
  Lst (codes "net") [Atom (codes "12"); Quoted (codes "a\""b (c"); Lst (codes "at") [Atom (codes "1.5"); Atom (codes "-2")]].
Definition sample_text : str := codes "(net 12 ""a\""b (c""( at 1.5  -2 ) )".

Example C47_sample : renders sample_sx sample_text /\
  parse_file (List.length sample_text) (codes "; x " ++ sample_text) = Ok (tree_of sample_sx).
Proof.
  assert (R : renders sample_sx sample_text).
  { change sample_text with (LP :: [] ++ codes "net" ++ (codes " " ++ codes "12" ++ (codes " " ++ (QUOTE :: codes "a\""b (c" ++ [QUOTE]) ++
      ([] ++ (LP :: codes " " ++ codes "at" ++ (codes " " ++ codes "1.5" ++ (codes "  " ++ codes "-2" ++ (codes " " ++ [RP])))) ++
      (codes " " ++ [RP]))))).
    assert (B1 : Forall blank (codes " ")) by (repeat constructor; unfold blank; tauto).
    assert (B2 : Forall blank (codes "  ")) by (repeat constructor; unfold blank; tauto).
    constructor; [constructor|apply atom_textb; [discriminate|reflexivity]|].
    constructor; [exact B1|right; discriminate|constructor; apply atom_textb; [discriminate|reflexivity]|].
    constructor; [exact B1|right; discriminate|constructor|].
    { split.
      - intros u v H.
        destruct u as [|x1 [|x2 u]]; try discriminate H.
        assert (E : In QUOTE (x2 :: u) \/ (u = [] /\ x2 = BACKSLASH)).
        { destruct u as [|x3 u]; [right; inversion H; auto|]. exfalso.
          inversion H; subst. repeat (destruct u as [|? u]; try discriminate). }
        destruct E as [E|[-> ->]]; [|now exists [x1]].
        exfalso. repeat (destruct u as [|? u]; try discriminate).
        inversion H; subst. destruct E as [E|[]]; discriminate.
      - intros u H. apply (f_equal (@rev Z)) in H. rewrite rev_unit in H. discriminate. }
    constructor; [constructor|left; reflexivity| |].
    - constructor; [exact B1|apply atom_textb; [discriminate|reflexivity]|].
      constructor; [exact B1|right; discriminate|constructor; apply atom_textb; [discriminate|reflexivity]|].
      constructor; [exact B2|right; discriminate|constructor; apply atom_textb; [discriminate|reflexivity]|].
      constructor. exact B1.
    - constructor. exact B1. }
  split; [exact R|].
  pose proof (C47_round_trip_partial _ _ _ (codes "; x ") [] (List.length sample_text) R) as P.
  rewrite app_nil_r in P. apply P; [|lia].
  intros H. cbn in H. unfold LP in H. intuition discriminate.
Qed.

(** A list that directly follows a name or an atom is swallowed by it. *)
Theorem C47_adjacent_list_refuted :
  parse_file 100 (codes "(a(b c) d)") = Ok (Node (codes "a(b") [Node (codes "c") []]) /\
  tree_of (Lst (codes "a") [Lst (codes "b") [Atom (codes "c")]; Atom (codes "d")]) =
    Node (codes "a") [Node (codes "b") [Node (codes "c") []]; Node (codes "d") []].
Proof. split; reflexivity. Qed.
Print Assumptions C47_adjacent_list_refuted.

(** A quoted string that ends with an escaped backslash swallows what follows, up to the next
    quote. *)
Theorem C47_trailing_backslash_refuted :
  parse_file 100 (codes "(a ""x\\"" b ""y"" c)") = Ok (Node (codes "a") [Node (codes "x\\"" b ") []; Node (codes "y""") []; Node (codes "c") []]) /\
  unescape (codes "x\\") = codes "x\".
Proof. split; reflexivity. Qed.
Print Assumptions C47_trailing_backslash_refuted.

(** The value of a quoted string is its raw text: escapes are kept, so a string with a quote in it
    is never read as its contents. *)
Theorem C47_escapes_decoded_refuted : exists raw text,
  quoted_text raw /\ text = codes "(a """ ++ raw ++ codes """)" /\
  parse_file 100 text = Ok (Node (codes "a") [Node raw []]) /\ unescape raw <> raw.
Proof.
  exists (codes "x\""y"). eexists. split; [|split; [reflexivity|split; [reflexivity|discriminate]]].
  split.
  - intros u v H. destruct u as [|x1 [|x2 [|x3 u]]]; try discriminate H.
    + inversion H; subst. now exists [120].
    + inversion H. repeat (destruct u as [|? u]; try discriminate).
  - intros u H. apply (f_equal (@rev Z)) in H. rewrite rev_unit in H. discriminate.
Qed.
Print Assumptions C47_escapes_decoded_refuted.

(** ** C48 *)

(** A file without quotes that has an opening parenthesis and ends with a closing one is read to
    the end, balanced or not. *)
Theorem C48_terminates_partial : forall junk body fuel,
  ~ In LP junk -> ~ In QUOTE body -> (2 * List.length body + 4 <= fuel)%nat ->
  exists t, parse_file fuel (junk ++ LP :: body ++ [RP]) = Ok t.
Proof.
  intros junk body fuel Hj Hq Hf.
  destruct (proj1 (tame_terminates fuel) (body ++ [RP])) as (t & rest & R & _).
  - split.
    + intros [H|H]; [discriminate|]. apply in_app_or in H as [H|[H|[]]]; [contradiction|discriminate].
    + right. exists (LP :: body). reflexivity.
  - rewrite app_length. cbn [List.length]. lia.
  - exists t. unfold parse_file.
    assert (E : read_tree fuel (junk ++ LP :: body ++ [RP]) = read_tree fuel (LP :: body ++ [RP])).
    { destruct fuel as [|f]; [lia|]. cbn [read_tree]. rewrite read_until_app by exact Hj.
      cbn [read_until]. change (LP =? LP) with true. reflexivity. }
    rewrite E, R. reflexivity.
Qed.
Print Assumptions C48_terminates_partial.

(** Well-formed files are read to the end. *)
Theorem C48_well_formed_terminates : forall name items text fuel,
  renders (Lst name items) text -> (List.length text <= fuel)%nat -> exists t, parse_file fuel text = Ok t.
Proof.
  intros name items text fuel Hr Hf.
  destruct (C47_items_kept name items text fuel Hr Hf) as (bs & R & _). eauto.
Qed.
Print Assumptions C48_well_formed_terminates.

Example C48_sample : exists t, parse_file 100 (codes "(a (b) c) )  (d)") = Ok t /\
  parse_file 100 (codes "(a (b (c) )") = Ok (Node (codes "a") [Node (codes "b") [Node (codes "c") []]]).
Proof. eexists. split; reflexivity. Qed.

(** A file that ends inside a name makes the reader loop for ever, as does a file without any
    parenthesis, such as an empty one. *)
Theorem C48_name_at_end_diverges : forall junk w name,
  ~ In LP junk -> Forall blank w -> Forall (fun c => ~ delimiter c) name ->
  forall fuel, parse_file fuel (junk ++ LP :: w ++ name) = OutOfFuel /\ parse_file fuel junk = OutOfFuel.
Proof.
  intros junk w name Hj Hw Hn fuel.
  assert (Ns : forall c, ~ delimiter c -> ~ stop c).
  { intros c Hc. destruct (not_delim_ws c Hc) as (E1 & _ & E2 & _). unfold stop. rewrite E1, E2. discriminate. }
  unfold parse_file. destruct fuel as [|f]; [split; reflexivity|]. cbn [read_tree]. split.
  - rewrite read_until_app by exact Hj. rewrite read_whitespace_app by exact Hw.
    assert (E : read_whitespace name = name).
    { destruct name as [|c name]; [reflexivity|]. inversion Hn as [|? ? Hc ?]; subst.
      apply read_whitespace_stop. now apply not_delim_ws. }
    rewrite E, read_word_eof; [reflexivity|]. eapply Forall_impl; [exact Ns|exact Hn].
  - assert (E : read_until junk LP = []).
    { clear - Hj. induction junk as [|x l IH]; [reflexivity|]. cbn [read_until].
      destruct (Z.eqb_spec x LP); [exfalso; apply Hj; now left|]. apply IH. intros H. apply Hj. now right. }
    rewrite E. cbn [read_whitespace]. rewrite read_word_eof; [reflexivity|constructor].
Qed.
Print Assumptions C48_name_at_end_diverges.

(** A file that ends inside a quoted string makes the reader loop for ever. *)
Theorem C48_open_quote_diverges : forall name s,
  atom_text name -> quoted_text s ->
  forall fuel, parse_file fuel (LP :: name ++ 32 :: QUOTE :: s) = OutOfFuel.
Proof.
  intros name s [Hne Hn] [Hq _] fuel. unfold parse_file. destruct fuel as [|f]; [reflexivity|].
  cbn [read_tree read_until]. change (LP =? LP) with true. cbn iota.
  assert (E : read_whitespace (name ++ 32 :: QUOTE :: s) = name ++ 32 :: QUOTE :: s).
  { destruct name as [|c name]; [congruence|]. inversion Hn as [|? ? Hc ?]; subst. cbn [app].
    apply read_whitespace_stop. now apply not_delim_ws. }
  rewrite E.
  destruct (le_lt_dec (List.length name + 1) f) as [Hf|Hf].
  - rewrite read_word_ok; [|exact Hn|reflexivity|exact Hf]. cbn [bind app].
    destruct f as [|f]; [reflexivity|]. cbn [read_branches].
    change (read_whitespace (32 :: QUOTE :: s)) with (QUOTE :: s).
    change (QUOTE =? RP) with false. change (QUOTE =? LP) with false. change (QUOTE =? QUOTE) with true. cbn iota.
    unfold read_quoted. rewrite (quoted_loop_eof f s s [] (hd_error s)); try reflexivity; [exact Hq|].
    intros u' x H. destruct u'; discriminate.
  - assert (G : forall n f acc rest, Forall (fun c => ~ delimiter c) n -> (f < List.length n + 1)%nat ->
      read_word f (n ++ rest) acc = OutOfFuel).
    { clear. induction n as [|c n IH]; intros f acc rest Hn Hf.
      - destruct f; [reflexivity|cbn in Hf; lia].
      - destruct f as [|f]; [reflexivity|]. inversion Hn as [|? ? Hc Hn']; subst. cbn [read_word app].
        destruct (not_delim_ws c Hc) as (-> & _ & -> & _). cbn [orb]. apply IH; [exact Hn'|cbn in Hf; lia]. }
    rewrite G; [reflexivity|exact Hn|exact Hf].
Qed.
Print Assumptions C48_open_quote_diverges.

(** So the parser does not terminate on every file. *)
Theorem C48_terminates_refuted : exists file, forall fuel, parse_file fuel file = OutOfFuel.
Proof.
  exists (codes "(kicad_pcb"). intros fuel.
  apply (C48_name_at_end_diverges [] [] (codes "kicad_pcb")); [intros []|constructor|].
  apply atom_textb; [discriminate|reflexivity].
Qed.
Print Assumptions C48_terminates_refuted.

(** A missing closing parenthesis is not reported: the list without it gives the same tree. *)
Theorem C48_missing_parenthesis_is_silent : forall name sub items text fuel,
  atom_text name -> renders (Lst sub items) text -> (List.length name + List.length text + 4 <= fuel)%nat ->
  parse_file fuel (LP :: name ++ 32 :: text) = Ok (tree_of (Lst name [Lst sub items])).
Proof.
  intros name sub items text fuel [Hne Hn] Hr Hf. unfold parse_file.
  destruct fuel as [|f]; [lia|]. cbn [read_tree read_until]. change (LP =? LP) with true. cbn iota.
  assert (E : read_whitespace (name ++ 32 :: text) = name ++ 32 :: text).
  { destruct name as [|c name]; [congruence|]. inversion Hn as [|? ? Hc ?]; subst. cbn [app].
    apply read_whitespace_stop. now apply not_delim_ws. }
  rewrite E, read_word_ok; [|exact Hn|reflexivity|lia]. cbn [bind app].
  destruct f as [|f]; [lia|]. cbn [read_branches].
  change (read_whitespace (32 :: text)) with (read_whitespace text).
  assert (Ht : exists t', text = LP :: t') by (inversion Hr; eexists; reflexivity). destruct Ht as [t' ->].
  rewrite read_whitespace_stop by reflexivity.
  change (LP =? RP) with false. change (LP =? LP) with true. cbn iota.
  pose proof (proj1 round_trip_mutual _ _ Hr f [] [] (fun H => H)) as R. cbn [app] in R.
  rewrite app_nil_r in R. rewrite R by lia. cbn [bind app].
  destruct f as [|f]; [lia|]. reflexivity.
Qed.
Print Assumptions C48_missing_parenthesis_is_silent.
