(** The text of XFL files: what is read, whatever the layout of the text; and what is not. *)
From Coq Require Import Ascii QArith.
From Verif Require Import Base Text_Proofs Qi_Model XflText_Model XflText_Spec XflText_Proofs XflText_Reads XflText_File XflText_Gives.
Close Scope Q_scope.
Open Scope list_scope.
Open Scope qi_scope.
Open Scope string_scope.
Open Scope nat_scope.

(** ** C128: a file is read as what its words say *)
(** However the words are spread over lines, whatever comments stand between them and in whatever letter case the keywords
    are: each element arrives once, in order, with the values its words stand for, and reading reports success. *)
Theorem C128_read_as_written (value : string -> Q) calls ws s t :
  file_words value calls ws -> written ws s t -> gap t -> read value s = (true, calls).
Proof. apply file_reads. Qed.
Print Assumptions C128_read_as_written.

(** No text has two meanings, and two layouts of the same words mean the same. *)
Theorem C128_one_meaning (value : string -> Q) calls calls' ws ws' s t t' :
  file_words value calls ws -> file_words value calls' ws' -> written ws s t -> written ws' s t' -> gap t -> gap t' -> calls = calls'.
Proof.
  intros F F' W W' G G'. pose proof (file_reads value _ _ _ _ F W G) as E. rewrite (file_reads value _ _ _ _ F' W' G') in E. now injection E.
Qed.
Print Assumptions C128_one_meaning.
Theorem C128_layout_free (value : string -> Q) calls ws s s' t t' :
  file_words value calls ws -> written ws s t -> written ws s' t' -> gap t -> gap t' -> read value s = read value s'.
Proof. intros F W W' G G'. now rewrite (file_reads value _ _ _ _ F W G), (file_reads value _ _ _ _ F W' G'). Qed.
Print Assumptions C128_layout_free.

(** A file with a comment and mixed letter case *)
Definition nl : string := String "010" "".
Definition dq : string := String "034" "".
Definition ex_value (w : string) : Q := inject_Z (decimal w).
Definition ex_text : string :=
  ".Version 2 1" ++ nl ++ ".MATERIAL # metals" ++ nl ++ "C " ++ dq ++ "CU" ++ dq ++ " 58" ++ nl ++ ".end material" ++ nl.
Definition ex_cu : string := dq ++ "CU" ++ dq.
Definition ex_words : list string := [".Version"; "2"; "1"; ".MATERIAL"; "C"; ex_cu; "58"; ".end material"].
Definition ex_calls : list call := [CVersion 2 1; CMaterial (mkMat true "CU" 58 0 0 0 0)].

Lemma alike_upper n : 65 <= n <= 90 -> alike (ascii_of_nat (n + 32)) (ascii_of_nat n).
Proof. intros H. right. exists n. split; [exact H|]. right. now split. Qed.
Lemma ex_version : keyword ".version" ".Version".
Proof. split; [now left|]. split; [apply (alike_upper 86); lia|]. repeat (split; [now left|]). exact I. Qed.
Lemma ex_material : keyword ".material" ".MATERIAL".
Proof.
  split; [now left|]. split; [apply (alike_upper 77); lia|]. split; [apply (alike_upper 65); lia|]. split; [apply (alike_upper 84); lia|]. split; [apply (alike_upper 69); lia|].
  split; [apply (alike_upper 82); lia|]. split; [apply (alike_upper 73); lia|]. split; [apply (alike_upper 65); lia|]. split; [apply (alike_upper 76); lia|]. exact I.
Qed.
Lemma ex_digits w : w <> "" -> chars is_digit w -> number w.
Proof. intros N D. exists "", w, "". cbn. rewrite append_empty. split; [reflexivity|]. split; [now left|]. split; [left; now split|now left]. Qed.
Lemma ex_whole w : w <> "" -> chars is_digit w -> (-2147483648 <= decimal w <= 2147483647)%Z -> whole (decimal w) w.
Proof. intros N D B. exists "", w. split; [reflexivity|]. split; [now left|]. split; [now split|]. split; [reflexivity|exact B]. Qed.
Ltac digits := cbn; unfold is_digit, range; cbn; repeat split; lia.

Example C128_words_ex : file_words ex_value ex_calls ex_words.
Proof.
  exists [[CVersion 2 1]; [CMaterial (mkMat true "CU" 58 0 0 0 0)]]. split; [reflexivity|].
  change ex_words with ([".Version"; "2"; "1"] ++ [".MATERIAL"; "C"; ex_cu; "58"; ".end material"] ++ [])%list.
  apply aw_cons.
  - apply fw_version; [exact ex_version|apply (ex_whole "2"); [discriminate|digits|cbn; lia]|apply (ex_whole "1"); [discriminate|digits|cbn; lia]].
  - apply aw_cons; [|constructor]. apply (fw_material ex_value [mkMat true "CU" 58 0 0 0 0] [".MATERIAL"; "C"; ex_cu; "58"; ".end material"]).
    apply (section_of "material" _ ".MATERIAL" _ ["C"; ex_cu; "58"] ".end material"); [exact ex_material| |cbn; repeat (split; [now left|]); exact I].
    apply (aw_cons _ _ ["C"; ex_cu; "58"] _ []); [|constructor]. apply mw_metal; [split; [now left|exact I]| |].
    + split; [reflexivity|]. split; [discriminate|]. repeat split; discriminate.
    + split; [apply ex_digits; [discriminate|digits]|reflexivity].
Qed.
Lemma blank_gap : gap " ". Proof. apply gap_white; [now left|constructor]. Qed.
Lemma nl_gap : gap nl. Proof. apply gap_white; [right; right; right; right; now left|constructor]. Qed.
Lemma comment_gap : gap (" # metals" ++ nl).
Proof. apply gap_white; [now left|]. apply (gap_comment " metals" "010" ""); [|now left|constructor]. cbn. repeat split; intros [X|X]; discriminate X. Qed.
Example C128_written_ex : written ex_words ex_text nl.
Proof.
  assert (B : forall s, stops (String " " s)) by (intros s; left; now left).
  assert (N : forall s, stops (nl ++ s)) by (intros s; left; right; right; right; right; now left).
  apply (written_cons "" ".Version"); [constructor|right; right; right; apply B|]. apply (written_cons " " "2"); [exact blank_gap|right; right; right; apply B|].
  apply (written_cons " " "1"); [exact blank_gap|right; right; right; apply N|]. apply (written_cons nl ".MATERIAL"); [exact nl_gap|right; right; right; apply B|].
  apply (written_cons (" # metals" ++ nl) "C"); [exact comment_gap|right; right; right; apply B|]. apply (written_cons " " ex_cu); [exact blank_gap|right; right; right; apply B|].
  apply (written_cons " " "58"); [exact blank_gap|right; right; right; apply N|]. apply (written_cons nl ".end material"); [exact nl_gap|right; right; right; apply N|]. constructor.
Qed.
Example C128_ex : read ex_value ex_text = (true, ex_calls).
Proof. apply (C128_read_as_written ex_value ex_calls ex_words ex_text nl C128_words_ex C128_written_ex nl_gap). Qed.

(** ** C129: reading ends, each loop by its own condition *)
(** Every turn of every repetition of the grammar takes at least one character from the text. *)
Definition takes {A} (p : P A) : Prop := forall s a r, p s = Some (a, r) -> String.length r < String.length s.
Theorem C129_progress (value : string -> Q) :
  takes (point_ value) /\ takes (palt (q <~ point_ value ;; pret (PPoint q)) (arc value)) /\ takes (pad_ value) /\ takes (node_ value) /\
  takes (object_ value) /\ takes (pin_ value) /\
  takes (material_ value) /\ takes (layer_ value) /\ takes (shape_ value) /\ takes (padstack_ value) /\ takes (via_ value) /\
  takes (part_ value) /\ takes (net_ value) /\ takes (route_ value) /\ (forall k, takes (pminus (tok (one (fun _ => true))) (kw k))) /\
  (forall db s db' r, item value db s = (db', Some r) -> String.length r < String.length s).
Proof.
  repeat match goal with |- _ /\ _ => split end; try (intros s a r E; revert s a r E).
  - apply point_eats.
  - apply piece_eats.
  - apply pad_eats.
  - apply node_eats.
  - apply object_eats.
  - apply pin_eats.
  - apply material_eats.
  - apply layer_eats.
  - apply shape_eats.
  - apply padstack_eats.
  - apply via_eats.
  - apply part_eats.
  - apply net_eats.
  - apply route_eats.
  - intros k. apply over_eats.
  - apply item_eats.
Qed.
Print Assumptions C129_progress.

(** So the bound the model puts on the number of turns is never met: a repetition goes on exactly as long as its body can
    be read, and so does the file. *)
Theorem C129_repeats {A} (p : P A) : takes p -> forall s,
  pstar p s = match p s with
              | Some (a, r) => match pstar p r with Some (l, r') => Some (a :: l, r') | None => None end
              | None => Some ([], s)
              end.
Proof. intros H. apply pstar_eq. exact H. Qed.
Print Assumptions C129_repeats.
Theorem C129_items (value : string -> Q) db s :
  rstar (item value) db s = match item value db s with (db', Some r) => rstar (item value) db' r | (db', None) => (db', Some s) end.
Proof. apply rstar_eq, item_eats. Qed.
Print Assumptions C129_items.
Example C129_ex : takes (kw "ARC") /\ pstar (kw "ARC") "arc ARC Arc 1" = Some ([tt; tt; tt], " 1").
Proof. split; [apply kw_eats; discriminate|vm_compute; reflexivity]. Qed.

(** ** C130: what arrives is well formed, whatever the text *)
(** Integers fit in 32 bits, names are not empty and hold no quotes, the letters of types and mirrors are the known ones, and
    outlines with arcs start at a point.  In particular no text makes a diamond or an arc of the third kind. *)
Theorem C130_well_formed (value : string -> Q) s : Forall call_ok (snd (read value s)).
Proof. apply read_ok. Qed.
Print Assumptions C130_well_formed.
(** With a broken file: what was read before the break arrives. *)
Example C130_ex : snd (read ex_value (".layer " ++ dq ++ "L1" ++ dq ++ " 5 S " ++ dq ++ "CU" ++ dq ++ dq ++ "FR" ++ dq ++ " broken"))
  = [CLayer (mkLay "L1" 5 "S" "CU" "FR")].
Proof. vm_compute. reflexivity. Qed.

(** ** C131: every element the format has can be read *)
(** "ARC" is tried before "ARC3", so that the 3 is taken for a coordinate; the whole section is lost. *)
Theorem C131_arc3_refuted : forall value, read value (".shape 1 composite { 0 0 ARC3 1 1 2 0 } .end shape" ++ nl) = (true, [CUnknown "shape"]).
Proof. intros value. vm_compute. reflexivity. Qed.
Print Assumptions C131_arc3_refuted.
(** No text makes an arc of the third kind or a diamond of a template. *)
Theorem C131_never_arc3_or_diamond value s t : In (CShape t) (snd (read value s)) ->
  match t_shape t with SComposite cs => forall e m, ~ In (PArc 2 e m) cs | SDiamond _ => False | _ => True end.
Proof.
  intros I. pose proof (read_ok value s) as F. rewrite Forall_forall in F. destruct (F _ I) as [_ S]. destruct (t_shape t); try exact S.
  intros e m Im. destruct S as [_ S]. rewrite Forall_forall in S. specialize (S _ Im). cbn in S. lia.
Qed.
Print Assumptions C131_never_arc3_or_diamond.
(** A diamond is read as a square of the same width. *)
Theorem C131_diamond_refuted : forall value, read value (".shape 1 diamond 2 .end shape" ++ nl) = (true, [CShape (mkTmpl 1 (SSquare (value "2")))]).
Proof. intros value. vm_compute. reflexivity. Qed.
Print Assumptions C131_diamond_refuted.
(** In a route it is not read at all: the routes of this and of all later nets of the section are lost. *)
Theorem C131_route_diamond_refuted : forall value,
  read value (".route " ++ dq ++ "N" ++ dq ++ " { diamond 1 2 0 0 } .end route" ++ nl) = (true, [CUnknown "route"]).
Proof. intros value. vm_compute. reflexivity. Qed.
Print Assumptions C131_route_diamond_refuted.
(** A bond wire without the names of its dies takes the next two words for them. *)
Theorem C131_bondwire_refuted : forall value,
  read value (".route " ++ dq ++ "N" ++ dq ++ " { bondwire 1 2 3 0 0 1 1 via 1 2 V 0 0 0 } .end route" ++ nl) = (true, [CUnknown "route"]).
Proof. intros value. vm_compute. reflexivity. Qed.
Print Assumptions C131_bondwire_refuted.
(** A pin without padstacks whose successor is named by a number takes that name for its padstack. *)
Theorem C131_pin_names_refuted : forall value, read value (".part P { 1 0 0 I 2 0 0 I 3 0 0 I } .end part" ++ nl) = (true, [CUnknown "part"]).
Proof. intros value. vm_compute. reflexivity. Qed.
Print Assumptions C131_pin_names_refuted.
(** A layer without conductor: an empty name is not read, and the section ends there. *)
Theorem C131_empty_name_refuted : forall value,
  read value (".layer " ++ dq ++ "D1" ++ dq ++ " 5 D " ++ dq ++ dq ++ " " ++ dq ++ "FR" ++ dq ++ " .end layer" ++ nl) = (true, [CUnknown "layer"]).
Proof. intros value. vm_compute. reflexivity. Qed.
Print Assumptions C131_empty_name_refuted.

(** ** C132: success means that nothing was lost *)
(** One layer that cannot be read makes the section one of unknown kind.  The layers before it have arrived, those after it
    are lost, and success is reported. *)
Definition layer_text (n c : string) : string := dq ++ n ++ dq ++ " 5 S " ++ dq ++ c ++ dq ++ " " ++ dq ++ "FR" ++ dq ++ nl.
Theorem C132_half_section_refuted : forall value,
  read value (".layer" ++ nl ++ layer_text "L1" "CU" ++ layer_text "L2" "" ++ layer_text "L3" "CU" ++ ".end layer" ++ nl)
  = (true, [CLayer (mkLay "L1" (value "5") "S" "CU" "FR"); CUnknown "layer"]).
Proof. intros value. vm_compute. reflexivity. Qed.
Print Assumptions C132_half_section_refuted.
(** A dielectric with a loss tangent but without the number of its model keeps the tangent and loses the section. *)
Theorem C132_half_material_refuted : forall value,
  read value (".material D " ++ dq ++ "A" ++ dq ++ " 1 2 3 4 .end material" ++ nl)
  = (true, [CMaterial (mkMat false "A" (value "1") (value "2") (value "3") (value "4") 0); CUnknown "material"]).
Proof. intros value. vm_compute. reflexivity. Qed.
Print Assumptions C132_half_material_refuted.
(** A stray end of a section is passed over as single lines. *)
Theorem C132_stray_end_refuted : forall value, read value (".end layer .end end" ++ nl ++ ".version 2 1" ++ nl) = (true, [CLine ".end layer .end end"; CVersion 2 1]).
Proof. intros value. vm_compute. reflexivity. Qed.
Print Assumptions C132_stray_end_refuted.
(** A file that breaks off in a section is read with success too; the section is then read a second time, as single lines. *)
Theorem C132_cut_file_refuted : forall value,
  read value (".layer" ++ nl ++ layer_text "L1" "CU" ++ ".net" ++ nl)
  = (true, [CLayer (mkLay "L1" (value "5") "S" "CU" "FR"); CLine ".layer"; CLine (dq ++ "L1" ++ dq ++ " 5 S " ++ dq ++ "CU" ++ dq ++ " " ++ dq ++ "FR" ++ dq); CLine ".net"]).
Proof. intros value. vm_compute. reflexivity. Qed.
Print Assumptions C132_cut_file_refuted.
(** And the other way round: every file whose last line is a comment without a line end is refused, although all of it
    was read. *)
Theorem C132_open_comment_fails (value : string -> Q) calls ws s g b :
  file_words value calls ws -> written ws s (g ++ "#" ++ b) -> gap g -> chars (fun d => ~ newline d) b -> read value s = (false, calls).
Proof. apply file_open_comment. Qed.
Print Assumptions C132_open_comment_fails.
Example C132_ex : read ex_value (".version 2 1 # end") = (false, [CVersion 2 1]) /\ read ex_value (".version 2 1 # end" ++ nl) = (true, [CVersion 2 1]).
Proof. split; vm_compute; reflexivity. Qed.
