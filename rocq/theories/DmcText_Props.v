(** C136–C138: DMC and DOM texts, and the writer of such texts. *)
From Coq Require Import Ascii.
From Verif Require Import Base QSum Units_Model Units_Spec Units_Proofs Names_Model Net_Model LayerMap_Model Layers_Model Database_Model Dmc_Model Dmc_Spec Dmc_Props
  Qi_Model Text_Proofs XflText_Spec XflText_Proofs DmcText_Model DmcText_Spec DmcText_Proofs.
Open Scope res_scope.
Open Scope list_scope.
Open Scope string_scope.
Open Scope Z_scope.

Definition registered (reg : registry) (name : string) : Prop := alookup String.eqb name (rg_map reg) <> None.
Definition only_adds (reg : registry) (name : string) (reg' : registry) : Prop :=
  registered reg' name /\ forall n, n <> name -> alookup String.eqb n (rg_map reg') = alookup String.eqb n (rg_map reg).
Lemma create_adds reg name : ~ registered reg name -> only_adds reg name (fst (reg_step reg (CreateDatabase name))).
Proof.
  intros N. unfold registered, only_adds in *. cbn [reg_step]. unfold acount.
  destruct (alookup String.eqb name (rg_map reg)) eqn:E; [now contradiction N|]. cbn [fst rg_map].
  split; [|intros n Hn]; unfold registered; cbn [rg_map]; rewrite (alookup_emplace _ String.eqb_spec).
  - destruct (alookup String.eqb name (rg_map reg)); [discriminate|]. now rewrite String.eqb_refl.
  - destruct (alookup String.eqb n (rg_map reg)); [reflexivity|]. destruct (String.eqb n name) eqn:Q; [apply String.eqb_eq in Q; contradiction|]. reflexivity.
Qed.

(** C136: a DMC and a DOM file that describe figures become a database with these figures on their layers and nets;
    coordinates are in nanometres and may be one smaller in magnitude than the number in the file.  Missing from the full
    property: that numbers that are whole nanometres are kept ([C136_exact_refuted]). *)
Theorem C136_import_partial : forall split reg name (figs : list (figure (Q * Q))) qs extra dmc dom dmcl doml,
  cuts split -> ~ registered reg name ->
  Forall well_formed figs -> names_injective figs -> vias_resolved figs -> (exists f, In f figs /\ is_plain f = true) ->
  List.length (file_records figs) = List.length qs -> Forall moderate_box qs -> Forall moderate_point (file_points figs ++ extra)%list ->
  text_of dmcl dmc -> Forall2 (fun rq l => exists ws, record_words split (fst rq) (snd rq) ws /\ line_of ws l) (combine (file_records figs) qs) dmcl ->
  text_of doml dom -> Forall2 (fun p l => exists ws, point_words p ws /\ line_of ws l) (file_points figs ++ extra)%list doml ->
  exists reg' lay bound figs' boxes,
    create_database split reg name (Some dmc) (Some dom) = Ok (reg', Some (lay, Some bound)) /\ only_adds reg name reg' /\
    Forall2 (arrives near_point) figs figs' /\
    Forall2 (plain_matches figs' lay) (filter is_plain figs') (o_prims lay) /\
    Forall2 (via_matches figs' lay) (filter is_via figs') (o_padstacks lay) /\
    Forall2 near_box qs boxes /\
    hull (map snd (filter (fun x => negb (r_hole (fst x))) (combine (file_records figs) boxes))) bound.
Proof.
  intros split reg name figs qs extra dmc dom dmcl doml C N W NI VR PL LE MB MP T1 F1 T2 F2.
  destruct (dom_lines_read _ default_scale _ _ MP F2) as (pts & Ep & Np).
  destruct (dmc_lines_read split _ default_scale C _ _ _ MB LE F1) as (boxes & Eb & Nb).
  apply Forall2_app_l in Np. destruct Np as (pts1 & pts2 & -> & Np & _). destruct (points_regroup _ _ _ Np) as (figs' & -> & A).
  destruct (C62_import_partial (Z * Z) figs' pts2 (arrives_well _ _ _ A W) (arrives_injective _ _ _ A NI) (arrives_resolved _ _ _ A VR) (arrives_plain _ _ _ A PL)) as (lay & El & M1 & M2).
  assert (NE : map snd (filter (fun x => negb (r_hole (fst x))) (combine (file_records figs) boxes)) <> []).
  { destruct figs as [|f figs]; [destruct PL as (? & [] & _)|]. inversion W as [|? ? (W1 & _) _]; subst.
    apply same_length in Nb. cbn [file_records flat_map app] in *. destruct boxes as [|b boxes]; [destruct qs; discriminate|]. cbn [combine filter fst]. rewrite W1. discriminate. }
  destruct (joined _ NE) as (bound & EB & HB).
  exists (fst (reg_step reg (CreateDatabase name))), lay, bound, figs', boxes. split; [|split; [now apply create_adds|exact (conj A (conj M1 (conj M2 (conj Nb HB))))]].
  unfold create_database. unfold registered in N. cbn [reg_step].
  destruct (alookup String.eqb name (rg_map reg)) eqn:Er; [now contradiction N|].
  rewrite (text_lines _ _ T2), Ep. cbn [bind]. rewrite (text_lines _ _ T1), Eb. cbn [bind].
  rewrite <- (arrives_records _ _ _ A). assert (CF : map fst (combine (file_records figs') boxes) = file_records figs').
  { rewrite (arrives_records _ _ _ A). apply same_length in Nb. rewrite Nb in LE. revert LE. generalize (file_records figs) boxes. clear.
    intros l. induction l as [|a l IH]; intros [|b bs] E; try discriminate; [reflexivity|]. cbn. f_equal. apply IH. now injection E. }
  unfold point. rewrite CF, El. unfold boundary. rewrite (arrives_records _ _ _ A), EB. unfold acount. rewrite Er. reflexivity.
Qed.
Print Assumptions C136_import_partial.

(** a plate with a hole on TOP, a plate on BOT and a via between them *)
Definition nl : string := String "010" "".
Definition cut_minus (s : string) : list string := if String.eqb s "1-2" then ["1"; "2"] else [s].
Definition sample_dmc : string := "4 1 1 0 10 0 10 1 GND 1 TOP" ++ nl ++ "3 0 1 1 2 1 2 1 GND 1 TOP" ++ nl ++ nl ++ "4 1 2 -5 20.5 0 1e1 2 VCC 2 BOT" ++ nl ++ "3 1 7 1 2 1 2 1 GND V1-2" ++ nl.
Definition sample_dom : string := "0 0" ++ nl ++ "10 0" ++ nl ++ "10 10" ++ nl ++ "0 1e1" ++ nl ++ "1 1" ++ nl ++ "2 1" ++ nl ++ "1 2" ++ nl ++
  "-5 0" ++ nl ++ "20.5 0" ++ nl ++ "20.5 10" ++ nl ++ "-5 10" ++ nl ++ "1 1" ++ nl ++ "2 1" ++ nl ++ "1 2".
Example C136_case :
  match create_database cut_minus rg_init "d" (Some sample_dmc) (Some sample_dom) with
  | Ok (reg, Some (lay, b)) => (map fst (rg_map reg), map (fun l => (l_name l, l_id l)) (ly_list (o_layers lay)), map (fun p => (p_layer p, p_net p, p_shape p)) (o_prims lay),
      map (fun i => (i_top i, i_bot i, i_net i, i_shape i)) (o_padstacks lay), b)
  | _ => ([], [], [], [], None)
  end =
  (["d"], [("TOP", 0); ("Dielectric", 1); ("BOT", 2)],
   [(0, 0, ([(0, 0); (10000, 0); (10000, 10000); (0, 10000)], [[(1000, 1000); (2000, 1000); (1000, 2000)]]));
    (2, 1, ([(-5000, 0); (20500, 0); (20500, 10000); (-5000, 10000)], []))],
   [(0, 2, 0, ([(1000, 1000); (2000, 1000); (1000, 2000)], []))], Some ((-5000, 0), (20500, 10000))).
Proof. vm_compute. reflexivity. Qed.

(** 1.001 micrometres are 1001 nanometres, but arrive as 1000. *)
Theorem C136_exact_refuted : ~ (forall q w n c, number_of q w -> (1000 * q == inject_Z n)%Q -> dom_line (scale2coord default_units) (w ++ " 0") = Ok c -> fst c = n).
Proof.
  intros H. specialize (H (1001 # 1000)%Q "1.001" 1001 (1000, 0)). enough (1000 = 1001) by discriminate. apply H; [|reflexivity|vm_compute; reflexivity].
  exists "", "1", ".", "001", "", 0. repeat split; try (now left); try discriminate; cbn; try lia.
Qed.
Print Assumptions C136_exact_refuted.

(** C137: nothing is registered for files that are refused. *)
Theorem C137_refused_unchanged : forall split reg name dmc dom reg', create_database split reg name dmc dom = Ok (reg', None) -> reg' = reg.
Proof.
  intros split reg name dmc dom reg'. unfold create_database. cbn [reg_step].
  destruct (alookup String.eqb name (rg_map reg)); [now intros [= <-]|]. destruct dom as [dom|]; [|now intros [= <-]].
  destruct (dom_lines _ _) as [pts| | |]; try discriminate. cbn [bind]. destruct dmc as [dmc|]; [|now intros [= <-]].
  destruct (dmc_lines _ _ _) as [[rs|]| | |]; try discriminate; cbn [bind]; [|now intros [= <-]].
  destruct (if acount String.eqb name (rg_map reg) then _ else _) as [r' o]. destruct (import_records _ _); discriminate.
Qed.
Print Assumptions C137_refused_unchanged.

(** A name in use is refused whatever the files say. *)
Theorem C137_name_in_use : forall split reg name dmc dom, registered reg name -> create_database split reg name dmc dom = Ok (reg, None).
Proof.
  intros split reg name dmc dom R. unfold create_database, registered in *. cbn [reg_step]. destruct (alookup String.eqb name (rg_map reg)); [reflexivity|now contradiction R].
Qed.
Print Assumptions C137_name_in_use.
Example C137_name_in_use_case : registered (fst (reg_step rg_init (CreateDatabase "d"))) "d".
Proof. vm_compute. discriminate. Qed.

Lemma blank_digits l : line_of [] l -> get_digits l = None.
Proof. intros L. inversion L as [b B|]; subst. unfold get_digits. rewrite <- (append_empty l). rewrite skip_blanks by (auto; exact I). reflexivity. Qed.
Lemma blank_double l : line_of [] l -> get_double l = None.
Proof. intros L. inversion L as [b B|]; subst. unfold get_double. rewrite <- (append_empty l). rewrite skip_blanks by (auto; exact I). reflexivity. Qed.
Lemma truncated_fields split r q ws k l : record_words split r q ws -> (k < 10)%nat -> line_of (firstn k ws) l -> dmc_fields l = None.
Proof.
  intros (n & dark & d & layer & x1 & x2 & y1 & y2 & net & sig & -> & Fn & Vn & Rn & Wd & Hd & Wl & X1 & X2 & Y1 & Y2 & Wn & Sg) K L.
  unfold dmc_fields. destruct k as [|k]; cbn [firstn app] in L; [unfold get_size; now rewrite blank_digits|].
  destruct (size_word _ _ _ Fn Rn L) as (r0 & -> & L0). clear L.
  destruct k as [|k]; cbn [firstn] in L0; [unfold get_int at 1; now rewrite blank_digits|].
  destruct (int_word _ _ _ _ Wd L0) as (r1 & -> & L1). clear L0.
  destruct k as [|k]; cbn [firstn] in L1; [unfold get_int at 1; now rewrite blank_digits|].
  destruct (int_word _ _ _ _ Wl L1) as (r2 & -> & L2). clear L1.
  destruct k as [|k]; cbn [firstn] in L2; [now rewrite blank_double|].
  destruct (double_word _ _ _ _ X1 L2) as (r3 & q1 & -> & E1 & L3). clear L2.
  destruct k as [|k]; cbn [firstn] in L3; [now rewrite blank_double|].
  destruct (double_word _ _ _ _ X2 L3) as (r4 & q2 & -> & E2 & L4). clear L3.
  destruct k as [|k]; cbn [firstn] in L4; [now rewrite blank_double|].
  destruct (double_word _ _ _ _ Y1 L4) as (r5 & q3 & -> & E3 & L5). clear L4.
  destruct k as [|k]; cbn [firstn] in L5; [now rewrite blank_double|].
  destruct (double_word _ _ _ _ Y2 L5) as (r6 & q4 & -> & E4 & L6). clear L5.
  destruct k as [|k]; cbn [firstn] in L6; [unfold get_int at 1; now rewrite blank_digits|].
  destruct (int_word _ _ _ _ Wn L6) as (r7 & -> & L7). clear L6.
  destruct k as [|k]; cbn [firstn] in L7; [now rewrite no_word|].
  destruct (word_word _ _ _ L7) as (r8 & -> & L8). clear L7.
  destruct k as [|k]; cbn [firstn] in L8; [now rewrite no_word|]. lia.
Qed.
Lemma good_line split l : cuts split -> (exists r q ws, moderate_box q /\ record_words split r q ws /\ line_of ws l) ->
  exists x, dmc_line split (scale2coord default_units) l = Ok (Some x).
Proof. intros C (r & q & ws & M & W & L). destruct (dmc_line_reads split _ r q ws l default_scale C M W L) as (b & E & _). eauto. Qed.
Lemma dmc_stops split s ls1 l ls2 : Forall (fun l => exists x, dmc_line split s l = Ok (Some x)) ls1 -> dmc_line split s l = Ok None ->
  dmc_lines split s (ls1 ++ l :: ls2)%list = Ok None.
Proof.
  intros F E. induction F as [|k ls1 (x & Ek) F IH]; cbn [app dmc_lines]; [now rewrite E|]. rewrite Ek. cbn [bind]. now rewrite IH.
Qed.

(** A DMC file with a record that breaks off behind one of the first nine fields, or with a line of blanks, is refused. *)
Theorem C137_truncated : forall split reg name dmc dom doml ls1 l ls2 r q ws k,
  cuts split -> ~ registered reg name ->
  text_of doml dom -> Forall (fun l => exists p ws, moderate_point p /\ point_words p ws /\ line_of ws l) doml ->
  text_of (ls1 ++ l :: ls2)%list dmc -> Forall (fun l => exists r q ws, moderate_box q /\ record_words split r q ws /\ line_of ws l) ls1 ->
  record_words split r q ws -> (k < 10)%nat -> line_of (firstn k ws) l ->
  create_database split reg name (Some dmc) (Some dom) = Ok (reg, None).
Proof.
  intros split reg name dmc dom doml ls1 l ls2 r q ws k C N TD FD TM FM W K L. unfold create_database, registered in *. cbn [reg_step].
  destruct (alookup String.eqb name (rg_map reg)); [now contradiction N|].
  assert (D : exists pts, dom_lines (scale2coord default_units) doml = Ok pts).
  { clear TD. induction FD as [|x doml (p & ws' & M & P & Lx) FD (pts & IH)]; [now exists []|].
    destruct (dom_line_reads _ p ws' x default_scale M P Lx) as (c & Ec & _). exists (c :: pts). cbn [dom_lines]. rewrite Ec. cbn [bind]. now rewrite IH. }
  destruct D as (pts & D). rewrite (text_lines _ _ TD), D. cbn [bind]. rewrite (text_lines _ _ TM), dmc_stops; [reflexivity| |].
  - revert FM. apply Forall_impl. intros x. now apply good_line.
  - unfold dmc_line. now rewrite (truncated_fields split r q ws k l).
Qed.
Print Assumptions C137_truncated.
Example C137_truncated_case : create_database cut_minus rg_init "d" (Some ("4 1 1 0 10 0 10 1 GND 1 TOP" ++ nl ++ "4 1 1 0 10 0 10 1 GND" ++ nl)) (Some sample_dom) = Ok (rg_init, None).
Proof. vm_compute. reflexivity. Qed.
(** so is one with a line of blanks, as every file with empty lines ended by CR LF has *)
Example C137_blank_case : create_database cut_minus rg_init "d" (Some ("4 1 1 0 10 0 10 1 GND 1 TOP" ++ String "013" nl ++ String "013" nl)) (Some sample_dom) = Ok (rg_init, None).
Proof. vm_compute. reflexivity. Qed.

(** So is one with a via whose layers are not two numbers apart, such as V3 or V1-2-3. *)
Theorem C137_via_layers : forall split reg name dmc dom doml ls1 l ls2 r q ws w more,
  cuts split -> ~ registered reg name ->
  text_of doml dom -> Forall (fun l => exists p ws, moderate_point p /\ point_words p ws /\ line_of ws l) doml ->
  text_of (ls1 ++ l :: ls2)%list dmc -> Forall (fun l => exists r q ws, moderate_box q /\ record_words split r q ws /\ line_of ws l) ls1 ->
  record_words split r q ws -> w <> "" -> List.length (split w) <> 2%nat -> line_of (firstn 9 ws ++ ("V" ++ w)%string :: more)%list l ->
  create_database split reg name (Some dmc) (Some dom) = Ok (reg, None).
Proof.
  intros split reg name dmc dom doml ls1 l ls2 r q ws w more C N TD FD TM FM W Nw Lw L. unfold create_database, registered in *. cbn [reg_step].
  destruct (alookup String.eqb name (rg_map reg)); [now contradiction N|].
  assert (D : exists pts, dom_lines (scale2coord default_units) doml = Ok pts).
  { clear TD. induction FD as [|x doml (p & ws' & M & P & Lx) FD (pts & IH)]; [now exists []|].
    destruct (dom_line_reads _ p ws' x default_scale M P Lx) as (c & Ec & _). exists (c :: pts). cbn [dom_lines]. rewrite Ec. cbn [bind]. now rewrite IH. }
  destruct D as (pts & D). rewrite (text_lines _ _ TD), D. cbn [bind]. rewrite (text_lines _ _ TM), dmc_stops; [reflexivity| |].
  - revert FM. apply Forall_impl. intros x. now apply good_line.
  - clear - W Nw Lw L.
    destruct W as (n & dark & d & layer & x1 & x2 & y1 & y2 & net & sig & -> & Fn & Vn & Rn & Wd & Hd & Wl & X1 & X2 & Y1 & Y2 & Wn & Sg).
    cbn [firstn app] in L. unfold dmc_line, dmc_fields.
    destruct (size_word _ _ _ Fn Rn L) as (r0 & -> & L0). clear L.
    destruct (int_word _ _ _ _ Wd L0) as (r1 & -> & L1). clear L0.
    destruct (int_word _ _ _ _ Wl L1) as (r2 & -> & L2). clear L1.
    destruct (double_word _ _ _ _ X1 L2) as (r3 & q1 & -> & E1 & L3). clear L2.
    destruct (double_word _ _ _ _ X2 L3) as (r4 & q2 & -> & E2 & L4). clear L3.
    destruct (double_word _ _ _ _ Y1 L4) as (r5 & q3 & -> & E3 & L5). clear L4.
    destruct (double_word _ _ _ _ Y2 L5) as (r6 & q4 & -> & E4 & L6). clear L5.
    destruct (int_word _ _ _ _ Wn L6) as (r7 & -> & L7). clear L6.
    destruct (word_word _ _ _ L7) as (r8 & -> & L8). clear L7.
    destruct (word_word _ _ _ L8) as (r9 & -> & L9). clear L8.
    assert (P : parse_sig stoi split ("V" ++ w) = Ok None).
    { unfold parse_sig. cbn [String.append]. rewrite Ascii.eqb_refl. destruct w as [|c w]; [congruence|].
      destruct (split (String c w)) as [|a [|b [|e t]]]; try reflexivity. now contradiction Lw. }
    rewrite P. reflexivity.
Qed.
Print Assumptions C137_via_layers.
Example C137_via_layers_case : create_database cut_minus rg_init "d" (Some ("4 1 1 0 10 0 10 1 GND V3 TOP" ++ nl)) (Some sample_dom) = Ok (rg_init, None) /\
  List.length (cut_minus "3") <> 2%nat.
Proof. split; vm_compute; [reflexivity|discriminate]. Qed.

(** Not everything that is no record is refused: nine words can be one (a number is read as far as it goes) … *)
Theorem C137_nine_words_refuted : ~ (forall split reg name dmc dom ws, (List.length ws < 10)%nat -> line_of ws dmc -> one_line dmc ->
  exists o, create_database split reg name (Some dmc) (Some dom) = Ok (o, None)).
Proof.
  intros H. destruct (H cut_minus rg_init "d" "3 1 1.5 1 0 1 1 GND 1" ("0 0" ++ nl ++ "1 0" ++ nl ++ "0 1") ["3"; "1"; "1.5"; "1"; "0"; "1"; "1"; "GND"; "1"]) as (o & E).
  - cbn. lia.
  - assert (L : forall w ws r, word w -> line_of ws (String " " r) -> line_of (w :: ws) (" " ++ w ++ String " " r)) by
      (intros w ws r Hw Hr; apply (line_word " "); [|exact Hw|right; exists " "%char, r; split; [reflexivity|now left]|exact Hr]; split; [|exact I]; split; [now left|discriminate]).
    assert (F : forall w, chars (fun c => space c = false) w -> chars (fun c => ~ white c) w) by (intros w; apply chars_impl; intros c Hc X; apply white_space in X; congruence).
    apply (line_word "" "3" _ " 1 1.5 1 0 1 1 GND 1"); [exact I|split; [discriminate|now apply F]|right; eexists _, _; split; [reflexivity|now left]|].
    apply (L "1" _ "1.5 1 0 1 1 GND 1"); [split; [discriminate|now apply F]|].
    apply (L "1.5" _ "1 0 1 1 GND 1"); [split; [discriminate|now apply F]|].
    apply (L "1" _ "0 1 1 GND 1"); [split; [discriminate|now apply F]|].
    apply (L "0" _ "1 1 GND 1"); [split; [discriminate|now apply F]|].
    apply (L "1" _ "1 GND 1"); [split; [discriminate|now apply F]|].
    apply (L "1" _ "GND 1"); [split; [discriminate|now apply F]|].
    apply (L "GND" _ "1"); [split; [discriminate|now apply F]|].
    apply (line_word " " "1" [] ""); [split; [split; [now left|discriminate]|exact I]|split; [discriminate|now apply F]|now left|constructor; exact I].
  - split; [discriminate|]. repeat split; discriminate.
  - assert (X : match create_database cut_minus rg_init "d" (Some "3 1 1.5 1 0 1 1 GND 1") (Some ("0 0" ++ nl ++ "1 0" ++ nl ++ "0 1")) with Ok (_, Some _) => true | _ => false end = true) by (vm_compute; reflexivity).
    rewrite E in X. discriminate.
Qed.
Print Assumptions C137_nine_words_refuted.
(** … and a line of the DOM file without a number is the origin, which shifts all later points. *)
Theorem C137_dom_not_rejected : forall reg name, ~ registered reg name ->
  exists reg' lay b, create_database cut_minus reg name (Some "3 1 1 0 1 0 1 1 GND 1 TOP") (Some ("x and y" ++ nl ++ "5 5" ++ nl ++ "6 5" ++ nl ++ "5 6")) = Ok (reg', Some (lay, b)) /\
    map p_shape (o_prims lay) = [([(0, 0); (5000, 5000); (6000, 5000)], [])].
Proof.
  intros reg name N. unfold create_database, registered in *. cbn [reg_step]. unfold acount. destruct (alookup String.eqb name (rg_map reg)); [now contradiction N|].
  assert (E1 : dom_lines (scale2coord default_units) (filled_lines ("x and y" ++ nl ++ "5 5" ++ nl ++ "6 5" ++ nl ++ "5 6")) = Ok [(0, 0); (5000, 5000); (6000, 5000); (5000, 6000)]) by (vm_compute; reflexivity).
  assert (E2 : dmc_lines cut_minus (scale2coord default_units) (filled_lines "3 1 1 0 1 0 1 1 GND 1 TOP") =
    Ok (Some [({| r_points := 3; r_hole := false; r_via := false; r_net := 1; r_netname := "GND"; r_layer := 1; r_lyrname := "TOP"; r_sig1 := 1; r_sig2 := 0 |}, ((0, 0), (1000, 1000)))])) by (vm_compute; reflexivity).
  rewrite E1. cbn [bind]. rewrite E2. cbn [bind map fst].
  destruct (import_records _ _) as [lay| | |] eqn:EI; vm_compute in EI; try discriminate EI.
  eexists _, lay, _. split; [reflexivity|]. injection EI as <-. reflexivity.
Qed.
Print Assumptions C137_dom_not_rejected.
(** A net name of two words makes the importer throw: the second word is read as signal layer. *)
Theorem C137_net_name_throws : forall reg name, ~ registered reg name ->
  create_database cut_minus reg name (Some "3 1 1 0 1 0 1 1 NET 1a 1 TOP") (Some "0 0") <> Throw /\
  create_database cut_minus reg name (Some "3 1 1 0 1 0 1 1 MY NET 1 TOP") (Some "0 0") = Throw.
Proof.
  intros reg name N. unfold create_database, registered in *. cbn [reg_step]. unfold acount. destruct (alookup String.eqb name (rg_map reg)); [now contradiction N|].
  assert (E1 : dom_lines (scale2coord default_units) (filled_lines "0 0") = Ok [(0, 0)]) by (vm_compute; reflexivity). rewrite E1. cbn [bind]. split.
  - destruct (dmc_lines _ _ _) as [[rs|]| | |] eqn:E2; vm_compute in E2; try discriminate E2. injection E2 as <-. cbn [bind map fst].
    destruct (import_records _ _) as [lay| | |] eqn:EI; vm_compute in EI; discriminate.
  - destruct (dmc_lines _ _ _) as [[rs|]| | |] eqn:E2; vm_compute in E2; try discriminate E2. reflexivity.
Qed.
Print Assumptions C137_net_name_throws.
(** A negative number of points runs over the end of the points. *)
Theorem C137_negative_points_is_ub : forall reg name, ~ registered reg name ->
  create_database cut_minus reg name (Some "-1 1 1 0 1 0 1 1 GND 1 TOP") (Some "0 0") = UB.
Proof.
  intros reg name N. unfold create_database, registered in *. cbn [reg_step]. unfold acount. destruct (alookup String.eqb name (rg_map reg)); [now contradiction N|].
  assert (E1 : dom_lines (scale2coord default_units) (filled_lines "0 0") = Ok [(0, 0)]) by (vm_compute; reflexivity). rewrite E1. cbn [bind].
  assert (E2 : filled_lines "-1 1 1 0 1 0 1 1 GND 1 TOP" = ["-1 1 1 0 1 0 1 1 GND 1 TOP"]) by (vm_compute; reflexivity). rewrite E2. cbn [dmc_lines].
  unfold dmc_line.
  assert (E3 : dmc_fields "-1 1 1 0 1 0 1 1 GND 1 TOP" = Some (18446744073709551615, 1, 1, ((0%Q, 0%Q), (1%Q, 1%Q)), 1, "GND", "1", "TOP")) by (vm_compute; reflexivity).
  rewrite E3. change (parse_sig stoi cut_minus "1") with (Ok (Some (false, 1, 0))). cbn [bind].
  assert (E4 : coord (scale2coord default_units) 0%Q = Ok 0) by (vm_compute; reflexivity). assert (E5 : coord (scale2coord default_units) 1%Q = Ok 1000) by (vm_compute; reflexivity).
  rewrite E4, E5. cbn [bind option_map map fst]. unfold import_records. cbn [List.length records_loop r_hole]. change (1 =? 0) with false. cbv iota.
  unfold take_points. cbn [r_points s_pts start].
  match goal with |- context [if ?c then _ else UB] => replace c with false; [reflexivity|] end. symmetry. apply Nat.leb_gt. cbn [List.length]. lia.
Qed.
Print Assumptions C137_negative_points_is_ub.

(** ** C138: the writer *)
Definition lookups_hold (net_of layer_of : Z -> option string) (r : record) : Prop :=
  r_via r = false /\ r_hole r = false /\ net_of (r_net r) = Some (r_netname r) /\ layer_of (r_layer r) = Some (r_lyrname r).
Lemma kept_lookups net_of layer_of mergers : Forall (fun x => net_of (e_net x) = Some (e_nname x) /\ layer_of (e_layer x) = Some (e_lname x)) (kept net_of layer_of mergers).
Proof.
  apply Forall_flat_map, Forall_forall. intros [l gs] _. apply Forall_flat_map, Forall_forall. intros g _. cbn [fst].
  destruct (layer_of l) eqn:El; [|constructor]. destruct (net_of (g_net g)) eqn:En; [|constructor]. repeat constructor; assumption.
Qed.
Lemma find_looked {P} net_of layer_of (figs : list (figure P)) (p : figure P -> bool) f : Forall (fun f => lookups_hold net_of layer_of (f_head f)) figs -> List.find p figs = Some f ->
  lookups_hold net_of layer_of (f_head f) /\ p f = true.
Proof. intros F E. apply find_some in E. destruct E as [I E]. rewrite Forall_forall in F. split; [now apply F|exact E]. Qed.
Lemma net_looked {P} net_of layer_of (figs : list (figure P)) n nm : Forall (fun f => lookups_hold net_of layer_of (f_head f)) figs -> net_name figs n = Some nm -> net_of n = Some nm.
Proof.
  intros F E. unfold net_name in E. destruct (List.find _ figs) as [f|] eqn:Ef; [|discriminate]. injection E as <-.
  destruct (find_looked _ _ _ _ _ F Ef) as [(_ & _ & H & _) Q]. apply Z.eqb_eq in Q. now rewrite <- Q.
Qed.
Lemma layer_looked {P} net_of layer_of (figs : list (figure P)) n nm : Forall (fun f => lookups_hold net_of layer_of (f_head f)) figs -> layer_name figs n = Some nm -> layer_of n = Some nm.
Proof.
  intros F E. unfold layer_name in E. destruct (List.find _ figs) as [f|] eqn:Ef; [|discriminate]. injection E as <-.
  destruct (find_looked _ _ _ _ _ F Ef) as [(_ & _ & _ & H) Q]. apply andb_prop in Q. destruct Q as [_ Q]. apply Z.eqb_eq in Q. now rewrite <- Q.
Qed.
Lemma near_micro c c' : near (inject_Z c * (1 # 1000)) c' -> same_or_one_less c c'.
Proof. intros [_ H]. apply H. lra. Qed.
Lemma near_micro_point p q : near_point (micro p) q -> off_by_one p q.
Proof. intros [A B]. split; now apply near_micro. Qed.
Lemma near_micro_points l k : Forall2 near_point (map micro l) k -> Forall2 off_by_one l k.
Proof. revert k. induction l as [|a l IH]; intros k F; inversion F; subst; constructor; auto using near_micro_point. Qed.
Lemma small_moderate p : small_point p -> moderate_point (micro p).
Proof.
  assert (G : forall c, Z.abs c <= 2 ^ 40 -> moderate (inject_Z c * (1 # 1000))).
  { intros c B. unfold moderate. change (2 ^ 40) with 1099511627776 in B. change (inject_Z (2 ^ 50)) with (1125899906842624 # 1)%Q.
    assert (L : (inject_Z c <= 1125899906842624)%Q) by (change 1125899906842624%Q with (inject_Z 1125899906842624); rewrite <- Zle_Qle; lia).
    assert (K : (-(1125899906842624) <= inject_Z c)%Q) by (change (-(1125899906842624))%Q with (inject_Z (-1125899906842624)); rewrite <- Zle_Qle; lia). lra. }
  intros [A B]. split; cbn [micro fst snd]; now apply G.
Qed.
Lemma micro_parts figs : flat_map fig_parts (map micro_fig figs) = map (fun x => (fst x, map micro (snd x))) (flat_map fig_parts figs).
Proof. induction figs as [|f figs IH]; [reflexivity|]. cbn [map flat_map fig_parts app]. rewrite IH, map_app. reflexivity. Qed.
Lemma no_vias {P} (figs : list (figure P)) : Forall (fun f => r_via (f_head f) = false) figs -> filter is_plain figs = figs /\ filter is_via figs = [].
Proof. unfold is_plain, is_via. induction 1 as [|f figs H F [I1 I2]]; [now split|]. cbn [filter]. rewrite H. cbn [negb]. rewrite I1, I2. now split. Qed.

Lemma pieces_match (R : figure (Z * Z) -> primitive (Z * Z) -> Prop) (lay : layout (Z * Z)) xs : forall figs' prims, Forall2 R figs' prims -> Forall2 (arrives near_point) (map micro_fig (map fig_of xs)) figs' ->
  (forall f p, R f p -> In f figs' -> layer_is lay (p_layer p) (r_lyrname (f_head f)) /\ net_is lay (p_net p) (r_netname (f_head f)) /\ p_shape p = shape_of f) ->
  Forall2 (fun x p => layer_is lay (p_layer p) (e_lname x) /\ net_is lay (p_net p) (e_nname x) /\
      Forall2 off_by_one (e_solid x) (fst (p_shape p)) /\ Forall2 (Forall2 off_by_one) (e_holes x) (snd (p_shape p))) xs prims.
Proof.
  induction xs as [|x xs IH]; intros figs' prims PM AR M; cbn [map] in AR.
  - inversion AR; subst. inversion PM; subst. constructor.
  - inversion AR as [|? g ? gs (H & O & K) AR']; subst. inversion PM as [|? p ? ps' PM1 PM2]; subst.
    constructor; [|apply (IH gs); auto; intros f q Hf If; apply M; [exact Hf|now right]].
    destruct (M g p PM1 (or_introl eq_refl)) as (L & Nn & Sh). rewrite H in L, Nn. split; [exact L|]. split; [exact Nn|]. rewrite Sh. cbn [shape_of fst snd].
    split; [now apply near_micro_points|]. cbn [micro_fig fig_of f_holes] in K. clear - K. revert K. generalize (f_holes g). generalize (e_holes x).
    intros hs. induction hs as [|h hs IHh]; intros ks K; cbn [map] in K; inversion K as [|? k ? ks' [_ K1] K2]; subst; cbn [map]; constructor; auto. now apply near_micro_points.
Qed.

(** What is written for polygons of known layers and nets, read again by the importer, is a database with the same polygons
    in the same order, on layers and nets of the same names; coordinates may be one smaller in magnitude.  Missing from the
    full property: equality of the coordinates ([C138_exact_refuted]), units of the layout ([C138_units_refuted]) and
    polygons without a net ([C138_no_net_dropped]). *)
Theorem C138_round_trip_partial : forall split net_of layer_of extent mergers reg name,
  cuts split -> ~ registered reg name ->
  (forall n m nm, net_of n = Some nm -> net_of m = Some nm -> n = m) ->
  (forall p, Forall small_point p -> small_point (fst (extent p)) /\ small_point (snd (extent p))) ->
  Forall sound_piece (kept net_of layer_of mergers) -> kept net_of layer_of mergers <> [] ->
  let (dmc, dom) := write default_units net_of layer_of extent mergers in
  exists reg' lay bound, create_database split reg name (Some dmc) (Some dom) = Ok (reg', Some (lay, bound)) /\ only_adds reg name reg' /\
    Forall2 (fun x p => layer_is lay (p_layer p) (e_lname x) /\ net_is lay (p_net p) (e_nname x) /\
      Forall2 off_by_one (e_solid x) (fst (p_shape p)) /\ Forall2 (Forall2 off_by_one) (e_holes x) (snd (p_shape p)))
      (kept net_of layer_of mergers) (o_prims lay) /\ o_padstacks lay = [].
Proof.
  intros split net_of layer_of extent mergers reg name C N NI EX SP NE. rewrite write_text. pose proof (kept_lookups net_of layer_of mergers) as KL.
  set (xs := kept net_of layer_of mergers) in *. clearbody xs. set (figs := map fig_of xs). set (ps := flat_map fig_parts figs).
  assert (PO : Forall part_ok ps).
  { unfold ps, figs. apply Forall_flat_map, Forall_map. revert SP. apply Forall_impl. intros x. apply fig_of_parts. }
  destruct (file_parts (map micro_fig figs)) as [FR FP]. rewrite micro_parts, map_map in FR. rewrite micro_parts, map_map in FP. fold ps in FR, FP. cbn [fst snd] in FR, FP.
  destruct (file_parts figs) as [GR GP]. fold ps in GR, GP.
  assert (FP' : file_points (map micro_fig figs) = map micro (file_points figs)) by (rewrite FP, GP, concat_map, map_map; reflexivity).
  assert (SM : Forall small_point (file_points figs)).
  { rewrite GP. apply Forall_concat, Forall_map. revert PO. apply Forall_impl. intros x (_ & _ & _ & _ & _ & _ & _ & _ & H & _). exact H. }
  assert (LH : Forall (fun f => lookups_hold net_of layer_of (f_head f)) (map micro_fig figs)).
  { unfold figs. rewrite map_map. apply Forall_map. revert KL. apply Forall_impl. intros x [A B]. repeat split; assumption. }
  assert (BX : Forall (fun x => small_point (fst (extent (snd x))) /\ small_point (snd (extent (snd x)))) ps).
  { revert PO. apply Forall_impl. intros x (_ & _ & _ & _ & _ & _ & _ & _ & H & _). now apply EX. }
  assert (DT : Forall (fun x => exists ws, record_words split (fst x) (micro_box (extent (snd x))) ws /\ line_of ws (dmc_text extent x)) ps).
  { apply Forall_forall. intros x I. rewrite Forall_forall in PO, BX. apply dmc_text_words; auto. }
  assert (DP : Forall (fun a => exists ws, point_words (micro a) ws /\ line_of ws (dom_text a)) (file_points figs)).
  { revert SM. apply Forall_impl. exact dom_text_words. }
  destruct (C136_import_partial split reg name (map micro_fig figs) (map (fun x => micro_box (extent (snd x))) ps) []
    (cat (map (fun l => l ++ eol)%string (map (dmc_text extent) ps))) (cat (map (fun l => l ++ eol)%string (map dom_text (file_points figs))))
    (map (dmc_text extent) ps) (map dom_text (file_points figs))) as (reg' & lay & bound & figs' & boxes & E & RA & AR & PM & VM & _ & _).
  - exact C.
  - exact N.
  - unfold figs. rewrite map_map. apply Forall_map, Forall_forall. intros x _. split; [reflexivity|]. split; [apply map_length|].
    cbn [micro_fig fig_of f_holes]. rewrite map_map. apply Forall_map, Forall_forall. intros h _. cbn [fst snd]. split; [reflexivity|apply map_length].
  - intros n m nm A B. apply (net_looked net_of layer_of _ _ _ LH) in A. apply (net_looked net_of layer_of _ _ _ LH) in B. eapply NI; eassumption.
  - intros f I V. rewrite Forall_forall in LH. destruct (LH f I) as (A & _). unfold is_via in V. congruence.
  - destruct xs as [|x xs]; [contradiction|]. exists (micro_fig (fig_of x)). split; [now left|reflexivity].
  - rewrite FR. now rewrite !map_length.
  - apply Forall_map. revert BX. apply Forall_impl. intros x [A B]. split; now apply small_moderate.
  - rewrite app_nil_r, FP'. apply Forall_map. revert SM. apply Forall_impl. exact small_moderate.
  - apply text_cat, Forall_map. revert DT. apply Forall_impl. intros x (ws & (n & d1 & d2 & l1 & a1 & a2 & b1 & b2 & nt & sg & -> & _) & L). eapply line_one. exact L.
  - rewrite FR. clear - DT. induction DT as [|x ps H F IH]; [constructor|]. cbn [map combine]. constructor; [exact H|exact IH].
  - apply text_cat, Forall_map. revert DP. apply Forall_impl. intros x (ws & (x1 & y1 & more & -> & _) & L). eapply line_one. exact L.
  - rewrite app_nil_r, FP'. clear - DP. induction DP as [|x ps H F IH]; [constructor|]. cbn [map]. constructor; [exact H|exact IH].
  - exists reg', lay, (Some bound). split; [exact E|]. split; [exact RA|].
    assert (LH' : Forall (fun f => lookups_hold net_of layer_of (f_head f)) figs').
    { apply Forall_forall. intros g I. destruct (arrives_in _ _ _ g AR I) as (f & If & Ef). rewrite Ef. rewrite Forall_forall in LH. now apply LH. }
    destruct (no_vias figs') as [V1 V2]; [revert LH'; apply Forall_impl; intros f (A & _); exact A|]. rewrite V1 in PM. rewrite V2 in VM. split; [|now inversion VM].
    assert (M : forall f p, plain_matches figs' lay f p -> In f figs' -> layer_is lay (p_layer p) (r_lyrname (f_head f)) /\ net_is lay (p_net p) (r_netname (f_head f)) /\ p_shape p = shape_of f).
    { intros f p (S & (ln & L1 & L2) & (nn & N1 & N2)) I. rewrite Forall_forall in LH'. pose proof (LH' f I) as (_ & _ & A & B).
      rewrite <- Forall_forall in LH'. apply (layer_looked net_of layer_of _ _ _ LH') in L1. apply (net_looked net_of layer_of _ _ _ LH') in N1.
      rewrite B in L1. rewrite A in N1. injection L1 as ->. injection N1 as ->. now repeat split. }
    exact (pieces_match _ lay xs figs' (o_prims lay) PM AR M).
Qed.
Print Assumptions C138_round_trip_partial.

(** a plate with a hole and a plate of a net that does not exist *)
Definition sample_mergers : list (Z * list merged) :=
  [(0, [{| g_net := 1; g_solid := [(0, 0); (10000, 0); (10000, 10000); (0, 10000)]; g_holes := [[(1000, 1000); (2000, 1000); (1000, -1001)]] |};
        {| g_net := -1; g_solid := [(0, 0); (5, 0); (0, 5)]; g_holes := [] |}])].
Definition sample_nets (n : Z) : option string := if n =? 1 then Some "GND" else None.
Definition sample_layers (n : Z) : option string := if n =? 0 then Some "TOP" else None.
Definition sample_extent (p : list point) : box := match p with a :: _ => (a, a) | [] => ((0, 0), (0, 0)) end.
Definition sample_write : string * string := write default_units sample_nets sample_layers sample_extent sample_mergers.
Example C138_case : kept sample_nets sample_layers sample_mergers =
    [{| e_layer := 0; e_lname := "TOP"; e_net := 1; e_nname := "GND"; e_solid := [(0, 0); (10000, 0); (10000, 10000); (0, 10000)]; e_holes := [[(1000, 1000); (2000, 1000); (1000, -1001)]] |}] /\
  fst sample_write = "4 1 0 0.000000 0.000000 0.000000 0.000000 1 GND 0 TOP" ++ nl ++ "3 0 0 1.000000 1.000000 1.000000 1.000000 1 GND 0 TOP" ++ nl /\
  snd sample_write = "0.000000 0.000000" ++ nl ++ "10.000000 0.000000" ++ nl ++ "10.000000 10.000000" ++ nl ++ "0.000000 10.000000" ++ nl ++
    "1.000000 1.000000" ++ nl ++ "2.000000 1.000000" ++ nl ++ "1.000000 -1.001000" ++ nl /\
  match create_database cut_minus rg_init "d" (Some (fst sample_write)) (Some (snd sample_write)) with
  | Ok (_, Some (lay, _)) => map p_shape (o_prims lay) = [([(0, 0); (10000, 0); (10000, 10000); (0, 10000)], [[(1000, 1000); (2000, 1000); (1000, -1000)]])]
  | _ => False
  end.
Proof. vm_compute. now repeat split. Qed.
Example C138_hypotheses : Forall sound_piece (kept sample_nets sample_layers sample_mergers) /\
  (forall n m nm, sample_nets n = Some nm -> sample_nets m = Some nm -> n = m) /\
  (forall p, Forall small_point p -> small_point (fst (sample_extent p)) /\ small_point (snd (sample_extent p))).
Proof.
  split; [|split].
  - change (kept sample_nets sample_layers sample_mergers) with
      [{| e_layer := 0; e_lname := "TOP"; e_net := 1; e_nname := "GND"; e_solid := [(0, 0); (10000, 0); (10000, 10000); (0, 10000)]; e_holes := [[(1000, 1000); (2000, 1000); (1000, -1001)]] |}].
    assert (F : forall w, chars (fun c => space c = false) w -> chars (fun c => ~ white c) w) by (intros w; apply chars_impl; intros c Hc X; apply white_space in X; congruence).
    constructor; [|constructor]. split; [cbn; unfold int32; lia|]. split; [cbn; unfold int32; lia|]. split; [split; [discriminate|now apply F]|]. split; [split; [discriminate|now apply F]|].
    repeat constructor; cbn; lia.
  - unfold sample_nets. intros n m nm. destruct (Z.eqb_spec n 1); [|discriminate]. destruct (Z.eqb_spec m 1); [|discriminate]. congruence.
  - intros [|a p] F; cbn [sample_extent fst snd]; [split; split; cbn; lia|]. inversion F; subst. now split.
Qed.

(** The coordinate 1001 comes back as 1000. *)
Theorem C138_exact_refuted : ~ (forall net_of layer_of extent mergers reg name reg' lay bound,
  create_database cut_minus reg name (Some (fst (write default_units net_of layer_of extent mergers))) (Some (snd (write default_units net_of layer_of extent mergers))) = Ok (reg', Some (lay, bound)) ->
  map p_shape (o_prims lay) = map (fun x => (e_solid x, e_holes x)) (kept net_of layer_of mergers)).
Proof.
  intros H. destruct (create_database cut_minus rg_init "d" (Some (fst sample_write)) (Some (snd sample_write))) as [[r [[lay b]|]]| | |] eqn:E; vm_compute in E; try discriminate E.
  specialize (H sample_nets sample_layers sample_extent sample_mergers rg_init "d" r lay b).
  enough (X : map p_shape (o_prims lay) = map (fun x => (e_solid x, e_holes x)) (kept sample_nets sample_layers sample_mergers)).
  - injection E as <- <- <-. vm_compute in X. discriminate X.
  - apply H. vm_compute. exact E.
Qed.
Print Assumptions C138_exact_refuted.

(** Numbers are written in the units of the layout and read in micrometres: what is a millimetre in a layout in millimetres
    comes back as a micrometre. *)
Theorem C138_units_refuted : ~ (forall cu net_of layer_of extent mergers reg name reg' lay bound,
  create_database cut_minus reg name (Some (fst (write cu net_of layer_of extent mergers))) (Some (snd (write cu net_of layer_of extent mergers))) = Ok (reg', Some (lay, bound)) ->
  Forall2 (fun x p => Forall2 off_by_one (e_solid x) (fst (p_shape p))) (kept net_of layer_of mergers) (o_prims lay)).
Proof.
  intros H. set (ms := [(0, [{| g_net := 1; g_solid := [(0, 0); (1000000, 0); (0, 1000000)]; g_holes := [] |}])]).
  set (out := write (make_units Millimeter Nanometer) sample_nets sample_layers sample_extent ms).
  destruct (create_database cut_minus rg_init "d" (Some (fst out)) (Some (snd out))) as [[r [[lay b]|]]| | |] eqn:E; vm_compute in E; try discriminate E.
  specialize (H (make_units Millimeter Nanometer) sample_nets sample_layers sample_extent ms rg_init "d" r lay b).
  enough (X : Forall2 (fun x p => Forall2 off_by_one (e_solid x) (fst (p_shape p))) (kept sample_nets sample_layers ms) (o_prims lay)).
  - injection E as <- <- <-. cbn in X. inversion X as [|? ? ? ? X1 _]; subst. inversion X1 as [|? ? ? ? _ X2]; subst. inversion X2 as [|? ? ? ? [X3 _] _]; subst.
    cbn in X3. unfold same_or_one_less in X3. lia.
  - apply H. vm_compute. exact E.
Qed.
Print Assumptions C138_units_refuted.

(** Polygons of no net are not written. *)
Theorem C138_no_net_dropped : forall cu net_of layer_of extent layer gs, Forall (fun g => net_of (g_net g) = None) gs -> write cu net_of layer_of extent [(layer, gs)] = ("", "").
Proof.
  intros cu net_of layer_of extent layer gs F. unfold write. cbn [flat_map fst snd]. rewrite app_nil_r. induction F as [|g gs H F IH]; [reflexivity|].
  cbn [map cat]. injection IH as I1 I2. unfold write_one at 1 3. rewrite H. cbn [fst snd append]. now rewrite I1, I2.
Qed.
Print Assumptions C138_no_net_dropped.
Example C138_no_net_case : sample_nets (-1) = None. Proof. reflexivity. Qed.
