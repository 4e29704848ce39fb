(** C152, C153: from the text of a KiCad board to the layout. *)
From Coq Require Import Permutation Ascii.
From Verif Require Import Base QSum Net_Model Layers_Model Xfl_Model KiCad_Model KiCad_Spec KiCad_Proofs KiCad_Props KiCadImport_Model KiCadImport_Spec KiCadImport_Proofs KiCadImport_Props KiCadText_Model KiCadText_Spec.
Local Open Scope string_scope.
Local Open Scope list_scope.

Lemma text_letters s : text_of s = letters s.
Proof. induction s as [|c s IH]; [reflexivity|]. unfold letters in *. cbn [text_of map string_of_list_ascii]. rewrite IH. f_equal. unfold ascii_of_nat. f_equal. lia. Qed.
Lemma content_tree : forall e, ktree_of (tree_of e) = content e.
Proof.
  fix IH 1. intros [s|s|n es]; cbn [tree_of ktree_of content map]; rewrite text_letters; [reflexivity|reflexivity|]. f_equal. rewrite map_map.
  induction es as [|e es IHes]; [reflexivity|]. cbn [map]. now rewrite IH, IHes.
Qed.
Lemma contents_tree es : map ktree_of (map tree_of es) = map content es.
Proof. rewrite map_map. apply map_ext, content_tree. Qed.

Section Board.
  Context (stoi : string -> option Z) (num : string -> option Q) (idx : string -> Z) (word : string -> option string).
  Notation import_text := (import_text stoi num idx word).
  Notation import_board := (import_board stoi num idx word).

  Lemma import_read open_dbs name top items text junk rest fuel wl wn : renders (Lst top items) text -> ~ In LP junk -> (List.length text <= fuel)%nat ->
    import_text fuel open_dbs name (Some (junk ++ text ++ rest)) wl wn = import_board open_dbs name (Some (map content items)) wl wn.
  Proof.
    intros R J F. unfold KiCadText_Model.import_text. destruct (existsb (String.eqb name) open_dbs) eqn:E.
    - unfold KiCadImport_Model.import_board. now rewrite E.
    - rewrite (proj1 (C47_round_trip_partial top items text junk rest fuel R J F)). cbn [tree_of ktree_of kbranches]. now rewrite contents_tree.
  Qed.

  (** Every text of a board - with any white space, values quoted or not, anything but a parenthesis before it and anything
      after it - becomes a layout with exactly the nets and the physical layers it declares, whatever else it says and in
      whatever order hash maps are walked. *)
  Theorem C152_board_text : forall open_dbs name f top items text junk rest fuel walk_layers walk_nets,
    renders (Lst top items) text -> ~ In LP junk -> (List.length text <= fuel)%nat ->
    (forall s i, stoi s = Some i -> (- 2 ^ 31 <= i < 2 ^ 31)%Z) ->
    ~ In name open_dbs -> declarations (map content items) = render f -> (forall e, In e items -> well_drawn (content e)) ->
    (forall l, In l (kf_layers f) -> exists i, stoi (fst (fst l)) = Some i) ->
    NoDup (map (fun l => snd (fst l)) (kf_layers f)) -> NoDup (map (fun n => idx (fst n)) (kf_nets f)) ->
    (forall m, Permutation (walk_layers m) m) -> (forall m, Permutation (walk_nets m) m) ->
    exists ly us nc,
      import_text fuel open_dbs name (Some (junk ++ text ++ rest)) walk_layers walk_nets = (open_dbs ++ [name], Ok (Some (ly, us, nc))) /\
      NoDup (map fst (nc_map nc)) /\ (forall n, (exists x, nc_find nc n = Some x) <-> In n (map snd (kf_nets f))) /\
      Permutation (map (fun u => (su_name u, su_type u, su_thick u, su_cond u, su_diel u)) us) (map (expected num word f) (filter (physical stoi) (kf_layers f))) /\
      stacked 0 us /\
      map (fun l => (l_name l, l_type l)) (ly_list ly) = map (fun u => (su_name u, su_type u)) us /\
      (forall i l, nth_error (ly_list ly) i = Some l -> l_id l = Z.of_nat i).
  Proof.
    intros open_dbs name f top items text junk rest fuel wl wn R J F Hint Hn Hr Hd Hs Hl Hi Hwl Hwn. rewrite (import_read _ _ _ _ _ _ _ _ _ _ R J F).
    assert (W : forall t, In t (map content items) -> well_drawn t) by (intros t Ht; apply in_map_iff in Ht as (e & <- & Ht); auto).
    destruct (C68_nets stoi num idx word open_dbs name f _ wl wn Hn Hr W Hs Hl Hi Hwn) as (ly & us & nc & E & N1 & N2).
    destruct (C68_layers stoi num idx word open_dbs name f _ wl wn Hint Hn Hr W Hs Hl Hwl) as (ly' & us' & nc' & E' & L1 & L2 & L3 & L4).
    rewrite E in E'. injection E' as <- <- <-. exists ly, us, nc. auto 10.
  Qed.

  (** How a board is written makes no difference: texts that say the same give the same, of whatever length and layout. *)
  Theorem C152_writing_irrelevant : forall open_dbs name top items text junk rest fuel top' items' text' junk' rest' fuel' wl wn,
    renders (Lst top items) text -> ~ In LP junk -> (List.length text <= fuel)%nat ->
    renders (Lst top' items') text' -> ~ In LP junk' -> (List.length text' <= fuel')%nat ->
    map content items = map content items' ->
    import_text fuel open_dbs name (Some (junk ++ text ++ rest)) wl wn = import_text fuel' open_dbs name (Some (junk' ++ text' ++ rest')) wl wn.
  Proof.
    intros open_dbs name top items text junk rest fuel top' items' text' junk' rest' fuel' wl wn R J F R' J' F' E.
    rewrite (import_read _ _ _ _ _ _ _ _ _ _ R J F), (import_read _ _ _ _ _ _ _ _ _ _ R' J' F'), E. reflexivity.
  Qed.

  (** A board text with sound declarations is imported exactly if its drawings are well-formed. *)
  Theorem C152_imported_iff : forall open_dbs name f top items text junk rest fuel wl wn,
    renders (Lst top items) text -> ~ In LP junk -> (List.length text <= fuel)%nat ->
    ~ In name open_dbs -> declarations (map content items) = render f ->
    (forall l, In l (kf_layers f) -> exists i, stoi (fst (fst l)) = Some i) -> NoDup (map (fun l => snd (fst l)) (kf_layers f)) ->
    (exists layout, snd (import_text fuel open_dbs name (Some (junk ++ text ++ rest)) wl wn) = Ok (Some layout)) <-> (forall e, In e items -> well_drawn (content e)).
  Proof.
    intros open_dbs name f top items text junk rest fuel wl wn R J F Hn Hr Hs Hl. rewrite (import_read _ _ _ _ _ _ _ _ _ _ R J F).
    rewrite (C97_imported_iff_well_drawn stoi num idx word open_dbs name f _ wl wn Hn Hr Hs Hl). split.
    - intros W e He. apply W, in_map, He.
    - intros W t Ht. apply in_map_iff in Ht as (e & <- & Ht). auto.
  Qed.

  (** ** Files that are no complete boards *)

  Lemma read_cut es t : cut_text es t -> forall fuel acc, (List.length t + List.length es + 1 <= fuel)%nat -> read_branches fuel t acc = Ok (acc ++ map tree_of es, []).
  Proof.
    induction 1 as [w Hw|w n items te es t Hw Hr Hc IH]; intros fuel acc F; (destruct fuel as [|fuel]; [cbn in F; lia|]); cbn [read_branches].
    - replace w with (w ++ []) by apply app_nil_r. rewrite read_whitespace_app by exact Hw. cbn [read_whitespace map]. now rewrite app_nil_r.
    - rewrite read_whitespace_app by exact Hw. rewrite !app_length in F. cbn [List.length] in F.
      assert (Ht : exists t', te = LP :: t') by (inversion Hr; eexists; reflexivity). destruct Ht as [t' ->].
      cbn [app]. rewrite read_whitespace_stop by reflexivity. change (LP =? RP)%Z with false. change (LP =? LP)%Z with true. cbn iota.
      pose proof (proj1 round_trip_mutual _ _ Hr fuel t [] (fun H => H) ltac:(lia)) as R. cbn [app] in R. rewrite R. cbn [bind map].
      rewrite IH by lia. now rewrite <- app_assoc.
  Qed.

  (** A file that breaks off after some of its sections - the closing parenthesis is missing - is imported without a word as
      the board of these sections. *)
  Theorem C153_cut_off_not_refused : forall open_dbs name top sections text junk fuel wl wn,
    atom_text top -> cut_text sections text -> ~ In LP junk -> (List.length top + List.length text + List.length sections + 3 <= fuel)%nat ->
    import_text fuel open_dbs name (Some (junk ++ LP :: top ++ 32%Z :: text)) wl wn = import_board open_dbs name (Some (map content sections)) wl wn.
  Proof.
    intros open_dbs name top ss text junk fuel wl wn [Tn Ta] Hc J F. unfold KiCadText_Model.import_text. destruct (existsb (String.eqb name) open_dbs) eqn:E.
    { unfold KiCadImport_Model.import_board. now rewrite E. }
    assert (P : parse_file fuel (junk ++ LP :: top ++ 32%Z :: text) = Ok (Node top (map tree_of ss))).
    { unfold parse_file. destruct fuel as [|fuel]; [lia|]. cbn [read_tree]. rewrite read_until_app by exact J.
      assert (W : read_whitespace (top ++ 32%Z :: text) = top ++ 32%Z :: text).
      { destruct top as [|c top]; [congruence|]. inversion Ta as [|? ? Hd ?]; subst. cbn [app]. apply read_whitespace_stop. now apply not_delim_ws. }
      rewrite W, read_word_ok; [|exact Ta|reflexivity|lia]. cbn [bind app].
      destruct fuel as [|fuel]; [lia|]. assert (C : cut_text ss (32%Z :: text)).
      { clear -Hc. assert (B : blank 32%Z) by (unfold blank; auto). inversion Hc; subst.
        - constructor. constructor; assumption.
        - change (32%Z :: w ++ te ++ t) with ((32%Z :: w) ++ te ++ t). constructor; try assumption. constructor; assumption. }
      rewrite (read_cut _ _ C) by (cbn [List.length]; lia). reflexivity. }
    rewrite P. cbn [ktree_of kbranches]. now rewrite contents_tree.
  Qed.

  (** A file without an opening parenthesis, such as an empty one, and one that ends in its first name: the call never
      returns. *)
  Theorem C153_never_returns_refuted : forall open_dbs name junk top wl wn, ~ In name open_dbs -> ~ In LP junk -> Forall (fun c => ~ delimiter c) top ->
    forall fuel, snd (import_text fuel open_dbs name (Some junk) wl wn) = OutOfFuel /\ snd (import_text fuel open_dbs name (Some (junk ++ LP :: top)) wl wn) = OutOfFuel.
  Proof.
    intros open_dbs name junk top wl wn Hn J T fuel. unfold KiCadText_Model.import_text. destruct (existsb (String.eqb name) open_dbs) eqn:E.
    { exfalso; apply existsb_exists in E as (x & Hx & Ex); apply String.eqb_eq in Ex; subst; auto. }
    destruct (C48_name_at_end_diverges junk [] top J (Forall_nil _) T fuel) as [A B]. cbn [app] in A. rewrite A, B. auto.
  Qed.

  (** Whatever becomes of an import, its name is taken from then on, and no other name is: a file that was repaired can not be
      imported under this name again. *)
  Theorem C153_name_taken : forall open_dbs name file fuel wl wn, ~ In name open_dbs ->
    fst (import_text fuel open_dbs name file wl wn) = open_dbs ++ [name] /\
    forall file' fuel' wl' wn', import_text fuel' (fst (import_text fuel open_dbs name file wl wn)) name file' wl' wn' = (open_dbs ++ [name], Ok None).
  Proof.
    intros open_dbs name file fuel wl wn Hn. assert (E : fst (import_text fuel open_dbs name file wl wn) = open_dbs ++ [name]).
    { unfold KiCadText_Model.import_text, KiCadImport_Model.import_board. destruct (existsb (String.eqb name) open_dbs) eqn:E.
      { exfalso; apply existsb_exists in E as (x & Hx & Ex); apply String.eqb_eq in Ex; subst; auto. }
      destruct file as [s|]; [destruct (parse_file fuel s)|]; reflexivity. }
    split; [exact E|]. intros file' fuel' wl' wn'. rewrite E. unfold KiCadText_Model.import_text.
    rewrite existsb_app. cbn [existsb]. rewrite String.eqb_refl, orb_true_l, orb_true_r. reflexivity.
  Qed.

  (** The first word of the file is not looked at: any list is taken for a board. *)
  Theorem C153_other_lists_not_refused : forall open_dbs name top items text fuel wl wn, renders (Lst top items) text -> (List.length text <= fuel)%nat ->
    (forall e, In e items -> match e with Lst n _ => ~ In (letters n) ["layers"; "setup"; "stackup"; "net"; "footprint"; "segment"; "zone"; "via"; "pad"; "fp_arc"; "gr_arc"; "fp_line"; "gr_line"; "fp_poly"; "fp_circle"; "gr_circle"] | _ => False end) ->
    ~ In name open_dbs -> wl [] = [] -> wn [] = [] -> import_text fuel open_dbs name (Some text) wl wn = (open_dbs ++ [name], Ok (Some (ly_init, [], nc_init))).
  Proof.
    intros open_dbs name top items text fuel wl wn R F H Hn Wl Wn. assert (E := import_read open_dbs name top items text [] [] fuel wl wn R (fun H => H) F). cbn [app] in E. rewrite app_nil_r in E. etransitivity; [exact E|]. clear E.
    unfold KiCadImport_Model.import_board. destruct (existsb (String.eqb name) open_dbs) eqn:E.
    { exfalso; apply existsb_exists in E as (x & Hx & Ex); apply String.eqb_eq in Ex; subst; auto. }
    f_equal. replace (extract stoi num idx word kdb_init (map content items)) with (Ok kdb_init); [cbn [bind kdb_init k_layers k_nets]; rewrite Wl, Wn; reflexivity|].
    clear R. induction items as [|e items IHl]; [reflexivity|]. cbn [map extract]. assert (He := H e (or_introl eq_refl)). destruct e as [s|s|n es]; try contradiction. cbn [content].
    assert (X : extract_node stoi num idx word kdb_init (KNode (letters n) (map content es)) = Ok kdb_init).
    { cbn [extract_node]. unfold drawing.
      repeat match goal with |- context [String.eqb (letters n) ?k] => destruct (String.eqb_spec (letters n) k) as [Ek|_]; [exfalso; apply He; rewrite Ek; cbn [In]; tauto|] end. reflexivity. }
    rewrite X. cbn [bind]. apply IHl. intros e' He'; apply H; now right.
  Qed.
End Board.
Print Assumptions C152_board_text.
Print Assumptions C152_writing_irrelevant.
Print Assumptions C152_imported_iff.
Print Assumptions C153_cut_off_not_refused.
Print Assumptions C153_never_returns_refuted.
Print Assumptions C153_name_taken.
Print Assumptions C153_other_lists_not_refused.

(** ** Cases *)

(** One text of an S-expression, to make boards from *)
Fixpoint show_sx (e : sx) : str :=
  match e with
  | Atom s => s
  | Quoted s => QUOTE :: s ++ [QUOTE]
  | Lst n es => LP :: n ++ flat_map (fun e => 32%Z :: show_sx e) es ++ [RP]
  end.
Definition plain (c : Z) : bool := negb (is_ws c || (c =? LP)%Z || (c =? RP)%Z || (c =? QUOTE)%Z).
Definition filled (s : str) : bool := match s with [] => false | _ => forallb plain s end.
Fixpoint good (e : sx) : bool :=
  match e with
  | Atom s => filled s
  | Quoted s => forallb (fun c => negb ((c =? QUOTE)%Z || (c =? BACKSLASH)%Z)) s
  | Lst n es => filled n && forallb good es
  end.
Lemma filled_atom s : filled s = true -> atom_text s.
Proof. destruct s as [|c s]; [discriminate|]. intros H. apply atom_textb; [discriminate|exact H]. Qed.
Lemma shown : forall e, good e = true -> renders e (show_sx e).
Proof.
  fix IH 1. intros [s|s|n es] G; cbn [good] in G; cbn [show_sx].
  - constructor. now apply filled_atom.
  - constructor. rewrite forallb_forall in G. split.
    + intros u v ->. exfalso. assert (H := G QUOTE ltac:(apply in_app_iff; right; now left)). discriminate.
    + intros u ->. assert (H := G BACKSLASH ltac:(apply in_app_iff; right; now left)). discriminate.
  - apply andb_true_iff in G as [Gn Ge]. apply (RLst n es [] (flat_map (fun e => 32%Z :: show_sx e) es ++ [RP])); [constructor|now apply filled_atom|]. clear Gn. generalize false.
    revert Ge. induction es as [|e es IHes]; intros Ge b; [apply (INil b []); constructor|]. cbn [forallb] in Ge. apply andb_true_iff in Ge as [Ge Ges]. cbn [flat_map]. rewrite <- app_assoc.
    apply (ICons b [32%Z] e (show_sx e) es); [constructor; [unfold blank; auto|constructor]|right; discriminate|now apply IH|now apply IHes].
Qed.

Definition at_ (s : string) : sx := Atom (codes s).
Definition qt (s : string) : sx := Quoted (codes s).
Definition ls (n : string) (es : list sx) : sx := Lst (codes n) es.
(** The board of C68, with names as [v] writes them *)
Definition ex_items (v : string -> sx) : list sx :=
  [ls "version" [at_ "2"]; ls "layers" [ls "0" [v "F.Cu"; at_ "signal"]; ls "31" [v "B.Cu"; at_ "signal"]; ls "44" [v "Edge.Cuts"; at_ "user"]];
   ls "setup" [ls "stackup" [ls "layer" [v "F.Cu"; ls "type" [v "copper"]; ls "thickness" [at_ "0.035"]]; ls "layer" [v "B.Cu"; ls "type" [v "copper"]; ls "material" [v "gold"]]]];
   ls "net" [at_ "0"; v "GND"]; ls "net" [at_ "1"; v "VCC"]; ls "segment" [ls "start" [at_ "0"; at_ "0"]; ls "layer" [v "F.Cu"]; ls "net" [at_ "1"]]].
Definition ex_kfile : kfile :=
  {| kf_layers := [("0", "F.Cu", "signal"); ("31", "B.Cu", "signal"); ("44", "Edge.Cuts", "user")];
     kf_stack := [("F.Cu", [("type", "copper"); ("thickness", "0.035")]); ("B.Cu", [("type", "copper"); ("material", "gold")])]; kf_nets := [("0", "GND"); ("1", "VCC")] |}.
Definition ex_import (file : str) := import_text ex_stoi ex_num ex_idx Some 2000 ["a"] "b" (Some file) (fun m => m) (fun m => m).
Definition ex_see (r : list string * res (option (layers * list stackup * netcoll))) := match snd r with Ok (Some (ly, us, nc)) => Some (map (fun u => (su_name u, su_type u, su_cond u)) us, map fst (nc_map nc)) | _ => None end.
Example C152_ex : ex_see (ex_import (codes "# " ++ show_sx (ls "kicad_pcb" (ex_items qt)) ++ codes " x")) = Some ([("F.Cu", LConducting, "copper"); ("B.Cu", LConducting, "gold")], ["GND"; "VCC"]).
Proof. vm_compute. reflexivity. Qed.
Example C152_hyp : forall v, v = at_ \/ v = qt ->
  renders (Lst (codes "kicad_pcb") (ex_items v)) (show_sx (ls "kicad_pcb" (ex_items v))) /\ declarations (map content (ex_items v)) = render ex_kfile /\
  map content (ex_items v) = map content (ex_items qt) /\
  (forall e, In e (ex_items v) -> well_drawn (content e)) /\ (forall l, In l (kf_layers ex_kfile) -> exists i, ex_stoi (fst (fst l)) = Some i) /\
  NoDup (map (fun l => snd (fst l)) (kf_layers ex_kfile)) /\ NoDup (map (fun n => ex_idx (fst n)) (kf_nets ex_kfile)).
Proof.
  intros v Hv. assert (D : forall e, In e (ex_items v) -> well_drawn (content e)).
  { intros e He. apply (extract_all_well_drawn ex_stoi ex_num ex_idx Some (map content (ex_items v)) kdb_init) with
      (d' := match extract ex_stoi ex_num ex_idx Some kdb_init (map content (ex_items v)) with Ok d => d | _ => kdb_init end); [|now apply in_map]. destruct Hv as [-> | ->]; vm_compute; reflexivity. }
  split; [apply shown; destruct Hv as [-> | ->]; vm_compute; reflexivity|]. split; [destruct Hv as [-> | ->]; vm_compute; reflexivity|]. split; [destruct Hv as [-> | ->]; vm_compute; reflexivity|]. split; [exact D|].
  split; [cbn; intros l H; decompose [or] H; subst; cbn; eauto; contradiction|]. split; repeat constructor; cbn; intuition discriminate.
Qed.

(** A complete board with two nets, and its first part, which breaks off in front of the second: imported, with one net. *)
Theorem C153_cut_off_refuted : exists text cut, (exists rest, text = cut ++ rest /\ rest <> []) /\ renders (Lst (codes "kicad_pcb") (ex_items at_)) text /\
  ex_see (ex_import text) = Some ([("F.Cu", LConducting, "copper"); ("B.Cu", LConducting, "gold")], ["GND"; "VCC"]) /\
  ex_see (ex_import cut) = Some ([("F.Cu", LConducting, "copper"); ("B.Cu", LConducting, "gold")], ["GND"]).
Proof.
  exists (show_sx (ls "kicad_pcb" (ex_items at_))), (LP :: codes "kicad_pcb" ++ flat_map (fun e => 32%Z :: show_sx e) (firstn 4 (ex_items at_))).
  split; [exists (flat_map (fun e => 32%Z :: show_sx e) (skipn 4 (ex_items at_)) ++ [RP]); split; [vm_compute; reflexivity|vm_compute; discriminate]|].
  split; [apply shown; vm_compute; reflexivity|]. split; vm_compute; reflexivity.
Qed.
Print Assumptions C153_cut_off_refuted.
Lemma cut_shown es : forallb (fun e => match e with Lst _ _ => good e | _ => false end) es = true -> cut_text es (flat_map (fun e => 32%Z :: show_sx e) es).
Proof.
  induction es as [|e es IH]; [intros _; constructor; constructor|]. cbn [forallb flat_map]. destruct e as [s|s|n items]; try discriminate. intros H. apply andb_true_iff in H as [G H].
  apply (CutItem [32%Z] n items (show_sx (Lst n items)) es); [constructor; [unfold blank; auto|constructor]|now apply shown|now apply IH].
Qed.
Example C153_cut_ex : cut_text (firstn 4 (ex_items at_)) (flat_map (fun e => 32%Z :: show_sx e) (firstn 4 (ex_items at_))) /\
  ex_see (ex_import (LP :: codes "kicad_pcb" ++ 32%Z :: flat_map (fun e => 32%Z :: show_sx e) (firstn 4 (ex_items at_)))) = Some ([("F.Cu", LConducting, "copper"); ("B.Cu", LConducting, "gold")], ["GND"]).
Proof.
  split; [apply cut_shown; vm_compute; reflexivity|vm_compute; reflexivity].
Qed.
Example C153_other_ex : ex_see (ex_import (codes "(module (tags ""a b"") (descr x))")) = Some ([], []) /\ snd (ex_import (codes "no board")) = OutOfFuel.
Proof. split; vm_compute; reflexivity. Qed.
