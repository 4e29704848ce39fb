(** C154: a GDSII file with its layer map file becomes the database they describe. *)
From Coq Require Import QArith Permutation.
From Verif Require Import Base Gds_Model Gds_Spec Gds_Proofs Gds_Props GdsReader_Model GdsReader_Spec GdsReader_Proofs GdsReader_Props Names_Model
  GdsImport_Model GdsImport_Spec GdsImport_Proofs GdsImport_Props GdsFile_Model GdsFile_Spec.
Local Open Scope Z_scope.
Local Open Scope res_scope.

Lemma enc_all_app a b : enc_all (a ++ b) = enc_all a ++ enc_all b.
Proof. unfold enc_all. now rewrite map_app, concat_app. Qed.
Lemma lines_last line : ~ In 10 line -> map_lines_of line = [line].
Proof.
  induction line as [|c line IH]; intros H; [reflexivity|]. cbn [map_lines_of]. destruct (Z.eqb_spec c 10) as [->|_]; [exfalso; apply H; now left|].
  rewrite IH; [reflexivity|intros X; apply H; now right].
Qed.
Lemma lines_cons line t : ~ In 10 line -> map_lines_of (line ++ 10 :: t) = line :: map_lines_of t.
Proof.
  induction line as [|c line IH]; intros H; [reflexivity|]. cbn [app map_lines_of]. destruct (Z.eqb_spec c 10) as [->|_]; [exfalso; apply H; now left|].
  rewrite IH; [reflexivity|intros X; apply H; now right].
Qed.
Lemma fresh_none (r : registry) name : ~ In name (map fst r) -> existsb (fun e => gstr_eqb (fst e) name) r = false.
Proof.
  intros H. destruct (existsb _ r) eqn:E; [|reflexivity]. exfalso. apply existsb_exists in E as ([n v] & Hin & Hn). cbn [fst] in Hn.
  apply gstr_eqb_eq in Hn. subst. apply H. apply (in_map fst) in Hin. exact Hin.
Qed.

Section Import.
  Context (split : gstr -> list gstr) (starts_m : gstr -> bool) (stoi : gstr -> option Z) (stod : gstr -> option Q).
  Notation import_gds := (import_gds split starts_m stoi stod).
  Notation map_text := (map_text split starts_m stoi stod).

  Lemma map_read ls t : map_text ls t -> forall acc, parse_map split starts_m stoi stod (map_lines_of t) acc = Ok (Some (acc ++ ls)).
  Proof.
    assert (Sk : forall line rest acc, skipped line -> parse_map split starts_m stoi stod (line :: rest) acc = parse_map split starts_m stoi stod rest acc).
    { intros line rest acc [_ [->|H]]; [reflexivity|]. destruct line as [|c line]; [reflexivity|]. cbn [hd] in H. subst. reflexivity. }
    assert (En : forall line l rest acc, entry split starts_m stoi stod line l -> parse_map split starts_m stoi stod (line :: rest) acc = parse_map split starts_m stoi stod rest (acc ++ [l])).
    { intros line l rest acc (_ & Hn & Hh & k & n & d & th & S & M & N & D & T). destruct line as [|c line]; [congruence|]. cbn [hd] in Hh. cbn [parse_map].
      destruct (Z.eqb_spec c 35); [congruence|]. unfold parse_line. rewrite S, N, D, T. cbn [bind]. rewrite M. destruct l; reflexivity. }
    induction 1 as [line H|line l H|line ls t H Ht IH|line l ls t H Ht IH]; intros acc.
    - rewrite lines_last by apply H. rewrite Sk by exact H. cbn [parse_map]. now rewrite app_nil_r.
    - rewrite lines_last by apply H. now rewrite (En _ l) by exact H.
    - rewrite lines_cons by apply H. rewrite Sk by exact H. apply IH.
    - rewrite lines_cons by apply H. rewrite (En _ l) by exact H. rewrite IH, <- app_assoc. reflexivity.
  Qed.

  Lemma nth_Forall2 {A B} (P : A -> B -> Prop) (l : list A) (m : list B) : List.length l = List.length m ->
    (forall k a b, nth_error l k = Some a -> nth_error m k = Some b -> P a b) -> Forall2 P l m.
  Proof.
    revert m. induction l as [|a l IH]; intros [|b m] L H; try discriminate; constructor; [apply (H 0%nat); reflexivity|].
    apply IH; [now injection L|]. intros k x y Hx Hy. apply (H (S k)); assumption.
  Qed.

  Lemma Forall2_In {A B} (P R : A -> B -> Prop) (l : list A) (m : list B) : Forall2 P l m -> (forall a b, In b m -> P a b -> R a b) -> Forall2 R l m.
  Proof. induction 1 as [|a b l m H F IH]; intros G; constructor; [apply G; [now left|exact H]|apply IH; intros; apply G; [now right|assumption]]. Qed.

  Lemma Forall2_both {A B} (P R : A -> B -> Prop) (l : list A) (m : list B) : Forall2 P l m -> Forall2 R l m -> Forall2 (fun a b => P a b /\ R a b) l m.
  Proof. induction 1 as [|a b l m H F IH]; intros G; inversion G; subst; constructor; auto. Qed.

  (** What is imported from a database of cells, whatever the source of its layers *)
  Lemma imported_cells r name src ss db : ~ In name (map fst r) -> src <> FromFile None -> db_cells db = map struct_cell ss ->
    NoDup (map struct_name ss) -> exists cells, create_database r name src db = Ok (r ++ [(name, cells)], true) /\
    Forall2 (fun s ic => ic_name ic = struct_name s /\ List.length (ic_layers ic) = List.length (numbers src) /\
      (forall i g, nth_error (numbers src) i = Some g -> filter (fun p => Nat.eqb (prim_layer p) i) (ic_prims ic) = drawings i g (objects s)) /\
      Forall (fun p => (prim_layer p < List.length (numbers src))%nat) (ic_prims ic) /\
      map placed (ic_insts ic) = flat_map (placements (map struct_name ss)) (objects s)) ss cells.
  Proof.
    intros Hf Hs Hc Hn. assert (N : map c_name (db_cells db) = map struct_name ss) by (rewrite Hc, map_map; reflexivity).
    assert (ND : NoDup (map c_name (db_cells db))) by (now rewrite N).
    destruct (C67_cells r name src db Hf Hs ND) as (cells & E & Nm & Ln). exists cells. split; [exact E|].
    assert (L : List.length ss = List.length cells). { apply (f_equal (@List.length _)) in Nm. rewrite N, !map_length in Nm. now symmetry. }
    apply nth_Forall2; [exact L|]. intros k s ic Hk Hic.
    assert (Hd : nth_error (db_cells db) k = Some (struct_cell s)) by (rewrite Hc; now apply map_nth_error).
    assert (U : forall cs, In (name, cs) (r ++ [(name, cells)]) -> cs = cells).
    { intros cs Hin. apply in_app_iff in Hin as [Hin|[Hin|[]]]; [exfalso; apply Hf; apply (in_map fst) in Hin; exact Hin|now injection Hin]. }
    destruct (C67_layers_hold_their_shapes r name src db _ k _ ND E Hd) as (cs1 & ic1 & I1 & K1 & N1 & F1 & D1). apply U in I1 as ->.
    destruct (C67_references r name src db _ k _ ND E Hd) as (cs2 & ic2 & I2 & K2 & N2 & P2). apply U in I2 as ->.
    rewrite Hic in K1, K2. injection K1 as <-. injection K2 as <-. split; [exact N1|]. split; [apply Ln; eapply nth_error_In; exact Hic|].
    split; [exact D1|]. split; [exact F1|]. rewrite P2, N. reflexivity.
  Qed.

  (** The bytes of every library and every text of a layer map: one cell per structure, in order, each with the layers of the
      map - named, stacked from the top and holding exactly the shapes of their number - and the placements of its references;
      the units are those of the library. *)
  Theorem C154_with_layer_map : forall fuel cap r name l ls text order,
    1 <= cap <= 2 ^ 32 -> lib_ok l -> (List.length (enc_all (lib_recs l)) + 64 <= fuel)%nat -> ~ In name (map fst r) -> map_text ls text ->
    exists cells,
      import_gds fuel cap r name (Some (enc_all (lib_recs l))) (Some (Some text)) order =
        (r ++ [(name, cells)], Ok (Some (Some (real8_double (lib_unit l), real8_double (lib_prec l))))) /\
      Forall2 (imported ls (map struct_name (lib_structs l))) (lib_structs l) cells.
  Proof.
    intros fuel cap r name l ls text order Hcap Hl Hf Hn Ht.
    destruct (C46_library_round_trip fuel cap l Hcap Hl Hf) as (db & R & _ & _ & Un & Ce & _).
    destruct (imported_cells r name (FromFile (Some ls)) (lib_structs l) db Hn ltac:(discriminate) Ce (proj2 (proj2 Hl))) as (cells & E & F).
    exists cells. split.
    - unfold GdsFile_Model.import_gds, layers_from. rewrite R, fresh_none by exact Hn. rewrite (map_read _ _ Ht). cbn [bind app]. rewrite E, Un. reflexivity.
    - assert (ND : NoDup (map c_name (db_cells db))) by (rewrite Ce, map_map; exact (proj2 (proj2 Hl))).
      assert (St := C67_layer_map_stack ls r name db cells ND Hn E). cbn [numbers] in F. rewrite map_length in F.
      apply (Forall2_In _ _ _ _ F).
      intros s ic Hic (A & B & C & D & P). split; [exact A|]. split; [exact B|]. split; [|split; [exact D|exact P]].
      intros i g Hg. destruct (St ic i g Hic Hg) as (il & I1 & I2 & I3 & I4 & I5). exists il. repeat (split; [assumption|]). apply C. apply map_nth_error. exact Hg.
  Qed.

  (** Without a layer map, whatever order the layer numbers are walked in: a conducting layer of no height for each number that
      is used, named after it, which holds exactly the shapes of this number. *)
  Theorem C154_without_layer_map : forall fuel cap r name l order,
    1 <= cap <= 2 ^ 32 -> lib_ok l -> (List.length (enc_all (lib_recs l)) + 64 <= fuel)%nat -> ~ In name (map fst r) ->
    NoDup order -> (forall n, In n order <-> exists s e, In s (lib_structs l) /\ In e (st_els s) /\ n = last_int LAYER (el_body e) (-1)) ->
    exists cells,
      import_gds fuel cap r name (Some (enc_all (lib_recs l))) None order =
        (r ++ [(name, cells)], Ok (Some (Some (real8_double (lib_unit l), real8_double (lib_prec l))))) /\
      Forall2 (fun s ic => ic_name ic = struct_name s /\
        ic_layers ic = map (fun n => mkilayer (codes "layer_" ++ int_codes n) true 0 0) order /\
        (forall i n, nth_error order i = Some n -> filter (fun p => Nat.eqb (prim_layer p) i) (ic_prims ic) = drawings i n (objects s)) /\
        Forall (fun p => (prim_layer p < List.length order)%nat) (ic_prims ic) /\
        List.length (ic_prims ic) = List.length (filter (fun o => match gds_layer o with Some _ => true | None => false end) (objects s)) /\
        map placed (ic_insts ic) = flat_map (placements (map struct_name (lib_structs l))) (objects s)) (lib_structs l) cells.
  Proof.
    intros fuel cap r name l order Hcap Hl Hf Hn Ho Hin.
    destruct (C46_library_round_trip fuel cap l Hcap Hl Hf) as (db & R & _ & _ & Un & Ce & Nl & Il).
    assert (Pm : Permutation order (db_layers db)) by (apply NoDup_Permutation; [exact Ho|exact Nl|intros n; rewrite Hin, Il; reflexivity]).
    destruct (imported_cells r name (FromGds order) (lib_structs l) db Hn ltac:(discriminate) Ce (proj2 (proj2 Hl))) as (cells & E & F).
    assert (ND : NoDup (map c_name (db_cells db))) by (rewrite Ce, map_map; exact (proj2 (proj2 Hl))).
    destruct (C67_nothing_lost_without_layer_map fuel cap _ db true r name order R Pm Hn) as (cells' & E' & _ & Cn).
    rewrite E in E'. injection E' as E'. apply app_inv_head in E'. injection E' as <-.
    exists cells. split.
    - unfold GdsFile_Model.import_gds, layers_from. rewrite R, fresh_none by exact Hn. rewrite E, Un. reflexivity.
    - assert (Ly := C67_default_layers r name order db cells). cbn [numbers] in F. rewrite Ce in Cn.
      assert (Cn' : Forall2 (fun s ic => List.length (ic_prims ic) = List.length (filter (fun o => match gds_layer o with Some _ => true | None => false end) (objects s))) (lib_structs l) cells).
      { clear -Cn. revert cells Cn. induction (lib_structs l) as [|s ss IH]; intros cells Cn; cbn [map] in Cn; inversion Cn; subst; constructor; auto. }
      apply (Forall2_In _ _ _ _ (Forall2_both _ _ _ _ F Cn')).
      intros s ic Hic ((A & B & C & D & P) & L). split; [exact A|]. split; [apply Ly; assumption|]. repeat (split; [assumption|]). exact P.
  Qed.

  (** A file that breaks off between two structures, or inside the first record of the next one, is imported without a word as
      the library of the structures before. *)
  Theorem C154_cut_off_not_refused : forall fuel cap r name l ss ss' cut layer_map order,
    1 <= cap <= 2 ^ 32 -> lib_ok l -> lib_structs l = ss ++ ss' -> incomplete cut -> (List.length (enc_all (lib_recs l)) + 64 <= fuel)%nat ->
    let l1 := mkglib (lib_version l) (lib_name l) (lib_unit l) (lib_prec l) ss in
    import_gds fuel cap r name (Some (enc_all (removelast (lib_recs l1)) ++ cut)) layer_map order =
    import_gds fuel cap r name (Some (enc_all (lib_recs l1))) layer_map order.
  Proof.
    intros fuel cap r name l ss ss' cut layer_map order Hcap Hl Hs Hi Hf l1.
    set (head := mkgrec HEADER 2 (CInt2 [lib_version l]) :: mkgrec BGNLIB 2 (CInt2 (repeat 0 12)) :: mkgrec LIBNAME 6 (CString (lib_name l)) :: mkgrec UNITS 5 (CReal8 [lib_unit l; lib_prec l]) :: flat_map struct_recs ss).
    assert (L1 : lib_recs l1 = head ++ [begin_rec ENDLIB]) by reflexivity.
    assert (L0 : lib_recs l = head ++ flat_map struct_recs ss' ++ [begin_rec ENDLIB]) by (unfold lib_recs; rewrite Hs, flat_map_app, <- app_assoc; reflexivity).
    assert (RL : removelast (lib_recs l1) = head) by (rewrite L1; apply removelast_last). rewrite RL, L1.
    destruct Hl as (Hrec & _ & _). rewrite L0 in Hrec, Hf. apply Forall_app in Hrec as [H1 H2]. apply Forall_app in H2 as [H2 H3].
    rewrite !enc_all_app, !app_length in Hf.
    assert (P1 : parse_stream fuel cap (enc_all head ++ cut) = Ok (events head, true)) by (apply C45_truncation_is_silent; auto; lia).
    assert (P2 : parse_stream fuel cap (enc_all (head ++ [begin_rec ENDLIB])) = Ok (events (head ++ [begin_rec ENDLIB]), true)).
    { rewrite <- (app_nil_r (enc_all (head ++ _))). apply C45_truncation_is_silent; [exact Hcap|apply Forall_app; auto|exact I|]. rewrite enc_all_app, app_length. lia. }
    assert (RF : match read_file fuel cap (enc_all head ++ cut), read_file fuel cap (enc_all (head ++ [begin_rec ENDLIB])) with
                 | Ok (d1, b1), Ok (d2, b2) => d1 = d2 /\ b1 = b2 | UB, UB => True | Throw, Throw => True | OutOfFuel, OutOfFuel => True | _, _ => False end).
    { unfold read_file. rewrite P1, P2. cbn [bind]. rewrite events_app, read_events_app. destruct (read_events rinit (events head)) as [s| | |]; cbn [bind]; try exact I. split; reflexivity. }
    unfold GdsFile_Model.import_gds. destruct (read_file fuel cap (enc_all head ++ cut)) as [[d1 b1]| | |], (read_file fuel cap (enc_all (head ++ [begin_rec ENDLIB]))) as [[d2 b2]| | |]; try contradiction; try reflexivity.
    destruct RF as [-> ->]. reflexivity.
  Qed.

  (** No file, or a name that is taken: no database is returned and nothing changes. *)
  Theorem C154_refused : forall fuel cap r name file layer_map order,
    file = None \/ (In name (map fst r) /\ exists bytes db ok, file = Some bytes /\ read_file fuel cap bytes = Ok (db, ok)) ->
    import_gds fuel cap r name file layer_map order = (r, Ok None).
  Proof.
    intros fuel cap r name file layer_map order H. unfold GdsFile_Model.import_gds. destruct H as [->|(H & b & db & ok & -> & R)]; [reflexivity|].
    rewrite R. destruct ok; [|reflexivity].
    assert (E : existsb (fun e => gstr_eqb (fst e) name) r = true).
    { apply existsb_exists. apply in_map_iff in H as (x & <- & Hx). exists x. split; [exact Hx|apply gstr_eqb_refl]. }
    rewrite E. reflexivity.
  Qed.

  (** A layer map file that can not be opened or has a line without five fields: no database is returned, but its name is taken.
      A line with five fields one of which should be a number and is none: the import throws, and the name is taken as well. *)
  Theorem C154_bad_layer_map : forall fuel cap r name bytes db order ls good line rest,
    read_file fuel cap bytes = Ok (db, true) -> ~ In name (map fst r) ->
    map_text ls good -> ~ In 10 line -> line <> [] -> hd 0 line <> 35 ->
    import_gds fuel cap r name (Some bytes) (Some None) order = (r ++ [(name, [])], Ok None) /\
    (List.length (split line) <> 5%nat ->
     import_gds fuel cap r name (Some bytes) (Some (Some (good ++ 10 :: line ++ 10 :: rest))) order = (r ++ [(name, [])], Ok None)) /\
    (forall n ty a d t, split line = [n; ty; a; d; t] -> stoi a = None \/ stoi d = None \/ stod t = None ->
     import_gds fuel cap r name (Some bytes) (Some (Some (good ++ 10 :: line ++ 10 :: rest))) order = (r ++ [(name, [])], Throw)).
  Proof.
    intros fuel cap r name bytes db order ls good line rest R Hn Hg Hl He Hh.
    assert (Ln : exists gl, map_lines_of (good ++ 10 :: line ++ 10 :: rest) = gl ++ line :: map_lines_of rest /\
      forall g, In g gl -> g <> [] -> hd 0 g <> 35 -> exists x, parse_line split starts_m stoi stod g = Ok (Some x)).
    { assert (Pe : forall g l, entry split starts_m stoi stod g l -> exists x, parse_line split starts_m stoi stod g = Ok (Some x)).
      { intros g l (_ & _ & _ & k & n & d & th & S & M & N & D & T). unfold parse_line. rewrite S, N, D, T. eauto. }
      clear -Hg Hl Pe. induction Hg as [g H|g l H|g ls t H Ht IH|g l ls t H Ht IH].
      - exists [g]. rewrite lines_cons by apply H. rewrite lines_cons by exact Hl. split; [reflexivity|]. intros x [<-|[]] X Y. destruct H as [_ [H|H]]; contradiction.
      - exists [g]. rewrite lines_cons by apply H. rewrite lines_cons by exact Hl. split; [reflexivity|]. intros x [<-|[]] X Y. eauto.
      - destruct IH as (gl & E & G). exists (g :: gl). rewrite <- app_assoc. cbn [app]. rewrite lines_cons by apply H. rewrite E. split; [reflexivity|].
        intros x [<-|Hx] X Y; [destruct H as [_ [H|H]]; contradiction|auto].
      - destruct IH as (gl & E & G). exists (g :: gl). rewrite <- app_assoc. cbn [app]. rewrite lines_cons by apply H. rewrite E. split; [reflexivity|].
        intros x [<-|Hx] X Y; eauto. }
    destruct Ln as (gl & El & Gl). unfold GdsFile_Model.import_gds, layers_from. rewrite R, (fresh_none _ _ Hn).
    assert (None_ : create_database r name (FromFile None) db = Ok (r ++ [(name, [])], false)) by (unfold create_database; now rewrite (fresh_none _ _ Hn)).
    split; [now rewrite None_|]. split.
    - intros H5. rewrite El, (C67_layer_map_bad_line_rejected split starts_m stoi stod gl line _ [] Gl He Hh H5). cbn [bind]. now rewrite None_.
    - intros n ty a d t Sp Bad. rewrite El, (C67_layer_map_bad_number_throws split starts_m stoi stod gl line _ [] n ty a d t Gl He Hh Sp Bad). reflexivity.
  Qed.

  (** Whatever becomes of an import, no other database is touched. *)
  Theorem C154_others_untouched : forall fuel cap r name file layer_map order, exists more,
    fst (import_gds fuel cap r name file layer_map order) = r ++ more /\ (more = [] \/ exists cells, more = [(name, cells)]).
  Proof.
    intros fuel cap r name file layer_map order. unfold GdsFile_Model.import_gds.
    assert (N : exists more, r = r ++ more /\ (more = [] \/ exists cells, more = [(name, cells)])) by (exists []; rewrite app_nil_r; auto).
    assert (O : forall cells, exists more, r ++ [(name, cells)] = r ++ more /\ (more = [] \/ exists cells, more = [(name, cells)])) by (intros cells; exists [(name, cells)]; eauto).
    destruct file as [b|]; [|exact N]. destruct (read_file fuel cap b) as [[db [|]]| | |]; try exact N.
    destruct (existsb _ r) eqn:E; [exact N|]. destruct (layers_from split starts_m stoi stod layer_map order) as [src| | |]; try apply O.
    assert (Hn : ~ In name (map fst r)). { intros H. apply in_map_iff in H as (x & <- & Hx). assert (existsb (fun e => gstr_eqb (fst e) (fst x)) r = true); [|congruence]. apply existsb_exists. exists x. split; [exact Hx|apply gstr_eqb_refl]. }
    unfold create_database. rewrite E. assert (RS : forall cells, reg_set name cells (r ++ [(name, [])]) = r ++ [(name, cells)]).
    { intros cells. unfold reg_set. rewrite map_app. cbn [map fst]. rewrite gstr_eqb_refl. f_equal. clear -E. induction r as [|e r IH]; [reflexivity|]. cbn [existsb map] in *. apply orb_false_iff in E as [-> E]. f_equal. auto. }
    destruct src as [[ls|]|o]; [destruct (file_layers ls 0 0%Q []) as [ly m]|apply O|destruct (default_layers o 0 []) as [ly m]];
      (destruct (import_cells ly m (db_cells db) []) as [c1| | |]; cbn [bind]; try apply O; destruct (import_references (db_cells db) c1) as [c2| | |]; cbn [bind]; try apply O; rewrite RS; apply O).
  Qed.
End Import.
Print Assumptions C154_with_layer_map.
Print Assumptions C154_without_layer_map.
Print Assumptions C154_cut_off_not_refused.
Print Assumptions C154_refused.
Print Assumptions C154_bad_layer_map.
Print Assumptions C154_others_untouched.

(** ** Cases *)

(** Fields separated by single blanks, decimal digits *)
Fixpoint ex_split (t : gstr) : list gstr :=
  match t with
  | [] => [[]]
  | c :: t' => if c =? 32 then [] :: ex_split t' else match ex_split t' with [] => [[c]] | l :: ls => (c :: l) :: ls end
  end.
Definition ex_starts (t : gstr) : bool := match t with c :: _ => (c =? 109) || (c =? 77) | [] => false end.
Definition ex_stoi (t : gstr) : option Z :=
  if forallb (fun c => (48 <=? c) && (c <=? 57)) t then match t with [] => None | _ => Some (fold_left (fun a c => 10 * a + (c - 48)) t 0) end else None.
Definition ex_stod (t : gstr) : option Q := option_map inject_Z (ex_stoi t).
Definition ex_text : gstr := codes "# top" ++ 10 :: codes "M1 metal 7 0 2" ++ 10 :: 10 :: codes "V1 via 9 0 3" ++ 10 :: codes "M2 m 3 0 4".
Definition ex_layers : list glayer := [mkglayer (codes "M1") true 7 0 2; mkglayer (codes "V1") false 9 0 3; mkglayer (codes "M2") true 3 0 4].
Definition ex_gds := import_gds ex_split ex_starts ex_stoi ex_stod 3000 64 [([90], [])] [68].
Definition ex_see (r : registry * res (option (option (dbl * dbl)))) :=
  map (fun e => (fst e, map (fun c => (ic_name c, map (fun l => (il_name l, il_metal l, il_elev l)) (ic_layers c), map prim_layer (ic_prims c), List.length (ic_insts c))) (snd e))) (fst r).
Example C154_ex : map_text ex_split ex_starts ex_stoi ex_stod ex_layers ex_text /\ lib_ok sample_lib /\
  ex_see (ex_gds (Some (enc_all (lib_recs sample_lib))) (Some (Some ex_text)) []) =
  [([90], []); ([68], let ly := [(codes "M1", true, 0%Q); (codes "V1", false, (0 - 2)%Q); (codes "M2", true, (0 - 2 - 3)%Q)] in
     [([65], ly, [0; 2; 0]%nat, 0%nat); ([66], ly, [], 4%nat)])].
Proof.
  assert (D : forall line l, ~ In 10 line -> line <> [] -> hd 0 line <> 35 -> (exists k n d t, ex_split line = [gl_name l; k; n; d; t] /\ ex_starts k = gl_metal l /\ ex_stoi n = Some (gl_id l) /\ ex_stoi d = Some (gl_data l) /\ ex_stod t = Some (gl_thick l)) -> entry ex_split ex_starts ex_stoi ex_stod line l) by (intros; repeat split; assumption).
  split; [|split; [|vm_compute; reflexivity]].
  - unfold ex_text, ex_layers. apply Skip; [split; [vm_compute; intuition discriminate|right; reflexivity]|].
    apply Entry; [apply D; [vm_compute; intuition discriminate|discriminate|vm_compute; discriminate|do 4 eexists; vm_compute; repeat split; reflexivity]|].
    apply (Skip _ _ _ _ []); [split; [intros []|now left]|].
    apply Entry; [apply D; [vm_compute; intuition discriminate|discriminate|vm_compute; discriminate|do 4 eexists; vm_compute; repeat split; reflexivity]|].
    apply LastEntry. apply D; [vm_compute; intuition discriminate|discriminate|vm_compute; discriminate|do 4 eexists; vm_compute; repeat split; reflexivity].
  - split; [exact (proj1 C67_sample)|]. split; [|vm_compute; repeat constructor; cbn; intuition discriminate].
    cbn [lib_structs sample_lib]. repeat (constructor; [cbn [st_els]; apply elements_okb_ok; vm_compute; reflexivity|]). constructor.
Qed.
(** The layer numbers used by the library; references have none, which counts as the number -1 *)
Example C154_without_ex : NoDup [3; -1; 7] /\ (forall n, In n [3; -1; 7] <-> exists s e, In s (lib_structs sample_lib) /\ In e (st_els s) /\ n = last_int LAYER (el_body e) (-1)) /\
  ex_see (ex_gds (Some (enc_all (lib_recs sample_lib))) None [3; -1; 7]) =
  [([90], []); ([68], let ly := [(codes "layer_3", true, 0%Q); (codes "layer_-1", true, 0%Q); (codes "layer_7", true, 0%Q)] in
     [([65], ly, [2; 0; 2]%nat, 0%nat); ([66], ly, [], 4%nat)])].
Proof.
  split; [repeat constructor; cbn; intuition discriminate|]. split; [|vm_compute; reflexivity].
  intros n. cbn [lib_structs sample_lib]. split.
  - cbn [In]. intros [<-|[<-|[<-|[]]]]; [do 2 eexists; split; [left; reflexivity|]; split; [right; left; reflexivity|reflexivity]
      |do 2 eexists; split; [right; left; reflexivity|]; split; [left; reflexivity|reflexivity]|do 2 eexists; split; [left; reflexivity|]; split; [left; reflexivity|reflexivity]].
  - intros (s & e & [<-|[<-|[]]] & He & ->); cbn [st_els In] in He; decompose [or] He; subst; try contradiction; cbn; tauto.
Qed.

(** The claim that a file which is cut off is refused is false: the sample without its second structure is imported as if it
    were complete, also if it ends in the middle of a record. *)
Theorem C154_cut_off_refuted : exists text cut, (exists rest, text = cut ++ rest /\ rest <> []) /\ text = enc_all (lib_recs sample_lib) /\
  snd (ex_gds (Some cut) None [3; 7]) = snd (ex_gds (Some text) None [3; -1; 7]) /\
  (exists u, snd (ex_gds (Some cut) None [3; 7]) = Ok (Some u)) /\
  map (fun e => List.length (snd e)) (fst (ex_gds (Some text) None [3; -1; 7])) = [0; 2]%nat /\
  map (fun e => List.length (snd e)) (fst (ex_gds (Some cut) None [3; 7])) = [0; 1]%nat.
Proof.
  set (k := 240%nat). exists (enc_all (lib_recs sample_lib)), (firstn k (enc_all (lib_recs sample_lib))).
  split; [exists (skipn k (enc_all (lib_recs sample_lib))); split; [symmetry; apply firstn_skipn|vm_compute; discriminate]|].
  split; [reflexivity|]. split; [vm_compute; reflexivity|]. split; [eexists; vm_compute; reflexivity|]. split; vm_compute; reflexivity.
Qed.
Print Assumptions C154_cut_off_refuted.

Example C154_bad_ex : ex_see (ex_gds (Some (enc_all (lib_recs sample_lib))) (Some (Some (ex_text ++ 10 :: codes "M3 m 4 0"))) []) = [([90], []); ([68], [])] /\
  snd (ex_gds (Some (enc_all (lib_recs sample_lib))) (Some (Some (ex_text ++ 10 :: codes "M3 m four 0 2"))) []) = Throw.
Proof. split; vm_compute; reflexivity. Qed.
