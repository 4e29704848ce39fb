(** C67: importing a GDSII library. *)
From Coq Require Import QArith Permutation DecimalString DecimalNat.
From Verif Require Import Base Gds_Model Gds_Spec Gds_Proofs GdsReader_Model GdsReader_Spec GdsReader_Proofs Names_Model
  GdsImport_Model GdsImport_Spec GdsImport_Proofs.
Local Open Scope Z_scope.
Local Open Scope res_scope.

(** The import into a new database: one cell per structure, in file order; earlier databases are
    left alone; every cell has one layer per entry of the layer list. *)
Theorem C67_cells : forall r name src db,
  ~ In name (map fst r) -> src <> FromFile None -> NoDup (map c_name (db_cells db)) ->
  exists cells,
    create_database r name src db = Ok (r ++ [(name, cells)], true) /\
    map ic_name cells = map c_name (db_cells db) /\
    (forall ic, In ic cells -> List.length (ic_layers ic) = List.length (numbers src)).
Proof.
  intros r name src db Hf Hs Hn. eexists. split; [now apply create_ok|]. split.
  - rewrite map_map. reflexivity.
  - intros ic Hin. apply in_map_iff in Hin as (c & <- & _). cbn [final_cell ic_layers]. apply source_layers_length.
Qed.
Print Assumptions C67_cells.

(** Each layer of an imported cell holds the drawings of exactly the objects with its GDS layer
    number, in file order, and nothing is drawn on a layer that does not exist. *)
Theorem C67_layers_hold_their_shapes : forall r name src db r' k c,
  NoDup (map c_name (db_cells db)) ->
  create_database r name src db = Ok (r', true) -> nth_error (db_cells db) k = Some c ->
  exists cells ic, In (name, cells) r' /\ nth_error cells k = Some ic /\ ic_name ic = c_name c /\
    Forall (fun p => (prim_layer p < List.length (numbers src))%nat) (ic_prims ic) /\
    forall i g, nth_error (numbers src) i = Some g ->
      filter (fun p => (prim_layer p =? i)%nat) (ic_prims ic) = drawings i g (c_objs c).
Proof.
  intros r name src db r' k c Hn Hc Hk.
  assert (Hf : ~ In name (map fst r)).
  { intros Hin. apply in_map_iff in Hin as ([n v] & Hfst & Hin). cbn [fst] in Hfst. subst n.
    unfold create_database in Hc.
    assert (E : existsb (fun e => gstr_eqb (fst e) name) r = true).
    { apply existsb_exists. exists (name, v). split; [exact Hin|apply gstr_eqb_refl]. }
    rewrite E in Hc. discriminate. }
  assert (Hs : src <> FromFile None).
  { intros ->. unfold create_database in Hc. destruct (existsb _ r); discriminate. }
  rewrite create_ok in Hc by assumption. inversion Hc; subst r'; clear Hc.
  eexists. eexists. split; [apply in_or_app; right; now left|].
  split; [apply map_nth_error; exact Hk|]. split; [reflexivity|]. cbn [final_cell ic_prims]. split.
  - apply prims_range.
  - intros i g Hg. now apply filter_cell.
Qed.
Print Assumptions C67_layers_hold_their_shapes.

(** Each reference to a cell of the library becomes an instance with its scale, rotation and place;
    references to other cells are dropped. *)
Theorem C67_references : forall r name src db r' k c,
  NoDup (map c_name (db_cells db)) ->
  create_database r name src db = Ok (r', true) -> nth_error (db_cells db) k = Some c ->
  exists cells ic, In (name, cells) r' /\ nth_error cells k = Some ic /\ ic_name ic = c_name c /\
    map placed (ic_insts ic) = flat_map (placements (map c_name (db_cells db))) (c_objs c).
Proof.
  intros r name src db r' k c Hn Hc Hk.
  assert (Hf : ~ In name (map fst r)).
  { intros Hin. apply in_map_iff in Hin as ([n v] & Hfst & Hin). cbn [fst] in Hfst. subst n.
    unfold create_database in Hc.
    assert (E : existsb (fun e => gstr_eqb (fst e) name) r = true).
    { apply existsb_exists. exists (name, v). split; [exact Hin|apply gstr_eqb_refl]. }
    rewrite E in Hc. discriminate. }
  assert (Hs : src <> FromFile None).
  { intros ->. unfold create_database in Hc. destruct (existsb _ r); discriminate. }
  rewrite create_ok in Hc by assumption. inversion Hc; subst r'; clear Hc.
  eexists. eexists. split; [apply in_or_app; right; now left|].
  split; [apply map_nth_error; exact Hk|]. split; [reflexivity|]. cbn [final_cell ic_insts].
  generalize (c_objs c). intros l. induction l as [|o l IH]; [reflexivity|]. cbn [flat_map].
  rewrite map_app, IH. f_equal. apply import_reference_names. rewrite map_map. reflexivity.
Qed.
Print Assumptions C67_references.

(** Any file the reader accepts, imported without a layer map, whatever order the hash set of its
    layers is walked in: the import succeeds, the layers are named after their numbers, and no
    polygon, path or text is lost or drawn twice. *)
Theorem C67_nothing_lost_without_layer_map : forall fuel cap input db ok r name order,
  read_file fuel cap input = Ok (db, ok) -> Permutation order (db_layers db) -> ~ In name (map fst r) ->
  exists cells,
    create_database r name (FromGds order) db = Ok (r ++ [(name, cells)], true) /\
    Forall (fun ic => map il_name (ic_layers ic) = map (fun l => codes "layer_" ++ int_codes l) order) cells /\
    Forall2 (fun ic c =>
      List.length (ic_prims ic) =
      List.length (filter (fun o => match gds_layer o with Some _ => true | None => false end) (c_objs c)))
      cells (db_cells db).
Proof.
  intros fuel cap input db ok r name order Hr Hp Hf.
  destruct (read_file_inv _ _ _ _ _ Hr) as (Hn & Hl & Hk).
  assert (Ho : NoDup order) by (eapply Permutation_NoDup; [apply Permutation_sym; exact Hp|exact Hl]).
  eexists. split; [apply create_ok; [exact Hf|discriminate|exact Hn]|]. split.
  - apply Forall_forall. intros ic Hin. apply in_map_iff in Hin as (c & <- & _).
    cbn [final_cell ic_layers source_layers]. apply default_layers_names.
  - cbn [numbers].
    generalize (map (import_cell (source_layers (FromGds order)) (add_all order 0 [])) (db_cells db)). intros all.
    enough (G : forall cs, incl cs (db_cells db) -> Forall2 (fun ic c =>
      List.length (ic_prims ic) =
      List.length (filter (fun o => match gds_layer o with Some _ => true | None => false end) (c_objs c)))
      (map (final_cell (source_layers (FromGds order)) (add_all order 0 []) all) cs) cs) by apply G, incl_refl.
    induction cs as [|c cs IH]; intros Hin; cbn [map]; constructor.
    + cbn [final_cell ic_prims].
      assert (Hc : In c (db_cells db)) by (apply Hin; now left). clear - Ho Hk Hc Hp.
      assert (Hobj : forall o l, In o (c_objs c) -> gds_layer o = Some l -> In l order).
      { intros o l Hin Hl. eapply Permutation_in; [apply Permutation_sym; exact Hp|]. eapply Hk; eassumption. }
      revert Hobj. generalize (c_objs c). intros os. induction os as [|o os IH]; intros Hobj; [reflexivity|].
      cbn [flat_map filter]. rewrite app_length, IH by (intros o1 l1 Hi1 Hl1; apply (Hobj o1 l1); [right; exact Hi1|exact Hl1]).
      rewrite import_object_count; [|exact Ho|intros l Hl; apply (Hobj o l); [now left|exact Hl]].
      destruct (gds_layer o); reflexivity.
    + apply IH. intros x Hx. apply Hin. now right.
Qed.
Print Assumptions C67_nothing_lost_without_layer_map.

(** Layers of a layer map file: names and thicknesses in file order, each starting where the one
    above ends. *)
Theorem C67_layer_map_stack : forall ls r name db cells,
  NoDup (map c_name (db_cells db)) -> ~ In name (map fst r) ->
  create_database r name (FromFile (Some ls)) db = Ok (r ++ [(name, cells)], true) ->
  forall ic i l, In ic cells -> nth_error ls i = Some l ->
  exists il, nth_error (ic_layers ic) i = Some il /\ il_name il = gl_name l /\ il_metal il = gl_metal l /\
    il_thick il = gl_thick l /\
    (il_elev il == - fold_right Qplus 0 (map gl_thick (firstn i ls)))%Q.
Proof.
  intros ls r name db cells Hn Hf Hc ic i l Hin Hl.
  rewrite create_ok in Hc by (try assumption; discriminate). inversion Hc as [Hcells]. clear Hc.
  apply app_inv_head in Hcells. inversion Hcells; subst cells; clear Hcells.
  apply in_map_iff in Hin as (c & <- & _). cbn [final_cell ic_layers source_layers].
  assert (G : forall ls k e m i l, nth_error ls i = Some l ->
    exists il, nth_error (fst (file_layers ls k e m)) i = Some il /\ il_name il = gl_name l /\
      il_metal il = gl_metal l /\ il_thick il = gl_thick l /\
      (il_elev il == e - fold_right Qplus 0 (map gl_thick (firstn i ls)))%Q).
  { clear. induction ls as [|x ls IH]; intros k e m i l Hl; [destruct i; discriminate|].
    cbn [file_layers]. destruct i as [|i]; cbn [nth_error] in Hl.
    - inversion Hl; subst. destruct (file_layers ls _ _ _). cbn [fst nth_error].
      eexists. split; [reflexivity|]. cbn [il_name il_metal il_thick il_elev firstn map fold_right].
      repeat split. ring.
    - destruct (IH (S k) (e - gl_thick x)%Q (lid_add (gl_id x) k m) i l Hl) as (il & A & B & C & D & E).
      destruct (file_layers ls _ _ _). cbn [fst] in *. exists il. cbn [nth_error].
      repeat split; try assumption. rewrite E. cbn [firstn map fold_right]. ring. }
  destruct (G ls 0%nat 0%Q [] i l Hl) as (il & A & B & C & D & E).
  exists il. repeat split; try assumption. rewrite E. ring.
Qed.
Print Assumptions C67_layer_map_stack.

(** An array reference makes one instance per point of its record, whatever its columns and rows. *)
Theorem C67_aref_one_per_point : forall cells c cols rows s0 s1 ps rot sc st,
  In c (map ic_name cells) ->
  map in_offset (import_reference cells (GAref c cols rows s0 s1 ps rot sc st)) = ps.
Proof.
  intros cells c cols rows s0 s1 ps rot sc st Hin. cbn [import_reference].
  destruct (find_cell c cells) eqn:E; [|exfalso; now apply find_cell_none in E].
  generalize 0%nat. induction ps as [|p ps IH]; intros k; [reflexivity|]. cbn [array_insts map]. f_equal. apply IH.
Qed.
Print Assumptions C67_aref_one_per_point.

(** The number written in decimal. *)
Definition decimal_value (ds : gstr) : nat := fold_left (fun a d => 10 * a + Z.to_nat (d - 48))%nat ds 0%nat.
Definition is_digits (ds : gstr) : Prop := ds <> [] /\ Forall (fun d => 48 <= d <= 57) ds.

Lemma codes_of_uint : forall d, Forall (fun c => 48 <= c <= 57) (codes (NilEmpty.string_of_uint d)) /\
  forall a, fold_left (fun a d => 10 * a + Z.to_nat (d - 48))%nat (codes (NilEmpty.string_of_uint d)) a = Nat.of_uint_acc d a.
Proof.
  assert (T : forall a, Nat.tail_mul 10 a = (10 * a)%nat) by (intros; apply Nat.tail_mul_spec).
  induction d; cbn [NilEmpty.string_of_uint codes Ascii.nat_of_ascii]; (split; [constructor|]); try (vm_compute; split; discriminate); try apply IHd;
    intros a; cbn [fold_left Nat.of_uint_acc]; try reflexivity; rewrite (proj2 IHd); f_equal; rewrite T; vm_compute Z.to_nat; lia.
Qed.

(** The name of a layer ends in its number, in decimal, with a sign only if it is negative. *)
Theorem C67_layer_numbers : forall z, exists ds, is_digits ds /\ decimal_value ds = Z.to_nat (Z.abs z) /\
  int_codes z = if z <? 0 then 45 :: ds else ds.
Proof.
  intros z.
  assert (G : forall n, is_digits (codes (to_dec n)) /\ decimal_value (codes (to_dec n)) = n).
  { intros n; unfold to_dec, NilZero.string_of_uint; destruct (Nat.to_uint n) eqn:E;
      try (destruct (codes_of_uint (Nat.to_uint n)) as [F V]; rewrite E in F, V; split;
           [split; [cbn [NilEmpty.string_of_uint codes]; discriminate|exact F]|unfold decimal_value; rewrite V, <- E; change (Nat.of_uint_acc (Nat.to_uint n) 0) with (Nat.of_uint (Nat.to_uint n)); apply DecimalNat.Unsigned.of_to]).
    assert (n = 0%nat) as -> by (rewrite <- (DecimalNat.Unsigned.of_to n), E; reflexivity).
    split; [split; [vm_compute; discriminate|vm_compute; constructor; [split; discriminate|constructor]]|reflexivity]. }
  exists (codes (to_dec (Z.to_nat (Z.abs z)))); destruct (G (Z.to_nat (Z.abs z))) as [A B]; split; [exact A|split; [exact B|]].
  unfold int_codes; destruct (Z.ltb_spec z 0); [rewrite Z.abs_neq by lia|rewrite Z.abs_eq by lia]; reflexivity.
Qed.
Print Assumptions C67_layer_numbers.

(** Without a layer map all layers are conducting and without height. *)
Theorem C67_default_layers : forall r name order db cells ic,
  NoDup (map c_name (db_cells db)) -> ~ In name (map fst r) ->
  create_database r name (FromGds order) db = Ok (r ++ [(name, cells)], true) -> In ic cells ->
  ic_layers ic = map (fun l => mkilayer (codes "layer_" ++ int_codes l) true 0 0) order.
Proof.
  intros r name order db cells ic Hn Hf Hc Hin.
  rewrite create_ok in Hc by (try assumption; discriminate). inversion Hc as [Hcells]. apply app_inv_head in Hcells. injection Hcells as <-.
  apply in_map_iff in Hin as (c & <- & _). cbn [final_cell ic_layers].
  assert (G : forall ls id m, fst (default_layers ls id m) = map (fun l => mkilayer (codes "layer_" ++ int_codes l) true 0 0) ls).
  { induction ls as [|l ls IH]; intros id m; cbn [default_layers]; [reflexivity|].
    specialize (IH (S id) (lid_add l id m)); destruct (default_layers ls (S id) (lid_add l id m)); cbn [fst] in *; rewrite IH; reflexivity. }
  apply G.
Qed.
Print Assumptions C67_default_layers.

(** The instances of an array reference are named after the cell and numbered from 0. *)
Theorem C67_aref_names : forall cells c cols rows s0 s1 ps rot sc st,
  In c (map ic_name cells) ->
  map in_name (import_reference cells (GAref c cols rows s0 s1 ps rot sc st)) =
  map (fun k => c ++ codes "_inst_" ++ codes (to_dec k)) (seq 0 (List.length ps)).
Proof.
  intros cells c cols rows s0 s1 ps rot sc st Hin. cbn [import_reference].
  destruct (find_cell c cells) eqn:E; [|exfalso; now apply find_cell_none in E].
  generalize 0%nat. induction ps as [|p ps IH]; intros k; [reflexivity|]. cbn [array_insts map List.length seq in_name]. f_equal. apply IH.
Qed.
Print Assumptions C67_aref_names.

(** A library whose cell "B" refers to "A" by an array of 2 x 2 and by a reference turned by 90
    degrees and reflected. *)
Definition sample_lib : glib :=
  mkglib 600 [76] (mkreal8 false 62 1) (mkreal8 false 57 1)
    [mkstruct [65] [mkel BOUNDARY [mkgrec LAYER 2 (CInt2 [7]); mkgrec DATATYPE 2 (CInt2 [0]);
                                   mkgrec XY 3 (CInt4 [0; 0; 4; 0; 4; 4])];
                    mkel PATH [mkgrec LAYER 2 (CInt2 [3]); mkgrec DATATYPE 2 (CInt2 [0]);
                               mkgrec WIDTH 3 (CInt4 [2]); mkgrec XY 3 (CInt4 [0; 0; 9; 0])];
                    mkel BOX [mkgrec LAYER 2 (CInt2 [7]); mkgrec XY 3 (CInt4 [1; 1; 2; 1; 2; 2])]];
     mkstruct [66] [mkel AREF [mkgrec SNAME 6 (CString [65]); mkgrec COLROW 2 (CInt2 [2; 2]);
                               mkgrec XY 3 (CInt4 [0; 0; 20; 0; 0; 20])];
                    mkel SREF [mkgrec SNAME 6 (CString [65]); mkgrec STRANS 1 (CBits [32768]);
                               mkgrec ANGLE 5 (CReal8 [mkreal8 false 66 25332747903959040]);
                               mkgrec XY 3 (CInt4 [5; 6])];
                    mkel SREF [mkgrec SNAME 6 (CString [67]); mkgrec XY 3 (CInt4 [5; 6])]]].

Definition sample_db : gdb := match read_file 2000 64 (enc_all (lib_recs sample_lib)) with Ok (db, _) => db | _ => gdb0 end.
Definition sample_import : registry :=
  match create_database [] [68] (FromGds (db_layers sample_db)) sample_db with Ok (r, _) => r | _ => [] end.

Lemma sample_import_eq : sample_import = ltac:(let x := eval vm_compute in sample_import in exact x).
Proof. vm_compute. reflexivity. Qed.
Lemma sample_db_eq : sample_db = ltac:(let x := eval vm_compute in sample_db in exact x).
Proof. vm_compute. reflexivity. Qed.

Example C67_sample :
  Forall rec_ok (lib_recs sample_lib) /\
  read_file 2000 64 (enc_all (lib_recs sample_lib)) = Ok (sample_db, true) /\
  db_layers sample_db = [7; 3; -1] /\ NoDup (map c_name (db_cells sample_db)) /\
  create_database [] [68] (FromGds (db_layers sample_db)) sample_db = Ok (sample_import, true) /\
  map (fun e => map (fun c => (ic_name c, map prim_layer (ic_prims c), List.length (ic_insts c))) (snd e)) sample_import =
    [[([65], [0; 1; 0]%nat, 0%nat); ([66], [], 4%nat)]] /\
  drawings 0 7 (c_objs (nth 0 (db_cells sample_db) (mkcell [] []))) =
    [PPolygon 0 [(0, 0); (4, 0); (4, 4)]; PPolygon 0 [(1, 1); (2, 1); (2, 2)]].
Proof.
  split; [apply recs_okb_ok; vm_compute; reflexivity|].
  split; [vm_compute; reflexivity|]. split; [vm_compute; reflexivity|].
  split; [vm_compute; repeat constructor; cbn; intuition discriminate|].
  split; [vm_compute; reflexivity|]. split; vm_compute; reflexivity.
Qed.

(** An array reference is not imported as the lattice it stands for. *)
Theorem C67_array_lattice_refuted :
  exists cells insts, In ([68], cells) sample_import /\
    nth_error (map ic_insts cells) 1 = Some insts /\
    nth_error (c_objs (nth 1 (db_cells sample_db) (mkcell [] []))) 0 =
      Some (GAref [65] 2 2 0 0 [(0, 0); (20, 0); (0, 20)] dzero done_ (-1)) /\
    map in_offset (firstn 3 insts) = [(0, 0); (20, 0); (0, 20)] /\
    lattice 2 2 [(0, 0); (20, 0); (0, 20)] = [(0, 0); (10, 0); (0, 10); (10, 10)] /\
    forall p, In p [(10, 0); (0, 10); (10, 10)] -> ~ In p (map in_offset insts).
Proof.
  rewrite sample_import_eq, sample_db_eq. eexists. eexists. split; [left; vm_compute; reflexivity|]. split; [vm_compute; reflexivity|].
  split; [vm_compute; reflexivity|]. split; [vm_compute; reflexivity|]. split; [vm_compute; reflexivity|].
  intros p Hp. cbn in Hp. destruct Hp as [<-|[<-|[<-|[]]]]; cbn; intuition discriminate.
Qed.
Print Assumptions C67_array_lattice_refuted.

(** A reference turned by 90 degrees gets the rotation 90 where the transform takes radians
    (a right angle lies between 1.57 and 1.58), and its reflection bit is dropped. *)
Theorem C67_orientation_refuted :
  exists cells i o, In ([68], cells) sample_import /\
    nth_error (c_objs (nth 1 (db_cells sample_db) (mkcell [] []))) 1 = Some o /\
    (exists angle, o = GSref [65] (5, 6) angle done_ 32768 /\ (dbl_Q angle == 90)%Q) /\
    nth_error (flat_map ic_insts cells) 3 = Some i /\ in_cell i = [65] /\ in_offset i = (5, 6) /\
    ~ (157 # 100 < dbl_Q (in_rot i) < 158 # 100)%Q /\ in_mirror i = false.
Proof.
  rewrite sample_import_eq, sample_db_eq. eexists. eexists. eexists. split; [left; vm_compute; reflexivity|]. split; [vm_compute; reflexivity|].
  split; [eexists; split; [reflexivity|vm_compute; reflexivity]|].
  split; [vm_compute; reflexivity|]. split; [reflexivity|]. split; [reflexivity|].
  split; [|reflexivity]. intros [_ H]. vm_compute in H. discriminate.
Qed.
Print Assumptions C67_orientation_refuted.

(** For any library: rotations are copied from degrees unchanged, no instance is reflected. *)
Theorem C67_orientation_ignored : forall cells o i, In i (import_reference cells o) ->
  in_mirror i = false /\
  match o with
  | GSref _ _ rot _ _ => in_rot i = rot
  | GAref _ _ _ _ _ _ rot _ _ => in_rot i = rot
  | _ => False
  end.
Proof.
  intros cells o i H. destruct o; cbn [import_reference] in H; try contradiction.
  - destruct (find_cell cell cells); [|destruct H]. destruct H as [<-|[]]. split; reflexivity.
  - destruct (find_cell cell cells); [|destruct H].
    revert H. generalize 0%nat. induction positions as [|p ps IH]; intros k; cbn [array_insts]; [intros []|].
    intros [<-|H]; [split; reflexivity|]. eapply IH, H.
Qed.
Print Assumptions C67_orientation_ignored.

(** A layer map file that cannot be parsed: no database is returned, yet its name is taken from
    then on, so that importing again with a good layer map fails. *)
Theorem C67_failed_import_leaves_no_trace_refuted : forall r name db,
  ~ In name (map fst r) ->
  exists r', create_database r name (FromFile None) db = Ok (r', false) /\ r' = r ++ [(name, [])] /\
    forall src db', create_database r' name src db' = Ok (r', false).
Proof.
  intros r name db Hf. exists (r ++ [(name, [])]). split; [|split; [reflexivity|]].
  - unfold create_database. destruct (existsb _ r) eqn:E; [|reflexivity].
    exfalso. apply existsb_exists in E as ([k v] & Hin & Hk). apply gstr_eqb_eq in Hk. cbn [fst] in Hk. subst.
    apply Hf. apply in_map_iff. exists (name, v). auto.
  - intros src db'. unfold create_database.
    rewrite existsb_app. cbn [existsb fst]. rewrite gstr_eqb_refl, orb_true_r. reflexivity.
Qed.
Print Assumptions C67_failed_import_leaves_no_trace_refuted.

(** A layer map file: comments and empty lines are skipped, the other lines give the layers in
    order; a line without five fields makes it fail. *)
Theorem C67_layer_map_lines : forall split starts_m stoi stod lines acc,
  (forall line, In line lines -> line <> [] -> hd 0 line <> 35 ->
     exists l, parse_line split starts_m stoi stod line = Ok (Some l)) ->
  exists ls, parse_map split starts_m stoi stod lines acc = Ok (Some (acc ++ ls)) /\
    map (fun l => Ok (Some l)) ls =
    map (parse_line split starts_m stoi stod)
        (filter (fun line => match line with [] => false | c :: _ => negb (c =? 35) end) lines).
Proof.
  intros split starts_m stoi stod. induction lines as [|line lines IH]; intros acc H.
  - exists []. rewrite app_nil_r. split; reflexivity.
  - cbn [parse_map filter].
    assert (H' : forall l, In l lines -> l <> [] -> hd 0 l <> 35 ->
      exists x, parse_line split starts_m stoi stod l = Ok (Some x)) by (intros; apply H; [now right| |]; assumption).
    destruct line as [|c line]; [now apply IH|].
    destruct (Z.eqb_spec c 35) as [->|Hc]; cbn [negb]; [now apply IH|].
    destruct (H (c :: line)) as [x Hx]; [now left|discriminate|exact Hc|].
    rewrite Hx. cbn [bind]. destruct (IH (acc ++ [x]) H') as (ls & A & B).
    exists (x :: ls). rewrite A, <- app_assoc. split; [reflexivity|].
    cbn [map]. rewrite Hx. now f_equal.
Qed.
Print Assumptions C67_layer_map_lines.

(** A line of five fields with a layer, data type or thickness that is no number throws out of
    the whole import, after any number of good lines. *)
Theorem C67_layer_map_bad_number_throws : forall split starts_m stoi stod good line rest acc n ty l d t,
  (forall g, In g good -> g <> [] -> hd 0 g <> 35 -> exists x, parse_line split starts_m stoi stod g = Ok (Some x)) ->
  line <> [] -> hd 0 line <> 35 -> split line = [n; ty; l; d; t] ->
  stoi l = None \/ stoi d = None \/ stod t = None ->
  parse_map split starts_m stoi stod (good ++ line :: rest) acc = Throw.
Proof.
  intros split starts_m stoi stod good line rest acc n ty l d t. revert acc.
  induction good as [|g good IH]; intros acc Hg Hn Hh Hs Hb; cbn [app parse_map].
  - destruct line as [|c line]; [congruence|]. cbn [hd] in Hh. destruct (Z.eqb_spec c 35); [congruence|].
    unfold parse_line. rewrite Hs. destruct (stoi l), (stoi d), (stod t); try reflexivity.
    destruct Hb as [|[|]]; discriminate.
  - assert (Hg' : forall x, In x good -> x <> [] -> hd 0 x <> 35 -> exists y, parse_line split starts_m stoi stod x = Ok (Some y))
      by (intros; apply Hg; [now right| |]; assumption).
    destruct g as [|c g]; [now apply IH|]. destruct (Z.eqb_spec c 35) as [->|Hc]; [now apply IH|].
    destruct (Hg (c :: g)) as [x Hx]; [now left|discriminate|exact Hc|]. rewrite Hx. cbn [bind]. now apply IH.
Qed.
Print Assumptions C67_layer_map_bad_number_throws.
Example C67_bad_number_case :
  parse_map (fun s => map (fun c => [c]) s) (fun _ => true) (fun s => match s with [c] => if c =? 120 then None else Some c | _ => None end)
    (fun _ => Some 1%Q) [[35; 1]; [109; 109; 49; 49; 49]; [109; 109; 120; 49; 49]] [] = Throw.
Proof. reflexivity. Qed.

(** A line with more or fewer than five fields makes the parser give up, after any number of good
    lines; the layers read so far are not used. *)
Theorem C67_layer_map_bad_line_rejected : forall split starts_m stoi stod good line rest acc,
  (forall g, In g good -> g <> [] -> hd 0 g <> 35 -> exists x, parse_line split starts_m stoi stod g = Ok (Some x)) ->
  line <> [] -> hd 0 line <> 35 -> List.length (split line) <> 5%nat ->
  parse_map split starts_m stoi stod (good ++ line :: rest) acc = Ok None.
Proof.
  intros split starts_m stoi stod good line rest acc. revert acc.
  induction good as [|g good IH]; intros acc Hg Hn Hh Hs; cbn [app parse_map].
  - destruct line as [|c line]; [congruence|]. cbn [hd] in Hh. destruct (Z.eqb_spec c 35); [congruence|].
    unfold parse_line. destruct (split (c :: line)) as [|? [|? [|? [|? [|? [|]]]]]]; try reflexivity. now destruct Hs.
  - assert (Hg' : forall x, In x good -> x <> [] -> hd 0 x <> 35 -> exists y, parse_line split starts_m stoi stod x = Ok (Some y))
      by (intros; apply Hg; [now right| |]; assumption).
    destruct g as [|c g]; [now apply IH|]. destruct (Z.eqb_spec c 35) as [->|Hc]; [now apply IH|].
    destruct (Hg (c :: g)) as [x Hx]; [now left|discriminate|exact Hc|]. rewrite Hx. cbn [bind]. now apply IH.
Qed.
Print Assumptions C67_layer_map_bad_line_rejected.
Example C67_bad_line_case :
  parse_map (fun s => map (fun c => [c]) s) (fun _ => true) (fun s => match s with [c] => Some c | _ => None end)
    (fun _ => Some 1%Q) [[35; 1]; [109; 109; 49; 49; 49]; [109; 109; 49; 49]] [] = Ok None.
Proof. reflexivity. Qed.

(** Two structures of the same name in a GDS file: the second cell cannot be created and the null
    pointer is used. *)
Theorem C67_duplicate_cell_is_ub : forall r name src db, ~ In name (map fst r) -> src <> FromFile None ->
  ~ NoDup (map c_name (db_cells db)) -> create_database r name src db = UB.
Proof.
  intros r name src db Hf Hs Hd. unfold create_database.
  destruct (existsb _ r) eqn:E.
  { exfalso. apply existsb_exists in E as ([k v] & Hin & Hk). apply gstr_eqb_eq in Hk. cbn [fst] in Hk. subst.
    apply Hf. apply (in_map fst) in Hin. exact Hin. }
  assert (G : forall layers m cs done, NoDup (map ic_name done) -> ~ NoDup (map ic_name done ++ map c_name cs) ->
              import_cells layers m cs done = UB).
  { intros layers m. induction cs as [|c cs IH]; intros done N1 N2; cbn [import_cells map].
    - exfalso. apply N2. rewrite app_nil_r. exact N1.
    - destruct (find_cell (c_name c) done) eqn:F; [reflexivity|]. apply find_cell_none in F. apply IH.
      + rewrite map_app. cbn [map import_cell ic_name].
        clear - N1 F. induction (map ic_name done) as [|x l IHl]; simpl in *.
        * constructor; [intros []|constructor].
        * inversion N1; subst. constructor; [|apply IHl; tauto]. rewrite in_app_iff. simpl. intros [H|[H|[]]]; [tauto|]. apply F. left. now symmetry.
      + rewrite map_app. cbn [map import_cell ic_name]. rewrite <- app_assoc. exact N2. }
  destruct src as [[ls|]|order]; [|congruence|];
    [destruct (file_layers ls 0 0%Q []) as [layers m]|destruct (default_layers order 0 []) as [layers m]];
    rewrite G; try reflexivity; try constructor; exact Hd.
Qed.
Print Assumptions C67_duplicate_cell_is_ub.
Example C67_duplicate_cell_case : ~ NoDup (map c_name [mkcell [65] []; mkcell [66] []; mkcell [65] []]).
Proof. cbn [map c_name]. intros H. inversion H as [|? ? Hn _]. apply Hn. right. now left. Qed.
