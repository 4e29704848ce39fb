(** Property C46: the reader turns each element into an object of its own. *)
From Verif Require Import Base Gds_Model Gds_Spec Gds_Proofs GdsReader_Model GdsReader_Spec GdsReader_Proofs.
Local Open Scope Z_scope.

(** Reading the records of any list of elements inside a structure appends to the current cell
    exactly the objects of these elements, in order: what came before does not matter. *)
Theorem C46_elements_are_independent : forall els h n u cs c ls,
  Forall element_ok els ->
  exists ls',
    read_events (mkrstate BGNSTR temp0 (mkgdb h n u (cs ++ [c]) ls)) (events (flat_map element_recs els)) =
    Ok (mkrstate BGNSTR temp0 (mkgdb h n u (cs ++ [mkcell (c_name c) (c_objs c ++ flat_map element_obj els)]) ls')) /\
    (forall l, In l ls' <-> In l ls \/ exists e, In e els /\ l = last_int LAYER (el_body e) (-1)).
Proof.
  intros els h n u cs c ls H. eexists. split; [apply read_elements; exact H|].
  intros l. rewrite fold_ins_In. reflexivity.
Qed.
Print Assumptions C46_elements_are_independent.


(** The bytes of every library with distinct structure names read back as that library: version,
    name, units, one cell per structure with the objects of its elements, and the set of layers. *)
Theorem C46_library_round_trip : forall fuel cap l,
  1 <= cap <= 2 ^ 32 -> lib_ok l -> (List.length (enc_all (lib_recs l)) + 64 <= fuel)%nat ->
  exists db,
    read_file fuel cap (enc_all (lib_recs l)) = Ok (db, true) /\
    db_header db = Some (lib_version l) /\
    db_lib db = text_of (lib_name l) /\
    db_units db = Some (real8_double (lib_unit l), real8_double (lib_prec l)) /\
    db_cells db = map struct_cell (lib_structs l) /\
    NoDup (db_layers db) /\
    (forall x, In x (db_layers db) <->
       exists s e, In s (lib_structs l) /\ In e (st_els s) /\ x = last_int LAYER (el_body e) (-1)).
Proof.
  intros fuel cap l Hc (Hrec & Hels & Hnd) Hf.
  unfold read_file.
  rewrite <- (app_nil_r (enc_all (lib_recs l))), stream_with_rest; [|exact Hc|exact Hrec|exact I|exact Hf].
  cbn [bind].
  destruct (read_structs (lib_structs l) BGNLIB (Some (lib_version l)) (text_of (lib_name l))
    (Some (real8_double (lib_unit l), real8_double (lib_prec l))) [] [] Hels) as [st' E]; [exact Hnd|].
  assert (R : read_events rinit (events (lib_recs l)) =
    Ok (mkrstate UNKNOWN temp0 (mkgdb (Some (lib_version l)) (text_of (lib_name l))
       (Some (real8_double (lib_unit l), real8_double (lib_prec l))) (map struct_cell (lib_structs l))
       (fold_left (fun a e => ins (layer_of e) a) (flat_map st_els (lib_structs l)) [])))).
  { unfold lib_recs.
    do 4 (rewrite read_events_cons; unfold event_step; cbn [rec_event g_body g_type];
          match goal with |- context [bind ?r _] => let r' := eval cbn in r in change r with r' end; cbn [bind]).
    unfold rinit, gdb0, upd_db, upd_status, set_header, set_lib, set_units in *; cbn in *.
    rewrite events_app, read_events_app. rewrite E. reflexivity. }
  rewrite R. cbn [bind]. eexists. split; [reflexivity|]. cbn [s_db db_header db_lib db_units db_cells db_layers].
  repeat split; try reflexivity.
  - apply fold_ins_NoDup. constructor.
  - intros Hin. apply fold_ins_In in Hin as [[]|(e & Hin & ->)].
    apply in_flat_map in Hin as (s & Hs & He). exists s, e. auto.
  - intros (s & e & Hs & He & ->). apply fold_ins_In. right. exists e. split; [|reflexivity].
    apply in_flat_map. eauto.
Qed.
Print Assumptions C46_library_round_trip.

(** A structure whose name was used before is merged into the structure read last: its elements
    land in a cell of another name. *)
Theorem C46_duplicate_structure_refuted :
  exists l db a b, Forall rec_ok (lib_recs l) /\
    Forall (fun s => Forall element_ok (st_els s)) (lib_structs l) /\
    map st_name (lib_structs l) = [a; b; a] /\
    read_file 1000 4096 (enc_all (lib_recs l)) = Ok (db, true) /\
    db_cells db = [mkcell a []; mkcell b [GPolygon 1 0 [(0, 0); (4, 0); (4, 4)]]] /\
    exists e, st_els (nth 2 (lib_structs l) (mkstruct [] [])) = [e] /\
              element_obj e = [GPolygon 1 0 [(0, 0); (4, 0); (4, 4)]].
Proof.
  set (e := mkel BOUNDARY [mkgrec LAYER 2 (CInt2 [1]); mkgrec DATATYPE 2 (CInt2 [0]);
                           mkgrec XY 3 (CInt4 [0; 0; 4; 0; 4; 4])]).
  exists (mkglib 600 [76] (mkreal8 false 62 1) (mkreal8 false 57 1)
            [mkstruct [65] []; mkstruct [66] []; mkstruct [65] [e]]).
  eexists. exists [65], [66]. split; [|split; [|split; [|split; [|split]]]].
  - apply recs_okb_ok. vm_compute. reflexivity.
  - cbn [lib_structs]. repeat (constructor; [apply elements_okb_ok; vm_compute; reflexivity|]). constructor.
  - reflexivity.
  - vm_compute. reflexivity.
  - vm_compute. reflexivity.
  - exists e. split; vm_compute; reflexivity.
Qed.
Print Assumptions C46_duplicate_structure_refuted.

(** An attribute outside of any element leaks into the next one. *)
Theorem C46_stray_attribute_leaks : forall v h n u cs c ls,
  - 2 ^ 15 <= v < 2 ^ 15 ->
  exists s1, read_event (mkrstate BGNSTR temp0 (mkgdb h n u (cs ++ [c]) ls)) (EvInt2 LAYER 2 [v]) = Ok s1 /\
  exists s2, read_events s1 [EvBeginEnd BOUNDARY; EvBeginEnd ENDEL] = Ok s2 /\
    db_cells (s_db s2) = cs ++ [mkcell (c_name c) (c_objs c ++ [GPolygon v (-1) []])].
Proof.
  intros v h n u cs c ls Hv. eexists. split; [reflexivity|]. cbn.
  rewrite to_int16_id by exact Hv. unfold add_layer; cbn [db_layers db_header db_lib db_units db_cells].
  destruct (existsb _ ls); cbn [bind]; rewrite push_back_last; cbn; eexists; split; reflexivity.
Qed.
Print Assumptions C46_stray_attribute_leaks.

(** A reference has no layer, yet every SREF adds the pseudo layer -1 to the layers of the
    library. *)
Theorem C46_reference_adds_layer : forall fuel cap l s e,
  1 <= cap <= 2 ^ 32 -> lib_ok l -> (List.length (enc_all (lib_recs l)) + 64 <= fuel)%nat ->
  In s (lib_structs l) -> In e (st_els s) -> (forall r, In r (el_body e) -> g_type r <> LAYER) ->
  exists db, read_file fuel cap (enc_all (lib_recs l)) = Ok (db, true) /\ In (-1) (db_layers db).
Proof.
  intros fuel cap l s e Hc Hl Hf Hs He Hno.
  destruct (C46_library_round_trip fuel cap l Hc Hl Hf) as (db & E & _ & _ & _ & _ & _ & HL).
  exists db. split; [exact E|]. apply HL. exists s, e. repeat split; try assumption.
  clear - Hno. generalize (-1). induction (el_body e) as [|r b IH]; intros d; [reflexivity|].
  unfold last_int in *. cbn [fold_left]. unfold ints at 2.
  destruct (Z.eqb_spec (g_type r) LAYER) as [Er|_]; [exfalso; apply (Hno r); [now left|exact Er]|].
  cbn [hd]. apply IH. intros r' Hr'. apply Hno. now right.
Qed.
Print Assumptions C46_reference_adds_layer.

(** Zero padding that crosses the end of the 4 KB read buffer makes the reader take the first
    element of an empty vector. *)
Definition padded_file : list Z :=
  enc_all [mkgrec HEADER 2 (CInt2 [600]); mkgrec ENDLIB 0 CNothing;
           mkgrec 99 0 (COther (repeat 1 (Z.to_nat 4070)))] ++ repeat 0 28.
Theorem C46_long_padding_is_ub :
  read_file 200 4096 padded_file = UB /\ Z.of_nat (List.length padded_file) = 4096 + 16.
Proof. split; vm_compute; reflexivity. Qed.
Print Assumptions C46_long_padding_is_ub.

(** An element before any structure writes to the last cell of an empty list. *)
Theorem C46_element_outside_structure_is_ub :
  read_events rinit [EvBeginEnd BOUNDARY; EvBeginEnd ENDEL] = UB.
Proof. reflexivity. Qed.
Print Assumptions C46_element_outside_structure_is_ub.

(** A COLROW, SPACING or UNITS record with fewer than two values is rejected with an exception. *)
Theorem C46_short_pair_throws : forall s vs ds, (List.length vs < 2)%nat -> (List.length ds < 2)%nat ->
  read_integer s COLROW vs = Throw /\ read_integer s SPACING vs = Throw /\ read_float s UNITS ds = Throw.
Proof.
  intros s vs ds Hv Hd.
  destruct vs as [|v [|? ?]]; [| |cbn [List.length] in Hv; lia];
  (destruct ds as [|d [|? ?]]; [| |cbn [List.length] in Hd; lia]); repeat split; reflexivity.
Qed.
Print Assumptions C46_short_pair_throws.
Example C46_short_pair_case : read_integer rinit COLROW [3] = Throw.
Proof. reflexivity. Qed.

Example C46_nontrivial :
  let box := mkel BOX [mkgrec LAYER 2 (CInt2 [7]); mkgrec XY 3 (CInt4 [1; 2; 3; 4])] in
  let path := mkel PATH [mkgrec LAYER 2 (CInt2 [3]); mkgrec PATHTYPE 2 (CInt2 [2]); mkgrec WIDTH 3 (CInt4 [50]);
                         mkgrec XY 3 (CInt4 [0; 0; 9; 9])] in
  let sref := mkel SREF [mkgrec SNAME 6 (CString [65]); mkgrec ANGLE 5 (CReal8 [mkreal8 false 66 (90 * 2 ^ 48)]);
                         mkgrec XY 3 (CInt4 [5; 6])] in
  let l := mkglib 600 [76] (mkreal8 false 62 1) (mkreal8 false 57 1)
             [mkstruct [65] [box; path]; mkstruct [66] [sref; box]] in
  exists db, read_file 2000 4096 (enc_all (lib_recs l)) = Ok (db, true) /\
    db_cells db = [mkcell [65] [GPolygon 7 (-1) [(1, 2); (3, 4)]; GPath 3 (-1) 2 50 [(0, 0); (9, 9)]];
                   mkcell [66] [GSref [65] (5, 6) (mkdbl false (90 * 2 ^ 48) (-48)) same_size (-1);
                                GPolygon 7 (-1) [(1, 2); (3, 4)]]] /\
    Forall element_ok [box; path; sref].
Proof.
  cbv zeta. eexists. split; [vm_compute; reflexivity|]. split; [vm_compute; reflexivity|].
  apply elements_okb_ok. vm_compute. reflexivity.
Qed.
