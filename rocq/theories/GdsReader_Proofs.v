From Verif Require Import Base Gds_Model Gds_Spec Gds_Proofs GdsReader_Model GdsReader_Spec.
Local Open Scope Z_scope.
Local Open Scope res_scope.

(** The temporary data after the records [b]. *)
Definition temp_after (t : temp) (b : list grec) : temp :=
  mktemp (last_text STRING b (t_string t)) (last_text SNAME b (t_sname t))
         (last_int LAYER b (t_layer t)) (last_int DATATYPE b (t_dataType t))
         (last_int PATHTYPE b (t_pathType t)) (last_int TEXTTYPE b (t_textType t))
         (t_sp0 t) (t_sp1 t) (last_int WIDTH b (t_width t))
         (last_int COLROW b (t_columns t)) (last_int2 COLROW b (t_rows t))
         (last_real ANGLE b (t_angle t)) (last_real MAG b (t_mag t))
         (last_int STRANS b (t_strans t)) (last_int PRESENTATION b (t_presentation t))
         (t_points t ++ all_points b).

Lemma temp_after_cons t r b : temp_after t (r :: b) = temp_after (temp_after t [r]) b.
Proof.
  unfold temp_after, last_int, last_int2, last_real, last_text, all_points.
  cbn [fold_left flat_map t_string t_sname t_layer t_dataType t_pathType t_textType t_sp0 t_sp1 t_width t_columns t_rows t_angle t_mag t_strans t_presentation t_points].
  rewrite app_nil_r, app_assoc. reflexivity.
Qed.

Lemma temp_after_nil t : temp_after t [] = t.
Proof.
  destruct t. unfold temp_after, last_int, last_int2, last_real, last_text, all_points.
  cbn. rewrite app_nil_r. reflexivity.
Qed.

Lemma pairs_ok h l : List.length l = (2 * h)%nat -> pairs l = Ok (points_of l).
Proof.
  revert l; induction h as [|h IH]; intros l Hl.
  - destruct l; [reflexivity|cbn in Hl; lia].
  - destruct l as [|x [|y l]]; try (cbn in Hl; lia).
    cbn [pairs points_of]. rewrite (IH l) by (cbn in Hl; lia). reflexivity.
Qed.

Definition event_step (s : rstate) (r : grec) : res rstate :=
  match rec_event r with Some e => read_event s e | None => Ok s end.

Lemma read_events_cons s r rs :
  read_events s (events (r :: rs)) = (s' <- event_step s r ;; read_events s' (events rs)).
Proof. unfold event_step. cbn [events]. destruct (rec_event r); reflexivity. Qed.

Lemma events_app a b : events (a ++ b) = events a ++ events b.
Proof. induction a as [|r a IH]; [reflexivity|]. cbn [app events]. rewrite IH. now destruct (rec_event r). Qed.

Lemma read_events_app s a b : read_events s (a ++ b) = (s' <- read_events s a ;; read_events s' b).
Proof.
  revert s; induction a as [|e a IH]; intros s; [reflexivity|]. cbn [app read_events].
  destruct (read_event s e); cbn [bind]; auto.
Qed.

Ltac notctl Hc := exfalso; apply Hc; clear; vm_compute; tauto.

Ltac fin :=
  unfold temp_after, upd_temp, last_int, last_int2, last_real, last_text, all_points; cbn;
  rewrite ?app_nil_r; reflexivity.

Lemma attribute_step st t db r : attribute_ok r ->
  event_step (mkrstate st t db) r = Ok (mkrstate st (temp_after t [r]) db).
Proof.
  intros ((_ & _ & Hb & _) & Hctl & H1 & H2 & Hcr & Hxy).
  destruct r as [ty tag c]. cbn [g_type g_body] in *.
  destruct t as [f1 f2 f3 f4 f5 f6 f7 f8 f9 f10 f11 f12 f13 f14 f15 f16].
  destruct c as [ws|vs|vs|rs|cs| |os]; cbn [body_ok] in Hb.
  - destruct Hb as [Hin _]. unfold bit_records in Hin; cbn [In] in Hin.
    in_cases Hin.
    all: try (assert (Hne : ws <> []) by (apply H1; vm_compute; tauto); destruct ws as [|w ws]; [congruence|]).
    all: fin.
  - destruct Hb as [Hin _]. unfold int2_records in Hin; cbn [In] in Hin.
    in_cases Hin.
    all: try (notctl Hctl).
    all: try (assert (Hne : vs <> []) by (apply H1; vm_compute; tauto); destruct vs as [|v vs]; [congruence|]).
    all: try (specialize (Hcr eq_refl); unfold ints in Hcr; cbn in Hcr; destruct vs as [|v [|v2 vs]]; cbn in Hcr; try lia).
    all: fin.
  - destruct Hb as [Hin _]. unfold int4_records in Hin; cbn [In] in Hin.
    in_cases Hin.
    all: try (notctl Hctl).
    2:{ destruct (Hxy eq_refl) as [h Hh]. change (ints XY {| g_type := 16; g_tag := tag; g_body := CInt4 vs |}) with vs in Hh.
        unfold event_step, rec_event, read_event, temp_after, all_points. cbn [g_type g_body flat_map app].
        unfold read_integer. 
        change (16 =? HEADER) with false. change (16 =? LAYER) with false. change (16 =? DATATYPE) with false.
        change (16 =? PATHTYPE) with false. change (16 =? TEXTTYPE) with false. change (16 =? SPACING) with false.
        change (16 =? WIDTH) with false. change (16 =? STRANS) with false. change (16 =? PRESENTATION) with false.
        change (16 =? COLROW) with false. change (16 =? XY) with true. cbn iota.
        rewrite (pairs_ok h vs Hh). cbn [bind]. 
        change (ints XY {| g_type := 16; g_tag := tag; g_body := CInt4 vs |}) with vs. rewrite app_nil_r.
        reflexivity. }
    all: try (assert (Hne : vs <> []) by (apply H1; vm_compute; tauto); destruct vs as [|v vs]; [congruence|]).
    all: fin.
  - destruct Hb as [Hin _]. unfold real8_records in Hin; cbn [In] in Hin.
    in_cases Hin.
    all: try (notctl Hctl).
    all: try (assert (Hne : rs <> []) by (apply H2; vm_compute; tauto); destruct rs as [|v rs]; [congruence|]).
    all: fin.
  - destruct Hb as [Hin _]. unfold string_records in Hin; cbn [In] in Hin.
    in_cases Hin.
    all: try (notctl Hctl).
    all: fin.
  - unfold empty_records in Hb; cbn [In] in Hb. in_cases Hb.
    all: try (notctl Hctl).
    fin.
  - destruct Hb as [Hin _].
    assert (E : temp_after (mktemp f1 f2 f3 f4 f5 f6 f7 f8 f9 f10 f11 f12 f13 f14 f15 f16)
                  [{| g_type := ty; g_tag := tag; g_body := COther os |}] = mktemp f1 f2 f3 f4 f5 f6 f7 f8 f9 f10 f11 f12 f13 f14 f15 f16).
    { set (r := {| g_type := ty; g_tag := tag; g_body := COther os |}).
      assert (Hi : forall k, ints k r = []) by (intros k; unfold ints; cbn; now destruct (ty =? k)).
      assert (Hr : forall k, reals k r = []) by (intros k; unfold reals; cbn; now destruct (ty =? k)).
      assert (Ht : forall k, texts k r = None) by (intros k; unfold texts; cbn; now destruct (ty =? k)).
      clearbody r.
      unfold temp_after, last_int, last_int2, last_real, last_text, all_points.
      cbn [fold_left flat_map t_string t_sname t_layer t_dataType t_pathType t_textType t_sp0 t_sp1 t_width t_columns t_rows t_angle t_mag t_strans t_presentation t_points].
      rewrite !Hi, !Hr, !Ht. cbn. rewrite app_nil_r. reflexivity. }
    rewrite E. reflexivity.
Qed.

Lemma read_body st t db b : Forall attribute_ok b ->
  read_events (mkrstate st t db) (events b) = Ok (mkrstate st (temp_after t b) db).
Proof.
  intros H; revert t; induction H as [|r b Hr Hb IH]; intros t.
  - now rewrite temp_after_nil.
  - rewrite read_events_cons, attribute_step by exact Hr. cbn [bind].
    rewrite IH, <- temp_after_cons. reflexivity.
Qed.

Lemma to_int16_id v : - 2 ^ 15 <= v < 2 ^ 15 -> to_int16 v = v.
Proof.
  intros H. unfold to_int16. change (2 ^ 16) with 65536. change (2 ^ 15) with 32768 in *.
  destruct (Z_lt_le_dec v 0).
  - rewrite <- (Z.mod_unique v 65536 (-1) (v + 65536)) by lia.
    destruct (Z.ltb_spec (v + 65536) 32768); lia.
  - rewrite Z.mod_small by lia. destruct (Z.ltb_spec v 32768); lia.
Qed.

Lemma last_int_range t b d : In t [LAYER; DATATYPE] -> Forall attribute_ok b ->
  - 2 ^ 15 <= d < 2 ^ 15 -> - 2 ^ 15 <= last_int t b d < 2 ^ 15.
Proof.
  intros Ht H. revert d; induction H as [|r b Hr Hb IH]; intros d Hd; [exact Hd|].
  unfold last_int in *. cbn [fold_left]. apply IH.
  destruct Hr as ((_ & _ & Hbd & _) & _).
  unfold ints. destruct (Z.eqb_spec (g_type r) t) as [E|E]; [|exact Hd].
  rewrite E in Hbd. destruct (g_body r) as [ws|vs|vs|rs|cs| |os]; cbn [body_ok] in Hbd; try exact Hd.
  - exfalso. destruct Hbd as [Hin _]. destruct Ht as [<-|[<-|[]]]; vm_compute in Hin; intuition discriminate.
  - destruct Hbd as [_ Hf]. destruct vs as [|v vs]; [exact Hd|]. exact (Forall_inv Hf).
  - exfalso. destruct Hbd as [Hin _]. destruct Ht as [<-|[<-|[]]]; vm_compute in Hin; intuition discriminate.
Qed.

(** The layers of the database, after elements. *)
Definition layer_of (e : element) : Z := last_int LAYER (el_body e) (-1).

Definition with_objs (db : gdb) (os : list gobj) (cs : list gcell) (c : gcell) (ls : list Z) : gdb :=
  mkgdb (db_header db) (db_lib db) (db_units db) (cs ++ [mkcell (c_name c) (c_objs c ++ os)]) ls.

Lemma push_back_last o h l u cs c ls :
  push_back_obj o (mkgdb h l u (cs ++ [c]) ls) = Ok (mkgdb h l u (cs ++ [mkcell (c_name c) (c_objs c ++ [o])]) ls).
Proof.
  unfold push_back_obj; cbn [db_cells db_header db_lib db_units db_layers].
  rewrite rev_app_distr. cbn [rev app]. rewrite rev_involutive. reflexivity.
Qed.

Definition ins (l : Z) (ls : list Z) : list Z := if existsb (Z.eqb l) ls then ls else ls ++ [l].

Lemma ins_In x l ls : In x (ins l ls) <-> x = l \/ In x ls.
Proof.
  unfold ins. destruct (existsb (Z.eqb l) ls) eqn:E.
  - apply existsb_exists in E as (y & Hy & Hl). apply Z.eqb_eq in Hl; subst. intuition congruence.
  - rewrite in_app_iff. cbn. intuition congruence.
Qed.

Lemma ins_NoDup l ls : NoDup ls -> NoDup (ins l ls).
Proof.
  intros H. unfold ins. destruct (existsb (Z.eqb l) ls) eqn:E; [exact H|].
  apply Permutation_NoDup with (l :: ls); [apply Permutation_cons_append|].
  constructor; [|exact H]. intros Hin.
  assert (existsb (Z.eqb l) ls = true) by (apply existsb_exists; exists l; split; [exact Hin|apply Z.eqb_refl]).
  congruence.
Qed.

Lemma add_layer_ins l h n u cs ls : - 2 ^ 15 <= l < 2 ^ 15 ->
  add_layer l (mkgdb h n u cs ls) = mkgdb h n u cs (ins l ls).
Proof.
  intros Hl. unfold add_layer, ins; cbn [db_layers db_header db_lib db_units db_cells].
  rewrite to_int16_id by exact Hl. destruct (existsb _ _); reflexivity.
Qed.

Lemma read_element e h n u cs c ls : element_ok e ->
  read_events (mkrstate BGNSTR temp0 (mkgdb h n u (cs ++ [c]) ls)) (events (element_recs e)) =
  Ok (mkrstate BGNSTR temp0
        (mkgdb h n u (cs ++ [mkcell (c_name c) (c_objs c ++ element_obj e)]) (ins (layer_of e) ls))).
Proof.
  intros (Hk & Hb & Hp). unfold element_recs. rewrite read_events_cons.
  assert (Hbeg : exists st, event_step (mkrstate BGNSTR temp0 (mkgdb h n u (cs ++ [c]) ls)) (begin_rec (el_kind e))
      = Ok (mkrstate st temp0 (mkgdb h n u (cs ++ [c]) ls)) /\
      (In (el_kind e) [NODE; TEXTNODE] /\ st = BGNSTR \/ In (el_kind e) [BOX; BOUNDARY; PATH; TEXT; SREF; AREF] /\ st = el_kind e)).
  { cbn [In] in Hk. destruct e as [k b]; cbn [el_kind] in *.
    in_cases Hk; eexists; (split; [reflexivity|]); cbn [In]; intuition. }
  destruct Hbeg as (st & -> & Hst). cbn [bind].
  rewrite events_app, read_events_app, read_body by exact Hb. cbn [bind].
  set (t := temp_after temp0 (el_body e)).
  assert (HL : - 2 ^ 15 <= last_int LAYER (el_body e) (-1) < 2 ^ 15)
    by (apply last_int_range; [cbn; tauto|exact Hb|lia]).
  assert (HD : - 2 ^ 15 <= last_int DATATYPE (el_body e) (-1) < 2 ^ 15)
    by (apply last_int_range; [cbn; tauto|exact Hb|lia]).
  assert (El : t_layer t = last_int LAYER (el_body e) (-1)) by reflexivity.
  assert (Ed : t_dataType t = last_int DATATYPE (el_body e) (-1)) by reflexivity.
  assert (Ep : t_points t = all_points (el_body e)) by reflexivity.
  rewrite read_events_cons.
  assert (Hmk : make_obj st t = Ok (hd_error (element_obj e)) /\ (List.length (element_obj e) <= 1)%nat).
  { unfold make_obj. rewrite El, Ed, !to_int16_id, Ep by assumption.
    unfold element_obj. destruct e as [k b]; cbn [el_kind el_body] in *.
    destruct Hst as [[Hin ->]|[Hin ->]]; cbn [In] in Hin.
    - in_cases Hin; split; try reflexivity; cbn; lia.
    - in_cases Hin; try (split; [reflexivity|cbn; lia]).
      + destruct (all_points b) eqn:Eap; [exfalso; apply Hp; [cbn; tauto|reflexivity]|].
        split; [reflexivity|cbn; lia].
      + destruct (all_points b) eqn:Eap; [exfalso; apply Hp; [cbn; tauto|reflexivity]|].
        split; [reflexivity|cbn; lia]. }
  destruct Hmk as [Hmk Hlen].
  unfold event_step. cbn [begin_rec rec_event g_body g_type]. unfold read_event, read_begin_end.
  change ((ENDEL =? BOX) || (ENDEL =? BOUNDARY) || (ENDEL =? PATH) || (ENDEL =? TEXT) || (ENDEL =? SREF) || (ENDEL =? AREF)) with false.
  change (ENDEL =? ENDEL) with true. cbn iota. cbn [s_temp s_status s_db].
  rewrite Hmk. cbn [bind].
  rewrite El, add_layer_ins by exact HL. fold (layer_of e).
  destruct (element_obj e) as [|o [|]]; cbn [hd_error]; [| |cbn in Hlen; lia].
  - cbn [bind events read_events]. rewrite app_nil_r. destruct c; reflexivity.
  - rewrite push_back_last. reflexivity.
Qed.

Lemma read_elements els h n u cs c ls : Forall element_ok els ->
  read_events (mkrstate BGNSTR temp0 (mkgdb h n u (cs ++ [c]) ls)) (events (flat_map element_recs els)) =
  Ok (mkrstate BGNSTR temp0
        (mkgdb h n u (cs ++ [mkcell (c_name c) (c_objs c ++ flat_map element_obj els)])
               (fold_left (fun a e => ins (layer_of e) a) els ls))).
Proof.
  intros H. revert c ls; induction H as [|e els He Hels IH]; intros c ls.
  - cbn. rewrite app_nil_r. destruct c; reflexivity.
  - cbn [flat_map fold_left]. rewrite events_app, read_events_app, read_element by exact He. cbn [bind].
    rewrite IH. cbn [c_name c_objs]. rewrite app_assoc. reflexivity.
Qed.

Lemma gstr_eqb_spec a b : reflect (a = b) (gstr_eqb a b).
Proof. unfold gstr_eqb. destruct (list_eq_dec Z.eq_dec a b); constructor; assumption. Qed.

Lemma add_cell_new name h n u cs ls : ~ In name (map c_name cs) ->
  add_cell name (mkgdb h n u cs ls) = mkgdb h n u (cs ++ [mkcell name []]) ls.
Proof.
  intros H. unfold add_cell; cbn [db_cells db_header db_lib db_units db_layers].
  destruct (existsb _ cs) eqn:E; [|reflexivity]. exfalso. apply H.
  apply existsb_exists in E as (c & Hc & He). destruct (gstr_eqb_spec (c_name c) name); [|discriminate].
  subst. now apply in_map.
Qed.

Lemma read_struct s st h n u cs ls : Forall element_ok (st_els s) ->
  ~ In (text_of (st_name s)) (map c_name cs) ->
  read_events (mkrstate st temp0 (mkgdb h n u cs ls)) (events (struct_recs s)) =
  Ok (mkrstate BGNLIB temp0 (mkgdb h n u (cs ++ [struct_cell s])
       (fold_left (fun a e => ins (layer_of e) a) (st_els s) ls))).
Proof.
  intros Hels Hn. unfold struct_recs. rewrite read_events_cons.
  unfold event_step. cbn [rec_event g_body g_type read_event].
  change (read_integer (mkrstate st temp0 (mkgdb h n u cs ls)) BGNSTR (repeat 0 12)) with
    (Ok (mkrstate BGNSTR temp0 (mkgdb h n u cs ls))).
  cbn [bind]. rewrite read_events_cons. unfold event_step. cbn [rec_event g_body g_type read_event].
  change (read_string (mkrstate BGNSTR temp0 (mkgdb h n u cs ls)) STRNAME (text_of (st_name s))) with
    (Ok (mkrstate BGNSTR temp0 (add_cell (text_of (st_name s)) (mkgdb h n u cs ls)))).
  cbn [bind]. rewrite add_cell_new by exact Hn.
  rewrite events_app, read_events_app, read_elements by exact Hels. reflexivity.
Qed.

Lemma read_structs ss st h n u cs ls :
  Forall (fun s => Forall element_ok (st_els s)) ss ->
  NoDup (map c_name cs ++ map (fun s => text_of (st_name s)) ss) ->
  exists st', read_events (mkrstate st temp0 (mkgdb h n u cs ls)) (events (flat_map struct_recs ss)) =
  Ok (mkrstate st' temp0 (mkgdb h n u (cs ++ map struct_cell ss)
       (fold_left (fun a e => ins (layer_of e) a) (flat_map st_els ss) ls))).
Proof.
  intros H. revert st cs ls; induction H as [|s ss Hs Hss IH]; intros st cs ls Hnd.
  - exists st. cbn. rewrite app_nil_r. reflexivity.
  - cbn [flat_map map] in *.
    rewrite events_app, read_events_app, read_struct.
    + cbn [bind]. destruct (IH BGNLIB (cs ++ [struct_cell s]) (fold_left (fun a e => ins (layer_of e) a) (st_els s) ls)) as [st' E].
      * rewrite map_app. cbn [map struct_cell c_name]. rewrite <- app_assoc. exact Hnd.
      * exists st'. rewrite E, <- app_assoc, fold_left_app. reflexivity.
    + exact Hs.
    + apply NoDup_remove_2 in Hnd. intros Hin. apply Hnd. apply in_or_app. now left.
Qed.

Lemma fold_ins_In x els ls :
  In x (fold_left (fun a e => ins (layer_of e) a) els ls) <-> In x ls \/ exists e, In e els /\ x = layer_of e.
Proof.
  revert ls; induction els as [|e els IH]; intros ls; cbn [fold_left].
  - split; [now left|]. intros [H|(e & [] & _)]; exact H.
  - rewrite IH, ins_In. cbn [In]. split.
    + intros [[->|H]|(e' & H & ->)]; eauto.
    + intros [H|(e' & [<-|H] & ->)]; eauto.
Qed.

Lemma fold_ins_NoDup els ls : NoDup ls -> NoDup (fold_left (fun a e => ins (layer_of e) a) els ls).
Proof. revert ls; induction els as [|e els IH]; intros ls H; cbn [fold_left]; [exact H|]. apply IH. now apply ins_NoDup. Qed.

Definition attribute_okb (r : grec) : bool :=
  let t := g_type r in
  rec_okb r && negb (inb t control_records) &&
  (negb (inb t one_value) || negb (Nat.eqb (List.length (ints t r)) 0)) &&
  (negb (inb t [ANGLE; MAG]) || negb (Nat.eqb (List.length (reals t r)) 0)) &&
  (negb (t =? COLROW) || Nat.leb 2 (List.length (ints COLROW r))) &&
  (negb (t =? XY) || Nat.even (List.length (ints XY r))).

Lemma In_inb t l : In t l -> inb t l = true.
Proof. intros H. apply existsb_exists. exists t. split; [exact H|apply Z.eqb_refl]. Qed.

Lemma attribute_okb_ok r : attribute_okb r = true -> attribute_ok r.
Proof.
  unfold attribute_okb, attribute_ok. intros H.
  do 5 (let H' := fresh "K" in apply andb_prop in H as [H H']).
  split; [now apply rec_okb_ok|]. split; [|split; [|split; [|split]]].
  - intros Hin. apply In_inb in Hin. rewrite Hin in *. cbn in *. congruence.
  - intros Hin. apply In_inb in Hin. rewrite Hin in *. cbn in *. intros E. rewrite E in *. discriminate.
  - intros Hin. apply In_inb in Hin. rewrite Hin in *. cbn [negb orb] in *. intros E. rewrite E in *. discriminate.
  - intros E. rewrite (proj2 (Z.eqb_eq _ _) E) in *. cbn [negb orb] in *. apply Nat.leb_le. assumption.
  - intros E. rewrite (proj2 (Z.eqb_eq _ _) E) in *. cbn [negb orb] in *. apply Nat.even_spec in K as [h Hh]. exists h. exact Hh.
Qed.

Definition element_okb (e : element) : bool :=
  inb (el_kind e) [BOX; BOUNDARY; PATH; TEXT; SREF; AREF; NODE; TEXTNODE] &&
  forallb attribute_okb (el_body e) &&
  (negb (inb (el_kind e) [TEXT; SREF]) || negb (Nat.eqb (List.length (all_points (el_body e))) 0)).

Lemma element_okb_ok e : element_okb e = true -> element_ok e.
Proof.
  unfold element_okb, element_ok. intros H.
  apply andb_prop in H as [H H3]. apply andb_prop in H as [H1 H2].
  split; [now apply inb_In|]. split; [now apply (forallb_Forall _ _ _ attribute_okb_ok)|].
  intros Hin. apply In_inb in Hin. rewrite Hin in *. cbn [negb orb] in *. intros E. rewrite E in *. discriminate.
Qed.

Lemma elements_okb_ok es : forallb element_okb es = true -> Forall element_ok es.
Proof. apply forallb_Forall. apply element_okb_ok. Qed.
