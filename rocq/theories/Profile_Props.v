(** C124: the density profiles list the densities of the tiles. *)
From Coq Require Import QArith Ascii.
From Verif Require Import Base Names_Model Text_Spec Text_Proofs Vtk_Model Vtk_Proofs Profile_Model Profile_Spec Profile_Proofs.
Close Scope Q_scope.
Open Scope string_scope.
Open Scope nat_scope.
Open Scope list_scope.

(** The names in a profile *)
Definition shown_names (l : list string) (empty : nat -> string) : list string :=
  map (fun ni => if String.eqb (fst ni) "" then empty (snd ni) else fst ni) (combine l (seq 0 (List.length l))).
Lemma names_shown l : forall i, names_from i l = map (fun ni => if String.eqb (fst ni) "" then ("LAYER" ++ to_dec (snd ni))%string else fst ni) (combine l (seq i (List.length l))).
Proof. induction l as [|n l IH]; intros i; [reflexivity|]. cbn [names_from List.length seq combine map fst snd]. now rewrite IH. Qed.

(** A profile of a mapped layout can be read if no layer has a name with blanks.  It tells the region, the tiles and the
    layers; the row x * ny + y is that of tile (x, y): its number, its box - which begins where the one before ends, the last
    one at the edge of the region - and the density of every layer.  Missing: names with blanks, [C124_blank_name_refuted];
    numbers are those the printed words stand for. *)
Theorem C124_thermal_profile_partial : forall show real rnd um, (forall q, word (show q)) -> (forall q, real (show q) = Some (rnd q)) ->
  forall f mf, Forall (fun n => solid n = true) (f_layers f) -> List.length mf = List.length (f_layers f) ->
  fst (f_hi f) = (fst (f_lo f) + fst (f_stride f) * Z.of_nat (f_nx f))%Z -> snd (f_hi f) = (snd (f_lo f) + snd (f_stride f) * Z.of_nat (f_ny f))%Z ->
  exists text p, thermal_profile show um true true f mf = (true, Some text) /\ read_profile real text = Some p /\
    profile_of rnd rnd rnd (fun i => um (fst (f_lo f) + fst (f_stride f) * Z.of_nat i)%Z) (fun j => um (snd (f_lo f) + snd (f_stride f) * Z.of_nat j)%Z)
      (f_nx f) (f_ny f) None (shown_names (f_layers f) (fun i => "LAYER" ++ to_dec i)%string) mf p.
Proof.
  intros show real rnd um Hs Hr f mf HN HL HX HY. exists (thermal_text show um f mf).
  set (xs := fun i => um (fst (f_lo f) + fst (f_stride f) * Z.of_nat i)%Z). set (ys := fun j => um (snd (f_lo f) + snd (f_stride f) * Z.of_nat j)%Z).
  assert (NM : shown_names (f_layers f) (fun i => "LAYER" ++ to_dec i)%string = names_from 0 (f_layers f)) by (rewrite names_shown; reflexivity).
  rewrite NM. assert (WN := word_names 0 (f_layers f) HN). assert (LN := names_length 0 (f_layers f)).
  assert (X0 : xs 0 = um (fst (f_lo f))) by (unfold xs; f_equal; lia). assert (Y0 : ys 0 = um (snd (f_lo f))) by (unfold ys; f_equal; lia).
  assert (X1 : xs (f_nx f) = um (fst (f_hi f))) by (unfold xs; now rewrite HX). assert (Y1 : ys (f_ny f) = um (snd (f_hi f))) by (unfold ys; now rewrite HY).
  destruct (read_words real show show show rnd rnd rnd Hr Hr Hr (thermal_text show um f mf) xs ys (f_nx f) (f_ny f) None (names_from 0 (f_layers f)) mf) as (p & RP & PO).
  - unfold thermal_text, profile_words. rewrite (words_eol "# Version 3.0"), (words_sp "# DIE"), !(words_sp (show _)), (words_eol (show _)), (words_sp "# TILE"), (words_sp (to_dec _)), (words_eol (to_dec _)), (words_sp "# LAYER").
    rewrite <- (append_assoc (to_dec (List.length (f_layers f)))), <- (append_assoc "# TileID X1(um) Y1(um) X2(um) Y2(um)").
    rewrite !words_eol. unfold columns. rewrite !(words_list _ _ WN), !words_dec, !(words_word _ (Hs _)).
    rewrite (words_rows (tile_line show um f mf) (row_words show show xs ys (f_ny f) mf) (fun i j => (i, j))).
    + cbn [map scale_words app]. rewrite X0, Y0, X1, Y1, LN. reflexivity.
    + intros i j. split.
      * unfold tile_line, row_words. cbn [fst snd]. rewrite (words_sp (to_dec _)), !(words_sp (show _)), <- append_assoc, words_end.
        rewrite (words_list_map (fun d : density => show (d i j))) by auto. rewrite words_dec, !(words_word _ (Hs _)). cbn [map app].
        replace (xs (S i)) with (um (fst (f_lo f) + fst (f_stride f) * Z.of_nat i + fst (f_stride f))%Z) by (unfold xs; f_equal; lia).
        replace (ys (S j)) with (um (snd (f_lo f) + snd (f_stride f) * Z.of_nat j + snd (f_stride f))%Z) by (unfold ys; f_equal; lia). reflexivity.
      * unfold tile_line. rewrite <- !append_assoc. eexists. reflexivity.
  - now rewrite LN.
  - exists p. split; [|split; [exact RP|exact PO]]. unfold thermal_profile. rewrite HL, Nat.eqb_refl. reflexivity.
Qed.
Print Assumptions C124_thermal_profile_partial.

(** The same for a profile of a grid model in which every layer has a metal fraction; the region is that of the unscaled
    model, and the scale is told. *)
Theorem C124_txt_profile_partial : forall show showf real rnd rndf, (forall q, word (show q)) -> (forall q, word (showf q)) ->
  (forall q, real (show q) = Some (rnd q)) -> (forall q, real (showf q) = Some (rndf q)) ->
  (forall a b, a == b -> show a = show b)%Q -> (forall a b, a == b -> showf a = showf b)%Q ->
  forall m mf, Forall (fun l => solid (fst l) = true) (g_layers m) -> map snd (g_layers m) = map Some mf ->
  exists text p, txt_profile show showf true m = (true, Some text) /\ read_profile real text = Some p /\
    profile_of rndf rnd rndf (fun i => (fst (g_ref m) + fst (g_res m) * inject_Z (Z.of_nat i)) * 1000000)%Q
      (fun j => (snd (g_ref m) + snd (g_res m) * inject_Z (Z.of_nat j)) * 1000000)%Q
      (g_nx m) (g_ny m) (Some (rndf (g_scale m))) (shown_names (map fst (g_layers m)) (fun _ => "Unknown")) mf p.
Proof.
  intros show showf real rnd rndf Ws Wf Rs Rf Es Ef m mf HN HM.
  set (xs := fun i => ((fst (g_ref m) + fst (g_res m) * inject_Z (Z.of_nat i)) * 1000000)%Q).
  set (ys := fun i => ((snd (g_ref m) + snd (g_res m) * inject_Z (Z.of_nat i)) * 1000000)%Q).
  assert (FR : forall ls mf i, Forall (fun l => solid (fst l) = true) ls -> map snd ls = map Some mf ->
    fractions ls = Some (map (fun ni => if String.eqb (fst ni) "" then "Unknown" else fst ni) (combine (map fst ls) (seq i (List.length (map fst ls)))), mf) /\
    Forall word (map (fun ni : string * nat => if String.eqb (fst ni) "" then "Unknown" else fst ni) (combine (map fst ls) (seq i (List.length (map fst ls))))) /\
    List.length ls = List.length mf).
  { clear. induction ls as [|[n o] ls IH]; intros [|d mf] i F E; cbn [map] in E; try discriminate; [repeat split; constructor|]. injection E as E1 E2. cbn [snd] in E1.
    inversion F as [|? ? Fn Fls]; subst. destruct (IH mf (S i) Fls E2) as (A & B & C). cbn [fractions map fst List.length seq combine snd]. rewrite A.
    split; [reflexivity|]. split; [|now rewrite C]. constructor; [|exact B]. cbn [fst] in Fn. destruct (String.eqb_spec n ""); split; try assumption; try discriminate; reflexivity. }
  destruct (FR (g_layers m) mf 0 HN HM) as (A & WN & LN). fold (shown_names (map fst (g_layers m)) (fun _ => "Unknown")) in A, WN.
  set (names := shown_names (map fst (g_layers m)) (fun _ => "Unknown")) in *.
  assert (LL : List.length names = List.length (g_layers m)) by (unfold names, shown_names; rewrite map_length, combine_length, seq_length, map_length; lia).
  unfold txt_profile. cbn [negb]. rewrite A. eexists.
  match goal with |- exists p, (true, Some ?t) = _ /\ _ => set (text := t) end.
  destruct (read_words real showf show showf rndf rnd rndf Rf Rs Rf text xs ys (g_nx m) (g_ny m) (Some (g_scale m)) names mf) as (p & RP & PO).
  - unfold text, txt_head, profile_words. rewrite !append_assoc.
    rewrite (words_eol "# Version 3.0"), (words_sp "# DIE"), !(words_sp (showf _)), (words_eol (showf _)), (words_sp "# TILE"), (words_sp (to_dec _)), (words_eol (to_dec _)), (words_sp "# SCALE_FACTOR"), (words_eol (showf _)), (words_sp "# LAYER").
    rewrite <- (append_assoc (to_dec (List.length (g_layers m)))), <- (append_assoc "# TileID X1(um) Y1(um) X2(um) Y2(um)").
    rewrite !words_eol. unfold columns. rewrite !(words_list _ _ WN), !words_dec, !(words_word _ (Wf _)).
    rewrite (words_rows (txt_line show showf m mf) (row_words show showf xs ys (g_ny m) mf) (fun i j => (i, j))).
    + cbn [map scale_words app]. rewrite LL.
      rewrite (Ef (micro (fst (g_ref m))) (xs 0)) by (unfold xs, micro; cbn [Z.of_nat]; ring). rewrite (Ef (micro (snd (g_ref m))) (ys 0)) by (unfold ys, micro; cbn [Z.of_nat]; ring). reflexivity.
    + intros i j. assert (NX : forall k, (inject_Z (Z.of_nat (S k)) == inject_Z (Z.of_nat k) + 1)%Q) by (intros k; rewrite Nat2Z.inj_succ, <- Z.add_1_r, inject_Z_plus; reflexivity).
      split.
      * unfold txt_line, row_words. cbn [fst snd]. rewrite (words_sp (to_dec _)), !(words_sp (show _)), <- append_assoc, words_end.
        rewrite (words_list_map (fun d : density => showf (d i j))) by auto. rewrite words_dec, !(words_word _ (Ws _)). cbn [map app].
        match goal with |- _ :: show ?b :: show ?c :: show ?d :: show ?e :: _ = _ => rewrite (Es b (xs i)), (Es c (ys j)), (Es d (xs (S i))), (Es e (ys (S j))) end; [reflexivity|..];
          unfold xs, ys, micro; rewrite ?NX; ring.
      * unfold txt_line. rewrite <- !append_assoc. eexists. reflexivity.
  - rewrite LL. exact LN.
  - exists p. split; [reflexivity|]. split; [exact RP|exact PO].
Qed.
Print Assumptions C124_txt_profile_partial.

Definition ex_show (q : Q) : string := to_dec (Z.to_nat (Qnum (Qred q))).
Definition ex_real (w : string) : option Q := match number [w] with Some (n, _) => Some (inject_Z (Z.of_nat n)) | None => None end.
Definition ex_info (name : string) : info := mkInfo 2 1 (0, 0)%Z (20, 10)%Z (10, 10)%Z [name; ""].
Definition ex_mf : list density := [fun x _ => inject_Z (Z.of_nat x); fun _ _ => 7%Q].
Example C124_thermal_ex : read_profile ex_real (thermal_text ex_show inject_Z (ex_info "top") ex_mf) =
  Some (mkProf [0; 0; 20; 10]%Q 2 1 None ["top"; "LAYER1"] [mkRow 1 [0; 0; 10; 10]%Q [0; 7]%Q; mkRow 2 [10; 0; 20; 10]%Q [1; 7]%Q]).
Proof. vm_compute. reflexivity. Qed.
Definition ex_grid (d : option density) : gmodel := mkG (0, 0)%Q (1 # 1000000, 1 # 1000000)%Q 1%Q 2 1 [("a", Some (fun _ _ => 3%Q)); ("", d)].
Example C124_txt_ex : read_profile ex_real (match snd (txt_profile ex_show ex_show true (ex_grid (Some (fun x _ => inject_Z (Z.of_nat x))))) with Some t => t | None => "" end) =
  Some (mkProf [0; 0; 2; 1]%Q 2 1 (Some 1%Q) ["a"; "Unknown"] [mkRow 1 [0; 0; 1; 1]%Q [3; 0]%Q; mkRow 2 [1; 0; 2; 1]%Q [3; 1]%Q]).
Proof. vm_compute. reflexivity. Qed.

(** The name of a layer is free, but one with a blank takes two columns: the file can not be read any more. *)
Theorem C124_blank_name_refuted : exists f mf, List.length mf = List.length (f_layers f) /\
  fst (f_hi f) = (fst (f_lo f) + fst (f_stride f) * Z.of_nat (f_nx f))%Z /\ snd (f_hi f) = (snd (f_lo f) + snd (f_stride f) * Z.of_nat (f_ny f))%Z /\
  exists text, thermal_profile ex_show inject_Z true true f mf = (true, Some text) /\ read_profile ex_real text = None.
Proof.
  exists (ex_info "top metal"), ex_mf. split; [reflexivity|]. split; [reflexivity|]. split; [reflexivity|].
  eexists. split; [unfold thermal_profile; cbn [negb List.length f_layers ex_info ex_mf Nat.eqb]; reflexivity|]. vm_compute. reflexivity.
Qed.
Print Assumptions C124_blank_name_refuted.

(** Layers that lack a name or a fraction, and failures *)

(** A profile with another number of layers than densities is refused before the file is touched. *)
Theorem C124_thermal_refused : forall show um dir opened f mf, thermal_profile show um dir opened f mf = (false, None) <->
  (List.length (f_layers f) <> List.length mf \/ dir && opened = false).
Proof.
  intros show um dir opened f mf. unfold thermal_profile. destruct (Nat.eqb_spec (List.length (f_layers f)) (List.length mf)) as [E|N]; cbn [negb].
  - destruct dir, opened; cbn [negb andb]; split; intros H; auto; try discriminate; destruct H as [H|H]; [contradiction|discriminate].
  - split; auto.
Qed.
Print Assumptions C124_thermal_refused.
Example C124_thermal_refused_ex : thermal_profile ex_show inject_Z true true (ex_info "top") [] = (false, None).
Proof. reflexivity. Qed.

(** A grid profile of a model with a layer without a fraction fails, but after the old file has been replaced by the first
    four lines. *)
Theorem C124_missing_fraction_fails : forall show showf m n, In (n, None) (g_layers m) ->
  txt_profile show showf true m = (false, Some (txt_head showf m)).
Proof.
  intros show showf m n H. unfold txt_profile. cbn [negb]. replace (fractions (g_layers m)) with (@None (list string * list density)); [reflexivity|].
  induction (g_layers m) as [|[a o] ls IH]; [contradiction|]. cbn [fractions]. destruct H as [[= -> ->]|H]; [reflexivity|]. destruct o; [|reflexivity]. now rewrite <- (IH H).
Qed.
Print Assumptions C124_missing_fraction_fails.
Example C124_missing_fraction_ex : In ("", None) (g_layers (ex_grid None)) /\
  words (txt_head ex_show (ex_grid None)) = ["#"; "Version"; "3.0"; "#"; "DIE"; "0"; "0"; "2"; "1"; "#"; "TILE"; "2"; "1"; "#"; "SCALE_FACTOR"; "1"].
Proof. split; [right; now left|vm_compute; reflexivity]. Qed.
