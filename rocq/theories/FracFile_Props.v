(** C149, C150, C151: the metal fraction mapping of a layout and the files it writes. *)
From Coq Require Import Ascii.
From Verif Require Import Base QSum Names_Model Text_Spec Text_Proofs Vtk_Model Profile_Proofs Fraction_Model Fraction_Spec Fraction_Props FracFile_Model FracFile_Spec FracFile_Proofs.
Close Scope Q_scope.
Open Scope string_scope.
Open Scope nat_scope.
Open Scope list_scope.

(** The layers of the stack-up *)
Definition stacked (y : layer) : bool := match y_stack y with Some _ => true | None => false end.

Section Generate.
  Context {polygon : Type} (cover : axis -> axis -> polygon -> list (nat * nat * Q)) (merge : list Z -> list (primitive (polygon := polygon)) -> list (primitive (polygon := polygon))).
  Context (tocoord : Q -> Z) (show9 show6 : Q -> string) (scale : Q) (prefix : string -> string).
  Notation generate := (generate cover merge tocoord show9 show6 scale prefix).

  Lemma generate_inv opened s lo hi ls ps o : generate opened s lo hi ls ps = Ok o ->
    exists ax ay, make_axis (fst lo) (fst hi) (tocoord (s_left s)) (tocoord (s_right s)) (Z.of_nat (s_nx s)) = Ok ax /\
      make_axis (snd lo) (snd hi) (tocoord (s_bot s)) (tocoord (s_top s)) (Z.of_nat (s_ny s)) = Ok ay /\
      o_prims o = (if s_merge s then merge (s_nets s) ps else ps) /\
      o_info o = mkMi (s_nx s) (s_ny s) (lo, hi) ((a_lo ax, a_lo ay), (a_hi ax, a_hi ay)) (a_stride ax, a_stride ay) (fst (map_layers cover s ax ay (o_prims o) ls)) /\
      o_maps o = snd (map_layers cover s ax ay (o_prims o) ls) /\
      (s_out s = "" -> o_ok o = true /\ o_files o = []) /\
      (s_out s <> "" -> o_ok o = opened /\ o_files o = snd (write_result show9 show6 scale opened (s_out s) (prefix (s_out s)) (o_info o) (o_maps o)) ++
        map (fun ig => (picture_name (prefix (s_out s)) (to_dec (fst ig)), CPicture (snd ig))) (combine (seq 0 (List.length (o_maps o))) (o_maps o))).
  Proof.
    unfold FracFile_Model.generate. destruct (make_axis (fst lo) _ _ _ _) as [ax| | |]; try discriminate. destruct (make_axis (snd lo) _ _ _ _) as [ay| | |]; try discriminate. cbn [bind].
    set (ps' := if s_merge s then merge (s_nets s) ps else ps). destruct (map_layers cover s ax ay ps' ls) as [fs gs] eqn:M.
    destruct (String.eqb_spec (s_out s) "") as [E|N]; intros H.
    - injection H as <-. exists ax, ay. cbn [o_prims o_info o_maps o_ok o_files]. rewrite M. repeat split; auto; intros; contradiction.
    - destruct (write_result show9 show6 scale opened (s_out s) (prefix (s_out s)) _ gs) as [ok files] eqn:W. injection H as <-. exists ax, ay. cbn [o_prims o_info o_maps o_ok o_files]. rewrite M. cbn [fst snd].
      repeat split; auto; try contradiction; [|now rewrite W]. unfold write_result in W. destruct opened; cbn [negb] in W; congruence.
  Qed.

  (** The mapping tells the box of the layout and the region: the box with the extensions, its upper bounds moved to a
      whole number of tiles, by at most half a coordinate per tile.  It has an entry and a map for every layer of the
      stack-up, in their order, and none for others. *)
  Theorem C149_region : forall opened s lo hi ls ps o, generate opened s lo hi ls ps = Ok o -> 0 < s_nx s -> 0 < s_ny s ->
    (Z.of_nat (s_nx s) <= 2 * ((fst hi + tocoord (s_right s)) - (fst lo - tocoord (s_left s))))%Z ->
    (Z.of_nat (s_ny s) <= 2 * ((snd hi + tocoord (s_top s)) - (snd lo - tocoord (s_bot s))))%Z ->
    let f := o_info o in
    i_nx f = s_nx s /\ i_ny f = s_ny s /\ i_origin f = (lo, hi) /\
    fst (i_ext f) = (fst lo - tocoord (s_left s), snd lo - tocoord (s_bot s))%Z /\
    fst (snd (i_ext f)) = (fst (fst (i_ext f)) + fst (i_stride f) * Z.of_nat (s_nx s))%Z /\ snd (snd (i_ext f)) = (snd (fst (i_ext f)) + snd (i_stride f) * Z.of_nat (s_ny s))%Z /\
    (0 < fst (i_stride f))%Z /\ (0 < snd (i_stride f))%Z /\
    (2 * Z.abs (fst (snd (i_ext f)) - (fst hi + tocoord (s_right s))) <= Z.of_nat (s_nx s))%Z /\
    (2 * Z.abs (snd (snd (i_ext f)) - (snd hi + tocoord (s_top s))) <= Z.of_nat (s_ny s))%Z.
  Proof.
    intros opened s lo hi ls ps o H NX NY LX LY. destruct (generate_inv _ _ _ _ _ _ _ H) as (ax & ay & AX & AY & _ & F & _). cbn zeta. rewrite F. cbn [i_nx i_ny i_origin i_ext i_stride fst snd].
    destruct (C57_region _ _ _ _ _ _ (proj1 (Nat2Z.inj_lt 0 _) NX) LX AX) as ((P1 & P2 & P3) & Q1 & Q2 & Q3). destruct (C57_region _ _ _ _ _ _ (proj1 (Nat2Z.inj_lt 0 _) NY) LY AY) as ((R1 & R2 & R3) & S1 & S2 & S3).
    rewrite Q2 in P3. rewrite S2 in R3. repeat split; auto; try lia. now rewrite Q1, S1.
  Qed.

  Theorem C149_layers : forall opened s lo hi ls ps o, generate opened s lo hi ls ps = Ok o ->
    Forall2 (fun y l => y_stack y = Some (n_elev l, n_thick l) /\ n_metal l = y_cond y /\ n_name l = y_name y) (filter stacked ls) (i_layers (o_info o)) /\
    List.length (o_maps o) = List.length (i_layers (o_info o)).
  Proof.
    intros opened s lo hi ls ps o H. destruct (generate_inv _ _ _ _ _ _ _ H) as (ax & ay & _ & _ & _ & F & M & _). rewrite F, M. cbn [i_layers].
    split; [apply map_layers_infos|apply map_layers_length].
  Qed.

  (** The map of the k-th of them holds, tile by tile, the metal of the primitives on that layer and the selected nets - all
      nets if none is selected - outlines less holes, between 0 and 1.  The primitives are those of the layout, or what the
      merge left of them, and that is also what the layout has afterwards. *)
  Theorem C149_values : forall opened s lo hi ls ps o, generate opened s lo hi ls ps = Ok o ->
    o_prims o = (if s_merge s then merge (s_nets s) ps else ps) /\
    exists ax ay,
      (a_lo ax, a_lo ay, a_hi ax, a_hi ay, a_stride ax, a_stride ay) =
        (fst (fst (i_ext (o_info o))), snd (fst (i_ext (o_info o))), fst (snd (i_ext (o_info o))), snd (snd (i_ext (o_info o))), fst (i_stride (o_info o)), snd (i_stride (o_info o))) /\
      forall k y g i j, nth_error (filter stacked ls) k = Some y -> nth_error (o_maps o) k = Some g -> y_id y <> (-1)%Z -> i < s_nx s -> j < s_ny s ->
        is_clamp (sumf (metal (cover ax ay) i j) (filter (counts (y_id y) (s_nets s)) (o_prims o))) (g i j).
  Proof.
    intros opened s lo hi ls ps o H. destruct (generate_inv _ _ _ _ _ _ _ H) as (ax & ay & _ & _ & P & F & M & _). split; [exact P|]. exists ax, ay. rewrite F. cbn [i_ext i_stride fst snd]. split; [reflexivity|].
    intros k y g i j Y G N I J. rewrite M, map_layers_maps in G.
    assert (E := map_nth_error (fun y => layer_fraction (cover ax ay) (s_nx s) (s_ny s) (y_id y) (s_nets s) (o_prims o)) k (filter stacked ls) Y).
    assert (g = layer_fraction (cover ax ay) (s_nx s) (s_ny s) (y_id y) (s_nets s) (o_prims o)) as -> by (unfold stacked in E; congruence).
    now apply C57_value.
  Qed.

  (** No tiles in a direction: a length is divided by zero. *)
  Theorem C149_no_tiles_is_ub : forall opened s lo hi ls ps, s_nx s = 0 \/ s_ny s = 0 -> generate opened s lo hi ls ps = UB.
  Proof.
    intros opened s lo hi ls ps [H|H]; unfold FracFile_Model.generate; rewrite H; unfold make_axis; cbn [Z.of_nat Z.eqb bind]; [reflexivity|].
    destruct (Z.of_nat (s_nx s) =? 0)%Z; reflexivity.
  Qed.

  (** Without a file name nothing is written; with one that can not be opened the mapping fails, but the maps are there and
      the pictures numbered by layer are written all the same. *)
  Theorem C149_reported : forall opened s lo hi ls ps o, generate opened s lo hi ls ps = Ok o ->
    (o_ok o = true <-> s_out s = "" \/ opened = true) /\ (s_out s = "" -> o_files o = []) /\
    forall opened' o', generate opened' s lo hi ls ps = Ok o' -> o_info o' = o_info o /\ o_maps o' = o_maps o.
  Proof.
    intros opened s lo hi ls ps o H. destruct (generate_inv _ _ _ _ _ _ _ H) as (ax & ay & AX & AY & P & F & M & E & N). split; [|split].
    - destruct (string_dec (s_out s) "") as [D|D]; [destruct (E D) as [-> _]; tauto|]. destruct (N D) as [-> _]. tauto.
    - intros D. apply E, D.
    - intros opened' o' H'. destruct (generate_inv _ _ _ _ _ _ _ H') as (ax' & ay' & AX' & AY' & P' & F' & M' & _). rewrite AX in AX'. rewrite AY in AY'. injection AX' as <-. injection AY' as <-.
      rewrite F, F', M, M', P, P'. auto.
  Qed.

  Lemma numbered_pictures p (gs : list grid) k g : nth_error gs k = Some g ->
    found (picture_name p (to_dec k)) (map (fun ig => (picture_name p (to_dec (fst ig)), CPicture (snd ig))) (combine (seq 0 (List.length gs)) gs)) = Some (CPicture g).
  Proof.
    intros H. assert (K : k < List.length gs) by (apply nth_error_Some; congruence). apply (found_nth _) with (k := k).
    - rewrite map_map. cbn [fst]. rewrite (map_fst_combine (fun i => picture_name p (to_dec i))) by apply seq_length. apply nodup_map; [|apply seq_NoDup]. intros a b E. now apply picture_name_inj, to_dec_inj in E.
    - apply (map_nth_error (fun ig : nat * grid => (picture_name p (to_dec (fst ig)), CPicture (snd ig))) k _ (d := (k, g))). apply nth_combine; [|exact H].
      rewrite (nth_error_nth' _ 0) by (now rewrite seq_length). now rewrite seq_nth by exact K.
  Qed.
  (** In the end the picture with the number of a layer in the stack-up shows the map of that layer. *)
  Theorem C151_numbered_pictures : forall opened s lo hi ls ps o, generate opened s lo hi ls ps = Ok o -> s_out s <> "" ->
    forall k g, nth_error (o_maps o) k = Some g -> found (prefix (s_out s) ++ "_" ++ to_dec k ++ ".png") (o_files o) = Some (CPicture g).
  Proof.
    intros opened s lo hi ls ps o H D k g G. destruct (generate_inv _ _ _ _ _ _ _ H) as (ax & ay & _ & _ & _ & _ & _ & _ & N). destruct (N D) as [_ ->].
    rewrite found_app. change (prefix (s_out s) ++ "_" ++ to_dec k ++ ".png")%string with (picture_name (prefix (s_out s)) (to_dec k)). now rewrite (numbered_pictures (prefix (s_out s)) _ _ _ G).
  Qed.
  (** The same for the picture with its name, if the layers have different names and none has the number of one.  Missing:
      other names, [C151_picture_lost_refuted]. *)
  Theorem C151_named_pictures_partial : forall s lo hi ls ps o, generate true s lo hi ls ps = Ok o -> s_out s <> "" ->
    NoDup (map n_name (i_layers (o_info o))) -> (forall l k, In l (i_layers (o_info o)) -> k < List.length (o_maps o) -> n_name l <> to_dec k) ->
    forall k l g, nth_error (i_layers (o_info o)) k = Some l -> nth_error (o_maps o) k = Some g -> found (prefix (s_out s) ++ "_" ++ n_name l ++ ".png") (o_files o) = Some (CPicture g).
  Proof.
    intros s lo hi ls ps o H D ND NN k l g L G. destruct (generate_inv _ _ _ _ _ _ _ H) as (ax & ay & _ & _ & _ & _ & _ & _ & N). destruct (N D) as [_ ->].
    change (prefix (s_out s) ++ "_" ++ n_name l ++ ".png")%string with (picture_name (prefix (s_out s)) (n_name l)).
    destruct (C149_layers _ _ _ _ _ _ _ H) as [_ LL]. rewrite found_app, found_none.
    - unfold write_result. cbn [negb snd]. rewrite found_cons, (found_nth _) with (k := k) (x := CPicture g); [reflexivity|..].
      + rewrite map_map. cbn [fst]. rewrite (map_fst_combine (fun l => picture_name (prefix (s_out s)) (n_name l))) by congruence. rewrite <- (map_map n_name (picture_name (prefix (s_out s)))). apply nodup_map; [|exact ND]. intros a b. apply picture_name_inj.
      + apply (map_nth_error (fun lg : linfo * grid => (picture_name (prefix (s_out s)) (n_name (fst lg)), CPicture (snd lg))) k _ (d := (l, g))). now apply nth_combine.
    - rewrite map_map. cbn [fst]. rewrite (map_fst_combine (fun i => picture_name (prefix (s_out s)) (to_dec i))) by apply seq_length. intros I. apply in_map_iff in I as (i & E & I).
      apply picture_name_inj in E. apply in_seq in I. apply (NN l i); [eapply nth_error_In; exact L|lia|now symmetry].
  Qed.

  (** ** The result file *)
  Context (real : string -> option Q) (r9 r6 : Q -> Q).
  Context (W9 : forall q, word (show9 q)) (W6 : forall q, word (show6 q)) (R9 : forall q, real (show9 q) = Some (r9 q)) (R6 : forall q, real (show6 q) = Some (r6 q)).

  (** A result file can be read if the names of the layers are words and the width of a tile is printed with less than 12
      characters.  It tells the layers, the box, the region, the tiles and their size in units of the layout, and line
      x * ny + y is that of tile (x, y) with a value for every layer.  Missing: other names, [C150_blank_name_refuted]; wider
      tiles, [C150_wide_tiles_refuted]; numbers are those the printed words stand for. *)
  Theorem C150_result_file_partial : forall s lo hi ls ps o, generate true s lo hi ls ps = Ok o -> s_out s <> "" ->
    Forall (fun y => stacked y = true -> word (y_name y)) ls -> String.length (show9 (inject_Z (fst (i_stride (o_info o))) * scale)%Q) < 12 ->
    let f := o_info o in let unit := fun z => r9 (inject_Z z * scale)%Q in
    exists text pictures r, o_files o = (s_out s, CText text) :: pictures /\ (forall w, In w pictures -> exists g, snd w = CPicture g /\ In g (o_maps o)) /\
      read_result real text = Some r /\
      r_layers r = map (fun l => mkRl (n_name l) (if n_metal l then 1 else 0) (r9 (n_elev l * scale)%Q) (r9 (n_thick l * scale)%Q)) (i_layers f) /\
      r_origin r = map unit [fst lo; snd lo; fst hi; snd hi] /\
      r_ext r = map unit [fst (fst (i_ext f)); snd (fst (i_ext f)); fst (snd (i_ext f)); snd (snd (i_ext f))] /\
      r_nx r = s_nx s /\ r_ny r = s_ny s /\ r_res r = map unit [fst (i_stride f); snd (i_stride f)] /\
      List.length (r_values r) = s_nx s * s_ny s /\
      forall x y, x < s_nx s -> y < s_ny s -> nth_error (r_values r) (x * s_ny s + y) = Some (mkRv x y (map (fun g : grid => r6 (g x y)) (o_maps o))).
  Proof.
    intros s lo hi ls ps o H D HN HL f unit. destruct (generate_inv _ _ _ _ _ _ _ H) as (ax & ay & _ & _ & _ & F & _ & _ & N). destruct (N D) as [_ FS]. destruct (C149_layers _ _ _ _ _ _ _ H) as [F2 LL].
    assert (WN : Forall (fun l => word (n_name l)) (i_layers f)).
    { apply Forall_forall. intros l I. unfold f in I. apply In_nth_error in I as [k K]. assert (exists y, In y (filter stacked ls) /\ n_name l = y_name y) as (y & Y & ->).
      { clear - F2 K. revert k K. induction F2 as [|y x ys xs (_ & _ & E) F2 IH]; intros [|k] K; cbn in K; try discriminate; [injection K as <-; exists y; split; [now left|exact E]|]. destruct (IH k K) as (z & ? & ?). exists z. split; [now right|assumption]. }
      apply filter_In in Y as [Y S]. rewrite Forall_forall in HN. now apply HN. }
    assert (RD := read_words_ok show9 show6 scale real r9 r6 R9 R6 (result_text show9 show6 scale f (o_maps o)) f (o_maps o)
      (words_result show9 show6 scale W9 W6 f (o_maps o) _ WN (words_resolution show9 scale W9 _ _ HL)) LL).
    unfold write_result in FS. cbn [negb snd app] in FS. do 2 eexists. eexists. split; [exact FS|]. split; [|split; [exact RD|]].
    - intros w I. apply in_app_iff in I as [I|I]; apply in_map_iff in I as ([a g] & <- & I); exists g; (split; [reflexivity|]); apply in_combine_r in I; exact I.
    - cbn [r_layers r_origin r_ext r_nx r_ny r_res r_values]. assert (OR : i_origin f = (lo, hi)) by (unfold f; now rewrite F). assert (NX : i_nx f = s_nx s) by (unfold f; now rewrite F). assert (NY : i_ny f = s_ny s) by (unfold f; now rewrite F).
      rewrite OR, NX, NY. do 6 (split; [reflexivity|]). split; [rewrite map_length; apply tiles_length|].
      intros x y X Y. apply (map_nth_error (fun t : nat * nat => mkRv (fst t) (snd t) (map (fun g : grid => r6 (g (fst t) (snd t))) (o_maps o))) _ _ (d := (x, y))).
      unfold tiles. exact (nth_tiles (fun i j => (i, j)) (s_nx s) (s_ny s) x y X Y).
  Qed.

  (** There is no blank between RESOLUTION and the width of a tile: a width that is printed with 12 characters or more - 10
      units or more - is glued to the word before, and the file can not be read. *)
  Theorem C150_wide_tiles_refuted : forall s lo hi ls ps o, generate true s lo hi ls ps = Ok o -> s_out s <> "" ->
    Forall (fun y => stacked y = true -> word (y_name y)) ls -> 12 <= String.length (show9 (inject_Z (fst (i_stride (o_info o))) * scale)%Q) ->
    exists text pictures, o_files o = (s_out s, CText text) :: pictures /\ read_result real text = None /\
      In ("RESOLUTION" ++ show9 (inject_Z (fst (i_stride (o_info o))) * scale)%Q)%string (words text).
  Proof.
    intros s lo hi ls ps o H D HN HL. destruct (generate_inv _ _ _ _ _ _ _ H) as (ax & ay & _ & _ & _ & F & _ & _ & N). destruct (N D) as [_ FS]. destruct (C149_layers _ _ _ _ _ _ _ H) as [F2 LL].
    assert (WN : Forall (fun l => word (n_name l)) (i_layers (o_info o))).
    { apply Forall_forall. intros l I. apply In_nth_error in I as [k K]. assert (exists y, In y (filter stacked ls) /\ n_name l = y_name y) as (y & Y & ->).
      { clear - F2 K. revert k K. induction F2 as [|y x ys xs (_ & _ & E) F2 IH]; intros [|k] K; cbn in K; try discriminate; [injection K as <-; exists y; split; [now left|exact E]|]. destruct (IH k K) as (z & ? & ?). exists z. split; [now right|assumption]. }
      apply filter_In in Y as [Y S]. rewrite Forall_forall in HN. now apply HN. }
    assert (WW := words_result show9 show6 scale W9 W6 (o_info o) (o_maps o) _ WN (words_glued show9 scale W9 (fst (i_stride (o_info o))) (snd (i_stride (o_info o))) HL)).
    unfold write_result in FS. cbn [negb snd app] in FS. do 2 eexists. split; [exact FS|]. split.
    - apply (read_words_bad show9 show6 scale real r9 R9 _ _ _ _ _ WW). intros E.
      destruct (W9 (inject_Z (fst (i_stride (o_info o))) * scale)%Q) as [NE _]. apply NE. apply (append_cancel_l "RESOLUTION"). rewrite append_empty. exact E.
    - rewrite WW. unfold result_words. right. right. apply in_app_iff. right. right. apply in_app_iff. right. right. apply in_app_iff. right. right. right. right. apply in_app_iff. left. now left.
  Qed.
End Generate.
Print Assumptions C149_region.
Print Assumptions C149_layers.
Print Assumptions C149_values.
Print Assumptions C149_no_tiles_is_ub.
Print Assumptions C149_reported.
Print Assumptions C151_numbered_pictures.
Print Assumptions C151_named_pictures_partial.
Print Assumptions C150_result_file_partial.
Print Assumptions C150_wide_tiles_refuted.

(** ** Cases *)

(** Numbers that are not negative, printed with nine digits after the point, and read *)
Fixpoint zeros (n : nat) : string := match n with O => "" | S n' => String "0" (zeros n') end.
Definition ex_digits (q : Q) : string := let s := DecimalString.NilZero.string_of_uint (N.to_uint (Z.to_N (Qround.Qfloor (q * 1000000000 + (1 # 2))%Q))) in (zeros (10 - String.length s) ++ s)%string.
Definition ex_show9 (q : Q) : string := let s := ex_digits q in let n := String.length s - 9 in (substring 0 n s ++ "." ++ substring n 9 s)%string.
Fixpoint no_point (s : string) : string := match s with "" => "" | String c r => if Ascii.eqb c "." then no_point r else String c (no_point r) end.
Definition ex_real (w : string) : option Q := match DecimalString.NilZero.uint_of_string (no_point w) with Some u => Some (Qred (inject_Z (Z.of_N (N.of_uint u)) / 1000000000)) | None => None end.
Example ex_show9_ex : ex_show9 (1 # 8)%Q = "0.125000000" /\ ex_show9 12%Q = "12.000000000" /\ ex_real "0.125000000" = Some (1 # 8)%Q.
Proof. vm_compute. auto. Qed.

(** A polygon is a list of the tiles it covers; a layout with a box of 1000 to [w] by 0 to 8000 coordinates of a nanometer *)
Definition ex_cover (ax ay : axis) (p : list (nat * nat * Q)) := p.
Definition ex_merge (nets : list Z) (ps : list (primitive (polygon := list (nat * nat * Q)))) := ps.
Definition ex_layers (n0 n1 : string) : list layer := [mkLayer 0 n0 (Some (2000, 500)%Q) true; mkLayer 7 "outline" None false; mkLayer 1 n1 (Some (1500, 500)%Q) false].
Definition ex_prims : list (primitive (polygon := list (nat * nat * Q))) :=
  [Build_primitive 0 3 (Some ([(0, 0, 1%Q); (1, 0, 1%Q)], [[(1, 0, (1 # 4)%Q)]])); Build_primitive 0 4 (Some ([(0, 0, 1%Q)], [])); Build_primitive 1 3 (Some ([(1, 0, (1 # 2)%Q)], [])); Build_primitive 7 3 None].
Definition ex_set (nets : list Z) (out : string) : settings := mkSet false 2 1 1%Q 0%Q 1%Q 0%Q nets out.
Definition ex_gen (opened : bool) (out : string) (w : Z) (n0 n1 : string) := generate ex_cover ex_merge (fun q => Qround.Qfloor (q * 1000)) ex_show9 ex_show9 (1 # 1000) (fun o => ("./" ++ o)%string)
  opened (ex_set [3%Z] out) (1000, 0)%Z (w, 8000)%Z (ex_layers n0 n1) ex_prims.
Definition ex_see (r : res (outcome (polygon := list (nat * nat * Q)))) := match r with Ok o => Some (o_ok o, o_info o, map (fun g : grid => (Qred (g 0 0), Qred (g 1 0))) (o_maps o), map fst (o_files o)) | _ => None end.
Definition ex_text (r : res (outcome (polygon := list (nat * nat * Q)))) := match r with Ok o => match o_files o with (_, CText t) :: _ => read_result ex_real t | _ => None end | _ => None end.
Example C149_ex : ex_see (ex_gen true "mf" 15000 "top" "core") = Some (true,
  mkMi 2 1 ((1000, 0), (15000, 8000))%Z ((0, 0), (16000, 8000))%Z (8000, 8000)%Z [mkLi true 2000 500 "top"; mkLi false 1500 500 "core"], [(1, 3 # 4); (0, 1 # 2)]%Q,
  ["mf"; "./mf_top.png"; "./mf_core.png"; "./mf_0.png"; "./mf_1.png"]).
Proof. vm_compute. reflexivity. Qed.
Example C149_not_opened_ex : ex_see (ex_gen false "mf" 15000 "top" "core") = Some (false,
  mkMi 2 1 ((1000, 0), (15000, 8000))%Z ((0, 0), (16000, 8000))%Z (8000, 8000)%Z [mkLi true 2000 500 "top"; mkLi false 1500 500 "core"], [(1, 3 # 4); (0, 1 # 2)]%Q,
  ["./mf_0.png"; "./mf_1.png"]).
Proof. vm_compute. reflexivity. Qed.

(** A layer named like the number of another: its picture shows the other layer. *)
Theorem C151_picture_lost_refuted : exists o l g, ex_gen true "mf" 15000 "1" "core" = Ok o /\ nth_error (i_layers (o_info o)) 0 = Some l /\ nth_error (o_maps o) 0 = Some g /\
  exists g', found ("./mf_" ++ n_name l ++ ".png") (o_files o) = Some (CPicture g') /\ (g 0%nat 0%nat == 1)%Q /\ (g' 0%nat 0%nat == 0)%Q.
Proof.
  destruct (ex_gen true "mf" 15000 "1" "core") as [o| | |] eqn:E; try discriminate. exists o.
  assert (L : nth_error (i_layers (o_info o)) 0 = Some (mkLi true 2000 500 "1")) by (injection E as <-; reflexivity).
  assert (M : map (fun g : grid => (Qred (g 0 0), Qred (g 1 0))) (o_maps o) = [(1, 3 # 4); (0, 1 # 2)]%Q) by (injection E as <-; vm_compute; reflexivity).
  assert (E' := E). unfold ex_gen in E'. assert (K := C151_numbered_pictures ex_cover ex_merge _ _ _ _ _ _ _ _ _ _ _ _ E' ltac:(discriminate) 1).
  destruct (o_maps o) as [|g [|g' [|]]]; try discriminate. cbn [map] in M. injection M as A1 A2 A3 A4. exists (mkLi true 2000 500 "1"), g.
  split; [reflexivity|]. split; [exact L|]. split; [reflexivity|]. exists g'. split; [exact (K g' eq_refl)|].
  split; [rewrite <- (Qred_correct (g 0 0)), A1; reflexivity|rewrite <- (Qred_correct (g' 0 0)), A3; reflexivity].
Qed.
Print Assumptions C151_picture_lost_refuted.

Example C150_ex : ex_text (ex_gen true "mf" 15000 "top" "core") = Some (mkRf [mkRl "top" 1 2 (1 # 2); mkRl "core" 0 (3 # 2) (1 # 2)] [1; 0; 15; 8]%Q
  [0; 0; 16; 8]%Q 2 1 [8; 8]%Q [mkRv 0 0 [1%Q; 0%Q]; mkRv 1 0 [(3 # 4)%Q; (1 # 2)%Q]]).
Proof. vm_compute. reflexivity. Qed.
(** Tiles of 12 micrometer *)
Example C150_wide_ex : exists o, ex_gen true "mf" 23000 "top" "core" = Ok o /\ i_stride (o_info o) = (12000, 8000)%Z /\ ex_text (ex_gen true "mf" 23000 "top" "core") = None /\ String.length (ex_show9 (inject_Z 12000 * (1 # 1000))%Q) = 12.
Proof. eexists. split; [reflexivity|]. split; [reflexivity|]. split; vm_compute; reflexivity. Qed.

(** A name with a blank takes two words. *)
Theorem C150_blank_name_refuted : exists o, ex_gen true "mf" 15000 "top metal" "core" = Ok o /\ o_ok o = true /\ ex_text (Ok o) = None.
Proof. eexists. split; [reflexivity|]. split; [reflexivity|]. vm_compute. reflexivity. Qed.
Print Assumptions C150_blank_name_refuted.
