(** A layout exported as a chip thermal model. *)
From Coq Require Import Permutation Qround.
From Verif Require Import Base QSum Fraction_Model Fraction_Spec Fraction_Props GridExtract_Model LayoutCtm_Model LayoutCtm_Spec.
From Verif Require Grid_Model Grid_Spec GridExtract_Props CtmGrid_Model CtmGrid_Spec CtmGrid_Props CtmStack_Model Keyed_Model ThermalNetwork_Model.
Import CtmGrid_Model (chip, xmodel, mkx, x_layers, x_nx, x_ny, x_resx, x_resy, export, import, cc_res, cc_tx, cc_ty, cc_dens, cc_layers, cc_size, cc_head).
Import Grid_Model (g_layers, g_nx, g_ny, l_name, l_thick, l_mf, l_size, l_top, l_bot).
Import CtmGrid_Spec (linked_from, alternating).
Open Scope res_scope.
Open Scope Q_scope.

(** ** Lemmas *)
Lemma whole_axis lo hi el er k stride : (0 < k)%nat -> (0 < stride)%Z -> (hi + er - (lo - el) = Z.of_nat k * stride)%Z ->
  make_axis lo hi el er (Z.of_nat k) = Ok {| a_lo := lo - el; a_hi := (lo - el + stride * Z.of_nat k)%Z; a_tiles := Z.of_nat k; a_stride := stride |}.
Proof.
  intros Hk Hs E; unfold make_axis.
  replace (Z.of_nat k =? 0)%Z with false by (symmetry; apply Z.eqb_neq; lia). cbv zeta. rewrite E.
  assert (R : round_away (inject_Z (Z.of_nat k * stride) / inject_Z (Z.of_nat k)) = stride).
  { assert (D : inject_Z (Z.of_nat k * stride) / inject_Z (Z.of_nat k) == inject_Z stride).
    { rewrite inject_Z_mult. field. intros F. unfold Qeq, inject_Z in F; cbn in F. lia. }
    unfold round_away.
    replace (Qle_bool 0 (inject_Z (Z.of_nat k * stride) / inject_Z (Z.of_nat k))) with true.
    2:{ symmetry; apply Qle_bool_iff. rewrite D. change 0 with (inject_Z 0). rewrite <- Zle_Qle. lia. }
    assert (A : (stride <= Qfloor (inject_Z (Z.of_nat k * stride) / inject_Z (Z.of_nat k) + (1 # 2)))%Z).
    { rewrite <- (Qfloor_Z stride) at 1. apply Qfloor_resp_le. rewrite D. lra. }
    assert (B : (Qfloor (inject_Z (Z.of_nat k * stride) / inject_Z (Z.of_nat k) + (1 # 2)) < stride + 1)%Z).
    { rewrite Zlt_Qlt. eapply Qle_lt_trans; [apply Qfloor_le|]. rewrite D, inject_Z_plus. change (inject_Z 1) with 1. lra. }
    lia. }
  rewrite R. reflexivity.
Qed.

Lemma whole_tiles map_size k stride : fewest_tiles map_size -> (0 < k)%nat -> (0 < stride)%Z -> map_size (Z.of_nat k * stride)%Z stride = k.
Proof. intros F Hk Hs. destruct (F (Z.of_nat k * stride)%Z stride) as [A B]; nia. Qed.

Lemma linked_flags : forall ls fs a, List.length fs = List.length ls ->
  linked_from a (map (fun l => (l, false)) ls) -> linked_from a (combine ls fs).
Proof.
  induction ls as [|l ls IH]; intros [|f fs] a L; try discriminate; [auto|].
  cbn [map combine linked_from]. intros (A & B & C). split; [exact A|]. split; [|apply IH; [cbn in L; lia|exact C]].
  rewrite B. destruct ls as [|l2 ls], fs as [|f2 fs]; try discriminate; reflexivity.
Qed.

Lemma append_all_linked : forall ls m lm m' lm', linked_from ""%string (map (fun l => (l, false)) (g_layers m)) ->
  append_all m lm ls = Ok (m', lm') -> linked_from ""%string (map (fun l => (l, false)) (g_layers m')).
Proof.
  induction ls as [|l ls IH]; intros m lm m' lm' H; cbn [append_all]; [intros [= <- _]; exact H|].
  pose proof (CtmGrid_Props.append_linked m (layer_of l) H eq_refl eq_refl) as H'.
  destruct (Grid_Model.append_layer m (layer_of l)) as [m1 [i|]]; [|discriminate]. apply IH. exact H'.
Qed.

Lemma combine_nth {A B} : forall (xs : list A) (ys : list B) k x y, nth_error xs k = Some x -> nth_error ys k = Some y -> nth_error (combine xs ys) k = Some (x, y).
Proof. induction xs as [|a xs IH]; intros [|b ys] [|k] x y; try discriminate; cbn; [congruence|apply IH]. Qed.
Lemma combine_nth_inv {A B} : forall (xs : list A) (ys : list B) k x y, nth_error (combine xs ys) k = Some (x, y) -> nth_error xs k = Some x /\ nth_error ys k = Some y.
Proof. induction xs as [|a xs IH]; intros [|b ys] [|k] x y; try discriminate; cbn; [intros [= -> ->]; auto|apply IH]. Qed.

Section Common.
  Context {polygon : Type} (cover : axis -> axis -> polygon -> list (nat * nat * Q))
          (merge : list (primitive (polygon := polygon)) -> list (primitive (polygon := polygon)))
          (map_size : Z -> Z -> nat) (ne : Q -> Q -> bool) (meter : Q).

  (** The grid model the export goes through *)
  Lemma to_grid s l kx ky : fewest_tiles map_size -> 0 < meter -> (forall q, ne q q = false) -> fits s l kx ky ->
    exists ax ay m, tiles_of ax (fst (lo_ll l) - c_left s) (c_stride s) kx /\ tiles_of ay (snd (lo_ll l) - c_bot s) (c_stride s) ky /\
      proper ax /\ proper ay /\
      (let xm := mkx kx ky (inject_Z (c_stride s) * meter) (inject_Z (c_stride s) * meter) 1 (combine (g_layers m) (map st_metal (lo_stack l))) in
       exists c, export ne false xm = Some c /\
         to_ctm cover merge map_size ne meter s l = Ok (Some c, mkLay (lo_ll l) (lo_ur l) (lo_stack l) (merge (lo_prims l)))) /\
      linked_from ""%string (combine (g_layers m) (map st_metal (lo_stack l))) /\
      List.length (g_layers m) = List.length (lo_stack l) /\
      forall k t, nth_error (lo_stack l) k = Some t -> exists g, nth_error (g_layers m) k = Some g /\
        l_name g = st_name t /\ l_thick g = st_thick t * meter /\ l_size g = (kx, ky) /\
        l_mf g = layer_fraction (cover ax ay) kx ky (st_id t) (c_nets s) (merge (lo_prims l)) /\ Grid_Model.l_power g = [].
  Proof.
    intros F Hm Hne (Nm & Hx & Hy & Hs & Ex & Ey & Ni & Nn & Ht).
    unfold to_ctm. rewrite Nm. cbn [negb]. cbv zeta. rewrite Ex, Ey, !whole_tiles by assumption. unfold fractions.
    cbn [lo_ll lo_ur lo_stack lo_prims]. rewrite (whole_axis _ _ _ _ kx (c_stride s)), (whole_axis _ _ _ _ ky (c_stride s)) by assumption.
    cbn [bind snd fst].
    match goal with |- context [mkXL _ _ _ _ (layer_fraction (cover ?a ?b) _ _ _ _ _)] => set (ax := a); set (ay := b) end.
    match goal with |- context [extract_layers _ _ _ _ ?x] => set (ls := x) end.
    assert (R : Qle_bool 0 (inject_Z (c_stride s) * meter) = true).
    { apply Qle_bool_iff. apply Qmult_le_0_compat; [change 0 with (inject_Z 0); rewrite <- Zle_Qle; lia|lra]. }
    rewrite R.
    destruct (GridExtract_Props.append_all_good ls (Grid_Model.mkGrid kx ky (inject_Z (c_stride s) * meter) (inject_Z (c_stride s) * meter) 1 [] [] None None [] []) [])
      as (m & lm & E & C & X & Y & L & _ & _ & V).
    { unfold ls. rewrite map_map. exact Ni. }
    { reflexivity. }
    { intros x Hin. unfold ls in Hin. apply in_map_iff in Hin as (t & <- & Hin). cbn. split; [|reflexivity].
      apply Qmult_le_0_compat; [apply Ht, Hin|lra]. }
    { split; [intros ? []|intros [|i]; discriminate]. }
    assert (E' : extract_layers kx ky (inject_Z (c_stride s) * meter) (inject_Z (c_stride s) * meter) ls = Ok (m, lm)) by exact E.
    rewrite E'. cbn [bind fst]. cbn [Grid_Model.g_layers List.length Nat.add] in L, V. unfold ls in L; rewrite map_length in L.
    assert (V' : forall k t, nth_error (lo_stack l) k = Some t -> exists g, nth_error (g_layers m) k = Some g /\
        l_name g = st_name t /\ l_thick g = st_thick t * meter /\ l_size g = (kx, ky) /\
        l_mf g = layer_fraction (cover ax ay) kx ky (st_id t) (c_nets s) (merge (lo_prims l)) /\ Grid_Model.l_power g = []).
    { intros k t Hk. destruct (V k _ (map_nth_error _ _ _ Hk)) as [_ (g & Hg & S1 & S2 & S3 & S4 & S5)].
      exists g. rewrite S1, S2, S3, S4, S5. auto 8. }
    exists ax, ay, m. unfold ax, ay, tiles_of, proper. cbn [a_lo a_hi a_tiles a_stride].
    split; [auto|]. split; [auto|]. split; [lia|]. split; [lia|].
    split; [|split; [|split; [exact L|exact V']]].
    2:{ apply linked_flags; [rewrite map_length; auto|]. eapply append_all_linked; [|exact E]. exact I. }
    assert (Nn' : map (fun l0 => l_name (fst l0)) (combine (g_layers m) (map st_metal (lo_stack l))) = map st_name (lo_stack l)).
    { apply (nth_ext _ _ ""%string ""%string).
      - rewrite !map_length, combine_length, map_length. lia.
      - intros k Hk. rewrite map_length, combine_length, map_length in Hk.
        destruct (nth_error (lo_stack l) k) as [t|] eqn:Hn; [|apply nth_error_None in Hn; lia].
        destruct (V' k t Hn) as (g & Hg & Hname & _).
        rewrite (nth_error_nth _ _ ""%string (map_nth_error st_name _ _ Hn)).
        rewrite (nth_error_nth _ _ ""%string (map_nth_error (fun l0 => l_name (fst l0)) _ _ (combine_nth _ _ _ _ _ Hg (map_nth_error st_metal _ _ Hn)))).
        exact Hname. }
    destruct (proj2 (CtmGrid_Props.C103_export_iff ne false (mkx kx ky (inject_Z (c_stride s) * meter) (inject_Z (c_stride s) * meter) 1
      (combine (g_layers m) (map st_metal (lo_stack l)))))) as [c Hc].
    { cbn [x_resx x_resy x_layers]. split; [apply Hne|]. rewrite Nn'. exact Nn. }
    exists c. split; [exact Hc|]. rewrite Hc. reflexivity.
  Qed.
End Common.

(** The chip model has the tiles of the resolution that was asked for, starting at the lower left corner of the extended
    region, and tells for every layer and every such tile what the merged shapes of the selected nets cover of it.
    Missing for the full statement: a region that is not a whole number of tiles, see the refutation. *)
Theorem C125_exported_partial : forall {polygon} cover merge map_size ne meter (s : settings) (l : layout (polygon := polygon)) kx ky,
  fewest_tiles map_size -> 0 < meter -> (forall q, ne q q = false) -> fits s l kx ky ->
  exists c l' ax ay, to_ctm cover merge map_size ne meter s l = Ok (Some c, l') /\
    cc_res c == inject_Z (c_stride s) * meter * 1000000 /\
    fst (cc_size c) == inject_Z (Z.of_nat kx) * cc_res c /\ snd (cc_size c) == inject_Z (Z.of_nat ky) * cc_res c /\
    tiles_of ax (fst (lo_ll l) - c_left s) (c_stride s) kx /\ tiles_of ay (snd (lo_ll l) - c_bot s) (c_stride s) ky /\
    tells (cover ax ay) meter kx ky (c_nets s) (lo_stack l) (merge (lo_prims l)) c /\
    map CtmStack_Model.ml_name (CtmStack_Model.h_metal (cc_head c)) = map st_name (filter st_metal (lo_stack l)).
Proof.
  intros polygon cover merge map_size ne meter s l kx ky F Hm Hne Hf.
  destruct (to_grid cover merge map_size ne meter s l kx ky F Hm Hne Hf) as (ax & ay & m & Tx & Ty & _ & _ & (c & Hc & E) & _ & L & V).
  destruct (CtmGrid_Props.C103_export_describes _ _ _ _ Hc) as (_ & D1 & _ & D2 & D3 & D4 & _ & D5 & D6 & _ & D7 & _ & D8 & _).
  cbn [x_nx x_ny x_resx x_layers] in *.
  exists c, (mkLay (lo_ll l) (lo_ur l) (lo_stack l) (merge (lo_prims l))), ax, ay.
  split; [exact E|]. split; [exact D1|]. split; [exact D2|]. split; [exact D3|]. split; [exact Tx|]. split; [exact Ty|]. split.
  - split; [exact D4|]. split; [rewrite D5, combine_length, map_length; lia|].
    intros k t Hk. destruct (V k t Hk) as (g & Hg & V1 & V2 & V3 & V4 & V5).
    pose proof (combine_nth _ _ _ _ _ Hg (map_nth_error st_metal _ _ Hk)) as Hn. split.
    + destruct (D6 k g (st_metal t) Hn) as (cl & H1 & H2 & _ & H3 & _). exists cl.
      split; [exact H1|]. split; [rewrite H2; exact V1|]. rewrite H3, V2. reflexivity.
    + destruct (D8 g (st_metal t) (nth_error_In _ _ Hn)) as (gr & H1 & H2 & H3). exists gr.
      split; [rewrite <- V1; exact H1|]. split; [rewrite H2; exact V3|]. intros x y Hx Hy. rewrite H3, V4.
      apply C57_value; [|exact Hx|exact Hy]. destruct Hf as (_ & _ & _ & _ & _ & _ & _ & _ & Ht). apply (Ht t). apply nth_error_In in Hk. exact Hk.
  - rewrite D7. clear - V L. revert V L. generalize (g_layers m) as gs. induction (lo_stack l) as [|t ts IH]; intros [|g gs] V L; try discriminate; [reflexivity|].
    cbn [map combine filter snd]. assert (N : l_name g = st_name t) by (destruct (V 0%nat t eq_refl) as (g' & [= <-] & N & _); exact N).
    assert (IH' := IH gs (fun k t' Hk => V (S k) t' Hk) ltac:(cbn in L; lia)).
    destruct (st_metal t); cbn [map fst]; rewrite IH'; [rewrite N|]; reflexivity.
Qed.
Print Assumptions C125_exported_partial.

(** The smallest number of tiles, as a function *)
Definition up (len stride : Z) : nat := Z.to_nat ((len + stride - 1) / stride).
Lemma up_fewest : fewest_tiles up.
Proof.
  intros len stride Hl Hs. unfold up. assert (H : (0 <= (len + stride - 1) / stride)%Z) by (apply Z.div_pos; lia).
  rewrite Z2Nat.id by exact H. pose proof (Z.div_mod (len + stride - 1) stride ltac:(lia)). pose proof (Z.mod_pos_bound (len + stride - 1) stride Hs). nia.
Qed.

(** Strips of length one over the whole height of the first row, by where they start *)
Definition strip_cover (ax ay : axis) (p : Z) : list (nat * nat * Q) :=
  [(Z.to_nat ((p - a_lo ax) / a_stride ax), 0%nat, 1 / inject_Z (a_stride ax))].
Definition ex_stack : list stlayer := [mkSt 0 "top" 30 true; mkSt 1 "core" 100 false; mkSt 2 "bot" 20 true].
Definition ex_prims : list (primitive (polygon := Z)) :=
  [ {| pr_layer := 0; pr_net := 7; pr_shape := Some (8%Z, []) |}; {| pr_layer := 2; pr_net := 8; pr_shape := Some (9%Z, []) |} ].
Definition ex_layout (w : Z) : layout := mkLay (0, 0)%Z (w, 10)%Z ex_stack ex_prims.
Definition ex_settings (nets : list Z) : settings := mkSet true 10 0 0 0 0 nets.
Definition ex_ne (a b : Q) : bool := negb (Qeq_bool a b).
Lemma ex_ne_refl q : ex_ne q q = false.
Proof. unfold ex_ne. rewrite Qeq_bool_refl. reflexivity. Qed.
Definition density (r : res (option chip * layout (polygon := Z))) (n : string) (x y : nat) : option Q :=
  match r with
  | Ok (Some c, _) => match alookup String.eqb n (cc_dens c) with Some (Some g) => Some (Qred (Keyed_Model.gr_at g x y)) | _ => None end
  | _ => None
  end.
Definition resolution (r : res (option chip * layout (polygon := Z))) : option Q :=
  match r with Ok (Some c, _) => Some (Qred (cc_res c)) | _ => None end.

Example C125_ex : fits (ex_settings []) (ex_layout 20) 2 1 /\
  let r := to_ctm strip_cover (fun ps => ps) up ex_ne (1 # 1000000) (ex_settings []) (ex_layout 20) in
  resolution r = Some 10 /\ (density r "top" 0 0, density r "top" 1 0, density r "bot" 0 0, density r "core" 0 0) = (Some (1 # 10), Some 0, Some (1 # 10), Some 0).
Proof.
  split; [|vm_compute; auto]. unfold fits; cbn [c_named ex_settings c_stride ex_layout lo_stack map ex_stack st_id st_name lo_ll lo_ur c_left c_right c_top c_bot fst snd].
  do 4 (split; [lia || reflexivity|]). split; [lia|]. split; [lia|].
  split; [repeat constructor; cbn; intuition discriminate|]. split; [repeat constructor; cbn; intuition discriminate|].
  intros t [<-|[<-|[<-|[]]]]; cbn [st_thick st_id]; (split; [lra|discriminate]).
Qed.

(** The region is 14 long and tiles of 10 are asked for.  The chip model says that its two tiles are 10 wide, but its
    densities are those of two tiles of 7: the strip from 8 to 9, which lies in the first tile, shows up in the second. *)
Theorem C125_tile_refuted : let r := to_ctm strip_cover (fun ps => ps) up ex_ne (1 # 1000000) (ex_settings []) (ex_layout 14) in
  resolution r = Some 10 /\ In {| pr_layer := 0; pr_net := 7; pr_shape := Some (8%Z, []) |} (lo_prims (ex_layout 14)) /\
  density r "top" 0 0 = Some 0 /\ density r "top" 1 0 = Some (1 # 7).
Proof. cbv zeta. split; [vm_compute; reflexivity|]. split; [left; reflexivity|]. split; vm_compute; reflexivity. Qed.
Print Assumptions C125_tile_refuted.

(** Whenever a chip model comes out, the tiles its densities belong to (those of the map with as many tiles) have the size
    the chip model names exactly if dividing the region by the number of tiles rounds back to the size asked for. *)
Theorem C125_tile_mismatch : forall {polygon} cover merge map_size ne meter (s : settings) (l : layout (polygon := polygon)) c l',
  to_ctm cover merge map_size ne meter s l = Ok (Some c, l') -> 0 < meter -> (0 < c_stride s)%Z ->
  exists ax ay, make_axis (fst (lo_ll l)) (fst (lo_ur l)) (c_left s) (c_right s) (Z.of_nat (cc_tx c)) = Ok ax /\
    make_axis (snd (lo_ll l)) (snd (lo_ur l)) (c_bot s) (c_top s) (Z.of_nat (cc_ty c)) = Ok ay /\
    (inject_Z (a_stride ax) * meter * 1000000 == cc_res c <-> a_stride ax = c_stride s) /\
    (inject_Z (a_stride ay) * meter * 1000000 == cc_res c <-> a_stride ay = c_stride s).
Proof.
  intros polygon cover merge map_size ne meter s l c l' H Hm Hs. unfold to_ctm in H.
  destruct (negb (c_named s)); [discriminate|]. cbv zeta in H.
  set (nx := map_size (fst _ + _ - _)%Z _) in H. set (ny := map_size (snd _ + _ - _)%Z _) in H. unfold fractions in H. cbn [lo_ll lo_ur lo_stack lo_prims] in H.
  destruct (make_axis (fst _) _ _ _ _) as [ax| | |] eqn:Ax; cbn [bind] in H; try discriminate.
  destruct (make_axis (snd _) _ _ _ _) as [ay| | |] eqn:Ay; cbn [bind] in H; try discriminate.
  destruct (extract_layers _ _ _ _ _) as [[m lm]| | |]; cbn [bind] in H; try discriminate. injection H as H _.
  assert (R : Qle_bool 0 (inject_Z (c_stride s) * meter) = true).
  { apply Qle_bool_iff. apply Qmult_le_0_compat; [change 0 with (inject_Z 0); rewrite <- Zle_Qle; lia|lra]. }
  rewrite R in H. destruct (CtmGrid_Props.C103_export_describes _ _ _ _ H) as (_ & D1 & _ & _ & _ & D4 & _).
  cbn [x_nx x_ny x_resx] in D1, D4. injection D4 as D4 D5. exists ax, ay. rewrite D4, D5.
  assert (G : forall z, inject_Z z * meter * 1000000 == cc_res c <-> z = c_stride s).
  { intros z. rewrite D1. split; [|intros ->; reflexivity]. intros G.
    assert (G' : inject_Z z == inject_Z (c_stride s)).
    { apply (Qmult_inj_r _ _ (meter * 1000000)); [intros Z; lra|]. rewrite !Qmult_assoc. exact G. }
    unfold Qeq, inject_Z in G'; cbn in G'. lia. }
  split; [exact Ax|]. split; [exact Ay|]. split; apply G.
Qed.
Print Assumptions C125_tile_mismatch.

(** No chip model without a folder and a file name, or for layers of the same name. *)
Theorem C125_refused : forall {polygon} cover merge map_size ne meter (s : settings) (l : layout (polygon := polygon)) l',
  (c_named s = false -> to_ctm cover merge map_size ne meter s l = Ok (None, l)) /\
  (to_ctm cover merge map_size ne meter s l = Ok (None, l') -> c_named s = true -> (forall q, ne q q = false) -> 0 < meter ->
   ~ NoDup (map st_name (lo_stack l))).
Proof.
  intros polygon cover merge map_size ne meter s l l'. split; [intros E; unfold to_ctm; rewrite E; reflexivity|].
  unfold to_ctm. intros H E Hne Hm ND. rewrite E in H. cbn [negb] in H. cbv zeta in H.
  destruct (fractions _ _ _ _ _ _) as [[[ax ay] ls]| | |] eqn:Ef; cbn [bind snd] in H; try discriminate.
  destruct (extract_layers _ _ _ _ _) as [[m lm]| | |] eqn:Em; cbn [bind fst] in H; try discriminate. injection H as H _.
  assert (Q : forall ls m lm m' lm', append_all m lm ls = Ok (m', lm') -> map l_name (g_layers m') = map l_name (g_layers m) ++ map xl_name ls).
  { clear. induction ls as [|x ls IH]; intros m lm m' lm'; cbn [append_all]; [intros [= <- _]; rewrite app_nil_r; reflexivity|].
    unfold Grid_Model.append_layer. destruct (ThermalNetwork_Model.Qltb _ _); [discriminate|]. destruct (negb _); [discriminate|].
    destruct (rev (g_layers m)) as [|b r] eqn:Er; intros H; apply IH in H; rewrite H; cbn [Grid_Model.g_layers map].
    - rewrite map_app, <- app_assoc. reflexivity.
    - assert (Eg : g_layers m = rev r ++ [b]) by (rewrite <- (rev_involutive (g_layers m)), Er; reflexivity).
      rewrite Eg, !map_app. cbn [map l_name]. rewrite <- !app_assoc. reflexivity. }
  apply Q in Em. cbn [Grid_Model.g_layers map app] in Em. unfold fractions in Ef. cbn [lo_stack] in Ef.
  destruct (make_axis _ _ _ _ _); cbn [bind] in Ef; try discriminate. destruct (make_axis _ _ _ _ _); cbn [bind] in Ef; try discriminate.
  injection Ef as _ _ <-. rewrite map_map in Em. cbn [xl_name] in Em.
  assert (L : List.length (g_layers m) = List.length (lo_stack l)).
  { rewrite <- (map_length l_name), Em, map_length. reflexivity. }
  match type of H with export ?n ?e ?x = None => destruct (proj2 (CtmGrid_Props.C103_export_iff n e x)) as [c Hc] end; [|congruence].
  cbn [x_resx x_resy x_layers]. split; [apply Hne|].
  replace (map (fun l0 => l_name (fst l0)) (combine (g_layers m) (map st_metal (lo_stack l)))) with (map l_name (g_layers m)).
  - rewrite Em. exact ND.
  - clear - L. revert L. generalize (lo_stack l). induction (g_layers m) as [|g gs IH]; intros [|t ts] L; try discriminate; [reflexivity|].
    cbn [map combine fst]. f_equal. apply IH. cbn in L; lia.
Qed.
Print Assumptions C125_refused.
Example C125_refused_ex : rmap fst (to_ctm strip_cover (fun ps => ps) up ex_ne (1 # 1000000) (ex_settings [])
  (mkLay (0, 0)%Z (20, 10)%Z [mkSt 0 "a" 30 true; mkSt 1 "a" 100 false] [])) = Ok None.
Proof. vm_compute; reflexivity. Qed.

(** * C126: what the export does to the layout *)

(** The outline and the stack-up stay.  Missing for the full statement: the primitives, see below. *)
Theorem C126_layout_kept_partial : forall {polygon} cover merge map_size ne meter (s : settings) (l : layout (polygon := polygon)) r l',
  to_ctm cover merge map_size ne meter s l = Ok (r, l') ->
  lo_ll l' = lo_ll l /\ lo_ur l' = lo_ur l /\ lo_stack l' = lo_stack l /\ lo_prims l' = (if c_named s then merge (lo_prims l) else lo_prims l).
Proof.
  intros polygon cover merge map_size ne meter s l r l'. unfold to_ctm. destruct (c_named s); cbn [negb]; [|intros [= _ <-]; auto].
  cbv zeta. destruct (fractions _ _ _ _ _ _); cbn [bind]; try discriminate. destruct (extract_layers _ _ _ _ _); cbn [bind]; try discriminate.
  intros [= _ <-]; auto.
Qed.
Print Assumptions C126_layout_kept_partial.

(** Merging joins the shapes of a net on a layer: here it makes one of two equal ones.  The layout is left with the
    merged shapes. *)
Definition ex_merge (ps : list (primitive (polygon := Z))) : list (primitive (polygon := Z)) :=
  match ps with
  | a :: b :: r => match pr_shape a, pr_shape b with
                   | Some (x, []), Some (y, []) => if ((x =? y) && (pr_layer a =? pr_layer b) && (pr_net a =? pr_net b))%Z then a :: r else ps
                   | _, _ => ps
                   end
  | _ => ps
  end.
Theorem C126_layout_refuted : exists (l : layout (polygon := Z)),
  match to_ctm strip_cover ex_merge up ex_ne (1 # 1000000) (ex_settings []) l with Ok (Some _, l') => List.length (lo_prims l') <> List.length (lo_prims l) | _ => False end.
Proof.
  exists (mkLay (0, 0)%Z (20, 10)%Z ex_stack [ {| pr_layer := 0; pr_net := 7; pr_shape := Some (8%Z, []) |}; {| pr_layer := 0; pr_net := 7; pr_shape := Some (8%Z, []) |} ]).
  vm_compute. discriminate.
Qed.
Print Assumptions C126_layout_refuted.

(** * C127: reading the exported model back *)

(** A layout whose dielectrics lie between conductors comes back as a grid model with its layers in order, each with the
    name, the thickness and the densities of the layout's layer.  [pchip] and [order] are those of the import (C105).
    Missing for the full statement: regions that are not a whole number of tiles, other stack-ups (C105). *)
Theorem C127_read_back_partial : forall {polygon} cover merge map_size ne meter (s : settings) (l : layout (polygon := polygon)) kx ky pchip order fuel top low,
  fewest_tiles map_size -> 0 < meter -> (forall q, ne q q = false) -> fits s l kx ky ->
  (forall ns, Permutation ns (order ns)) -> CtmGrid_Props.meets_samples pchip -> (2 <= fuel)%nat ->
  between_conductors (lo_stack l) -> lo_stack l = top ++ [low] -> st_name low <> ""%string ->
  (forall t, In t (lo_stack l) -> (1 # 1000000000000) < st_thick t * meter) ->
  exists c l' ax ay g, to_ctm cover merge map_size ne meter s l = Ok (Some c, l') /\ import pchip order fuel c = Ok (Some g) /\
    tiles_of ax (fst (lo_ll l) - c_left s) (c_stride s) kx /\ tiles_of ay (snd (lo_ll l) - c_bot s) (c_stride s) ky /\
    (g_nx g, g_ny g) = (kx, ky) /\ Grid_Model.g_resx g == inject_Z (c_stride s) * meter /\ Grid_Model.g_resy g == inject_Z (c_stride s) * meter /\
    List.length (g_layers g) = List.length (lo_stack l) /\
    forall k t, nth_error (lo_stack l) k = Some t -> exists gl, nth_error (g_layers g) k = Some gl /\
      l_name gl = st_name t /\ l_thick gl == st_thick t * meter /\
      forall x y, (x < kx)%nat -> (y < ky)%nat ->
        is_clamp (sumf (metal (cover ax ay) x y) (filter (counts (st_id t) (c_nets s)) (merge (lo_prims l)))) (l_mf gl x y).
Proof.
  intros polygon cover merge map_size ne meter s l kx ky pchip order fuel top low F Hm Hne Hf Ho Hp Hfu Hb El Hlow Ht.
  destruct (to_grid cover merge map_size ne meter s l kx ky F Hm Hne Hf) as (ax & ay & m & Tx & Ty & _ & _ & (c & Hc & E) & Lk & L & V).
  set (xm := mkx kx ky _ _ 1 _) in Hc.
  assert (Lx : List.length (x_layers xm) = List.length (lo_stack l)) by (cbn; rewrite combine_length, map_length; lia).
  assert (X : forall k g b, nth_error (x_layers xm) k = Some (g, b) -> exists t, nth_error (lo_stack l) k = Some t /\ st_metal t = b /\ nth_error (g_layers m) k = Some g).
  { intros k g b Hk. cbn [xm x_layers] in Hk. apply combine_nth_inv in Hk as [H1 H2].
    destruct (nth_error (lo_stack l) k) as [t|] eqn:Hn.
    - exists t. rewrite (map_nth_error st_metal _ _ Hn) in H2. injection H2 as H2. auto.
    - apply nth_error_None in Hn. assert (nth_error (map st_metal (lo_stack l)) k = None) by (apply nth_error_None; rewrite map_length; exact Hn). congruence. }
  assert (X2 : forall k t, nth_error (lo_stack l) k = Some t -> exists g, nth_error (x_layers xm) k = Some (g, st_metal t)).
  { intros k t Hk. destruct (V k t Hk) as (g & Hg & _). exists g. cbn [xm x_layers]. apply combine_nth; [exact Hg|]. apply map_nth_error, Hk. }
  destruct (@exists_last _ (x_layers xm)) as (xtop & [gl b] & Ext).
  { intros Ee. rewrite Ee, El, app_length in Lx. cbn in Lx. lia. }
  assert (Lt : List.length xtop = List.length top).
  { rewrite Ext, El, !app_length in Lx. cbn in Lx. lia. }
  destruct (CtmGrid_Props.C105_round_trip ne false pchip order fuel xm c xtop (gl, b) Ho Hp Hfu Ext) as (g & I1 & I2 & _ & I3 & I4 & I5 & I6 & _).
  - destruct (X (List.length xtop) gl b) as (t & H1 & _ & H2).
    { rewrite Ext, nth_error_app2, Nat.sub_diag by lia. reflexivity. }
    rewrite El, Lt, nth_error_app2, Nat.sub_diag in H1 by lia. injection H1 as <-.
    destruct (V (List.length xtop) low) as (g & Hg & Hn & _).
    { rewrite El, Lt, nth_error_app2, Nat.sub_diag by lia. reflexivity. }
    cbn [fst]. rewrite H2 in Hg. injection Hg as ->. rewrite Hn. exact Hlow.
  - exact Lk.
  - intros k g Hk. destruct (X k g false Hk) as (t & H1 & H2 & _). destruct (Hb k t H1 H2) as (j & a & b' & -> & J1 & J2 & J3 & J4).
    destruct (X2 _ _ J1) as (ga & Ga). destruct (X2 _ _ J3) as (gb & Gb). rewrite J2 in Ga; rewrite J4 in Gb. eauto 6.
  - intros [g bb] Hin. apply In_nth_error in Hin as [k Hk]. destruct (X k g bb Hk) as (t & H1 & _ & H2).
    destruct (V k t H1) as (g' & Hg & _ & V2 & V3 & _). rewrite H2 in Hg; injection Hg as <-. cbn [fst]. rewrite V2. split; [apply Ht; apply nth_error_In in H1; exact H1|exact V3].
  - cbn. lra.
  - cbn [xm x_resx]. apply Qmult_le_0_compat; [|lra]. destruct Hf as (_ & _ & _ & Hs & _). change 0 with (inject_Z 0). rewrite <- Zle_Qle. lia.
  - exact Hc.
  - exists c, (mkLay (lo_ll l) (lo_ur l) (lo_stack l) (merge (lo_prims l))), ax, ay, g.
    split; [exact E|]. split; [exact I1|]. split; [exact Tx|]. split; [exact Ty|]. split; [exact I2|]. split; [exact I3|]. split; [exact I4|].
    split; [rewrite I5; exact Lx|]. intros k t Hk. destruct (V k t Hk) as (g' & Hg & V1 & V2 & V3 & V4 & _).
    destruct (I6 k g' (st_metal t)) as (gl' & J1 & J2 & J3 & _ & J4 & _).
    { cbn [xm x_layers]. apply combine_nth; [exact Hg|]. apply map_nth_error, Hk. }
    exists gl'. split; [exact J1|]. split; [rewrite J2; exact V1|]. split; [rewrite J3, V2; reflexivity|].
    intros x y Hx Hy. rewrite J4, V4. apply C57_value; [|exact Hx|exact Hy].
    destruct Hf as (_ & _ & _ & _ & _ & _ & _ & _ & Hi). apply (Hi t). apply nth_error_In in Hk. exact Hk.
Qed.
Print Assumptions C127_read_back_partial.

Example C127_ex : between_conductors ex_stack /\ (forall t, In t ex_stack -> (1 # 1000000000000) < st_thick t * (1 # 1000000)) /\
  match to_ctm strip_cover (fun ps => ps) up ex_ne (1 # 1000000) (ex_settings []) (ex_layout 20) with
  | Ok (Some c, _) => rmap (option_map (fun g => map (fun l => (l_name l, Qred (l_thick l), Qred (l_mf l 0%nat 0%nat))) (g_layers g))) (import (fun _ _ _ => Ok 0) (fun ns => ns) 5 c)
                      = Ok (Some [("top"%string, 3 # 100000, 1 # 10); ("core"%string, 1 # 10000, 0); ("bot"%string, 1 # 50000, 1 # 10)])
  | _ => False
  end.
Proof.
  split; [|split; [|vm_compute; reflexivity]].
  - intros [|[|[|k]]] t Hk Hm; cbn in Hk; try (injection Hk as <-; discriminate).
    + injection Hk as <-. exists 0%nat. do 2 eexists. cbn. auto 8.
    + destruct k; discriminate.
  - intros t [<-|[<-|[<-|[]]]]; cbn [st_thick]; lra.
Qed.

(** A layer of solder resist on top of the uppermost conductor is exported but does not come back: the imported model has
    one layer less than the stack-up, and its uppermost layer is the conductor. *)
Definition resist_stack : list stlayer := mkSt 3 "resist" 10 false :: ex_stack.
Theorem C127_outer_dielectric_refuted :
  exists c l' g, to_ctm strip_cover (fun ps => ps) up ex_ne (1 # 1000000) (ex_settings []) (mkLay (0, 0)%Z (20, 10)%Z resist_stack ex_prims) = Ok (Some c, l') /\
    import (fun _ _ _ => Ok 0) (fun ns => ns) 5 c = Ok (Some g) /\
    List.length (g_layers g) <> List.length resist_stack /\ map l_name (g_layers g) = ["top"; "core"; "bot"]%string.
Proof.
  destruct (to_ctm strip_cover (fun ps => ps) up ex_ne (1 # 1000000) (ex_settings []) (mkLay (0, 0)%Z (20, 10)%Z resist_stack ex_prims)) as [[[c|] l']| | |] eqn:E;
    try (vm_compute in E; discriminate E).
  assert (H : match to_ctm strip_cover (fun ps => ps) up ex_ne (1 # 1000000) (ex_settings []) (mkLay (0, 0)%Z (20, 10)%Z resist_stack ex_prims) with
    | Ok (Some c, _) => match import (fun _ _ _ => Ok 0) (fun ns => ns) 5 c with
      | Ok (Some g) => map l_name (g_layers g) = ["top"; "core"; "bot"]%string | _ => False end | _ => False end) by (vm_compute; reflexivity).
  rewrite E in H; destruct (import (fun _ _ _ => Ok 0) (fun ns => ns) 5 c) as [[g|]| | |] eqn:Ei; try contradiction.
  exists c, l', g; split; [reflexivity|]; split; [exact Ei|]; split; [|exact H].
  rewrite <- (map_length l_name (g_layers g)), H; discriminate.
Qed.
Print Assumptions C127_outer_dielectric_refuted.
