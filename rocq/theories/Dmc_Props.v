(** * C62: DMC/DOM import gives every point to the shape whose header precedes it *)
From Coq Require Import Ascii.
From Verif Require Import Base Names_Model Net_Model Net_Proofs LayerMap_Model Layers_Model Layers_Spec Layers_Proofs Dmc_Model Dmc_Spec Dmc_Proofs.
Open Scope res_scope.

(** The layer of the layout with this id carries this name and is no inserted dielectric. *)
Definition layer_is {P} (lay : layout P) (id : Z) (name : string) : Prop :=
  exists x, find_layer_by_id (o_layers lay) id = Some x /\ l_name x = name /\ l_type x = LConducting.
Definition net_is {P} (lay : layout P) (id : Z) (name : string) : Prop :=
  exists x, nc_find (o_nets lay) name = Some x /\ net_id x = id.

Definition plain_matches {P} (figs : list (figure P)) (lay : layout P) (f : figure P) (p : primitive P) : Prop :=
  p_shape p = shape_of f /\
  (exists n, layer_name figs (r_layer (f_head f)) = Some n /\ layer_is lay (p_layer p) n) /\
  (exists n, net_name figs (r_net (f_head f)) = Some n /\ net_is lay (p_net p) n).
Definition via_matches {P} (figs : list (figure P)) (lay : layout P) (f : figure P) (i : padstack P) : Prop :=
  i_shape i = shape_of f /\
  (exists l n, signal_layer figs (r_sig1 (f_head f)) = Some l /\ layer_name figs l = Some n /\ layer_is lay (i_top i) n) /\
  (exists l n, signal_layer figs (r_sig2 (f_head f)) = Some l /\ layer_name figs l = Some n /\ layer_is lay (i_bot i) n) /\
  (exists n, net_name figs (r_net (f_head f)) = Some n /\ net_is lay (i_net i) n).

Lemma conducting_layers {P} : forall fuel rs (s s' : state P),
  (forall l, In l (ly_list (s_layers s)) -> l_type l = LConducting) -> records_loop fuel rs s = Ok s' ->
  forall l, In l (ly_list (s_layers s')) -> l_type l = LConducting.
Proof.
  induction fuel as [|fuel IH]; intros rs s s' H E; destruct rs as [|r rs]; cbn [records_loop] in E; try discriminate.
  - injection E as <-; auto.
  - injection E as <-; auto.
  - destruct (r_hole r); [apply (IH rs s s' H E)|].
    destruct (take_points _ _) as [[o q]| | |]; try discriminate; cbn [bind fst snd] in E.
    destruct (take_holes _ _) as [[[hs rest] ex]| | |]; try discriminate; cbn [bind fst snd] in E.
    destruct (net_of r (set_pts ex s)) as [s1| | |] eqn:N; try discriminate; cbn [bind] in E.
    destruct (place r (o, hs) s1) as [s2| | |] eqn:L; try discriminate; cbn [bind] in E.
    apply (IH rest s2); auto.
    assert (s_layers s1 = s_layers s) as X.
    { unfold net_of in N; destruct (acount _ _ _); [injection N as <-; auto|]; destruct (nc_create _ _) as [c [x|]]; [injection N as <-; auto|discriminate]. }
    unfold place in L; destruct (r_via r); [injection L as <-; simpl; rewrite X; auto|].
    unfold append_layer in L; destruct (acount Z.eqb (r_layer r) (s_lyrmap s1)); unfold at_ in L;
      (destruct (alookup Z.eqb (r_layer r) _); [|discriminate]); cbn [bind] in L;
      (destruct (alookup Z.eqb (r_net r) _); [|discriminate]); cbn [bind] in L; injection L as <-; cbn [s_layers ly_list]; rewrite X; auto.
    intros l Hl; apply in_app_or in Hl as [Hl|[<-|[]]]; auto.
Qed.

(** The layer found for an old id after the dielectrics were inserted. *)
Lemma mapped_layer c c' m i x : inv c -> ly_list c <> [] -> add_default_dielectrics c = Ok (c', m) -> nth_error (ly_list c) i = Some x ->
  exists y, find_layer_by_id c' (forward m (Z.of_nat i)) = Some y /\ ident y = ident x.
Proof.
  intros I N E X; destruct (add_dielectrics_full c I N) as (c2 & m2 & E2 & _ & Ho & _ & _ & _ & _ & Hf & _).
  rewrite E in E2; injection E2 as <- <-.
  assert (In (ident x) (map ident (older (ly_next c) (ly_list c')))) as J by (rewrite Ho; apply in_map; eapply nth_error_In; eauto).
  apply in_map_iff in J as (y & Ey & J); apply in_older in J as [J _]; apply In_nth_error in J as [j J].
  assert (l_obj x = l_obj y) as Q by (unfold ident in Ey; congruence).
  destruct (Hf i j x y X J Q) as [F _].
  exists y; split; auto; unfold find_layer_by_id; rewrite F; destruct (Z.ltb_spec (Z.of_nat j) 0); [lia|].
  rewrite Nat2Z.id; auto.
Qed.

Lemma plain_layers {P} (figs : list (figure P)) s : Inv figs s -> (exists f, In f figs /\ is_plain f = true) -> ly_list (s_layers s) <> [].
Proof.
  intros I (f & F1 & F2); destruct (layer_name figs (r_layer (f_head f))) as [n|] eqn:N.
  - destruct (i_lname _ _ I _ _ N) as (i & x & _ & X & _); intros E; rewrite E in X; destruct i; discriminate.
  - exfalso; unfold layer_name in N; destruct (find _ figs) eqn:F; [discriminate|].
    apply (find_none _ _ F) in F1; rewrite F2, Z.eqb_refl in F1; discriminate.
Qed.
Lemma named_net {P} (figs : list (figure P)) f : In f figs -> exists n, net_name figs (r_net (f_head f)) = Some n.
Proof.
  intros H; unfold net_name; destruct (find _ figs) eqn:F; simpl; eauto.
  apply (find_none _ _ F) in H; rewrite Z.eqb_refl in H; discriminate.
Qed.
Lemma named_layer {P} (figs : list (figure P)) f : In f figs -> is_plain f = true -> exists n, layer_name figs (r_layer (f_head f)) = Some n.
Proof.
  intros H E; unfold layer_name; destruct (find _ figs) eqn:F; simpl; eauto.
  apply (find_none _ _ F) in H; rewrite E, Z.eqb_refl in H; discriminate.
Qed.
Lemma signal_named {P} (figs : list (figure P)) k l : signal_layer figs k = Some l -> exists n, layer_name figs l = Some n.
Proof.
  unfold signal_layer; destruct (find _ figs) eqn:F; simpl; [|discriminate]; intros H; injection H as <-.
  apply find_some in F as [F1 F2]; apply andb_prop in F2 as [F2 _]; apply named_layer; auto.
Qed.
Lemma padstacks_alternative {P} (figs : list (figure P)) s : Inv figs s ->
  (exists ps, padstacks s (s_vias s) = Ok ps /\ Forall2 (padstack_of s) (filter is_via figs) ps) \/
  (padstacks s (s_vias s) = Throw /\ ~ vias_resolved figs).
Proof.
  intros I; destruct (padstacks_spec s (filter is_via figs)) as [X|[X (f & F1 & F2)]].
  - intros f Hf; apply filter_In in Hf as [Hf _]; destruct (named_net figs f Hf) as [n N].
    destruct (i_nname _ _ I _ _ N) as (x & X & _); eauto.
  - intros k l H; rewrite (i_sig _ _ I) in H; destruct (signal_named _ _ _ H) as [n N].
    destruct (i_lname _ _ I _ _ N) as (i & x & X & _); eauto.
  - left; rewrite (i_vias _ _ I); exact X.
  - right; rewrite (i_vias _ _ I); split; [exact X|].
    intros V; apply filter_In in F1 as [F1 F3]; rewrite !(i_sig _ _ I) in F2; destruct (V f F1 F3); tauto.
Qed.

Lemma Forall2_map_r {A B C} (R : A -> C -> Prop) (g : B -> C) l k : Forall2 (fun a b => R a (g b)) l k -> Forall2 R l (map g k).
Proof. induction 1; simpl; constructor; auto. Qed.
Lemma Forall2_in {A B} (R S : A -> B -> Prop) l k : (forall a b, In a l -> R a b -> S a b) -> Forall2 R l k -> Forall2 S l k.
Proof.
  intros H F; induction F; constructor; [apply H; auto; left; auto|].
  apply IHF; intros; apply H; auto; right; auto.
Qed.

(** Every outline keeps its points and its holes', in order, on the layer and net its record names; vias
    become padstacks between the layers of their two signal numbers.  Points after the last record are
    left alone. *)
Theorem C62_import_partial : forall (P : Type) (figs : list (figure P)) (extra : list P),
  Forall well_formed figs -> names_injective figs -> vias_resolved figs -> (exists f, In f figs /\ is_plain f = true) ->
  exists lay, import_records (file_records figs) (file_points figs ++ extra) = Ok lay /\
    Forall2 (plain_matches figs lay) (filter is_plain figs) (o_prims lay) /\
    Forall2 (via_matches figs lay) (filter is_via figs) (o_padstacks lay).
Proof.
  intros P figs extra W NI VR PL; unfold import_records.
  destruct (loop_spec figs [] (start (file_points figs ++ extra)) (List.length (file_records figs)) extra W (inv_start _) eq_refl (le_n _)) as [(s & E & I & _)|[_ X]]; [|contradiction].
  simpl in I; rewrite E; cbn [bind].
  destruct (padstacks_alternative figs s I) as [(ps & Ep & Fp)|[_ X]]; [|contradiction].
  rewrite Ep; cbn [bind].
  assert (ly_list (s_layers s) <> []) as NE by (eapply plain_layers; eauto).
  destruct (add_dielectrics_full (s_layers s) (i_layers _ _ I) NE) as (c' & m & Ed & _).
  rewrite Ed; cbn [bind fst snd]; eexists; split; [reflexivity|].
  assert (forall l n i, layer_name figs l = Some n -> alookup Z.eqb l (s_lyrmap s) = Some i ->
    forall ps0, layer_is {| o_nets := s_nets s; o_layers := c'; o_prims := map (fun p => {| p_layer := forward m (p_layer p); p_net := p_net p; p_shape := p_shape p |}) (s_prims s); o_padstacks := ps0 |} (forward m i) n) as LY.
  { intros l n i N L ps0; destruct (i_lname _ _ I _ _ N) as (j & x & X1 & X2 & X3); rewrite X1 in L; injection L as <-.
    destruct (mapped_layer _ _ _ _ _ (i_layers _ _ I) NE Ed X2) as (y & Y1 & Y2).
    exists y; cbn [o_layers]; split; auto; unfold ident in Y2; split; [congruence|].
    assert (l_type x = LConducting) as T by (eapply conducting_layers; [|exact E|eapply nth_error_In; eauto]; simpl; tauto).
    congruence. }
  split.
  - cbn [o_prims]; apply Forall2_map_r; eapply Forall2_in; [|exact (i_prims _ _ I)]; cbv beta; intros f p Hf (S1 & S2 & S3).
    apply filter_In in Hf as [Hf Hp]; destruct (named_layer _ _ Hf Hp) as [ln LN], (named_net _ _ Hf) as [nn NN].
    split; [exact S1|split; [exists ln; split; auto; cbn; eapply LY; eauto|]].
    exists nn; split; auto; destruct (i_nname _ _ I _ _ NN) as (x & X1 & X2); exists x; cbn; split; auto; congruence.
  - cbn [o_padstacks]; apply Forall2_map_r; eapply Forall2_in; [|exact Fp]; cbv beta; intros f i Hf (S1 & S2 & (l1 & A1 & A2) & l2 & B1 & B2).
    apply filter_In in Hf as [Hf Hv]; destruct (named_net _ _ Hf) as [nn NN].
    rewrite (i_sig _ _ I) in A1, B1; destruct (signal_named _ _ _ A1) as [n1 N1], (signal_named _ _ _ B1) as [n2 N2].
    split; [exact S1|split; [exists l1, n1; split; [auto|split; auto; cbn; eapply LY; eauto]|split; [exists l2, n2; split; [auto|split; auto; cbn; eapply LY; eauto]|]]].
    exists nn; split; auto; destruct (i_nname _ _ I _ _ NN) as (x & X1 & X2); exists x; cbn; split; auto; congruence.
Qed.
Print Assumptions C62_import_partial.

(** The figures describe every file whose first record is an outline and that has enough points. *)
Theorem C62_covers : forall (P : Type) rs (pts : list P), starts_plain rs -> total_points rs <= List.length pts ->
  exists figs extra, Forall well_formed figs /\ rs = file_records figs /\ pts = file_points figs ++ extra.
Proof. intros P rs pts; apply (figures_exist (List.length rs)); auto. Qed.
Print Assumptions C62_covers.

(** Different layers stay different: shapes are on the same layer exactly if their records are. *)
Theorem C62_layers_separate : forall (P : Type) (figs : list (figure P)) extra s fuel,
  Forall well_formed figs -> List.length (file_records figs) <= fuel ->
  records_loop fuel (file_records figs) (start (file_points figs ++ extra)) = Ok s ->
  Forall2 (fun f p => forall g q, (exists k, nth_error (filter is_plain figs) k = Some g /\ nth_error (s_prims s) k = Some q) ->
    (p_layer p = p_layer q <-> r_layer (f_head f) = r_layer (f_head g)) /\ (p_net p = p_net q <-> r_net (f_head f) = r_net (f_head g)))
    (filter is_plain figs) (s_prims s).
Proof.
  intros P figs extra s fuel W Fu E.
  destruct (loop_spec figs [] (start (file_points figs ++ extra)) fuel extra W (inv_start _) eq_refl Fu) as [(s' & E' & I & _)|[E' _]]; [|congruence].
  rewrite E in E'; injection E' as <-; simpl in I.
  eapply Forall2_imp; [|exact (i_prims _ _ I)]; cbv beta; intros f p (S1 & S2 & S3) g q (k & K1 & K2).
  assert (alookup Z.eqb (r_layer (f_head g)) (s_lyrmap s) = Some (p_layer q) /\ alookup Z.eqb (r_net (f_head g)) (s_netmap s) = Some (p_net q)) as [G1 G2].
  { generalize (i_prims _ _ I); revert K1 K2; generalize (filter is_plain figs) (s_prims s); clear; intros l; revert k; induction l as [|a l IH]; intros k ps K1 K2 F; [destruct k; discriminate|].
    inversion F as [|? b ? ps' R F']; subst; destruct k as [|k]; simpl in K1, K2; [injection K1 as ->; injection K2 as ->; tauto|eauto]. }
  split; split; intros X.
  - rewrite X in S2; apply (i_linj _ _ I _ _ _ S2 G1).
  - rewrite X in S2; congruence.
  - rewrite X in S3; apply (i_ninj _ _ I _ _ _ S3 G2).
  - rewrite X in S3; congruence.
Qed.
Print Assumptions C62_layers_separate.

(** The loop over the records ends. *)
Theorem C62_ends : forall (P : Type) rs (s : state P), records_loop (List.length rs) rs s <> OutOfFuel.
Proof.
  intros P rs s; assert (forall fuel rs (s : state P), List.length rs <= fuel -> records_loop fuel rs s <> OutOfFuel) as G; [|apply G; auto].
  clear; induction fuel as [|fuel IH]; intros rs s L; destruct rs as [|r rs]; cbn [records_loop]; try discriminate; simpl in L; [lia|].
  destruct (r_hole r); [apply IH; lia|].
  unfold take_points; destruct (_ <=? _); [|discriminate]; cbn [bind fst snd].
  destruct (take_holes_cases rs (skipn (r_points r) (s_pts s))) as [(hs & hrs & rest & ex & E & -> & _ & _ & _ & _)|E]; rewrite E; cbn [bind fst snd]; [|discriminate].
  destruct (net_of_cases r (set_pts ex s)) as [(s1 & E1 & _ & i & N)|E1]; rewrite E1; cbn [bind]; [|discriminate].
  destruct (place_ok r (firstn (r_points r) (s_pts s), hs) s1 i N) as (s2 & E2 & _); rewrite E2; cbn [bind].
  apply IH; rewrite app_length in L; lia.
Qed.
Print Assumptions C62_ends.

(** ** Findings *)
(** Hole records before the first outline are passed over but their points are not, so that every
    later shape is built from the wrong points. *)
Theorem C62_leading_holes_shift : forall (P : Type) hs rs (pts : list P), Forall (fun r => r_hole r = true) hs ->
  import_records (hs ++ rs) pts = import_records rs pts.
Proof.
  intros P hs rs pts H; unfold import_records; f_equal; generalize (start pts) as s; intros s.
  induction H as [|r hs Hr H IH]; auto; cbn [app List.length records_loop]; rewrite Hr; auto.
Qed.
Definition head (n : nat) (hole : bool) (layer : Z) : record :=
  {| r_points := n; r_hole := hole; r_via := false; r_net := 1; r_netname := "N"; r_layer := layer; r_lyrname := "L"; r_sig1 := layer; r_sig2 := 0 |}.
Theorem C62_leading_hole_refuted : exists rs (pts : list nat) lay o h, pts = h ++ o /\ map r_points rs = [List.length h; List.length o] /\
  map r_hole rs = [true; false] /\ import_records rs pts = Ok lay /\ map p_shape (o_prims lay) = [(h, [])] /\ o <> h.
Proof.
  exists [head 3 true 1; head 3 false 1], [0; 1; 2; 3; 4; 5].
  eexists; exists [3; 4; 5], [0; 1; 2]; do 3 (split; [reflexivity|]); split; [vm_compute; reflexivity|split; [reflexivity|discriminate]].
Qed.
Print Assumptions C62_leading_holes_shift.
Print Assumptions C62_leading_hole_refuted.

(** A DOM file with too few points is read past its end. *)
Theorem C62_missing_points_is_ub : forall (P : Type) rs (pts : list P), starts_plain rs -> List.length pts < total_points rs -> import_records rs pts = UB.
Proof. intros P rs pts S L; unfold import_records; rewrite short_ub; auto. Qed.
(** Two net numbers that share a name dereference a null net. *)
Theorem C62_shared_net_name_is_ub : forall (P : Type) (figs : list (figure P)) extra, Forall well_formed figs -> ~ names_injective figs ->
  import_records (file_records figs) (file_points figs ++ extra) = UB.
Proof.
  intros P figs extra W NI; unfold import_records.
  destruct (loop_spec figs [] (start (file_points figs ++ extra)) (List.length (file_records figs)) extra W (inv_start _) eq_refl (le_n _)) as [(s & E & I & _)|[E _]].
  - destruct NI; eapply inv_injective; eauto.
  - rewrite E; auto.
Qed.
(** A via between signal layers without shapes, such as one whose field is a bare "V", throws. *)
Theorem C62_open_via_throws : forall (P : Type) (figs : list (figure P)) extra, Forall well_formed figs -> names_injective figs -> ~ vias_resolved figs ->
  import_records (file_records figs) (file_points figs ++ extra) = Throw.
Proof.
  intros P figs extra W NI V; unfold import_records.
  destruct (loop_spec figs [] (start (file_points figs ++ extra)) (List.length (file_records figs)) extra W (inv_start _) eq_refl (le_n _)) as [(s & E & I & _)|[_ X]]; [|contradiction].
  simpl in I; rewrite E; cbn [bind]; destruct (padstacks_alternative figs s I) as [(ps & Ep & Fp)|[Ep _]]; [|rewrite Ep; auto].
  exfalso; apply V; intros f Hf Hv.
  assert (In f (filter is_via figs)) as J by (apply filter_In; auto).
  revert J; clear - Fp I; induction Fp as [|g i l k R F IH]; [intros []|intros [->|J]; auto].
  destruct R as (_ & _ & (l1 & A & _) & l2 & B & _); rewrite (i_sig _ _ I) in A, B; rewrite A, B; split; discriminate.
Qed.
(** Without any shape outside vias there are no layers, and inserting dielectrics reads past the end. *)
Theorem C62_empty_is_ub : forall (P : Type) (pts : list P), import_records [] pts = UB.
Proof. reflexivity. Qed.
Print Assumptions C62_missing_points_is_ub.
Print Assumptions C62_shared_net_name_is_ub.
Print Assumptions C62_open_via_throws.
Print Assumptions C62_empty_is_ub.

(** The layer field: a bare "V" is accepted with layers -1, a field that is no number throws instead of
    being reported, a via without two numbers is refused. *)
Theorem C62_layer_field : forall stoi cut,
  parse_sig stoi cut "V" = Ok (Some (true, -1, -1)%Z) /\
  (forall s, s <> ""%string -> (forall r, s <> String "V" r) -> stoi s = None -> parse_sig stoi cut s = Throw) /\
  (forall r a b x y, r <> ""%string -> cut r = [a; b] -> stoi a = Some x -> stoi b = Some y -> parse_sig stoi cut (String "V" r) = Ok (Some (true, x, y))) /\
  (forall r, r <> ""%string -> List.length (cut r) <> 2 -> parse_sig stoi cut (String "V" r) = Ok None).
Proof.
  intros stoi cut; split; [reflexivity|split; [|split]].
  - intros [|c r] H1 H2 H3; [congruence|]; simpl; unfold stoi_; rewrite H3.
    destruct (Ascii.eqb_spec c "V"%char) as [->|_]; [destruct (H2 r); auto|auto].
  - intros [|c r] a b x y H1 H2 H3 H4; [congruence|]; cbn [parse_sig]; rewrite Ascii.eqb_refl, H2; unfold stoi_; rewrite H3, H4; auto.
  - intros [|c r] H1 H2; [congruence|]; cbn [parse_sig]; rewrite Ascii.eqb_refl; destruct (cut _) as [|a [|b [|d l]]]; simpl in H2; auto; lia.
Qed.
Print Assumptions C62_layer_field.

(** ** Example: two layers, a hole, a via. *)
Definition fig1 : figure nat := {| f_head := head 4 false 10; f_outline := [1; 2; 3; 4]; f_holes := [(head 3 true 10, [5; 6; 7])] |}.
Definition fig2 : figure nat := {| f_head := head 3 false 20; f_outline := [8; 9; 10]; f_holes := [] |}.
Definition fig3 : figure nat :=
  {| f_head := {| r_points := 2; r_hole := false; r_via := true; r_net := 2; r_netname := "M"; r_layer := 0; r_lyrname := ""; r_sig1 := 10; r_sig2 := 20 |};
     f_outline := [11; 12]; f_holes := [] |}.
Example C62_ex_hypotheses : Forall well_formed [fig1; fig2; fig3] /\ names_injective [fig1; fig2; fig3] /\ vias_resolved [fig1; fig2; fig3] /\ exists f, In f [fig1; fig2; fig3] /\ is_plain f = true.
Proof.
  split; [|split; [|split]].
  - repeat constructor.
  - intros n m nm; unfold net_name; cbn [find fig1 fig2 fig3 f_head head r_net].
    destruct (Z.eqb_spec 1 n), (Z.eqb_spec 1 m), (Z.eqb_spec 2 n), (Z.eqb_spec 2 m); cbn; intros; try congruence; exfalso; congruence.
  - intros f [<-|[<-|[<-|[]]]] H; try discriminate; split; vm_compute; discriminate.
  - exists fig1; split; [left|]; reflexivity.
Qed.
Example C62_ex_import : match import_records (file_records [fig1; fig2; fig3]) (file_points [fig1; fig2; fig3] ++ [99]) with
  | Ok lay => map (fun p => (p_layer p, p_net p, p_shape p)) (o_prims lay) = [(0%Z, 0%Z, ([1; 2; 3; 4], [[5; 6; 7]])); (2%Z, 0%Z, ([8; 9; 10], []))] /\
              map (fun i => (i_top i, i_bot i, i_net i, i_shape i)) (o_padstacks lay) = [(0%Z, 2%Z, 1%Z, ([11; 12], []))]
  | _ => False end.
Proof. vm_compute; auto. Qed.
