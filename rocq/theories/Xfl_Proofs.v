From Verif Require Import Base QSum Names_Model Names_Spec Names_Proofs Net_Model LayerMap_Model Layers_Model Layers_Spec Layers_Proofs Xfl_Model Xfl_Spec.
Open Scope res_scope.

Lemma map_pointwise {A B C} (f : A -> C) (g : B -> C) la : forall lb, List.length la = List.length lb ->
  (forall i a b, nth_error la i = Some a -> nth_error lb i = Some b -> f a = g b) -> map f la = map g lb.
Proof.
  induction la as [|a la IH]; intros [|b lb] E H; try discriminate; auto; simpl.
  f_equal; [apply (H 0%nat a b); auto|apply IH; [simpl in E; lia|intros i x y; apply (H (Datatypes.S i) x y)]].
Qed.

(** ** Layers *)
Section LayersProofs.
  Context (mats : list (string * string)) (scale : Q).
  Notation loop := (fun xs => fold_left (import_layer mats scale) xs layers_start).

  Definition metal_count (xs : list file_layer) : nat := List.length (filter is_metal xs).
  Definition stack_ok (xs : list file_layer) (i : nat) (x : file_layer) (u : stackup) : Prop :=
    su_name u = fl_name x /\ su_type u = kind_type (fl_kind x) /\
    (su_elev u == - (scale * sumf fl_thickness (firstn i xs)))%Q /\ (su_thick u == scale * fl_thickness x)%Q /\
    su_cond u = material mats default_cond (fl_cond x) /\ su_diel u = material mats default_diel (fl_diel x).
  Definition linv (xs : list file_layer) (s : layers_state) : Prop :=
    ls_id s = (Z.of_nat (List.length xs) - 1)%Z /\ ls_lyr s = (Z.of_nat (List.length xs) + 1)%Z /\
    ls_metal s = (Z.of_nat (metal_count xs) + 1)%Z /\ (ls_elev s == - sumf fl_thickness xs)%Q /\
    List.length (ls_layers s) = List.length xs /\
    (forall i x u, nth_error xs i = Some x -> nth_error (ls_layers s) i = Some u -> stack_ok xs i x u) /\
    (forall k id, alookup Z.eqb k (ls_metal_map s) = Some id <->
       exists i x, nth_error xs i = Some x /\ is_metal x = true /\ id = Z.of_nat i /\ k = Z.of_nat (Datatypes.S (metals_before xs i))) /\
    (forall k id, alookup Z.eqb k (ls_layer_map s) = Some id <-> (0 <= id < Z.of_nat (List.length xs) /\ k = id + 1)%Z).

  Lemma metal_count_snoc xs x : metal_count (xs ++ [x]) = (metal_count xs + if is_metal x then 1 else 0)%nat.
  Proof. unfold metal_count; rewrite filter_app, app_length; simpl; destruct (is_metal x); auto. Qed.
  Lemma metals_before_snoc xs x i : (i <= List.length xs)%nat -> metals_before (xs ++ [x]) i = metals_before xs i.
  Proof. intros H; unfold metals_before; rewrite firstn_app; replace (i - List.length xs)%nat with 0%nat by lia; simpl; rewrite app_nil_r; auto. Qed.
  Lemma metals_before_all xs : metals_before xs (List.length xs) = metal_count xs.
  Proof. unfold metals_before; rewrite firstn_all; auto. Qed.
  Lemma metals_before_lt xs i x : nth_error xs i = Some x -> is_metal x = true -> (metals_before xs i < metal_count xs)%nat.
  Proof.
    intros H M; apply nth_error_split in H as (a & b & -> & <-).
    unfold metals_before, metal_count; rewrite firstn_app, firstn_all, Nat.sub_diag; simpl; rewrite app_nil_r, filter_app, app_length; simpl; rewrite M; simpl; lia.
  Qed.
  Lemma kind_metal x : is_conducting (kind_type (fl_kind x)) = is_metal x.
  Proof. unfold is_metal; destruct (fl_kind x); auto. Qed.
  Lemma nth_snoc {A} (l : list A) a i x : nth_error (l ++ [a]) i = Some x -> (nth_error l i = Some x /\ (i < List.length l)%nat) \/ (i = List.length l /\ x = a).
  Proof.
    intros H; destruct (Nat.lt_ge_cases i (List.length l)) as [L|L].
    - rewrite nth_error_app1 in H by auto; auto.
    - rewrite nth_error_app2 in H by lia; destruct (i - List.length l)%nat eqn:E; simpl in H; [injection H as <-; right; split; auto; lia|destruct n; discriminate].
  Qed.

  Lemma linv_step xs s x : linv xs s -> linv (xs ++ [x]) (import_layer mats scale s x).
  Proof.
    intros (I & L & M & E & N & F & MM & LM); unfold linv, import_layer; cbn [ls_id ls_lyr ls_metal ls_elev ls_layers ls_metal_map ls_layer_map].
    rewrite !app_length; cbn [List.length]; rewrite kind_metal, metal_count_snoc.
    split; [lia|]; split; [lia|]; split; [destruct (is_metal x); lia|]; split; [rewrite sumf_app; simpl; lra|]; split; [lia|]; split; [|split].
    - intros i y u H1 H2; apply nth_snoc in H1 as [[H1 Hi]|[-> ->]].
      + rewrite nth_error_app1 in H2 by lia; specialize (F i y u H1 H2).
        unfold stack_ok in *; rewrite firstn_app; replace (i - List.length xs)%nat with 0%nat by lia; simpl; rewrite app_nil_r; auto.
      + rewrite nth_error_app2 in H2 by lia; rewrite N, Nat.sub_diag in H2; injection H2 as <-; unfold stack_ok; cbn.
        rewrite firstn_app, firstn_all, Nat.sub_diag; simpl; rewrite app_nil_r.
        repeat match goal with |- _ /\ _ => split end; auto; [rewrite E; ring|ring].
    - intros k id; assert (Snoc : (exists i y, nth_error (xs ++ [x]) i = Some y /\ is_metal y = true /\ id = Z.of_nat i /\ k = Z.of_nat (Datatypes.S (metals_before (xs ++ [x]) i))) <->
        (exists i y, nth_error xs i = Some y /\ is_metal y = true /\ id = Z.of_nat i /\ k = Z.of_nat (Datatypes.S (metals_before xs i))) \/
        (is_metal x = true /\ id = Z.of_nat (List.length xs) /\ k = Z.of_nat (Datatypes.S (metal_count xs)))).
      { split.
        - intros (i & y & H1 & H2 & H3 & H4); apply nth_snoc in H1 as [[H1 Hi]|[-> ->]].
          + left; exists i, y; rewrite metals_before_snoc in H4 by lia; auto.
          + right; rewrite metals_before_snoc, metals_before_all in H4 by lia; auto.
        - intros [(i & y & H1 & H2 & H3 & H4)|(H2 & H3 & H4)].
          + assert (i < List.length xs)%nat by (apply nth_error_Some; congruence).
            exists i, y; rewrite nth_error_app1, metals_before_snoc by lia; auto.
          + exists (List.length xs), x; rewrite nth_error_app2, Nat.sub_diag, metals_before_snoc, metals_before_all by lia; auto. }
      rewrite Snoc; clear Snoc; destruct (is_metal x) eqn:Mx.
      + rewrite (alookup_emplace _ Z_eqb_reflect), <- MM; destruct (alookup Z.eqb k (ls_metal_map s)) as [w|] eqn:W.
        * split; [auto|intros [|(_ & H3 & H4)]; auto; exfalso].
          apply MM in W as (i & y & H5 & H6 & _ & H7); pose proof (metals_before_lt xs i y H5 H6); lia.
        * destruct (Z.eqb_spec k (ls_metal s)) as [->|Ne].
          -- split; [intros H; injection H as <-; right; repeat split; lia|intros [|(_ & -> & _)]; [discriminate|f_equal; lia]].
          -- split; [discriminate|intros [|(_ & _ & ->)]; [auto|exfalso; apply Ne; lia]].
      + rewrite MM; split; [auto|intros [|(H & _)]; [auto|discriminate]].
    - intros k id; rewrite (alookup_emplace _ Z_eqb_reflect); destruct (alookup Z.eqb k (ls_layer_map s)) as [w|] eqn:W.
      + apply LM in W; split; [intros H; injection H as <-; lia|intros H; f_equal; lia].
      + assert (NW : forall w, ~ ((0 <= w < Z.of_nat (List.length xs))%Z /\ k = (w + 1)%Z)) by (intros w H; apply LM in H; congruence).
        destruct (Z.eqb_spec k (ls_lyr s)) as [->|Ne].
        * split; [intros H; injection H as <-; lia|intros H; f_equal; lia].
        * split; [discriminate|intros H; exfalso].
          destruct (Z.eq_dec id (Z.of_nat (List.length xs))); [lia|apply (NW id); lia].
  Qed.

  Lemma linv_loop xs : linv xs (import_layers_loop mats scale xs).
  Proof.
    unfold import_layers_loop; induction xs as [|x xs IH] using rev_ind.
    - unfold linv, layers_start; cbn; repeat split; auto; try lia; try lra; try discriminate.
      + destruct i; discriminate.
      + destruct i; discriminate.
      + destruct i; discriminate.
      + destruct i; discriminate.
      + destruct i; discriminate.
      + destruct i; discriminate.
      + intros (i & y & H & _); destruct i; discriminate.
    - rewrite fold_left_app; simpl; apply linv_step; auto.
  Qed.

  Lemma inv_start : inv ly_init.
  Proof. split; [|split]; [intros i l H; destruct i; discriminate|constructor|intros l []]. Qed.

  Lemma import_layers_layout xs ly s : import_layers mats scale xs = (ly, s) ->
    map (fun l => (l_name l, l_type l)) (ly_list ly) = map (fun x => (fl_name x, kind_type (fl_kind x))) xs /\
    id_is_position (ly_list ly).
  Proof.
    unfold import_layers; intros H; pose proof (linv_loop xs) as (_ & _ & _ & _ & N & F & _).
    remember (import_layers_loop mats scale xs) as s0; injection H as <- <-.
    destruct (append_layers ly_init (map (fun u => (su_name u, su_type u)) (ls_layers s0))) as [c is] eqn:E; simpl.
    apply append_layers_spec in E as (I & new & E1 & E2 & _); [|apply inv_start].
    simpl in E1; subst new; split; [|apply I]; rewrite E2.
    apply map_pointwise; [auto|].
    intros i u x Hu Hx; destruct (F i x u Hx Hu) as (-> & -> & _); auto.
  Qed.
End LayersProofs.

(** ** Routes *)
Section RoutesProofs.
  Context {S : Type} (valid : S -> bool) (contour : S -> S) (holes_valid : S -> list S -> bool).
  Context (metal : list (Z * Z)) (via_defs : list string) (net : Z).
  Notation loop := (objects_loop valid contour holes_valid metal via_defs net).
  Notation contrib := (contribution valid contour holes_valid metal via_defs net).
  Notation things := (route_things valid contour holes_valid metal via_defs net).

  Lemma take_holes_run l (os : list (obj S)) : fst (take_holes l os) = run (known_void_on l) os.
  Proof.
    induction os as [|o os IH]; auto; destruct o as [| | | |[] l' [s|]]; auto; unfold known_void_on, void_on; simpl.
    - destruct (l' =? l)%Z; auto; destruct (take_holes l os); simpl in *; f_equal; auto.
    - destruct (l' =? l)%Z; auto.
  Qed.
  (** the objects taken as holes are voids *)
  Lemma take_holes_rest l (os : list (obj S)) : exists vs, os = vs ++ snd (take_holes l os) /\ forall o, In o vs -> is_hole o = true.
  Proof.
    induction os as [|o os (vs & E & H)]; [exists []; split; [auto|intros o []]|].
    destruct o as [| | | |[] l' [s|]]; try (exists []; split; [auto|intros o []]; fail); simpl.
    destruct (l' =? l)%Z; [|exists []; split; [auto|intros o []]].
    destruct (take_holes l os) as [hs r]; simpl in *; exists (OShape true l' (Some s) :: vs); split; [simpl; f_equal; auto|].
    intros o [<-|I]; auto.
  Qed.
  Lemma things_voids holes vs rest : (forall o, In o vs -> is_hole o = true) -> things holes (vs ++ rest) = things holes rest.
  Proof.
    induction vs as [|o vs IH]; intros H; auto; unfold route_things in *; simpl.
    pose proof (H o (or_introl eq_refl)); destruct o as [| | | |[] l' s]; try discriminate; simpl; apply IH; intros; apply H; now right.
  Qed.
  Lemma via_defs_dec d : existsb (String.eqb d) via_defs = if in_dec string_dec d via_defs then true else false.
  Proof.
    destruct (in_dec string_dec d via_defs) as [I|I].
    - apply existsb_exists; exists d; split; auto; apply String.eqb_refl.
    - destruct (existsb (String.eqb d) via_defs) eqn:E; auto; apply existsb_exists in E as (x & Hx & E); apply String.eqb_eq in E as <-; contradiction.
  Qed.

  Lemma inst_name_here used d : exists n, next_padstack_inst_name (Datatypes.S (List.length used)) used d = Ok (n, n :: used) /\ ~ In n used.
  Proof.
    destruct (loop_terminates used (layer_name_used used) (layer_name_used_spec used) (d ++ "_inst_") 1) as [n Hn].
    exists n; unfold next_padstack_inst_name; rewrite Hn; split; auto.
    eapply (loop_sound used _ (layer_name_used_spec used)); eauto.
  Qed.

  Definition good (used : list string) (want : list (thing S)) (r : res (list (item S) * list string)) : Prop :=
    exists items, r = Ok (items, rev (via_names items) ++ used) /\ map (@nameless S) items = want /\ NoDup (via_names items) /\ forall n, In n (via_names items) -> ~ In n used.

  Lemma good_plain used want r (i : item S) t : via_name i = None -> nameless i = t ->
    good used want r -> good used (t :: want) (x <- r ;; Ok (i :: fst x, snd x)).
  Proof.
    intros V <- (items & -> & M & N & F); exists (i :: items); cbn [bind fst snd map]; unfold via_names in *; simpl; rewrite V; simpl.
    split; [auto|split; [congruence|auto]].
  Qed.

  Lemma loop_good fuel : forall os used, (List.length os <= fuel)%nat -> good used (things taken_holes os) (loop fuel os used).
  Proof.
    induction fuel as [|fuel IH]; intros os used L.
    - destruct os; [|simpl in L; lia]; exists []; split; [auto|split; [auto|split; [constructor|intros n []]]].
    - destruct os as [|o os]; [exists []; split; [auto|split; [auto|split; [constructor|intros n []]]]|].
      simpl in L; assert (IH0 := fun u => IH os u ltac:(lia)).
      unfold route_things; cbn [with_rest flat_map]; fold (things taken_holes os).
      destruct o as [l p|a b d| |l s|v l so]; cbn [objects_loop contribution].
      + destruct (alookup Z.eqb l metal) as [id|], p as [s|]; simpl app; auto; apply good_plain; auto.
      + destruct (alookup Z.eqb a metal) as [t|], (alookup Z.eqb b metal) as [bt|]; simpl app; auto.
        rewrite via_defs_dec; destruct (in_dec string_dec d via_defs); simpl app; auto.
        destruct (inst_name_here used d) as (n & -> & Hn); cbn [bind fst snd].
        destruct (IH0 (n :: used)) as (items & -> & M & N & F); cbn [bind fst snd].
        exists (IVia n d net t bt :: items); unfold via_names in *; simpl.
        split; [rewrite <- app_assoc; auto|split; [congruence|split]].
        * constructor; auto; intros I; apply (F n I); now left.
        * intros x [<-|I]; auto; intros Hx; apply (F x I); now right.
      + auto.
      + destruct (alookup Z.eqb l metal) as [id|]; simpl app; auto.
        unfold taken_holes at 1, with_holes; destruct (valid s); simpl app; auto; apply good_plain; auto.
      + destruct v; [simpl app; auto|].
        destruct so as [s|]; [|destruct (alookup Z.eqb l metal); simpl app; auto].
        destruct (alookup Z.eqb l metal) as [id|]; [|simpl app; auto].
        unfold taken_holes at 1; rewrite <- take_holes_run.
        destruct (take_holes_rest l os) as (vs & E & V).
        destruct (take_holes l os) as [hs rest]; simpl fst; simpl snd in E.
        replace (things taken_holes os) with (things taken_holes rest) by (rewrite E; rewrite things_voids; auto).
        assert (IHr : forall u, good u (things taken_holes rest) (loop fuel rest u)).
        { intros u; apply IH; subst os; rewrite app_length in L; lia. }
        unfold with_holes; destruct hs as [|h hs].
        * destruct (valid s); simpl app; auto; apply good_plain; auto.
        * destruct (holes_valid (contour s) (map contour (h :: hs))); simpl app; auto; apply good_plain; auto.
  Qed.

  (** with known voids and none after an annular ring, what is taken is what is wanted *)
  Lemma run_known l (os : list (obj S)) : voids_known os -> run (known_void_on l) os = somes (run (void_on l) os).
  Proof.
    induction os as [|o os IH]; intros K; auto; simpl; unfold known_void_on at 1.
    assert (K' : voids_known os) by (intros l' I; apply (K l'); now right).
    destruct o as [| | | |[] l' so]; auto; simpl; destruct (Z.eqb_spec l' l); auto.
    destruct so as [s|]; [simpl; f_equal; auto|exfalso; apply (K l'); now left].
  Qed.
  Lemma things_wanted os : voids_known os -> no_void_after_annular os -> things taken_holes os = things wanted_holes os.
  Proof.
    induction os as [|o os IH]; intros K A; auto; unfold route_things; cbn [with_rest flat_map]; fold (things taken_holes os) (things wanted_holes os).
    assert (K' : voids_known os) by (intros l' I; apply (K l'); now right).
    rewrite IH; auto.
    - f_equal; destruct o as [| | |l s|[] l so]; auto; simpl.
      + destruct (alookup Z.eqb l metal); auto; f_equal.
        destruct os as [|o' os]; auto; destruct o' as [| | | |[] l' so]; auto; simpl.
        destruct (Z.eqb_spec l' l) as [->|]; auto; exfalso; apply (A [] l s so os); auto.
      + destruct so as [s|]; auto; destruct (alookup Z.eqb l metal); auto; f_equal; apply run_known; auto.
    - intros a l s s' b E; apply (A (o :: a) l s s' b); simpl; congruence.
  Qed.
End RoutesProofs.

Section AllProofs.
  Context {S : Type} (valid : S -> bool) (contour : S -> S) (holes_valid : S -> list S -> bool).
  Context (metal : list (Z * Z)) (via_defs : list string) (nets : netcoll).
  Notation routes_things := (routes_things valid contour holes_valid metal via_defs nets).
  Lemma import_routes_good rs : forall used,
    good used (routes_things taken_holes rs) (import_routes valid contour holes_valid metal via_defs nets rs used).
  Proof.
    induction rs as [|[n os] rs IH]; intros used; [exists []; split; [auto|split; [auto|split; [constructor|intros x []]]]|].
    unfold routes_things in *; cbn [import_routes flat_map fst snd]; destruct (nc_find nets n) as [x|]; [|simpl app; auto].
    destruct (loop_good valid contour holes_valid metal via_defs (net_id x) _ os used (le_n _)) as (i1 & -> & M1 & N1 & F1); cbn [bind fst snd].
    destruct (IH (rev (via_names i1) ++ used)) as (i2 & -> & M2 & N2 & F2); cbn [bind fst snd].
    exists (i1 ++ i2).
    assert (V : via_names (i1 ++ i2) = via_names i1 ++ via_names i2).
    { unfold via_names; rewrite map_app; induction (map via_name i1) as [|[]]; simpl; congruence. }
    rewrite V, rev_app_distr, <- app_assoc; split; [auto|split; [rewrite map_app; congruence|split]].
    - assert (D : forall y, In y (via_names i1) -> ~ In y (via_names i2)).
      { intros y Hy Hy2; apply (F2 y Hy2), in_app_iff; left; rewrite <- in_rev; auto. }
      revert N1 D; generalize (via_names i1) as l1; induction l1 as [|y l1 IHl]; simpl; auto; intros N1 D.
      inversion N1; subst; constructor; [rewrite in_app_iff; intros [|I]; [contradiction|eapply D; eauto]|apply IHl; auto].
    - intros y I; apply in_app_iff in I as [I|I]; auto; intros U; apply (F2 y I), in_app_iff; auto.
  Qed.
End AllProofs.
