From Verif Require Import Base Names_Model Net_Model Net_Proofs LayerMap_Model Layers_Model Layers_Spec Layers_Proofs Dmc_Model Dmc_Spec.
Open Scope res_scope.

Lemma emplace_lookup (k : Z) v k' (m : list (Z * Z)) :
  alookup Z.eqb k' (aemplace Z.eqb k v m) =
  match alookup Z.eqb k' m with Some w => Some w | None => if Z.eqb k' k then Some v else None end.
Proof.
  unfold aemplace, acount; destruct (alookup Z.eqb k m) eqn:E.
  - destruct (alookup Z.eqb k' m) eqn:E'; auto; destruct (Z.eqb_spec k' k); auto; congruence.
  - rewrite alookup_app; destruct (alookup Z.eqb k' m) eqn:E'; auto; simpl; destruct (Z.eqb k' k); auto.
Qed.

Lemma find_snoc {A} (p : A -> bool) l x : find p (l ++ [x]) = match find p l with Some y => Some y | None => if p x then Some x else None end.
Proof. induction l as [|a l IH]; simpl; auto; destruct (p a); auto. Qed.
Lemma find_app {A} (p : A -> bool) l k : find p (l ++ k) = match find p l with Some y => Some y | None => find p k end.
Proof. induction l as [|a l IH]; simpl; auto; destruct (p a); auto. Qed.

Section Points.
  Context {P : Type}.
  Notation figure := (figure P).

  Lemma take_points_exact (o rest : list P) n : List.length o = n -> take_points n (o ++ rest) = Ok (o, rest).
  Proof.
    intros <-; unfold take_points; rewrite app_length.
    replace (List.length o <=? List.length o + List.length rest) with true by (symmetry; apply Nat.leb_le; lia).
    rewrite firstn_app, skipn_app, Nat.sub_diag, firstn_all, skipn_all; simpl; rewrite app_nil_r; auto.
  Qed.
  Lemma take_points_ok n (pts : list P) o r : take_points n pts = Ok (o, r) -> pts = o ++ r /\ List.length o = n.
  Proof.
    unfold take_points; destruct (n <=? List.length pts) eqn:E; [|discriminate].
    apply Nat.leb_le in E; intros H; injection H as <- <-; rewrite firstn_skipn, firstn_length; split; auto; lia.
  Qed.

  Definition starts_plain (rs : list record) : Prop := match rs with r :: _ => r_hole r = false | [] => True end.
  Lemma take_holes_exact (hs : list (record * list P)) rs rest : starts_plain rs ->
    Forall (fun h => r_hole (fst h) = true /\ List.length (snd h) = r_points (fst h)) hs ->
    take_holes (map fst hs ++ rs) (List.concat (map snd hs) ++ rest) = Ok (map snd hs, rs, rest).
  Proof.
    intros S; induction 1 as [|[r h] hs [H1 H2] _ IH]; cbn [map app List.concat take_holes fst snd].
    - destruct rs; auto; simpl; simpl in S; rewrite S; auto.
    - simpl in H1, H2; rewrite H1, <- app_assoc, (take_points_exact _ _ _ H2); cbn [bind fst snd]; rewrite IH; auto.
  Qed.
  Lemma starts_file (figs : list figure) : Forall well_formed figs -> starts_plain (file_records figs).
  Proof. destruct 1 as [|f figs [H _] _]; simpl; auto. Qed.

  (** ** The loop invariant *)
  Record Inv (done : list figure) (s : state P) : Prop := {
    i_layers : inv (s_layers s);
    i_lname : forall l n, layer_name done l = Some n -> exists i x, alookup Z.eqb l (s_lyrmap s) = Some (Z.of_nat i) /\ nth_error (ly_list (s_layers s)) i = Some x /\ l_name x = n;
    i_lnone : forall l, layer_name done l = None -> alookup Z.eqb l (s_lyrmap s) = None;
    i_linj : forall l k i, alookup Z.eqb l (s_lyrmap s) = Some i -> alookup Z.eqb k (s_lyrmap s) = Some i -> l = k;
    i_nname : forall n nm, net_name done n = Some nm -> exists x, alookup Z.eqb n (s_netmap s) = Some (net_id x) /\ nc_find (s_nets s) nm = Some x;
    i_nnone : forall n, net_name done n = None -> alookup Z.eqb n (s_netmap s) = None;
    i_ninj : forall n m i, alookup Z.eqb n (s_netmap s) = Some i -> alookup Z.eqb m (s_netmap s) = Some i -> n = m;
    i_nlt : forall n i, alookup Z.eqb n (s_netmap s) = Some i -> (i < nc_uid (s_nets s))%Z;
    i_nused : forall nm x, nc_find (s_nets s) nm = Some x -> exists n, net_name done n = Some nm;
    i_sig : forall k, alookup Z.eqb k (s_sigmap s) = signal_layer done k;
    i_vias : s_vias s = map (fun f => {| v_net := r_net (f_head f); v_sig1 := r_sig1 (f_head f); v_sig2 := r_sig2 (f_head f); v_shape := shape_of f |}) (filter is_via done);
    i_prims : Forall2 (fun f p => p_shape p = shape_of f /\ alookup Z.eqb (r_layer (f_head f)) (s_lyrmap s) = Some (p_layer p) /\ alookup Z.eqb (r_net (f_head f)) (s_netmap s) = Some (p_net p)) (filter is_plain done) (s_prims s)
  }.

  Lemma inv_start pts : Inv [] (start pts).
  Proof.
    constructor; simpl; auto; try discriminate.
    apply inv_init.
  Qed.
  Lemma inv_injective done s : Inv done s -> names_injective done.
  Proof.
    intros I n m nm A B; destruct (i_nname _ _ I _ _ A) as (x & X1 & X2), (i_nname _ _ I _ _ B) as (y & Y1 & Y2).
    rewrite X2 in Y2; injection Y2 as <-; apply (i_ninj _ _ I _ _ _ X1 Y1).
  Qed.

  Lemma net_name_snoc (done : list figure) f n :
    net_name (done ++ [f]) n = match net_name done n with Some x => Some x | None => if Z.eqb (r_net (f_head f)) n then Some (r_netname (f_head f)) else None end.
  Proof. unfold net_name; rewrite find_snoc; destruct (find _ done); simpl; auto; destruct (Z.eqb _ _); auto. Qed.
  Lemma net_name_app (done k : list figure) n x : net_name done n = Some x -> net_name (done ++ k) n = Some x.
  Proof. unfold net_name; rewrite find_app; destruct (find _ done); simpl; auto; discriminate. Qed.
  Lemma layer_name_snoc (done : list figure) f l :
    layer_name (done ++ [f]) l = match layer_name done l with Some x => Some x | None => if is_plain f && Z.eqb (r_layer (f_head f)) l then Some (r_lyrname (f_head f)) else None end.
  Proof. unfold layer_name; rewrite find_snoc; destruct (find _ done); simpl; auto; destruct (_ && _); auto. Qed.
  Lemma signal_layer_snoc (done : list figure) f k :
    signal_layer (done ++ [f]) k = match signal_layer done k with Some x => Some x | None => if is_plain f && Z.eqb (r_sig1 (f_head f)) k then Some (r_layer (f_head f)) else None end.
  Proof. unfold signal_layer; rewrite find_snoc; destruct (find _ done); simpl; auto; destruct (_ && _); auto. Qed.

  (** What a step on the nets does. *)
  Record NInv (done : list figure) (s : state P) : Prop := {
    n_name : forall n nm, net_name done n = Some nm -> exists x, alookup Z.eqb n (s_netmap s) = Some (net_id x) /\ nc_find (s_nets s) nm = Some x;
    n_none : forall n, net_name done n = None -> alookup Z.eqb n (s_netmap s) = None;
    n_inj : forall n m i, alookup Z.eqb n (s_netmap s) = Some i -> alookup Z.eqb m (s_netmap s) = Some i -> n = m;
    n_lt : forall n i, alookup Z.eqb n (s_netmap s) = Some i -> (i < nc_uid (s_nets s))%Z;
    n_used : forall nm x, nc_find (s_nets s) nm = Some x -> exists n, net_name done n = Some nm }.

  Lemma net_step done s f : NInv done s ->
    (exists s', net_of (f_head f) s = Ok s' /\ NInv (done ++ [f]) s' /\
       s_layers s' = s_layers s /\ s_lyrmap s' = s_lyrmap s /\ s_sigmap s' = s_sigmap s /\ s_vias s' = s_vias s /\ s_prims s' = s_prims s /\ s_pts s' = s_pts s /\
       (forall n i, alookup Z.eqb n (s_netmap s) = Some i -> alookup Z.eqb n (s_netmap s') = Some i)) \/
    (net_of (f_head f) s = UB /\ exists n, n <> r_net (f_head f) /\ net_name done (r_net (f_head f)) = None /\ net_name done n = Some (r_netname (f_head f))).
  Proof.
    intros [A B C D E]; unfold net_of, acount; destruct (alookup Z.eqb (r_net (f_head f)) (s_netmap s)) as [v|] eqn:L.
    - left; exists s; split; [reflexivity|]; split; [constructor; auto|repeat split; auto].
      + intros n nm; rewrite net_name_snoc; destruct (net_name done n) eqn:N; [intros H; injection H as <-; auto|].
        destruct (Z.eqb_spec (r_net (f_head f)) n) as [<-|_]; [|discriminate].
        rewrite (B _ N) in L; discriminate.
      + intros n; rewrite net_name_snoc; destruct (net_name done n) eqn:N; [discriminate|]; auto.
      + intros nm x H; destruct (E nm x H) as [n N]; exists n; apply net_name_app; auto.
    - assert (net_name done (r_net (f_head f)) = None) as N0.
      { destruct (net_name done (r_net (f_head f))) eqn:N; auto; destruct (A _ _ N) as (x & X & _); congruence. }
      unfold nc_create, nc_count, acount; destruct (alookup String.eqb (r_netname (f_head f)) (nc_map (s_nets s))) as [x|] eqn:F.
      + right; split; auto; destruct (E _ x F) as [n N]; exists n; split; auto; intros ->; congruence.
      + left; eexists; split; [reflexivity|]; simpl; split; [|repeat split; auto].
        * assert (forall nm, nc_find (mkNC (aemplace String.eqb (r_netname (f_head f)) (mkNet (r_netname (f_head f)) (nc_uid (s_nets s))) (nc_map (s_nets s))) (nc_uid (s_nets s) + 1) None) nm =
             match nc_find (s_nets s) nm with Some x => Some x | None => if String.eqb nm (r_netname (f_head f)) then Some (mkNet (r_netname (f_head f)) (nc_uid (s_nets s))) else None end) as FF.
          { intros nm; unfold nc_find, aemplace, acount; simpl; rewrite F, alookup_app; destruct (alookup String.eqb nm _) eqn:G; auto; simpl; destruct (String.eqb nm _); auto. }
          constructor; cbn [s_nets s_netmap].
          -- intros n nm; rewrite net_name_snoc; destruct (net_name done n) eqn:N.
             ++ intros H; injection H as <-; destruct (A _ _ N) as (x & X1 & X2); exists x; rewrite emplace_lookup, X1, FF, X2; auto.
             ++ destruct (Z.eqb_spec (r_net (f_head f)) n) as [<-|_]; [|discriminate]; intros H; injection H as <-.
                exists (mkNet (r_netname (f_head f)) (nc_uid (s_nets s))); rewrite emplace_lookup, L, Z.eqb_refl; split; [reflexivity|].
                rewrite FF; unfold nc_find; rewrite F, String.eqb_refl; reflexivity.
          -- intros n; rewrite net_name_snoc; destruct (net_name done n) eqn:N; [discriminate|].
             rewrite emplace_lookup, (B _ N); destruct (Z.eqb_spec (r_net (f_head f)) n); [discriminate|]; destruct (Z.eqb_spec n (r_net (f_head f))); [congruence|auto].
          -- intros n m i; rewrite !emplace_lookup.
             destruct (alookup Z.eqb n (s_netmap s)) eqn:N1, (alookup Z.eqb m (s_netmap s)) eqn:N2; intros X Y.
             ++ apply (C n m i); congruence.
             ++ destruct (Z.eqb_spec m (r_net (f_head f))); [|discriminate]; apply D in N1; simpl in Y; injection X as ->; injection Y as <-; lia.
             ++ destruct (Z.eqb_spec n (r_net (f_head f))); [|discriminate]; apply D in N2; simpl in X; injection Y as ->; injection X as <-; lia.
             ++ destruct (Z.eqb_spec n (r_net (f_head f))); [|discriminate]; destruct (Z.eqb_spec m (r_net (f_head f))); [congruence|discriminate].
          -- intros n i; rewrite emplace_lookup; simpl; destruct (alookup Z.eqb n (s_netmap s)) eqn:N; intros X.
             ++ injection X as <-; apply D in N; lia.
             ++ destruct (Z.eqb n (r_net (f_head f))); [injection X as <-; lia|discriminate].
          -- intros nm x; rewrite FF; destruct (nc_find (s_nets s) nm) eqn:G; intros X.
             ++ destruct (E _ _ G) as [k K]; exists k; apply net_name_app; auto.
             ++ destruct (String.eqb_spec nm (r_netname (f_head f))) as [->|]; [|discriminate].
                exists (r_net (f_head f)); rewrite net_name_snoc, N0, Z.eqb_refl; auto.
        * intros n i H; rewrite emplace_lookup, H; auto.
  Qed.

  Lemma filter_snoc {A} (p : A -> bool) l x : filter p (l ++ [x]) = filter p l ++ (if p x then [x] else []).
  Proof. rewrite filter_app; simpl; destruct (p x); auto. Qed.
  Lemma Forall2_snoc {A B} (R : A -> B -> Prop) l k a b : Forall2 R l k -> R a b -> Forall2 R (l ++ [a]) (k ++ [b]).
  Proof. intros; apply Forall2_app; auto. Qed.
  Lemma Forall2_imp {A B} (R S : A -> B -> Prop) l k : (forall a b, R a b -> S a b) -> Forall2 R l k -> Forall2 S l k.
  Proof. intros H; induction 1; constructor; auto. Qed.

  Lemma fig_step done s f : Inv done s ->
    (exists s1 s2, net_of (f_head f) s = Ok s1 /\ place (f_head f) (shape_of f) s1 = Ok s2 /\ Inv (done ++ [f]) s2 /\ s_pts s2 = s_pts s) \/
    (net_of (f_head f) s = UB /\ exists n, n <> r_net (f_head f) /\ net_name done (r_net (f_head f)) = None /\ net_name done n = Some (r_netname (f_head f))).
  Proof.
    intros I; destruct I as [IL LN LO LI NN NO NI NL NU SG VS PR].
    destruct (net_step done s f) as [(s1 & E1 & [A B C D E] & Ely & Elm & Esm & Evs & Epr & Ept & Mono)|R]; [constructor; auto| |right; auto].
    left; exists s1; unfold place; destruct (r_via (f_head f)) eqn:V.
    - assert (is_plain f = false) as V1 by (unfold is_plain; rewrite V; auto).
      assert (is_via f = true) as V2 by auto.
      eexists; split; [auto|]; split; [reflexivity|]; split; [|simpl; auto].
      constructor; cbn; rewrite ?Ely, ?Elm, ?Esm, ?Evs, ?Epr; auto.
      + intros l n; rewrite layer_name_snoc, V1; destruct (layer_name done l) eqn:N; [intros H; injection H as <-; auto|discriminate].
      + intros l; rewrite layer_name_snoc, V1; destruct (layer_name done l) eqn:N; [discriminate|auto].
      + intros k; rewrite signal_layer_snoc, V1; rewrite SG; destruct (signal_layer done k); auto.
      + rewrite filter_snoc, V2, map_app, VS; auto.
      + rewrite filter_snoc, V1, app_nil_r; eapply Forall2_imp; [|exact PR]; cbv beta; intros f' p (X & Y & Z); auto.
    - assert (is_plain f = true) as V1 by (unfold is_plain; rewrite V; auto).
      assert (is_via f = false) as V2 by auto.
      assert (exists w, alookup Z.eqb (r_net (f_head f)) (s_netmap s1) = Some w) as [w W].
      { destruct (net_name (done ++ [f]) (r_net (f_head f))) eqn:N; [destruct (A _ _ N) as (x & X & _); eauto|].
        rewrite net_name_snoc, Z.eqb_refl in N; destruct (net_name done (r_net (f_head f))); discriminate. }
      rewrite Ely, Elm, Esm, Evs, Epr.
      assert (forall k, alookup Z.eqb k (aemplace Z.eqb (r_sig1 (f_head f)) (r_layer (f_head f)) (s_sigmap s)) = signal_layer (done ++ [f]) k) as SG'.
      { intros k; rewrite emplace_lookup, signal_layer_snoc, V1, SG; destruct (signal_layer done k); auto; cbn [andb]; rewrite (Z.eqb_sym k); auto. }
      unfold acount; destruct (alookup Z.eqb (r_layer (f_head f)) (s_lyrmap s)) as [i|] eqn:L.
      + unfold at_; rewrite L, W; cbn [bind]; eexists; split; [auto|]; split; [reflexivity|]; split; [|simpl; auto].
        constructor; cbn; auto.
        * intros l n; rewrite layer_name_snoc; destruct (layer_name done l) eqn:N; [intros H; injection H as <-; auto|].
          rewrite V1; cbn [andb]; destruct (Z.eqb_spec (r_layer (f_head f)) l) as [<-|_]; [|discriminate]; rewrite (LO _ N) in L; discriminate.
        * intros l; rewrite layer_name_snoc; destruct (layer_name done l) eqn:N; [discriminate|auto].
        * rewrite filter_snoc, V2, app_nil_r; auto.
        * rewrite filter_snoc, V1; apply Forall2_snoc; [|cbn; auto].
          eapply Forall2_imp; [|exact PR]; cbv beta; intros f' p (X & Y & Z); auto.
      + unfold at_; cbn [append_layer]; unfold append_layer; cbv zeta.
        rewrite emplace_lookup, L, Z.eqb_refl, W; cbn [bind]; eexists; split; [auto|]; split; [reflexivity|]; split; [|simpl; auto].
        assert (forall l i, alookup Z.eqb l (s_lyrmap s) = Some i -> (0 <= i < Z.of_nat (List.length (ly_list (s_layers s))))%Z) as RG.
        { intros l i H; destruct (layer_name done l) eqn:N; [|rewrite (LO _ N) in H; discriminate].
          destruct (LN _ _ N) as (j & x & X1 & X2 & _); rewrite X1 in H; injection H as <-.
          assert (j < List.length (ly_list (s_layers s))) by (apply nth_error_Some; congruence); lia. }
        constructor; cbn [s_nets s_layers s_netmap s_lyrmap s_sigmap s_vias s_prims s_pts]; auto.
        * eapply inv_append; [exact IL|reflexivity].
        * intros l n; rewrite layer_name_snoc; destruct (layer_name done l) eqn:N.
          -- intros H; injection H as <-; destruct (LN _ _ N) as (j & x & X1 & X2 & X3); exists j, x.
             rewrite emplace_lookup, X1; split; auto; split; auto; cbn [ly_list]; rewrite nth_error_app1; auto; apply nth_error_Some; congruence.
          -- rewrite V1; cbn [andb]; destruct (Z.eqb_spec (r_layer (f_head f)) l) as [<-|_]; [|discriminate]; intros H; injection H as <-.
             exists (List.length (ly_list (s_layers s))); eexists; rewrite emplace_lookup, L, Z.eqb_refl; split; [auto|].
             cbn [ly_list]; rewrite nth_error_app2, Nat.sub_diag by auto; split; [reflexivity|reflexivity].
        * intros l; rewrite layer_name_snoc; destruct (layer_name done l) eqn:N; [discriminate|].
          rewrite V1; cbn [andb]; rewrite emplace_lookup, (LO _ N); destruct (Z.eqb_spec (r_layer (f_head f)) l); [discriminate|]; destruct (Z.eqb_spec l (r_layer (f_head f))); [congruence|auto].
        * intros l k i; rewrite !emplace_lookup.
          destruct (alookup Z.eqb l (s_lyrmap s)) eqn:N1, (alookup Z.eqb k (s_lyrmap s)) eqn:N2; intros X Y.
          -- apply (LI l k i); congruence.
          -- destruct (Z.eqb_spec k (r_layer (f_head f))); [|discriminate]; apply RG in N1; injection X as ->; injection Y as <-; lia.
          -- destruct (Z.eqb_spec l (r_layer (f_head f))); [|discriminate]; apply RG in N2; injection Y as ->; injection X as <-; lia.
          -- destruct (Z.eqb_spec l (r_layer (f_head f))); [|discriminate]; destruct (Z.eqb_spec k (r_layer (f_head f))); [congruence|discriminate].
        * rewrite filter_snoc, V2, app_nil_r; auto.
        * rewrite filter_snoc, V1; apply Forall2_snoc.
          -- eapply Forall2_imp; [|exact PR]; cbv beta; intros f' p (X & Y & Z); rewrite emplace_lookup, Y; auto.
          -- cbn; rewrite emplace_lookup, L, Z.eqb_refl; auto.
  Qed.

  Lemma inv_set_pts done s pts : Inv done s -> Inv done (set_pts pts s).
  Proof. intros []; constructor; auto. Qed.

  Lemma loop_spec figs : forall done s fuel extra, Forall well_formed figs -> Inv done s -> s_pts s = file_points figs ++ extra ->
    List.length (file_records figs) <= fuel ->
    (exists s', records_loop fuel (file_records figs) s = Ok s' /\ Inv (done ++ figs) s' /\ s_pts s' = extra) \/
    (records_loop fuel (file_records figs) s = UB /\ ~ names_injective (done ++ figs)).
  Proof.
    induction figs as [|f figs IH]; intros done s fuel extra W I Ep Fu.
    - left; exists s; rewrite app_nil_r; destruct fuel; auto.
    - inversion W as [|? ? [W1 [W2 W3]] W4]; subst.
      cbn [file_records flat_map app List.length] in *; fold (file_records figs) in *.
      destruct fuel as [|fuel]; [lia|]; cbn [records_loop]; rewrite W1.
      cbn [file_points flat_map] in Ep; fold (file_points figs) in Ep; rewrite <- !app_assoc in Ep; rewrite Ep.
      rewrite (take_points_exact _ _ _ W2); cbn [bind fst snd].
      rewrite (take_holes_exact _ _ _ (starts_file _ W4) W3); cbn [bind fst snd].
      change (f_outline f, map snd (f_holes f)) with (shape_of f).
      destruct (fig_step done (set_pts (file_points figs ++ extra) s) f) as [(s1 & s2 & E1 & E2 & I2 & P2)|[E (n & N1 & N2 & N3)]].
      + apply inv_set_pts; auto.
      + rewrite E1; cbn [bind]; rewrite E2; cbn [bind].
        destruct (IH (done ++ [f]) s2 fuel extra W4 I2 P2) as [(s' & X)|X].
        * rewrite app_length, map_length in Fu; lia.
        * left; exists s'; rewrite <- app_assoc in X; auto.
        * right; rewrite <- app_assoc in X; auto.
      + right; rewrite E; split; auto; intros H; apply N1; apply (H n (r_net (f_head f)) (r_netname (f_head f))).
        * apply net_name_app; auto.
        * change (f :: figs) with ([f] ++ figs); rewrite app_assoc; apply net_name_app; rewrite net_name_snoc, N2, Z.eqb_refl; auto.
  Qed.

  (** ** Padstacks *)
  Definition padstack_of (s : state P) (f : figure) (i : padstack P) : Prop :=
    i_shape i = shape_of f /\ alookup Z.eqb (r_net (f_head f)) (s_netmap s) = Some (i_net i) /\
    (exists l, alookup Z.eqb (r_sig1 (f_head f)) (s_sigmap s) = Some l /\ alookup Z.eqb l (s_lyrmap s) = Some (i_top i)) /\
    (exists l, alookup Z.eqb (r_sig2 (f_head f)) (s_sigmap s) = Some l /\ alookup Z.eqb l (s_lyrmap s) = Some (i_bot i)).
  Definition via_of (f : figure) : via P := {| v_net := r_net (f_head f); v_sig1 := r_sig1 (f_head f); v_sig2 := r_sig2 (f_head f); v_shape := shape_of f |}.
  Lemma padstacks_spec s (fs : list figure) :
    (forall f, In f fs -> exists n, alookup Z.eqb (r_net (f_head f)) (s_netmap s) = Some n) ->
    (forall k l, alookup Z.eqb k (s_sigmap s) = Some l -> exists i, alookup Z.eqb l (s_lyrmap s) = Some i) ->
    (exists ps, padstacks s (map via_of fs) = Ok ps /\ Forall2 (padstack_of s) fs ps) \/
    (padstacks s (map via_of fs) = Throw /\ exists f, In f fs /\ (alookup Z.eqb (r_sig1 (f_head f)) (s_sigmap s) = None \/ alookup Z.eqb (r_sig2 (f_head f)) (s_sigmap s) = None)).
  Proof.
    intros H1 H2; induction fs as [|f fs IH]; [left; exists []; auto|].
    destruct (H1 f) as [n N]; [left; auto|].
    cbn [map padstacks via_of v_net v_sig1 v_sig2 v_shape]; unfold at_; rewrite N; cbn [bind].
    destruct (alookup Z.eqb (r_sig1 (f_head f)) (s_sigmap s)) as [l1|] eqn:S1; cbn [bind].
    2:{ right; split; auto; exists f; split; [left; auto|auto]. }
    destruct (H2 _ _ S1) as [t T]; rewrite T; cbn [bind].
    destruct (alookup Z.eqb (r_sig2 (f_head f)) (s_sigmap s)) as [l2|] eqn:S2; cbn [bind].
    2:{ right; split; auto; exists f; split; [left; auto|auto]. }
    destruct (H2 _ _ S2) as [b B]; rewrite B; cbn [bind].
    destruct IH as [(ps & E & F)|(E & g & G1 & G2)]; [intros; apply H1; right; auto| |].
    - rewrite E; cbn [bind]; left; eexists; split; [reflexivity|]; constructor; auto; split; [reflexivity|split; [exact N|split; [exists l1; auto|exists l2; auto]]].
    - rewrite E; right; split; auto; exists g; split; [right; auto|auto].
  Qed.

  (** ** Points *)
  Definition total_points (rs : list record) : nat := list_sum (map r_points rs).
  Lemma take_holes_cases rs : forall pts : list P,
    (exists hs hrs rest extra, take_holes rs pts = Ok (hs, rest, extra) /\ rs = hrs ++ rest /\ starts_plain rest /\ pts = List.concat hs ++ extra /\
       List.length hs = List.length hrs /\ Forall2 (fun r h => r_hole r = true /\ List.length h = r_points r) hrs hs) \/
    (take_holes rs pts = UB).
  Proof.
    induction rs as [|r rs IH]; intros pts; cbn [take_holes].
    - left; exists [], [], [], pts; repeat split; auto.
    - destruct (r_hole r) eqn:H.
      + destruct (take_points (r_points r) pts) as [[o q]| | |] eqn:T; cbn [bind fst snd];
          try (unfold take_points in T; destruct (_ <=? _); discriminate).
        * apply take_points_ok in T as [-> T]; destruct (IH q) as [(hs & hrs & rest & extra & E & -> & S & -> & Le & F)|E]; rewrite E; cbn [bind fst snd]; auto.
          left; exists (o :: hs), (r :: hrs), rest, extra; simpl; rewrite app_assoc; repeat split; auto.
        * auto.
      + left; exists [], [], (r :: rs), pts; repeat split; auto.
  Qed.
  Lemma total_app a b : total_points (a ++ b) = total_points a + total_points b.
  Proof. unfold total_points; rewrite map_app, list_sum_app; auto. Qed.
  Lemma holes_total hrs (hs : list (list P)) : Forall2 (fun r h => r_hole r = true /\ List.length h = r_points r) hrs hs -> total_points hrs = List.length (List.concat hs).
  Proof. induction 1 as [|r h hrs hs [_ E] _ IH]; simpl; auto; unfold total_points in *; simpl; rewrite app_length, IH, E; auto. Qed.

  (** Every record list that starts with an outline, with enough points, is a list of figures. *)
  Lemma figures_exist : forall n rs (pts : list P), List.length rs <= n -> starts_plain rs -> total_points rs <= List.length pts ->
    exists figs extra, Forall well_formed figs /\ rs = file_records figs /\ pts = file_points figs ++ extra.
  Proof.
    induction n as [|n IH]; intros rs pts L S T.
    - destruct rs; [|simpl in L; lia]; exists [], pts; auto.
    - destruct rs as [|r rs]; [exists [], pts; auto|].
      unfold total_points in T; cbn [map list_sum fold_right] in T; change (fold_right Nat.add 0 (map r_points rs)) with (total_points rs) in T.
      destruct (take_holes_cases rs (skipn (r_points r) pts)) as [(hs & hrs & rest & extra & E & -> & Sr & Ep & Le & F)|E].
      + rewrite total_app, (holes_total _ _ F) in T; simpl in L; rewrite app_length in L.
        destruct (IH rest extra) as (figs & ex & W & -> & ->); auto; [lia| |].
        { apply (f_equal (@List.length P)) in Ep; rewrite skipn_length, app_length in Ep; lia. }
        exists ({| f_head := r; f_outline := firstn (r_points r) pts; f_holes := combine hrs hs |} :: figs), ex.
        assert (map fst (combine hrs hs) = hrs /\ map snd (combine hrs hs) = hs) as [M1 M2].
        { clear - F; induction F as [|a b l k R F [I1 I2]]; simpl; split; auto; congruence. }
        split; [|split].
        * constructor; auto; split; [auto|split]; cbn.
          -- rewrite firstn_length; lia.
          -- clear - F; induction F as [|a b l k R F IHF]; simpl; constructor; auto.
        * cbn [file_records flat_map]; cbn; rewrite M1; auto.
        * cbn [file_points flat_map]; cbn; rewrite M2, <- !app_assoc; fold (file_points figs); rewrite <- Ep, firstn_skipn; auto.
      + exfalso; clear IH L.
        assert (total_points rs <= List.length (skipn (r_points r) pts)) as T' by (rewrite skipn_length; lia).
        revert T' E; generalize (skipn (r_points r) pts); clear; induction rs as [|r rs IH]; intros pts T E; cbn [take_holes] in E; [discriminate|].
        destruct (r_hole r); [|discriminate]; unfold total_points in T; cbn in T; change (fold_right Nat.add 0 (map r_points rs)) with (total_points rs) in T.
        unfold take_points in E; destruct (r_points r <=? List.length pts) eqn:Q; [|apply Nat.leb_gt in Q; lia].
        cbn [bind fst snd] in E; destruct (take_holes rs (skipn (r_points r) pts)) eqn:X; try discriminate.
        apply (IH (skipn (r_points r) pts)); auto; rewrite skipn_length; apply Nat.leb_le in Q; lia.
  Qed.

  (** The loop never throws, and succeeds only with enough points. *)
  Lemma net_of_cases r (s : state P) : (exists s', net_of r s = Ok s' /\ s_pts s' = s_pts s /\ exists i, alookup Z.eqb (r_net r) (s_netmap s') = Some i) \/ net_of r s = UB.
  Proof.
    unfold net_of, acount; destruct (alookup Z.eqb (r_net r) (s_netmap s)) eqn:E; [left; eauto|].
    destruct (nc_create _ _) as [c [x|]]; [left|right; auto]; eexists; split; [reflexivity|]; split; auto.
    exists (net_id x); simpl; rewrite emplace_lookup, E, Z.eqb_refl; auto.
  Qed.
  Lemma place_ok r sh (s : state P) i : alookup Z.eqb (r_net r) (s_netmap s) = Some i -> exists s', place r sh s = Ok s' /\ s_pts s' = s_pts s.
  Proof.
    intros N; unfold place; destruct (r_via r); [eexists; split; reflexivity|].
    unfold acount; destruct (alookup Z.eqb (r_layer r) (s_lyrmap s)) eqn:L; cbn [append_layer].
    - unfold at_; rewrite L, N; cbn [bind]; eexists; split; reflexivity.
    - unfold append_layer, at_; rewrite emplace_lookup, L, Z.eqb_refl, N; cbn [bind]; eexists; split; reflexivity.
  Qed.
  Lemma short_ub fuel : forall rs (s : state P), List.length rs <= fuel -> starts_plain rs -> List.length (s_pts s) < total_points rs -> records_loop fuel rs s = UB.
  Proof.
    induction fuel as [|fuel IH]; intros rs s L S T.
    - destruct rs; [unfold total_points in T; simpl in T; lia|simpl in L; lia].
    - destruct rs as [|r rs]; [unfold total_points in T; simpl in T; lia|]; simpl in S, L; cbn [records_loop]; rewrite S.
      unfold total_points in T; cbn in T; change (fold_right Nat.add 0 (map r_points rs)) with (total_points rs) in T.
      destruct (take_points (r_points r) (s_pts s)) as [[o q]| | |] eqn:E; cbn [bind fst snd]; auto;
        try (unfold take_points in E; destruct (_ <=? _); discriminate).
      apply take_points_ok in E as [E Lo]; rewrite E, app_length in T.
      destruct (take_holes_cases rs q) as [(hs & hrs & rest & extra & E2 & -> & Sr & Eq & Le & F)|E2]; rewrite E2; cbn [bind fst snd]; auto.
      rewrite total_app, (holes_total _ _ F), Eq, app_length in T; rewrite app_length in L.
      destruct (net_of_cases r (set_pts extra s)) as [(s1 & E3 & P1 & i & N)|E3]; rewrite E3; cbn [bind]; auto.
      destruct (place_ok r (o, hs) s1 i N) as (s2 & E4 & P2); rewrite E4; cbn [bind].
      apply IH; auto; [lia|]; rewrite P2, P1; simpl; lia.
  Qed.
End Points.
