(** C24: merging one layout into another *)
From Verif Require Import Base Names_Model Names_Spec Names_Proofs Net_Model Net_Spec Net_Proofs Bondwire_Model
  Merge_Model Merge_Spec Merge_Proofs.
Local Open Scope Z_scope.

Section Props.
  Context {G D : Type} (mv_geo : G -> G) (mv_pt : Z * Z -> Z * Z) (mv_data : D -> D) (forward : Z -> Z)
          (is_flipped : cptr -> bool).
  Notation layout := (layout G D).
  Notation merge := (merge mv_geo mv_pt mv_data forward is_flipped).

  (** everything the proofs below need about a merge *)
  Lemma merge_inv prefix sep (A B A' : layout) : proper (y_nets A) -> proper (y_nets B) ->
    NoDup (akeys (y_comps A)) -> NoDup (akeys (y_comps B)) -> merge prefix sep A B = Ok A' ->
    exists rs cs new, let nets := map snd (nc_map (y_nets B)) in
      let u := nc_uid (y_nets A) in
      let nm := final_map nets u in
      let cm := combine (akeys (y_comps B)) cs in
      List.length rs = List.length nets /\ List.length cs = List.length (y_comps B) /\
      y_id A' = y_id A /\
      nc_map (y_nets A') = nc_map (y_nets A) ++
        combine rs (map (fun p => mkNet (fst p) (snd p)) (combine rs (zids u (List.length nets)))) /\
      NoDup (akeys (nc_map (y_nets A)) ++ rs) /\
      Forall2 (fun x r => named_after (hier_name prefix sep (net_name x)) r) nets rs /\
      y_comps A' = y_comps A ++ combine cs (map (fun p => copied mv_data forward prefix sep (fst p) (snd p)) (combine cs (map snd (y_comps B)))) /\
      NoDup (akeys (y_comps A) ++ cs) /\
      Forall2 (fun o r => named_after (hier_name prefix sep (c_name (snd o))) r) (y_comps B) cs /\
      y_prims A' = y_prims A ++ new /\
      Forall2 (fun p p' => merge_prim mv_geo mv_pt forward is_flipped (y_id B) (y_id A) nm cm p = Ok p') (y_prims B) new /\
      y_ps A' = y_ps A ++ map (merge_ps mv_data nm) (y_ps B).
  Proof.
    intros PA PB NA NB; unfold Merge_Model.merge; change (aemplace Z.eqb noNet noNet []) with [(noNet, noNet)].
    assert (Hids : NoDup (map net_id (map snd (nc_map (y_nets B))))).
    { rewrite map_map; pose proof (pr_nodup _ PB) as Hnd; pose proof (pr_inj _ PB) as Hi.
      revert Hnd Hi; generalize (nc_map (y_nets B)); clear.
      induction l as [|[n x] l IH]; simpl; [constructor|]; intros Hnd Hi; inversion Hnd as [|? ? Hni Hnd']; subst; constructor.
      - intros Hin; apply in_map_iff in Hin as ((m & y) & E & Hy); simpl in E; apply Hni.
        rewrite (Hi n m x y); auto; apply (in_map fst l (m, y)); auto.
      - apply IH; auto; intros; eapply Hi; eauto. }
    destruct (merge_nets_spec prefix sep (map snd (nc_map (y_nets B))) (y_nets A) [(noNet, noNet)])
      as (rs & Lr & -> & Nr & Fr); [apply PA|auto| |].
    { intros x Hx [E|[]]; simpl in E; apply in_map_iff in Hx as ((n & y) & <- & Hy).
      apply (pr_range _ PB) in Hy; simpl in E; unfold noNet in E; lia. }
    destruct (merge_comps_spec mv_data forward prefix sep (y_comps B) (y_comps A) [] NA NB)
      as (cs & Lc & Ec & Nc & Fc); [intros k _ []|].
    cbn [bind fst snd].
    rewrite Ec; cbn [bind fst snd app].
    destruct (merge_prims _ _ _ _ _ _ _ _ _ _) as [ps| | |] eqn:Ep; try discriminate; cbn [bind].
    intros [= <-]; apply merge_prims_spec in Ep as (new & -> & Fp).
    exists rs, cs, new; cbn [y_id y_nets y_comps y_prims y_ps nc_map]; repeat (split; auto).
  Qed.

  (** merging succeeds whenever every bondwire of B that ends on a component has that component *)
  Theorem C24_merge_succeeds prefix sep (A B : layout) : proper (y_nets A) -> proper (y_nets B) ->
    NoDup (akeys (y_comps A)) -> NoDup (akeys (y_comps B)) -> bw_valid B -> exists A', merge prefix sep A B = Ok A'.
  Proof.
    intros PA PB NA NB Hb; unfold Merge_Model.merge; change (aemplace Z.eqb noNet noNet []) with [(noNet, noNet)].
    assert (Hids : NoDup (map net_id (map snd (nc_map (y_nets B))))).
    { rewrite map_map; pose proof (pr_nodup _ PB) as Hnd; pose proof (pr_inj _ PB) as Hi.
      revert Hnd Hi; generalize (nc_map (y_nets B)); clear.
      induction l as [|[n x] l IH]; simpl; [constructor|]; intros Hnd Hi; inversion Hnd as [|? ? Hni Hnd']; subst; constructor.
      - intros Hin; apply in_map_iff in Hin as ((m & y) & E & Hy); simpl in E; apply Hni.
        rewrite (Hi n m x y); auto; apply (in_map fst l (m, y)); auto.
      - apply IH; auto; intros; eapply Hi; eauto. }
    destruct (merge_nets_spec prefix sep (map snd (nc_map (y_nets B))) (y_nets A) [(noNet, noNet)])
      as (rs & Lr & -> & Nr & Fr); [apply PA|auto| |].
    { intros x Hx [E|[]]; simpl in E; apply in_map_iff in Hx as ((n & y) & <- & Hy).
      apply (pr_range _ PB) in Hy; simpl in E; unfold noNet in E; lia. }
    destruct (merge_comps_spec mv_data forward prefix sep (y_comps B) (y_comps A) [] NA NB)
      as (cs & Lc & Ec & Nc & Fc); [intros k _ []|].
    cbn [bind fst snd]; rewrite Ec; cbn [bind fst snd app].
    match goal with |- context [merge_prims ?a ?b ?c ?d ?e ?f ?g ?h ?i ?j] =>
      destruct (merge_prims_ok a b c d e f g h i Hb j) as [r ->] end.
    cbn [bind]; eauto.
  Qed.

  (** A's objects, nets and components are unchanged, and B contributes exactly one primitive (padstack instance) per
      primitive (padstack instance) of B, in order. *)
  Theorem C24_merge_keeps_target prefix sep (A B A' : layout) : proper (y_nets A) -> proper (y_nets B) ->
    NoDup (akeys (y_comps A)) -> NoDup (akeys (y_comps B)) -> merge prefix sep A B = Ok A' ->
    (exists new, y_prims A' = y_prims A ++ new /\ List.length new = List.length (y_prims B)) /\
    (exists new, y_ps A' = y_ps A ++ new /\ List.length new = List.length (y_ps B)) /\
    (forall n x, nc_find (y_nets A) n = Some x -> nc_find (y_nets A') n = Some x) /\
    (forall k c, alookup String.eqb k (y_comps A) = Some c -> alookup String.eqb k (y_comps A') = Some c) /\
    List.length (y_comps A') = (List.length (y_comps A) + List.length (y_comps B))%nat.
  Proof.
    intros PA PB NA NB E; destruct (merge_inv _ _ _ _ _ PA PB NA NB E)
      as (rs & cs & new & Lr & Lc & _ & En & Nn & Fn & Ec & Nc & Fc & Ep & Fp & Es).
    split; [|split; [|split; [|split]]].
    - exists new; split; auto; clear - Fp; induction Fp; simpl; auto.
    - eexists; split; [exact Es|apply map_length].
    - intros n x Hx; unfold nc_find in *; rewrite En, (alookup_app String.eqb), Hx; auto.
    - intros k c Hk; rewrite Ec, (alookup_app String.eqb), Hk; auto.
    - rewrite Ec, app_length, combine_length, map_length, combine_length, map_length; lia.
  Qed.

  Lemma has_net_nth c i : proper c -> has_net c i ->
    exists k x, nth_error (map snd (nc_map c)) k = Some x /\ net_id x = i /\ 0 <= i.
  Proof.
    intros PC (n & Hn); apply (alookup_in String.eqb string_eqb_reflect) in Hn.
    pose proof (pr_range _ PC _ _ Hn) as Hr; simpl in Hr.
    apply (in_map snd) in Hn; simpl in Hn; apply In_nth_error in Hn as (k & Hk); exists k, (mkNet n i); simpl; auto with zarith.
  Qed.

  (** what happens to a net id of B: noNet stays noNet, a net's id becomes the id of a new net of A', named after the
      prefix and the old name; different ids become different ids *)
  Lemma map_net_facts prefix sep (A B A' : layout) : proper (y_nets A) -> proper (y_nets B) ->
    NoDup (akeys (y_comps A)) -> NoDup (akeys (y_comps B)) -> merge prefix sep A B = Ok A' ->
    let f := map_net (final_map (map snd (nc_map (y_nets B))) (nc_uid (y_nets A))) in
    (forall i, has_net (y_nets B) i -> ~ has_net (y_nets A) (f i) /\ f i <> noNet /\
       exists n n', net_named (y_nets B) i n /\ net_named (y_nets A') (f i) n' /\
                    named_after (prefix ++ sep ++ n)%string n') /\
    (forall i j, has_net (y_nets B) i -> has_net (y_nets B) j -> f i = f j -> i = j) /\ f noNet = noNet.
  Proof.
    intros PA PB NA NB E f; destruct (merge_inv _ _ _ _ _ PA PB NA NB E)
      as (rs & cs & new & Lr & Lc & _ & En & Nn & Fn & _).
    assert (Hids : NoDup (map net_id (map snd (nc_map (y_nets B))))).
    { rewrite map_map; pose proof (pr_nodup _ PB) as Hnd; pose proof (pr_inj _ PB) as Hi.
      revert Hnd Hi; generalize (nc_map (y_nets B)); clear.
      induction l as [|[n x] l IH]; simpl; [constructor|]; intros Hnd Hi; inversion Hnd as [|? ? Hni Hnd']; subst; constructor.
      - intros Hin; apply in_map_iff in Hin as ((m & y) & E & Hy); simpl in E; apply Hni.
        rewrite (Hi n m x y); auto; apply (in_map fst l (m, y)); auto.
      - apply IH; auto; intros; eapply Hi; eauto. }
    assert (Hf : forall i, has_net (y_nets B) i -> exists k x, nth_error (map snd (nc_map (y_nets B))) k = Some x /\
                 net_id x = i /\ f i = nc_uid (y_nets A) + Z.of_nat k).
    { intros i Hi; destruct (has_net_nth _ _ PB Hi) as (k & x & Hk & <- & Hge); exists k, x; split; auto; split; auto.
      unfold f; rewrite (map_net_nth _ _ k x); auto; unfold noNet; lia. }
    split; [|split].
    - intros i Hi; destruct (Hf i Hi) as (k & x & Hk & Hx & Efi); rewrite Efi.
      assert (Hlt : (k < List.length (map snd (nc_map (y_nets B))))%nat)
        by (apply nth_error_Some; rewrite Hk; discriminate).
      split; [|split].
      + intros (n & Hn); apply (alookup_in String.eqb string_eqb_reflect) in Hn.
        apply (pr_range _ PA) in Hn; simpl in Hn; lia.
      + pose proof (pr_uid _ PA); unfold noNet; lia.
      + destruct (nth_error rs k) as [r|] eqn:Er; [|apply nth_error_None in Er; lia].
        exists (net_name x), r; split; [|split].
        * pose proof (nth_error_In _ _ Hk) as Hin; apply in_map_iff in Hin as ((n & y) & Ey & Hy); simpl in Ey; subst y.
          rewrite (pr_name _ PB _ _ Hy); unfold net_named, nc_find.
          rewrite (in_alookup String.eqb string_eqb_reflect n x); [|apply PB|auto].
          rewrite <- Hx, <- (pr_name _ PB _ _ Hy); destruct x; auto.
        * unfold net_named, nc_find; rewrite En, (alookup_app String.eqb).
          assert (Hno : alookup String.eqb r (nc_map (y_nets A)) = None).
          { apply (alookup_none String.eqb string_eqb_reflect); intros Hin; apply nth_error_In in Er.
            apply in_split in Er as (l1 & l2 & ->); rewrite app_assoc in Nn; apply NoDup_remove_2 in Nn.
            apply Nn; rewrite <- app_assoc, in_app_iff; auto. }
          rewrite Hno, (alookup_combine_nth String.eqb string_eqb_reflect) with (i := k) (v := mkNet r (nc_uid (y_nets A) + Z.of_nat k)); auto.
          -- clear - Nn; induction (akeys (nc_map (y_nets A))); auto; inversion Nn; auto.
          -- rewrite nth_error_map.
             assert (Hc : nth_error (combine rs (zids (nc_uid (y_nets A)) (List.length (map snd (nc_map (y_nets B)))))) k
                          = Some (r, nc_uid (y_nets A) + Z.of_nat k)).
             { pose proof (nth_zids (List.length (map snd (nc_map (y_nets B)))) (nc_uid (y_nets A)) k Hlt) as Hz.
               revert Er Hz; generalize (zids (nc_uid (y_nets A)) (List.length (map snd (nc_map (y_nets B))))) as zs; clear.
               generalize (nc_uid (y_nets A) + Z.of_nat k) as z; revert rs.
               induction k as [|k IH]; intros [|a rs] z [|b zs]; simpl; try discriminate; intros H1 H2; [congruence|auto]. }
             rewrite Hc; auto.
        * clear - Fn Hk Er; revert k Hk Er; induction Fn as [|a b l l' Hab Fn IH]; intros [|k]; simpl; try discriminate.
          -- intros [= ->] [= ->]; auto.
          -- apply IH.
    - intros i j Hi Hj; destruct (Hf i Hi) as (k & x & Hk & Hx & ->), (Hf j Hj) as (k' & x' & Hk' & Hx' & ->).
      intros Hkk; assert (k = k') by lia; subst k'; congruence.
    - reflexivity.
  Qed.

  Lemma Forall2_nth {X Y} (R : X -> Y -> Prop) l l' : Forall2 R l l' -> forall i a b,
    nth_error l i = Some a -> nth_error l' i = Some b -> R a b.
  Proof.
    induction 1 as [|a b l l' Hab F IH]; intros [|i] x y; simpl; try discriminate; [intros [= <-] [= <-]; auto|apply IH].
  Qed.

  Lemma merge_prim_net idB idA nm cm (p p' : prim G) :
    merge_prim mv_geo mv_pt forward is_flipped idB idA nm cm p = Ok p' -> p_net p' = map_net nm (p_net p).
  Proof.
    unfold merge_prim; destruct (p_body p); [intros [= <-]; auto|intros [= <-]; auto|].
    destruct merge_bondwire; try discriminate; cbn [bind]; intros [= <-]; auto.
  Qed.

  (** Net identity: [i]-th and [j]-th primitive of B. *)
  Theorem C24_merge_net_identity prefix sep (A B A' : layout) : proper (y_nets A) -> proper (y_nets B) ->
    NoDup (akeys (y_comps A)) -> NoDup (akeys (y_comps B)) -> nets_valid B -> merge prefix sep A B = Ok A' ->
    forall i p p', nth_error (y_prims B) i = Some p -> nth_error (y_prims A') (List.length (y_prims A) + i) = Some p' ->
    (* no net stays no net; otherwise a new net of A' named after the prefix and B's net *)
    (p_net p' = noNet <-> p_net p = noNet) /\
    (p_net p <> noNet -> ~ has_net (y_nets A) (p_net p') /\
       exists n n', net_named (y_nets B) (p_net p) n /\ net_named (y_nets A') (p_net p') n' /\
                    named_after (prefix ++ sep ++ n)%string n') /\
    (* same net iff same net *)
    (forall j q q', nth_error (y_prims B) j = Some q -> nth_error (y_prims A') (List.length (y_prims A) + j) = Some q' ->
       (p_net p' = p_net q' <-> p_net p = p_net q)).
  Proof.
    intros PA PB NA NB [Hv _] E i p p' Hp Hp'.
    destruct (map_net_facts _ _ _ _ _ PA PB NA NB E) as (F1 & F2 & F3).
    destruct (merge_inv _ _ _ _ _ PA PB NA NB E) as (rs & cs & new & _ & _ & _ & _ & _ & _ & _ & _ & _ & Ep & Fp & _).
    assert (Hnet : forall k q q', nth_error (y_prims B) k = Some q ->
              nth_error (y_prims A') (List.length (y_prims A) + k) = Some q' ->
              p_net q' = map_net (final_map (map snd (nc_map (y_nets B))) (nc_uid (y_nets A))) (p_net q)).
    { intros k q q' Hq Hq'; rewrite Ep, nth_error_app2 in Hq' by lia.
      replace (List.length (y_prims A) + k - List.length (y_prims A))%nat with k in Hq' by lia.
      eapply merge_prim_net, (Forall2_nth _ _ _ Fp); eauto. }
    assert (Hval : forall k q, nth_error (y_prims B) k = Some q -> p_net q = noNet \/ has_net (y_nets B) (p_net q))
      by (intros k q Hq; apply Hv; eapply nth_error_In; eauto).
    cbv zeta in F1, F2, F3; set (f := map_net _) in *.
    rewrite (Hnet _ _ _ Hp Hp'); split; [|split].
    - destruct (Hval _ _ Hp) as [En|Hn]; [rewrite En, F3; tauto|].
      destruct (F1 _ Hn) as (_ & Hne & _); split; [intros X; contradiction|].
      intros En; rewrite En in Hn; destruct Hn as (n & Hn).
      apply (alookup_in String.eqb string_eqb_reflect), (pr_range _ PB) in Hn; simpl in Hn; unfold noNet in Hn; lia.
    - intros Hne; destruct (Hval _ _ Hp) as [En|Hn]; [contradiction|].
      destruct (F1 _ Hn) as (H1 & _ & H2); auto.
    - intros j q q' Hq Hq'; rewrite (Hnet _ _ _ Hq Hq'); split; [|congruence].
      destruct (Hval _ _ Hp) as [En|Hn], (Hval _ _ Hq) as [Em|Hm].
      + congruence.
      + rewrite En, F3; intros X; destruct (F1 _ Hm) as (_ & Hne & _); congruence.
      + rewrite Em, F3; intros X; destruct (F1 _ Hn) as (_ & Hne & _); congruence.
      + apply F2; auto.
  Qed.

  (** the same for padstack instances *)
  Theorem C24_merge_padstack_nets prefix sep (A B A' : layout) : proper (y_nets A) -> proper (y_nets B) ->
    NoDup (akeys (y_comps A)) -> NoDup (akeys (y_comps B)) -> nets_valid B -> merge prefix sep A B = Ok A' ->
    forall i s s', nth_error (y_ps B) i = Some s -> nth_error (y_ps A') (List.length (y_ps A) + i) = Some s' ->
    (ps_net s' = noNet <-> ps_net s = noNet) /\ ps_data s' = mv_data (ps_data s) /\
    (forall j p p', nth_error (y_prims B) j = Some p -> nth_error (y_prims A') (List.length (y_prims A) + j) = Some p' ->
       (p_net p' = ps_net s' <-> p_net p = ps_net s)).
  Proof.
    intros PA PB NA NB [Hv Hw] E i s s' Hs Hs'.
    destruct (map_net_facts _ _ _ _ _ PA PB NA NB E) as (F1 & F2 & F3).
    destruct (merge_inv _ _ _ _ _ PA PB NA NB E) as (rs & cs & new & _ & _ & _ & _ & _ & _ & _ & _ & _ & Ep & Fp & Es).
    cbv zeta in F1, F2, F3, Fp, Es; set (f := final_map _ _) in *.
    rewrite Es, nth_error_app2 in Hs' by lia.
    replace (List.length (y_ps A) + i - List.length (y_ps A))%nat with i in Hs' by lia.
    rewrite nth_error_map, Hs in Hs'; injection Hs' as <-; simpl ps_net; simpl ps_data.
    assert (Hno : forall n, n = noNet \/ has_net (y_nets B) n -> (map_net f n = noNet <-> n = noNet)).
    { intros n [->|Hn]; [rewrite F3; tauto|]; destruct (F1 _ Hn) as (_ & Hne & _); split; [contradiction|].
      intros ->; destruct Hn as (m & Hm).
      apply (alookup_in String.eqb string_eqb_reflect), (pr_range _ PB) in Hm; simpl in Hm; unfold noNet in Hm; lia. }
    assert (Vs : ps_net s = noNet \/ has_net (y_nets B) (ps_net s)) by (apply Hw; eapply nth_error_In; eauto).
    split; [apply Hno, Vs|]; split; auto.
    intros j p p' Hp Hp'; rewrite Ep, nth_error_app2 in Hp' by lia.
    replace (List.length (y_prims A) + j - List.length (y_prims A))%nat with j in Hp' by lia.
    rewrite (merge_prim_net _ _ _ _ _ _ (Forall2_nth _ _ _ Fp _ _ _ Hp Hp')).
    assert (Vp : p_net p = noNet \/ has_net (y_nets B) (p_net p)) by (apply Hv; eapply nth_error_In; eauto).
    split; [|congruence]; intros X.
    destruct Vp as [En|Hn]; [rewrite En, F3 in X; symmetry in X; apply (proj1 (Hno _ Vs)) in X; congruence|].
    destruct Vs as [Em|Hm]; [rewrite Em, F3 in X; apply (proj1 (Hno _ (or_intror Hn))) in X; congruence|].
    apply F2; auto.
  Qed.

  (** Shapes: moved, and put on the mapped layer *)
  Theorem C24_merge_shapes prefix sep (A B A' : layout) : proper (y_nets A) -> proper (y_nets B) ->
    NoDup (akeys (y_comps A)) -> NoDup (akeys (y_comps B)) -> merge prefix sep A B = Ok A' ->
    forall i p p', nth_error (y_prims B) i = Some p -> nth_error (y_prims A') (List.length (y_prims A) + i) = Some p' ->
    match p_body p with
    | Geo l g => p_body p' = Geo (forward l) (mv_geo g)
    | Txt l g => p_body p' = Txt (forward l) (mv_geo g)
    | Bw b =>
        exists b', p_body p' = Bw b' /\
        ptr_copy mv_data forward prefix sep A B A' (e_comp (b_start b)) (e_comp (b_start b')) /\
        e_loc (b_start b') = mv_pt (e_loc (b_start b)) /\ e_loc (b_end b') = mv_pt (e_loc (b_end b)) /\
        e_pin (b_start b') = e_pin (b_start b) /\
        (e_layer (b_end b) = ComponentLayer ->
           ptr_copy mv_data forward prefix sep A B A' (e_comp (b_end b)) (e_comp (b_end b')) /\
           e_pin (b_end b') = e_pin (b_end b) /\ e_layer (b_end b') = ComponentLayer) /\
        (e_layer (b_end b) <> ComponentLayer -> e_comp (b_end b') = None /\ e_layer (b_end b') = forward (e_layer (b_end b)))
    end.
  Proof.
    intros PA PB NA NB E i p p' Hp Hp'.
    destruct (merge_inv _ _ _ _ _ PA PB NA NB E)
      as (rs & cs & new & _ & Lc & _ & _ & _ & _ & Ec & Nc & Fc & Ep & Fp & _).
    rewrite Ep, nth_error_app2 in Hp' by lia.
    replace (List.length (y_prims A) + i - List.length (y_prims A))%nat with i in Hp' by lia.
    pose proof (Forall2_nth _ _ _ Fp _ _ _ Hp Hp') as M; unfold merge_prim in M.
    destruct (p_body p) as [l g|l g|b]; [injection M as <-; auto|injection M as <-; auto|].
    destruct merge_bondwire as [b'| | |] eqn:Eb; try discriminate; cbn [bind] in M; injection M as <-.
    exists b'; split; auto.
    set (cm := combine (akeys (y_comps B)) cs) in *.
    assert (R : forall e, ptr_copy mv_data forward prefix sep A B A' (e_comp e)
                  (e_comp (remap_end (y_id B) (y_id A) cm e)) /\
                e_pin (remap_end (y_id B) (y_id A) cm e) = e_pin e /\
                e_loc (remap_end (y_id B) (y_id A) cm e) = e_loc e /\
                (e_layer e = ComponentLayer -> e_layer (remap_end (y_id B) (y_id A) cm e) = ComponentLayer) /\
                (e_comp e = None -> remap_end (y_id B) (y_id A) cm e = e)).
    { intros e; unfold remap_end, ptr_copy; destruct (e_comp e) as [[o k]|] eqn:Ee; [|auto 10].
      destruct (Nat.eqb_spec o (y_id B)) as [->|Hne]; [|rewrite Ee; auto 10].
      destruct (alookup String.eqb k cm) as [k'|] eqn:Ek.
      - destruct (alookup_combine String.eqb string_eqb_reflect _ _ _ _ Ek) as (x & Hx1 & Hx2).
        unfold akeys in Hx1; rewrite nth_error_map in Hx1.
        destruct (nth_error (y_comps B) x) as [[k0 c]|] eqn:Ex; [|discriminate]; simpl in Hx1; injection Hx1 as ->.
        rewrite (in_alookup String.eqb string_eqb_reflect k c); auto; [|eapply nth_error_In; eauto].
        cbn [set_component e_comp e_pin e_loc e_layer]; split; [|split; [auto|split; [auto|split; [auto|discriminate]]]].
        assert (Hout : ~ In k' (akeys (y_comps A))).
        { intros Hin; apply nth_error_In in Hx2; apply in_split in Hx2 as (l1 & l2 & ->).
          rewrite app_assoc in Nc; apply NoDup_remove_2 in Nc; apply Nc; rewrite <- app_assoc, in_app_iff; auto. }
        exists k', (copied mv_data forward prefix sep k' c); split; auto; split; auto; split.
        + rewrite Ec, (alookup_app String.eqb).
          rewrite (proj2 (alookup_none String.eqb string_eqb_reflect _ _)); auto.
          apply (alookup_combine_nth String.eqb string_eqb_reflect) with (i := x); auto.
          * clear - Nc; induction (akeys (y_comps A)); auto; inversion Nc; auto.
          * rewrite nth_error_map.
            assert (Hcmb : nth_error (combine cs (map snd (y_comps B))) x = Some (k', c)).
            { assert (Hs : nth_error (map snd (y_comps B)) x = Some c) by (rewrite nth_error_map, Ex; auto).
              revert Hx2 Hs; generalize (map snd (y_comps B)); clear; revert cs; induction x as [|x IH];
                intros [|a cs] [|b l]; simpl; try discriminate; intros H1 H2; [congruence|auto]. }
            rewrite Hcmb; auto.
        + split; [|split; auto]; simpl.
          pose proof (Forall2_nth _ _ _ Fc _ _ _ Ex Hx2) as Hna; simpl in Hna; exact Hna.
      - assert (El : alookup String.eqb k (y_comps B) = None).
        { apply (alookup_none String.eqb string_eqb_reflect) in Ek; unfold cm in Ek.
          rewrite akeys_combine in Ek by (unfold akeys; rewrite map_length; auto).
          apply (alookup_none String.eqb string_eqb_reflect); auto. }
        rewrite El, Ee; split; auto; split; auto; split; auto; split; auto; discriminate. }
    unfold merge_bondwire, get_layer in Eb; cbn [b_start b_end mv_end raw_set_layer e_layer e_comp] in Eb.
    destruct (Z.eqb_spec ComponentLayer (e_layer (b_end b))) as [EL|EL].
    - destruct (e_comp (b_end b)) as [c|] eqn:Eco; [|discriminate]; cbn [bind fst snd] in Eb.
      rewrite <- EL, Z.eqb_refl in Eb; injection Eb as <-; cbn [b_start b_end].
      match goal with |- context [remap_end _ _ _ ?e] => match e with mv_end _ (raw_set_layer _ _) =>
        destruct (R e) as (R1 & R2 & R3 & R4 & _) end end.
      destruct (R (mv_end mv_pt (b_end b))) as (S1 & S2 & S3 & S4 & _).
      cbn [mv_end raw_set_layer e_comp e_pin e_loc e_layer] in *; rewrite <- EL in *.
      rewrite Eco in S1.
      repeat (split; auto); try congruence.
    - cbn [bind fst snd] in Eb; destruct (Z.eqb_spec (e_layer (b_end b)) ComponentLayer); [congruence|].
      injection Eb as <-; cbn [b_start b_end].
      match goal with |- context [remap_end _ _ _ ?e] => match e with mv_end _ (raw_set_layer _ _) =>
        destruct (R e) as (R1 & R2 & R3 & R4 & _) end end.
      match goal with |- context [remap_end _ _ _ ?e] => match e with set_layer _ _ =>
        destruct (R e) as (_ & _ & S3 & _ & S5) end end.
      rewrite S5 by reflexivity.
      cbn [mv_end set_layer raw_set_layer e_comp e_pin e_loc e_layer] in *.
      repeat (split; auto); try congruence.
  Qed.

  (** Merging does not map the layer range of padstack instances (the source says "todo"). *)
  Theorem C24_padstack_layers_not_mapped prefix sep (A B A' : layout) : proper (y_nets A) -> proper (y_nets B) ->
    NoDup (akeys (y_comps A)) -> NoDup (akeys (y_comps B)) -> merge prefix sep A B = Ok A' ->
    forall i s s', nth_error (y_ps B) i = Some s -> nth_error (y_ps A') (List.length (y_ps A) + i) = Some s' ->
    ps_top s' = ps_top s /\ ps_bot s' = ps_bot s.
  Proof.
    intros PA PB NA NB E i s s' Hs Hs'.
    destruct (merge_inv _ _ _ _ _ PA PB NA NB E) as (rs & cs & new & _ & _ & _ & _ & _ & _ & _ & _ & _ & Ep & Fp & Es).
    rewrite Es, nth_error_app2 in Hs' by lia.
    replace (List.length (y_ps A) + i - List.length (y_ps A))%nat with i in Hs' by lia.
    rewrite nth_error_map, Hs in Hs'; injection Hs' as <-; auto.
  Qed.
End Props.
Print Assumptions C24_merge_succeeds.
Print Assumptions C24_merge_keeps_target.
Print Assumptions C24_merge_net_identity.
Print Assumptions C24_merge_padstack_nets.
Print Assumptions C24_merge_shapes.
Print Assumptions C24_padstack_layers_not_mapped.

(** Example: A has nets "top/a" (id 0); B has nets "a" and "b", a component and a bondwire. *)
Definition nets_of (ops : list net_op) : netcoll := match net_run nc_init ops with Ok p => fst p | _ => nc_init end.
Definition exA : layout Z Z := mkLay 0 (nets_of [CreateNet "top/a"%string]) [("c0"%string, mkComp "c0"%string 0 1 0)] [mkPrim 0 (Geo 0 100)] [].
Definition exB : layout Z Z :=
  mkLay 1 (nets_of [CreateNet "a"%string; CreateNet "b"%string]) [("u"%string, mkComp "u"%string 1 0 5)]
    [mkPrim 0 (Geo 0 1); mkPrim 1 (Geo 1 2); mkPrim 0 (Txt 1 3); mkPrim noNet (Geo 0 4);
     mkPrim 1 (Bw (mkBw (mkEnd ComponentLayer (Some (1%nat, "u"%string)) "p"%string (0, 0) false) (mkEnd 1 None ""%string (1, 1) false)))]
    [mkPs 1 0 1 9].
Definition ex_fwd (l : Z) : Z := if (l <? 0) then l else l + 2.

Example merge_ex :
  match merge (Z.add 10) (fun p => p) (Z.add 10) ex_fwd (fun _ => false) "top"%string "/"%string exA exB with
  | Ok A' => (map p_net (y_prims A'), map fst (y_comps A'), akeys (nc_map (y_nets A')), map (@ps_net Z) (y_ps A'))
  | _ => ([], [], [], [])
  end = ([0; 1; 2; 1; -1; 2], ["c0"%string; "top/u"%string], ["top/a"%string; "top/a1"%string; "top/b"%string], [2]).
Proof. vm_compute; reflexivity. Qed.

Example merge_ex_hyps : proper (y_nets exA) /\ proper (y_nets exB) /\ nets_valid exB /\ bw_valid exB.
Proof.
  split; [apply (reachable_proper [CreateNet "top/a"%string]) with (outs := [ONet (Some (mkNet "top/a"%string 0))]); reflexivity|].
  split; [apply (reachable_proper [CreateNet "a"%string; CreateNet "b"%string])
            with (outs := [ONet (Some (mkNet "a"%string 0)); ONet (Some (mkNet "b"%string 1))]); reflexivity|].
  split; [split|].
  - intros p Hp; simpl in Hp; repeat destruct Hp as [<-|Hp]; simpl; auto; try destruct Hp; right.
    + exists "a"%string; reflexivity.
    + exists "b"%string; reflexivity.
    + exists "a"%string; reflexivity.
    + exists "b"%string; reflexivity.
  - intros s [<-|[]]; right; exists "b"%string; reflexivity.
  - intros p b Hp; simpl in Hp; repeat destruct Hp as [<-|Hp]; simpl; try discriminate; try destruct Hp.
    intros [= <-]; simpl; unfold ComponentLayer; lia.
Qed.

(** After cloning, the id counter of the clone restarts at 0: merging into a cloned layout then makes B's primitive
    join a net the layout had before. *)
Theorem C24_merge_into_clone_refuted :
  exists (A B A' : layout Z Z) p p',
    y_nets A = nets_of [CreateNet "gnd"%string; CloneNets] /\ proper (y_nets B) /\ nets_valid B /\
    merge (Z.add 10) (fun p => p) (Z.add 10) ex_fwd (fun _ => false) "top"%string "/"%string A B = Ok A' /\
    nth_error (y_prims B) 0 = Some p /\ nth_error (y_prims A') (List.length (y_prims A) + 0) = Some p' /\
    p_net p <> noNet /\ has_net (y_nets A) (p_net p').
Proof.
  exists (mkLay 0 (nets_of [CreateNet "gnd"%string; CloneNets]) [] [mkPrim 0 (Geo 0 100)] []),
         (mkLay 1 (nets_of [CreateNet "vdd"%string]) [] [mkPrim 0 (Geo 0 1)] []).
  eexists _, (mkPrim 0 (Geo 0 1)), (mkPrim 0 (Geo 2 11)).
  split; [reflexivity|].
  split; [apply (reachable_proper [CreateNet "vdd"%string]) with (outs := [ONet (Some (mkNet "vdd"%string 0))]); reflexivity|].
  split; [split; [intros p [<-|[]]; right; exists "vdd"%string; reflexivity|intros s []]|].
  split; [vm_compute; reflexivity|].
  split; [reflexivity|]; split; [vm_compute; reflexivity|]; split; [discriminate|].
  exists "gnd"%string; reflexivity.
Qed.
Print Assumptions C24_merge_into_clone_refuted.
