(** Theorems about copies of layouts and databases, and about saving. *)
From Verif Require Import Base Copy_Model Copy_Spec Copy_Proofs.
Open Scope res_scope.

Section C110.
  Context {A : Type}.

  Lemma same_keys (l l' : layout A) : same_content l l' -> map fst (l_comps l') = map fst (l_comps l).
  Proof. intros [_ _ H _ _ _ _]. induction H as [|? ? ? ? (H & _) _ IH]; cbn; congruence. Qed.

  Lemma ends_copied (l l' : layout A) e' : same_content l l' -> In e' (ends l') -> exists e, In e (ends l) /\ end_copied l l' e e'.
  Proof.
    intros [_ _ _ _ H _ _]. unfold ends. revert H. generalize (l_prims l) (l_prims l').
    induction 1 as [|p p' r r' H F IH]; intros HI; [destruct HI|]. cbn [flat_map] in *. apply in_app_or in HI. destruct HI as [HI|HI].
    - destruct p as [w|], p' as [w'|]; try (destruct HI; fail); try (destruct H; fail).
      destruct H as (_ & H1 & H2). destruct HI as [HI|[HI|[]]]; subst e'.
      + exists (w_start w). split; [now left|exact H1].
      + exists (w_end w). split; [right; now left|exact H2].
    - destruct (IH HI) as (e & H1 & H2). exists e. split; [apply in_or_app; now right|exact H2].
  Qed.

  (** C110. The copy of a layout whose components have kept their names has the same content in new objects, and its bond
      wires end at its own components: each at the one under the key of the component the original ends at. *)
  Theorem C110_layout_copy heap n (l : layout A) :
    named l -> own_ends l -> alive_in heap l ->
    exists l', copy_layout heap n l = Ok l' /\ same_content l l' /\ fresh n (addrs l') /\ named l' /\ own_ends l'.
  Proof.
    intros HN HO HA. destruct (copy_layout_ok heap n l HN HO HA) as (l' & E & SC & AD & _).
    exists l'. split; [exact E|]. split; [exact SC|]. split; [rewrite AD; apply fresh_seq|]. split.
    - destruct HN as [ND NM]. split; [rewrite (same_keys l l' SC); exact ND|]. intros k c Hc.
      destruct SC as [_ _ H _ _ _ _]. revert H Hc NM. generalize (l_comps l) (l_comps l'). induction 1 as [|x y r r' (H1 & H2 & _) F IH]; intros Hc NM; [destruct Hc|].
      destruct Hc as [Hc|Hc]; [|apply IH; [exact Hc|intros k' c' H'; apply NM; now right]].
      subst y. destruct x as [k0 c0]. cbn in *. rewrite H2, H1. apply NM. now left.
    - intros e' p He Hp. destruct (ends_copied l l' e' SC He) as (e & _ & H). unfold end_copied in H.
      destruct (e_comp e) as [q|] eqn:Eq; [|subst; congruence].
      destruct H as (_ & _ & k & c & c' & _ & _ & H & H'). exists k, c'. split; [exact H|]. congruence.
  Qed.

  (** C110. The side an end of a wire is on is the same in the original and in the copy. *)
  Theorem C110_wire_sides (flipped : A -> bool) own heap heap' n (l l' : layout A) e e' p :
    named l -> own_ends l -> alive_in heap l -> copy_layout heap n l = Ok l' -> alive_in heap' l' ->
    In e (ends l) -> e_comp e = Some p -> e_lyr e = OnComponent -> end_copied l l' e e' ->
    end_side flipped own heap' e' = end_side flipped own heap e.
  Proof.
    intros HN HO HA E HA' He Hp Hl HC. destruct (C110_layout_copy heap n l HN HO HA) as (l0 & E0 & SC & FR & HN' & _).
    rewrite E in E0. injection E0 as <-. unfold end_copied in HC. rewrite Hp in HC. destruct HC as (_ & Hl' & k & c & c' & H1 & H2 & H3 & H4).
    unfold end_side. rewrite Hl, Hl', Hp, H4. subst p.
    rewrite (deref_in heap c (proj1 HA) (proj2 HA k c H1)), (deref_in heap' c' (proj1 HA') (proj2 HA' k c' H3)). cbn [bind]. do 2 f_equal.
    destruct SC as [_ _ H _ _ _ _]. destruct HN as [ND _]. revert H H1 H3 ND. generalize (l_comps l) (l_comps l').
    induction 1 as [|[k1 c1] [k2 c2] r r' (K & _ & D) F IH]; intros H1 H3 ND; [destruct H1|]. cbn in *. inversion ND; subst.
    assert (KS : map fst r' = map fst r). { clear -F. induction F as [|? ? ? ? (H & _) _ IH]; cbn; congruence. }
    destruct H1 as [H1|H1], H3 as [H3|H3]; try (inversion H1; subst); try (inversion H3; subst); auto.
    - exfalso. apply H2. rewrite <- KS. apply (in_map fst) in H3. exact H3.
    - exfalso. apply H2. apply (in_map fst) in H1. exact H1.
  Qed.
End C110.

Definition wire_of (a : addr) (p q : addr) : prim nat :=
  PWire (mkWire a (mkEnd OnComponent (Some p) "A"%string) (mkEnd OnComponent (Some q) "B"%string) (Some 90) 7).
(** Two components, one of them flipped (odd data), a bond wire between them, an instance, a pad and three models *)
Definition ex_layout (at_ cell : addr) : layout nat :=
  mkLayout at_ "top"%string cell
    [("U1"%string, mkComp (at_ + 1) "U1"%string at_ 80 1); ("U2"%string, mkComp (at_ + 2) "U2"%string at_ 81 0)]
    [mkInst (at_ + 3) at_ 70 None 5] [wire_of (at_ + 4) (at_ + 2) (at_ + 1); POther (at_ + 5) 9] [mkPad (at_ + 6) (Some 90) (Some 91) 3]
    [(MStackup, mkMod (at_ + 7) MStackup (Some at_) 11); (MPrism, mkMod (at_ + 8) MPrism (Some at_) 12); (MLayerCut, mkMod (at_ + 9) MLayerCut None 13)] 2.
Definition heap_of (l : layout nat) : list (comp nat) := map snd (l_comps l).

Lemma ex_ready at_ cell : named (ex_layout at_ cell) /\ own_ends (ex_layout at_ cell) /\ alive_in (heap_of (ex_layout at_ cell)) (ex_layout at_ cell).
Proof.
  split; [|split].
  - split; [cbn; repeat constructor; cbn; intuition discriminate|]. cbn. intros k c [H|[H|[]]]; inversion H; reflexivity.
  - cbn. intros e p [H|[H|[]]]; subst e; cbn; intros [= <-].
    + eexists _, _. split; [right; left; reflexivity|reflexivity].
    + eexists _, _. split; [left; reflexivity|reflexivity].
  - split; [cbn; repeat constructor; cbn; intuition lia|]. cbn. intros k c [H|[H|[]]]; inversion H; auto.
Qed.

Example C110_layout_copy_ex :
  named (ex_layout 10 5) /\ own_ends (ex_layout 10 5) /\ alive_in (heap_of (ex_layout 10 5)) (ex_layout 10 5) /\
  rmap (fun l => (map fst (l_comps l), addrs l, ends l)) (copy_layout (heap_of (ex_layout 10 5)) 100 (ex_layout 10 5)) =
  Ok (["U1"; "U2"]%string, [100; 101; 102; 103; 104; 105; 106; 107; 108; 109],
      [mkEnd OnComponent (Some 102) "A"%string; mkEnd OnComponent (Some 101) "B"%string]).
Proof. repeat split; try apply ex_ready. Qed.

Print Assumptions C110_layout_copy.
Print Assumptions C110_wire_sides.

(** C110. Renaming a component changes its name and nothing else in the layout, and the name of no other component. *)
Theorem C110_rename_only {A} key name (l : layout A) :
  l_at (rename key name l) = l_at l /\ l_name (rename key name l) = l_name l /\ l_cell (rename key name l) = l_cell l /\
  l_insts (rename key name l) = l_insts l /\ l_prims (rename key name l) = l_prims l /\ l_pads (rename key name l) = l_pads l /\
  l_mods (rename key name l) = l_mods l /\ l_data (rename key name l) = l_data l /\
  Forall2 (fun kc kc' => fst kc' = fst kc /\ c_name (snd kc') = (if String.eqb (fst kc) key then name else c_name (snd kc)) /\
      c_at (snd kc') = c_at (snd kc) /\ c_ref (snd kc') = c_ref (snd kc) /\ c_def (snd kc') = c_def (snd kc) /\ c_data (snd kc') = c_data (snd kc))
    (l_comps l) (l_comps (rename key name l)).
Proof.
  do 8 (split; [reflexivity|]). unfold rename. cbn [l_comps]. induction (l_comps l) as [|[k c] r IH]; cbn [map]; constructor; [|exact IH].
  cbn [fst snd]. destruct (String.eqb k key); cbn; auto 10.
Qed.
Example C110_rename_only_ex : map (fun kc => (fst kc, c_name (snd kc))) (l_comps (rename "U1" "die" (ex_layout 10 5))) <> map (fun kc => (fst kc, c_name (snd kc))) (l_comps (ex_layout 10 5)).
Proof. vm_compute. discriminate. Qed.
Print Assumptions C110_rename_only.

(** C110. Not if a component was given another name: the wire of the copy ends nowhere, and asking for its side is
    undefined although the original answers. *)
Theorem C110_renamed_refuted :
  exists (l l' : layout nat) key name e',
    named l /\ own_ends l /\
    copy_layout (heap_of (rename key name l)) 100 (rename key name l) = Ok l' /\
    In e' (ends l') /\ e_comp e' = None /\ end_side Nat.odd false (heap_of l') e' = UB /\
    (forall e, In e (ends (rename key name l)) -> exists b, end_side Nat.odd false (heap_of (rename key name l)) e = Ok b).
Proof.
  exists (ex_layout 10 5). eexists. exists "U1"%string, "die"%string, (mkEnd OnComponent None "B"%string).
  split; [apply ex_ready|]. split; [apply ex_ready|]. split; [vm_compute; reflexivity|].
  split; [right; left; reflexivity|]. split; [reflexivity|]. split; [reflexivity|].
  intros e [H|[H|[]]]; subst e; vm_compute; eauto.
Qed.
Print Assumptions C110_renamed_refuted.

(** C110. If two components have exchanged their names, the copy of a wire ends at the other one. *)
Theorem C110_exchanged_names_refuted :
  exists (l0 l l' : layout nat) e e',
    named l0 /\ own_ends l0 /\ l = rename "U1" "U2" (rename "U2" "U1" l0) /\
    copy_layout (heap_of l) 100 l = Ok l' /\ nth_error (ends l) 0 = Some e /\ nth_error (ends l') 0 = Some e' /\
    end_side Nat.odd false (heap_of l) e = Ok false /\ end_side Nat.odd false (heap_of l') e' = Ok true.
Proof.
  exists (ex_layout 10 5). eexists. eexists. eexists. eexists.
  split; [apply ex_ready|]. split; [apply ex_ready|]. split; [reflexivity|]. split; [vm_compute; reflexivity|].
  split; [vm_compute; reflexivity|]. split; [vm_compute; reflexivity|]. split; vm_compute; reflexivity.
Qed.
Print Assumptions C110_exchanged_names_refuted.

(** C110. A wire whose component is gone cannot be copied. *)
Theorem C110_dead_component_is_ub {A} heap n (l : layout A) w p :
  l_prims l = [PWire w] -> e_comp (w_start w) = Some p -> (forall c, In c heap -> c_at c <> p) -> copy_layout heap n l = UB.
Proof.
  intros H1 H2 H3. unfold copy_layout. rewrite H1. cbn [clone_all clone_prim reattach w_start]. unfold reattach_end. rewrite H2.
  unfold deref. destruct (find (fun c => c_at c =? p) heap) as [c|] eqn:E; [|reflexivity].
  apply find_some in E. destruct E as [E1 E2]. apply Nat.eqb_eq in E2. now destruct (H3 c E1).
Qed.
Example C110_dead_component_is_ub_ex :
  copy_layout [] 100 (mkLayout 10 "top" 5 [] [] [wire_of 11 20 21] [] [] 2) = UB.
Proof. eapply C110_dead_component_is_ub; [reflexivity|reflexivity|]. intros c []. Qed.
Print Assumptions C110_dead_component_is_ub.

Section C111.
  Context {A : Type}.

  (** C111. A copied database has new objects only; its definitions have it as their database, its layouts the new cells
      as theirs, and everything else is as in the original.  Missing: the objects its layouts refer to. *)
  Theorem C111_back_pointers_partial heap n (d : db A) :
    ready heap d ->
    exists d', copy_db heap n d = Ok d' /\ fresh n (db_addrs d') /\ d_at d' = n /\
      (forall k f, In (k, f) (d_defs d') -> f_db f = d_at d' /\ (forall l, f_body f = BCell l -> l_cell l = f_at f)) /\
      Forall2 (fun kf kf' => fst kf' = fst kf /\
        match f_body (snd kf), f_body (snd kf') with BCell l, BCell l' => same_content l l' | BOther a, BOther a' => a' = a | _, _ => False end)
        (d_defs d) (d_defs d').
  Proof.
    intros H. destruct (copy_db_ok heap n d H) as (d' & E & HA & F & FR). exists d'. repeat split; try assumption; try apply FR.
    - rewrite HA. revert H0. clear -F. induction F as [|x y r r' (_ & H & _) F IH]; intros HI; [destruct HI|]. destruct HI as [HI|HI]; [subst y; exact H|auto].
    - intros l Hl. revert H0. clear -F Hl. induction F as [|x y r r' (_ & _ & H) F IH]; intros HI; [destruct HI|]. destruct HI as [HI|HI]; [|auto].
      subst y. cbn in H. rewrite Hl in H. destruct (f_body (snd x)); [apply H|destruct H].
    - clear -F. induction F as [|x y r r' (H1 & _ & H3) F IH]; constructor; [|exact IH]. split; [exact H1|].
      destruct (f_body (snd x)), (f_body (snd y)); try exact H3. apply H3.
  Qed.

  (** C111. Every reference of a layout of the copy is one of the original's: if the original's objects were made before,
      no reference is to an object of the copy. *)
  Theorem C111_references_not_copied heap n (d d' : db A) :
    ready heap d -> copy_db heap n d = Ok d' -> (forall l p, In l (layouts d) -> In p (references l) -> p < n) ->
    forall l' p, In l' (layouts d') -> In p (references l') ->
      (exists l, In l (layouts d) /\ In p (references l)) /\ ~ In p (db_addrs d').
  Proof.
    intros H E HB l' p Hl Hp. destruct (copy_db_ok heap n d H) as (d0 & E0 & HA & F & FR). rewrite E in E0. injection E0 as <-.
    destruct (layout_of_copy n _ _ _ F Hl) as (l & f' & H1 & _ & _ & _ & _ & H2 & _). rewrite H2 in Hp. split; [exists l; auto|].
    intros HI. destruct FR as [_ FR]. rewrite Forall_forall in FR. specialize (FR p HI). specialize (HB l p H1 Hp). lia.
  Qed.

  (** C111. Once the original is gone, asking an instance of the copy for what it instantiates is undefined. *)
  Theorem C111_removed_original_is_ub heap n (d d' : db A) others :
    ready heap d -> copy_db heap n d = Ok d' -> (forall l i, In l (layouts d) -> In i (l_insts l) -> In (i_def i) (map l_at (layouts d))) ->
    (forall l, In l (layouts d) -> l_at l < n) ->
    (forall l l0, In l (flat_map layouts others) -> In l0 (layouts d) -> l_at l <> l_at l0) ->
    forall l' i', In l' (layouts d') -> In i' (l_insts l') -> def_layout (d' :: others) i' = UB.
  Proof.
    intros H E HD HB HO l' i' Hl Hi. destruct (copy_db_ok heap n d H) as (d0 & E0 & HA & F & FR). rewrite E in E0. injection E0 as <-.
    destruct (layout_of_copy n _ _ _ F Hl) as (l & f' & H1 & _ & _ & _ & _ & _ & HI).
    assert (Hi' : exists i, In i (l_insts l) /\ i_def i' = i_def i).
    { clear -HI Hi. induction HI as [|x y r r' H F IH]; [destruct Hi|]. destruct Hi as [Hi|Hi].
      - subst. exists x. split; [now left|exact H].
      - destruct (IH Hi) as (i & H1 & H2). exists i. split; [now right|exact H2]. }
    destruct Hi' as (i & Hi1 & Hi2). unfold def_layout. destruct (find _ _) as [m|] eqn:Ef; [|reflexivity].
    apply find_some in Ef. destruct Ef as [Ef1 Ef2]. apply Nat.eqb_eq in Ef2. rewrite Hi2 in Ef2.
    specialize (HD l i H1 Hi1). rewrite <- Ef2 in HD. apply in_map_iff in HD. destruct HD as (m0 & HD1 & HD2).
    cbn [flat_map] in Ef1. apply in_app_or in Ef1. destruct Ef1 as [Ef1|Ef1].
    - apply layout_addr_in in Ef1. destruct FR as [_ FR]. rewrite Forall_forall in FR. specialize (FR _ Ef1). specialize (HB m0 HD2). lia.
    - destruct (HO m m0 Ef1 HD2). now symmetry.
  Qed.
End C111.

(** A top cell with an instance of a sub cell, and a material *)
Definition ex_sub : layout nat := mkLayout 40 "sub"%string 39 [] [] [POther 41 6] [] [] 4.
Definition ex_top : layout nat := mkLayout 10 "top"%string 9 [("U1"%string, mkComp 11 "U1"%string 10 30 1)] [mkInst 13 10 40 None 5] [wire_of 14 11 11] [] [] 2.
Definition ex_db : db nat :=
  mkDb 1 [("top"%string, mkDefn 9 1 (BCell ex_top)); ("Cu"%string, mkDefn 30 1 (BOther 8)); ("sub"%string, mkDefn 39 1 (BCell ex_sub))].
Lemma ex_db_ready : ready (heap_of ex_top) ex_db.
Proof.
  intros l [H|[H|[]]]; subst l; (split; [|split]).
  - split; [cbn; repeat constructor; cbn; tauto|]. intros k c [H|[]]; inversion H; reflexivity.
  - intros e p [H|[H|[]]]; subst e; cbn; intros [= <-]; eexists _, _; (split; [left; reflexivity|reflexivity]).
  - split; [cbn; repeat constructor; cbn; tauto|]. intros k c [H|[]]; inversion H; now left.
  - split; [constructor|]. intros k c [].
  - intros e p [].
  - split; [cbn; repeat constructor; cbn; tauto|]. intros k c [].
Qed.

Example C111_back_pointers_ex :
  rmap (fun d => (db_addrs d, map (fun kf => f_db (snd kf)) (d_defs d), map l_cell (layouts d))) (copy_db (heap_of ex_top) 100 ex_db) =
  Ok ([100; 101; 102; 103; 104; 105; 106; 107; 108; 109], [100; 100; 100], [101; 107]).
Proof. vm_compute. reflexivity. Qed.

(** C111. So a copied database is not one of its own: the instance in the copy refers to the layout in the original. *)
Theorem C111_self_contained_refuted :
  exists (d d' : db nat) l' i',
    ready (heap_of ex_top) d /\ (forall l p, In l (layouts d) -> In p (flat_map (fun i => [i_ref i; i_def i]) (l_insts l)) -> In p (db_addrs d)) /\
    copy_db (heap_of ex_top) 100 d = Ok d' /\ In l' (layouts d') /\ In i' (l_insts l') /\
    ~ In (i_def i') (db_addrs d') /\ ~ In (i_ref i') (db_addrs d') /\ In (i_def i') (map l_at (layouts d)) /\ def_layout [d'] i' = UB.
Proof.
  exists ex_db. eexists. eexists. eexists. split; [exact ex_db_ready|]. split.
  { intros l p [H|[H|[]]]; subst l; cbn; intuition lia. }
  split; [vm_compute; reflexivity|]. split; [left; reflexivity|]. split; [left; reflexivity|].
  split; [cbn; intuition lia|]. split; [cbn; intuition lia|]. split; [cbn; auto|reflexivity].
Qed.

Print Assumptions C111_back_pointers_partial.
Print Assumptions C111_references_not_copied.
Print Assumptions C111_removed_original_is_ub.
Print Assumptions C111_self_contained_refuted.

Section C112.
  Context {A : Type}.

  (** C112. A model of a layout is in its copy too, with the same data; a layer cut, grid, prism or chip model is one of the
      same type there.  Missing: stack-up prism models. *)
  Theorem C112_models_partial heap n (l l' : layout A) k m :
    named l -> own_ends l -> alive_in heap l -> copy_layout heap n l = Ok l' -> find_model l k = Some m ->
    exists m', find_model l' k = Some m' /\ m_data m' = m_data m /\ (m_kind m <> MStackup -> m_kind m' = m_kind m) /\ n <= m_at m'.
  Proof.
    intros HN HO HA E. destruct (copy_layout_ok heap n l HN HO HA) as (l0 & E0 & SC & AD & _ & _ & _ & HK & _). rewrite E in E0. injection E0 as <-.
    assert (HF : Forall (fun a => n <= a) (map (fun km => m_at (snd km)) (l_mods l'))).
    { apply Forall_forall. intros a Ha. assert (In a (addrs l')) as H. { unfold addrs. right. rewrite !in_app_iff. auto. }
      rewrite AD in H. apply in_seq in H. lia. }
    destruct SC as [_ _ _ _ _ _ SC]. unfold find_model. revert HK SC HF. generalize (l_mods l) (l_mods l').
    induction 1 as [|[k1 m1] [k2 m2] r r' HK F IH]; intros SC HF HM; [discriminate|]. inversion SC; subst. inversion HF; subst. cbn in *. destruct H2 as [-> H2].
    destruct (mkind_eqb k k1); [|auto]. injection HM as <-. exists m2. repeat split; auto. intros HS. rewrite HK. destruct (m_kind m1); congruence.
  Qed.

  (** C112. A stack-up prism model becomes a prism model, and a request for a stack-up prism model is answered with it. *)
  Theorem C112_stackup_sliced heap n (l l' : layout A) m matches :
    named l -> own_ends l -> alive_in heap l -> copy_layout heap n l = Ok l' ->
    reuse_model matches l MStackup = Some m -> m_kind m = MStackup ->
    exists m', reuse_model matches l' MStackup = Some m' /\ m_kind m' = MPrism.
  Proof.
    intros HN HO HA E. destruct (copy_layout_ok heap n l HN HO HA) as (l0 & E0 & SC & _ & _ & _ & _ & HK & _). rewrite E in E0. injection E0 as <-.
    destruct SC as [_ _ _ _ _ _ SC]. unfold reuse_model, find_model. revert HK SC. generalize (l_mods l) (l_mods l').
    induction 1 as [|[k1 m1] [k2 m2] r r' HK F IH]; intros SC HM HS; [discriminate|]. inversion SC; subst. cbn [alookup fst snd] in *. destruct H2 as [-> H2].
    destruct (mkind_eqb MStackup k1); [|auto]. destruct (matches (m_data m1)) eqn:EM; [|discriminate]. injection HM as <-.
    rewrite H2, EM. exists m2. split; [reflexivity|]. rewrite HK, HS. reflexivity.
  Qed.
End C112.

Theorem C112_stackup_refuted :
  exists (l l' : layout nat) m m',
    named l /\ own_ends l /\ copy_layout (heap_of l) 100 l = Ok l' /\
    reuse_model (Nat.eqb 11) l MStackup = Some m /\ m_kind m = MStackup /\ reuse_model (Nat.eqb 11) l' MStackup = Some m' /\ m_kind m' <> MStackup.
Proof.
  exists (ex_layout 10 5). eexists. eexists. eexists. split; [apply ex_ready|]. split; [apply ex_ready|]. split; [vm_compute; reflexivity|].
  split; [reflexivity|]. split; [reflexivity|]. split; [reflexivity|]. discriminate.
Qed.
Example C112_models_ex :
  rmap (fun l => (option_map (fun m => (m_kind m, m_data m)) (find_model l MLayerCut), option_map (fun m => (m_kind m, m_data m)) (find_model l MPrism)))
    (copy_layout (heap_of (ex_layout 10 5)) 100 (ex_layout 10 5)) = Ok (Some (MLayerCut, 13), Some (MPrism, 12)).
Proof. vm_compute. reflexivity. Qed.
Print Assumptions C112_models_partial.
Print Assumptions C112_stackup_sliced.
Print Assumptions C112_stackup_refuted.

Section C113.
  Context {A : Type}.

  (** C113. After any calls that store models in layouts and clear them, a database can be saved to a file that can be
      opened unless a grid or chip model is still there; then an exception comes out and what was in the file is lost.
      If the file cannot be opened the answer is no and it is as before. *)
  Theorem C113_save_partial (d : db A) (hist : layout A -> list mop) dir open f :
    (forall l, In l (layouts d) -> l_mods l = mods_after (hist l)) ->
    let left_over := exists l, In l (layouts d) /\ (stored (hist l) MGrid \/ stored (hist l) MChip) in
    (dir && open = false -> save dir open d f = (Ok false, f)) /\
    (dir && open = true -> ~ left_over -> save dir open d f = (Ok true, Archive d)) /\
    (dir && open = true -> left_over -> save dir open d f = (Throw, Broken)).
  Proof.
    intros HM left_over. unfold save. split; [intros ->; reflexivity|].
    assert (HB : forallb (fun l => forallb (fun km => exported (m_kind (snd km))) (l_mods l)) (layouts d) = true <-> ~ left_over).
    { rewrite forallb_forall. split.
      - intros H (l & Hl & Hs). specialize (H l Hl). rewrite forallb_forall in H. rewrite (HM l Hl) in H.
        destruct (mods_after_ok (hist l)) as [ND HK].
        assert (HS : exists k, exported k = false /\ stored (hist l) k) by (destruct Hs; [exists MGrid|exists MChip]; auto).
        destruct HS as (k & Hk & Hst). apply stored_after in Hst. apply in_map_iff in Hst. destruct Hst as ([k0 m] & E & Hst). cbn in E. subst k0.
        specialize (H _ Hst). cbn in H. rewrite (HK k m) in H; [congruence|]. apply (in_alookup _ mkind_eqb_reflect); assumption.
      - intros HN l Hl. apply forallb_forall. intros [k m] Hm. cbn. rewrite (HM l Hl) in Hm. destruct (mods_after_ok (hist l)) as [ND HK].
        rewrite (HK k m); [|apply (in_alookup _ mkind_eqb_reflect); assumption].
        assert (Hst : stored (hist l) k). { apply stored_after, in_map_iff. exists (k, m). auto. }
        destruct k; try reflexivity; exfalso; apply HN; exists l; auto. }
    split; intros ->.
    - intros HN. apply HB in HN. rewrite HN. reflexivity.
    - intros HL. destruct (forallb _ (layouts d)); [|reflexivity]. exfalso. now apply (proj1 HB eq_refl).
  Qed.
End C113.

Definition one_layout (ms : list (mkind * mod_ nat)) : db nat :=
  mkDb 1 [("top"%string, mkDefn 2 1 (BCell (mkLayout 3 "top"%string 2 [] [] [] [] ms 0)))].
(** C113. So after one extraction of a grid model the database cannot be saved any more, and the attempt destroys the archive
    there was. *)
Theorem C113_saved_refuted :
  exists (ops : list (mop (A := nat))) f, save true true (one_layout []) NoFile = (Ok true, f) /\
    save true true (one_layout (mods_after ops)) f = (Throw, Broken).
Proof. exists [Add (Some (mkMod 5 MPrism (Some 3) 1)); Add (Some (mkMod 4 MGrid None 0))]. eexists. split; reflexivity. Qed.
Example C113_save_ex :
  save true true (one_layout (mods_after [Add (Some (mkMod 4 MGrid None 0)); Clear; Add (Some (mkMod 5 MPrism (Some 3) 1)); Add None])) NoFile =
  (Ok true, Archive (one_layout [(MPrism, mkMod 5 MPrism (Some 3) 1)])).
Proof. vm_compute. reflexivity. Qed.
Print Assumptions C113_save_partial.
Print Assumptions C113_saved_refuted.
