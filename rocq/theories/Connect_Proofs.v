From Coq Require Import Relations Permutation.
From Verif Require Import Base Names_Model Names_Spec Names_Proofs Net_Model Net_Spec Net_Proofs Connect_Model Connect_Spec.
Local Open Scope list_scope.

(** * Lists *)
Lemma nth_snoc {A} (l : list A) x k : nth_error (l ++ [x]) k = if Nat.eqb k (List.length l) then Some x else nth_error l k.
Proof.
  destruct (Nat.eqb_spec k (List.length l)) as [->|H].
  - rewrite nth_error_app2, Nat.sub_diag by lia; reflexivity.
  - destruct (Nat.lt_ge_cases k (List.length l)); [apply nth_error_app1; auto|].
    rewrite (proj2 (nth_error_None l k)) by lia; apply nth_error_None; rewrite app_length; simpl; lia.
Qed.
Lemma nth_lt {A} (l : list A) k x : nth_error l k = Some x -> k < List.length l.
Proof. intros H; apply nth_error_Some; congruence. Qed.

Section Objects.
  Context {G : Type}.
  Implicit Types (P : list (owner * Z * G)) (s : cstate (G := G)).

  Lemma first_piece_fun P o i j : first_piece P o i -> first_piece P o j -> i = j.
  Proof. intros [(l & g & H) A] [(l' & g' & H') B]; specialize (A _ _ _ H'); specialize (B _ _ _ H); lia. Qed.
  Lemma first_piece_inj P o o' i : first_piece P o i -> first_piece P o' i -> o = o'.
  Proof. intros [(l & g & H) _] [(l' & g' & H') _]; congruence. Qed.

  Definition unseen P o : Prop := forall k l g, nth_error P k <> Some (o, l, g).
  Lemma first_piece_new P o l g o' k : unseen P o ->
    first_piece (P ++ [(o, l, g)]) o' k <-> first_piece P o' k \/ (k = List.length P /\ o' = o).
  Proof.
    intros F; unfold first_piece; split.
    - intros [(l' & g' & H) A]; rewrite nth_snoc in H; destruct (Nat.eqb_spec k (List.length P)) as [->|Hk].
      + injection H as <- <- <-; auto.
      + left; split; eauto; intros j l2 g2 H2; apply (A j l2 g2).
        rewrite nth_snoc; destruct (Nat.eqb_spec j (List.length P)); auto; apply nth_lt in H2; lia.
    - intros [[(l' & g' & H) A]|[-> ->]].
      + split.
        * exists l', g'; rewrite nth_snoc; destruct (Nat.eqb_spec k (List.length P)); auto; apply nth_lt in H; lia.
        * intros j l2 g2 H2; rewrite nth_snoc in H2; destruct (Nat.eqb_spec j (List.length P)) as [->|]; [apply nth_lt in H; lia|eauto].
      + split; [exists l, g; rewrite nth_snoc, Nat.eqb_refl; auto|].
        intros j l2 g2 H2; rewrite nth_snoc in H2; destruct (Nat.eqb_spec j (List.length P)) as [->|]; [lia|].
        exfalso; eapply F; eauto.
  Qed.
  Lemma first_piece_old P o l g o' k : ~ unseen P o -> (exists k0 l0 g0, nth_error P k0 = Some (o, l0, g0)) ->
    first_piece (P ++ [(o, l, g)]) o' k <-> first_piece P o' k.
  Proof.
    intros _ (k0 & l0 & g0 & H0); unfold first_piece; split.
    - intros [(l' & g' & H) A]; rewrite nth_snoc in H; destruct (Nat.eqb_spec k (List.length P)) as [->|Hk].
      + injection H as <- <- <-; exfalso; specialize (A k0 l0 g0); rewrite nth_snoc in A.
        pose proof (nth_lt _ _ _ H0); destruct (Nat.eqb_spec k0 (List.length P)); [lia|]; specialize (A H0); lia.
      + split; eauto; intros j l2 g2 H2; apply (A j l2 g2).
        rewrite nth_snoc; destruct (Nat.eqb_spec j (List.length P)); auto; apply nth_lt in H2; lia.
    - intros [(l' & g' & H) A]; split.
      + exists l', g'; rewrite nth_snoc; destruct (Nat.eqb_spec k (List.length P)); auto; apply nth_lt in H; lia.
      + intros j l2 g2 H2; rewrite nth_snoc in H2; destruct (Nat.eqb_spec j (List.length P)) as [->|]; [apply nth_lt in H; lia|eauto].
  Qed.

  Definition drop (x : owner * Z * G) : Z * G := (snd (fst x), snd x).
  (** what the loops maintain: [pre] are the primitives gone through *)
  Record inv (pre : list (cprim G)) P s : Prop := {
    i_objs : c_objs s = map drop P;
    i_conn : forall k o, alookup Nat.eqb k (c_conn s) = Some o <-> first_piece P o k;
    i_texts : forall k t, alookup Nat.eqb k (c_texts s) = Some t <-> text_of pre P k t
  }.

  Lemma emplace_at (k : nat) (o : owner) m k' : alookup Nat.eqb k m = None ->
    alookup Nat.eqb k' (aemplace Nat.eqb k o m) = if Nat.eqb k' k then Some o else alookup Nat.eqb k' m.
  Proof.
    intros H; rewrite (alookup_emplace _ Nat.eqb_spec); destruct (Nat.eqb_spec k' k) as [->|]; [rewrite H; auto|].
    destruct (alookup Nat.eqb k' m); auto.
  Qed.
  Lemma conn_fresh pre P s : inv pre P s -> alookup Nat.eqb (List.length P) (c_conn s) = None.
  Proof.
    intros I; destruct (alookup Nat.eqb (List.length P) (c_conn s)) as [o|] eqn:E; auto.
    apply (i_conn _ _ _ I) in E as [(l & g & H) _]; apply nth_lt in H; lia.
  Qed.
  Lemma text_fresh pre P s : inv pre P s -> alookup Nat.eqb (List.length P) (c_texts s) = None.
  Proof.
    intros I; destruct (alookup Nat.eqb (List.length P) (c_texts s)) as [o|] eqn:E; auto.
    apply (i_texts _ _ _ I) in E as (i & l & g & H & _); apply nth_lt in H; lia.
  Qed.
  Lemma objs_len pre P s : inv pre P s -> List.length (c_objs s) = List.length P.
  Proof. intros I; rewrite (i_objs _ _ _ I), map_length; auto. Qed.

  (** the two ways an object is recorded *)
  Lemma conn_new pre P s o l g : inv pre P s -> unseen P o ->
    forall k o', alookup Nat.eqb k (aemplace Nat.eqb (List.length (c_objs s)) o (c_conn s)) = Some o' <-> first_piece (P ++ [(o, l, g)]) o' k.
  Proof.
    intros I F k o'; rewrite (objs_len _ _ _ I), emplace_at by (eapply conn_fresh; eauto); rewrite first_piece_new by auto.
    destruct (Nat.eqb_spec k (List.length P)) as [->|Hk].
    - split; [intros [= <-]; auto|]; intros [[(l' & g' & H) _]|[_ ->]]; auto; apply nth_lt in H; lia.
    - rewrite (i_conn _ _ _ I); split; auto; intros [?|[? _]]; [auto|lia].
  Qed.

  Lemma text_mono pre pre' P k t : text_of pre P k t -> text_of (pre ++ pre') P k t.
  Proof. intros (i & l & g & H1 & H2); exists i, l, g; split; auto; rewrite nth_error_app1; auto; eapply nth_lt; eauto. Qed.

  Definition owners_below (n : nat) P : Prop := forall k i l g, nth_error P k = Some (OPrim i, l, g) -> i < n.

  Lemma step_other pre P s i : inv pre P s -> owners_below (List.length pre) P -> i = List.length pre ->
    inv (pre ++ [COther]) P s /\ owners_below (S i) P.
  Proof.
    intros I B ->; split; [|intros k j l g H; specialize (B _ _ _ _ H); lia].
    constructor; [apply I|apply I|]; intros k t; rewrite (i_texts _ _ _ I); split; [apply text_mono|].
    intros (j & l & g & H1 & H2); exists j, l, g; split; auto; rewrite nth_error_app1 in H2; eauto.
  Qed.

  Lemma step_piece pre P s l g tx s' : inv pre P s -> owners_below (List.length pre) P ->
    s' = {| c_objs := c_objs s ++ [(l, g)]; c_texts := match tx with Some t => c_texts s ++ [(List.length (c_objs s), t)] | None => c_texts s end;
            c_conn := aemplace Nat.eqb (List.length (c_objs s)) (OPrim (List.length pre)) (c_conn s) |} ->
    inv (pre ++ [match tx with Some t => CText l t g | None => CGeom l g end]) (P ++ [(OPrim (List.length pre), l, g)]) s' /\
    owners_below (S (List.length pre)) (P ++ [(OPrim (List.length pre), l, g)]).
  Proof.
    intros I B ->.
    assert (F : unseen P (OPrim (List.length pre))) by (intros k l' g' H; specialize (B _ _ _ _ H); lia).
    split.
    - constructor; cbn [c_objs c_conn c_texts].
      + rewrite (i_objs _ _ _ I), map_app; reflexivity.
      + eapply conn_new; eauto.
      + intros k t; rewrite (objs_len _ _ _ I).
        assert (E : alookup Nat.eqb k (match tx with Some t0 => c_texts s ++ [(List.length P, t0)] | None => c_texts s end) =
                    if Nat.eqb k (List.length P) then tx else alookup Nat.eqb k (c_texts s)).
        { pose proof (text_fresh _ _ _ I) as Tf; destruct tx as [t0|].
          - rewrite alookup_app; cbn [alookup]; destruct (Nat.eqb_spec k (List.length P)) as [->|]; [rewrite Tf; auto|].
            destruct (alookup Nat.eqb k (c_texts s)); auto.
          - destruct (Nat.eqb_spec k (List.length P)) as [->|]; auto. }
        rewrite E; clear E; unfold text_of; destruct (Nat.eqb_spec k (List.length P)) as [->|Hk].
        * rewrite nth_snoc, Nat.eqb_refl; split.
          -- intros ->; exists (List.length pre), l, g; split; auto; rewrite nth_snoc, Nat.eqb_refl; auto.
          -- intros (j & l' & g' & H1 & H2); injection H1 as <- <- <-; rewrite nth_snoc, Nat.eqb_refl in H2.
             destruct tx; [injection H2 as ->; auto|discriminate].
        * rewrite (i_texts _ _ _ I); unfold text_of; rewrite nth_snoc; destruct (Nat.eqb_spec k (List.length P)); [lia|].
          split; intros (j & l' & g' & H1 & H2); exists j, l', g'; (split; [exact H1|]).
          -- rewrite nth_snoc; destruct (Nat.eqb_spec j (List.length pre)) as [->|]; auto; specialize (B _ _ _ _ H1); lia.
          -- rewrite nth_snoc in H2; destruct (Nat.eqb_spec j (List.length pre)) as [->|]; auto; specialize (B _ _ _ _ H1); lia.
    - intros k j l' g' H; rewrite nth_snoc in H; destruct (Nat.eqb k (List.length P)); [injection H as <- _ _; lia|].
      specialize (B _ _ _ _ H); lia.
  Qed.

  Definition pieces_from (i : nat) (ps : list (cprim G)) := flat_map prim_pieces (combine (seq i (List.length ps)) ps).
  Lemma add_prims_inv ps : forall pre P s, inv pre P s -> owners_below (List.length pre) P ->
    inv (pre ++ ps) (P ++ pieces_from (List.length pre) ps) (add_prims s (List.length pre) ps).
  Proof.
    induction ps as [|p ps IH]; intros pre P s I B.
    - cbn; rewrite !app_nil_r; exact I.
    - cbn [add_prims]; replace (pre ++ p :: ps) with ((pre ++ [p]) ++ ps) by (rewrite <- app_assoc; reflexivity).
      assert (El : List.length (pre ++ [p]) = S (List.length pre)) by (rewrite app_length; simpl; lia).
      unfold pieces_from; cbn [List.length seq combine flat_map]; fold (pieces_from (S (List.length pre)) ps).
      rewrite <- El at 1 2; rewrite app_assoc.
      destruct p as [l g|l t g|].
      + destruct (step_piece pre P s l g None _ I B eq_refl) as [I' B']; apply IH; [exact I'|rewrite El; exact B'].
      + destruct (step_piece pre P s l g (Some t) _ I B eq_refl) as [I' B']; apply IH; [exact I'|rewrite El; exact B'].
      + destruct (step_other pre P s _ I B eq_refl) as [I' B']; cbn [prim_pieces snd fst]; rewrite app_nil_r; apply IH; [exact I'|rewrite El; exact B'].
  Qed.

  (** padstacks *)
  Definition pads_below (n : nat) P : Prop := forall k i l g, nth_error P k = Some (OPad i, l, g) -> i < n.
  Lemma step_pad prims P s i l g (added : bool) : inv prims P s ->
    (if added then exists k0 l0 g0, nth_error P k0 = Some (OPad i, l0, g0) else unseen P (OPad i)) ->
    inv prims (P ++ [(OPad i, l, g)])
      {| c_objs := c_objs s ++ [(l, g)]; c_texts := c_texts s;
         c_conn := if added then c_conn s else aemplace Nat.eqb (List.length (c_objs s)) (OPad i) (c_conn s) |}.
  Proof.
    intros I A; constructor; cbn [c_objs c_conn c_texts].
    - rewrite (i_objs _ _ _ I), map_app; reflexivity.
    - destruct added; [|eapply conn_new; eauto].
      intros k o; rewrite first_piece_old; [apply I| |exact A].
      intros F; destruct A as (k0 & l0 & g0 & H); eapply F; eauto.
    - intros k t; rewrite (i_texts _ _ _ I); unfold text_of; rewrite nth_snoc; split; intros (j & l' & g' & H1 & H2); exists j, l', g'; (split; [|exact H2]).
      + destruct (Nat.eqb_spec k (List.length P)) as [->|]; auto; apply nth_lt in H1; lia.
      + destruct (Nat.eqb k (List.length P)); [discriminate|exact H1].
  Qed.
  Definition pad_from (i : nat) (p : cpad G) (l : Z) (n : nat) : list (owner * Z * G) :=
    flat_map (fun l => match cp_shape p l with Some g => [(OPad i, l, g)] | None => [] end) (map (fun k => l + Z.of_nat k)%Z (seq 0 n)).
  Lemma pad_from_S i p l n : pad_from i p l (S n) = (match cp_shape p l with Some g => [(OPad i, l, g)] | None => [] end) ++ pad_from i p (l + 1) n.
  Proof.
    unfold pad_from; cbn [seq map flat_map]; rewrite Z.add_0_r; f_equal.
    rewrite <- seq_shift, map_map; f_equal; apply map_ext; intros k; lia.
  Qed.
  Lemma add_layers_inv prims i p n : forall P s l (added : bool), inv prims P s ->
    (if added then exists k0 l0 g0, nth_error P k0 = Some (OPad i, l0, g0) else unseen P (OPad i)) ->
    inv prims (P ++ pad_from i p l n) (add_layers s i p l added n).
  Proof.
    induction n as [|n IH]; intros P s l added I A.
    - cbn; rewrite app_nil_r; exact I.
    - rewrite pad_from_S; cbn [add_layers]; destruct (cp_shape p l) as [g|]; [|apply IH; auto].
      rewrite app_assoc; pose proof (step_pad _ _ _ i l g added I A) as I'.
      assert (A' : exists k0 l0 g0, nth_error (P ++ [(OPad i, l, g)]) k0 = Some (OPad i, l0, g0)).
      { exists (List.length P), l, g; rewrite nth_snoc, Nat.eqb_refl; auto. }
      cbn [add_object]; destruct added; apply IH; auto.
  Qed.
  Definition pads_from (i : nat) (ps : list (cpad G)) := flat_map pad_pieces (combine (seq i (List.length ps)) ps).
  Lemma in_pad_from i p l n k o l' g : nth_error (pad_from i p l n) k = Some (o, l', g) -> o = OPad i.
  Proof.
    intros H; apply nth_error_In in H; apply in_flat_map in H as (x & _ & H).
    destruct (cp_shape p x); [destruct H as [H|[]]; congruence|destruct H].
  Qed.
  Lemma nth_app_cases {A} (l l' : list A) k x : nth_error (l ++ l') k = Some x -> nth_error l k = Some x \/ nth_error l' (k - List.length l) = Some x.
  Proof. intros H; destruct (Nat.lt_ge_cases k (List.length l)); [rewrite nth_error_app1 in H; auto|rewrite nth_error_app2 in H; auto]. Qed.
  Lemma add_pads_inv prims ps : forall i P s, inv prims P s -> pads_below i P -> inv prims (P ++ pads_from i ps) (add_pads s i ps).
  Proof.
    induction ps as [|p ps IH]; intros i P s I B.
    - cbn; rewrite app_nil_r; exact I.
    - cbn [add_pads]; unfold pads_from; cbn [List.length seq combine flat_map]; fold (pads_from (S i) ps); rewrite app_assoc.
      change (pad_pieces (i, p)) with (pad_from i p (cp_top p) (Z.to_nat (cp_bot p - cp_top p + 1))).
      apply IH.
      + apply add_layers_inv; auto; intros k l g H; specialize (B _ _ _ _ H); lia.
      + intros k j l g H; apply nth_app_cases in H as [H|H]; [specialize (B _ _ _ _ H); lia|].
        apply in_pad_from in H; injection H as ->; lia.
  Qed.

  Lemma objects_inv prims pads : inv prims (pieces prims pads) (add_pads (add_prims c_init 0 prims) 0 pads).
  Proof.
    unfold pieces, numbered.
    assert (I0 : inv [] [] (c_init (G := G))).
    { constructor; cbn; auto.
      - intros k o; split; [discriminate|]; intros [(l & g & H) _]; destruct k; discriminate.
      - intros k t; split; [discriminate|]; intros (j & l & g & H & _); destruct k; discriminate. }
    pose proof (add_prims_inv prims [] [] c_init I0) as I; cbn [List.length app] in I.
    apply (add_pads_inv prims pads 0).
    - apply I; intros k i l g H; destruct k; discriminate.
    - intros k i l g H; apply nth_error_In in H; apply in_flat_map in H as ((n & p) & _ & H).
      destruct p; cbn in H; intuition congruence.
  Qed.
End Objects.

Lemma links_next stack a b : In (a, b) (links stack) <-> next_to stack a b.
Proof.
  unfold next_to; induction stack as [|x stack IH].
  - split; [intros []|]; intros ([|? ?] & r & H); discriminate.
  - destruct stack as [|y stack].
    + split; [intros []|]; intros ([|? [|? ?]] & r & H); discriminate.
    + change (links (x :: y :: stack)) with ((x, y) :: links (y :: stack)); cbn [In]; rewrite IH; split.
      * intros [[= <- <-]|(l & r & H)]; [exists [], stack; auto|exists (x :: l), r; rewrite H; auto].
      * intros ([|z l] & r & H); cbn in H; [injection H as -> -> _; auto|].
        injection H as <- H; right; exists l, r; auto.
Qed.

(** * Nets *)
Definition base_name {G} (s : cstate (G := G)) (c : list nat) : string :=
  if String.eqb (label (c_texts s) c) ""%string then "Auto_Net"%string else label (c_texts s) c.

Section Nets.
  Context {G : Type} (s : cstate (G := G)).

  Lemma create_next nc t base : rep nc t -> exists name nc',
    nc_next_name nc base = Ok name /\ nc_create nc name = (nc', Some (mkNet name (nc_uid nc))) /\
    (exists t', rep nc' t') /\ nc_uid nc' = (nc_uid nc + 1)%Z /\ first_free (akeys (nc_map nc)) base name /\
    nc_find nc' name = Some (mkNet name (nc_uid nc)) /\ (forall m x, nc_find nc m = Some x -> nc_find nc' m = Some x) /\
    List.length (nc_map nc') = S (List.length (nc_map nc)).
  Proof.
    intros R; destruct (nc_next_name_ok nc t base R) as (name & E & F).
    assert (Hc : nc_count nc name = false).
    { destruct (nc_count nc name) eqn:E2; auto; apply count_keys in E2; destruct F; contradiction. }
    exists name; eexists; split; [exact E|]; unfold nc_create; rewrite Hc; split; [reflexivity|].
    split; [eexists; apply rep_put; eauto|]; split; [reflexivity|]; split; [exact F|].
    assert (Hn : alookup String.eqb name (nc_map nc) = None).
    { unfold nc_count, acount in Hc; destruct (alookup String.eqb name (nc_map nc)); congruence. }
    unfold nc_find; cbn [nc_map]; split; [apply find_after_put; exact Hn|]; split.
    - intros m x H; rewrite (alookup_emplace String.eqb string_eqb_reflect), H; auto.
    - unfold aemplace; fold (nc_count nc name); rewrite Hc, app_length; simpl; lia.
  Qed.

  Definition sets_from (u : Z) (cc : list (list nat)) : list (owner * Z) :=
    flat_map (fun kc => assign (c_conn s) (u + Z.of_nat (fst kc)) (snd kc)) (combine (seq 0 (List.length cc)) cc).
  Lemma sets_from_cons u c cc : sets_from u (c :: cc) = assign (c_conn s) u c ++ sets_from (u + 1) cc.
  Proof.
    unfold sets_from; cbn [List.length seq combine flat_map fst snd]; rewrite Z.add_0_r; f_equal.
    rewrite <- seq_shift; generalize (seq 0 (List.length cc)) as q; induction cc as [|d cc IH]; intros [|k q]; cbn [map combine flat_map fst snd]; auto.
    rewrite IH; f_equal; replace (u + Z.of_nat (S k))%Z with (u + 1 + Z.of_nat k)%Z by lia; reflexivity.
  Qed.
  Lemma add_nets_ok cc : forall nc t, rep nc t -> exists nc',
    add_nets s nc cc = Ok (nc', sets_from (nc_uid nc) cc) /\
    (forall k c, nth_error cc k = Some c -> exists used name, first_free used (base_name s c) name /\ nc_find nc' name = Some (mkNet name (nc_uid nc + Z.of_nat k))) /\
    (forall m x, nc_find nc m = Some x -> nc_find nc' m = Some x) /\
    List.length (nc_map nc') = List.length (nc_map nc) + List.length cc.
  Proof.
    induction cc as [|c cc IH]; intros nc t R.
    - exists nc; split; [reflexivity|]; split; [intros [|k] c; discriminate|]; split; [auto|cbn; lia].
    - cbn [add_nets]; fold (base_name s c).
      destruct (create_next nc t (base_name s c) R) as (name & nc1 & E1 & E2 & (t1 & R1) & Hu & F & Hf & Hk & Hl).
      rewrite E1; cbn [bind]; rewrite E2.
      destruct (IH nc1 t1 R1) as (nc' & E & A & K & L); rewrite E; cbn [bind fst snd net_id].
      exists nc'; split; [rewrite Hu, sets_from_cons; reflexivity|]; split; [|split; [auto|cbn [List.length]; lia]].
      intros [|k] c' H; cbn in H.
      + injection H as <-; exists (akeys (nc_map nc)), name; split; [exact F|]; rewrite Z.add_0_r; auto.
      + destruct (A k c' H) as (used & m & F' & Hm); exists used, m; split; [exact F'|]; rewrite Hm, Hu; replace (nc_uid nc + 1 + Z.of_nat k)%Z with (nc_uid nc + Z.of_nat (S k))%Z by lia; reflexivity.
  Qed.
End Nets.

(** the net of an object is the number of the component its recorded piece is in *)
Lemma owner_eqb_spec a b : reflect (a = b) (owner_eqb a b).
Proof.
  destruct a as [i|i], b as [j|j]; cbn; try (constructor; congruence); destruct (Nat.eqb_spec i j); constructor; congruence.
Qed.
Lemma fold_sets (o : owner) (v : Z) sets : forall n, (forall x, In x sets -> fst x = o -> snd x = v) -> (n = v \/ exists x, In x sets /\ fst x = o) ->
  fold_left (fun n x => if owner_eqb o (fst x) then snd x else n) sets n = v.
Proof.
  induction sets as [|x sets IH]; intros n H E; cbn [fold_left].
  - destruct E as [E|(x & [] & _)]; exact E.
  - apply IH; [intros; apply H; [right|]; auto|].
    destruct (owner_eqb_spec o (fst x)) as [Ho|Ho]; [left; apply H; [left|]; auto|].
    destruct E as [E|(y & [<-|Hy] & Ey)]; [auto|congruence|right; eauto].
Qed.
Lemma fold_none (o : owner) sets : forall n, (forall x, In x sets -> fst x <> o) ->
  fold_left (fun (n : Z) x => if owner_eqb o (fst x) then snd x else n) sets n = n.
Proof.
  induction sets as [|x sets IH]; intros n H; cbn [fold_left]; auto.
  destruct (owner_eqb_spec o (fst x)) as [E|]; [exfalso; apply (H x); [left|]; auto|apply IH; intros; apply H; right; auto].
Qed.

Lemma in_sets {G} (s : cstate (G := G)) u cc o v : In (o, v) (sets_from s u cc) <->
  exists k c i, nth_error cc k = Some c /\ In i c /\ alookup Nat.eqb i (c_conn s) = Some o /\ v = (u + Z.of_nat k)%Z.
Proof.
  unfold sets_from; rewrite in_flat_map.
  assert (C : forall k c, In (k, c) (combine (seq 0 (List.length cc)) cc) <-> nth_error cc k = Some c).
  { intros k c; assert (Gn : forall n, In (k, c) (combine (seq n (List.length cc)) cc) <-> n <= k /\ nth_error cc (k - n) = Some c).
    { clear u; induction cc as [|d cc IH]; intros n; cbn [List.length seq combine In].
      - split; [intros []|]; intros [_ H]; destruct (k - n); discriminate.
      - rewrite IH; split.
        + intros [[= <- <-]|[H1 H2]]; [rewrite Nat.sub_diag; auto|split; [lia|]]; replace (k - n) with (S (k - S n)) by lia; exact H2.
        + intros [H1 H2]; destruct (Nat.eq_dec n k) as [->|]; [rewrite Nat.sub_diag in H2; injection H2 as ->; auto|].
          right; split; [lia|]; replace (k - n) with (S (k - S n)) in H2 by lia; exact H2. }
    rewrite Gn, Nat.sub_0_r; intuition lia. }
  unfold assign; split.
  - intros ((k & c) & H & Hin); apply C in H; cbn [fst snd] in Hin; apply in_flat_map in Hin as (i & Hi & Hin).
    destruct (alookup Nat.eqb i (c_conn s)) eqn:E; [|destruct Hin]; destruct Hin as [Hin|[]]; injection Hin as <- <-; exists k, c, i; auto.
  - intros (k & c & i & H & Hi & E & ->); exists (k, c); split; [apply C; exact H|]; cbn [fst snd]; apply in_flat_map; exists i; split; auto.
    rewrite E; left; auto.
Qed.

Lemma concat_at {A} (cc : list (list A)) k c x : nth_error cc k = Some c -> In x c -> In x (List.concat cc).
Proof. intros H Hx; apply in_concat; exists c; split; auto; eapply nth_error_In; eauto. Qed.
Lemma disjoint_at {A} (cc : list (list A)) : NoDup (List.concat cc) -> forall k k' c c' x,
  nth_error cc k = Some c -> nth_error cc k' = Some c' -> In x c -> In x c' -> k = k'.
Proof.
  induction cc as [|d cc IH]; intros N k k' c c' x H H' Hx Hx'; [destruct k; discriminate|].
  cbn [List.concat] in N; assert (D : forall y, In y d -> ~ In y (List.concat cc)).
  { clear - N; induction d as [|z d IH]; intros y Hy; [destruct Hy|]; cbn in N; inversion N; subst.
    destruct Hy as [<-|Hy]; [intros Hc; apply H1, in_app_iff; auto|apply IH; auto]. }
  destruct k, k'; cbn in H, H'; auto.
  - injection H as <-; exfalso; eapply D; eauto; eapply concat_at; eauto.
  - injection H' as <-; exfalso; eapply D; eauto; eapply concat_at; eauto.
  - assert (N' : NoDup (List.concat cc)) by (clear - N; induction d as [|z d IH]; [exact N|inversion N; auto]).
    f_equal; apply (IH N') with (c := c) (c' := c') (x := x); auto.
Qed.

Section Net_after.
  Context {G : Type} (touch : G -> G -> Prop) (components : list (Z * Z) -> list (Z * G) -> list (list nat)).
  Context (contract : component_contract touch components).

  Lemma edge_joined stack (P : list (owner * Z * G)) i j :
    (exists l1 g1 l2 g2, nth_error (map drop P) i = Some (l1, g1) /\ nth_error (map drop P) j = Some (l2, g2) /\
      (l1 = l2 \/ In (l1, l2) (links stack) \/ In (l2, l1) (links stack)) /\ touch g1 g2) <-> joined touch stack P i j.
  Proof.
    unfold joined; setoid_rewrite links_next; split.
    - intros (l1 & g1 & l2 & g2 & H1 & H2 & H); rewrite nth_error_map in H1, H2.
      destruct (nth_error P i) as [[[o1 l1'] g1']|]; [|discriminate]; destruct (nth_error P j) as [[[o2 l2'] g2']|]; [|discriminate].
      injection H1 as -> ->; injection H2 as -> ->; exists o1, l1, g1, o2, l2, g2; auto.
    - intros (o1 & l1 & g1 & o2 & l2 & g2 & H1 & H2 & H); exists l1, g1, l2, g2; rewrite !nth_error_map, H1, H2; auto.
  Qed.
  Lemma rst_ext (R S : nat -> nat -> Prop) : (forall i j, R i j <-> S i j) -> forall i j, clos_refl_sym_trans nat R i j <-> clos_refl_sym_trans nat S i j.
  Proof.
    intros H i j; split; (induction 1; [apply rst_step, H; auto|apply rst_refl|apply rst_sym; auto|eapply rst_trans; eauto]).
  Qed.

  Lemma connectivity_net nc stack prims pads : stack <> [] -> exists nc' sets,
    connectivity components nc stack prims pads = Ok (nc', sets) /\
    let P := pieces prims pads in
    let cc := components (links stack) (map drop P) in
    List.length (nc_map nc') = List.length cc /\
    (forall before o i, first_piece P o i -> exists k c used name,
      nth_error cc k = Some c /\ In i c /\ net_after before sets o = Z.of_nat k /\
      first_free used (base_name (add_pads (add_prims c_init 0 prims) 0 pads) c) name /\ nc_find nc' name = Some (mkNet name (Z.of_nat k))) /\
    (forall before o, (forall i, ~ first_piece P o i) -> net_after before sets o = before o).
  Proof.
    intros Hs; set (s := add_pads (add_prims c_init 0 prims) 0 pads).
    pose proof (objects_inv prims pads) as I; fold s in I.
    set (P := pieces prims pads) in *; set (cc := components (links stack) (map drop P)).
    destruct (add_nets_ok s cc (nc_clear nc) _ rep_init) as (nc' & E & A & _ & L).
    exists nc', (sets_from s 0 cc); split.
    { unfold connectivity; destruct stack; [congruence|]; fold s; rewrite (i_objs _ _ _ I); exact E. }
    split; [exact L|].
    destruct (contract (links stack) (map drop P)) as (Hp & _ & _); fold cc in Hp.
    assert (N : NoDup (List.concat cc)) by (eapply Permutation_NoDup; [apply Permutation_sym; exact Hp|apply seq_NoDup]).
    split.
    - intros before o i Hi.
      assert (Hin : In i (List.concat cc)).
      { eapply Permutation_in; [apply Permutation_sym; exact Hp|]; apply in_seq; rewrite map_length; destruct Hi as [(l & g & H) _]; apply nth_lt in H; lia. }
      apply in_concat in Hin as (c & Hc & Hic); apply In_nth_error in Hc as [k Hk].
      destruct (A k c Hk) as (used & name & F & Hf); exists k, c, used, name; split; [auto|]; split; [auto|]; split; [|split; [exact F|rewrite Hf; reflexivity]].
      unfold net_after; apply fold_sets.
      + intros [o' v] Hx Ho; cbn in Ho; subst o'; apply in_sets in Hx as (k' & c' & i' & Hk' & Hi' & Hcn & ->).
        apply (i_conn _ _ _ I) in Hcn; rewrite (first_piece_fun _ _ _ _ Hcn Hi) in Hi'.
        cbn; f_equal; eapply disjoint_at; eauto.
      + right; exists (o, Z.of_nat k); split; auto; apply in_sets; exists k, c, i; split; [auto|]; split; [auto|]; split; [apply (i_conn _ _ _ I); auto|lia].
    - intros before o Ho; apply fold_none; intros [o' v] Hx; cbn; intros ->.
      apply in_sets in Hx as (k' & c' & i' & _ & _ & Hcn & _); apply (i_conn _ _ _ I) in Hcn; eapply Ho; eauto.
  Qed.

  Lemma same_component stack prims pads i j k k' c c' :
    let P := pieces prims pads in let cc := components (links stack) (map drop P) in
    nth_error cc k = Some c -> nth_error cc k' = Some c' -> In i c -> In j c' ->
    k = k' <-> connected touch stack P i j.
  Proof.
    intros P cc Hk Hk' Hi Hj; destruct (contract (links stack) (map drop P)) as (Hp & _ & Hc); fold cc in Hp, Hc.
    assert (N : NoDup (List.concat cc)) by (eapply Permutation_NoDup; [apply Permutation_sym; exact Hp|apply seq_NoDup]).
    assert (B : forall x m d, nth_error cc m = Some d -> In x d -> x < List.length (map drop P)).
    { intros x m d Hm Hx; apply (concat_at _ _ _ _ Hm) in Hx; apply (Permutation_in _ Hp) in Hx; apply in_seq in Hx; lia. }
    unfold connected; rewrite <- (rst_ext _ _ (edge_joined stack P)), <- Hc by eauto.
    split.
    - intros ->; rewrite Hk in Hk'; injection Hk' as <-; exists c; split; auto; eapply nth_error_In; eauto.
    - intros (d & Hd & H1 & H2); apply In_nth_error in Hd as [m Hm].
      transitivity m; [eapply disjoint_at; eauto|eapply disjoint_at; eauto].
  Qed.
End Net_after.

Lemma first_exists {G} (P : list (owner * Z * G)) o k l g : nth_error P k = Some (o, l, g) -> exists i, first_piece P o i.
Proof.
  revert k l g; induction P as [|[[o' l'] g'] P IH]; intros k l g H; [destruct k; discriminate|].
  destruct (owner_eqb_spec o o') as [<-|Hne].
  - exists 0; split; [exists l', g'; reflexivity|intros; lia].
  - destruct k as [|k]; cbn in H; [congruence|]; destruct (IH k l g H) as (i & (l1 & g1 & Hi) & Hm).
    exists (S i); split; [exists l1, g1; exact Hi|].
    intros [|j] l2 g2 Hj; cbn in Hj; [congruence|]; specialize (Hm _ _ _ Hj); lia.
Qed.
