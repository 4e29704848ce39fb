From Coq Require Import Permutation.
From Verif Require Import Base QSum.
From Verif Require Import Transform_Model Transform_Spec Transform_Proofs Shape_Model Shape_Spec Shape_Proofs Boundary_Model Boundary_Spec.
Local Open Scope Q_scope.
Local Open Scope res_scope.

(** ** Smallest boxes *)
Lemma least_iff P Q b : (forall p, P p <-> Q p) -> least P b -> least Q b.
Proof.
  intros H. destruct b as [b|]; cbn.
  - intros (ps & A & B). exists ps. split; [|exact B]. intros p. rewrite A. apply H.
  - intros A p Hp. apply (A p), H, Hp.
Qed.
Lemma least_ounion P Q a b : least P a -> least Q b -> least (fun p => P p \/ Q p) (ounion a b).
Proof.
  destruct a as [a|], b as [b|]; cbn.
  - intros (ps & A & B) (qs & C & D). exists (ps ++ qs). split; [|apply least_union; assumption].
    intros p. rewrite in_app_iff, A, C. reflexivity.
  - intros (ps & A & B) C. exists ps. split; [|exact B]. intros p. rewrite A. split; [auto|]. intros [H|H]; [exact H|destruct (C p H)].
  - intros C (ps & A & B). exists ps. split; [|exact B]. intros p. rewrite A. split; [auto|]. intros [H|H]; [destruct (C p H)|exact H].
  - intros A C p [H|H]; [exact (A p H)|exact (C p H)].
Qed.
Lemma least_extent ps : least (fun p => In p ps) (extent ps).
Proof.
  destruct (extent ps) as [b|] eqn:E.
  - exists ps. split; [intros p; reflexivity|apply extent_least, E].
  - destruct ps; [intros p []|discriminate].
Qed.
Lemma corner_points_corners nobox b : corner_points nobox (Some b) = corners b.
Proof. destruct b as [[x0 y0] [x1 y1]]. reflexivity. Qed.
Lemma corner_points_outline nobox b : corner_points nobox b = outline_of nobox b.
Proof. destruct b as [b|]; [apply corner_points_corners|reflexivity]. Qed.

Definition ordered (b : box) : Prop := fst (fst b) <= fst (snd b) /\ snd (fst b) <= snd (snd b).
Lemma least_ordered ps b : least_box ps b -> ordered b.
Proof.
  intros (A & (p & Hp & _) & _). destruct (A p Hp) as [[B C] [D E]]. split; lra.
Qed.

Section P.
  Context (cosQ sinQ rnd : Q -> Q) (stroke : list pt -> Q -> list pt) (inscribed : pt -> Q -> nat -> list pt).
  Context (nobox : list pt) (order : list (Z * option box) -> list (Z * option box)).
  Notation bbox := (bbox cosQ sinQ rnd stroke).

  Lemma bbox_ordered s b : valid s = true -> bbox s = Some b -> ordered b.
  Proof.
    revert b. induction s using shape_ind'; intros b0 Hv Hb; cbn [Shape_Model.bbox valid] in *; try (eapply least_ordered, extent_least; exact Hb).
    - injection Hb as <-. apply andb_prop in Hv as [A B]. apply Qle_bool_iff in A, B. split; assumption.
    - injection Hb as <-. apply andb_prop in Hv as [A _]. apply negb_true_iff in A.
      assert (0 < r) by (apply Qnot_le_lt; intros L; apply Qle_bool_iff in L; congruence). split; cbn [fst snd]; lra.
    - discriminate.
    - rewrite Hv in Hb. destruct (bbox s); [|discriminate]. injection Hb as <-. eapply least_ordered, turn_box_least.
  Qed.

  (** ** The layout's own geometries *)
  Definition corner_on (k : Z) (ps : list bprim) (p : pt) : Prop :=
    exists s sb, In (BGeom k (Some s)) ps /\ bbox s = Some sb /\ In p (corners sb).
  Definition valid_prims (ps : list bprim) : Prop := forall k s, In (BGeom k (Some s)) ps -> valid s = true.

  Lemma least_shape s : valid s = true -> least (fun p => exists sb, bbox s = Some sb /\ In p (corners sb)) (bbox s).
  Proof.
    intros Hv. destruct (bbox s) as [b|] eqn:E.
    - exists (corners b). split.
      + intros p. split; [eauto|]. intros (sb & [= <-] & H). exact H.
      + destruct (bbox_ordered s b Hv E). apply corners_least; assumption.
    - intros p (sb & H & _). discriminate.
  Qed.

  Lemma add_bound_inv bs k s seen : NoDup (akeys bs) -> valid s = true ->
    Forall (fun e => least (corner_on (fst e) seen) (snd e)) bs ->
    Forall (fun e => least (corner_on (fst e) (seen ++ [BGeom k (Some s)])) (snd e)) (add_bound bs k (bbox s)).
  Proof.
    intros Hn Hv.
    assert (Same : forall k', k' <> k -> forall p, corner_on k' seen p <-> corner_on k' (seen ++ [BGeom k (Some s)]) p).
    { intros k' Hk p. split; intros (s' & sb & H & G).
      - exists s', sb. split; [apply in_or_app; left; exact H|exact G].
      - exists s', sb. split; [|exact G]. apply in_app_or in H as [H|[H|[]]]; [exact H|]. congruence. }
    induction bs as [|[k' c] bs IH]; intros H; cbn [add_bound]; [constructor|].
    inversion H as [|? ? A B]; subst. cbn [fst snd] in A. inversion Hn as [|? ? N1 N2]; subst.
    destruct (Z.eqb_spec k' k) as [->|Hk].
    - constructor; cbn [fst snd].
      + eapply least_iff; [|apply (least_ounion _ _ _ _ A (least_shape s Hv))]. intros p. split.
        * intros [(s' & sb & X & G)|(sb & E & G)]; [exists s', sb; split; [apply in_or_app; left; exact X|exact G]|].
          exists s, sb. split; [apply in_or_app; right; left; reflexivity|auto].
        * intros (s' & sb & X & E & G). apply in_app_or in X as [X|[X|[]]]; [left; exists s', sb; auto|].
          injection X as <-. right. exists sb. auto.
      + apply Forall_forall. intros [k' c'] He. rewrite Forall_forall in B. specialize (B _ He). cbn [fst snd] in *.
        eapply least_iff; [|exact B]. apply Same. intros ->. apply N1. apply in_map_iff. exists (k, c'). split; [reflexivity|exact He].
    - constructor; cbn [fst snd]; [eapply least_iff; [|exact A]; apply Same; exact Hk|]. apply IH; assumption.
  Qed.
  Lemma add_bound_keys bs k b : akeys (add_bound bs k b) = akeys bs.
  Proof. induction bs as [|[k' c] bs IH]; cbn [add_bound]; [reflexivity|]. destruct (k' =? k)%Z; [reflexivity|]. unfold akeys in *. cbn [map fst]. f_equal. exact IH. Qed.

  Lemma seen_other bs seen p : (match p with BGeom k (Some _) => ~ In k (akeys bs) | _ => True end) ->
    Forall (fun e : Z * option box => least (corner_on (fst e) seen) (snd e)) bs ->
    Forall (fun e => least (corner_on (fst e) (seen ++ [p])) (snd e)) bs.
  Proof.
    intros Hp. rewrite !Forall_forall. intros H e He. eapply least_iff; [|apply H, He]. intros q. split; intros (s & sb & A & B); exists s, sb; (split; [|exact B]).
    - apply in_or_app. left. exact A.
    - apply in_app_or in A as [A|[A|[]]]; [exact A|]. subst p. exfalso. apply Hp. apply in_map_iff. exists e. auto.
  Qed.

  Lemma prim_bounds_inv ps : forall bs seen, NoDup (akeys bs) -> valid_prims ps ->
    Forall (fun e => least (corner_on (fst e) seen) (snd e)) bs ->
    akeys (prim_bounds cosQ sinQ rnd stroke bs ps) = akeys bs /\
    Forall (fun e => least (corner_on (fst e) (seen ++ ps)) (snd e)) (prim_bounds cosQ sinQ rnd stroke bs ps).
  Proof.
    induction ps as [|p ps IH]; intros bs seen Hn Hv H; cbn [prim_bounds]; [rewrite app_nil_r; auto|].
    assert (Hv' : valid_prims ps) by (intros k s X; apply (Hv k s); right; exact X).
    replace (seen ++ p :: ps) with ((seen ++ [p]) ++ ps) by (rewrite <- app_assoc; reflexivity).
    destruct (acount Z.eqb (bp_layer p) bs) eqn:E.
    - destruct p as [k [s|]|k|k a b]; try (apply IH; [exact Hn|exact Hv'|]; apply seen_other; [exact I|exact H]).
      destruct (IH (add_bound bs k (bbox s)) (seen ++ [BGeom k (Some s)])) as [A B].
      + rewrite add_bound_keys. exact Hn.
      + exact Hv'.
      + apply add_bound_inv; [exact Hn| |exact H]. apply (Hv k s). left. reflexivity.
      + split; [rewrite A; apply add_bound_keys|exact B].
    - apply IH; [exact Hn|exact Hv'|]. apply seen_other; [|exact H]. destruct p as [k [s|]|k|k a b]; try exact I.
      intros X. apply (acount_false _ Z_eqb_reflect) in E. exact (E X).
  Qed.

  Lemma layer_bounds_spec ls : NoDup (akeys (layer_bounds ls)) /\ (forall k, In k (akeys (layer_bounds ls)) <-> In k ls) /\
    (forall e, In e (layer_bounds ls) -> snd e = None).
  Proof.
    unfold layer_bounds.
    assert (G : forall ls (bs : list (Z * option box)), NoDup (akeys bs) -> (forall e, In e bs -> snd e = None) ->
      let r := fold_left (fun bs l => aemplace Z.eqb l None bs) ls bs in
      NoDup (akeys r) /\ (forall k, In k (akeys r) <-> In k (akeys bs) \/ In k ls) /\ (forall e, In e r -> snd e = None)).
    { clear. induction ls as [|l ls IH]; intros bs Hn Hs; cbn [fold_left]; [split; [exact Hn|split; [|exact Hs]]; intros k; cbn; tauto|].
      destruct (IH (aemplace Z.eqb l None bs)) as (A & B & C).
      - apply (aemplace_nodup _ Z_eqb_reflect), Hn.
      - intros e He. unfold aemplace in He. destruct (acount Z.eqb l bs); [apply Hs, He|]. apply in_app_or in He as [He|[<-|[]]]; [apply Hs, He|reflexivity].
      - split; [exact A|]. split; [|exact C]. intros k. rewrite B. unfold aemplace. destruct (acount Z.eqb l bs) eqn:E.
        + apply (acount_true _ Z_eqb_reflect) in E. cbn [In]. split; [tauto|]. intros [H|[<-|H]]; auto.
        + unfold akeys. rewrite map_app, in_app_iff. cbn [map fst In]. tauto. }
    destruct (G ls [] (NoDup_nil _)) as (A & B & C); [intros e []|]. split; [exact A|]. split; [|exact C].
    intros k. rewrite B. cbn. tauto.
  Qed.

  Lemma least_fold (P : Z * option box -> pt -> Prop) es : forall a R, least R a ->
    Forall (fun e => least (P e) (snd e)) es ->
    least (fun p => R p \/ exists e, In e es /\ P e p) (fold_left (fun a e => ounion a (snd e)) es a).
  Proof.
    induction es as [|e es IH]; intros a R Ha H; cbn [fold_left].
    - eapply least_iff; [|exact Ha]. intros p. split; [auto|]. intros [X|(e & [] & _)]. exact X.
    - inversion H as [|? ? A B]; subst. eapply least_iff; [|apply (IH _ _ (least_ounion _ _ _ _ Ha A) B)].
      intros p. cbn [In]. split.
      + intros [[X|X]|(e' & X & Y)]; [auto| |]; right; eauto.
      + intros [X|(e' & [<-|X] & Y)]; eauto.
  Qed.

  Definition own_corner (l : lay) (p : pt) : Prop :=
    exists s sb, geometry l s /\ bbox s = Some sb /\ In p (corner_points nobox (Some sb)).

  Lemma own_bound_least l : (forall x, Permutation x (order x)) -> valid_prims (la_prims l) ->
    least (own_corner l) (own_bound cosQ sinQ rnd stroke order l).
  Proof.
    intros Ho Hv. unfold own_bound. destruct (layer_bounds_spec (la_layers l)) as (A & B & C).
    destruct (prim_bounds_inv (la_prims l) (layer_bounds (la_layers l)) [] A Hv) as [D E].
    { apply Forall_forall. intros e He. rewrite (C e He). intros p (s & sb & [] & _). }
    set (bs := prim_bounds _ _ _ _ _ _) in *.
    assert (E' : Forall (fun e => least (corner_on (fst e) (la_prims l)) (snd e)) (order bs)).
    { rewrite Forall_forall in *. intros e He. apply E. eapply Permutation_in; [symmetry; apply Ho|exact He]. }
    eapply least_iff; [|apply (least_fold (fun e => corner_on (fst e) (la_prims l)) (order bs) None (fun _ => False) (fun p H => H) E')].
    intros p. unfold own_corner, geometry. setoid_rewrite corner_points_corners. split.
    - intros [[]|(e & He & s & sb & X & Y & Z)]. exists s, sb. split; [|auto]. exists (fst e). split; [exact X|].
      apply B. rewrite <- D. apply in_map. eapply Permutation_in; [symmetry; apply Ho|exact He].
    - intros (s & sb & (k & X & Hk) & Y & Z). right. apply B in Hk. rewrite <- D in Hk. apply in_map_iff in Hk as (e & <- & He).
      exists e. split; [eapply Permutation_in; [apply Ho|exact He]|]. exists s, sb. auto.
  Qed.

  (** ** Contents *)
  Notation bound_of := (bound_of cosQ sinQ rnd stroke nobox).
  Lemma same_nth h h' i l : same_contents h h' -> nth_error h i = Some l ->
    exists l', nth_error h' i = Some l' /\ la_layers l = la_layers l' /\ la_prims l = la_prims l' /\ la_insts l = la_insts l'.
  Proof.
    intros H. revert i. induction H; intros [|i] E; cbn [nth_error] in *; try discriminate; [injection E as <-; eauto|apply IHForall2, E].
  Qed.
  Lemma same_refl h : same_contents h h.
  Proof. induction h; constructor; auto. Qed.
  Lemma same_trans a b c : same_contents a b -> same_contents b c -> same_contents a c.
  Proof.
    intros H; revert c; induction H as [|x y l l' (A & B & C) H IH]; intros c G; inversion G as [|? z ? ? (D & E & F)]; subst; constructor; [|apply IH; assumption].
    repeat split; congruence.
  Qed.
  Lemma same_sym a b : same_contents a b -> same_contents b a.
  Proof. induction 1 as [|x y l l' (A & B & C)]; constructor; [auto|assumption]. Qed.
  Lemma same_update h i s : same_contents h (update h i (fun l => set_bound l s)).
  Proof.
    revert i. induction h as [|l h IH]; intros [|i]; cbn [update]; constructor; try (repeat split; reflexivity); [apply same_refl|apply IH].
  Qed.
  Lemma update_same {A} (h : list A) i f l : nth_error h i = Some l -> nth_error (update h i f) i = Some (f l).
  Proof. revert i. induction h as [|x h IH]; intros [|i] E; cbn [update nth_error] in *; try discriminate; [injection E as <-; reflexivity|apply IH, E]. Qed.
  Lemma update_length {A} (h : list A) i f : List.length (update h i f) = List.length h.
  Proof. revert i. induction h as [|x h IH]; intros [|i]; cbn [update List.length]; try reflexivity. now rewrite IH. Qed.
  Lemma update_other {A} (h : list A) i j f : i <> j -> nth_error (update h i f) j = nth_error h j.
  Proof. revert i j. induction h as [|x h IH]; intros [|i] [|j] E; cbn [update nth_error]; try reflexivity; [congruence|apply IH; congruence]. Qed.

  Lemma bound_of_same h h' : same_contents h h' -> forall i b, bound_of h i b -> bound_of h' i b.
  Proof.
    intros S. fix IH 3. intros i b [i' l bs b' Hl HF HL].
    destruct (same_nth h h' i' l S Hl) as (l' & Hl' & E1 & E2 & E3). apply (bo _ _ _ _ _ _ i' l' bs); [exact Hl'| |].
    - rewrite <- E3. clear - IH HF. revert bs HF. generalize (la_insts l).
      fix IH2 3. intros is bs [|c b'' is' bs' (d & Hd & Hb) HF']; constructor; [exists d; split; [exact Hd|exact (IH _ _ Hb)]|exact (IH2 _ _ HF')].
    - rewrite <- E3. unfold geometry. rewrite <- E1, <- E2. exact HL.
  Qed.

  Definition good (h : list lay) : Prop := forall i l s, nth_error h i = Some l -> la_bound l = Some s ->
    exists b, s = Poly (outline_of nobox b) /\ bound_of h i b.
  Definition valid_lays (h : list lay) : Prop := forall l, In l h -> valid_prims (la_prims l).
  Lemma valid_same h h' : same_contents h h' -> valid_lays h -> valid_lays h'.
  Proof.
    intros S H l' Hl'. apply In_nth_error in Hl' as (i & Hi). destruct (same_nth h' h i l' (same_sym _ _ S) Hi) as (l & Hl & _ & E & _).
    rewrite E. apply H. eapply nth_error_In, Hl.
  Qed.

  Lemma get_boundary_good (Ho : forall x, Permutation x (order x)) fuel : forall h i h' s, good h -> valid_lays h ->
    get_boundary cosQ sinQ rnd stroke nobox order fuel h i = Ok (h', s) ->
    same_contents h h' /\ good h' /\ exists b, s = Poly (outline_of nobox b) /\ bound_of h i b.
  Proof.
    induction fuel as [|fuel IH]; intros h i h' s Hg Hv H; cbn [get_boundary] in H;
      (destruct (nth_error h i) as [l|] eqn:El; [|discriminate]); (destruct (la_bound l) as [s0|] eqn:Eb;
        [injection H as <- <-; split; [apply same_refl|split; [exact Hg|apply (Hg _ _ _ El Eb)]]|]); [discriminate|].
    set (own := own_bound cosQ sinQ rnd stroke order l) in *.
    assert (Hown : least (own_corner l) own).
    { apply own_bound_least; [exact Ho|]. apply Hv. eapply nth_error_In, El. }
    assert (G : forall is pre bs h1 b, la_insts l = pre ++ is -> same_contents h h1 -> good h1 ->
       Forall2 (fun c b' => exists d, bi_def c = Some d /\ bound_of h d b') pre bs ->
       least (fun p => own_corner l p \/ exists k c b' q, nth_error pre k = Some c /\ nth_error bs k = Some b' /\
                                        In q (corner_points nobox b') /\ p = rmoves cosQ sinQ rnd (bi_tr c) q) b ->
       place_insts cosQ sinQ rnd stroke nobox (get_boundary cosQ sinQ rnd stroke nobox order fuel) i h1 b is = Ok (h', s) ->
       same_contents h h' /\ good h' /\ exists b, s = Poly (outline_of nobox b) /\ bound_of h i b).
    { induction is as [|c is IHis]; intros pre bs h1 b Hpre S1 G1 HF HL HH; cbn [place_insts] in HH.
      - injection HH as <- <-. rewrite app_nil_r in Hpre. subst pre.
        assert (Hb : bound_of h i b) by (apply (bo _ _ _ _ _ _ i l bs); [exact El|exact HF|exact HL]).
        assert (S2 : same_contents h (update h1 i (fun l => set_bound l (Some (Poly (outline_of nobox b)))))).
        { eapply same_trans; [exact S1|apply same_update]. }
        split; [exact S2|]. split; [|eauto].
        intros j lj sj Hj Hs. destruct (Nat.eq_dec i j) as [<-|Hij].
        + destruct (same_nth h h1 i l S1 El) as (l1 & Hl1 & _). rewrite (update_same _ _ _ _ Hl1) in Hj. injection Hj as <-.
          cbn in Hs. injection Hs as <-. exists b. split; [reflexivity|]. eapply bound_of_same; [exact S2|exact Hb].
        + rewrite update_other in Hj by exact Hij. destruct (G1 j lj sj Hj Hs) as (b' & E & B). exists b'. split; [exact E|].
          eapply bound_of_same; [apply same_update|exact B].
      - destruct (bi_def c) as [d|] eqn:Ed; [|discriminate].
        destruct (get_boundary cosQ sinQ rnd stroke nobox order fuel h1 d) as [[h2 sd]| | |] eqn:Eg; cbn [bind] in HH; try discriminate.
        cbn [fst snd] in HH. destruct (IH _ _ _ _ G1 (valid_same _ _ S1 Hv) Eg) as (S2 & G2 & bd & -> & Bd).
        apply (IHis (pre ++ [c]) (bs ++ [bd]) h2 _) in HH; [exact HH| | |exact G2| |].
        + rewrite Hpre, <- app_assoc. reflexivity.
        + eapply same_trans; eassumption.
        + apply Forall2_app; [exact HF|]. constructor; [|constructor]. exists d. split; [exact Ed|].
          eapply bound_of_same; [apply same_sym, S1|exact Bd].
        + assert (Len : List.length pre = List.length bs) by (clear - HF; induction HF; cbn [List.length]; congruence).
          pose proof (least_ounion _ _ _ _ HL (least_extent (map (pmap rnd (get_transform cosQ sinQ (bi_tr c))) (outline_of nobox bd)))) as LU.
          cbn [move Shape_Model.bbox]. eapply least_iff; [|exact LU].
          intros p. split.
          * intros [[X|(k & c' & b' & q & A & B & C & D)]|X]; [left; exact X| |].
            -- right. exists k, c', b', q. split; [|split; [|auto]]; (rewrite nth_error_app1; [assumption|]); apply nth_error_Some; congruence.
            -- right. apply in_map_iff in X as (q & <- & Hq). exists (List.length pre), c, bd, q.
               rewrite nth_error_app2, Nat.sub_diag by lia. rewrite Len, nth_error_app2, Nat.sub_diag by lia.
               split; [reflexivity|]. split; [reflexivity|]. rewrite corner_points_outline. split; [exact Hq|reflexivity].
          * intros [X|(k & c' & b' & q & A & B & C & D)]; [left; left; exact X|].
            destruct (Nat.lt_ge_cases k (List.length pre)) as [L|L].
            -- left. right. exists k, c', b', q. rewrite nth_error_app1 in A by exact L. rewrite nth_error_app1 in B by lia. auto.
            -- right. rewrite nth_error_app2 in A by exact L. rewrite nth_error_app2 in B by lia.
               destruct (k - List.length pre)%nat as [|z] eqn:Ez; [|destruct z; discriminate].
               assert (Ez' : (k - List.length bs = 0)%nat) by lia. rewrite Ez' in B. cbn in A, B. injection A as <-. injection B as <-.
               rewrite corner_points_outline in C. apply in_map_iff. exists q. split; [symmetry; exact D|exact C]. }
    apply (G (la_insts l) [] [] h own); [reflexivity|apply same_refl|exact Hg|constructor| |exact H].
    eapply least_iff; [|exact Hown]. intros p. split; [auto|]. intros [X|(k & c & b' & q & A & _)]; [exact X|destruct k; discriminate].
  Qed.

  Lemma unbounded_good h : unbounded h -> good h.
  Proof. intros H i l s Hl Hs. rewrite (H l) in Hs by (eapply nth_error_In, Hl). discriminate. Qed.

  Lemma bound_holds (Hm : monotone rnd) (Hi : forall o r d q, In q (inscribed o r d) -> in_disc o r q)
    (Hbb : forall s b p, valid s = true -> bbox s = Some b -> In p (contour cosQ sinQ rnd stroke inscribed s) -> in_box p b)
    (Hne : forall s p, valid s = true -> In p (contour cosQ sinQ rnd stroke inscribed s) -> exists b, bbox s = Some b) h i p :
    placed cosQ sinQ rnd stroke inscribed h i p -> forall b, valid_lays h -> bound_of h i b -> exists bx, b = Some bx /\ in_box p bx.
  Proof.
    induction 1 as [i l s p Hl (k & Hk & Hin) Hv Hp|i l c d p Hl Hc Hd Hp IH]; intros b HV HB; inversion HB as [i' l' bs b' Hl' HF HL]; subst.
    - assert (l' = l) by congruence. subst l'. destruct (Hne s p Hv Hp) as (sb & Esb).
      assert (HC : forall q, In q (corners sb) -> exists bx, b = Some bx /\ in_box q bx).
      { intros q Hq. destruct b as [bx|]; cbn [least] in HL.
        - destruct HL as (ps & A & (B & _)). exists bx. split; [reflexivity|]. apply B, A. left. exists s, sb.
          split; [exists k; auto|]. split; [exact Esb|]. rewrite corner_points_corners. exact Hq.
        - exfalso. apply (HL q). left. exists s, sb. split; [exists k; auto|]. split; [exact Esb|]. rewrite corner_points_corners. exact Hq. }
      destruct (HC (fst sb)) as (bx & -> & I1); [left; reflexivity|].
      destruct (HC (snd sb)) as (bx' & E & I2); [do 2 right; left; reflexivity|]. injection E as <-.
      exists bx. split; [reflexivity|]. specialize (Hbb s sb p Hv Esb Hp). unfold in_box in *. repeat split; lra.
    - assert (l' = l) by congruence. subst l'. apply In_nth_error in Hc as (k & Hk).
      assert (HK : exists b', nth_error bs k = Some b' /\ exists d, bi_def c = Some d /\ bound_of h d b').
      { clear - HF Hk. revert k Hk. induction HF; intros [|k] Hk; cbn [nth_error] in *; try discriminate; [injection Hk as <-; eauto|apply IHHF, Hk]. }
      destruct HK as (b' & Hb' & d' & Hd' & Bd). assert (d' = d) by congruence. subst d'.
      destruct (IH b' HV Bd) as (bx' & -> & Ip).
      pose proof (turn_box_in rnd Hm (get_transform cosQ sinQ (bi_tr c)) bx' p Ip) as Tp.
      pose proof (turn_box_least rnd (get_transform cosQ sinQ (bi_tr c)) bx') as (_ & T1 & T2 & T3 & T4).
      assert (HC : forall q, In q (map (pmap rnd (get_transform cosQ sinQ (bi_tr c))) (corners bx')) -> exists bx, b = Some bx /\ in_box q bx).
      { intros q Hq. apply in_map_iff in Hq as (q0 & <- & Hq0). rewrite <- (corner_points_corners nobox) in Hq0.
        destruct b as [bx|]; cbn [least] in HL.
        - destruct HL as (ps & A & (B & _)). exists bx. split; [reflexivity|]. apply B, A. right. exists k, c, (Some bx'), q0. auto.
        - exfalso. eapply HL. right. exists k, c, (Some bx'), q0. split; [exact Hk|]. split; [exact Hb'|]. split; [exact Hq0|reflexivity]. }
      destruct T1 as (q1 & Q1 & F1), T2 as (q2 & Q2 & F2), T3 as (q3 & Q3 & F3), T4 as (q4 & Q4 & F4).
      destruct (HC q1 Q1) as (bx & -> & I1). destruct (HC q2 Q2) as (? & E2 & I2). destruct (HC q3 Q3) as (? & E3 & I3). destruct (HC q4 Q4) as (? & E4 & I4).
      injection E2 as <-. injection E3 as <-. injection E4 as <-.
      exists bx. split; [reflexivity|]. change (rmoves cosQ sinQ rnd (bi_tr c) p) with (pmap rnd (get_transform cosQ sinQ (bi_tr c)) p).
      unfold in_box in *. repeat split; lra.
  Qed.

  (** ** What is kept *)
  Lemma get_keeps fuel : forall h i h' s j l sj, get_boundary cosQ sinQ rnd stroke nobox order fuel h i = Ok (h', s) ->
    nth_error h j = Some l -> la_bound l = Some sj -> exists l', nth_error h' j = Some l' /\ la_bound l' = Some sj.
  Proof.
    induction fuel as [|fuel IH]; intros h i h' s j lj sj H Hj Hs; cbn [get_boundary] in H;
      (destruct (nth_error h i) as [l|] eqn:El; [|discriminate]); (destruct (la_bound l) as [s0|] eqn:Eb; [injection H as <- <-; eauto|]); [discriminate|].
    assert (Hij : i <> j) by congruence. clear El. revert H. generalize (own_bound cosQ sinQ rnd stroke order l). clear Eb.
    revert h lj Hj Hs. generalize (la_insts l). induction l0 as [|c is IHis]; intros h lj Hj Hs b H; cbn [place_insts] in H.
    - injection H as <- <-. rewrite update_other by exact Hij. eauto.
    - destruct (bi_def c) as [d|]; [|discriminate].
      destruct (get_boundary cosQ sinQ rnd stroke nobox order fuel h d) as [[h2 sd]| | |] eqn:Eg; cbn [bind] in H; try discriminate.
      destruct (IH _ _ _ _ _ _ _ Eg Hj Hs) as (l2 & H2 & S2). eapply IHis; eauto.
  Qed.
  Lemma get_stores fuel h i h' s : get_boundary cosQ sinQ rnd stroke nobox order fuel h i = Ok (h', s) ->
    exists l, nth_error h' i = Some l /\ la_bound l = Some s.
  Proof.
    destruct fuel as [|fuel]; cbn [get_boundary];
      (destruct (nth_error h i) as [l|] eqn:El; [|discriminate]); (destruct (la_bound l) as [s0|] eqn:Eb; [intros [= <- <-]; eauto|]); [discriminate|].
    assert (Hi : exists l, nth_error h i = Some l) by eauto. revert Hi.
    generalize (own_bound cosQ sinQ rnd stroke order l). clear El Eb. revert h. generalize (la_insts l).
    induction l0 as [|c is IHis]; intros h b (li & Hi) H; cbn [place_insts] in H.
    - injection H as <- <-. rewrite (update_same _ _ _ _ Hi). eexists. split; reflexivity.
    - destruct (bi_def c) as [d|]; [|discriminate].
      destruct (get_boundary cosQ sinQ rnd stroke nobox order fuel h d) as [[h2 sd]| | |] eqn:Eg; cbn [bind] in H; try discriminate.
      refine (IHis h2 _ _ H). cbn [fst].
      assert (L : List.length h2 = List.length h).
      { clear - Eg. revert h d h2 sd Eg. induction fuel as [|fuel IH]; intros h i h' s H; cbn [get_boundary] in H;
          (destruct (nth_error h i) as [l|] eqn:El; [|discriminate]); (destruct (la_bound l) as [s0|] eqn:Eb; [injection H as <- <-; reflexivity|]); [discriminate|].
        revert H. generalize (own_bound cosQ sinQ rnd stroke order l). clear El Eb. revert h. generalize (la_insts l).
        induction l0 as [|c is IHis]; intros h b H; cbn [place_insts] in H.
        - injection H as <- <-. assert (U : forall A (x : list A) k f, List.length (update x k f) = List.length x).
          { clear. induction x; intros [|k] f; cbn [update List.length]; auto. } apply U.
        - destruct (bi_def c) as [d|]; [|discriminate].
          destruct (get_boundary cosQ sinQ rnd stroke nobox order fuel h d) as [[h2 sd]| | |] eqn:Eg; cbn [bind] in H; try discriminate.
          rewrite (IHis _ _ H). cbn [fst]. eapply IH, Eg. }
      destruct (nth_error h2 i) eqn:E2; [eauto|]. apply nth_error_None in E2. assert (i < List.length h)%nat by (apply nth_error_Some; congruence). lia.
  Qed.
End P.
