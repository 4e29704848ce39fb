From Coq Require Import Permutation.
From Verif Require Import Base QSum Net_Model Layers_Model Layers_Proofs Xfl_Model KiCadImport_Model KiCadImport_Spec.
Local Open Scope string_scope.
Local Open Scope list_scope.

(** drawings *)
Lemma each_ok f ts : each f ts = Ok tt <-> forall s, In s ts -> f s = Ok tt.
Proof.
  induction ts as [|t ts IH]; cbn [each].
  - split; [intros _ s []|reflexivity].
  - split.
    + destruct (f t) as [[]| | |] eqn:E; cbn [bind]; try discriminate; intros H s [<-|Hs]; [exact E|apply IH; assumption].
    + intros H; rewrite (H t (or_introl eq_refl)); cbn [bind]; apply IH; intros; apply H; right; assumption.
Qed.
Lemma get_values_ok n s : get_values n s = Ok tt <-> has n s.
Proof. unfold get_values, has; destruct (Nat.ltb_spec (List.length (kbranches s)) n); split; intros; try discriminate; try reflexivity; lia. Qed.
Lemma points_ok_ok t : draw_points t = Ok tt <-> points_ok t.
Proof.
  unfold draw_points, points_ok; split.
  - destruct (each (get_values 2) (kbranches t)) as [[]| | |] eqn:E; cbn [bind]; try discriminate; intros H.
    split; [unfold has; destruct (kbranches t); [discriminate|cbn [List.length]; lia]|].
    intros p Hp; apply get_values_ok, (proj1 (each_ok _ _) E p Hp).
  - intros [H1 H2]; rewrite (proj2 (each_ok (get_values 2) (kbranches t))); [|intros p Hp; apply get_values_ok, H2, Hp].
    cbn [bind]; unfold has in H1; destruct (kbranches t); [cbn in H1; lia|reflexivity].
Qed.
(** an entry of the table is met in the code, and the other way round *)
Ltac by_table :=
  rewrite each_ok; split;
  [ let H := fresh in let s := fresh in let n := fresh in let Hs := fresh in let Hn := fresh in
    intros H s n Hs Hn; specialize (H s Hs); apply get_values_ok; cbn [In] in Hn;
    repeat (destruct Hn as [Hn|Hn]; [injection Hn as Hn <-; rewrite <- Hn in H; exact H|]); destruct Hn
  | let H := fresh in let s := fresh in let Hs := fresh in
    intros H s Hs;
    repeat match goal with
      | |- context [String.eqb (kvalue s) ?k] =>
          let E := fresh in destruct (String.eqb_spec (kvalue s) k) as [E|]; [apply get_values_ok, (H s _ Hs); rewrite E; cbn [In]; tauto|]
      end; reflexivity ].
Lemma stroke_ok_ok t : draw_stroke t = Ok tt <-> stroke_ok t.
Proof. unfold draw_stroke, stroke_ok, entries_ok, stroke_needs; by_table. Qed.
Lemma outline_ok_ok t : draw_outline t = Ok tt <-> outline_ok t.
Proof.
  unfold draw_outline, outline_ok, all_named; rewrite each_ok; split; intros H s Hs.
  - intros E; specialize (H s Hs); rewrite E in H; apply points_ok_ok; exact H.
  - destruct (String.eqb_spec (kvalue s) "pts") as [E|]; [apply points_ok_ok, H; assumption|reflexivity].
Qed.


(** the kinds of drawings *)
Ltac named H s Hs :=
  repeat match goal with
    | |- context [String.eqb (kvalue s) ?k] => let E := fresh "E" in destruct (String.eqb_spec (kvalue s) k) as [E|]; [try (apply get_values_ok, (H s _ Hs); rewrite E; cbn [In]; tauto)|]
    end; try reflexivity.
Ltac from_code H :=
  let s := fresh "s" in let n := fresh "n" in let Hs := fresh "Hs" in let Hn := fresh "Hn" in
  intros s n Hs Hn; specialize (H s Hs); cbn [In] in Hn;
  repeat (destruct Hn as [Hn|Hn]; [injection Hn as Hn <-; rewrite <- Hn in H; first [apply get_values_ok; exact H|exact H]|]); destruct Hn.
Ltac from_named H := let s := fresh "s" in let Hs := fresh "Hs" in let E := fresh "E" in intros s Hs E; specialize (H s Hs); rewrite E in H.
Ltac no_kind := let E := fresh in intros E; cbn [In] in E; exfalso; intuition discriminate.
Ltac no_kinds := repeat (refine (conj _ _); [no_kind|]); no_kind.
Lemma segment_ok bs : draw_segment (KNode "segment" bs) = Ok tt <-> drawing_ok "segment" bs.
Proof.
  unfold draw_segment, drawing_ok, entries_ok; cbn [kbranches]; rewrite each_ok; change (String.eqb "segment" "pad") with false; cbv iota.
  change (needs "segment") with [("start", 2%nat); ("end", 2%nat); ("width", 1%nat); ("net", 1%nat); ("layer", 1%nat)]; split.
  - intros H; split; [from_code H|]; no_kinds.
  - intros [H _] s Hs; named H s Hs.
Qed.
Lemma zone_ok bs : draw_zone (KNode "zone" bs) = Ok tt <-> drawing_ok "zone" bs.
Proof.
  unfold draw_zone, drawing_ok, entries_ok; cbn [kbranches]; rewrite each_ok; change (String.eqb "zone" "pad") with false; cbv iota.
  change (needs "zone") with [("net", 1%nat); ("layer", 1%nat)]; split.
  - intros H; split; [from_code H|]; split; [no_kind|]; split; [intros _; split; from_named H; apply outline_ok_ok; exact H|]; no_kinds.
  - intros (H & _ & Ho & _) s Hs; destruct (Ho eq_refl) as [H1 H2]; named H s Hs; apply outline_ok_ok; [apply H1|apply H2]; assumption.
Qed.
Lemma via_ok bs : draw_via (KNode "via" bs) = Ok tt <-> drawing_ok "via" bs.
Proof.
  unfold draw_via, drawing_ok, entries_ok; cbn [kbranches]; rewrite each_ok; change (String.eqb "via" "pad") with false; cbv iota.
  change (needs "via") with [("at", 2%nat); ("size", 1%nat); ("net", 1%nat); ("layers", 2%nat)].
  assert (L : forall s, (if (List.length (kbranches s) <? 2)%nat then Throw else Ok tt) = Ok tt <-> has 2 s).
  { intros s; unfold has; destruct (Nat.ltb_spec (List.length (kbranches s)) 2); split; intros; try discriminate; try reflexivity; lia. }
  split.
  - intros H; split; [|no_kinds].
    intros s n Hs Hn; specialize (H s Hs); cbn [In] in Hn.
    destruct Hn as [Hn|[Hn|[Hn|[Hn|[]]]]]; injection Hn as Hn <-; rewrite <- Hn in H; try (apply get_values_ok; exact H); apply L; exact H.
  - intros [H _] s Hs; named H s Hs; apply L, (H s _ Hs); match goal with E : kvalue s = _ |- _ => rewrite E end; cbn [In]; tauto.
Qed.
Lemma circle_ok v bs : v = "fp_circle" \/ v = "gr_circle" -> draw_circle (KNode v bs) = Ok tt <-> drawing_ok v bs.
Proof.
  intros Hv; unfold draw_circle, drawing_ok, entries_ok; cbn [kbranches]; rewrite each_ok.
  replace (String.eqb v "pad") with false by (destruct Hv as [-> | ->]; reflexivity); cbv iota.
  replace (needs v) with [("center", 2%nat); ("end", 2%nat)] by (destruct Hv as [-> | ->]; reflexivity); split.
  - intros H; split; [from_code H|]; split; [intros ->; destruct Hv; discriminate|]; split; [intros ->; destruct Hv; discriminate|].
    split; [intros ->; destruct Hv; discriminate|]; split; [intros _; from_named H; apply stroke_ok_ok; exact H|].
    cbn [In]; intros Hw; destruct Hv as [-> | ->]; intuition discriminate.
  - intros (H & _ & _ & _ & Ho & _) s Hs; named H s Hs; apply stroke_ok_ok, Ho; try assumption; destruct Hv as [-> | ->]; cbn [In]; tauto.
Qed.
Lemma line_ok v bs : v = "fp_line" \/ v = "gr_line" -> draw_line (KNode v bs) = Ok tt <-> drawing_ok v bs.
Proof.
  intros Hv; unfold draw_line, drawing_ok, entries_ok; cbn [kbranches]; rewrite each_ok.
  replace (String.eqb v "pad") with false by (destruct Hv as [-> | ->]; reflexivity); cbv iota.
  replace (needs v) with [("start", 2%nat); ("end", 2%nat)] by (destruct Hv as [-> | ->]; reflexivity); split.
  - intros H; split; [from_code H|]; split; [intros ->; destruct Hv; discriminate|]; split; [intros ->; destruct Hv; discriminate|].
    split; [intros ->; destruct Hv; discriminate|]; split; [intros _; from_named H; apply stroke_ok_ok; exact H|].
    cbn [In]; intros Hw; destruct Hv as [-> | ->]; intuition discriminate.
  - intros (H & _ & _ & _ & Ho & _) s Hs; named H s Hs; apply stroke_ok_ok, Ho; try assumption; destruct Hv as [-> | ->]; cbn [In]; tauto.
Qed.
Lemma poly_ok bs : draw_poly (KNode "fp_poly" bs) = Ok tt <-> drawing_ok "fp_poly" bs.
Proof.
  unfold draw_poly, drawing_ok, entries_ok; cbn [kbranches]; rewrite each_ok; change (String.eqb "fp_poly" "pad") with false; cbv iota.
  change (needs "fp_poly") with (@nil (string * nat)); split.
  - intros H; split; [intros s n _ []|]; split; [no_kind|]; split; [no_kind|].
    split; [intros _; from_named H; apply points_ok_ok; exact H|]; split; [intros _; from_named H; apply stroke_ok_ok; exact H|no_kind].
  - intros (_ & _ & _ & H1 & H2 & _) s Hs; named H1 s Hs; [apply points_ok_ok, H1; auto|apply stroke_ok_ok, H2; cbn [In]; auto].
Qed.
Lemma arc_ok v bs : v = "fp_arc" \/ v = "gr_arc" -> draw_arc (KNode v bs) = Ok tt <-> drawing_ok v bs.
Proof.
  intros Hv; unfold draw_arc, drawing_ok, entries_ok, get_at; cbn [kbranches].
  replace (String.eqb v "pad") with false by (destruct Hv as [-> | ->]; reflexivity); cbv iota.
  replace (needs v) with (@nil (string * nat)) by (destruct Hv as [-> | ->]; reflexivity).
  assert (Hin : In v ["fp_arc"; "gr_arc"]) by (cbn [In]; destruct Hv; subst; tauto).
  split.
  - intros H; split; [intros s n _ []|]; split; [intros ->; destruct Hv; discriminate|]; split; [intros ->; destruct Hv; discriminate|].
    split; [intros ->; destruct Hv; discriminate|]; split; [cbn [In]; intros Hw; destruct Hv as [-> | ->]; exfalso; intuition discriminate|]; intros _.
    destruct bs as [|a [|b [|c [|d [|e rest]]]]]; cbn [nth_error] in H;
      repeat match type of H with context [get_values ?n ?x] => let E := fresh "E" in destruct (get_values n x) as [[]| | |] eqn:E; cbn [bind] in H; try discriminate end; try discriminate.
    exists a, b, c, d, e, rest; repeat split; apply get_values_ok; assumption.
  - intros (_ & _ & _ & _ & _ & H); destruct (H Hin) as (a & b & c & d & e & rest & -> & H1 & H2 & H3 & H4); cbn [nth_error].
    apply get_values_ok in H1, H2, H3, H4; rewrite H1, H2, H3; cbn [bind]; exact H4.
Qed.
Lemma pad_ok bs : draw_pad (KNode "pad" bs) = Ok tt <-> drawing_ok "pad" bs.
Proof.
  unfold draw_pad, drawing_ok, entries_ok; cbn [kbranches]; change (String.eqb "pad" "pad") with true; cbv iota.
  change (needs "pad") with [("size", 2%nat); ("roundrect_rratio", 1%nat); ("net", 1%nat)].
  destruct bs as [|a [|b [|c bs]]]; try (split; [discriminate|intros (_ & H & _); destruct (H eq_refl) as [Hl _]; cbn [List.length] in Hl; lia]).
  cbn [skipn]; rewrite each_ok; split.
  - intros H; split; [from_code H|]; split; [|no_kinds].
    intros _; split; [cbn [List.length]; lia|]; from_named H.
    change (each (fun p => if String.eqb (kvalue p) "gr_poly" then match kbranches p with [] => UB | q :: _ => draw_points q end else Ok tt) (kbranches s) = Ok tt) in H.
    rewrite each_ok in H; from_named H; change (match kbranches s0 with [] => UB | q :: _ => draw_points q end = Ok tt) in H.
    destruct (kbranches s0) as [|q qs] eqn:Eb; [discriminate|]; exists q, qs; split; [reflexivity|apply points_ok_ok; exact H].
  - intros (H & Hp & _) s Hs; destruct (Hp eq_refl) as [_ H2]; named H s Hs.
    rewrite each_ok; intros p Hin; destruct (String.eqb_spec (kvalue p) "gr_poly") as [Ep|]; [|reflexivity].
    destruct (H2 s Hs ltac:(assumption) p Hin Ep) as (q & qs & -> & Hq); apply points_ok_ok; exact Hq.
Qed.

Lemma drawing_some v f bs : drawing v = Some f -> f (KNode v bs) = Ok tt <-> drawing_ok v bs.
Proof.
  unfold drawing; repeat match goal with |- context [String.eqb v ?k] => destruct (String.eqb_spec v k) as [->|]; [intros [= <-]|] end; try discriminate;
    first [apply segment_ok|apply zone_ok|apply via_ok|apply pad_ok|apply poly_ok|apply arc_ok; tauto|apply line_ok; tauto|apply circle_ok; tauto].
Qed.
Lemma drawing_none v bs : drawing v = None -> drawing_ok v bs.
Proof.
  unfold drawing, drawing_ok, entries_ok; repeat match goal with |- context [if String.eqb v ?k then Some _ else _] => destruct (String.eqb_spec v k); [discriminate|] end; intros _.
  replace (needs v) with (@nil (string * nat)).
  2:{ unfold needs; cbn [existsb]; repeat match goal with |- context [String.eqb v ?k] => destruct (String.eqb_spec v k); [contradiction|] end; reflexivity. }
  split; [intros ? ? _ []|]; cbn [In]; repeat (refine (conj _ _); [intros; exfalso; intuition congruence|]); intros; exfalso; intuition congruence.
Qed.

Section Extract.
  Context (stoi : string -> option Z) (num : string -> option Q) (idx : string -> Z) (word : string -> option string).
  Notation extract := (extract stoi num idx word).
  Notation extract_node := (extract_node stoi num idx word).

  Lemma extract_app a b : forall d, extract d (a ++ b) = bind (extract d a) (fun d' => extract d' b).
  Proof. induction a as [|t a IH]; intros d; [reflexivity|]; cbn [app KiCadImport_Model.extract]; destruct (extract_node d t); cbn [bind]; auto. Qed.
  Fixpoint ktree_rect' (P : ktree -> Prop) (H : forall v bs, Forall P bs -> P (KNode v bs)) (t : ktree) : P t :=
    match t with
    | KNode v bs => H v bs ((fix go (bs : list ktree) : Forall P bs :=
        match bs with [] => Forall_nil P | b :: bs' => Forall_cons b (ktree_rect' P H b) (go bs') end) bs)
    end.
  (** the loop over the nodes of the set-up or of a footprint *)
  Fixpoint all (d : kdb) (ts : list ktree) (footprint : bool) : res kdb :=
    match ts with
    | [] => Ok d
    | t :: ts' =>
        bind (if (footprint && String.eqb (kvalue t) "layer")%bool then bind (get_values 1 t) (fun _ => Ok d)
              else if (footprint && String.eqb (kvalue t) "at")%bool then Ok d
              else if (footprint && String.eqb (kvalue t) "pad")%bool then bind (draw_pad t) (fun _ => Ok d)
              else extract_node d t) (fun d' => all d' ts' footprint)
    end.
  Lemma node_setup d bs : extract_node d (KNode "setup" bs) = all d bs false.
  Proof. reflexivity. Qed.
  Lemma node_footprint d n bs : extract_node d (KNode "footprint" (n :: bs)) = all d bs true.
  Proof. reflexivity. Qed.
  (** in a footprint, the nodes read in place are read as anywhere else, but for the layer *)
  Lemma in_place d t : (if String.eqb (kvalue t) "layer" then bind (get_values 1 t) (fun _ => Ok d)
      else if String.eqb (kvalue t) "at" then Ok d else if String.eqb (kvalue t) "pad" then bind (draw_pad t) (fun _ => Ok d) else extract_node d t)
    = (if String.eqb (kvalue t) "layer" then bind (get_values 1 t) (fun _ => Ok d) else extract_node d t).
  Proof.
    destruct t as [v bs]; cbn [kvalue]; destruct (String.eqb v "layer"); [reflexivity|].
    destruct (String.eqb_spec v "at") as [->|]; [reflexivity|]; destruct (String.eqb_spec v "pad") as [->|]; reflexivity.
  Qed.
  Lemma other_node d v bs : v <> "setup" -> v <> "footprint" -> relevant (KNode v bs) = false ->
    extract_node d (KNode v bs) = match drawing v with Some draw => bind (draw (KNode v bs)) (fun _ => Ok d) | None => Ok d end.
  Proof.
    unfold relevant; cbn [existsb kvalue KiCadImport_Model.extract_node]; intros Hs Hf H; repeat (apply orb_false_iff in H; destruct H as [? H]).
    rewrite (proj2 (String.eqb_neq v "setup") Hs), (proj2 (String.eqb_neq v "footprint") Hf).
    repeat match goal with E : String.eqb v _ = false |- _ => rewrite E; clear E end; reflexivity.
  Qed.
  Lemma extract_one d t : extract_node d t = extract d [t].
  Proof. cbn [KiCadImport_Model.extract]; destruct (extract_node d t); reflexivity. Qed.

  (** well-formed drawings are passed over *)
  Lemma extract_sections t : well_drawn t -> forall d, extract_node d t = extract d (filter relevant (sections t)).
  Proof.
    induction t as [v bs IH] using ktree_rect'; intros W d; inversion W as [bs' Hw|n bs' Hl Hw|v' bs' Hv1 Hv2 Hd]; subst; cbn [sections].
    - change (String.eqb "setup" "setup") with true; cbv iota; rewrite node_setup; clear W.
      revert d; induction bs as [|t bs IHb]; intros d; [reflexivity|]; inversion IH as [|? ? H1 H2]; subst; cbn [all flat_map andb].
      rewrite filter_app, extract_app, (H1 (Hw t (or_introl eq_refl))); destruct (extract d (filter relevant (sections t))); cbn [bind]; try reflexivity.
      apply IHb; [assumption|]; intros s Hs; apply Hw; right; assumption.
    - change (String.eqb "footprint" "setup") with false; change (String.eqb "footprint" "footprint") with true; cbv iota; rewrite node_footprint; clear W.
      inversion IH as [|? ? _ IHs]; subst; clear IH.
      revert d; induction bs' as [|t bs IHb]; intros d; [reflexivity|]; inversion IHs as [|? ? H1 H2]; subst; cbn [all flat_map]; rewrite !andb_true_l, in_place.
      rewrite filter_app, extract_app.
      assert (E : (if String.eqb (kvalue t) "layer" then bind (get_values 1 t) (fun _ => Ok d) else extract_node d t) = extract d (filter relevant (sections t))).
      { destruct (String.eqb_spec (kvalue t) "layer") as [El|]; [|apply H1, Hw; left; reflexivity].
        rewrite (proj2 (get_values_ok 1 t) (Hl t (or_introl eq_refl) El)); destruct t as [v ts]; cbn [kvalue] in El; subst v; reflexivity. }
      rewrite E; destruct (extract d (filter relevant (sections t))); cbn [bind]; try reflexivity.
      apply IHb; [|intros s Hs; apply Hw; right; assumption|assumption]; intros s Hs; apply Hl; right; assumption.
    - rewrite (proj2 (String.eqb_neq v "setup") Hv1), (proj2 (String.eqb_neq v "footprint") Hv2); cbn [filter].
      destruct (relevant (KNode v bs)) eqn:E; [apply extract_one|].
      rewrite other_node by assumption; destruct (drawing v) as [f|] eqn:Ef; [|reflexivity].
      rewrite (proj2 (drawing_some v f bs Ef) Hd); reflexivity.
  Qed.
  Lemma extract_declarations ts : (forall t, In t ts -> well_drawn t) -> forall d, extract d ts = extract d (declarations ts).
  Proof.
    unfold declarations; induction ts as [|t ts IH]; intros W d; [reflexivity|]; cbn [flat_map KiCadImport_Model.extract].
    rewrite filter_app, extract_app, (extract_sections t (W t (or_introl eq_refl))).
    destruct (extract d (filter relevant (sections t))); cbn [bind]; try reflexivity; apply IH; intros; apply W; right; assumption.
  Qed.
  (** and others are not *)
  Lemma extract_well_drawn t : forall d d', extract_node d t = Ok d' -> well_drawn t.
  Proof.
    induction t as [v bs IH] using ktree_rect'; intros d d' H.
    destruct (String.eqb_spec v "setup") as [->|Hs]; [|destruct (String.eqb_spec v "footprint") as [->|Hf]].
    - constructor; rewrite node_setup in H; revert d H; induction bs as [|t bs IHb]; intros d H s; [intros []|].
      inversion IH as [|? ? H1 H2]; subst; cbn [all andb] in H; destruct (extract_node d t) eqn:E; cbn [bind] in H; try discriminate.
      intros [<-|Hin]; [eapply H1; exact E|eapply (IHb H2); eassumption].
    - destruct bs as [|n bs]; [discriminate|]; rewrite node_footprint in H; inversion IH as [|? ? _ IHs]; subst; clear IH.
      assert (G : all_named "layer" (has 1) bs /\ forall s, In s bs -> well_drawn s); [|constructor; apply G].
      revert d H; induction bs as [|t bs IHb]; intros d H; [split; intros s []|].
      inversion IHs as [|? ? H1 H2]; subst; cbn [all] in H; rewrite !andb_true_l, in_place in H.
      destruct (String.eqb_spec (kvalue t) "layer") as [El|Nl].
      + destruct (get_values 1 t) as [[]| | |] eqn:Eg; cbn [bind] in H; try discriminate; apply get_values_ok in Eg.
        destruct (IHb H2 _ H) as [G1 G2]; split; intros s [<-|Hin]; auto.
        destruct t as [v ts]; cbn [kvalue] in El; subst v; apply wd_node; [discriminate|discriminate|apply drawing_none; reflexivity].
      + destruct (extract_node d t) eqn:E; cbn [bind] in H; try discriminate.
        destruct (IHb H2 _ H) as [G1 G2]; split; intros s [<-|Hin]; auto; [contradiction|eapply H1; exact E].
    - apply wd_node; [assumption|assumption|]; destruct (drawing v) as [f|] eqn:Ef; [|apply drawing_none; exact Ef].
      destruct (relevant (KNode v bs)) eqn:Er.
      + exfalso; unfold relevant in Er; cbn [existsb kvalue] in Er; rewrite !orb_true_iff in Er.
        decompose [or] Er; try discriminate; match goal with E : String.eqb v _ = true |- _ => apply String.eqb_eq in E; subst v end; discriminate.
      + rewrite other_node, Ef in H by assumption; apply (drawing_some v f bs Ef); destruct (f (KNode v bs)) as [[]| | |]; try discriminate; reflexivity.
  Qed.
  Lemma extract_all_well_drawn ts : forall d d', extract d ts = Ok d' -> forall t, In t ts -> well_drawn t.
  Proof.
    induction ts as [|t ts IH]; intros d d' H s; [intros []|]; cbn [KiCadImport_Model.extract] in H.
    destruct (extract_node d t) eqn:E; cbn [bind] in H; try discriminate; intros [<-|Hin]; [eapply extract_well_drawn; exact E|eapply IH; eassumption].
  Qed.

  Definition plain (i : Z) : klayer := {| kl_id := (i mod 2 ^ 64)%Z; kl_type := KUnknown; kl_thick := 0%Q; kl_mat := "" |}.
  Definition declared (l : string * string * string) : string * klayer :=
    (snd (fst l), plain (match stoi (fst (fst l)) with Some i => i | None => 0%Z end)).

  Lemma emplace_new {V} (eqb : string -> string -> bool) (r : forall x y, reflect (x = y) (eqb x y)) k (v : V) m :
    ~ In k (map fst m) -> aemplace eqb k v m = m ++ [(k, v)].
  Proof.
    intros H; unfold aemplace, acount; destruct (alookup eqb k m) eqn:E; auto.
    exfalso; apply H; apply (alookup_in _ r) in E; apply (in_map fst) in E; exact E.
  Qed.

  Lemma extract_layers_ok ls : forall d, (forall l, In l ls -> exists i, stoi (fst (fst l)) = Some i) ->
    NoDup (map fst (k_layers d) ++ map (fun l => snd (fst l)) ls) ->
    extract_layers stoi d (map layer_tree ls) = Ok {| k_layers := k_layers d ++ map declared ls; k_nets := k_nets d |}.
  Proof.
    induction ls as [|l ls IH]; intros d Hs Hn.
    - cbn [map extract_layers]; rewrite app_nil_r; destruct d; reflexivity.
    - cbn [map extract_layers]; unfold extract_layer; cbn [layer_tree kvalue kbranches leaf].
      destruct (Hs l (or_introl eq_refl)) as [i Hi]; rewrite Hi; cbn [bind].
      cbn [map] in Hn.
      rewrite (emplace_new String.eqb String.eqb_spec).
      2:{ intros C; apply (NoDup_remove_2 _ _ _ Hn), in_app_iff; auto. }
      rewrite IH.
      + cbn [k_layers k_nets]; rewrite <- app_assoc; cbn [app]; unfold declared, plain at 2; rewrite Hi; reflexivity.
      + intros; apply Hs; right; auto.
      + cbn [k_layers]; rewrite map_app; cbn [map fst]; rewrite <- app_assoc; exact Hn.
  Qed.

  (** one setting *)
  Definition apply1 (l : klayer) (kv : string * string) : klayer :=
    if String.eqb (fst kv) "type" then {| kl_id := kl_id l; kl_type := set_type (snd kv) (kl_type l); kl_thick := kl_thick l; kl_mat := kl_mat l |}
    else if String.eqb (fst kv) "thickness" then {| kl_id := kl_id l; kl_type := kl_type l; kl_thick := match num (snd kv) with Some q => q | None => kl_thick l end; kl_mat := kl_mat l |}
    else if String.eqb (fst kv) "material" then {| kl_id := kl_id l; kl_type := kl_type l; kl_thick := kl_thick l; kl_mat := match word (snd kv) with Some w => w | None => kl_mat l end |}
    else l.
  Lemma stack_entries_ok kvs : forall l, stack_entries num word l (map (fun kv => KNode (fst kv) [leaf (snd kv)]) kvs) = Ok (fold_left apply1 kvs l).
  Proof. induction kvs as [|kv kvs IH]; intros l; [reflexivity|]; cbn [map stack_entries fold_left]; unfold stack_entry; cbn [kvalue kbranches leaf bind]; apply IH. Qed.

  Definition settle (es : list (string * list (string * string))) (x : string * klayer) : string * klayer :=
    (fst x, fold_left apply1 (List.concat (map snd (filter (fun e => String.eqb (fst e) (fst x)) es))) (snd x)).

  Lemma update_pointwise k (g : klayer -> klayer) m l : NoDup (map fst m) -> alookup String.eqb k m = Some l ->
    update k (g l) m = map (fun x => if String.eqb k (fst x) then (fst x, g (snd x)) else x) m.
  Proof.
    induction m as [|[k' v'] m IH]; intros Hn Hl; [discriminate|]; cbn [alookup update map fst snd] in *.
    inversion Hn as [|? ? Hni Hn']; subst; destruct (String.eqb k k') eqn:E.
    - injection Hl as ->; f_equal; rewrite <- (map_id m) at 1; apply map_ext_in; intros x Hx.
      apply String.eqb_eq in E; subst k'; destruct (String.eqb k (fst x)) eqn:E2; auto.
      apply String.eqb_eq in E2; exfalso; apply Hni; rewrite E2; apply in_map; auto.
    - f_equal; apply IH; auto.
  Qed.

  Lemma extract_stackup_ok es : forall d, NoDup (map fst (k_layers d)) ->
    extract_stackup num word d (map stack_tree es) = Ok {| k_layers := map (settle es) (k_layers d); k_nets := k_nets d |}.
  Proof.
    induction es as [|[n kvs] es IH]; intros d Hn.
    - cbn [map extract_stackup]; f_equal; destruct d as [ls ns]; cbn; f_equal.
      rewrite <- (map_id ls) at 1; apply map_ext; intros []; reflexivity.
    - cbn [map extract_stackup stack_tree kvalue kbranches leaf fst snd]; change (String.eqb "layer" "layer") with true; cbv iota.
      destruct (alookup String.eqb n (k_layers d)) as [l|] eqn:El.
      + rewrite stack_entries_ok; cbn [bind].
        rewrite (update_pointwise n (fold_left apply1 kvs) _ l Hn El), IH; cbn [k_layers k_nets].
        * f_equal; f_equal; rewrite map_map; apply map_ext; intros [k v]; unfold settle; cbn [fst snd filter].
          destruct (String.eqb n k) eqn:E; cbn [fst snd map List.concat]; auto.
          rewrite fold_left_app; reflexivity.
        * rewrite map_map; erewrite map_ext; [exact Hn|]; intros [k v]; cbn [fst]; destruct (String.eqb n k); reflexivity.
      + rewrite IH by auto; f_equal; f_equal; apply map_ext_in; intros [k v] Hx; unfold settle; cbn [fst snd filter].
        destruct (String.eqb n k) eqn:E; auto.
        exfalso; apply String.eqb_eq in E; subst k.
        apply (alookup_none _ String.eqb_spec) in El; apply El; apply (in_map fst) in Hx; exact Hx.
  Qed.

  Definition nets_of (ns : list (string * string)) (m : list (Z * string)) : list (Z * string) :=
    fold_left (fun m n => aemplace Z.eqb (idx (fst n)) (snd n) m) ns m.
  Lemma extract_nets_ok ns : forall d, extract d (map net_tree ns) = Ok {| k_layers := k_layers d; k_nets := nets_of ns (k_nets d) |}.
  Proof.
    induction ns as [|n ns IH]; intros d; [destruct d; reflexivity|].
    cbn [map]; change (bind (extract_net idx d (net_tree n)) (fun d' => extract d' (map net_tree ns)) = Ok {| k_layers := k_layers d; k_nets := nets_of (n :: ns) (k_nets d) |}).
    cbn [net_tree extract_net kbranches leaf kvalue bind]; rewrite IH; reflexivity.
  Qed.

  Lemma extract_render f : (forall l, In l (kf_layers f) -> exists i, stoi (fst (fst l)) = Some i) -> NoDup (map (fun l => snd (fst l)) (kf_layers f)) ->
    extract kdb_init (render f) = Ok {| k_layers := map (settle (kf_stack f)) (map declared (kf_layers f)); k_nets := nets_of (kf_nets f) [] |}.
  Proof.
    intros Hs Hn; unfold render; cbn [KiCadImport_Model.extract].
    change (extract_node kdb_init (KNode "layers" (map layer_tree (kf_layers f)))) with (extract_layers stoi kdb_init (map layer_tree (kf_layers f))).
    rewrite extract_layers_ok; auto; cbn [bind kdb_init k_layers k_nets app].
    set (d := {| k_layers := map declared (kf_layers f); k_nets := [] |}).
    change (extract_node d (KNode "stackup" (map stack_tree (kf_stack f)))) with (extract_stackup num word d (map stack_tree (kf_stack f))).
    rewrite extract_stackup_ok; cbn [bind].
    - rewrite extract_nets_ok; reflexivity.
    - subst d; cbn [k_layers]; rewrite map_map; exact Hn.
  Qed.
End Extract.

(** layers of the layout *)
Section Layers.
  Context (stoi : string -> option Z) (num : string -> option Q) (word : string -> option string).
  Context (stoi_int : forall s i, stoi s = Some i -> (- 2 ^ 31 <= i < 2 ^ 31)%Z).

  Lemma settle_id kvs : forall l, kl_id (fold_left (apply1 num word) kvs l) = kl_id l.
  Proof.
    induction kvs as [|[k v] kvs IH]; intros l; [reflexivity|]; cbn [fold_left]; rewrite IH; unfold apply1; cbn [fst snd].
    destruct (String.eqb k "type"), (String.eqb k "thickness"), (String.eqb k "material"); reflexivity.
  Qed.
  Lemma settle_thick kvs : forall l, kl_thick (fold_left (apply1 num word) kvs l) =
    last_some (map (fun kv => if String.eqb (fst kv) "thickness" then num (snd kv) else None) kvs) (kl_thick l).
  Proof.
    induction kvs as [|[k v] kvs IH]; intros l; [reflexivity|]; cbn [fold_left map]; rewrite IH; unfold last_some at 2; cbn [fold_left]; unfold last_some; f_equal.
    unfold apply1; cbn [fst snd]; destruct (String.eqb_spec k "type") as [->|]; [reflexivity|].
    destruct (String.eqb k "thickness"), (String.eqb k "material"); reflexivity.
  Qed.
  Lemma settle_mat kvs : forall l, kl_mat (fold_left (apply1 num word) kvs l) =
    last_some (map (fun kv => if String.eqb (fst kv) "material" then word (snd kv) else None) kvs) (kl_mat l).
  Proof.
    induction kvs as [|[k v] kvs IH]; intros l; [reflexivity|]; cbn [fold_left map]; rewrite IH; unfold last_some at 2; cbn [fold_left]; unfold last_some; f_equal.
    unfold apply1; cbn [fst snd]; destruct (String.eqb_spec k "type") as [->|]; [reflexivity|].
    destruct (String.eqb_spec k "thickness") as [->|]; [reflexivity|].
    destruct (String.eqb k "material"); reflexivity.
  Qed.
  Definition is_cond (t : ktype) : bool := match t with KConducting => true | _ => false end.
  Lemma set_type_known s t : is_cond (set_type s t) = match known_type s with Some b => b | None => is_cond t end.
  Proof.
    unfold set_type, known_type; cbn [existsb].
    repeat match goal with |- context [String.eqb s ?k] => destruct (String.eqb_spec s k) as [->|]; [reflexivity|] end; reflexivity.
  Qed.
  Lemma settle_type kvs : forall l, is_cond (kl_type (fold_left (apply1 num word) kvs l)) =
    last_some (map (fun kv => if String.eqb (fst kv) "type" then known_type (snd kv) else None) kvs) (is_cond (kl_type l)).
  Proof.
    induction kvs as [|[k v] kvs IH]; intros l; [reflexivity|]; cbn [fold_left map]; rewrite IH; unfold last_some at 2; cbn [fold_left]; unfold last_some; f_equal.
    unfold apply1; cbn [fst snd]; destruct (String.eqb_spec k "type") as [->|]; [apply set_type_known|].
    destruct (String.eqb k "thickness"), (String.eqb k "material"); reflexivity.
  Qed.

  Definition shown (u : stackup) := (su_name u, su_type u, su_thick u, su_cond u, su_diel u).
  Definition view (x : string * klayer) := 
    (fst x, if is_cond (kl_type (snd x)) then LConducting else LDielectric, kl_thick (snd x),
     if String.eqb (kl_mat (snd x)) "" then "copper" else kl_mat (snd x), if String.eqb (kl_mat (snd x)) "" then "silicon" else kl_mat (snd x)).
  Lemma create_layers_shown ls : forall z, map shown (create_layers z ls) = map view (filter layer_kept ls).
  Proof.
    induction ls as [|x ls IH]; intros z; [reflexivity|]; cbn [create_layers filter]; destruct (layer_kept x); [|apply IH].
    cbn [map]; rewrite IH; f_equal; unfold shown, view; cbn; destruct (kl_type (snd x)); reflexivity.
  Qed.
  Lemma create_layers_stacked ls : forall z, stacked z (create_layers z ls).
  Proof.
    induction ls as [|x ls IH]; intros z; [exact I|]; cbn [create_layers]; destruct (layer_kept x); [|apply IH].
    cbn [stacked su_elev su_thick]; split; [reflexivity|apply IH].
  Qed.

  Lemma kept_physical f l : (exists i, stoi (fst (fst l)) = Some i) -> layer_kept (settle num word (kf_stack f) (declared stoi l)) = physical stoi l.
  Proof.
    intros [i Hi]; unfold layer_kept, settle; cbn [snd fst]; rewrite settle_id; unfold declared, physical, plain; cbn [snd kl_id]; rewrite Hi.
    pose proof (stoi_int _ _ Hi).
    destruct (Z.leb_spec 0 i); cbn [andb].
    - rewrite Z.mod_small; [reflexivity|]; lia.
    - replace (i mod 2 ^ 64)%Z with (i + 2 ^ 64)%Z; [apply Z.leb_gt; lia|].
      apply (Z.mod_unique _ _ (-1)); lia.
  Qed.
  Lemma view_expected f l : view (settle num word (kf_stack f) (declared stoi l)) = expected num word f l.
  Proof.
    unfold view, expected, settle, setting, settings_of; cbn [fst snd].
    rewrite settle_type, settle_thick, settle_mat; reflexivity.
  Qed.
  Lemma filter_map_in {A B} (g : A -> B) p q (l : list A) : (forall x, In x l -> p (g x) = q x) -> filter p (map g l) = map g (filter q l).
  Proof.
    induction l as [|x l IH]; intros H; [reflexivity|]; cbn [map filter]; rewrite (H x (or_introl eq_refl)), IH by (intros; apply H; right; auto).
    destruct (q x); reflexivity.
  Qed.

  Lemma layers_of_board f z : (forall l, In l (kf_layers f) -> exists i, stoi (fst (fst l)) = Some i) ->
    map shown (create_layers z (map (settle num word (kf_stack f)) (map (declared stoi) (kf_layers f)))) = map (expected num word f) (filter (physical stoi) (kf_layers f)).
  Proof.
    intros H; rewrite create_layers_shown, map_map, (filter_map_in _ _ (physical stoi)) by (intros; apply kept_physical; auto).
    rewrite map_map; apply map_ext; intros; apply view_expected.
  Qed.
  Lemma filter_perm {A} p (l l' : list A) : Permutation l l' -> Permutation (filter p l) (filter p l').
  Proof.
    induction 1; cbn [filter]; auto.
    - destruct (p x); auto.
    - destruct (p x), (p y); auto; constructor.
    - eapply Permutation_trans; eauto.
  Qed.
  Lemma create_layers_perm ls ls' z : Permutation ls' ls -> Permutation (map shown (create_layers z ls')) (map shown (create_layers z ls)).
  Proof. intros H; rewrite !create_layers_shown; apply Permutation_map, filter_perm, H. Qed.
End Layers.

(** nets of the layout *)
Lemma create_nets_keys ns : forall c, NoDup (map fst (nc_map c)) ->
  NoDup (map fst (nc_map (fold_left (fun c n => fst (nc_create c (snd n))) ns c))) /\
  (forall n : string, In n (map fst (nc_map (fold_left (fun c (x : Z * string) => fst (nc_create c (snd x))) ns c))) <-> In n (map fst (nc_map c)) \/ In n (map snd ns)).
Proof.
  induction ns as [|[i n] ns IH]; intros c Hc; cbn [fold_left map fst snd].
  - split; [auto|]; intros; simpl; tauto.
  - assert (H : NoDup (map fst (nc_map (fst (nc_create c n)))) /\ forall m, In m (map fst (nc_map (fst (nc_create c n)))) <-> In m (map fst (nc_map c)) \/ n = m).
    { unfold nc_create, nc_count; destruct (acount String.eqb n (nc_map c)) eqn:E; cbn [fst nc_map].
      - split; [auto|]; intros m; split; [auto|]; intros [|<-]; auto; apply (acount_true _ String.eqb_spec) in E; exact E.
      - unfold aemplace; rewrite E; split.
        + pose proof (aemplace_nodup _ String.eqb_spec n (mkNet n (nc_uid c)) (nc_map c)) as H; unfold aemplace in H; rewrite E in H; apply H, Hc.
        + intros m; rewrite map_app, in_app_iff; cbn; tauto. }
    destruct H as [H1 H2]; destruct (IH _ H1) as [H3 H4]; split; [exact H3|].
    intros m; rewrite H4, H2; cbn; tauto.
Qed.

Lemma nets_of_nodup idx ns : forall m, NoDup (map fst m ++ map (fun n => idx (fst n)) ns) -> nets_of idx ns m = m ++ map (fun n => (idx (fst n), snd n)) ns.
Proof.
  induction ns as [|n ns IH]; intros m H; cbn [nets_of fold_left map]; [rewrite app_nil_r; reflexivity|].
  change (nets_of idx ns (aemplace Z.eqb (idx (fst n)) (snd n) m) = m ++ (idx (fst n), snd n) :: map (fun n => (idx (fst n), snd n)) ns).
  cbn [map] in H; assert (E : aemplace Z.eqb (idx (fst n)) (snd n) m = m ++ [(idx (fst n), snd n)]).
  { unfold aemplace, acount; destruct (alookup Z.eqb (idx (fst n)) m) eqn:E; auto.
    exfalso; apply (NoDup_remove_2 _ _ _ H), in_app_iff; left; apply (alookup_in _ Z_eqb_reflect) in E; apply (in_map fst) in E; exact E. }
  rewrite E, IH, <- app_assoc; [reflexivity|]; rewrite map_app; cbn [map fst]; rewrite <- app_assoc; exact H.
Qed.
