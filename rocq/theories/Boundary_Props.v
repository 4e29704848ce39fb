(** C119-C121: the boundary of a layout and the picture of it. *)
From Coq Require Import Permutation.
From Verif Require Import Base QSum.
From Verif Require Import Transform_Model Transform_Spec Transform_Proofs Shape_Model Shape_Spec Shape_Proofs Shape_Props.
From Verif Require Import Boundary_Model Boundary_Spec Boundary_Proofs.
Local Open Scope Q_scope.
Local Open Scope res_scope.

(** * C119: what the boundary is *)

(** Asked for before any boundary is known, the boundary of a layout is the smallest box around the boxes of its
    geometries on its layers and the boundaries of the layouts placed in it, whatever the order in which layers are
    walked; and the contents of no layout change.  The geometries are valid. *)
Theorem C119_boundary_is : forall cosQ sinQ rnd stroke nobox order fuel h i h' s,
  (forall x, Permutation x (order x)) -> unbounded h ->
  (forall l k g, In l h -> In (BGeom k (Some g)) (la_prims l) -> valid g = true) ->
  get_boundary cosQ sinQ rnd stroke nobox order fuel h i = Ok (h', s) ->
  same_contents h h' /\ exists b, bound_of cosQ sinQ rnd stroke nobox h i b /\ s = Poly (corner_points nobox b).
Proof.
  intros cosQ sinQ rnd stroke nobox order fuel h i h' s Ho Hu Hv H.
  destruct (get_boundary_good cosQ sinQ rnd stroke nobox order Ho fuel h i h' s) as (A & _ & b & -> & B).
  - apply unbounded_good, Hu.
  - intros l Hl k g Hg. exact (Hv l k g Hl Hg).
  - exact H.
  - split; [exact A|]. exists b. split; [exact B|]. rewrite corner_points_outline. reflexivity.
Qed.
Print Assumptions C119_boundary_is.

(** It holds every point of the geometries of the layout and of everything placed in it, at any depth. *)
Theorem C119_boundary_holds_partial : forall cosQ sinQ rnd stroke inscribed nobox order fuel h i h' s p,
  (forall x, Permutation x (order x)) -> unbounded h -> monotone rnd ->
  (forall o r d q, In q (inscribed o r d) -> in_disc o r q) ->
  (forall l k g, In l h -> In (BGeom k (Some g)) (la_prims l) -> valid g = true) ->
  get_boundary cosQ sinQ rnd stroke nobox order fuel h i = Ok (h', s) ->
  placed cosQ sinQ rnd stroke inscribed h i p ->
  exists x0 y0 x1 y1, s = Poly [(x0, y0); (x1, y0); (x1, y1); (x0, y1)] /\ x0 <= fst p <= x1 /\ y0 <= snd p <= y1.
Proof.
  intros cosQ sinQ rnd stroke inscribed nobox order fuel h i h' s p Ho Hu Hm Hi Hv H Hp.
  destruct (C119_boundary_is _ _ _ _ _ _ _ _ _ _ _ Ho Hu Hv H) as (_ & b & B & ->).
  destruct (bound_holds cosQ sinQ rnd stroke inscribed nobox Hm Hi) with (h := h) (i := i) (p := p) (b := b) as ([[x0 y0] [x1 y1]] & -> & I1 & I2); auto.
  - intros g gb q Hg Eg Hq. eapply C117_box_holds_contour; eauto.
  - clear. intros g. induction g using shape_ind'; intros q Hg Hq; cbn [bbox contour valid] in *; eauto.
    + destruct (stroke ps w); [destruct Hq|eexists; reflexivity].
    + destruct ps; [destruct Hq|eexists; reflexivity].
    + destruct o; [destruct Hq|eexists; reflexivity].
    + discriminate.
    + rewrite Hg in *. apply in_map_iff in Hq as (q0 & _ & Hq0). destruct (IHg q0 eq_refl Hq0) as (gb & ->). eexists; reflexivity.
  - intros l Hl k g Hg. exact (Hv l k g Hl Hg).
  - exists x0, y0, x1, y1. split; [reflexivity|]. split; [exact I1|exact I2].
Qed.
Print Assumptions C119_boundary_holds_partial.

Definition ex_box (x0 y0 x1 y1 : Q) : option shape := Some (Rect ((x0, y0), (x1, y1))).
Notation ex_get := (get_boundary ex_cos ex_sin ex_id (fun ps _ => ps) [] (fun x => x)).

(** C119 is false of the code: bond wires do not count, and neither does a geometry on a layer the layout does not have. *)
Theorem C119_objects_refuted :
  rmap snd (ex_get 1%nat [mkLay [1%Z] [BGeom 1 (ex_box 0 0 1 1); BWire 1 (0, 0) (50, 0); BGeom 2 (ex_box 0 0 90 90)] [] None] 0%nat)
    = Ok (Poly [(0, 0); (1, 0); (1, 1); (0, 1)]).
Proof. vm_compute. reflexivity. Qed.
Print Assumptions C119_objects_refuted.

(** And once asked for, it stays what it was when geometries are added. *)
Theorem C119_stale_refuted :
  (h <- b_run ex_cos ex_sin ex_id (fun ps _ => ps) [] (fun x => x) 1 [mkLay [1%Z] [BGeom 1 (ex_box 0 0 1 1)] [] None] [BGet 0; BAddPrim 0 (BGeom 1 (ex_box 0 0 90 90))] ;;
   rmap snd (ex_get 1%nat h 0%nat)) = Ok (Poly [(0, 0); (1, 0); (1, 1); (0, 1)]) /\
  (h <- b_run ex_cos ex_sin ex_id (fun ps _ => ps) [] (fun x => x) 1 [mkLay [1%Z] [BGeom 1 (ex_box 0 0 1 1)] [] None] [BAddPrim 0 (BGeom 1 (ex_box 0 0 90 90))] ;;
   rmap snd (ex_get 1%nat h 0%nat)) = Ok (Poly [(0, 0); (90, 0); (90, 90); (0, 90)]).
Proof. split; vm_compute; reflexivity. Qed.
Print Assumptions C119_stale_refuted.

(** Layouts placed in each other, or in themselves: the call does not return. *)
Theorem C119_recursive_diverges : forall cosQ sinQ rnd stroke nobox order (C : nat -> Prop) h,
  (forall i, C i -> exists l c is d, nth_error h i = Some l /\ la_bound l = None /\ la_insts l = c :: is /\ bi_def c = Some d /\ C d) ->
  forall fuel i, C i -> get_boundary cosQ sinQ rnd stroke nobox order fuel h i = OutOfFuel.
Proof.
  intros cosQ sinQ rnd stroke nobox order C h HC. induction fuel as [|fuel IH]; intros i Hi; destruct (HC i Hi) as (l & c & is & d & El & Eb & Ei & Ed & Hd);
    cbn [get_boundary]; rewrite El, Eb; [reflexivity|]. rewrite Ei. cbn [place_insts]. rewrite Ed, (IH d Hd). reflexivity.
Qed.
Print Assumptions C119_recursive_diverges.

(** A history of edits of empty layouts leaves in each what was added to it, geometries since they were last cleared; so the
    boundary is that of the objects that were added and not removed. *)
Lemma edits_contents cosQ sinQ rnd stroke nobox order fuel i ops : forall h h' l,
  Forall edit ops -> b_run cosQ sinQ rnd stroke nobox order fuel h ops = Ok h' -> nth_error h i = Some l -> la_bound l = None ->
  List.length h' = List.length h /\
  nth_error h' i = Some (mkLay (la_layers l ++ added_layers i ops) (added_prims i ops (la_prims l)) (la_insts l ++ added_insts i ops) None).
Proof.
  induction ops as [|o ops IH]; intros h h' l E R Hl Hb.
  - cbn [b_run] in R. injection R as <-. cbn. rewrite !app_nil_r. split; [reflexivity|]. rewrite Hl. destruct l; cbn in *; congruence.
  - inversion E as [|? ? Eo Es]; subst. cbn [b_run] in R.
    assert (G : exists j f, b_step cosQ sinQ rnd stroke nobox order fuel h o = Ok (update h j f) /\
      la_bound (if (j =? i)%nat then f l else l) = None /\
      la_layers (if (j =? i)%nat then f l else l) = la_layers l ++ added_layers i [o] /\
      la_insts (if (j =? i)%nat then f l else l) = la_insts l ++ added_insts i [o] /\
      added_prims i ops (la_prims (if (j =? i)%nat then f l else l)) = added_prims i (o :: ops) (la_prims l)).
    { destruct o as [j x|j x|j x|j|j x|j]; cbn [edit] in Eo; try contradiction; cbn [b_step]; exists j; eexists; (split; [reflexivity|]);
        cbn [added_layers added_insts added_prims flat_map app]; destruct (j =? i)%nat; cbn [la_layers la_prims la_insts la_bound app]; rewrite ?app_nil_r; auto. }
    destruct G as (j & f & S & G1 & G2 & G3 & G4). rewrite S in R. cbn [bind] in R.
    assert (Hl' : nth_error (update h j f) i = Some (if (j =? i)%nat then f l else l)).
    { destruct (Nat.eqb_spec j i) as [->|N]; [apply (update_same _ _ _ _ Hl)|rewrite update_other by congruence; exact Hl]. }
    destruct (IH _ _ _ Es R Hl' G1) as [L C]. split; [rewrite L; apply update_length|]. rewrite C, G2, G3, G4.
    unfold added_layers, added_insts. cbn [flat_map]. now rewrite !app_nil_r, !app_assoc.
Qed.
Theorem C119_edited : forall cosQ sinQ rnd stroke nobox order fuel ops n h i h' s,
  (forall x, Permutation x (order x)) -> Forall edit ops ->
  b_run cosQ sinQ rnd stroke nobox order fuel (repeat (mkLay [] [] [] None) n) ops = Ok h ->
  (forall l k g, In l h -> In (BGeom k (Some g)) (la_prims l) -> valid g = true) ->
  get_boundary cosQ sinQ rnd stroke nobox order fuel h i = Ok (h', s) ->
  List.length h = n /\
  (forall j l, nth_error h j = Some l -> la_layers l = added_layers j ops /\ la_prims l = added_prims j ops [] /\ la_insts l = added_insts j ops) /\
  exists b, bound_of cosQ sinQ rnd stroke nobox h i b /\ s = Poly (corner_points nobox b).
Proof.
  intros cosQ sinQ rnd stroke nobox order fuel ops n h i h' s Ho E R Hv H.
  assert (Z : forall j, (j < n)%nat -> nth_error (repeat (mkLay [] [] [] None) n) j = Some (mkLay [] [] [] None)).
  { intros j L. destruct (nth_error (repeat (mkLay [] [] [] None) n) j) as [x|] eqn:X; [|apply nth_error_None in X; rewrite repeat_length in X; lia].
    apply nth_error_In, repeat_spec in X. now subst. }
  assert (Len : List.length h = n).
  { destruct n as [|n].
    - clear - R E. cbn [repeat] in R. revert R. induction E as [|o ops Eo _ IH]; cbn [b_run]; [intros [= <-]; reflexivity|].
      assert (S : b_step cosQ sinQ rnd stroke nobox order fuel [] o = Ok []) by (destruct o as [j x|j x|j x|j|j x|j]; cbn in Eo; try contradiction; destruct j; reflexivity).
      rewrite S; exact IH.
    - destruct (edits_contents cosQ sinQ rnd stroke nobox order fuel 0 ops _ h _ E R (Z 0%nat ltac:(lia)) eq_refl) as [L _]. now rewrite repeat_length in L. }
  assert (C : forall j l, nth_error h j = Some l -> la_layers l = added_layers j ops /\ la_prims l = added_prims j ops [] /\ la_insts l = added_insts j ops /\ la_bound l = None).
  { intros j l Hj. assert (L : (j < n)%nat) by (rewrite <- Len; apply nth_error_Some; congruence).
    destruct (edits_contents cosQ sinQ rnd stroke nobox order fuel j ops _ h _ E R (Z j L) eq_refl) as [_ X]. rewrite X in Hj. injection Hj as <-. auto. }
  split; [exact Len|]. split; [intros j l Hj; destruct (C j l Hj) as (A & B & D & _); auto|].
  assert (U : unbounded h) by (intros l I; apply In_nth_error in I as [j Hj]; apply (C j l Hj)).
  apply (C119_boundary_is _ _ _ _ _ _ _ _ _ _ _ Ho U Hv H).
Qed.
Print Assumptions C119_edited.
Example C119_edited_ex :
  (h <- b_run ex_cos ex_sin ex_id (fun ps _ => ps) [] (fun x => x) 2 (repeat (mkLay [] [] [] None) 2)
     [BAddLayer 0 1; BAddPrim 0 (BGeom 1 (ex_box 0 0 90 90)); BClear 0; BAddPrim 0 (BGeom 1 (ex_box 0 0 1 1)); BAddLayer 1 7; BAddPrim 1 (BGeom 7 (ex_box 4 4 5 5))] ;;
   rmap snd (ex_get 1%nat h 0%nat)) = Ok (Poly [(0, 0); (1, 0); (1, 1); (0, 1)]).
Proof. vm_compute. reflexivity. Qed.

(** Asking for the boundary of a layout that does not exist, or that has an instance of one, is undefined. *)
Theorem C119_no_layout_is_ub : forall cosQ sinQ rnd stroke nobox order fuel h i,
  nth_error h i = None -> get_boundary cosQ sinQ rnd stroke nobox order fuel h i = UB /\
  forall j l c is, nth_error h j = Some l -> la_bound l = None -> la_insts l = c :: is -> bi_def c = Some i ->
    get_boundary cosQ sinQ rnd stroke nobox order (Datatypes.S fuel) h j = UB.
Proof.
  intros cosQ sinQ rnd stroke nobox order fuel h i N. assert (G : get_boundary cosQ sinQ rnd stroke nobox order fuel h i = UB) by (destruct fuel; cbn [get_boundary]; rewrite N; reflexivity).
  split; [exact G|]. intros j l c is El Eb Ei Ed. cbn [get_boundary]. rewrite El, Eb, Ei. cbn [place_insts]. rewrite Ed, G. reflexivity.
Qed.
Print Assumptions C119_no_layout_is_ub.

(** A cell instance without a definition layout is dereferenced. *)
Theorem C119_no_definition_is_ub : forall cosQ sinQ rnd stroke nobox order fuel h i l t is,
  nth_error h i = Some l -> la_bound l = None -> la_insts l = mkBI None t :: is ->
  get_boundary cosQ sinQ rnd stroke nobox order (Datatypes.S fuel) h i = UB.
Proof. intros cosQ sinQ rnd stroke nobox order fuel h i l t is El Eb Ei. cbn [get_boundary]. rewrite El, Eb, Ei. reflexivity. Qed.
Print Assumptions C119_no_definition_is_ub.

(** * C120: the boundary that is kept *)

(** The boundary a call returns is the one every later call returns, after any edits of any layouts and any other
    calls, until a boundary is set for the layout; and a boundary that was set is the one returned. *)
Theorem C120_boundary_kept : forall cosQ sinQ rnd stroke nobox order fuel fuel' h i h1 s ops h2,
  get_boundary cosQ sinQ rnd stroke nobox order fuel h i = Ok (h1, s) -> Forall (not_set i) ops ->
  b_run cosQ sinQ rnd stroke nobox order fuel h1 ops = Ok h2 ->
  get_boundary cosQ sinQ rnd stroke nobox order fuel' h2 i = Ok (h2, s).
Proof.
  intros cosQ sinQ rnd stroke nobox order fuel fuel' h i h1 s ops h2 H Hn Hr.
  assert (G : forall ops h1, Forall (not_set i) ops -> (exists l, nth_error h1 i = Some l /\ la_bound l = Some s) ->
    b_run cosQ sinQ rnd stroke nobox order fuel h1 ops = Ok h2 -> exists l, nth_error h2 i = Some l /\ la_bound l = Some s).
  { clear. induction ops as [|o ops IH]; intros h1 Hn (l & Hl & Hs) H; cbn [b_run] in H; [injection H as <-; eauto|].
    inversion Hn as [|? ? Ho Hn']; subst.
    destruct (b_step cosQ sinQ rnd stroke nobox order fuel h1 o) as [h'| | |] eqn:E; cbn [bind] in H; try discriminate.
    apply (IH h' Hn'); [|exact H].
    assert (U : forall j f, (forall a, la_bound (f a) = la_bound a) -> exists l, nth_error (update h1 j f) i = Some l /\ la_bound l = Some s).
    { intros j f Hf. destruct (Nat.eq_dec j i) as [->|N]; [rewrite (update_same _ _ _ _ Hl); eexists; split; [reflexivity|rewrite Hf; exact Hs]|].
      rewrite update_other by exact N. eauto. }
    destruct o as [j k|j p|j c|j|j b|j]; cbn [b_step] in E; try (injection E as <-; apply U; reflexivity).
    - injection E as <-. rewrite update_other by exact Ho. eauto.
    - destruct (get_boundary cosQ sinQ rnd stroke nobox order fuel h1 j) as [[h'' sj]| | |] eqn:Eg; cbn [bind] in E; try discriminate. injection E as <-.
      exact (get_keeps _ _ _ _ _ _ _ _ _ _ _ _ _ _ Eg Hl Hs). }
  destruct (G ops h1 Hn (get_stores _ _ _ _ _ _ _ _ _ _ _ H) Hr) as (l & Hl & Hs).
  destruct fuel'; cbn [get_boundary]; rewrite Hl, Hs; reflexivity.
Qed.
Print Assumptions C120_boundary_kept.

Theorem C120_boundary_set : forall cosQ sinQ rnd stroke nobox order fuel h i l s ops h2,
  nth_error h i = Some l -> Forall (not_set i) ops ->
  b_run cosQ sinQ rnd stroke nobox order fuel h (BSet i (Some s) :: ops) = Ok h2 ->
  exists h3, get_boundary cosQ sinQ rnd stroke nobox order fuel h2 i = Ok (h3, s) /\ h3 = h2.
Proof.
  intros cosQ sinQ rnd stroke nobox order fuel h i l s ops h2 Hl Hn H. cbn [b_run b_step bind] in H.
  eexists. split; [|reflexivity].
  eapply (C120_boundary_kept cosQ sinQ rnd stroke nobox order fuel fuel (update h i (fun a => set_bound a (Some s))) i); [|exact Hn|exact H].
  destruct fuel; cbn [get_boundary]; rewrite (update_same _ _ _ _ Hl); reflexivity.
Qed.
Print Assumptions C120_boundary_set.

(** * C121: the picture *)

Definition comp_outlines (c : rcomp) : list (list pt) := match rc_bound c with Some g => fst g :: snd g | None => [] end.
Definition prim_outlines (p : rprim) : list (list pt) :=
  match rp_kind p with RWire a b => [[a; b]] | RGeom (Some g) => fst g :: snd g | _ => [] end.

(** Without selections the picture has the boundary, the outlines and holes of every component with a boundary, and of
    every geometry, and a line for every bond wire.  With selections it has those of the components that are on none of
    the selected layers, and of the primitives that are on none of the selected nets or layers. *)
Theorem C121_picture : forall nets layers bnd cs ps,
  (forall p, In p ps -> rp_kind p <> RGeom None) ->
  draw nets layers bnd cs ps =
    Ok (bnd :: flat_map comp_outlines (filter (fun c => negb (existsb (Z.eqb (rc_layer c)) layers)) cs)
            ++ flat_map prim_outlines (filter (fun p => negb (existsb (Z.eqb (rp_net p)) nets) && negb (existsb (Z.eqb (rp_layer p)) layers)) ps)).
Proof.
  intros nets layers bnd cs ps Hp. unfold draw.
  assert (S : forall l x, negb (List.length l =? 0)%nat && existsb (Z.eqb x) l = existsb (Z.eqb x) l) by (intros [|a l] x; reflexivity).
  assert (P : draw_prims nets layers ps = Ok (flat_map prim_outlines (filter (fun p => negb (existsb (Z.eqb (rp_net p)) nets) && negb (existsb (Z.eqb (rp_layer p)) layers)) ps))).
  { induction ps as [|p ps IH]; cbn [draw_prims filter flat_map]; [reflexivity|]. rewrite !S.
    rewrite IH by (intros; apply Hp; right; assumption).
    destruct (existsb (Z.eqb (rp_net p)) nets); cbn [negb andb]; [reflexivity|].
    destruct (existsb (Z.eqb (rp_layer p)) layers); cbn [negb andb]; [reflexivity|]. cbn [flat_map].
    specialize (Hp p (or_introl eq_refl)). assert (O : prim_outlines p = match rp_kind p with RWire a b => [[a; b]] | RGeom (Some g) => fst g :: snd g | _ => [] end) by reflexivity.
    rewrite O. destruct (rp_kind p) as [a b|[g|]|]; cbn [bind app]; try reflexivity. exfalso. apply Hp. reflexivity. }
  rewrite P. cbn [bind]. do 3 f_equal.
  clear. induction cs as [|c cs IH]; cbn [draw_comps filter flat_map]; [reflexivity|].
  assert (S : forall l x, negb (List.length l =? 0)%nat && existsb (Z.eqb x) l = existsb (Z.eqb x) l) by (intros [|a l] x; reflexivity).
  rewrite S. destruct (rc_bound c) as [g|] eqn:E; destruct (existsb (Z.eqb (rc_layer c)) layers); cbn [negb flat_map]; rewrite IH; unfold comp_outlines at 2 || idtac;
    try reflexivity; unfold comp_outlines; rewrite E; reflexivity.
Qed.
Print Assumptions C121_picture.

(** C121 is false of the code: what is selected is what is left out. *)
Theorem C121_selection_refuted :
  draw [7%Z] [] [] [] [mkRP 7 1 (RGeom (Some ([(0, 0)], []))); mkRP 8 1 (RGeom (Some ([(1, 1)], [])))] = Ok [[]; [(1, 1)]] /\
  draw [] [3%Z] [] [mkRC 3 (Some ([(0, 0)], [])); mkRC 4 (Some ([(1, 1)], []))] [] = Ok [[]; [(1, 1)]].
Proof. split; reflexivity. Qed.
Print Assumptions C121_selection_refuted.

(** A geometry without a shape is dereferenced, if it is not left out. *)
Theorem C121_no_shape_is_ub : forall bnd cs p ps ps', rp_kind p = RGeom None ->
  draw [] [] bnd cs (ps' ++ p :: ps) = UB.
Proof.
  intros bnd cs p ps ps' Hp. unfold draw.
  assert (G : draw_prims [] [] (ps' ++ p :: ps) = UB).
  { induction ps' as [|q ps' IH]; cbn [app draw_prims List.length Nat.eqb negb andb existsb]; [rewrite Hp; reflexivity|].
    rewrite IH. destruct (rp_kind q) as [a b|[g|]|]; reflexivity. }
  rewrite G. reflexivity.
Qed.
Print Assumptions C121_no_shape_is_ub.

(** Examples meeting the hypotheses of the theorems above. *)
Definition ex_h : list lay :=
  [mkLay [1%Z; 2%Z] [BGeom 1 (ex_box 0 0 1 1); BGeom 2 None; BText 1] [mkBI (Some 1%nat) (ex_turn 1); mkBI (Some 1%nat) (mkT [mkTD 1 0 MX (10, 0)] None)] None;
   mkLay [4%Z] [BGeom 4 (ex_box 0 0 5 5)] [] None].
Example C119_ex : unbounded ex_h /\ rmap (fun r => map (fun p => (Qred (fst p), Qred (snd p))) (contour ex_cos ex_sin ex_id (fun ps _ => ps) (fun _ _ _ => []) (snd r))) (ex_get 2%nat ex_h 0%nat)
    = Ok [(-4, - (5)); (15, - (5)); (15, 7); (-4, 7)] /\
  placed ex_cos ex_sin ex_id (fun ps _ => ps) (fun _ _ _ => []) ex_h 0 (rmoves ex_cos ex_sin ex_id (ex_turn 1) (5, 5)).
Proof.
  split; [intros l [<-|[<-|[]]]; reflexivity|]. split; [vm_compute; reflexivity|].
  eapply (pl_inst _ _ _ _ _ _ _ _ (mkBI (Some 1%nat) (ex_turn 1))); [reflexivity|left; reflexivity|reflexivity|]. eapply pl_geom; [reflexivity| | |].
  - exists 4%Z. split; left; reflexivity.
  - reflexivity.
  - do 2 right. left. reflexivity.
Qed.
Example C119_diverges_ex : ex_get 3%nat [mkLay [] [] [mkBI (Some 1%nat) t_new] None; mkLay [] [] [mkBI (Some 0%nat) t_new] None] 0%nat = OutOfFuel.
Proof.
  apply (C119_recursive_diverges _ _ _ _ _ _ (fun i => (i < 2)%nat)); [|lia].
  intros [|[|i]] Hi; [| |lia]; repeat eexists; lia.
Qed.
Example C120_ex : exists h, b_run ex_cos ex_sin ex_id (fun ps _ => ps) [] (fun x => x) 2 ex_h [BSet 0 (Some (Circle (0, 0) 3 8)); BAddPrim 0 (BText 1); BGet 1; BSet 1 None] = Ok h.
Proof. eexists. reflexivity. Qed.
Example C121_ex : draw [] [] [(0, 0)] [mkRC 1 None; mkRC 2 (Some ([(1, 0)], [[(2, 0)]]))] [mkRP 1 1 (RWire (0, 0) (1, 1)); mkRP 1 1 ROther] =
  Ok [[(0, 0)]; [(1, 0)]; [(2, 0)]; [(0, 0); (1, 1)]].
Proof. reflexivity. Qed.
