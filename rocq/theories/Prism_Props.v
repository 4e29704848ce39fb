(** C51, C70, C71: numbering, corner points and adjacency of prism thermal models. *)
From Verif Require Import Base Prism_Model Prism_Spec Prism_Proofs.
From Coq Require Import QArith.
Close Scope Q_scope.
Open Scope nat_scope.
Open Scope res_scope.

(** ** C51 *)

(** Local to global and back are inverse of each other on the prisms of the model, for any layers
    (also empty ones): both are position in the list of all prisms. *)
Theorem C51_index_bijection : forall layers,
  (forall l y e, nth_error layers l = Some y -> e < List.length (y_elems y) ->
     exists i, global_index (offsets layers) l e = Ok i /\ local_index (offsets layers) i = Ok (l, e) /\
               total (offsets layers) = Ok (list_sum (sizes layers)) /\ i < list_sum (sizes layers)) /\
  (forall i, i < list_sum (sizes layers) ->
     exists l y e, local_index (offsets layers) i = Ok (l, e) /\ nth_error layers l = Some y /\
                   e < List.length (y_elems y) /\ global_index (offsets layers) l e = Ok i).
Proof.
  intros layers. split.
  - intros l y e Hy He. destruct (global_numbered layers l e y Hy He) as (i & G & N).
    exists i. split; [assumption|]. split; [now apply local_numbered|].
    assert (L : i < List.length (all_prisms layers)) by (apply nth_error_Some; unfold numbered in N; congruence).
    rewrite total_pairs. unfold all_prisms in *. rewrite pairs_len in *. auto.
  - intros i Hi. destruct (nth_error (all_prisms layers) i) as [[l e]|] eqn:E.
    + assert (N : numbered layers l e i) by exact E. pose proof N as N'.
      apply numbered_iff in N' as (y & Hy & He & _). exists l, y, e.
      split; [now apply local_numbered|]. split; [assumption|]. split; [assumption|].
      destruct (global_numbered layers l e y Hy He) as (j & G & N2). rewrite G. f_equal.

      apply numbered_iff in N as (y1 & A1 & A2 & A3). apply numbered_iff in N2 as (y2 & B1 & B2 & B3). congruence.
    + apply nth_error_None in E. unfold all_prisms in E. rewrite pairs_len in E. lia.
Qed.
Print Assumptions C51_index_bijection.

(** Asking for the layer of a number that is not a prism (for instance a line) reads past the end of
    the offsets. *)
Theorem C51_line_number_is_ub : forall layers i, list_sum (sizes layers) <= i ->
  local_index (offsets layers) i = UB.
Proof. intros layers i H. apply local_ub. unfold all_prisms. now rewrite pairs_len. Qed.
Print Assumptions C51_line_number_is_ub.

(** Building a model for the first time creates, in number order, one prism per element, and the
    stored neighbour numbers are the numbers of the elements' neighbours. *)
Theorem C51_first_build_partial : forall m t scale, wf_model m t -> m_prisms m = [] ->
  exists m', build scale m = Ok m' /\
    total (m_offs m') = Ok (List.length (m_prisms m')) /\
    List.length (m_prisms m') = list_sum (sizes (m_layers m)) /\
    forall i ins, nth_error (m_prisms m') i = Some ins ->
      global_index (m_offs m') (i_lyr ins) (i_ele ins) = Ok i /\
      exists y e, nth_error (m_layers m) (i_lyr ins) = Some y /\ nth_error (y_elems y) (i_ele ins) = Some e /\
        Forall2 (nb_ok (m_layers m) (i_lyr ins)) (e_side e) (i_side ins) /\
        (match i_lyr ins with 0 => i_top ins = None | Datatypes.S l => nb_ok (m_layers m) l (e_top e) (i_top ins) end) /\
        nb_ok (m_layers m) (i_lyr ins + 1) (e_bot e) (i_bot ins).
Proof.
  intros m t scale W HP. destruct (build_ok m t scale W) as (m' & ks & E & N & E1 & E2 & E3 & E4 & insts & E5 & F).
  rewrite HP in E5. cbn [app] in E5. exists m'. split; [assumption|]. rewrite E2, E5.
  assert (HL := F2_length _ _ _ F). rewrite total_pairs, HL.
  split; [reflexivity|]. split; [rewrite <- HL; unfold all_prisms; now rewrite pairs_len|].
  intros i ins Hi.
  destruct (nth_error (all_prisms (m_layers m)) i) as [p|] eqn:Ep.
  2:{ apply nth_error_None in Ep. assert (i < List.length insts) by (apply nth_error_Some; congruence). lia. }
  destruct (Forall2_nth _ _ _ i p F Ep) as (ins' & Hi' & O). assert (ins' = ins) by congruence. subst ins'.
  destruct O as (O1 & O2 & y & e & tri & Hy & He & Ht & H6 & Hv & Hs & Htop & Hbot).
  rewrite O1, O2. destruct p as [l k]. cbn [fst snd] in *. split.
  - assert (k < List.length (y_elems y)) by (apply nth_error_Some; congruence).
    destruct (C51_index_bijection (m_layers m)) as (_ & B).
    assert (L : i < list_sum (sizes (m_layers m))).
    { rewrite <- (pairs_len 0). apply nth_error_Some. unfold all_prisms in Ep. congruence. }
    destruct (B i L) as (l' & y' & k' & B1 & B2 & B3 & B4). apply local_numbered in B1. unfold numbered in B1.
    congruence.
  - exists y, e. split; [assumption|]. split; [assumption|]. split; [assumption|]. split; [|assumption].
    destruct l; [apply Htop|assumption].
Qed.
Print Assumptions C51_first_build_partial.

(** Bond wires: a wire of n+1 points becomes n lines numbered on from the prisms and lines before it,
    each tied to the next, the first and last to the prisms found for the wire's ends, with the wire's
    points as end points. *)
Theorem C51_lines : forall m T first fin a b rest, total (m_offs m) = Ok T -> 0 < T ->
  exists m' new, add_wire (first, fin, a :: b :: rest) m = Ok m' /\
    m_lines m' = m_lines m ++ new /\
    map ties new = path (T + List.length (m_lines m)) first fin (Datatypes.S (List.length rest)) /\
    Forall2 (fun seg l => nth_error (m_points m') (fst (l_ends l)) = Some (fst seg) /\
                          nth_error (m_points m') (snd (l_ends l)) = Some (snd seg))
            (segments (a :: b :: rest)) new /\
    m_prisms m' = m_prisms m /\ m_offs m' = m_offs m.
Proof.
  intros m T f e a b rest HT HP. destruct (wire_ok f e T a b rest m HT HP) as (m' & new & E & F & L & P & S).
  exists m', new. destruct F as (_ & _ & _ & F4 & F5 & _). auto 10.
Qed.
Print Assumptions C51_lines.

(** Over any number of wires, line number k of the model is element TotalPrismElements + k. *)
Theorem C51_line_ids : forall ws m m' T, total (m_offs m) = Ok T -> 0 < T -> m_lines m = [] ->
  add_wires ws m = Ok m' ->
  forall k l, nth_error (m_lines m') k = Some l ->
    l_id l = T + k /\ line_local_index (m_offs m') (l_id l) = Ok k /\ is_prism (m_offs m') (l_id l) = Ok false.
Proof.
  intros ws m m' T HT Pos HL E k l Hk.
  destruct (wires_ids ws m m' T HT Pos) as (G & F); [now rewrite HL|assumption|].
  destruct F as (_ & _ & _ & F4 & _).
  assert (Hid : l_id l = T + k).
  { assert (X := map_nth_error l_id _ _ Hk). rewrite G in X.
    assert (k < List.length (m_lines m')) by (apply nth_error_Some; congruence).
    rewrite (nth_error_nth' _ 0) in X by (now rewrite seq_length). rewrite seq_nth in X by assumption. congruence. }
  split; [assumption|]. unfold line_local_index, is_prism. rewrite F4, HT. cbn [bind]. rewrite Hid.
  replace (T <=? T + k) with true by (symmetry; apply Nat.leb_le; lia).
  replace (T + k <? T) with false by (symmetry; apply Nat.ltb_ge; lia).
  split; [f_equal; lia|reflexivity].
Qed.
Print Assumptions C51_line_ids.

(** A small model: one template of two triangles; the middle layer is empty. *)
Definition ex_template : template :=
  {| t_pts := [(0, 0); (10, 0); (10, 10); (0, 10)]%Z;
     t_tris := [{| t_vs := [0; 1; 2]; t_nb := [None; Some 1; None] |};
                {| t_vs := [0; 2; 3]; t_nb := [None; None; Some 0] |}] |}.
Definition ex_elem i tid s := {| e_id := i; e_tid := tid; e_side := s; e_top := None; e_bot := None |}.
Definition ex_layers : list player :=
  [{| y_elev := 3%Q; y_thick := 1%Q; y_elems := [ex_elem 0 0 [None; Some 1; None]; ex_elem 1 1 [None; None; Some 0]] |};
   {| y_elev := 2%Q; y_thick := 1%Q; y_elems := [] |};
   {| y_elev := 1%Q; y_thick := 1%Q; y_elems := [ex_elem 0 1 [None; None; None]] |}].
Definition ex_model : pmodel :=
  {| m_layers := ex_layers; m_temps := [(0, ex_template); (1, ex_template); (2, ex_template)]; m_scale := 0%Q;
     m_offs := []; m_points := []; m_prisms := []; m_lines := [] |}.

Example ex_model_wf : wf_model ex_model ex_template.
Proof.
  split; [reflexivity|]. split; [intros [|[|[|l]]] H; simpl in *; try reflexivity; lia|].
  split.
  - repeat constructor; simpl; lia.
  - assert (IN : forall layers l, in_layer layers l None) by (intros layers l k H; discriminate).
    assert (TOP : forall layers l, (forall k : nat, None = Some k -> exists l', l = Datatypes.S l' /\ in_layer layers l' None))
      by (intros; discriminate).
    assert (S01 : forall k, k < 2 -> in_layer ex_layers 0 (Some k)).
    { intros k Hk j E. injection E as <-. eexists. split; [reflexivity|]. exact Hk. }
    intros [|[|[|l]]] y e Hy He; try (destruct l; discriminate Hy); injection Hy as <-;
      cbn [y_elems In] in He; repeat (destruct He as [<-|He]); try contradiction;
      (split; [simpl; lia|]); (split; [repeat constructor; auto; try (apply S01; lia)|]); (split; [apply TOP|apply IN]).
Qed.

Example C51_index_example :
  offsets ex_layers = [0; 2; 2; 3] /\ local_index (offsets ex_layers) 2 = Ok (2, 0) /\
  global_index (offsets ex_layers) 2 0 = Ok 2 /\ local_index (offsets ex_layers) 3 = UB.
Proof. repeat split. Qed.

Definition ex_built : pmodel := match build 1%Q ex_model with Ok m => m | _ => ex_model end.
Example C51_build_example :
  map (fun i => (i_lyr i, i_ele i, i_vs i, i_side i)) (m_prisms ex_built) =
  [(0, 0, [0; 2; 4; 1; 3; 5], [None; Some 1; None]); (0, 1, [0; 4; 6; 1; 5; 7], [None; None; Some 0]);
   (2, 0, [8; 10; 12; 9; 11; 13], [None; None; None])] /\ total (m_offs ex_built) = Ok 3.
Proof. split; vm_compute; reflexivity. Qed.

Example C51_lines_example :
  exists m', add_wires [(0, 2, [Build_pt3 0%Q 0%Q 0%Q; Build_pt3 1%Q 0%Q 0%Q; Build_pt3 2%Q 0%Q 0%Q; Build_pt3 3%Q 0%Q 0%Q])] ex_built = Ok m' /\
    map ties (m_lines m') = [(3, [0], [4]); (4, [3], [5]); (5, [4], [2])].
Proof. eexists. split; [vm_compute; reflexivity|reflexivity]. Qed.

(** Building the same model twice keeps the prisms of the first build, so there are more prisms
    than prism numbers; what was missing from C51_first_build_partial. *)
Theorem C51_rebuild_refuted : exists m t m1 m2, wf_model m t /\ m_prisms m = [] /\
  build 1%Q m = Ok m1 /\ build 1%Q m1 = Ok m2 /\
  total (m_offs m2) = Ok 3 /\ List.length (m_prisms m2) = 6.
Proof.
  exists ex_model, ex_template, ex_built. eexists. split; [exact ex_model_wf|]. split; [reflexivity|].
  split; [vm_compute; reflexivity|]. split; [vm_compute; reflexivity|]. split; reflexivity.
Qed.
Print Assumptions C51_rebuild_refuted.

(** ** C70 *)

(** After a first build every prism has the three corners of its template triangle on the level of
    its layer's top and the three on the level below, and two corners are the same point number
    exactly when they are the same template vertex on the same level. *)
Theorem C70_corners : forall m t scale, wf_model m t -> m_prisms m = [] ->
  exists m', build scale m = Ok m' /\
    exists at_vertex : nat -> nat -> nat -> Prop,
      (forall k x n, at_vertex k x n -> exists p, nth_error (m_points m') n = Some p /\
                                                  corner_at (m_layers m) t scale k x p) /\
      (forall k x n k' x' n', at_vertex k x n -> at_vertex k' x' n' -> (n = n' <-> (k = k' /\ x = x'))) /\
      forall i ins, nth_error (m_prisms m') i = Some ins ->
        List.length (i_vs ins) = 6 /\
        exists y e tri, nth_error (m_layers m) (i_lyr ins) = Some y /\ nth_error (y_elems y) (i_ele ins) = Some e /\
          nth_error (t_tris t) (e_tid e) = Some tri /\ List.length (t_vs tri) = 3 /\
          forall v x, nth_error (t_vs tri) v = Some x -> exists a b,
            nth_error (i_vs ins) v = Some a /\ nth_error (i_vs ins) (v + 3) = Some b /\
            at_vertex (i_lyr ins) x a /\ at_vertex (i_lyr ins + 1) x b.
Proof.
  intros m t scale W HP. destruct (build_ok m t scale W) as (m' & ks & E & N & E1 & E2 & E3 & E4 & insts & E5 & F).
  rewrite HP in E5. cbn [app] in E5. exists m'. split; [assumption|].
  exists (fun k x n => nth_error ks n = Some (k, x) /\ x < List.length (t_pts t)). split; [|split].
  - intros k x n (H & Hx). exists (pos_of (m_layers m) t scale (k, x)). split.
    + rewrite E4. now apply map_nth_error.
    + exists (nth x (t_pts t) (0%Z, 0%Z)). split; [now apply nth_error_nth'|reflexivity].
  - intros k x n k' x' n' (H & _) (H' & _). split.
    + intros <-. rewrite H in H'. injection H' as -> ->. auto.
    + intros (<- & <-). exact (nth_inj _ _ _ _ N H H').
  - intros i ins Hi. rewrite E5 in Hi.
    destruct (nth_error (all_prisms (m_layers m)) i) as [p|] eqn:Ep.
    2:{ apply nth_error_None in Ep. assert (i < List.length insts) by (apply nth_error_Some; congruence).
        rewrite <- (F2_length _ _ _ F) in *. lia. }
    destruct (Forall2_nth _ _ _ i p F Ep) as (ins' & Hi' & O). assert (ins' = ins) by congruence. subst ins'.
    destruct O as (O1 & O2 & y & e & tri & Hy & He & Ht & H6 & Hv & _).
    split; [assumption|]. rewrite O1, O2. exists y, e, tri. repeat (split; [assumption|]).
    destruct W as (_ & _ & W2 & _). rewrite Forall_forall in W2. destruct (W2 tri (nth_error_In _ _ Ht)) as (L3 & FV).
    split; [assumption|]. intros v x Hx. destruct (Hv v x Hx) as (a & b & A & B & C & D).
    rewrite Forall_forall in FV. specialize (FV x (nth_error_In _ _ Hx)). exists a, b. auto 10.
Qed.
Print Assumptions C70_corners.

Example C70_example :
  List.length (m_points ex_built) = 14 /\ nth_error (m_points ex_built) 9 = Some (Build_pt3 (0 * 1)%Q (0 * 1)%Q (1 - 1)%Q).
Proof. split; vm_compute; reflexivity. Qed.

(** The vertex lists come from the template of layer 0 while positions come from each layer's own
    template, so with different templates a prism gets corners of the wrong triangle. *)
Definition ex_template2 : template :=
  {| t_pts := [(100, 0); (110, 0); (110, 10)]%Z;
     t_tris := [{| t_vs := [2; 1; 0]; t_nb := [None; None; None] |}] |}.
Definition ex_two : pmodel :=
  {| m_layers := [{| y_elev := 2%Q; y_thick := 1%Q; y_elems := [ex_elem 0 0 [None; None; None]] |};
                  {| y_elev := 1%Q; y_thick := 1%Q; y_elems := [ex_elem 0 0 [None; None; None]] |}];
     m_temps := [(0, ex_template); (1, ex_template2)]; m_scale := 1%Q; m_offs := []; m_points := []; m_prisms := []; m_lines := [] |}.
(** Both prisms use their own template's triangle 0, but the top face of the second one is the
    bottom face of the first: its first corner is (0,0), not (110,10). *)
Theorem C70_different_templates_is_wrong : exists m m' ins p,
  alookup Nat.eqb 1 (m_temps m) = Some ex_template2 /\ build 1%Q m = Ok m' /\
  nth_error (m_prisms m') 1 = Some ins /\ i_lyr ins = 1 /\
  nth_error (m_points m') (nth 0 (i_vs ins) 99) = Some p /\ (px p == 0)%Q /\
  (forall xy, In xy (t_pts ex_template2) -> ~ inject_Z (fst xy) == 0)%Q.
Proof.
  exists ex_two. eexists. eexists. eexists. split; [reflexivity|]. split; [vm_compute; reflexivity|].
  split; [reflexivity|]. split; [reflexivity|]. split; [reflexivity|]. split; [reflexivity|].
  intros xy [<-|[<-|[<-|[]]]]; discriminate.
Qed.
Print Assumptions C70_different_templates_is_wrong.

(** ** C71 *)

(** The extracted mesh: layer l has one element per triangle that is solid in l, in triangle order;
    edge neighbours are the elements of the neighbouring triangles in the same layer; top (bottom)
    neighbour is the element of the same triangle one layer up (down). *)
Theorem C71_mesh : forall solids tris, exists ls, extract_layers solids tris = Ok ls /\
  List.length ls = List.length solids /\
  forall l s es, nth_error solids l = Some s -> nth_error ls l = Some es ->
    map e_tid es = filter s (seq 0 (List.length tris)) /\
    forall k e, nth_error es k = Some e -> e_id e = k /\
      exists tri, nth_error tris (e_tid e) = Some tri /\
        Forall2 (fun nb sd => forall k', sd = Some k' <->
                   exists t e', nb = Some t /\ nth_error es k' = Some e' /\ e_tid e' = t) (t_nb tri) (e_side e) /\
        (forall k', e_top e = Some k' <-> exists l' es' e', l = Datatypes.S l' /\ nth_error ls l' = Some es' /\
                   nth_error es' k' = Some e' /\ e_tid e' = e_tid e) /\
        (forall k', e_bot e = Some k' <-> exists es' e', nth_error ls (l + 1) = Some es' /\
                   nth_error es' k' = Some e' /\ e_tid e' = e_tid e).
Proof.
  intros solids tris. destruct (extract_ok solids tris) as (ls & E & F). exists ls. split; [assumption|].
  split; [now rewrite <- (F2_length _ _ _ F), seq_length|].
  set (tids := extract_tids solids (List.length tris)) in *.
  assert (KEY : forall l es, nth_error ls l = Some es -> exists q, nth_error tids l = Some q /\ map e_tid es = q /\
     Forall2 (ext_elem_ok tris (prev_layer tids l) (Some q) (nth_error tids (l + 1))) q es).
  { intros l es Hes.
    assert (L : l < List.length solids).
    { assert (X : l < List.length ls) by (apply nth_error_Some; congruence).
      rewrite <- (F2_length _ _ _ F), seq_length in X. exact X. }
    destruct (Forall2_nth _ _ _ l l F (nth_error_seq0 _ _ L)) as (es' & Hes' & q & Hq & Fq).
    assert (es' = es) by congruence; subst es'. exists q. split; [assumption|]. split; [|assumption].
    clear -Fq; revert Fq; generalize (Some q); intros oq Fq. induction Fq as [|t e q es (H & _) _ IH]; simpl; [reflexivity|]. congruence. }
  assert (KEY2 : forall l q, nth_error tids l = Some q -> exists es, nth_error ls l = Some es /\ map e_tid es = q).
  { intros l q Hq. destruct (nth_error ls l) as [es|] eqn:Ees.
    - destruct (KEY l es Ees) as (q' & Hq' & M & _). exists es. split; [reflexivity|congruence].
    - apply nth_error_None in Ees. rewrite <- (F2_length _ _ _ F), seq_length in Ees.
      assert (l < List.length tids) by (apply nth_error_Some; congruence).
      unfold tids, extract_tids in *. rewrite map_length in *. lia. }
  assert (IFF : forall l k t, (exists q, nth_error tids l = Some q /\ nth_error q k = Some t) <->
     exists es e', nth_error ls l = Some es /\ nth_error es k = Some e' /\ e_tid e' = t).
  { intros l k t. split.
    - intros (q & Hq & Hk). destruct (KEY2 l q Hq) as (es & Hes & M). subst q. rewrite nth_error_map in Hk.
      destruct (nth_error es k) as [e'|] eqn:Ee; [|discriminate]. simpl in Hk. exists es, e'. repeat split; congruence.
    - intros (es & e' & Hes & He & Ht). destruct (KEY l es Hes) as (q & Hq & M & _). exists q. split; [assumption|].
      subst q t. now apply map_nth_error. }
  intros l s es Hs Hes. destruct (KEY l es Hes) as (q & Hq & M & Fq).
  assert (Qs : q = filter s (seq 0 (List.length tris))).
  { unfold tids, extract_tids in Hq. rewrite nth_error_map, Hs in Hq. simpl in Hq. unfold extract_layer in Hq. congruence. }
  split; [congruence|]. intros k e He.
  assert (Hk : nth_error q k = Some (e_tid e)) by (rewrite <- M; now apply map_nth_error).
  destruct (Forall2_nth _ _ _ k _ Fq Hk) as (e' & He' & O). assert (e' = e) by congruence; subst e'.
  destruct O as (_ & (q' & Eq' & Hid) & tri & Ht & Fs & Htop & Hbot). injection Eq' as <-.
  split.
  { assert (ND : NoDup q) by (rewrite Qs; apply NoDup_filter, seq_NoDup). exact (nth_inj q _ _ _ ND Hid Hk). }
  exists tri. split; [assumption|]. split; [|split].
  - clear -Fs M. induction Fs as [|nb sd nbs sds H _ IH]; constructor; auto. clear IH.
    intros k'. rewrite H. split.
    + intros (t & l & E1 & E2 & E3). injection E2 as <-. rewrite <- M, nth_error_map in E3.
      destruct (nth_error es k') as [e'|] eqn:E; [|discriminate]. simpl in E3. exists t, e'. repeat split; congruence.
    + intros (t & e' & E1 & E2 & E3). exists t, q. split; [assumption|]. split; [reflexivity|].
      rewrite <- M. subst t. now apply map_nth_error.
  - intros k'. rewrite Htop. destruct l as [|l'].
    + cbn [prev_layer]. split; [intros (? & ? & _); discriminate|intros (? & ? & ? & ? & _); discriminate].
    + cbn [prev_layer]. rewrite IFF. split.
      * intros (es' & e' & A & B & C). exists l', es', e'. auto.
      * intros (l2 & es' & e' & A & B & C & D). injection A as <-. exists es', e'. auto.
  - intros k'. rewrite Hbot. apply IFF.
Qed.
Print Assumptions C71_mesh.

(** So contact is mutual: the bottom neighbour of an element names it as top neighbour and
    conversely. *)
Theorem C71_contact_mutual : forall solids tris ls l es es' k e k', extract_layers solids tris = Ok ls ->
  nth_error ls l = Some es -> nth_error ls (l + 1) = Some es' -> nth_error es k = Some e ->
  (e_bot e = Some k' <-> exists e', nth_error es' k' = Some e' /\ e_top e' = Some k).
Proof.
  intros solids tris ls l es es' k e k' E Hes Hes' He.
  destruct (C71_mesh solids tris) as (ls' & E' & HL & H). assert (ls' = ls) by congruence; subst ls'.
  assert (S1 : exists s, nth_error solids l = Some s).
  { destruct (nth_error solids l) eqn:X; [eauto|]. apply nth_error_None in X.
    assert (l < List.length ls) by (apply nth_error_Some; congruence). lia. }
  assert (S2 : exists s, nth_error solids (l + 1) = Some s).
  { destruct (nth_error solids (l + 1)) eqn:X; [eauto|]. apply nth_error_None in X.
    assert (l + 1 < List.length ls) by (apply nth_error_Some; congruence). lia. }
  destruct S1 as (s1 & S1), S2 as (s2 & S2).
  destruct (H l s1 es S1 Hes) as (M1 & H1). destruct (H (l + 1) s2 es' S2 Hes') as (M2 & H2).
  destruct (H1 k e He) as (_ & tri & _ & _ & _ & Hb). rewrite Hb. split.
  - intros (es2 & e' & A & B & C). assert (es2 = es') by congruence; subst es2. exists e'. split; [assumption|].
    destruct (H2 k' e' B) as (_ & tri' & _ & _ & Ht & _). apply Ht. exists l, es, e.
    split; [lia|]. auto.
  - intros (e' & A & B). exists es', e'. split; [assumption|]. split; [assumption|].
    destruct (H2 k' e' A) as (_ & tri' & _ & _ & Ht & _). apply Ht in B as (l' & es2 & e2 & C & D & F & G).
    assert (l' = l) by lia; subst l'. congruence.
Qed.
Print Assumptions C71_contact_mutual.

Example C71_example :
  exists ls, extract_layers [(fun t => t =? 1); (fun _ => true)] (t_tris ex_template) = Ok ls /\
    map (map (fun e => (e_tid e, e_side e, e_top e, e_bot e))) ls =
    [[(1, [None; None; None], None, Some 1)];
     [(0, [None; Some 1; None], None, None); (1, [None; None; Some 0], Some 0, None)]].
Proof. eexists. split; reflexivity. Qed.
