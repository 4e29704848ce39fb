From Verif Require Import Base QSum ThermalNetwork_Model Retriever_Model Retriever_Spec Retriever_Proofs.

(** ** C38: components, bumps and solder joints *)

(** The bump region sits on the outer face of the placement layer and the body on the bump region. *)
Theorem C38_component_sits_on_layer : forall m c le lt be bt ce ct,
  layer_height m (c_layer c) = Some (le, lt) -> bump_height m c = Some (be, bt) -> component_height m c = Some (ce, ct) ->
  ct = c_height c /\ bt = c_bump c /\
  (c_flip c = false -> be - bt == le /\ ce - ct == be) /\
  (c_flip c = true -> be == le - lt /\ ce == be - bt).
Proof.
  intros m c le lt be bt ce ct; unfold layer_height, bump_height, component_height; intros ->.
  intros [= <- <-] [= <- <-]; split; [reflexivity|split; [reflexivity|split; intros ->; lra]].
Qed.
Print Assumptions C38_component_sits_on_layer.

Theorem C38_known_layer_suffices : forall m c, (component_height m c = None <-> layer_height m (c_layer c) = None) /\ (bump_height m c = None <-> layer_height m (c_layer c) = None).
Proof. intros m c; unfold component_height, bump_height, layer_height; destruct (lookup m (c_layer c)) as [[e t]|]; split; split; intros; try discriminate; reflexivity. Qed.
Print Assumptions C38_known_layer_suffices.

(** A wire bonded to a component without solder joint starts on the face of the body that looks
    away from the layer. *)
Theorem C38_wire_on_outer_face : forall m c ce ct,
  component_height m c = Some (ce, ct) -> exists h, bond_height m (OnComp c) None = Some h /\ h == (if c_flip c then ce - ct else ce).
Proof. intros m c ce ct H; unfold bond_height; rewrite H; cbn [option_map]; eexists; split; [reflexivity|]; destruct (c_flip c); lra. Qed.
Print Assumptions C38_wire_on_outer_face.

(** The solder joint fills exactly the space between the bonded face and the wire end. *)
Theorem C38_joint_between_face_and_wire : forall m b sj face wire je jt,
  bond_height m b None = Some face -> bond_height m b (Some sj) = Some wire -> joint_range m b sj = Some (je, jt) ->
  jt = sj /\ (bond_flip b = false -> je == wire /\ je - jt == face) /\ (bond_flip b = true -> je == face /\ je - jt == wire).
Proof.
  intros m b sj face wire je jt Hf Hw; unfold joint_range; rewrite Hw; cbn [option_map]; intros [= <- <-]; split; [reflexivity|].
  destruct b as [c|id f|]; cbn [bond_height bond_flip] in *; [| |discriminate].
  - destruct (component_height m c) as [[e t]|]; cbn [option_map] in *; [|discriminate].
    injection Hf as <-; injection Hw as <-; destruct (c_flip c); split; intros ?; try discriminate; split; lra.
  - destruct (lookup m id) as [[e t]|]; cbn [option_map] in *; [|discriminate].
    injection Hf as <-; injection Hw as <-; destruct f; split; intros ?; try discriminate; split; lra.
Qed.
Print Assumptions C38_joint_between_face_and_wire.

Example C38_ex : let m := build_map [mkSL 0 "top" true 10 2; mkSL 1 "bot" true 8 3] in
  component_height m (mkComp 1 true 4 1) = Some (8 - 3 - 1, 4) /\ bump_height m (mkComp 0 false 4 1) = Some (10 + 1, 1) /\
  bond_height m (OnComp (mkComp 1 true 4 1)) (Some 1) = Some (8 - 3 - 1 - 4 - 1).
Proof. repeat split. Qed.

(** ** C39: refinement by number of points *)

(** The refined wire has the wanted number of points, the same ends and all original points in
    order. *)
Theorem C39_refinement_keeps_wire : forall fuel n ws out, min_seg fuel n ws = Ok out ->
  (n <= List.length out)%nat /\ thread eq ws out /\ hd_error out = hd_error ws /\ forall d, last out d = last ws d.
Proof. exact min_seg_spec. Qed.
Print Assumptions C39_refinement_keeps_wire.

Theorem C39_refinement_terminates : forall n ws, (2 <= List.length ws)%nat -> exists out, min_seg (Datatypes.S n) n ws = Ok out.
Proof. intros n ws H; apply min_seg_terminates; lia. Qed.
Print Assumptions C39_refinement_terminates.
Example C39_refinement_ex : exists out, min_seg 11 10 (combine [(0,0); (8,0); (56,0); (64,8)]%Z [0; 5; 5; 0]) = Ok out /\ List.length out = 13%nat.
Proof. eexists; split; [vm_compute; reflexivity|reflexivity]. Qed.

(** never more than needed by a factor of two *)
Theorem C39_refinement_is_tight : forall fuel n ws out, min_seg fuel n ws = Ok out -> (List.length ws < n)%nat -> (List.length out < 2 * n)%nat.
Proof.
  induction fuel as [|k IH]; intros n ws out; cbn [min_seg]; [discriminate|].
  destruct (Nat.leb_spec n (List.length ws)) as [Hl|Hl]; [intros; lia|].
  destruct ws as [|w ws]; cbn [refine bind]; [discriminate|]; intros H _.
  destruct (le_lt_dec n (List.length (w :: refine_from w ws))) as [Hn|Hn]; [|eapply IH; eauto].
  destruct k; cbn [min_seg] in H; [discriminate|]; rewrite (proj2 (Nat.leb_le _ _) Hn) in H; injection H as <-.
  cbn [List.length] in *; rewrite refine_from_length; lia.
Qed.
Print Assumptions C39_refinement_is_tight.

(** each added point is half way between its neighbours, up to the rounding of coordinates *)
Theorem C39_added_points_are_midpoints : forall w ws k p, (k < List.length ws)%nat -> nth_error (refine_from w ws) (2 * k) = Some p ->
  exists a b, nth_error (w :: ws) k = Some a /\ nth_error (w :: ws) (Datatypes.S k) = Some b /\ p = wmid a b.
Proof.
  intros w ws; revert w; induction ws as [|x ws IH]; intros w k p Hk Hp; [simpl in Hk; lia|].
  destruct k as [|k].
  - cbn in Hp; injection Hp as <-; exists w, x; repeat split.
  - replace (2 * Datatypes.S k)%nat with (Datatypes.S (Datatypes.S (2 * k))) in Hp by lia; cbn [refine_from nth_error] in Hp.
    cbn [List.length] in Hk; destruct (IH x k p) as (a & b & H1 & H2 & H3); [lia|exact Hp|].
    exists a, b; repeat split; auto.
Qed.
Print Assumptions C39_added_points_are_midpoints.
Example C39_midpoint_ex : nth_error (refine_from ((0, 0)%Z, 0) [((8, 0)%Z, 4); ((16, 2)%Z, 4)]) 2 = Some ((12, 1)%Z, hmid 4 4).
Proof. reflexivity. Qed.

(** The count is of points, not of segments: a wire asked for n segments may have n - 1. *)
Theorem C39_segments_one_short : exists s e, min_seg 1 4 (combine (fst (jedec4_segments s e 0 0 false 1)) (snd (jedec4_segments s e 0 0 false 1)))
  = Ok (combine (fst (jedec4_segments s e 0 0 false 1)) (snd (jedec4_segments s e 0 0 false 1))) /\
  (List.length (fst (jedec4_segments s e 0 0 false 1)) - 1 < 4)%nat.
Proof. exists (0, 0)%Z, (80, 0)%Z; split; [reflexivity|simpl; lia]. Qed.
Print Assumptions C39_segments_one_short.

(** A wire handed in with one point cannot be refined: the recursion does not end. *)
Theorem C39_single_point_diverges : forall fuel n w, (2 <= n)%nat -> min_seg fuel n [w] = OutOfFuel.
Proof.
  induction fuel as [|k IH]; intros n w Hn; [reflexivity|]; cbn [min_seg List.length].
  destruct (Nat.leb_spec n 1); [lia|]; cbn [refine refine_from bind]; auto.
Qed.
Print Assumptions C39_single_point_diverges.

(** A wire without points is read beyond its end as soon as any point is asked for. *)
Theorem C39_no_points_is_ub : forall fuel n, (0 < n)%nat -> min_seg (Datatypes.S fuel) n [] = UB.
Proof. intros fuel n Hn; cbn [min_seg List.length]; destruct (Nat.leb_spec n 0); [lia|reflexivity]. Qed.
Print Assumptions C39_no_points_is_ub.

(** ** C40: refinement by length *)

(** Every outcome starts and ends with the wire's ends, passes through every original point (up
    to the integer rounding of heights) in order, and has no segment longer than the limit. *)
Theorem C40_refinement_result : forall scale fuel maxlen ws out, max_len scale fuel maxlen ws = Ok out ->
  hd_error out = hd_error ws /\ (forall d, last out d = last ws d) /\
  thread (same_place scale) ws out /\
  chain (fun a b => dist_sq scale a b <= maxlen * maxlen)%Z out.
Proof.
  intros scale fuel maxlen [|w0 [|t rest]] out; cbn [max_len]; try discriminate.
  destruct (max_loop scale fuel (maxlen * maxlen) (last rest t) w0 t t rest) as [o| | |] eqn:E; cbn [rmap bind]; try discriminate; intros [= <-].
  destruct (max_loop_spec scale fuel (maxlen * maxlen) (last rest t) ltac:(nia) _ _ _ _ _ E eq_refl) as (A & B & l & a & C & D).
  split; [reflexivity|split; [|split; [|exact A]]].
  - intros d; rewrite C, !last_cons. replace (l ++ [a; last rest t]) with ((l ++ [a]) ++ [last rest t]) by (rewrite <- app_assoc; reflexivity).
    rewrite last_last; reflexivity.
  - constructor; [split; reflexivity|exact B].
Qed.
Print Assumptions C40_refinement_result.
(** A wire of fewer than two points is rejected with an exception, whatever the limit. *)
Theorem C40_short_wire_throws : forall scale fuel maxlen ws, (List.length ws < 2)%nat -> max_len scale fuel maxlen ws = Throw.
Proof. intros scale fuel maxlen [|w [|? ?]] H; [reflexivity|reflexivity|cbn [List.length] in H; lia]. Qed.
Print Assumptions C40_short_wire_throws.
Example C40_refinement_ex : exists out, max_len 1 50 20 [((0, 0)%Z, 0); ((64, 0)%Z, 3); ((64, 9)%Z, 0)] = Ok out /\ (5 < List.length out)%nat.
Proof. eexists; split; [vm_compute; reflexivity|simpl; lia]. Qed.

(** It terminates for every limit of at least two database units.  Missing: a limit of one unit,
    where it may not ([_refuted] below). *)
Theorem C40_refinement_terminates_partial : forall scale maxlen ws, (2 <= maxlen)%Z -> (2 <= List.length ws)%nat ->
  exists fuel out, max_len scale fuel maxlen ws = Ok out.
Proof.
  intros scale maxlen [|w0 [|t rest]] Hm Hl; try (simpl in Hl; lia).
  destruct (max_loop_terminates scale (maxlen * maxlen) (last rest t) ltac:(nia) rest t w0) as (fuel & out & E).
  exists fuel, (w0 :: out); cbn [max_len]; rewrite E; reflexivity.
Qed.
Print Assumptions C40_refinement_terminates_partial.

(** With a limit of one unit a short diagonal wire is halved for ever: the midpoint rounds to the
    far end. *)
Theorem C40_termination_refuted : exists s e, forall fuel,
  let w := simple_segments s e 0 0 false false 0 in max_len 1 fuel 1 (combine (fst w) (snd w)) = OutOfFuel.
Proof.
  exists (1, 1)%Z, (0, 0)%Z; intros fuel.
  assert (H : forall k final hb hc t rest, max_loop 1 k 1 final ((1, 1)%Z, hb) ((0, 0)%Z, hc) t rest = OutOfFuel).
  { induction k as [|k IH]; intros final hb hc t rest; [reflexivity|]; cbn [max_loop].
    assert (Hd : (1 < dist_sq 1 ((1, 1)%Z, hb) ((0, 0)%Z, hc))%Z) by (unfold dist_sq; cbn [fst snd]; set (z := (_ - zc _ _)%Z); pose proof (Z.square_nonneg z); lia).
    rewrite (proj2 (Z.ltb_lt _ _) Hd); apply IH. }
  assert (St : forall k final back cur t t' rest, (dist_sq 1 back cur <= 1)%Z -> same 1 cur t = true ->
    max_loop 1 (Datatypes.S k) 1 final back cur t (t' :: rest) = rmap (cons cur) (max_loop 1 k 1 final cur t' t' rest)).
  { intros k final back cur t t' rest Hd Hs; cbn [max_loop]; rewrite (proj2 (Z.ltb_ge _ _) Hd), Hs; reflexivity. }
  intros w; subst w; cbn -[max_loop].
  destruct fuel as [|[|k]]; [reflexivity|reflexivity|].
  rewrite St by (vm_compute; solve [reflexivity|discriminate]).
  rewrite St by (vm_compute; solve [reflexivity|discriminate]).
  rewrite H; reflexivity.
Qed.
Print Assumptions C40_termination_refuted.

(** The last point is always written twice, so the last segment has length zero. *)
Theorem C40_last_segment_zero_refuted : forall scale fuel maxlen ws out, max_len scale fuel maxlen ws = Ok out ->
  exists l a b, out = l ++ [a; b] /\ dist_sq scale a b = 0%Z.
Proof.
  intros scale fuel maxlen [|w0 [|t rest]] out; cbn [max_len]; try discriminate.
  destruct (max_loop scale fuel (maxlen * maxlen) (last rest t) w0 t t rest) as [o| | |] eqn:E; cbn [rmap bind]; try discriminate; intros [= <-].
  destruct (max_loop_spec scale fuel (maxlen * maxlen) (last rest t) ltac:(nia) _ _ _ _ _ E eq_refl) as (A & B & l & a & C & D).
  exists (w0 :: l), a, (last rest t); rewrite C; split; [reflexivity|apply same_dist; exact D].
Qed.
Print Assumptions C40_last_segment_zero_refuted.

(** ** C58: elevations *)
Theorem C58_elevations_contiguous : forall ls,
  stacked (update_elevation ls) /\
  map static (update_elevation ls) = map static ls /\
  hd_error (stackup (update_elevation ls)) = hd_error (stackup ls) /\
  (forall i l, nth_error ls i = Some l -> sl_stackup l = false -> nth_error (update_elevation ls) i = Some l).
Proof.
  intros ls; unfold update_elevation; split; [|split; [|split]].
  - exact (update_stacked ls None).
  - apply update_static.
  - unfold stackup; induction ls as [|l ls IH]; [reflexivity|]; cbn [update_from].
    destruct (sl_stackup l) eqn:E; cbn [filter]; rewrite E; [reflexivity|exact IH].
  - enough (G : forall ls up i l, nth_error ls i = Some l -> sl_stackup l = false -> nth_error (update_from up ls) i = Some l) by (intros; apply G; auto).
    clear ls; induction ls as [|x ls IH]; intros up [|i] l H E; cbn [nth_error] in H; try discriminate; cbn [update_from].
    + injection H as ->; rewrite E; reflexivity.
    + destruct (sl_stackup x); cbn [nth_error]; apply IH; auto.
Qed.
Print Assumptions C58_elevations_contiguous.
Example C58_elevations_ex : update_elevation [mkSL 0 "a" true 10 2; mkSL 1 "v" false 7 7; mkSL 2 "b" true 5 3; mkSL 3 "c" true 5 1]
  = [mkSL 0 "a" true 10 2; mkSL 1 "v" false 7 7; mkSL 2 "b" true (10 - 2) 3; mkSL 3 "c" true (10 - 2 - 3) 1].
Proof. reflexivity. Qed.

(** Setting the thickness of a layer changes that thickness only, and leaves a contiguous stack. *)
Lemma set_thickness_spec ls name t : forall ls', set_thickness name t ls = Some ls' ->
  exists a l b, ls = a ++ l :: b /\ sl_name l = name /\ sl_stackup l = true /\ Forall (fun x => sl_name x <> name) a /\
    ls' = a ++ mkSL (sl_id l) (sl_name l) (sl_stackup l) (sl_elev l) t :: b.
Proof.
  induction ls as [|x ls IH]; intros ls'; cbn [set_thickness]; [discriminate|].
  destruct (String.eqb_spec (sl_name x) name) as [E|E].
  - destruct (sl_stackup x) eqn:Es; [|discriminate]; intros [= <-].
    exists [], x, ls; rewrite Es; repeat split; auto.
  - destruct (set_thickness name t ls) as [l'|]; cbn [option_map]; [|discriminate]; intros [= <-].
    destruct (IH _ eq_refl) as (a & l & b & -> & H1 & H2 & H3 & ->); exists (x :: a), l, b; repeat split; auto.
Qed.
Theorem C58_modify_thickness : forall ls name t ls', modify_thickness ls name t = (true, ls') ->
  stacked ls' /\ exists a l b, ls = a ++ l :: b /\ sl_name l = name /\ sl_stackup l = true /\ Forall (fun x => sl_name x <> name) a /\
    map static ls' = map static a ++ (sl_id l, sl_name l, true, t) :: map static b.
Proof.
  intros ls name t ls'; unfold modify_thickness; destruct (set_thickness name t ls) as [l'|] eqn:E; [|discriminate]; intros [= <-].
  split; [exact (update_stacked l' None)|].
  destruct (set_thickness_spec _ _ _ _ E) as (a & l & b & H1 & H2 & H3 & H4 & ->); exists a, l, b; repeat split; auto.
  unfold update_elevation; rewrite update_static, map_app; cbn [map]; unfold static at 2; cbn; rewrite H3; reflexivity.
Qed.
Print Assumptions C58_modify_thickness.
Theorem C58_modify_failure_changes_nothing : forall ls name t ls', modify_thickness ls name t = (false, ls') -> ls' = ls.
Proof. intros ls name t ls'; unfold modify_thickness; destruct (set_thickness name t ls); [discriminate|intros [= <-]; reflexivity]. Qed.
Print Assumptions C58_modify_failure_changes_nothing.
Example C58_modify_ex : modify_thickness [mkSL 0 "a" true 10 2; mkSL 2 "b" true 8 3] "a" 5
  = (true, [mkSL 0 "a" true 10 5; mkSL 2 "b" true (10 - 5) 3]).
Proof. reflexivity. Qed.

(** In a contiguous stack the total thickness is the sum of the layers' thicknesses, and each
    height of the stack is in exactly one layer, which is the one found. *)
Theorem C58_total_thickness : forall ls, stacked ls -> distinct_ids ls -> stackup ls <> [] ->
  exists e t, stackup_height (build_map ls) ls = Ok (e, t) /\ hd_error (map sl_elev (stackup ls)) = Some e /\ t == sumf sl_thick (stackup ls).
Proof.
  intros ls Hs Hn Hne; unfold stackup_height, build_map, stacked, distinct_ids in *.
  destruct (stackup ls) as [|l r] eqn:E; [congruence|].
  destruct (rev (l :: r)) as [|b q] eqn:Er; [apply (f_equal (@List.length _)) in Er; rewrite rev_length in Er; discriminate|].
  rewrite (lookup_in (l :: r) l) by (auto; now left).
  rewrite (lookup_in (l :: r) b) by (auto; apply in_rev; rewrite Er; now left).
  eexists _, _; split; [reflexivity|split; [reflexivity|]].
  apply stacked_heights; auto; rewrite Er; reflexivity.
Qed.
Print Assumptions C58_total_thickness.

Theorem C58_search_finds_the_layer : forall ls h top bot, stacked ls -> distinct_ids ls ->
  Forall (fun l => 0 <= sl_thick l) (stackup ls) ->
  hd_error (stackup ls) = Some top -> hd_error (rev (stackup ls)) = Some bot ->
  (sl_elev bot - sl_thick bot < h /\ h <= sl_elev top ->
    exists l, search_layer (build_map ls) ls h = Ok (Some l) /\ In l (stackup ls) /\ inside l h /\ forall l', In l' (stackup ls) -> inside l' h -> l' = l) /\
  (~ (sl_elev bot - sl_thick bot < h /\ h <= sl_elev top) -> search_layer (build_map ls) ls h = Ok None).
Proof.
  intros ls h top bot Hs Hn Hp Ht Hb; unfold search_layer, stacked, distinct_ids, build_map in *.
  destruct (search_spec (map (fun l => (sl_id l, (sl_elev l, sl_thick l))) (stackup ls)) (stackup ls) h) as (o & H1 & H2).
  { intros l Hl; apply lookup_in; auto. }
  destruct (stackup ls) as [|l0 r] eqn:E; [discriminate|]; injection Ht as <-; split.
  - intros [Ha Hc]; destruct (stacked_cover _ _ _ _ Hs Hb Ha Hc) as (x & Hx & Hi).
    destruct o as [l|]; [|exfalso; eapply H2; eauto].
    exists l; split; [exact H1|destruct H2 as [H2 H3]; split; [auto|split; [auto|]]].
    intros l' Hl' Hi'; eapply stacked_unique; eauto.
  - intros Hout; destruct o as [l|]; [|exact H1]; exfalso; apply Hout; destruct H2 as [H2 [H3 H4]].
    assert (Htop : sl_elev l <= sl_elev l0).
    { destruct H2 as [->|H2]; [lra|].
      pose proof (stacked_below l0 r l (sl_elev l) Hs Hp H2) as HB; inversion Hp as [|? ? P1 P2]; subst.
      destruct (Qlt_le_dec (sl_elev l - sl_thick l) (sl_elev l)) as [Hlt|Hge]; [|lra].
      assert (sl_elev l <= sl_elev l0 - sl_thick l0) by (apply HB; split; lra); lra. }
    split; [|lra].
    assert (Hbot : sl_elev bot - sl_thick bot <= sl_elev l - sl_thick l).
    { clear - Hs Hp H2 Hb; revert l l0 Hs Hp H2 Hb; induction r as [|y r IH]; intros l l0 Hs Hp H2 Hb.
      - destruct H2 as [->|[]]; injection Hb as ->; lra.
      - destruct Hs as [S1 S2]; inversion Hp as [|? ? P1 P2]; subst.
        assert (Hb' : hd_error (rev (y :: r)) = Some bot).
        { cbn [rev] in *; destruct (rev r ++ [y]) eqn:Er; [destruct (rev r); discriminate|]; exact Hb. }
        destruct H2 as [->|H2]; [|apply (IH l y); auto].
        assert (sl_elev bot - sl_thick bot <= sl_elev y - sl_thick y) by (apply (IH y y); auto; now left).
        inversion P2; subst; lra. }
    lra.
Qed.
Print Assumptions C58_search_finds_the_layer.
Example C58_search_ex : search_layer (build_map [mkSL 0 "a" true 10 2; mkSL 2 "b" true 8 3]) [mkSL 0 "a" true 10 2; mkSL 2 "b" true 8 3] 8 = Ok (Some (mkSL 2 "b" true 8 3)).
Proof. reflexivity. Qed.

(** A retriever keeps the heights of its first query: it does not see a later modification. *)
Theorem C58_retriever_keeps_old_heights : exists ls ls' name t,
  modify_thickness ls name t = (true, ls') /\
  layer_height (use_map (use_map [] ls) ls') 2 <> layer_height (build_map ls') 2.
Proof.
  exists [mkSL 0 "a" true 10 2; mkSL 2 "b" true 8 3]; eexists; exists "a"%string, 5; split; [reflexivity|]; cbn; discriminate.
Qed.
Print Assumptions C58_retriever_keeps_old_heights.

Theorem C58_empty_stack_is_ub : forall m ls, stackup ls = [] -> stackup_height m ls = UB.
Proof. intros m ls H; unfold stackup_height; rewrite H; reflexivity. Qed.
Print Assumptions C58_empty_stack_is_ub.
