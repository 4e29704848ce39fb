(** C171-C173: the thermal network of prism models with bond wires. *)
From Verif Require Import Base QSum ThermalNetwork_Model ThermalNetwork_Spec ThermalNetwork_Proofs ThermalNetwork_Props.
From Verif Require Grid_Proofs SteadyGrid_Props.
From Verif Require Import Steady_Spec Steady_Proofs Steady_Props.
From Verif Require Import PrismNet_Model PrismNet_Spec PrismNet_Proofs WireNet_Model WireNet_Spec WireNet_Proofs.
Open Scope nat_scope.

(** * Calls of one segment *)
Lemma sumf_named (c : Q) p xs : (sumf (fun j => if Nat.eqb j p then c else 0) xs == inject_Z (Z.of_nat (count_occ Nat.eq_dec xs p)) * c)%Q.
Proof.
  induction xs as [|x xs IH]; cbn [sumf count_occ]; [change (inject_Z (Z.of_nat 0)) with 0%Q; ring|].
  destruct (Nat.eq_dec x p) as [->|Hne].
  - rewrite Nat.eqb_refl, IH, Nat2Z.inj_succ, <- Z.add_1_l, inject_Z_plus; ring.
  - rewrite (proj2 (Nat.eqb_neq _ _) Hne), IH; ring.
Qed.

Lemma filter_none {A} (f : A -> bool) xs : (forall x, In x xs -> f x = false) -> filter f xs = [].
Proof.
  induction xs as [|x xs IH]; intros H; cbn [filter]; [reflexivity|].
  rewrite (H x (or_introl eq_refl)); apply IH; intros; apply H; right; auto.
Qed.

Lemma sumf_flat {A B} (f : B -> Q) (g : A -> list B) xs : (sumf f (flat_map g xs) == sumf (fun x => sumf f (g x)) xs)%Q.
Proof. induction xs as [|x xs IH]; cbn [flat_map sumf]; [reflexivity|rewrite sumf_app, IH; reflexivity]. Qed.

Lemma half_value k m l t : physical k m -> In l (m_lines m) -> (half_r k l t == half_resistance k l t)%Q.
Proof.
  intros Hp Hl; destruct (Hp l Hl) as (P1 & P2 & P3); destruct (P3 t) as [_ P4].
  unfold half_r, half_resistance, mean_conductivity, ave_k in *; destruct (k_cond k (w_mat l) t) as [[x y] z]; cbn [fst snd] in *.
  assert (E : (x + y + z == 3 * ((x + y + z) / 3))%Q) by field.
  field; split; [|intros Z]; lra.
Qed.

Lemma joule_value k l t : (0 < w_area l)%Q -> (joule k l t == joule_heat k l t)%Q.
Proof.
  intros Ha; unfold joule, joule_heat; destruct (Qeqb (w_current l) 0) eqn:E; [|field; lra].
  apply Qeq_bool_iff in E; rewrite E; ring.
Qed.

Lemma joule_nonneg k m l t : physical k m -> In l (m_lines m) -> (0 <= joule_heat k l t)%Q.
Proof.
  intros Hp Hl; destruct (Hp l Hl) as (P1 & P2 & P3); destruct (P3 t) as [P4 _]; unfold joule_heat.
  apply Qmult_le_0_compat; [destruct (Qlt_le_dec (w_current l) 0); nra|].
  apply Qle_shift_div_l; [auto|]; nra.
Qed.

Section Segment.
  Context (k : lookups) (m : pmodel) (T : list Q).
  Context (Hm : connected_well m).
  Context (l : wline) (Hl : In l (m_lines m)).

  Lemma split_lines : exists l1 l2, m_lines m = l1 ++ l :: l2 /\ forall x, In x (l1 ++ l2) -> In x (m_lines m) /\ w_id x <> w_id l.
  Proof.
    destruct (line_in m Hm l Hl) as (q & Hq & Eid & _).
    pose proof Hq as Hs; apply nth_error_split in Hs as (l1 & l2 & E & L1); exists l1, l2; split; [exact E|].
    intros x Hx; assert (Hin : In x (m_lines m)) by (rewrite E; apply in_app_iff in Hx; apply in_app_iff; cbn [In]; tauto).
    split; [auto|].
    assert (Hq' : exists q', q' <> q /\ nth_error (m_lines m) q' = Some x).
    { apply in_app_iff in Hx as [Hx|Hx]; apply In_nth_error in Hx as [j Hj].
      - assert (j < List.length l1) by (apply nth_error_Some; rewrite Hj; discriminate).
        exists j; split; [lia|]; rewrite E, nth_error_app1; auto.
      - exists (List.length l1 + S j); split; [lia|]; rewrite E, nth_error_app2 by lia.
        replace (List.length l1 + S j - List.length l1) with (S j) by lia; exact Hj. }
    destruct Hq' as (q' & Hne & Hq'); apply (line_id m Hm) in Hq' as [-> _]; lia.
  Qed.

  Lemma line_owner x o : In x (m_lines m) -> In o (line_calls k m T x) -> owner o = Some (w_id x) \/ exists j, j < prism_count m /\ owner o = Some j.
  Proof.
    intros Hx H; destruct (line_in m Hm x Hx) as (q & _ & Eid & _).
    unfold line_calls, line_head in H; repeat (apply in_app_iff in H; destruct H as [H|H]).
    - destruct H as [<-|[<-|[]]]; auto.
    - destruct (Qltb _ _); [|destruct H]; destruct H as [<-|[]]; auto.
    - apply in_flat_map in H as (j & Hj & H); unfold nb_calls in H.
      destruct (Nat.ltb_spec j (prism_count m)); [destruct H as [<-|[]]; right; exists j; split; [auto|cbn [owner]; rewrite Nat.min_l by lia; reflexivity]|].
      destruct (Nat.ltb_spec (w_id x) j); [|destruct H].
      destruct (nth_error _ _); [|destruct H]; destruct H as [<-|[]]; left; cbn [owner]; rewrite Nat.min_l by lia; reflexivity.
  Qed.

  Lemma above_prisms : prism_count m <= w_id l.
  Proof. destruct (line_in m Hm l Hl) as (q & _ & -> & _); lia. Qed.

  Lemma owned_calls : filter (owned_by (w_id l)) (all_calls k m T) = filter (owned_by (w_id l)) (line_calls k m T l).
  Proof.
    pose proof above_prisms as Hn.
    destruct split_lines as (l1 & l2 & E & Hother).
    assert (O : forall xs, (forall x, In x xs -> In x (l1 ++ l2)) -> filter (owned_by (w_id l)) (flat_map (line_calls k m T) xs) = []).
    { intros xs Hxs; apply filter_none; intros o Ho; apply in_flat_map in Ho as (x & Hx & Ho).
      destruct (Hother x (Hxs x Hx)) as [Hx' Hne]; unfold owned_by.
      destruct (line_owner x o Hx' Ho) as [->|(j & Hj & ->)]; apply Nat.eqb_neq; lia. }
    unfold all_calls; rewrite E, flat_map_app; cbn [flat_map]; rewrite !filter_app.
    rewrite (O l1), (O l2) by (intros; apply in_app_iff; auto).
    rewrite (filter_none _ (prism_calls k m T)), (filter_none _ (block_calls k m)); [cbn [app]; rewrite !app_nil_r; reflexivity| |].
    - intros o Ho; apply (block_call_of k m Hm) in Ho; unfold owned_by; inversion Ho; subst; cbn [owner]; apply Nat.eqb_neq; lia.
    - intros o Ho; apply in_prism_calls in Ho as (i & p & Hp & Ho).
      assert (i < prism_count m) by (apply nth_error_Some; rewrite Hp; discriminate).
      unfold owned_by; rewrite (prism_owned _ _ _ _ _ _ _ _ _ _ _ _ _ _ Ho); apply Nat.eqb_neq; lia.
  Qed.

  Lemma links_keep minR os : (forall o, In o os -> exists a b r, o = SetR a b r) -> forall n,
    n_c (effs minR os n) = n_c n /\ n_scen (effs minR os n) = n_scen n /\ n_hf (effs minR os n) = n_hf n /\ n_htc (effs minR os n) = n_htc n.
  Proof.
    induction os as [|o os IH]; intros H n; [repeat split|].
    destruct (H o (or_introl eq_refl)) as (a & b & r & ->).
    exact (IH (fun o Ho => H o (or_intror Ho)) (eff minR (SetR a b r) n)).
  Qed.

  Lemma links_resistors o : In o (line_links k m T l) -> exists a b r, o = SetR a b r.
  Proof.
    intros H; apply in_flat_map in H as (j & Hj & H); unfold nb_calls in H.
    destruct (j <? prism_count m); [destruct H as [<-|[]]; eauto|].
    destruct (w_id l <? j); [|destruct H]; destruct (nth_error _ _); [|destruct H]; destruct H as [<-|[]]; eauto.
  Qed.

  Lemma segment_node minR net : run minR (net_new (element_count m)) (all_calls k m T) = Ok net ->
    let t := nth (w_id l) T 0%Q in let n := nth (w_id l) net node0 in
    n_c n = (k_heat k (w_mat l) t * k_density k (w_mat l) t * (w_area l * w_len l))%Q /\ n_scen n = Some (w_scen l) /\
    n_hf n = (if Qltb 0 (joule k l t) then 0 + joule k l t else 0)%Q /\ n_htc n = 0%Q.
  Proof.
    intros Hrun t n; unfold n; rewrite (run_node minR _ (calls_append k m T Hm) _ _ Hrun), owned_calls.
    replace (nth (w_id l) (net_new (element_count m)) node0) with node0
      by (unfold net_new; destruct (nth_in_or_default (w_id l) (repeat node0 (element_count m)) node0) as [H|H]; [apply repeat_spec in H|]; auto).
    unfold line_calls; rewrite filter_app, effs_app.
    destruct (links_keep minR (filter (owned_by (w_id l)) (line_links k m T l))) with
      (n := effs minR (filter (owned_by (w_id l)) (line_head k T l)) node0) as (-> & -> & -> & ->).
    { intros o Ho; apply filter_In in Ho as [Ho _]; apply links_resistors; auto. }
    unfold line_head; fold t; destruct (Qltb 0 (joule k l t)); cbn [app filter]; unfold owned_by; cbn [owner];
      rewrite Nat.eqb_refl; repeat split; reflexivity.
  Qed.

  (** the resistance between the segment and element [j], as built *)
  Lemma segment_conductance minR a b : (a < prism_count m /\ b = w_id l) \/ (a = w_id l /\ prism_count m <= b /\ w_id l < b) ->
    let j := if a <? prism_count m then a else b in
    (sumf (call_conductance minR a b) (all_calls k m T) ==
     sumf (fun x => if Nat.eqb x j then sumf (call_conductance minR a b) (nb_calls k m l (nth (w_id l) T 0%Q) j) else 0) (ends l))%Q.
  Proof.
    intros Hab j; pose proof above_prisms as Hn.
    destruct split_lines as (l1 & l2 & E & Hother).
    assert (NB : forall x t i, In x (m_lines m) -> In i (ends x) -> (w_id x <> w_id l \/ i <> j) ->
      (sumf (call_conductance minR a b) (nb_calls k m x t i) == 0)%Q).
    { intros x t i Hx Hi Hd; destruct (line_in m Hm x Hx) as (q & _ & Ex & _); unfold nb_calls.
      assert (Z : forall u v r, ~ (u = a /\ v = b) -> ~ (u = b /\ v = a) -> (sumf (call_conductance minR a b) [SetR u v r] == 0)%Q).
      { intros u v r N1 N2; cbn [sumf call_conductance].
        destruct (Nat.eqb_spec u a), (Nat.eqb_spec v b), (Nat.eqb_spec u b), (Nat.eqb_spec v a); cbn [andb orb]; try ring; exfalso; tauto. }
      unfold j in Hd; destruct (Nat.ltb_spec a (prism_count m)) as [Ha|Ha].
      - destruct (Nat.ltb_spec i (prism_count m)); [apply Z; lia|].
        destruct (Nat.ltb_spec (w_id x) i); [|reflexivity]; destruct (nth_error _ _); [apply Z; lia|reflexivity].
      - destruct (Nat.ltb_spec i (prism_count m)); [apply Z; lia|].
        destruct (Nat.ltb_spec (w_id x) i); [|reflexivity]; destruct (nth_error _ _); [apply Z; lia|reflexivity]. }
    assert (HD : forall x, (sumf (call_conductance minR a b) (line_head k T x) == 0)%Q).
    { intros x; unfold line_head; destruct (Qltb _ _); cbn [app sumf call_conductance]; ring. }
    assert (O : forall xs, (forall x, In x xs -> In x (l1 ++ l2)) -> (sumf (call_conductance minR a b) (flat_map (line_calls k m T) xs) == 0)%Q).
    { intros xs Hxs; rewrite sumf_flat; apply sumf_zero; intros x Hx; destruct (Hother x (Hxs x Hx)) as [Hx' Hne].
      unfold line_calls; rewrite sumf_app, HD; unfold line_links; rewrite sumf_flat, sumf_zero; [ring|].
      intros i Hi; apply NB; auto. }
    unfold all_calls; rewrite E, flat_map_app; cbn [flat_map]; rewrite !sumf_app.
    rewrite (O l1), (O l2) by (intros; apply in_app_iff; auto).
    rewrite (sumf_zero _ (prism_calls k m T)), (sumf_zero _ (block_calls k m)).
    - unfold line_calls; rewrite sumf_app, HD; unfold line_links; rewrite sumf_flat.
      rewrite (sumf_ext _ (fun x => if Nat.eqb x j then sumf (call_conductance minR a b) (nb_calls k m l (nth (w_id l) T 0%Q) j) else 0)%Q (ends l)); [ring|].
      intros i Hi; destruct (Nat.eqb_spec i j) as [->|Hne]; [reflexivity|apply NB; auto].
    - intros o Ho; apply (block_call_of k m Hm) in Ho; inversion Ho; reflexivity.
    - intros o Ho; apply in_prism_calls in Ho as (i & p & Hp & Ho); apply (prism_call_of k m T i p o Hp) in Ho.
      assert (Li : i < prism_count m) by (apply nth_error_Some; rewrite Hp; discriminate).
      inversion Ho as [| | |i' r Hlt Ht| |]; try reflexivity; subst.
      assert (i' < prism_count m) by (apply (proj1 (proj2 (proj2 Hm)) i i'); auto).
      cbn [call_conductance].
      destruct (Nat.eqb_spec i a), (Nat.eqb_spec i' b), (Nat.eqb_spec i b), (Nat.eqb_spec i' a); cbn [andb orb]; try reflexivity; exfalso; lia.
  Qed.
End Segment.

Lemma powers_added k m T : (sumf added (prism_calls k m T) == prism_powers k m T)%Q.
Proof.
  unfold prism_calls, prism_powers, prism_count.
  assert (P : forall i p, (sumf added (prism_ops (k_power k T) (k_cap k T) (k_xy k T) (k_z k T) (k_height k) (k_harea k)
      (k_side k) (k_edge k) (k_dist k) (m_top m) (m_bot m) i p) == match k_power k T i with Some (p, _) => p | None => 0 end)%Q).
  { intros i p; unfold prism_ops; rewrite !sumf_app.
    rewrite (sumf_zero added (side_ops _ _ _ _ _ _ _)) by (intros o Ho; apply side_in in Ho as (j & r & -> & _); reflexivity).
    assert (F : forall nb b, (sumf added (face_ops (k_z k T) (k_height k) (k_harea k) i nb b) == 0)%Q).
    { intros [j|] b; unfold face_ops, bc_ops; [destruct (i <? j)|destruct b as [[v|v]|]]; reflexivity. }
    rewrite !F; unfold power_ops; destruct (k_power k T i) as [[q s]|]; cbn [sumf added]; ring. }
  assert (G : forall (ps : list prism) a, (sumf added (flat_map (fun ip => prism_ops (k_power k T) (k_cap k T) (k_xy k T) (k_z k T) (k_height k) (k_harea k)
      (k_side k) (k_edge k) (k_dist k) (m_top m) (m_bot m) (fst ip) (snd ip)) (combine (seq a (List.length ps)) ps)) ==
      sumf (fun i => match k_power k T i with Some (p, _) => p | None => 0 end) (seq a (List.length ps)))%Q).
  { induction ps as [|p ps IH]; intros a; cbn [List.length seq combine flat_map sumf]; [reflexivity|].
    rewrite sumf_app, IH; cbn [fst snd]; rewrite P; reflexivity. }
  apply G.
Qed.

Lemma joules_added k m T : physical k m -> (sumf added (flat_map (line_calls k m T) (m_lines m)) == joule_heats k m T)%Q.
Proof.
  intros Hp; unfold joule_heats; rewrite sumf_flat; apply sumf_ext; intros l Hl.
  destruct (Hp l Hl) as (_ & P2 & _); pose proof (joule_nonneg k m l (nth (w_id l) T 0%Q) Hp Hl) as N.
  unfold line_calls; rewrite sumf_app.
  rewrite (sumf_zero added (line_links k m T l)) by (intros o Ho; apply links_resistors in Ho as (a & b & r & ->); reflexivity).
  rewrite <- (joule_value k l _ P2) in N |- *; unfold line_head.
  destruct (Qltb 0 (joule k l (nth (w_id l) T 0%Q))) eqn:E; cbn [app sumf added]; [ring|].
  assert (~ (0 < joule k l (nth (w_id l) T 0))%Q) by (rewrite <- Qltb_iff, E; discriminate); lra.
Qed.

(** ** C171: every segment of a bond wire is one node with the heat capacity of the segment, its scenario, the heat its
    current produces at its own temperature and no exchange with the ambient; it is coupled to a prism at one of its
    ends through half of its length. *)
Theorem C171_segment_node : forall k m minR T net q l,
  connected_well m -> physical k m -> List.length T = List.length (m_prisms m) + List.length (m_lines m) ->
  wire_build k m minR T = Ok (Some net) -> nth_error (m_lines m) q = Some l ->
  let i := List.length (m_prisms m) + q in
  let t := nth i T 0%Q in
  List.length net = List.length (m_prisms m) + List.length (m_lines m) /\
  (get_c net i == heat_capacity k l t)%Q /\ get_scen net i = Some (w_scen l) /\
  (get_hf net i == joule_heat k l t)%Q /\ (get_htc net i == 0)%Q.
Proof.
  intros k m minR T net q l Hm Hp HT Hb Hq i t.
  destruct (build_defined k m T Hm minR HT) as (net' & Hb' & Hrun & Hlen & _).
  assert (net' = net) by congruence; subst net'.
  destruct (line_id m Hm q l Hq) as [Eid _]; apply nth_error_In in Hq as Hl; destruct (Hp l Hl) as (P1 & P2 & P3).
  destruct (segment_node k m T Hm l Hl minR net Hrun) as (E1 & E2 & E3 & E4).
  rewrite Eid in E1, E2, E3, E4; fold (prism_count m) in t, i; fold i in E1, E2, E3, E4; fold t in E1, E3.
  split; [exact Hlen|]; unfold get_c, get_scen, get_hf, get_htc; rewrite E1, E2, E3, E4.
  split; [unfold heat_capacity; ring|split; [reflexivity|split; [|reflexivity]]].
  pose proof (joule_nonneg k m l t Hp Hl) as N; rewrite <- (joule_value k l t P2) in N |- *.
  destruct (Qltb 0 (joule k l t)) eqn:E; [ring|].
  assert (~ (0 < joule k l t)%Q) by (rewrite <- Qltb_iff, E; discriminate); lra.
Qed.

Theorem C171_segment_to_prism : forall k m minR T net bonds ps M q l p, (0 < minR)%Q ->
  connected_well m -> physical k m -> List.length T = List.length (m_prisms m) + List.length (m_lines m) ->
  wire_build k m minR T = Ok (Some net) -> make_mna net bonds ps = Ok M -> nth_error (m_lines m) q = Some l ->
  p < List.length (m_prisms m) ->
  let i := List.length (m_prisms m) + q in
  (- entry (m_G M) p i == times_named l p * (1 / Qmax (half_resistance k l (nth i T 0)) minR))%Q.
Proof.
  intros k m minR T net bonds ps M q l p HminR Hm Hp HT Hb HM Hq Hlt i.
  destruct (build_defined k m T Hm minR HT) as (net' & Hb' & Hrun & Hlen & _).
  assert (net' = net) by congruence; subst net'.
  destruct (line_id m Hm q l Hq) as [Eid Lq]; apply nth_error_In in Hq as Hl.
  assert (Ei : i = w_id l) by (rewrite Eid; reflexivity).
  rewrite (C28_pair_conductance minR HminR _ _ net bonds ps M Hrun HM p i);
    [|rewrite Hlen; unfold element_count, prism_count; lia|rewrite Hlen; unfold i, element_count, prism_count; lia|lia].
  rewrite Ei; rewrite (segment_conductance k m T Hm l Hl minR p (w_id l)) by (left; auto); cbv zeta.
  fold (prism_count m) in Hlt; rewrite (proj2 (Nat.ltb_lt _ _) Hlt).
  rewrite sumf_named; unfold times_named; apply Qmult_comp; [reflexivity|].
  unfold nb_calls; rewrite (proj2 (Nat.ltb_lt _ _) Hlt); cbn [sumf call_conductance]; rewrite !Nat.eqb_refl; cbn [andb orb].
  rewrite (half_value k m l _ Hp Hl); ring.
Qed.

(** ** C172: two segments that meet are coupled through half of each, each half as conductive as its own temperature makes
    it.  This holds where the conductivity of the second segment is the same at the temperatures of both, in particular
    for conductivities that do not depend on the temperature. *)
Theorem C172_segment_to_segment_partial : forall k m minR T net bonds ps M q l q2 l2, (0 < minR)%Q ->
  connected_well m -> physical k m -> List.length T = List.length (m_prisms m) + List.length (m_lines m) ->
  wire_build k m minR T = Ok (Some net) -> make_mna net bonds ps = Ok M ->
  nth_error (m_lines m) q = Some l -> nth_error (m_lines m) q2 = Some l2 -> q < q2 ->
  let i := List.length (m_prisms m) + q in
  let j := List.length (m_prisms m) + q2 in
  (mean_conductivity k l2 (nth i T 0) == mean_conductivity k l2 (nth j T 0))%Q ->
  (- entry (m_G M) i j == times_named l j *
     (1 / Qmax (half_resistance k l (nth i T 0) + half_resistance k l2 (nth j T 0)) minR))%Q.
Proof.
  intros k m minR T net bonds ps M q l q2 l2 HminR Hm Hp HT Hb HM Hq Hq2 Hlt i j Hk.
  destruct (build_defined k m T Hm minR HT) as (net' & Hb' & Hrun & Hlen & _).
  assert (net' = net) by congruence; subst net'.
  destruct (line_id m Hm q l Hq) as [Eid Lq]; apply nth_error_In in Hq as Hl.
  destruct (line_id m Hm q2 l2 Hq2) as [Eid2 Lq2]; apply nth_error_In in Hq2 as Hl2.
  assert (Ei : i = w_id l) by (rewrite Eid; reflexivity).
  rewrite (C28_pair_conductance minR HminR _ _ net bonds ps M Hrun HM i j);
    [|rewrite Hlen; unfold i, element_count, prism_count; lia|rewrite Hlen; unfold j, element_count, prism_count; lia|lia].
  rewrite Ei; rewrite (segment_conductance k m T Hm l Hl minR (w_id l) j) by (right; unfold j; unfold prism_count in *; lia); cbv zeta.
  assert (Hn : prism_count m <= w_id l) by (rewrite Eid; lia).
  rewrite (proj2 (Nat.ltb_ge _ _) Hn), sumf_named; unfold times_named; apply Qmult_comp; [reflexivity|].
  unfold nb_calls; rewrite (proj2 (Nat.ltb_ge j (prism_count m))) by (unfold j, prism_count; lia).
  rewrite (proj2 (Nat.ltb_lt (w_id l) j)) by (unfold j, prism_count in *; lia).
  replace (j - prism_count m) with q2 by (unfold j, prism_count; lia); rewrite Hq2.
  cbn [sumf call_conductance]; rewrite !Nat.eqb_refl; cbn [andb orb].
  rewrite (half_value k m l _ Hp Hl), (half_value k m l2 _ Hp Hl2), <- Ei.
  assert (E : (half_resistance k l2 (nth i T 0) == half_resistance k l2 (nth j T 0))%Q) by (unfold half_resistance; rewrite Hk; reflexivity).
  rewrite E; ring.
Qed.

(** ** C173: if every element is in contact, over any number of prisms and segments, with a face that exchanges heat with
    the ambient, there is exactly one steady state; in it the heat leaving through these faces is what the powers and the
    currents produce. *)
Lemma wires_dissipate k m minR T net M : (0 < minR)%Q ->
  connected_well m -> positive_exchange k m -> (forall i, i < element_count m -> has_way_out m i) ->
  run minR (net_new (element_count m)) (all_calls k m T) = Ok net -> List.length net = element_count m ->
  forall bonds ps, make_mna net bonds ps = Ok M -> dissipates net M.
Proof.
  intros HminR Hm [Ha Hv] Hw Hrun Hlen bonds ps HM.
  assert (FB : forall i b, free_face m i b -> i < prism_count m /\ WireNet_Spec.has_bc m b).
  { intros i b (p & Hp & H); split; [apply nth_error_Some; rewrite Hp; discriminate|].
    destruct H as [[_ H]|[[_ H]|(x & H1 & _ & H2 & _)]]; [left|right; left|right; right; exists x]; auto. }
  assert (Hpos : Forall SteadyGrid_Props.positive_htc (all_calls k m T)).
  { apply Forall_forall; intros o Ho; apply (in_calls k m T Hm) in Ho as [(i & Li & Ho)|[Ho|Ho]]; inversion Ho; subst; cbn [SteadyGrid_Props.positive_htc]; auto;
      match goal with F : free_face _ _ (HTC _) |- _ => destruct (FB _ _ F) as [F1 F2] end; apply Qmult_lt_0_compat; auto. }
  destruct (SteadyGrid_Props.run_htc minR _ _ _ Hrun Hpos) as (R1 & _ & R3).
  split.
  { intros i _; apply R1; rewrite SteadyGrid_Props.net_new_htc; lra. }
  intros i Hi; rewrite Hlen in Hi; specialize (Hw i Hi).
  assert (C : forall a b, touches m a b -> a < List.length net /\ b < List.length net /\ a <> b /\ ~ (entry (m_G M) a b == 0)%Q /\ ~ (entry (m_G M) b a == 0)%Q).
  { intros a b Ht; destruct (touched_range m Hm a b Ht) as (La & Lb & Hne); rewrite Hlen.
    split; [auto|split; [auto|split; [auto|]]].
    destruct (contact_call k m T Hm a b Ht) as [r Hr].
    destruct (SteadyGrid_Props.resistor_couples minR _ _ net bonds ps M (Nat.min a b) (Nat.max a b) r HminR Hrun HM) as [E1 E2];
      [lia|lia|lia|auto|].
    destruct (Nat.lt_ge_cases a b); [rewrite Nat.min_l, Nat.max_r in E1, E2 by lia|rewrite Nat.min_r, Nat.max_l in E1, E2 by lia]; auto. }
  clear Hi; induction Hw as [i v Hf|i j Ht _ IH|i j Ht _ IH].
  - apply grounded_here; [rewrite Hlen; destruct (FB _ _ Hf); unfold element_count; lia|apply (R3 i _ (face_call k m T i v Hf))].
  - destruct (C i j Ht) as (Li & Lj & Hne & E1 & E2); apply (grounded_via _ _ _ i j); auto.
  - destruct (C j i Ht) as (Lj & Li & Hne & E1 & E2); apply (grounded_via _ _ _ i j); auto.
Qed.

Theorem C173_exactly_one : forall k m minR T refT bonds, (0 < minR)%Q ->
  connected_well m -> positive_exchange k m ->
  (forall i, i < List.length (m_prisms m) + List.length (m_lines m) -> has_way_out m i) ->
  List.length T = List.length (m_prisms m) + List.length (m_lines m) ->
  exists net M, wire_build k m minR T = Ok (Some net) /\ List.length net = List.length (m_prisms m) + List.length (m_lines m) /\
    make_mna net bonds [] = Ok M /\ exactly_one net M refT.
Proof.
  intros k m minR T refT bonds HminR Hm Hx Hw HT.
  destruct (build_defined k m T Hm minR HT) as (net & Hb & Hrun & Hlen & Hends).
  destruct (C27_assembly_defined minR HminR _ _ net bonds [] Hrun Hends (Forall_nil _)) as [M HM].
  exists net, M; split; [auto|split; [auto|split; [auto|]]].
  apply (C165_exactly_one minR HminR net bonds [] M refT); [exists (element_count m), (all_calls k m T); auto|auto|].
  exact (wires_dissipate k m minR T net M HminR Hm Hx Hw Hrun Hlen bonds [] HM).
Qed.

Theorem C173_heat_balance : forall k m minR T refT bonds net M X,
  connected_well m -> physical k m -> no_flux m ->
  List.length T = List.length (m_prisms m) + List.length (m_lines m) ->
  wire_build k m minR T = Ok (Some net) -> make_mna net bonds [] = Ok M -> equilibrium net M refT X ->
  (sumf (fun i => get_htc net i * (X i - refT)) (seq 0 (List.length (m_prisms m))) == prism_powers k m T + joule_heats k m T)%Q.
Proof.
  intros k m minR T refT bonds net M X Hm Hp Hf HT Hb HM HX.
  destruct (build_defined k m T Hm minR HT) as (net' & Hb' & Hrun & Hlen & _).
  assert (net' = net) by congruence; subst net'.
  pose proof (C27_energy_balance net bonds [] M refT X HM HX) as B.
  rewrite Hlen in B; unfold element_count in B; rewrite seq_app, sumf_app in B.
  rewrite (sumf_zero _ (seq (0 + prism_count m) _)) in B.
  - unfold prism_count in B at 1.
    assert (E : (total_hf net == prism_powers k m T + joule_heats k m T)%Q); [|lra].
    rewrite (run_total minR (all_calls k m T)) with (l := net_new (element_count m)); [| |exact Hrun].
    + rewrite total_hf_sum, (sumf_zero n_hf (net_new _)) by (intros n Hn; apply repeat_spec in Hn; subst; reflexivity).
      unfold all_calls; rewrite !sumf_app, powers_added, (joules_added k m T Hp).
      rewrite (sumf_zero added (block_calls k m)); [ring|].
      intros o Ho; apply (block_call_of k m Hm) in Ho; inversion Ho; reflexivity.
    + assert (FB : forall i b, free_face m i b -> WireNet_Spec.has_bc m b).
      { intros i b (p & _ & H); destruct H as [[_ H]|[[_ H]|(x & H1 & _ & H2 & _)]]; [left|right; left|right; right; exists x]; auto. }
      apply Forall_forall; intros o Ho; split; [exact (proj1 (Forall_forall _ _) (calls_append k m T Hm) o Ho)|].
      apply (in_calls k m T Hm) in Ho as [(i & Li & Ho)|[Ho|Ho]]; inversion Ho; subst; cbn [never_set_hf]; auto;
        match goal with F : free_face _ _ (HeatFlux ?v) |- _ => exact (Hf v (FB _ _ F)) end.
  - intros i Hi; apply in_seq in Hi.
    destruct (nth_error (m_lines m) (i - prism_count m)) as [l|] eqn:E; [|apply nth_error_None in E; lia].
    destruct (C171_segment_node k m minR T net _ l Hm Hp HT Hb E) as (_ & _ & _ & _ & Z).
    replace (List.length (m_prisms m) + (i - prism_count m)) with i in Z by (unfold prism_count in *; lia).
    rewrite Z; ring.
Qed.

(** ** A chip (prism 1) connected to a cooled pad (prism 0) by a wire of two segments only.  The conductivity of the wire
    grows with its temperature; the chip dissipates 5 W, the wire carries 2 A. *)
Definition lone : prism := {| p_side := [None; None; None]; p_top := None; p_bot := None; p_ctop := []; p_cbot := [] |}.
Definition bonded : pmodel :=
  mkModel [lone; lone] [mkLine 2 7 1 2 1 1 [0] [3]; mkLine 3 7 1 2 1 1 [2] [1]] None None [mkBlock false [0] (HTC 10)].
Definition bonded_look : lookups :=
  mkLook (fun _ i => if i =? 1 then Some (5%Q, 0) else None) (fun _ _ => 1%Q) (fun _ _ => 1%Q) (fun _ _ => 1%Q) (fun _ => 1%Q) (fun _ => 1%Q)
    (fun _ _ => 1%Q) (fun _ _ => 1%Q) (fun _ _ => 1%Q)
    (fun _ t => (1 + t * t, 1 + t * t, 1 + t * t)%Q) (fun _ _ => 1%Q) (fun _ _ => 1%Q) (fun _ _ => (1#4)%Q).

Lemma bonded_touches i j : touches bonded i j <-> In (i, j) [(2, 0); (2, 3); (3, 2); (3, 1)].
Proof.
  split.
  - intros [(p & Hp & H)|(l & Hl & <- & H)].
    + destruct i as [|[|i]]; cbn in Hp; try (injection Hp as <-); cbn in H; try (destruct i; discriminate);
        decompose [or] H; try discriminate; tauto.
    + destruct Hl as [<-|[<-|[]]]; cbn in H |- *; destruct H as [<-|[<-|[]]]; auto.
  - intros H; right; cbn in H; decompose [or] H; clear H; try tauto;
      match goal with E : _ = _ |- _ => injection E as <- <- end.
    + exists (mkLine 2 7 1 2 1 1 [0] [3]); cbn; auto.
    + exists (mkLine 2 7 1 2 1 1 [0] [3]); cbn; auto.
    + exists (mkLine 3 7 1 2 1 1 [2] [1]); cbn; auto.
    + exists (mkLine 3 7 1 2 1 1 [2] [1]); cbn; auto.
Qed.

Example bonded_well : connected_well bonded.
Proof.
  unfold connected_well; cbn [m_prisms m_lines bonded List.length Nat.add]; split; [|split; [|split; [|split]]].
  - intros [|[|q]] l H; cbn in H; try (injection H as <-; reflexivity); destruct q; discriminate.
  - intros i j H; apply bonded_touches in H; cbn in H; decompose [or] H; clear H; try tauto;
      match goal with E : _ = _ |- _ => injection E as <- <- end; lia.
  - intros i j Hi H; apply bonded_touches in H; cbn in H; decompose [or] H; clear H; try tauto;
      match goal with E : _ = _ |- _ => injection E as <- <- end; lia.
  - intros i j H Hij; apply bonded_touches in H; apply bonded_touches; cbn in H; decompose [or] H; clear H; try tauto;
      match goal with E : _ = _ |- _ => injection E as <- <- end; cbn; auto; lia.
  - intros b i [<-|[]] [<-|[]]; lia.
Qed.
Example bonded_physical : physical bonded_look bonded.
Proof.
  intros l [<-|[<-|[]]]; cbn [w_len w_area w_mat]; (split; [lra|split; [lra|intros t; split; [cbn; lra|]]]);
    unfold mean_conductivity; cbn [bonded_look k_cond fst snd w_mat];
    (assert (E : ((1 + t * t + (1 + t * t) + (1 + t * t)) / 3 == 1 + t * t)%Q) by field); rewrite E; pose proof (Qsq_nonneg t); lra.
Qed.
Example bonded_exchange : positive_exchange bonded_look bonded.
Proof.
  split; [intros; cbn; lra|]; intros v [H|[H|(q & [<-|[]] & H)]]; try discriminate; injection H as <-; lra.
Qed.
Example bonded_way_out : forall i, i < 4 -> has_way_out bonded i.
Proof.
  assert (W0 : has_way_out bonded 0).
  { apply (way_here bonded 0 10%Q); exists lone; split; [reflexivity|right; right]; exists (mkBlock false [0] (HTC 10)); cbn; auto. }
  assert (W2 : has_way_out bonded 2) by (apply (way_from bonded 2 0); [apply bonded_touches; cbn; auto|auto]).
  assert (W3 : has_way_out bonded 3) by (apply (way_from bonded 3 2); [apply bonded_touches; cbn; auto|auto]).
  assert (W1 : has_way_out bonded 1) by (apply (way_to bonded 1 3); [apply bonded_touches; cbn; auto|auto]).
  intros [|[|[|[|i]]]] Hi; auto; lia.
Qed.
Example bonded_no_flux : no_flux bonded.
Proof. intros v [H|[H|(q & [<-|[]] & H)]]; discriminate. Qed.

Definition bonded_net (T : list Q) : network := match wire_build bonded_look bonded (1#1000) T with Ok (Some n) => n | _ => [] end.
Definition bonded_g (T : list Q) (i j : nat) : Q := match make_mna (bonded_net T) true [] with Ok M => Qred (entry (m_G M) i j) | _ => 0%Q end.
(** at a uniform temperature of 1 every half of a segment has a resistance of 1/4 and every segment produces 1 W *)
Example C171_example :
  map (fun i => Qred (get_hf (bonded_net [1; 1; 1; 1]%Q) i)) [0; 1; 2; 3] = [0; 5; 1; 1]%Q /\
  bonded_g [1; 1; 1; 1]%Q 0 2 = (-4)%Q /\ bonded_g [1; 1; 1; 1]%Q 2 3 = (-2)%Q /\ bonded_g [1; 1; 1; 1]%Q 1 3 = (-4)%Q /\
  times_named (mkLine 2 7 1 2 1 1 [0] [3]) 0 = 1%Q.
Proof. vm_compute; repeat split. Qed.
(** 7 W leave through the pad; the wire and the chip are hotter by what it takes to conduct them there *)
Example C173_example :
  equilibrium (bonded_net [1; 1; 1; 1]%Q) (match make_mna (bonded_net [1; 1; 1; 1]%Q) true [] with Ok M => M | _ => mkMna [] [] [] [] end) 300
    (fun i => nth i [300 + (7#10); 300 + (7#10) + (7#4) + 3 + (5#4); 300 + (7#10) + (7#4); 300 + (7#10) + (7#4) + 3]%Q 0%Q).
Proof.
  unfold equilibrium, steady; intros i Hi; assert (i < 4) by exact Hi.
  destruct i as [|[|[|[|i]]]]; try lia; vm_compute; reflexivity.
Qed.

(** The conductivity of the neighbouring segment is looked up at the temperature of the wrong segment: with the first
    segment at 1 and the second at 2 the two are coupled as if both were at 1. *)
Theorem C172_neighbour_temperature_refuted : exists k m minR T net M q l q2 l2, (0 < minR)%Q /\
  connected_well m /\ physical k m /\ List.length T = List.length (m_prisms m) + List.length (m_lines m) /\
  wire_build k m minR T = Ok (Some net) /\ make_mna net true [] = Ok M /\
  nth_error (m_lines m) q = Some l /\ nth_error (m_lines m) q2 = Some l2 /\ q < q2 /\
  let i := List.length (m_prisms m) + q in
  let j := List.length (m_prisms m) + q2 in
  ~ (- entry (m_G M) i j == times_named l j *
       (1 / Qmax (half_resistance k l (nth i T 0) + half_resistance k l2 (nth j T 0)) minR))%Q /\
  (- entry (m_G M) i j == times_named l j *
       (1 / Qmax (half_resistance k l (nth i T 0) + half_resistance k l2 (nth i T 0)) minR))%Q.
Proof.
  exists bonded_look, bonded, (1#1000)%Q, [1; 1; 1; 2]%Q.
  destruct (C173_exactly_one bonded_look bonded (1#1000) [1; 1; 1; 2]%Q 0%Q true eq_refl bonded_well bonded_exchange bonded_way_out eq_refl)
    as (net & M & Hb & _ & HM & _).
  exists net, M, 0, (mkLine 2 7 1 2 1 1 [0] [3]), 1, (mkLine 3 7 1 2 1 1 [2] [1]).
  split; [reflexivity|split; [exact bonded_well|split; [exact bonded_physical|split; [reflexivity|split; [exact Hb|split; [exact HM|
    split; [reflexivity|split; [reflexivity|split; [lia|]]]]]]]]].
  assert (E : bonded_g [1; 1; 1; 2]%Q 2 3 = Qred (entry (m_G M) 2 3)) by (unfold bonded_g, bonded_net; rewrite Hb, HM; reflexivity).
  assert (V : bonded_g [1; 1; 1; 2]%Q 2 3 = (-2)%Q) by (vm_compute; reflexivity).
  assert (Z : (entry (m_G M) 2 3 == -2)%Q) by (rewrite <- (Qred_correct (entry (m_G M) 2 3)), <- E, V; reflexivity).
  cbn [bonded m_prisms List.length Nat.add]; rewrite Z; split; [intros H; vm_compute in H; discriminate|vm_compute; reflexivity].
Qed.

Print Assumptions C171_segment_node.
Print Assumptions C171_segment_to_prism.
Print Assumptions C172_segment_to_segment_partial.
Print Assumptions C172_neighbour_temperature_refuted.
Print Assumptions C173_exactly_one.
Print Assumptions C173_heat_balance.
