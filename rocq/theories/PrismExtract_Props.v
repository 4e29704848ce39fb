(** Theorems C92-C95 about point queries on layer cut models and the elements and meshes of prism models. *)
From Verif Require Import Base QSum LayerCut_Model LayerCut_Spec LayerCut_Proofs LayerCut_Props.
From Verif Require Import PrismExtract_Model PrismExtract_Spec PrismExtract_Proofs.

Section T.
  Context {pt table : Type} (pq_top : list nat -> option nat) (shared : nat -> bool).

  (** * C92 *)
  (** Polygon [i] is in layer [l] of a built model exactly if its heights cover the layer. *)
  Theorem C92_in_layer fuel ratio (ps : list (pdata pt table)) m l top bot x i : build_lut fuel ratio (map shape_of ps) = Ok m ->
    nth_error (l_order m) l = Some top -> nth_error (l_order m) (S l) = Some bot ->
    (contains_at ps m l x i <-> exists p, nth_error ps i = Some p /\ p_in p x = true /\ (lo (p_range p) < hi (p_range p))%Z /\
       (lo (p_range p) <= bot)%Z /\ (top <= hi (p_range p))%Z).
  Proof.
    intros B H1 H2; destruct (C37_layer_shapes _ _ _ _ B) as (_ & _ & Hs); specialize (Hs l top bot H1 H2).
    assert (G : forall i, In i (shapes_in_layer (map shape_of ps) top bot) <-> exists p, nth_error ps i = Some p /\ (lo (p_range p) < hi (p_range p))%Z /\ (lo (p_range p) <= bot)%Z /\ (top <= hi (p_range p))%Z).
    { intros j; unfold shapes_in_layer; rewrite filter_In, nth_error_map, in_seq, map_length; split.
      - intros [_ H]; destruct (nth_error ps j) as [p|]; [|discriminate]; cbn [option_map shape_of s_range] in H; exists p.
        unfold r_valid in H; rewrite !andb_true_iff, Z.ltb_lt, !Z.leb_le in H; tauto.
      - intros (p & Hp & A & C & D); split; [assert (j < List.length ps)%nat by (apply nth_error_Some; congruence); lia|].
        rewrite Hp; cbn [option_map shape_of s_range]; unfold r_valid; rewrite !andb_true_iff, Z.ltb_lt, !Z.leb_le; tauto. }
    unfold contains_at; split.
    - intros (v & p & Ev & Hi & Hp & Hin); rewrite Ev in Hs; rewrite Hs in Hi; apply G in Hi as (p' & Hp' & R); rewrite Hp in Hp'; injection Hp' as <-; exists p; tauto.
    - intros (p & Hp & Hin & R); assert (Hi : In i (shapes_in_layer (map shape_of ps) top bot)) by (apply G; exists p; auto).
      rewrite <- Hs in Hi; destruct (layer_polygons m l) as [v|] eqn:Ev; [|destruct Hi]; exists v, p; auto.
  Qed.

  (** With a polygon in every layer a query can be made, and a search answers a smallest polygon of the layer that
      contains the point - none if no polygon does. *)
  Theorem C92_search (ps : list (pdata pt table)) m : smallest_first ps pq_top -> boxes_hold ps -> shares m shared ->
    l_order m <> [] -> (forall l, (l < total_layers (l_order m))%nat -> layer_polygons m l <> None) ->
    exists trees, make_query shared m = Ok trees /\
      forall l x, (l < total_layers (l_order m))%nat -> exists r, search pq_top ps m trees l x = Ok r /\
        match r with Some i => innermost ps m l x i | None => forall i, ~ contains_at ps m l x i end.
  Proof.
    intros Hpq Hb Sh Ho Hl; destruct (make_query_ok shared m Sh Ho Hl) as (trees & E & V); exists trees; split; [exact E|].
    intros l x L; specialize (V l L); destruct (layer_polygons m l) as [v|] eqn:El; [|exfalso; exact (Hl l L El)].
    apply (search_spec pq_top ps m trees Hpq Hb l x v); auto.
  Qed.

  (** The polygon is determined if all others around the point are larger. *)
  Theorem C92_search_strict (ps : list (pdata pt table)) m trees l x i p : smallest_first ps pq_top -> boxes_hold ps -> shares m shared ->
    l_order m <> [] -> (forall k, (k < total_layers (l_order m))%nat -> layer_polygons m k <> None) ->
    make_query shared m = Ok trees -> (l < total_layers (l_order m))%nat ->
    contains_at ps m l x i -> nth_error ps i = Some p ->
    (forall j q, contains_at ps m l x j -> j <> i -> nth_error ps j = Some q -> (p_area p < p_area q)%Q) ->
    search pq_top ps m trees l x = Ok (Some i).
  Proof.
    intros Hpq Hb Sh Ho Hl E L Hc Hp Hst; destruct (C92_search ps m Hpq Hb Sh Ho Hl) as (t' & E' & V); rewrite E in E'; injection E' as <-.
    destruct (V l x L) as (r & -> & Hr); destruct r as [j|]; [|exfalso; exact (Hr i Hc)].
    destruct (Nat.eq_dec j i) as [->|Hne]; [reflexivity|exfalso]; destruct Hr as [Hj Hm].
    destruct Hj as (v & q & Hv & Hi & Hq & Hin); assert (Hj : contains_at ps m l x j) by (exists v, q; auto).
    pose proof (Hm i q p Hc Hq Hp); pose proof (Hst j q Hj Hne Hq); lra.
  Qed.

  (** A layer without polygons - an air gap between two shapes - stops the construction of the query. *)
  Theorem C92_gap_throws m : shares m shared -> (exists l, (l < total_layers (l_order m))%nat /\ layer_polygons m l = None) ->
    make_query shared m = Throw.
  Proof.
    intros Sh (l & L & E); unfold make_query; destruct (l_order m) as [|z0 o0] eqn:Eo; [reflexivity|]; rewrite <- Eo in *.
    apply make_trees_gap; auto; [exists l; split; [lia|exact E]|intros; lia].
  Qed.

  (** * C93 *)
  Theorem C93_elements fuel ratio (ps : list (pdata pt table)) m fluids (mesh : nat -> list (tri pt)) :
    build_lut fuel ratio (map shape_of ps) = Ok m ->
    smallest_first ps pq_top -> boxes_hold ps -> shares m shared ->
    l_order m <> [] -> (forall l, (l < total_layers (l_order m))%nat -> layer_polygons m l <> None) ->
    exists ls, extract pq_top shared ps m fluids mesh = Ok ls /\ List.length ls = total_layers (l_order m) /\
      forall l es, nth_error ls l = Some es ->
        (** every element is a triangle of the mesh in a solid polygon, with the polygon's material and net; it has
            power exactly in the layer that begins at the top of the polygon's power block *)
        (forall n e, nth_error es n = Some e -> x_id e = n /\
           exists t pid p, nth_error (mesh l) (x_tid e) = Some t /\ innermost ps m l (t_center t) pid /\ nth_error ps pid = Some p /\
             solid fluids p /\ x_mat e = p_mat p /\ x_net e = p_net p /\
             forall q b, x_power e = Some (q, b) <->
               exists r, p_block p = Some (r, fst b, snd b) /\ nth_error (l_order m) l = Some (hi r) /\ q = (t_area t / p_area p)%Q) /\
        (** no triangle is used twice *)
        (forall a b ea eb, (a < b)%nat -> nth_error es a = Some ea -> nth_error es b = Some eb -> (x_tid ea < x_tid eb)%nat) /\
        (** and none is left out but for those in no polygon, or in one that is not solid *)
        (forall it t, nth_error (mesh l) it = Some t -> (forall e, In e es -> x_tid e <> it) ->
           (forall i, ~ contains_at ps m l (t_center t) i) \/
           exists pid p, innermost ps m l (t_center t) pid /\ nth_error ps pid = Some p /\ ~ solid fluids p).
  Proof.
    intros B Hpq Hb Sh Ho Hl; destruct (make_query_ok shared m Sh Ho Hl) as (trees & E & V).
    destruct (build_layers_spec pq_top ps m trees Hpq Hb fluids mesh (seq 0 (total_layers (l_order m)))) as (ls & E' & F).
    { intros l L; apply in_seq in L; split; [apply Hl; lia|apply V; lia]. }
    exists ls; unfold extract; rewrite E; cbn [bind]; split; [exact E'|].
    assert (G : forall (a : list nat) (b : list (list (element table))), Forall2 (fun l es => layout pq_top ps m trees fluids l 0 0 (mesh l) es) a b -> List.length b = List.length a /\
      forall k l es, nth_error a k = Some l -> nth_error b k = Some es -> layout pq_top ps m trees fluids l 0 0 (mesh l) es).
    { clear; induction 1 as [|x y a b H F IH]; [split; [reflexivity|destruct k; discriminate]|destruct IH as [L IH]; split; [cbn; lia|]].
      intros [|k] l es; cbn [nth_error]; [intros [= <-] [= <-]; exact H|apply IH]. }
    apply G in F as [Len F]; rewrite seq_length in Len; split; [exact Len|]; intros l es Hes.
    assert (Ll : (l < total_layers (l_order m))%nat) by (rewrite <- Len; apply nth_error_Some; congruence).
    assert (La : layout pq_top ps m trees fluids l 0 0 (mesh l) es).
    { apply (F l l es); [|exact Hes]; rewrite (nth_error_nth' _ 0%nat) by (rewrite seq_length; exact Ll); rewrite seq_nth by exact Ll; reflexivity. }
    split; [|split].
    - intros n e Hn; destruct (layout_elems pq_top ps m trees fluids l _ _ _ _ La n e Hn) as (A & _ & t & Ht & Hk).
      rewrite Nat.sub_0_r in Ht; split; [exact A|]; pose proof Hk as (pid & p & I1 & I2 & I3 & _ & I5); exists t, pid, p.
      split; [exact Ht|]; split; [exact I1|]; split; [exact I2|]; split; [exact I3|]; rewrite I5; cbn [x_mat x_net x_power].
      split; [reflexivity|]; split; [reflexivity|]; intros q [sc lut]; unfold power_of; cbn [fst snd].
      pose proof (fun h k => C37_layer_by_height _ _ _ _ h k B) as LH.
      destruct (p_block p) as [[[r s0] lut0]|]; [|split; [discriminate|intros (r & Hr & _); discriminate]].
      destruct (layer_by_height m (hi r)) as [L0|] eqn:EL.
      + destruct (Nat.eqb_spec l L0) as [<-|Hne].
        * apply LH in EL; split; [intros [= <- <- <-]; exists r; auto|intros (r' & [= <- <- <-] & _ & ->); reflexivity].
        * split; [discriminate|intros (r' & [= <- <- <-] & H & _)]; apply LH in H; congruence.
      + split; [discriminate|intros (r' & [= <- <- <-] & H & _)]; apply LH in H; congruence.
    - apply (layout_sorted pq_top ps m trees fluids l _ _ _ _ La).
    - intros it t Ht Hno; destruct (layout_tris pq_top ps m trees fluids l _ _ _ _ La it t Ht) as [[[_ H]|(pid & p & H1 & H2 & H3 & _)]|(e & He & Et)].
      + left; exact H.
      + right; exists pid, p; auto.
      + exfalso; exact (Hno e He Et).
  Qed.

  (** * C94 *)
  (** All of the power of a block is in the model, once: the shares of its elements add up to one.  Proved when the
      triangles with their centres in the polygon of the block have its area, the layer at the top of the block is
      one of the polygon and no polygon of that layer inside it is as small. *)
  Theorem C94_power_partial fuel ratio (ps : list (pdata pt table)) m fluids (mesh : nat -> list (tri pt)) ls is_b pid p r s tb L :
    build_lut fuel ratio (map shape_of ps) = Ok m ->
    smallest_first ps pq_top -> boxes_hold ps -> shares m shared ->
    l_order m <> [] -> (forall l, (l < total_layers (l_order m))%nat -> layer_polygons m l <> None) ->
    nth_error ps pid = Some p -> p_block p = Some (r, s, tb) -> solid fluids p -> (0 < p_area p)%Q ->
    (forall j q r' s' t', nth_error ps j = Some q -> p_block q = Some (r', s', t') -> is_b (s', t') = true <-> j = pid) ->
    nth_error (l_order m) L = Some (hi r) -> (lo (p_range p) < hi r <= hi (p_range p))%Z ->
    (forall t j q, In t (mesh L) -> p_in p (t_center t) = true -> contains_at ps m L (t_center t) j -> j <> pid ->
       nth_error ps j = Some q -> (p_area p < p_area q)%Q) ->
    (sumf (fun t => if p_in p (t_center t) then t_area t else 0) (mesh L) == p_area p)%Q ->
    extract pq_top shared ps m fluids mesh = Ok ls ->
    (all_ratios is_b ls == 1)%Q.
  Proof.
    intros B Hpq Hb Sh Ho Hl Hp Hbl Hsol Ha Hu HL Hr Hin Hsum Hx.
    destruct (C37_layer_shapes _ _ _ _ B) as (Hd & Hh & Hs).
    assert (Hv : r_valid (s_range (shape_of p)) = true) by (cbn; unfold r_valid; apply Z.ltb_lt; lia).
    destruct (Hh (shape_of p)) as [_ Hlo]; [apply in_map; eapply nth_error_In; eauto|exact Hv|]; cbn [shape_of s_range] in Hlo.
    assert (HSL : exists bot, nth_error (l_order m) (S L) = Some bot /\ (lo (p_range p) <= bot)%Z).
    { clear - Hd Hlo HL Hr; revert L HL; induction (l_order m) as [|a o IH]; intros L HL; [destruct Hlo|].
      destruct L as [|L]; cbn [nth_error] in *.
      - injection HL as ->; destruct Hlo as [Hlo|Hlo]; [lia|]; destruct o as [|b o]; [destruct Hlo|]; exists b; split; [reflexivity|].
        apply decreasing_cons in Hd as [_ Hd]; destruct Hlo as [->|Hlo]; [lia|]; apply decreasing_cons in Hd as [Hf _]; rewrite Forall_forall in Hf; specialize (Hf _ Hlo); lia.
      - apply IH; [|destruct Hlo as [Hlo|Hlo]; [|exact Hlo]|exact HL].
        + apply decreasing_cons in Hd; tauto.
        + exfalso; subst a; apply decreasing_cons in Hd as [Hf _]; rewrite Forall_forall in Hf; specialize (Hf _ (nth_error_In _ _ HL)); lia. }
    destruct HSL as (bot & HSL & Hbot).
    assert (LL : (L < total_layers (l_order m))%nat) by (unfold total_layers; assert (S L < List.length (l_order m))%nat by (apply nth_error_Some; congruence); lia).
    destruct (make_query_ok shared m Sh Ho Hl) as (trees & E & V).
    destruct (build_layers_spec pq_top ps m trees Hpq Hb fluids mesh (seq 0 (total_layers (l_order m)))) as (ls' & E' & F).
    { intros l L0; apply in_seq in L0; split; [apply Hl; lia|apply V; lia]. }
    unfold extract in Hx; rewrite E in Hx; cbn [bind] in Hx; rewrite E' in Hx; injection Hx as ->.
    assert (HLH : layer_by_height m (hi r) = Some L) by (apply (C37_layer_by_height _ _ _ _ (hi r) L B); exact HL).
    assert (Hu1 : forall j q r' s' t', nth_error ps j = Some q -> p_block q = Some (r', s', t') -> is_b (s', t') = true -> j = pid) by (intros j q r' s' t' H1 H2 H3; exact (proj1 (Hu _ _ _ _ _ H1 H2) H3)).
    assert (Hisb : is_b (s, tb) = true) by exact (proj2 (Hu _ _ _ _ _ Hp Hbl) eq_refl).
    assert (One : forall es, layout pq_top ps m trees fluids L 0 0 (mesh L) es -> (sumf (ratio_of is_b) es == 1)%Q).
    { intros es La; rewrite (layout_ratio pq_top ps m trees fluids L is_b pid p Hp Hu1 Hsol r s tb Hbl Hisb HLH 0 0 (mesh L) es La).
      - transitivity (sumf (fun t => if p_in p (t_center t) then t_area t else 0) (mesh L) / p_area p)%Q.
        + clear - Ha; induction (mesh L) as [|t ts IH]; cbn [sumf]; [field; lra|rewrite IH; destruct (p_in p (t_center t)); field; lra].
        + rewrite Hsum; field; lra.
      - intros t Ht; split.
        + intros Es; destruct (C92_search ps m Hpq Hb Sh Ho Hl) as (t' & Et' & W); rewrite E in Et'; injection Et' as <-.
          destruct (W L (t_center t) LL) as (r0 & Er & Hr0); rewrite Es in Er; injection Er as <-.
          destruct Hr0 as [(v & p' & _ & _ & Hp' & Hi) _]; rewrite Hp in Hp'; injection Hp' as <-; exact Hi.
        + intros Hi; apply (C92_search_strict ps m trees L (t_center t) pid p); auto.
          * apply (C92_in_layer fuel ratio ps m L (hi r) bot (t_center t) pid B HL HSL); exists p; repeat split; auto; try lia.
          * intros j q Hj Hne Hq; exact (Hin t j q Ht Hi Hj Hne Hq). }
    assert (Zero : forall l es, l <> L -> layout pq_top ps m trees fluids l 0 0 (mesh l) es -> (sumf (ratio_of is_b) es == 0)%Q).
    { intros l es Hne La; apply (layout_other pq_top ps m trees fluids l is_b pid Hu1 p r s tb Hp Hbl) with (it := 0%nat) (k := 0%nat) (ts := mesh l); [congruence|exact La]. }
    assert (G : forall n st ls, (st <= L < st + n)%nat -> Forall2 (fun l es => layout pq_top ps m trees fluids l 0 0 (mesh l) es) (seq st n) ls -> (all_ratios is_b ls == 1)%Q).
    { clear - One Zero.
      assert (N : forall n st ls, (L < st)%nat -> Forall2 (fun l es => layout pq_top ps m trees fluids l 0 0 (mesh l) es) (seq st n) ls -> (all_ratios is_b ls == 0)%Q).
      { induction n as [|n IH]; intros st ls H F; cbn [seq] in F; inversion F as [|? es ? ls' Hl' F']; subst; unfold all_ratios; cbn [sumf]; [reflexivity|].
        rewrite (Zero st es) by (first [lia|exact Hl']); fold (all_ratios is_b ls'); rewrite (IH (S st) ls') by (first [lia|exact F']); reflexivity. }
      induction n as [|n IH]; intros st ls H F; [lia|]; cbn [seq] in F; inversion F as [|? es ? ls' Hl' F']; subst; unfold all_ratios; cbn [sumf]; fold (all_ratios is_b ls').
      destruct (Nat.eq_dec st L) as [->|Hne].
      - rewrite (One es Hl'), (N n (S L) ls') by (first [lia|exact F']); reflexivity.
      - rewrite (Zero st es Hne Hl'), (IH (S st) ls') by (first [lia|exact F']); reflexivity. }
    apply (G (total_layers (l_order m)) 0%nat ls); [lia|exact F].
  Qed.
End T.
Print Assumptions C92_in_layer.
Print Assumptions C92_search.
Print Assumptions C92_search_strict.
Print Assumptions C92_gap_throws.
Print Assumptions C93_elements.
Print Assumptions C94_power_partial.

(** ** Concrete models over points on a line *)
Definition min_area {pt table} (ps : list (pdata pt table)) (area0 : Q) (l : list nat) : option nat :=
  match l with
  | [] => None
  | i :: r => Some (fold_left (fun b j => match nth_error ps b, nth_error ps j with
                                          | Some p, Some q => if ThermalNetwork_Model.Qltb (p_area q) (p_area p) then j else b
                                          | None, _ => j
                                          | _, None => b end) r i)
  end.
Lemma min_area_ok {pt table} (ps : list (pdata pt table)) a : smallest_first ps (min_area ps a).
Proof.
  intros l; destruct l as [|i r]; cbn [min_area]; [reflexivity|].
  set (f := fun b j => match nth_error ps b, nth_error ps j with Some p, Some q => if ThermalNetwork_Model.Qltb (p_area q) (p_area p) then j else b | None, _ => j | _, None => b end).
  assert (G : forall r i, (fold_left f r i = i \/ In (fold_left f r i) r) /\
    forall p, nth_error ps (fold_left f r i) = Some p -> (forall q, nth_error ps i = Some q -> (p_area p <= p_area q)%Q) /\ (forall j q, In j r -> nth_error ps j = Some q -> (p_area p <= p_area q)%Q)).
  { clear; induction r as [|j r IH]; intros i; cbn [fold_left].
    - split; [auto|]; intros p Hp; split; [intros q Hq; rewrite Hp in Hq; injection Hq as <-; lra|intros j q []].
    - destruct (IH (f i j)) as [A B]; assert (C : f i j = i \/ f i j = j).
      { unfold f; destruct (nth_error ps i), (nth_error ps j); auto; destruct (ThermalNetwork_Model.Qltb _ _); auto. }
      split; [destruct A as [->|A]; [destruct C as [->| ->]; cbn; auto|cbn; auto]|].
      intros p Hp; destruct (B p Hp) as [B1 B2].
      assert (D : (forall q, nth_error ps i = Some q -> (p_area p <= p_area q)%Q) /\ (forall q, nth_error ps j = Some q -> (p_area p <= p_area q)%Q)).
      { unfold f in B1; destruct (nth_error ps i) as [pi|] eqn:Ei, (nth_error ps j) as [pj|] eqn:Ej.
        - unfold ThermalNetwork_Model.Qltb in B1; destruct (Qle_bool (p_area pi) (p_area pj)) eqn:El; cbn [negb] in B1.
          + apply Qle_bool_iff in El; specialize (B1 pi Ei); split; intros q [= <-]; lra.
          + assert (~ (p_area pi <= p_area pj)%Q) by (intros H; apply Qle_bool_iff in H; congruence); specialize (B1 pj Ej); split; intros q [= <-]; lra.
        - specialize (B1 pi Ei); split; intros q [= <-]; lra.
        - specialize (B1 pj eq_refl); split; intros q [= <-]; lra.
        - split; discriminate. }
      split; [apply D|]; intros j' q [<-|Hj]; [apply D|apply B2, Hj]. }
  destruct (G r i) as [A B]; split; [destruct A as [->|A]; cbn; auto|].
  intros j p q Hj Hp Hq; destruct (B p Hp) as [B1 B2]; destruct Hj as [<-|Hj]; [exact (B1 q Hq)|exact (B2 j q Hj Hq)].
Qed.

Definition between (a b x : Z) : bool := (a <=? x)%Z && (x <? b)%Z.
Definition board : pdata Z unit := mkPD 8 (between 0 8) (between 0 8) 2 (-1) (mkR 10 (-5)) None.
Definition die : pdata Z unit := mkPD 4 (between 0 4) (between 0 4) 1 (-1) (mkR 10 0) (Some (mkR 9 8, 0%Z, tt)).
Definition pad : pdata Z unit := mkPD 1 (between 0 1) (between 0 1) 3 7 (mkR 10 0) None.
Definition eight : list (tri Z) := map (fun x => mkTri x 1) [0; 1; 2; 3; 4; 5; 6; 7]%Z.
Definition of_die (b : Z * unit) : bool := true.
Definition lut_of {pt table} (ps : list (pdata pt table)) : lcm := match build_lut 0 1 (map shape_of ps) with Ok m => m | _ => mkL [] (fun _ => None) end.

Example C94_ex :
  let ps := [board; die] in let m := lut_of ps in
  build_lut 0 1 (map shape_of ps) = Ok m /\ l_order m = [10; 9; 8; 0; -5]%Z /\
  match extract (min_area ps 0) (fun _ => false) ps m [] (fun _ => eight) with
  | Ok ls => map (map (fun e => (x_tid e, x_mat e))) [nth 1 ls []] = [[(0, 1%Z); (1, 1%Z); (2, 1%Z); (3, 1%Z); (4, 2%Z); (5, 2%Z); (6, 2%Z); (7, 2%Z)]]%nat /\
             Qred (all_ratios of_die ls) = 1%Q
  | _ => False end.
Proof. split; [reflexivity|]; split; [reflexivity|]; vm_compute; split; reflexivity. Qed.

Lemma in_boxes ps : (forall p : pdata Z unit, In p ps -> p_in p = p_box p) -> boxes_hold ps.
Proof. intros H p x Hp; rewrite (H p Hp); auto. Qed.

(** The hypotheses of C94_power_partial hold of it. *)
Example C94_ex_hyps ls : extract (min_area [board; die] 0) (fun _ => false) [board; die] (lut_of [board; die]) [] (fun _ => eight) = Ok ls ->
  (all_ratios of_die ls == 1)%Q.
Proof.
  apply (C94_power_partial (min_area [board; die] 0) (fun _ => false) 0 1 [board; die] (lut_of [board; die]) [] (fun _ => eight) ls of_die 1%nat die (mkR 9 8) 0%Z tt 1%nat); try reflexivity.
  - apply min_area_ok.
  - apply in_boxes; intros p [<-|[<-|[]]]; reflexivity.
  - intros l; discriminate.
  - discriminate.
  - intros [|[|[|[|l]]]] H; cbv in H; try discriminate; lia.
  - split; [discriminate|intros []].
  - intros [|[|j]] q r' s' t' Hq Hb; cbn in Hq; [injection Hq as <-; discriminate|split; auto|destruct j; discriminate].
  - cbn; lia.
  - intros t j q _ _ _ Hj Hq; destruct j as [|[|j]]; cbn in Hq; [injection Hq as <-; reflexivity|congruence|destruct j; discriminate].
Qed.

(** A smaller polygon inside the block takes its part of the power away: of a die with a pad on a quarter of it,
    three quarters of the power are in the model. *)
Theorem C94_power_refuted : exists pq_top shared (ps : list (pdata Z unit)) m mesh ls,
  build_lut 0 1 (map shape_of ps) = Ok m /\ smallest_first ps pq_top /\ boxes_hold ps /\ shares m shared /\
  (exists p, In p ps /\ p_block p <> None /\ solid [] p /\ (sumf (fun t => if p_in p (t_center t) then t_area t else 0) (mesh 1%nat) == p_area p)%Q) /\
  extract pq_top shared ps m [] mesh = Ok ls /\ (all_ratios of_die ls == 3 # 4)%Q.
Proof.
  exists (min_area [board; die; pad] 0), (fun _ => false), [board; die; pad], (lut_of [board; die; pad]), (fun _ => eight); eexists.
  split; [reflexivity|]; split; [apply min_area_ok|]; split; [apply in_boxes; intros p [<-|[<-|[<-|[]]]]; reflexivity|]; split; [intros l; discriminate|].
  split; [exists die; split; [right; left; reflexivity|]; split; [discriminate|]; split; [split; [discriminate|intros []]|vm_compute; reflexivity]|].
  split; [vm_compute; reflexivity|vm_compute; reflexivity].
Qed.
Print Assumptions C94_power_refuted.

(** A shape so thin that the top of its block rounds to its own bottom has no layer with its power: none of it is in
    the model. *)
Theorem C94_thin_block_refuted : exists pq_top shared (ps : list (pdata Z unit)) m ls,
  ps = solder_joint false 1 1 0 1 8 (between 0 8) (between 0 8) 1 7 0 tt /\
  build_lut 0 1 (map shape_of ps) = Ok m /\ smallest_first ps pq_top /\ boxes_hold ps /\ shares m shared /\
  extract pq_top shared ps m [] (fun _ => eight) = Ok ls /\ (exists p, ps = [p] /\ p_block p <> None) /\ (all_ratios of_die ls == 0)%Q.
Proof.
  set (ps := solder_joint false 1 1 0 1 8 (between 0 8) (between 0 8) 1 7 0 tt).
  exists (min_area ps 0), (fun _ => false), ps, (lut_of ps); eexists.
  split; [reflexivity|]; split; [reflexivity|]; split; [apply min_area_ok|]; split; [apply in_boxes; intros p [<-|[]]; reflexivity|]; split; [intros l; discriminate|].
  split; [vm_compute; reflexivity|]; split; [eexists; split; [reflexivity|discriminate]|vm_compute; reflexivity].
Qed.
Print Assumptions C94_thin_block_refuted.

(** The solder joint at the end of a wire that carries current is added twice, once with its power and once without,
    both of the same size; which of the two a search answers is up to the priority queue.  One that prefers the
    second leaves all of the power out, one that prefers the first keeps it. *)
Definition prefer_last {pt table} (ps : list (pdata pt table)) (l : list nat) : option nat := min_area ps 0 (rev l).
Theorem C94_end_joint_refuted : exists pq1 pq2 shared (ps : list (pdata Z unit)) m ls1 ls2,
  ps = solder_joint true 1 10 1 1 8 (between 0 8) (between 0 8) 1 7 0 tt /\
  build_lut 0 1 (map shape_of ps) = Ok m /\ smallest_first ps pq1 /\ smallest_first ps pq2 /\ boxes_hold ps /\ shares m shared /\
  extract pq1 shared ps m [] (fun _ => eight) = Ok ls1 /\ (all_ratios of_die ls1 == 1)%Q /\
  extract pq2 shared ps m [] (fun _ => eight) = Ok ls2 /\ (all_ratios of_die ls2 == 0)%Q.
Proof.
  set (ps := solder_joint true 1 10 1 1 8 (between 0 8) (between 0 8) 1 7 0 tt).
  exists (min_area ps 0), (prefer_last ps), (fun _ => false), ps, (lut_of ps); do 2 eexists.
  split; [reflexivity|]; split; [reflexivity|]; split; [apply min_area_ok|]; split.
  { intros l; unfold prefer_last; pose proof (min_area_ok ps 0 (rev l)) as H; destruct (min_area ps 0 (rev l)) as [i|].
    - destruct H as [H1 H2]; split; [apply in_rev, H1|]; intros j p q Hj; apply H2; apply in_rev in Hj; exact Hj.
    - destruct l as [|a l]; [reflexivity|]; cbn [rev] in H; apply app_eq_nil in H as [_ H]; discriminate. }
  split; [apply in_boxes; intros p [<-|[<-|[]]]; reflexivity|]; split; [intros l; discriminate|].
  split; [vm_compute; reflexivity|]; split; [vm_compute; reflexivity|]; split; vm_compute; reflexivity.
Qed.
Print Assumptions C94_end_joint_refuted.

(** The joint at the start of a wire has one polygon, with its power if there is a current. *)
Theorem C94_start_joint_once current scale elevation thickness area inp box mat net scen lut :
  r_valid (get_range scale elevation thickness) = true ->
  exists p : pdata Z unit, solder_joint false current scale elevation thickness area inp box mat net scen lut = [p] /\
    (p_block p <> None <-> (0 < current)%Q) /\ p_mat p = mat /\ p_range p = get_range scale elevation thickness /\
    p_area p = area /\ p_in p = inp /\ p_box p = box /\ ((current <= 0)%Q -> p_net p = net).
Proof.
  intros H; unfold solder_joint; rewrite H; unfold ThermalNetwork_Model.Qltb; destruct (Qle_bool current 0) eqn:E; cbn [negb]; eexists; (split; [reflexivity|]); cbn [p_block p_mat p_range p_area p_in p_box p_net]; (split; [|repeat (split; [reflexivity|]); try (intros _; reflexivity); intros Hl; apply Qle_bool_iff in Hl; congruence]).
  - apply Qle_bool_iff in E; split; [congruence|lra].
  - split; [intros _|discriminate]; apply Qnot_le_lt; intros Hl; apply Qle_bool_iff in Hl; congruence.
Qed.
Print Assumptions C94_start_joint_once.

(** * C95 *)
Section Mesh.
  Context {P : Type} (shared : nat -> bool) (polys : nat -> list P).
  Definition same_when_shared : Prop := forall l, shared (S l) = true -> polys (S l) = polys l.

  Lemma make_meshes_spec imprint : same_when_shared -> forall n s done idx,
    (0 < s)%nat -> done <> [] -> (forall l, (l < s)%nat -> exists k, alookup Nat.eqb l idx = Some k /\ (k < List.length done)%nat /\
      incl (polys l) (nth k done []) /\ (imprint = false -> nth k done [] = polys l) /\ (imprint = true -> (0 < l)%nat -> incl (polys (l - 1)%nat) (nth k done []))) ->
    alookup Nat.eqb (s - 1)%nat idx = Some (List.length done - 1)%nat -> (forall l, (s <= l)%nat -> alookup Nat.eqb l idx = None) ->
    let r := make_meshes shared imprint polys (seq s n) done idx in
    forall l, (l < s + n)%nat -> exists k, alookup Nat.eqb l (snd r) = Some k /\ (k < List.length (fst r))%nat /\
      incl (polys l) (nth k (fst r) []) /\ (imprint = false -> nth k (fst r) [] = polys l) /\ (imprint = true -> (0 < l)%nat -> incl (polys (l - 1)%nat) (nth k (fst r) [])).
  Proof.
    intros Sh; induction n as [|n IH]; intros s done idx Hs Hd Hl Hlast Hnone; cbn [seq make_meshes]; cbv zeta.
    - cbn [fst snd]; rewrite Nat.add_0_r; exact Hl.
    - set (done' := if shared s then done else done ++ [polys s ++ (if imprint then last done [] else [])]).
      assert (Ln : (0 < List.length done)%nat) by (destruct done; [congruence|cbn; lia]).
      assert (Kp : forall k, (k < List.length done)%nat -> nth k done' [] = nth k done []).
      { intros k Hk; unfold done'; destruct (shared s); [reflexivity|apply app_nth1, Hk]. }
      assert (Le : (List.length done <= List.length done')%nat) by (unfold done'; destruct (shared s); [lia|rewrite app_length; lia]).
      replace (s + S n)%nat with (S s + n)%nat by lia; apply IH.
      + lia.
      + destruct done' eqn:E; [cbn in Le; lia|discriminate].
      + intros l Ll; rewrite (alookup_emplace _ Nat.eqb_spec); destruct (Nat.eq_dec l s) as [->|Hne].
        * rewrite (Hnone s) by lia; rewrite Nat.eqb_refl; eexists; split; [reflexivity|]; split; [lia|].
          destruct (Hl (s - 1)%nat) as (k & Ek & Lk & I1 & I2 & I3); [lia|]; rewrite Hlast in Ek; injection Ek as <-.
          destruct s as [|s]; [lia|]; replace (S s - 1)%nat with s in * by lia; unfold done' in *; destruct (shared (S s)) eqn:Es.
          -- rewrite (Sh s Es); split; [exact I1|]; split; [exact I2|]; intros _ _; exact I1.
          -- rewrite app_length; cbn [List.length]; replace (List.length done + 1 - 1)%nat with (List.length done) by lia.
             rewrite app_nth2, Nat.sub_diag by lia; cbn [nth]; split; [apply incl_appl, incl_refl|]; split; [intros ->; apply app_nil_r|].
             intros -> _; apply incl_appr; replace (last done []) with (nth (List.length done - 1) done []); [exact I1|].
             clear; induction done as [|a d IHd]; [reflexivity|]; destruct d as [|b d]; [reflexivity|]; cbn [List.length] in *; replace (S (S (List.length d)) - 1)%nat with (S (S (List.length d) - 1)) by lia; cbn [nth]; exact IHd.
        * destruct (Hl l) as (k & Ek & Lk & I1 & I2 & I3); [lia|]; exists k; rewrite Ek; split; [reflexivity|]; rewrite (Kp k Lk); split; [lia|auto].
      + rewrite (alookup_emplace _ Nat.eqb_spec); replace (S s - 1)%nat with s by lia; rewrite (Hnone s) by lia; rewrite Nat.eqb_refl; reflexivity.
      + intros l Ll; rewrite (alookup_emplace _ Nat.eqb_spec), (Hnone l) by lia; destruct (Nat.eqb_spec l s); [lia|reflexivity].
  Qed.

  (** Every layer of a stack-up prism model has a mesh made of its polygons: of nothing else without imprinting, and
      also of those of the layer above with it. *)
  Theorem C95_meshes imprint n : same_when_shared -> (0 < n)%nat ->
    let r := meshes shared imprint polys n in
    forall l, (l < n)%nat -> exists k mesh, alookup Nat.eqb l (snd r) = Some k /\ nth_error (fst r) k = Some mesh /\
      incl (polys l) mesh /\ (imprint = false -> mesh = polys l) /\ (imprint = true -> (0 < l)%nat -> incl (polys (l - 1)%nat) mesh).
  Proof.
    intros Sh Hn r l Ll; destruct (make_meshes_spec imprint Sh (n - 1) 1 [polys 0%nat] [(0, 0)%nat]) with (l := l) as (k & A & B & C).
    - lia.
    - discriminate.
    - intros l0 L0; replace l0 with 0%nat by lia; exists 0%nat; repeat split; [cbn; lia|cbn; apply incl_refl|intros _ H; lia].
    - reflexivity.
    - intros l0 L0; cbn [alookup]; destruct (Nat.eqb_spec l0 0); [lia|reflexivity].
    - lia.
    - exists k, (nth k (fst r) []); split; [exact A|]; split; [apply nth_error_nth'; exact B|exact C].
  Qed.
End Mesh.
Print Assumptions C95_meshes.

Example C95_ex : meshes (fun l => (l =? 2)%nat) true (fun l => match l with 0 => [10] | 1 => [20] | 2 => [20] | _ => [30] end)%nat 4
  = ([[10]; [20; 10]; [30; 20; 10]], [(0, 0); (1, 1); (2, 1); (3, 2)])%nat.
Proof. reflexivity. Qed.
