(** C107, C108, C109: monitored points. *)
From Verif Require Import Base QSum Prism_Model Prism_Spec Prism_Proofs PrismNet_Model PrismNet_Spec Units_Model Solver_Model Solver_Props Monitor_Model Monitor_Spec Monitor_Proofs.
From Coq Require Import QArith Qround Lqa.
Close Scope Q_scope.
Open Scope nat_scope.
Open Scope res_scope.

(** ** C107 – the element of a monitor *)
Section C107.
  Context {K : Type} (key : template -> nat -> K) (nearest : list (K * nat) -> Z * Z -> list (K * nat)) (dist : Z * Z -> K -> Q).
  Context (strict : bool) (m : pmodel).
  Notation ls := (map (fun y => (y_elev y, y_thick y)) (m_layers m)).

  Lemma find_one_ok mon c : nearest_ok dist nearest -> built m -> stacked ls -> m_layers m <> [] -> ~ (m_scale m == 0)%Q -> monitorable strict m mon -> fresh key m c ->
    exists c' i, find_one key nearest strict m c mon = Ok (c', i) /\ fresh key m c' /\ attached dist key m mon i.
  Proof.
    intros NO B S NE Z ((px & Hx) & (py & Hy) & T & L) F; destruct mon as [[x y] z]; cbn [fst snd] in *; unfold find_one.
    assert (E : exists e t r, ls = (e, t) :: r) by (destruct (m_layers m) as [|y0 ys]; [contradiction|cbn [map]; eauto]).
    destruct E as (e & t & r & E).
    destruct (nearest_layer_at strict ls z e t r S E) as (l & N & LA & Ll); [intros H; exact (T H e t r E)|].
    unfold heights; rewrite N; cbn [bind].
    destruct (Qeq_bool (m_scale m) 0) eqn:Ez; [apply Qeq_bool_iff in Ez; contradiction|].
    rewrite (proj2 (to_int64_whole _ _) Hx), (proj2 (to_int64_whole _ _) Hy); cbn [bind].
    destruct (nth_error (m_layers m) l) as [yl|] eqn:Hl; [|apply nth_error_None in Hl; rewrite map_length in Ll; lia].
    destruct (layer_tree_ok key m B l yl Hl) as (tp & tr & Ht & Et & Hlen & _ & Hin).
    assert (Q := query_fresh key m c l F); destruct (query_tree key m c l) as [[c' tr']| | |]; try congruence; cbn [bind fst snd].
    destruct Q as [F' E']; assert (tr' = tr) by congruence; subst tr'.
    assert (NEt : tr <> []) by (intros ->; specialize (L l yl LA Hl); destruct (y_elems yl); [contradiction|discriminate]).
    specialize (NO tr (px, py)); destruct tr as [|w tr]; [contradiction|]; destruct NO as (v & -> & Iv & M).
    exists c', (snd v); split; [reflexivity|split; [exact F'|]].
    apply Hin in Iv as (i & tid & Hp & ->); cbn [snd fst] in *; exists l, px, py, tp, tid; cbn [fst snd].
    repeat (split; [assumption|]); intros j tid' Hj; apply (M (key tp tid', j)); apply Hin; eauto.
  Qed.

  (** Every monitor gets a prism of the layer its height belongs to, and no other prism of that layer is nearer; the
      answers come in the order of the monitors, whatever the order the layers were indexed in. *)
  Theorem C107_attached_partial : forall schedule mons,
    nearest_ok dist nearest -> built m -> stacked ls -> m_layers m <> [] -> ~ (m_scale m == 0)%Q -> Forall (monitorable strict m) mons ->
    exists is, search_elements key nearest strict m schedule mons = Ok is /\ Forall2 (attached dist key m) mons is.
  Proof.
    intros schedule mons NO B S NE Z H; unfold search_elements.
    destruct (warm_fresh key m B schedule [] (fresh_nil key m)) as (c & -> & F); cbn [bind]; revert c F.
    induction H as [|mon mons Hm H IH]; intros c F; cbn [find_all]; [eauto|].
    destruct (find_one_ok mon c NO B S NE Z Hm F) as (c' & i & -> & F' & A); cbn [bind fst snd].
    destruct (IH c' F') as (is & -> & A'); cbn [bind]; eexists; split; [reflexivity|constructor; assumption].
  Qed.

  (** A monitor at the height of a layer without elements is undefined. *)
  Theorem C107_empty_layer_is_ub : forall schedule x y z mons l yl px py,
    nearest_ok dist nearest -> built m -> nearest_layer strict z ls = Ok l -> nth_error (m_layers m) l = Some yl -> y_elems yl = [] ->
    whole (x / m_scale m) px -> whole (y / m_scale m) py ->
    search_elements key nearest strict m schedule ((x, y, z) :: mons) = UB.
  Proof.
    intros schedule x y z mons l yl px py NO B N Hl E Hx Hy; unfold search_elements.
    destruct (warm_fresh key m B schedule [] (fresh_nil key m)) as (c & -> & F); cbn [bind find_all find_one]; unfold heights; rewrite N; cbn [bind].
    destruct (Qeq_bool (m_scale m) 0); [reflexivity|]; rewrite (proj2 (to_int64_whole _ _) Hx), (proj2 (to_int64_whole _ _) Hy); cbn [bind].
    destruct (layer_tree_ok key m B l yl Hl) as (tp & tr & _ & Et & Hlen & _); rewrite E in Hlen; destruct tr; [|discriminate].
    assert (Q := query_fresh key m c l F); destruct (query_tree key m c l) as [[c' tr']| | |]; try congruence; cbn [bind fst snd].
    destruct Q as [_ E']; assert (tr' = []) by congruence; subst; specialize (NO [] (px, py)); cbn in NO; rewrite NO; reflexivity.
  Qed.

  (** ** C108 – the order of indexing *)
  (** The elements found do not depend on which layers were indexed before, by which thread and in which order. *)
  Theorem C108_schedule : forall s1 s2 mons, built m ->
    search_elements key nearest strict m s1 mons = search_elements key nearest strict m s2 mons.
  Proof.
    intros s1 s2 mons B; unfold search_elements.
    destruct (warm_fresh key m B s1 [] (fresh_nil key m)) as (c1 & -> & F1), (warm_fresh key m B s2 [] (fresh_nil key m)) as (c2 & -> & F2); cbn [bind].
    apply find_all_cache; assumption.
  Qed.
End C107.
Print Assumptions C107_attached_partial.
Print Assumptions C107_empty_layer_is_ub.
Print Assumptions C108_schedule.

(** A stack-up model files bounding boxes: if the point is in the box of some prism of the layer, it is in the box of the
    prism found. *)
Lemma gap_zero lo hi x : gap lo hi x = 0%Z <-> (lo <= x <= hi)%Z.
Proof. unfold gap; lia. Qed.
Lemma box_dist_in p b : (box_dist p b <= 0)%Q <-> in_box p b.
Proof.
  unfold box_dist, in_box; rewrite <- !gap_zero; generalize (gap (fst (fst b)) (fst (snd b)) (fst p)) (gap (snd (fst b)) (snd (snd b)) (snd p)); intros u v.
  change 0%Q with (inject_Z 0); rewrite <- Zle_Qle; split; [intros H; split; nia|intros [-> ->]; lia].
Qed.
Theorem C107_box_contains : forall key m x y z i,
  attached box_dist key m (x, y, z) i -> exists l px py t tid, whole (x / m_scale m) px /\ whole (y / m_scale m) py /\ prism_of m l i t tid /\
    ((exists j tid', prism_of m l j t tid' /\ in_box (px, py) (key t tid')) -> in_box (px, py) (key t tid)).
Proof.
  intros key m x y z i (l & px & py & t & tid & _ & Hx & Hy & Hp & M); exists l, px, py, t, tid; cbn [fst snd] in *; repeat (split; [assumption|]).
  intros (j & tid' & Hj & I); apply box_dist_in; apply box_dist_in in I; eapply Qle_trans; [eapply M; exact Hj|exact I].
Qed.
Print Assumptions C107_box_contains.

(** In a model whose layers do not belong to its index, building the index of a layer may be undefined; then so is making
    the query object, in whatever order the layers are built. *)
Theorem C107_index_is_ub : forall K (key : template -> nat -> K) m l schedule,
  layer_tree key m l = UB -> In l schedule -> warm key m [] schedule = UB.
Proof.
  intros K key m l schedule U; assert (G : forall c, fresh key m c -> In l schedule -> warm key m c schedule = UB).
  2: { apply G, fresh_nil. }
  assert (N : forall l, layer_tree key m l <> OutOfFuel).
  { intros l'; unfold layer_tree, get_template, vat; destruct (alookup _ _ _); cbn [bind]; [|discriminate].
    destruct (nth_error _ _); cbn [bind]; [|discriminate]; destruct (nth_error _ _); cbn [bind]; [|discriminate].
    generalize (seq n (n0 - n)) as is; induction is as [|i is IH]; cbn [entries]; [discriminate|]; unfold entry, vat, vidx.
    destruct (nth_error _ _); cbn [bind]; [|discriminate]; destruct (_ =? _); cbn [bind]; [|discriminate].
    destruct (nth_error _ _); cbn [bind]; [|discriminate]; destruct (nth_error _ _); cbn [bind]; [|discriminate].
    destruct (entries key m t l' is); cbn [bind]; congruence. }
  induction schedule as [|l' s IH]; intros c F I; [destruct I|]; cbn [warm].
  assert (Q := query_fresh key m c l' F); specialize (N l').
  destruct (query_tree key m c l') as [[c' tr]| | |] eqn:E; [|reflexivity| |congruence].
  - destruct I as [->|I]; [destruct Q as [_ Q]; congruence|apply IH; [apply Q|exact I]].
  - destruct I as [->|I]; [congruence|apply IH; assumption].
Qed.
Example C107_index_is_ub_ex : forall t, layer_tree (fun _ n => n)
  {| m_layers := []; m_temps := [(0, t)]; m_scale := 1%Q; m_offs := [0; 1]; m_points := [];
     m_prisms := [{| i_lyr := 0; i_ele := 0; i_vs := []; i_side := []; i_top := None; i_bot := None |}]; m_lines := [] |} 0 = UB.
Proof. reflexivity. Qed.
Print Assumptions C107_index_is_ub.

(** ** C108 – area queries *)
(** The query of a layer returns the prisms of the layer whose key matches, once each. *)
Theorem C108_layer_area : forall (K A : Type) (key : template -> nat -> K) (select : A -> list (K * nat) -> list (K * nat)) matches m l y schedule a,
  select_ok matches select -> built m -> nth_error (m_layers m) l = Some y ->
  exists c c' is t, warm key m [] schedule = Ok c /\ search_layer key select m c l a = Ok (c', is) /\ alookup Nat.eqb l (m_temps m) = Some t /\ NoDup is /\
    forall i, In i is <-> exists tid, prism_of m l i t tid /\ matches a (key t tid) = true.
Proof.
  intros K A key select matches m l y schedule a SO B Hy.
  destruct (warm_fresh key m B schedule [] (fresh_nil key m)) as (c & E & F); exists c; rewrite E.
  destruct (layer_tree_ok key m B l y Hy) as (t & tr & Ht & Et & _ & ND & Hin).
  assert (Q := query_fresh key m c l F); unfold search_layer; destruct (query_tree key m c l) as [[c' tr']| | |]; try congruence; cbn [bind fst snd].
  destruct Q as [_ E']; assert (tr' = tr) by congruence; subst tr'.
  exists c', (map snd (select a tr)), t; repeat (split; [reflexivity|]); split; [exact Ht|]; specialize (SO a tr); split.
  - eapply Permutation_NoDup; [apply Permutation_map, Permutation_sym, SO|].
    clear - ND; induction tr as [|v tr IH]; cbn [map filter]; [constructor|]; inversion ND as [|? ? H1 H2]; subst; specialize (IH H2).
    destruct (matches a (fst v)); [|exact IH]; cbn [map]; constructor; [|exact IH]; intros I; apply H1.
    apply in_map_iff in I as (w & Hw & I); apply filter_In in I as [I _]; apply in_map_iff; eauto.
  - intros i; rewrite in_map_iff; split.
    + intros (v & <- & I); apply (Permutation_in _ SO) in I; apply filter_In in I as [I M]; apply Hin in I as (j & tid & Hp & ->); cbn [fst snd] in *; eauto.
    + intros (tid & Hp & M); exists (key t tid, i); split; [reflexivity|]; apply (Permutation_in _ (Permutation_sym SO)), filter_In; split; [apply Hin; eauto|exact M].
Qed.
Print Assumptions C108_layer_area.

Lemma all_entries_ok {K} (key : template -> nat -> K) m t : forall ps n,
  (forall k p, nth_error ps k = Some p -> exists y e, nth_error (m_layers m) (i_lyr p) = Some y /\ nth_error (y_elems y) (i_ele p) = Some e) ->
  exists tr, all_entries key m t n ps = Ok tr /\ map snd tr = seq n (List.length ps) /\
    forall v, In v tr <-> exists k p y e, nth_error ps k = Some p /\ nth_error (m_layers m) (i_lyr p) = Some y /\ nth_error (y_elems y) (i_ele p) = Some e /\ v = (key t (e_tid e), n + k).
Proof.
  induction ps as [|p ps IH]; intros n H; cbn [all_entries].
  - exists []; split; [reflexivity|split; [reflexivity|]]; intros v; split; [intros []|intros (k & p & y & e & N & _); destruct k; discriminate].
  - destruct (H 0 p eq_refl) as (y & e & Hy & He); unfold vidx, vat; rewrite Hy; cbn [bind]; rewrite He; cbn [bind].
    destruct (IH (Datatypes.S n)) as (tr & -> & M & I); [intros k q Hq; exact (H (Datatypes.S k) q Hq)|]; cbn [bind].
    eexists; split; [reflexivity|split; [cbn [map snd List.length seq]; rewrite M; reflexivity|]].
    intros v; cbn [In]; rewrite I; split.
    + intros [<-|(k & q & y' & e' & N & H1 & H2 & ->)]; [exists 0, p, y, e|exists (Datatypes.S k), q, y', e']; repeat (split; [assumption || reflexivity|]); f_equal; lia.
    + intros ([|k] & q & y' & e' & N & H1 & H2 & ->); cbn [nth_error] in N.
      * left; injection N as <-; rewrite Hy in H1; injection H1 as <-; rewrite He in H2; injection H2 as <-; f_equal; lia.
      * right; exists k, q, y', e'; repeat (split; [assumption|]); f_equal; lia.
Qed.

(** The query of a whole prism model, whose layers share one triangulation: all prisms whose key matches, once each. *)
Theorem C108_model_area_partial : forall (K A : Type) (key : template -> nat -> K) (select : A -> list (K * nat) -> list (K * nat)) matches m t a,
  select_ok matches select -> built m -> alookup Nat.eqb 0 (m_temps m) = Some t ->
  (forall l, l < List.length (m_layers m) -> alookup Nat.eqb l (m_temps m) = Some t) ->
  exists is, search_area key select m a = Ok is /\ NoDup is /\
    forall i, In i is <-> exists l tid, prism_of m l i t tid /\ matches a (key t tid) = true.
Proof.
  intros K A key select matches m t a SO B T0 T; unfold search_area, index_tree, get_template; rewrite T0; cbn [bind].
  assert (P : forall k p, nth_error (m_prisms m) k = Some p -> exists y e, nth_error (m_layers m) (i_lyr p) = Some y /\ nth_error (y_elems y) (i_ele p) = Some e /\ numbered (m_layers m) (i_lyr p) (i_ele p) k).
  { intros k p Hp; destruct B as (_ & P & _).
    assert (N : numbered (m_layers m) (i_lyr p) (i_ele p) k) by (unfold numbered; rewrite <- P, nth_error_map, Hp; reflexivity).
    destruct (proj1 (numbered_iff _ _ _ _) N) as (y & Hy & L & _); destruct (nth_error (y_elems y) (i_ele p)) as [e|] eqn:He; [exists y, e; auto|apply nth_error_None in He; lia]. }
  destruct (all_entries_ok key m t (m_prisms m) 0) as (tr & -> & M & I); [intros k p Hp; destruct (P k p Hp) as (y & e & H1 & H2 & _); eauto|]; cbn [bind].
  assert (I2 : forall v, In v tr <-> exists l i tid, prism_of m l i t tid /\ v = (key t tid, i)).
  { intros v; rewrite I; split.
    - intros (k & p & y & e & N & H1 & H2 & ->); destruct (P k p N) as (y' & e' & H3 & H4 & H5); rewrite H1 in H3; injection H3 as <-; rewrite H2 in H4; injection H4 as <-.
      exists (i_lyr p), k, (e_tid e); split; [|reflexivity]; exists y, (i_ele p), e; repeat (split; [assumption || reflexivity|]); apply T; apply nth_error_Some; congruence.
    - intros (l & i & tid & (y & k & e & H1 & H2 & <- & N & _) & ->); destruct B as (_ & Pm & _).
      assert (Np : nth_error (map (fun p => (i_lyr p, i_ele p)) (m_prisms m)) i = Some (l, k)) by (rewrite Pm; exact N).
      rewrite nth_error_map in Np; destruct (nth_error (m_prisms m) i) as [p|] eqn:Ep; [|discriminate]; injection Np as <- <-; exists i, p, y, e; auto. }
  eexists; split; [reflexivity|]; specialize (SO a tr); split.
  - eapply Permutation_NoDup; [apply Permutation_map, Permutation_sym, SO|].
    assert (ND : NoDup (map snd tr)) by (rewrite M; apply seq_NoDup).
    clear - ND; induction tr as [|v tr IH]; cbn [map filter]; [constructor|]; inversion ND as [|? ? H1 H2]; subst; specialize (IH H2).
    destruct (matches a (fst v)); [|exact IH]; cbn [map]; constructor; [|exact IH]; intros I; apply H1.
    apply in_map_iff in I as (w & Hw & I); apply filter_In in I as [I _]; apply in_map_iff; eauto.
  - intros i; rewrite in_map_iff; split.
    + intros (v & <- & Iv); apply (Permutation_in _ SO) in Iv; apply filter_In in Iv as [Iv Mv]; apply I2 in Iv as (l & j & tid & Hp & ->); cbn [fst snd] in *; eauto.
    + intros (l & tid & Hp & Mv); exists (key t tid, i); split; [reflexivity|]; apply (Permutation_in _ (Permutation_sym SO)), filter_In; split; [apply I2; eauto|exact Mv].
Qed.
Print Assumptions C108_model_area_partial.

(** ** A model for the examples: a thin triangle next to another one *)
Definition thin : template :=
  {| t_pts := [(0, 0); (1000, 0); (1000, 100); (0, 100)]%Z;
     t_tris := [{| t_vs := [0; 1; 3]; t_nb := [None; Some 1; None] |}; {| t_vs := [1; 2; 3]; t_nb := [None; None; Some 0] |}] |}.
Definition other : template :=
  {| t_pts := [(5000, 0); (6000, 0); (6000, 100); (5000, 100)]%Z; t_tris := t_tris thin |}.
Definition el i tid := {| e_id := i; e_tid := tid; e_side := []; e_top := None; e_bot := None |}.
Definition two_layers (t1 : template) : pmodel :=
  let ps := [(0, 0); (0, 1); (1, 0)] in
  {| m_layers := [{| y_elev := 2; y_thick := 1; y_elems := [el 0 0; el 1 1] |}; {| y_elev := 1; y_thick := 1; y_elems := [el 0 0] |}]%Q;
     m_temps := [(0, thin); (1, t1)]; m_scale := 1%Q; m_offs := [0; 2; 3]; m_points := [];
     m_prisms := map (fun p => {| i_lyr := fst p; i_ele := snd p; i_vs := []; i_side := []; i_top := None; i_bot := None |}) ps; m_lines := [] |}.
Definition corner3 (t : template) (tid : nat) : list (Z * Z) :=
  match nth_error (t_tris t) tid with
  | Some tri => map (fun v => nth v (t_pts t) (0, 0)%Z) (t_vs tri) | None => [] end.
Definition centre (t : template) (tid : nat) : Z * Z :=
  let c := corner3 t tid in ((fold_right Z.add 0 (map fst c)) / 3, (fold_right Z.add 0 (map snd c)) / 3)%Z.
Definition bbox (t : template) (tid : nat) : (Z * Z) * (Z * Z) :=
  match corner3 t tid with
  | [] => ((0, 0), (0, 0))%Z
  | p :: ps => fold_left (fun b q => ((Z.min (fst (fst b)) (fst q), Z.min (snd (fst b)) (snd q)), (Z.max (fst (snd b)) (fst q), Z.max (snd (snd b)) (snd q)))%Z) ps (p, p)
  end.
(** the last of the nearest entries *)
Definition pick {K} (dist : Z * Z -> K -> Q) (tr : list (K * nat)) (p : Z * Z) : list (K * nat) :=
  match tr with
  | [] => []
  | v :: r => [fold_left (fun b w => if Qle_bool (dist p (fst w)) (dist p (fst b)) then w else b) r v]
  end.
Lemma pick_ok {K} (dist : Z * Z -> K -> Q) : nearest_ok dist (pick dist).
Proof.
  intros [|v r] p; cbn [pick]; [reflexivity|].
  assert (A : forall (r : list (K * nat)) (v : K * nat), let b := fold_left (fun b w => if Qle_bool (dist p (fst w)) (dist p (fst b)) then w else b) r v in
    In b (v :: r) /\ forall w, In w (v :: r) -> (dist p (fst b) <= dist p (fst w))%Q).
  { clear; induction r as [|u r IH]; intros v; cbn [fold_left].
    - split; [left; reflexivity|intros w [<-|[]]; apply Qle_refl].
    - destruct (Qle_bool (dist p (fst u)) (dist p (fst v))) eqn:E; [apply Qle_bool_iff in E|assert (E' : (dist p (fst v) <= dist p (fst u))%Q) by (apply Qnot_lt_le; intros L; assert (X : (dist p (fst u) <= dist p (fst v))%Q) by lra; apply Qle_bool_iff in X; congruence)].
      + destruct (IH u) as [I M]; split; [destruct I as [<-|I]; [right; left; reflexivity|right; right; exact I]|].
        intros w [<-|[<-|Hw]]; [eapply Qle_trans; [apply M; left; reflexivity|exact E]|apply M; left; reflexivity|apply M; right; exact Hw].
      + destruct (IH v) as [I M]; split; [destruct I as [<-|I]; [left; reflexivity|right; right; exact I]|].
        intros w [<-|[<-|Hw]]; [apply M; left; reflexivity|eapply Qle_trans; [apply M; left; reflexivity|exact E']|apply M; right; exact Hw]. }
  destruct (A r v) as [I M]; eexists; split; [reflexivity|split; assumption].
Qed.
Lemma two_layers_built t1 : built (two_layers t1).
Proof. split; [reflexivity|split; [reflexivity|]]; intros [|[|l]] H; cbn in H; [eexists; reflexivity..|lia]. Qed.
Lemma two_layers_stacked t1 : stacked (map (fun y => (y_elev y, y_thick y)) (m_layers (two_layers t1))).
Proof. cbn; repeat split; reflexivity. Qed.
Lemma two_layers_monitorable strict t1 : monitorable strict (two_layers t1) (900, 5, 3 # 2)%Q.
Proof.
  split; [exists 900%Z|split; [exists 5%Z|split]]; try (vm_compute; repeat split; discriminate).
  - intros _ e t r [= <- _ _]; vm_compute; discriminate.
  - intros [|[|l]] y _ H; cbn in H; [injection H as <-; discriminate|injection H as <-; discriminate|destruct l; discriminate].
Qed.
Example C107_case : Forall (monitorable true (two_layers thin)) [(900, 5, 3 # 2); (900, 5, 3 # 2)]%Q /\
  search_elements centre (pick pt_dist) true (two_layers thin) [1; 0; 1] [(900, 5, 3 # 2); (0, 0, 1 # 2); (0, 0, 5); (0, 0, -1)]%Q = Ok [1; 2; 0; 2].
Proof. split; [do 2 (apply Forall_cons; [apply two_layers_monitorable|]); apply Forall_nil|vm_compute; reflexivity]. Qed.

(** A monitor inside a prism may be attached to another one of the layer: for a prism model the centre of the other is
    nearer, for a stack-up model both boxes contain the point. *)
Theorem C107_containing_prism_refuted : exists m x y z px py t tid j tid',
  built m /\ monitorable true m (x, y, z) /\ whole (x / m_scale m) px /\ whole (y / m_scale m) py /\
  prism_of m 0 0 t tid /\ inside_triangle t tid (px, py) /\ prism_of m 0 j t tid' /\ ~ inside_triangle t tid' (px, py) /\
  (forall schedule nearest, nearest_ok pt_dist nearest -> search_elements centre nearest true m schedule [(x, y, z)] = Ok [j]) /\
  (exists nearest, nearest_ok box_dist nearest /\ forall schedule, search_elements bbox nearest false m schedule [(x, y, z)] = Ok [j]).
Proof.
  exists (two_layers thin), 900%Q, 5%Q, (3 # 2)%Q, 900%Z, 5%Z, thin, 0, 1, 1.
  split; [apply two_layers_built|split; [apply two_layers_monitorable|]].
  split; [split; [reflexivity|vm_compute; split; discriminate || reflexivity]|split; [split; [reflexivity|vm_compute; split; discriminate || reflexivity]|]].
  assert (P0 : prism_of (two_layers thin) 0 0 thin 0) by (eexists _, 0, _; repeat (split; [reflexivity|]); reflexivity).
  assert (P1 : prism_of (two_layers thin) 0 1 thin 1) by (eexists _, 1, _; repeat (split; [reflexivity|]); reflexivity).
  split; [exact P0|split; [eexists _, 0, 1, 3, _, _, _; repeat (split; [reflexivity|]); reflexivity|split; [exact P1|split]]].
  { intros (tri & a & b & c & A & B & C & H1 & H2 & H3 & H4 & H5 & H6 & H7 & H8); injection H1 as <-; injection H2 as <- <- <-; injection H3 as <-; injection H4 as <-; injection H5 as <-; vm_compute in H8; discriminate. }
  split.
  - intros schedule nearest NO.
    destruct (C107_attached_partial centre nearest pt_dist true (two_layers thin) schedule [(900, 5, 3 # 2)%Q] NO) as (is & E & F);
      [apply two_layers_built|apply two_layers_stacked|discriminate|vm_compute; discriminate|apply Forall_cons; [apply two_layers_monitorable|apply Forall_nil]|].
    rewrite E; inversion F as [|? i ? ? A F']; subst; inversion F'; subst; f_equal; f_equal.
    destruct A as (l & px & py & t & tid & LA & [Hx _] & [Hy _] & Hp & M); cbn [fst snd] in *.
    assert (l = 0).
    { destruct LA as [(e & h & N & L1 & L2)|[(-> & _)|(BA & _)]]; [|reflexivity|].
      - destruct l as [|[|l]]; [reflexivity|injection N as <- <-; cbn in *; lra|destruct l; discriminate N].
      - specialize (BA 2%Q 1%Q (or_introl eq_refl)); lra. }
    subst l; vm_compute in Hx, Hy; subst px py.
    assert (Hl : t = thin) by (destruct Hp as (? & ? & ? & _ & _ & _ & _ & T); cbn in T; congruence); subst t.
    specialize (M _ _ P1).
    destruct Hp as (y & k & e & Hy & He & <- & N & _); injection Hy as <-.
    destruct k as [|[|k]]; [exfalso; injection He as <-; vm_compute in M; apply M; reflexivity| |destruct k; discriminate He].
    destruct i as [|[|[|i]]]; try discriminate N; [reflexivity|destruct i; discriminate N].
  - exists (pick box_dist); split; [apply pick_ok|]; intros schedule.
    rewrite (C108_schedule bbox (pick box_dist) false (two_layers thin) schedule [] [(900, 5, 3 # 2)%Q] (two_layers_built thin)); vm_compute; reflexivity.
Qed.
Print Assumptions C107_containing_prism_refuted.

(** On the top surface a prism model looks in the bottom layer, a stack-up model in the top one. *)
Theorem C107_top_surface_refuted : exists m x y z, built m /\ stacked (map (fun y => (y_elev y, y_thick y)) (m_layers m)) /\
  (exists e t r, map (fun y => (y_elev y, y_thick y)) (m_layers m) = (e, t) :: r /\ (z == e)%Q) /\
  (forall schedule, search_elements centre (pick pt_dist) true m schedule [(x, y, z)] = Ok [2]) /\
  (forall schedule, search_elements bbox (pick box_dist) false m schedule [(x, y, z)] = Ok [1]) /\
  i_lyr (nth 2 (m_prisms m) {| i_lyr := 0; i_ele := 0; i_vs := []; i_side := []; i_top := None; i_bot := None |}) = 1.
Proof.
  exists (two_layers thin), 900%Q, 5%Q, 2%Q; split; [apply two_layers_built|split; [apply two_layers_stacked|split; [do 3 eexists; split; reflexivity|]]].
  split; [|split; [|reflexivity]]; intros schedule.
  - rewrite (C108_schedule centre (pick pt_dist) true (two_layers thin) schedule [] _ (two_layers_built thin)); vm_compute; reflexivity.
  - rewrite (C108_schedule bbox (pick box_dist) false (two_layers thin) schedule [] _ (two_layers_built thin)); vm_compute; reflexivity.
Qed.
Print Assumptions C107_top_surface_refuted.

(** If the layers had triangulations of their own, the query of the whole model would still use that of layer 0. *)
Theorem C108_own_triangulation_refuted : exists m (matches : Z -> Z * Z -> bool) (select : Z -> list ((Z * Z) * nat) -> list ((Z * Z) * nat)) a t,
  built m /\ select_ok matches select /\ prism_of m 1 2 t 0 /\ matches a (centre t 0) = true /\ search_area centre select m a = Ok [].
Proof.
  exists (two_layers other), (fun a p => (a <? fst p)%Z), (fun a => filter (fun v => (a <? fst (fst v))%Z)), 5000%Z, other.
  split; [apply two_layers_built|split; [intros a tr; apply Permutation_refl|split; [|split; vm_compute; reflexivity]]].
  eexists _, 0, _; repeat (split; [reflexivity|]); reflexivity.
Qed.
Print Assumptions C108_own_triangulation_refuted.
Example C108_case : search_area centre (fun (a : Z) => filter (fun v => (a <? fst (fst v))%Z)) (two_layers thin) 500%Z = Ok [1] /\
  rmap snd (search_layer centre (fun (a : Z) => filter (fun v => (a <? fst (fst v))%Z)) (two_layers other) [] 1 500%Z) = Ok [2].
Proof. vm_compute; auto. Qed.

(** ** C109 – what a simulation returns for the monitors *)
Section C109.
  Context {G T : Type} (field : tmodel G -> res (option (list Q))) (transient : tmodel G -> list nat -> res (option T)).
  Context (find : bool -> pmodel -> list (Q * Q * Q) -> res (list nat)).

  (** A static run on a prism model: one temperature per monitor, in order, that of the element the monitor is attached
      to, and the least and the greatest temperature of all elements. *)
  Theorem C109_static_prism : forall stackup p mons is rs,
    find stackup p mons = Ok is -> field (MPrism stackup p) = Ok (Some rs) -> rs <> [] -> (forall i, In i is -> i < List.length rs) ->
    exists mn mx ts, layout_static find field true (Some (Ok (Some (MPrism stackup p)))) mons = Ok (Some (mn, mx), ts) /\
      Forall2 (fun i t => nth_error rs i = Some t) is ts /\ In mn rs /\ In mx rs /\ (forall x, In x rs -> mn <= x /\ x <= mx)%Q.
  Proof.
    intros stackup p mons is rs E F N H; unfold layout_static, run_static, probes_of; cbn [bind]; rewrite E, F; cbn [bind].
    destruct (C55_report rs is N H) as (mn & mx & ts & -> & L & V & R); cbn [bind]; exists mn, mx, ts; split; [reflexivity|split; [|exact R]].
    assert (A : forall is ts, List.length ts = List.length is -> (forall i q, nth_error is i = Some q -> nth_error ts i = nth_error rs q) -> (forall i, In i is -> i < List.length rs) -> Forall2 (fun i t => nth_error rs i = Some t) is ts).
    { clear; induction is as [|i is IH]; intros [|t ts] L V H; try discriminate; constructor.
      - rewrite <- (V 0 i eq_refl); reflexivity.
      - apply IH; [cbn in L; lia|intros k q; exact (V (Datatypes.S k) q)|intros j Hj; apply H; right; exact Hj]. }
    apply A; assumption.
  Qed.

  (** A grid model ignores the monitors: the same run without them, and no temperature. *)
  Theorem C109_grid_monitors_refuted : forall g mons rs, field (MGrid g) = Ok (Some rs) -> rs <> [] ->
    exists mn mx, layout_static find field true (Some (Ok (Some (MGrid g)))) mons = Ok (Some (mn, mx), []).
  Proof.
    intros g mons rs F N; unfold layout_static, run_static, probes_of; cbn [bind]; rewrite F; cbn [bind].
    destruct (C55_report rs [] N) as (mn & mx & ts & -> & L & _); [intros p []|]; destruct ts; [|discriminate]; cbn [bind]; eauto.
  Qed.

  (** When there is no valid result: no settings, no model, or no network; temperatures from before are not kept. *)
  Theorem C109_invalid : forall extract mons ts,
    layout_static find field true extract mons = Ok (None, ts) <-> ts = [] /\
      (extract = None \/ extract = Some (Ok None) \/
       exists m, extract = Some (Ok (Some m)) /\ field m = Ok None /\ match m with MPrism s p => exists is, find s p mons = Ok is | MGrid _ => True | MOther => False end).
  Proof.
    intros extract mons ts; split.
    - unfold layout_static; destruct extract as [[[m|]| | |]|]; cbn [bind]; try discriminate; try (intros [= <-]; auto; fail).
      unfold run_static, probes_of; destruct m as [g|s p|]; cbn [bind]; [| |discriminate].
      + destruct (field (MGrid g)) as [[rs|]| | |] eqn:F; cbn [bind static_report]; try discriminate.
        * destruct (min_element rs); cbn [bind]; try discriminate; destruct (max_element rs); cbn [bind probe_at]; try discriminate.
        * intros [= <-]; split; [reflexivity|right; right; exists (MGrid g); auto].
      + destruct (find s p mons) as [is| | |] eqn:E; cbn [bind]; try discriminate.
        destruct (field (MPrism s p)) as [[rs|]| | |] eqn:F; cbn [bind static_report]; try discriminate.
        * destruct (min_element rs); cbn [bind]; try discriminate; destruct (max_element rs); cbn [bind]; try discriminate; destruct (probe_at rs is); cbn [bind]; discriminate.
        * intros [= <-]; split; [reflexivity|right; right; exists (MPrism s p); eauto].
    - intros [-> [->|[->|(m & -> & F & H)]]]; [reflexivity|reflexivity|]; unfold layout_static, run_static, probes_of; destruct m as [g|s p|]; cbn [bind]; [| |destruct H].
      + rewrite F; reflexivity.
      + destruct H as [is ->]; cbn [bind]; rewrite F; reflexivity.
  Qed.

  (** Settings of the wrong kind give the invalid result without solving; no model, a model of another kind or a
      directory that cannot be made stop with an exception. *)
  Theorem C109_refused : forall mkdir m mons,
    (m <> MOther -> run_static find field true (Some m) STransient mons = Ok None /\ run_transient find transient true (Some m) SStatic mons = Ok None) /\
    (forall s, run_static find field mkdir None s mons = Throw /\ run_transient find transient mkdir None s mons = Throw /\
       run_static find field mkdir (Some MOther) s mons = Throw /\ run_transient find transient mkdir (Some MOther) s mons = Throw /\
       run_static find field false (Some m) s mons = Throw /\ run_transient find transient false (Some m) s mons = Throw).
  Proof. intros mkdir m mons; split; [destruct m; [split; reflexivity|split; reflexivity|contradiction]|intros s; destruct mkdir; repeat split; reflexivity]. Qed.

  (** A transient run has no result if there are no settings or no model, or if the simulator returns none. *)
  Theorem C109_transient_invalid : forall extract mons,
    layout_transient find transient true extract mons = Ok None <->
      extract = None \/ extract = Some (Ok None) \/
      exists m is, extract = Some (Ok (Some m)) /\ transient m is = Ok None /\ match m with MPrism s p => find s p mons = Ok is | MGrid _ => is = [] | MOther => False end.
  Proof.
    intros extract mons; split.
    - unfold layout_transient; destruct extract as [[[m|]| | |]|]; cbn [bind]; try discriminate; auto.
      unfold run_transient, probes_of; destruct m as [g|s p|]; cbn [bind]; [| |discriminate].
      + intros H; right; right; exists (MGrid g), []; auto.
      + destruct (find s p mons) as [is| | |] eqn:E; cbn [bind]; try discriminate; intros H; right; right; exists (MPrism s p), is; auto.
    - intros [->|[->|(m & is & -> & H & E)]]; [reflexivity|reflexivity|].
      unfold layout_transient, run_transient, probes_of; cbn [bind]; destruct m as [g|s p|]; cbn [bind]; [subst is; exact H|rewrite E; exact H|contradiction].
  Qed.

  (** A transient run on a prism model records at the elements of the monitors. *)
  Theorem C109_transient_prism : forall stackup p mons is, find stackup p mons = Ok is ->
    layout_transient find transient true (Some (Ok (Some (MPrism stackup p)))) mons = transient (MPrism stackup p) is.
  Proof. intros stackup p mons is E; unfold layout_transient, run_transient, probes_of; cbn [bind]; rewrite E; reflexivity. Qed.
End C109.
Print Assumptions C109_static_prism.
Print Assumptions C109_grid_monitors_refuted.
Print Assumptions C109_invalid.
Print Assumptions C109_refused.
Print Assumptions C109_transient_invalid.
Print Assumptions C109_transient_prism.

(** A transient run on a grid model has no probes whatever the monitors are, so one that returns has recorded nothing
    ([C56_no_probes_is_ub]). *)
Theorem C109_grid_transient_refuted : forall G find size integrate st fuel envT (g : G) mons o,
  let solve m ps := bind (trans_solve size integrate (fun x => x) (fun x => x) Full
    {| step := step st; duration := duration st; min_sampling_interval := min_sampling_interval st; sampling_window := sampling_window st;
       temperature_depend := temperature_depend st; trans_celsius := trans_celsius st; probs := ps |} fuel envT) (fun o => Ok (Some o)) in
  layout_transient find solve true (Some (Ok (Some (MGrid g)))) mons = Ok (Some o) -> o_samples o = [].
Proof.
  intros G find size integrate st fuel envT g mons o solve; unfold layout_transient, run_transient, probes_of, solve; cbn [bind].
  destruct (trans_solve _ _ _ _ _ _ _ _) as [o'| | |] eqn:E; cbn [bind]; try discriminate; intros [= <-].
  eapply C56_no_probes_is_ub in E; [exact E|reflexivity].
Qed.
Print Assumptions C109_grid_transient_refuted.

(** Both together: from the monitors to their temperatures. *)
Theorem C109_monitored : forall G (field : tmodel G -> res (option (list Q))) K (key : template -> nat -> K) nearest dist schedule stackup m mons rs,
  nearest_ok dist nearest -> built m -> stacked (map (fun y => (y_elev y, y_thick y)) (m_layers m)) -> m_layers m <> [] -> ~ (m_scale m == 0)%Q ->
  Forall (monitorable (negb stackup) m) mons ->
  field (MPrism stackup m) = Ok (Some rs) -> List.length (m_prisms m) <= List.length rs -> rs <> [] ->
  exists mn mx ts, layout_static (fun s p => search_elements key nearest (negb s) p schedule) field true (Some (Ok (Some (MPrism stackup m)))) mons = Ok (Some (mn, mx), ts) /\
    Forall2 (fun mon t => exists i, attached dist key m mon i /\ nth_error rs i = Some t /\ (mn <= t <= mx)%Q) mons ts.
Proof.
  intros G field K key nearest dist schedule stackup m mons rs NO B S NE Z H F L N.
  destruct (C107_attached_partial key nearest dist (negb stackup) m schedule mons NO B S NE Z H) as (is & E & A).
  assert (Lt : forall i, In i is -> i < List.length rs).
  { intros i Hi; clear - A Hi B L; induction A as [|mon j mons is Hj A IH]; [destruct Hi|]; destruct Hi as [->|Hi]; [|apply IH; exact Hi].
    destruct Hj as (l & px & py & t & tid & _ & _ & _ & (y & k & e & _ & _ & _ & Nm & _) & _); unfold numbered in Nm.
    destruct B as (_ & P & _); rewrite <- P in Nm; assert (X : i < List.length (map (fun p => (i_lyr p, i_ele p)) (m_prisms m))) by (apply nth_error_Some; congruence).
    rewrite map_length in X; lia. }
  destruct (C109_static_prism field (fun s p => search_elements key nearest (negb s) p schedule) stackup m mons is rs E F N Lt) as (mn & mx & ts & R & V & _ & _ & M).
  exists mn, mx, ts; split; [exact R|].
  clear - A V M; revert ts V; induction A as [|mon i mons is Hi A IH]; intros ts V; inversion V as [|? t ? ts' H1 H2]; subst; constructor; [|apply IH; exact H2].
  exists i; split; [exact Hi|split; [exact H1|apply M; eapply nth_error_In; exact H1]].
Qed.
Print Assumptions C109_monitored.
Example C109_case : layout_static (fun s p => search_elements (if s then fun t i => fst (bbox t i) else centre) (pick pt_dist) (negb s) p [0; 1])
    (fun m : tmodel unit => Ok (match m with MOther => None | _ => Some [30; 20; 40]%Q end)) true (Some (Ok (Some (MPrism false (two_layers thin))))) [(900, 5, 3 # 2); (0, 0, 1 # 2); (1, 1, 3 # 2)]%Q
  = Ok (Some (20, 40), [20; 40; 30])%Q.
Proof. vm_compute; reflexivity. Qed.
