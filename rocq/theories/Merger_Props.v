From Verif Require Import Base Merger_Model Merger_Spec.

(** * One removal step *)
Lemma set_at_length {A} (x : A) l : forall i, List.length (set_at i x l) = List.length l.
Proof. induction l; intros [|i]; simpl; auto. Qed.
Lemma set_at_beyond {A} (x : A) l : forall i, (List.length l <= i)%nat -> set_at i x l = l.
Proof. induction l as [|y l IH]; intros [|i] H; simpl in *; auto; try lia; rewrite IH by lia; reflexivity. Qed.
Lemma set_at_app {A} (x y : A) a b : set_at (List.length a) x (a ++ y :: b) = a ++ x :: b.
Proof. induction a; simpl; congruence. Qed.

Lemma pop_set_snoc {A} (l : list A) t i : pop_set (l ++ [t]) i = set_at i t l.
Proof. unfold pop_set; rewrite rev_app_distr; simpl; rewrite rev_involutive; reflexivity. Qed.
Lemma snoc_cases {A} (l : list A) : l = [] \/ exists a t, l = a ++ [t].
Proof. destruct (rev l) as [|t r] eqn:E; [left; rewrite <- (rev_involutive l), E; reflexivity|right; exists (rev r), t; rewrite <- (rev_involutive l), E; reflexivity]. Qed.
Lemma pop_set_length {A} (l : list A) i : List.length (pop_set l i) = (List.length l - 1)%nat.
Proof.
  destruct (snoc_cases l) as [->|(a & t & ->)]; [reflexivity|].
  rewrite pop_set_snoc, set_at_length, app_length; simpl; lia.
Qed.

(** removing the element at [i]: whatever was there is gone, the rest is kept *)
Lemma pop_set_perm {A} (a b : list A) x : Permutation (pop_set (a ++ x :: b) (List.length a)) (a ++ b).
Proof.
  destruct (snoc_cases b) as [->|(b' & t & ->)].
  - rewrite pop_set_snoc, set_at_beyond, app_nil_r by lia; reflexivity.
  - replace (a ++ x :: b' ++ [t]) with ((a ++ x :: b') ++ [t]) by (rewrite <- app_assoc; reflexivity).
    rewrite pop_set_snoc, set_at_app; apply Permutation_app_head; apply Permutation_cons_append.
Qed.

(** * Positions *)
Lemma kept_from_ext {A} (l : list A) : forall i r r', (forall k, (i <= k < i + List.length l)%nat -> (In k r <-> In k r')) -> kept_from i r l = kept_from i r' l.
Proof.
  induction l as [|x l IH]; intros i r r' H; [reflexivity|]; cbn [kept_from].
  rewrite (IH (Datatypes.S i) r r') by (intros k Hk; apply H; simpl; lia).
  replace (existsb (Nat.eqb i) r') with (existsb (Nat.eqb i) r); [reflexivity|].
  apply eq_true_iff_eq; rewrite !existsb_exists; specialize (H i ltac:(simpl; lia)).
  split; intros (k & Hk & E); apply Nat.eqb_eq in E; subst k; exists i; rewrite Nat.eqb_refl; tauto.
Qed.
Lemma kept_from_none {A} (l : list A) i r : (forall k, In k r -> (k < i)%nat \/ (i + List.length l <= k)%nat) -> kept_from i r l = l.
Proof.
  revert i; induction l as [|x l IH]; intros i H; [reflexivity|]; cbn [kept_from].
  rewrite IH by (intros k Hk; specialize (H k Hk); simpl in H; lia).
  replace (existsb (Nat.eqb i) r) with false; [reflexivity|].
  symmetry; apply not_true_iff_false; rewrite existsb_exists; intros (k & Hk & E); apply Nat.eqb_eq in E; subst k; specialize (H i Hk); simpl in H; lia.
Qed.
Lemma kept_from_app {A} (a b : list A) i r : kept_from i r (a ++ b) = kept_from i r a ++ kept_from (i + List.length a) r b.
Proof.
  revert i; induction a as [|x a IH]; intros i; [simpl; rewrite Nat.add_0_r; reflexivity|].
  cbn [app kept_from]; rewrite IH; cbn [List.length]; rewrite <- app_assoc; replace (Datatypes.S i + List.length a)%nat with (i + Datatypes.S (List.length a))%nat by lia; reflexivity.
Qed.

Lemma split_at {A} (l : list A) i : (i < List.length l)%nat -> exists a x b, l = a ++ x :: b /\ List.length a = i.
Proof.
  intros H; destruct (nth_error l i) as [x|] eqn:E; [|apply nth_error_None in E; lia].
  destruct (nth_error_split l i E) as (a & b & -> & Hl); exists a, x, b; auto.
Qed.

(** * Descending order *)
Lemma descending_bound a l : descending (a :: l) -> Forall (fun k => (k < a)%nat) l.
Proof.
  revert a; induction l as [|b l IH]; intros a H; constructor; destruct H as [H1 H2]; auto.
  eapply Forall_impl; [|apply IH; exact H2]; simpl; intros; lia.
Qed.

Lemma remove_descending {A} order : descending order -> forall l : list A, Forall (fun k => (k < List.length l)%nat) order ->
  Permutation (remove_all order l) (kept order l).
Proof.
  unfold remove_all, kept; induction order as [|i order IH]; intros Hd l Hb; cbn [fold_left].
  - rewrite kept_from_none; [reflexivity|intros k []].
  - inversion Hb as [|? ? Hi Hb']; subst; destruct (split_at l i Hi) as (a & x & b & -> & Ha).
    pose proof (descending_bound _ _ Hd) as Hlt; rewrite Forall_forall in Hlt.
    assert (Hd' : descending order) by (destruct order; [exact I|apply Hd]).
    etransitivity.
    + apply IH; [exact Hd'|]; apply Forall_forall; intros k Hk; specialize (Hlt k Hk); rewrite pop_set_length, app_length; cbn [List.length]; lia.
    + (* the popped element lands at i, above every remaining index *)
      assert (Hp : exists c, pop_set (a ++ x :: b) i = a ++ c /\ Permutation c b).
      { subst i; destruct (snoc_cases b) as [->|(b' & t & ->)].
        - exists []; rewrite pop_set_snoc, set_at_beyond, app_nil_r by lia; auto.
        - exists (t :: b'); replace (a ++ x :: b' ++ [t]) with ((a ++ x :: b') ++ [t]) by (rewrite <- app_assoc; reflexivity).
          rewrite pop_set_snoc, set_at_app; split; [reflexivity|apply Permutation_cons_append]. }
      destruct Hp as (c & -> & Hc); rewrite !kept_from_app; cbn [kept_from]; rewrite Nat.add_0_l, Ha.
      replace (existsb (Nat.eqb i) (i :: order)) with true by (cbn; rewrite Nat.eqb_refl; reflexivity); cbn [app].
      rewrite (kept_from_none c) by (intros k Hk; left; specialize (Hlt k Hk); lia).
      rewrite (kept_from_none b) by (intros k [<-|Hk]; [left; lia|left; specialize (Hlt k Hk); lia]).
      rewrite (kept_from_ext a 0 order (i :: order)) by (intros k Hk; cbn [In]; split; [tauto|intros [?|?]; [lia|auto]]).
      apply Permutation_app_head; exact Hc.
Qed.

(** * Any order, when there are at least as many new elements as removed ones *)
Lemma remove_any {A} order : NoDup order -> forall l m : list A, Forall (fun k => (k < List.length l)%nat) order -> (List.length order <= List.length m)%nat ->
  Permutation (remove_all order (l ++ m)) (kept order l ++ m).
Proof.
  unfold remove_all, kept; induction order as [|i order IH]; intros Hn l m Hb Hm; cbn [fold_left].
  - rewrite kept_from_none; [reflexivity|intros k []].
  - inversion Hb as [|? ? Hi Hb']; inversion Hn as [|? ? Hni Hn']; subst.
    destruct (snoc_cases m) as [->|(m' & t & ->)]; [simpl in Hm; lia|].
    destruct (split_at l i Hi) as (a & x & b & -> & Ha).
    rewrite app_assoc, pop_set_snoc, <- app_assoc; cbn [app]; rewrite <- Ha, set_at_app.
    replace (a ++ t :: b ++ m') with ((a ++ t :: b) ++ m') by (rewrite <- app_assoc; reflexivity).
    rewrite IH; auto.
    + rewrite Ha, !kept_from_app; cbn [kept_from]; rewrite Nat.add_0_l, Ha.
      replace (existsb (Nat.eqb i) (i :: order)) with true by (cbn; rewrite Nat.eqb_refl; reflexivity).
      replace (existsb (Nat.eqb i) order) with false.
      2: { symmetry; apply not_true_iff_false; rewrite existsb_exists; intros (k & Hk & E); apply Nat.eqb_eq in E; subst; tauto. }
      rewrite (kept_from_ext a 0 order (i :: order)) by (intros k Hk; cbn [In]; split; [tauto|intros [?|?]; [lia|auto]]).
      rewrite (kept_from_ext b (Datatypes.S i) order (i :: order)) by (intros k Hk; cbn [In]; split; [tauto|intros [?|?]; [lia|auto]]).
      cbn [app]; rewrite <- !app_assoc; apply Permutation_app_head; cbn [app].
      rewrite app_assoc; etransitivity; [apply Permutation_cons_append|]; rewrite <- app_assoc; reflexivity.
    + eapply Forall_impl; [|exact Hb']; simpl; intros k Hk; rewrite !app_length in *; simpl in *; lia.
    + rewrite app_length in Hm; simpl in Hm; lia.
Qed.

Lemma remove_length {A} order : forall l : list A, List.length (remove_all order l) = (List.length l - List.length order)%nat.
Proof.
  unfold remove_all; induction order as [|i order IH]; intros l; cbn [fold_left List.length]; [lia|].
  rewrite IH, pop_set_length; lia.
Qed.

Section Props.
  Context {S : Type} (valid : S -> bool) (merge : list (Z * S) -> list (Z * S)).

  Lemma removed_in (g : merger) ps : forall i k, In k (removed_from valid g i ps) <->
    exists p, (i <= k)%nat /\ nth_error ps (k - i) = Some p /\ prim_fills valid g p = true.
  Proof.
    induction ps as [|p ps IH]; intros i k; cbn [removed_from].
    - split; [intros []|intros (p & _ & H & _); destruct (k - i)%nat; discriminate].
    - rewrite in_app_iff, IH; split.
      + intros [H|(q & H1 & H2 & H3)].
        * destruct (prim_fills valid g p) eqn:E; [|destruct H]; destruct H as [<-|[]].
          exists p; rewrite Nat.sub_diag; auto.
        * exists q; split; [lia|split; [|auto]]; replace (k - i)%nat with (Datatypes.S (k - Datatypes.S i)) by lia; exact H2.
      + intros (q & H1 & H2 & H3); destruct (Nat.eq_dec k i) as [->|Hne].
        * left; rewrite Nat.sub_diag in H2; injection H2 as ->; rewrite H3; now left.
        * right; exists q; split; [lia|split; [|auto]]; replace (k - i)%nat with (Datatypes.S (k - Datatypes.S i)) in H2 by lia; exact H2.
  Qed.
  Lemma removed_nodup (g : merger) ps : forall i, NoDup (removed_from valid g i ps).
  Proof.
    induction ps as [|p ps IH]; intros i; cbn [removed_from]; [constructor|].
    destruct (prim_fills valid g p); [|apply IH]; constructor; [|apply IH].
    intros H; apply removed_in in H as (q & H & _); lia.
  Qed.
  Lemma kept_removed (g : merger) ps : forall i, kept_from i (removed_from valid g i ps) ps = filter (fun p => negb (prim_fills valid g p)) ps.
  Proof.
    induction ps as [|p ps IH]; intros i; [reflexivity|]; cbn [kept_from filter].
    rewrite (kept_from_ext ps (Datatypes.S i) (removed_from valid g i (p :: ps)) (removed_from valid g (Datatypes.S i) ps)), IH.
    - cbn [removed_from]; destruct (prim_fills valid g p); cbn [negb app existsb]; [rewrite Nat.eqb_refl; reflexivity|].
      replace (existsb (Nat.eqb i) (removed_from valid g (Datatypes.S i) ps)) with false; [reflexivity|].
      symmetry; apply not_true_iff_false; rewrite existsb_exists; intros (k & Hk & E); apply Nat.eqb_eq in E; subst k; apply removed_in in Hk as (q & H & _); lia.
    - intros k Hk; cbn [removed_from]; rewrite in_app_iff; split; [|auto]; intros [H|H]; [|auto].
      destruct (prim_fills valid g p); [destruct H as [<-|[]]; lia|destruct H].
  Qed.

  (** ** C41 *)
  (** Visiting the removed indices from high to low leaves exactly the untouched primitives and
      the new polygons.  Missing: the other orders, for which this is false ([_refuted] below)
      unless there are at least as many new polygons as removed primitives. *)
  Theorem C41_descending_order_partial : forall ls s layers order ps pis,
    let g := make_merger ls s in
    Permutation order (removed_from valid g 0 ps) -> descending order ->
    Permutation (merge_layout valid merge ls s layers order ps pis)
      (filter (fun p => negb (prim_fills valid g p)) ps ++ new_prims valid merge g layers ps pis).
  Proof.
    intros ls s layers order ps pis g Hp Hd; unfold merge_layout; fold g.
    assert (Hin : forall k, In k order <-> In k (removed_from valid g 0 ps)) by (intros k; split; apply Permutation_in; [exact Hp|symmetry; exact Hp]).
    assert (Hb : forall k, In k order -> (k < List.length ps)%nat).
    { intros k Hk; apply Hin, removed_in in Hk as (q & _ & H & _); rewrite Nat.sub_0_r in H; apply nth_error_Some; congruence. }
    etransitivity; [apply remove_descending; [exact Hd|apply Forall_forall; intros k Hk; rewrite app_length; specialize (Hb k Hk); lia]|].
    unfold kept; rewrite kept_from_app, Nat.add_0_l.
    rewrite (kept_from_ext ps 0 order (removed_from valid g 0 ps)) by (intros; apply Hin).
    rewrite kept_removed, (kept_from_none (new_prims valid merge g layers ps pis)); [reflexivity|].
    intros k Hk; left; auto.
  Qed.

  Theorem C41_any_order_partial : forall ls s layers order ps pis,
    let g := make_merger ls s in
    Permutation order (removed_from valid g 0 ps) ->
    (List.length order <= List.length (new_prims valid merge g layers ps pis))%nat ->
    Permutation (merge_layout valid merge ls s layers order ps pis)
      (filter (fun p => negb (prim_fills valid g p)) ps ++ new_prims valid merge g layers ps pis).
  Proof.
    intros ls s layers order ps pis g Hp Hl; unfold merge_layout; fold g.
    assert (Hin : forall k, In k order <-> In k (removed_from valid g 0 ps)) by (intros k; split; apply Permutation_in; [exact Hp|symmetry; exact Hp]).
    etransitivity; [apply remove_any; [| |exact Hl]|].
    - eapply Permutation_NoDup; [symmetry; exact Hp|apply removed_nodup].
    - apply Forall_forall; intros k Hk; apply Hin, removed_in in Hk as (q & _ & H & _); rewrite Nat.sub_0_r in H; apply nth_error_Some; congruence.
    - unfold kept; rewrite (kept_from_ext ps 0 order (removed_from valid g 0 ps)) by (intros; apply Hin); rewrite kept_removed; reflexivity.
  Qed.

  (** In every order the number of primitives is right. *)
  Theorem C41_count : forall ls s layers order ps pis,
    let g := make_merger ls s in
    Permutation order (removed_from valid g 0 ps) ->
    List.length (merge_layout valid merge ls s layers order ps pis) =
    (List.length (filter (fun p => negb (prim_fills valid g p)) ps) + List.length (new_prims valid merge g layers ps pis))%nat.
  Proof.
    intros ls s layers order ps pis g Hp; unfold merge_layout; fold g; rewrite remove_length, app_length, (Permutation_length Hp).
    assert (H : (List.length (filter (fun p => negb (prim_fills valid g p)) ps) + List.length (removed_from valid g 0 ps) = List.length ps)%nat).
    { clear; generalize 0%nat; induction ps as [|p ps IH]; intros i; [reflexivity|]; cbn [filter removed_from]; specialize (IH (Datatypes.S i)).
      destruct (prim_fills valid g p); cbn [negb app List.length]; lia. }
    lia.
  Qed.

  (** New primitives carry a stack-up layer and, if the polygon merger invents no nets, a net of a
      merged object of that layer. *)
  Theorem C41_new_primitives : forall g layers ps pis p,
    (forall os net x, In (net, x) (merge os) -> exists y, In (net, y) os) ->
    In p (new_prims valid merge g layers ps pis) ->
    In (p_layer p) layers /\ exists y, In (p_net p, y) (objects valid g (p_layer p) ps pis).
  Proof.
    intros g layers ps pis p Hm H; unfold new_prims in H; apply in_flat_map in H as (l & Hl & H).
    apply in_map_iff in H as ([net x] & <- & H); cbn [p_layer p_net]; split; [exact Hl|eapply Hm; eauto].
  Qed.

  (** what is handed to a layer's merger is on that layer and of a selected net *)
  Theorem C41_objects_selected : forall g layer ps pis net x, In (net, x) (objects valid g layer ps pis) ->
    valid x = true /\ In layer (mg_layers g) /\ (m_nets (mg_set g) = [] \/ In net (m_nets (mg_set g))).
  Proof.
    intros g layer ps pis net x.
    assert (F : forall n l y, fills valid g n l (Some y) = true -> valid y = true /\ In l (mg_layers g) /\ (m_nets (mg_set g) = [] \/ In n (m_nets (mg_set g)))).
    { intros n l y; unfold fills; rewrite !andb_true_iff; intros [[H1 H2] H3]; split; [exact H1|split].
      - unfold mem in H2; apply existsb_exists in H2 as (z & Hz & E); apply Z.eqb_eq in E; subst; exact Hz.
      - destruct (m_nets (mg_set g)); [left; reflexivity|right]; unfold mem in H3; apply existsb_exists in H3 as (z' & Hz & E); apply Z.eqb_eq in E; subst; exact Hz. }
    unfold objects; rewrite in_app_iff; intros [H|H].
    - apply in_flat_map in H as (p & Hp & H); destruct (p_shape p) as [[y|]|] eqn:Es; try destruct H.
      destruct (prim_fills valid g p && (p_layer p =? layer)%Z) eqn:E; [|destruct H]; destruct H as [[= <- <-]|[]].
      apply andb_true_iff in E as [E1 E2]; apply Z.eqb_eq in E2; unfold prim_fills in E1; rewrite Es in E1; apply F in E1; rewrite E2 in E1; exact E1.
    - destruct (m_padstack (mg_set g)); [|destruct H].
      apply in_flat_map in H as (pi & Hpi & H); destruct (pi_data pi); [|destruct H].
      apply in_flat_map in H as ([l sh] & Hs & H); destruct sh as [y|]; [|destruct H].
      destruct (fills valid g (pi_net pi) l (Some y) && (l =? layer)%Z) eqn:E; [|destruct H]; destruct H as [[= <- <-]|[]].
      apply andb_true_iff in E as [E1 E2]; apply Z.eqb_eq in E2; subst l; apply F in E1; exact E1.
  Qed.
End Props.
Print Assumptions C41_descending_order_partial.
Print Assumptions C41_any_order_partial.
Print Assumptions C41_count.
Print Assumptions C41_new_primitives.
Print Assumptions C41_objects_selected.

(** shapes are numbers here; merging makes one polygon of all objects of a net-less layer *)
Definition demo_merge (os : list (Z * Z)) : list (Z * Z) := match os with [] => [] | (n, _) :: _ => [(n, 100%Z)] end.
Definition demo_prims : list (prim Z) := [mkPrim 0 1 (Some (Some 11%Z)); mkPrim 0 1 (Some (Some 12%Z)); mkPrim 0 1 (Some (Some 13%Z)); mkPrim 0 1 None].

(** In the order 1, 0, 2 a merged-away polygon stays and the merged one is lost. *)
Theorem C41_order_refuted : exists (ls : list mlayer) s layers order (ps : list (prim Z)),
  Permutation order (removed_from (fun _ => true) (make_merger ls s) 0 ps) /\
  let out := merge_layout (fun _ => true) demo_merge ls s layers order ps [] in
  (exists p, In p ps /\ prim_fills (fun _ => true) (make_merger ls s) p = true /\ In p out) /\
  (exists p, In p (new_prims (fun _ => true) demo_merge (make_merger ls s) layers ps []) /\ ~ In p out).
Proof.
  exists [mkML 0 Conducting], default_settings, [0%Z], [1; 0; 2]%nat, (firstn 3 demo_prims).
  split; [vm_compute; apply perm_swap|]; cbv zeta; split.
  - exists (mkPrim 0 1 (Some (Some 13%Z))); vm_compute; intuition auto.
  - exists (mkPrim 0 1 (Some (Some 100%Z))); vm_compute; split; [auto|]; intros [H|[]]; discriminate.
Qed.
Print Assumptions C41_order_refuted.

Example C41_descending_ex : descending [2; 1; 0]%nat /\
  Permutation [2; 1; 0]%nat (removed_from (fun _ => true) (make_merger [mkML 0 Conducting] default_settings) 0 demo_prims) /\
  merge_layout (fun _ => true) demo_merge [mkML 0 Conducting] default_settings [0%Z] [2; 1; 0]%nat demo_prims []
    = [mkPrim 0 1 (Some (Some 100%Z)); mkPrim 0 1 None].
Proof. split; [simpl; lia|split; [|vm_compute; reflexivity]]; vm_compute; symmetry; exact (Permutation_rev [0; 1; 2]%nat). Qed.

(** ** C66: dielectric-layer settings *)
(** ** Which shapes are merged *)
(** A primitive is taken from the layout exactly if it is a valid shape on a layer of the layout and its net is
    selected; no selection selects all nets. *)
Theorem C41_which_primitives : forall {S} (valid : S -> bool) ls s p,
  prim_fills valid (make_merger ls s) p = true <->
  exists x, p_shape p = Some (Some x) /\ valid x = true /\ In (p_layer p) (map ml_id ls) /\ (m_nets s = [] \/ In (p_net p) (m_nets s)).
Proof.
  intros S valid ls s p; unfold prim_fills, fills.
  assert (M : forall z l, mem z l = true <-> In z l).
  { intros z l; unfold mem; rewrite existsb_exists; split; [intros (y & H & E); apply Z.eqb_eq in E; subst; auto|intros H; exists z; split; auto; apply Z.eqb_refl]. }
  assert (L : mg_layers (make_merger ls s) = map ml_id ls).
  { unfold make_merger, merged_layers; cbn [mg_layers]; generalize (List.length ls) as n; intros n; generalize 0%nat as i.
    induction ls as [|l ls IH]; intros i; [reflexivity|]; cbn [merged_from default_settings m_dielectric m_skip_ends negb andb orb app map]; rewrite IH; reflexivity. }
  rewrite L; change (mg_set (make_merger ls s)) with s.
  destruct (p_shape p) as [[x|]|]; [|split; [discriminate|intros (x & H & _); discriminate]|split; [discriminate|intros (x & H & _); discriminate]].
  rewrite !andb_true_iff, M; split.
  - intros [[V I] N]; exists x; repeat split; auto; destruct (m_nets s); [auto|right; apply M; auto].
  - intros (y & [= <-] & V & I & N); repeat split; auto; destruct (m_nets s) as [|n ns]; [auto|]; destruct N as [N|N]; [discriminate|apply M; auto].
Qed.
Print Assumptions C41_which_primitives.

(** Every taken primitive is handed to the merger of its layer, under its net. *)
Theorem C41_objects_complete : forall {S} (valid : S -> bool) g ps pis p x,
  In p ps -> p_shape p = Some (Some x) -> prim_fills valid g p = true -> In (p_net p, x) (objects valid g (p_layer p) ps pis).
Proof.
  intros S valid g ps pis p x Hp Hs Hf; unfold objects; apply in_or_app; left.
  apply in_flat_map; exists p; split; [auto|]; rewrite Hs, Hf, Z.eqb_refl; left; reflexivity.
Qed.
Print Assumptions C41_objects_complete.

(** The padstack instances too, if they are asked for: every valid shape of an instance with data. *)
Theorem C41_padstack_objects : forall {S} (valid : S -> bool) ls s ps pis pi l x,
  m_padstack s = true -> In pi pis -> pi_data pi = true -> In (l, Some x) (pi_shapes pi) -> valid x = true ->
  In l (map ml_id ls) -> (m_nets s = [] \/ In (pi_net pi) (m_nets s)) ->
  In (pi_net pi, x) (objects valid (make_merger ls s) l ps pis).
Proof.
  intros S valid ls s ps pis pi l x Hpd Hpi Hd Hs Hv Hl Hn.
  assert (F : prim_fills valid (make_merger ls s) (mkPrim l (pi_net pi) (Some (Some x))) = true).
  { apply C41_which_primitives; exists x; auto. }
  unfold prim_fills in F; cbn [p_shape p_net p_layer] in F.
  unfold objects; apply in_or_app; right; change (m_padstack (mg_set (make_merger ls s))) with (m_padstack s); rewrite Hpd.
  apply in_flat_map; exists pi; split; [auto|]; rewrite Hd; apply in_flat_map; exists (l, Some x); split; [auto|]; rewrite F, Z.eqb_refl; left; reflexivity.
Qed.
Print Assumptions C41_padstack_objects.
Example C41_which_ex : prim_fills (fun _ => true) (make_merger [mkML 0 Conducting; mkML 2 Dielectric] (mkMS true false true [5%Z])) (mkPrim 2 5 (Some (Some 1%Z))) = true /\
  prim_fills (fun _ => true) (make_merger [mkML 0 Conducting; mkML 2 Dielectric] (mkMS true false true [5%Z])) (mkPrim 2 4 (Some (Some 1%Z))) = false.
Proof. split; reflexivity. Qed.

(** The settings that leave dielectric layers out of the merge have no effect: the layers are
    chosen before the settings are set. *)
Theorem C66_dielectric_settings_refuted : exists ls s (ps : list (prim Z)) order,
  m_dielectric s = false /\ (forall l, In l ls -> ml_type l = Dielectric) /\
  Permutation order (removed_from (fun _ => true) (make_merger ls s) 0 ps) /\
  ~ Permutation (merge_layout (fun _ => true) demo_merge ls s [0%Z] order ps []) ps.
Proof.
  exists [mkML 0 Dielectric], (mkMS true false true []), (firstn 2 demo_prims), [1; 0]%nat.
  split; [reflexivity|split; [intros l [<-|[]]; reflexivity|split; [vm_compute; apply perm_swap|]]].
  intros H; apply Permutation_length in H; vm_compute in H; discriminate.
Qed.
Print Assumptions C66_dielectric_settings_refuted.

Theorem C66_layers_ignore_settings : forall ls s, mg_layers (make_merger ls s) = map ml_id ls.
Proof.
  intros ls s; unfold make_merger, merged_layers; cbn [mg_layers]; generalize (List.length ls) as n; intros n; generalize 0%nat as i.
  induction ls as [|l ls IH]; intros i; [reflexivity|]; cbn [merged_from default_settings m_dielectric m_skip_ends negb andb orb app map]; rewrite IH; reflexivity.
Qed.
Print Assumptions C66_layers_ignore_settings.

(** What the choice of layers would do with given settings: dielectric layers are left out if they are not wanted,
    the first and the last layer if they are dielectric and outer ones are to be skipped; all others stay. *)
Theorem C66_layer_choice : forall s ls z, In z (merged_layers s ls) <->
  exists i l, nth_error ls i = Some l /\ ml_id l = z /\
    ~ (ml_type l = Dielectric /\ (m_dielectric s = false \/ (m_skip_ends s = true /\ (i = 0 \/ i = List.length ls - 1)%nat))).
Proof.
  intros s ls z; unfold merged_layers.
  assert (G : forall k, In z (merged_from s (List.length ls) k (skipn k ls)) <-> exists i l, (k <= i)%nat /\ nth_error ls i = Some l /\ ml_id l = z /\
    ~ (ml_type l = Dielectric /\ (m_dielectric s = false \/ (m_skip_ends s = true /\ (i = 0 \/ i = List.length ls - 1)%nat)))).
  { assert (H : forall r k, skipn k ls = r -> In z (merged_from s (List.length ls) k r) <-> exists i l, (k <= i)%nat /\ nth_error ls i = Some l /\ ml_id l = z /\
      ~ (ml_type l = Dielectric /\ (m_dielectric s = false \/ (m_skip_ends s = true /\ (i = 0 \/ i = List.length ls - 1)%nat)))).
    { induction r as [|l r IH]; intros k E.
      - split; [intros []|]; intros (i & l & Hk & Hn & _); exfalso.
        assert (i < List.length ls)%nat by (apply nth_error_Some; congruence).
        apply (f_equal (@List.length _)) in E; rewrite skipn_length in E; cbn [List.length] in E; lia.
      - assert (Hk : nth_error ls k = Some l).
        { rewrite <- (firstn_skipn k ls), E, nth_error_app2; rewrite firstn_length.
          - assert (k < List.length ls)%nat as Hl by (apply (f_equal (@List.length _)) in E; rewrite skipn_length in E; cbn [List.length] in E; lia).
            replace (k - Nat.min k (List.length ls))%nat with 0%nat by lia; reflexivity.
          - lia. }
        assert (Es : skipn (Datatypes.S k) ls = r).
        { clear - E; revert k E; induction ls as [|a ls IH]; intros k E; [destruct k; discriminate|].
          destruct k as [|k]; cbn [skipn] in *; [injection E as _ E; exact E|destruct ls as [|b ls]; [destruct k; discriminate|apply IH; exact E]]. }
        specialize (IH (Datatypes.S k) Es).
        cbn [merged_from]; cbv zeta; rewrite in_app_iff, IH.
        set (skip := (negb (m_dielectric s) && is_diel l || m_skip_ends s && is_diel l && ((k =? 0)%nat || (k =? List.length ls - 1)%nat))%bool).
        assert (Sk : skip = true <-> (ml_type l = Dielectric /\ (m_dielectric s = false \/ (m_skip_ends s = true /\ (k = 0 \/ k = List.length ls - 1)%nat)))).
        { unfold skip, is_diel; rewrite orb_true_iff, !andb_true_iff, negb_true_iff, orb_true_iff, !Nat.eqb_eq.
          destruct (ml_type l); split; [intros [[_ H]|[[_ H] _]]; discriminate|intros [H _]; discriminate| |]; intuition auto. }
        split.
        + intros [H|(i & l' & H1 & H2)]; [|exists i, l'; split; [lia|auto]].
          destruct skip; [destruct H|]; destruct H as [H|[]]; exists k, l; repeat split; auto; intros N; apply Sk in N; discriminate.
        + intros (i & l' & H1 & H2 & H3 & H4); destruct (Nat.eq_dec i k) as [->|Ne]; [left|right; exists i, l'; split; [lia|auto]].
          rewrite Hk in H2; injection H2 as <-; destruct skip; [exfalso; apply H4, Sk; reflexivity|left; exact H3]. }
    intros k; apply H; reflexivity. }
  specialize (G 0%nat); cbn [skipn] in G; rewrite G; split; intros (i & l & H); exists i, l; [tauto|split; [lia|exact H]].
Qed.
Print Assumptions C66_layer_choice.
Example C66_layer_choice_ex : merged_layers (mkMS true true true []) [mkML 4 Dielectric; mkML 5 Dielectric; mkML 6 Dielectric; mkML 7 Conducting] = [5; 6; 7]%Z.
Proof. reflexivity. Qed.
