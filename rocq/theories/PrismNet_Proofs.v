From Verif Require Import Base QSum ThermalNetwork_Model ThermalNetwork_Spec ThermalNetwork_Proofs PrismNet_Model PrismNet_Spec.
From Coq Require Import Lqa.
Open Scope nat_scope.
Open Scope res_scope.

(** ** Partition *)

Lemma seq_blocks bs : forall n a, flat_map (fun i => seq (i * bs) bs) (seq a n) = seq (a * bs) (n * bs).
Proof.
  induction n as [|n IH]; intros a; simpl; [reflexivity|]. rewrite IH. rewrite seq_app. f_equal.
  replace (a * bs + bs) with (Datatypes.S a * bs) by (simpl; lia). reflexivity.
Qed.

Lemma flat_map_map {A B C} (f : A -> B) (g : B -> list C) l : flat_map g (map f l) = flat_map (fun x => g (f x)) l.
Proof. induction l as [|x l IH]; simpl; [reflexivity|]. now rewrite IH. Qed.

Definition range (be : nat * nat) : list nat := seq (fst be) (snd be - fst be).

Lemma tasks_cover size blocks : 0 < blocks -> flat_map range (tasks size blocks) = seq 0 size.
Proof.
  intros Hb. unfold tasks. rewrite flat_map_app.
  assert (HD : blocks * (size / blocks) <= size) by (apply Nat.mul_div_le; lia).
  set (bs := size / blocks) in *.
  assert (E1 : flat_map range (if 0 <? bs then map (fun i => (i * bs, i * bs + bs)) (seq 0 blocks) else []) =
               seq 0 (if 0 <? bs then blocks * bs else 0)).
  { destruct (0 <? bs); [|reflexivity]. rewrite flat_map_map.
    rewrite (flat_map_ext _ (fun i => seq (i * bs) bs)).
    - rewrite seq_blocks. reflexivity.
    - intros i. unfold range. cbn [fst snd]. f_equal. lia. }
  rewrite E1. set (b := if 0 <? bs then blocks * bs else 0).
  assert (b <= size) by (unfold b; destruct (0 <? bs); lia).
  destruct (Nat.eqb_spec b size) as [->|Hne]; [apply app_nil_r|].
  simpl. rewrite app_nil_r. unfold range. cbn [fst snd].
  replace size with (b + (size - b)) at 2 by lia. now rewrite seq_app.
Qed.

(** ** Operations of one node *)

Section Run.
  Context (minR : Q).

  Definition eff (o : op) (n : node) : node :=
    match o with
    | AppendNode _ => n
    | SetScenario _ s => with_scen (Some s) n
    | SetT _ t => with_t t n
    | SetHF _ v => with_hf v n
    | AddHF _ v => with_hf (n_hf n + v)%Q n
    | SetHTC _ v => with_htc v n
    | AddHTC _ v => with_htc (n_htc n + v)%Q n
    | SetC _ v => with_c v n
    | SetR a b r => with_ns (add_neighbor (Nat.max a b) (Qmax r minR) (n_ns n)) n
    end.

  Lemma step_owner o i l : owner o = Some i -> step minR l o = at_node i (eff o) l.
  Proof.
    destruct o; simpl; intros H; try discriminate; injection H as <-; try reflexivity.
    unfold set_r, eff. destruct (Nat.ltb_spec b a).
    - rewrite Nat.min_r, Nat.max_l by lia. reflexivity.
    - rewrite Nat.min_l, Nat.max_r by lia. reflexivity.
  Qed.

  Lemma upd_comm i j f g (l : network) : i <> j -> upd i f (upd j g l) = upd j g (upd i f l).
  Proof.
    revert i j. induction l as [|x l IH]; intros [|i] [|j] H; simpl; auto; try congruence. f_equal. apply IH. lia.
  Qed.

  Lemma at_node_comm i j f g l : i <> j ->
    bind (at_node i f l) (at_node j g) = bind (at_node j g l) (at_node i f).
  Proof.
    intros H. unfold at_node.
    destruct (i <? List.length l) eqn:Ei; destruct (j <? List.length l) eqn:Ej; cbn [bind]; rewrite ?upd_length, ?Ei, ?Ej; auto.
    f_equal. apply upd_comm; congruence.
  Qed.

  Lemma run_app l a b : run minR l (a ++ b) = bind (run minR l a) (fun l' => run minR l' b).
  Proof.
    revert l. induction a as [|o a IH]; intros l; simpl; [reflexivity|].
    destruct (step minR l o); cbn [bind]; auto.
  Qed.

  Definition apart (a b : op) : Prop := exists i j, owner a = Some i /\ owner b = Some j /\ i <> j.

  Lemma step_comm a b l : apart a b ->
    bind (step minR l a) (fun l' => step minR l' b) = bind (step minR l b) (fun l' => step minR l' a).
  Proof.
    intros (i & j & Ha & Hb & N).
    rewrite (step_owner a i l Ha), (step_owner b j l Hb).
    transitivity (bind (at_node i (eff a) l) (at_node j (eff b))).
    { destruct (at_node i (eff a) l); cbn [bind]; auto. now apply step_owner. }
    rewrite at_node_comm by assumption.
    destruct (at_node j (eff b) l); cbn [bind]; auto. symmetry. now apply step_owner.
  Qed.

  Lemma run_move a pre rest : (forall b, In b pre -> apart b a) -> forall l,
    run minR l (pre ++ a :: rest) = run minR l (a :: pre ++ rest).
  Proof.
    induction pre as [|b pre IH]; intros H l; [reflexivity|].
    rewrite <- app_comm_cons. cbn [run].
    transitivity (bind (bind (step minR l b) (fun l' => step minR l' a)) (fun l'' => run minR l'' (pre ++ rest))).
    { destruct (step minR l b) as [l'| | |] eqn:E; cbn [bind]; auto. rewrite IH by (intros; apply H; now right). reflexivity. }
    rewrite step_comm by (apply H; now left).
    destruct (step minR l a); reflexivity.
  Qed.

  (** Tasks any two of which write different nodes. *)
  Definition disjoint_tasks (ts : list (list op)) : Prop :=
    forall pre t post, ts = pre ++ t :: post -> forall a b, In a (List.concat pre) -> In b t -> apart a b.

  Lemma disjoint_tail pre a t post : disjoint_tasks (pre ++ (a :: t) :: post) -> disjoint_tasks (pre ++ t :: post).
  Proof.
    intros H p u q E x y Hx Hy.
    (* position of u relative to t *)
    destruct (Nat.lt_trichotomy (List.length p) (List.length pre)) as [L|[L|L]].
    - assert (exists mid, pre = p ++ u :: mid) as (mid & ->).
      { clear -E L. revert p E L. induction pre as [|z pre IH]; intros p E L; simpl in L; [lia|].
        destruct p as [|w p]; simpl in E; injection E as -> E.
        - now exists pre.
        - destruct (IH p E) as (mid & ->); [simpl in L; lia|]. now exists mid. }
      apply (H p u (mid ++ (a :: t) :: post)); auto. now rewrite <- app_assoc.
    - assert (p = pre /\ u = t /\ q = post) as (-> & -> & ->).
      { clear -E L. revert p E L. induction pre as [|z pre IH]; intros [|w p] E L; simpl in *; try lia.
        - injection E as -> ->; auto.
        - injection E as -> E. destruct (IH p E) as (-> & ?); [lia|]. auto. }
      apply (H pre (a :: t) post); auto. now right.
    - assert (exists mid, p = pre ++ t :: mid /\ post = mid ++ u :: q) as (mid & -> & ->).
      { clear -E L. revert p E L. induction pre as [|z pre IH]; intros [|w p] E L; simpl in *; try lia.
        - injection E as -> ->. eauto.
        - injection E as -> E. destruct (IH p E) as (mid & -> & ?); [lia|]. eauto. }
      apply (H (pre ++ (a :: t) :: mid) u q); [now rewrite <- app_assoc| |assumption].
      rewrite concat_app in *. simpl in *. rewrite in_app_iff in *. simpl. rewrite in_app_iff in *. tauto.
  Qed.

  Lemma concat_nil {A} (ts : list (list A)) : (forall t, In t ts -> t = []) -> List.concat ts = [].
  Proof.
    induction ts as [|t ts IH]; intros H; simpl; [reflexivity|]. rewrite (H t) by now left. apply IH. intros; apply H; now right.
  Qed.

  Lemma interleaving_run ts w : interleaving ts w -> disjoint_tasks ts -> forall l,
    run minR l w = run minR l (List.concat ts).
  Proof.
    induction 1 as [ts H|pre a t post w I IH]; intros D l.
    - now rewrite concat_nil.
    - rewrite concat_app. simpl.
      assert (Mv : forall b, In b (List.concat pre) -> apart b a) by (intros b Hb; apply (D pre (a :: t) post); auto; now left).
      rewrite (run_move a (List.concat pre) (t ++ List.concat post) Mv). cbn [run].
      destruct (step minR l a) as [l'| | |]; cbn [bind]; auto.
      rewrite IH by (eapply disjoint_tail; eassumption). now rewrite concat_app.
  Qed.

  (** Tasks over disjoint index ranges. *)
  Lemma range_tasks_disjoint (ops : nat -> list op) (own : forall i o, In o (ops i) -> owner o = Some i) (bes : list (nat * nat)) :
    NoDup (flat_map range bes) -> disjoint_tasks (map (range_ops ops) bes).
  Proof.
    intros ND pre t post E a b Ha Hb.
    assert (exists p be q, bes = p ++ be :: q /\ pre = map (range_ops ops) p /\ t = range_ops ops be) as (p & be & q & -> & -> & ->).
    { clear -E. revert bes E. induction pre as [|x pre IH]; intros [|be bes] E; simpl in E; try discriminate; injection E as E1 E2.
      - exists [], be, bes. auto.
      - destruct (IH bes E2) as (p & be' & q & -> & -> & ->). exists (be :: p), be', q. simpl. now subst x. }
    apply in_concat in Ha as (u & Hu & Ha). apply in_map_iff in Hu as (be' & <- & Hbe').
    unfold range_ops in Ha, Hb. apply in_flat_map in Ha as (i & Hi & Ha). apply in_flat_map in Hb as (j & Hj & Hb).
    exists i, j. split; [now apply own|]. split; [now apply own|]. intros <-.
    rewrite flat_map_app in ND. simpl in ND.
    assert (X : In i (flat_map range p)) by (apply in_flat_map; exists be'; auto).
    assert (Y : In i (range be ++ flat_map range q)) by (apply in_or_app; now left).
    clear -ND X Y. induction (flat_map range p) as [|z zs IH]; simpl in *; [contradiction|].
    inversion ND as [|? ? NI ND']; subst. destruct X as [->|X]; auto. apply NI, in_or_app. now right.
  Qed.

  Lemma concat_ranges (ops : nat -> list op) bes : List.concat (map (range_ops ops) bes) = flat_map ops (flat_map range bes).
  Proof.
    induction bes as [|be bes IH]; simpl; [reflexivity|]. rewrite flat_map_app, <- IH. reflexivity.
  Qed.

  Theorem parallel_run (ops : nat -> list op) (own : forall i o, In o (ops i) -> owner o = Some i) size blocks w l :
    0 < blocks -> interleaving (map (range_ops ops) (tasks size blocks)) w ->
    run minR l w = run minR l (range_ops ops (0, size)).
  Proof.
    intros Hb I. rewrite (interleaving_run _ _ I).
    - rewrite concat_ranges, tasks_cover by assumption. unfold range_ops. cbn [fst snd]. now rewrite Nat.sub_0_r.
    - apply range_tasks_disjoint; [assumption|]. rewrite tasks_cover by assumption. apply seq_NoDup.
  Qed.

  (** The node after the operations of its prism. *)
  Lemma upd_upd i f g (l : network) : upd i g (upd i f l) = upd i (fun n => g (f n)) l.
  Proof. revert i. induction l as [|x l IH]; intros [|i]; simpl; auto. now rewrite IH. Qed.

  Lemma upd_id i (l : network) : upd i (fun n => n) l = l.
  Proof. revert i. induction l as [|x l IH]; intros [|i]; simpl; auto. now rewrite IH. Qed.

  Lemma upd_ext i f g (l : network) : (forall n, f n = g n) -> upd i f l = upd i g l.
  Proof. intros H. revert i. induction l as [|x l IH]; intros [|i]; simpl; auto; [now rewrite H|now rewrite IH]. Qed.

  Definition effs (os : list op) (n : node) : node := fold_left (fun n o => eff o n) os n.

  Lemma run_owned i os : (forall o, In o os -> owner o = Some i) -> forall l, i < List.length l ->
    run minR l os = Ok (upd i (effs os) l).
  Proof.
    induction os as [|o os IH]; intros H l L; simpl.
    - f_equal. symmetry. apply upd_id.
    - rewrite (step_owner o i l) by (apply H; now left). unfold at_node.
      rewrite (proj2 (Nat.ltb_lt _ _) L). cbn [bind]. rewrite IH; [|intros; apply H; now right|now rewrite upd_length].
      now rewrite upd_upd.
  Qed.

  Definition htc_only (os : list op) : Prop := forall o n, In o os -> n_htc (eff o n) = n_htc n /\ n_hf (eff o n) = n_hf n.

  Lemma effs_app a b n : effs (a ++ b) n = effs b (effs a n).
  Proof. unfold effs. apply fold_left_app. Qed.

  Lemma effs_neutral os n : htc_only os -> n_htc (effs os n) = n_htc n /\ n_hf (effs os n) = n_hf n.
  Proof.
    revert n. induction os as [|o os IH]; intros n H; simpl; [auto|].
    destruct (H o n (or_introl eq_refl)) as (H1 & H2).
    destruct (IH (eff o n)) as (H3 & H4); [intros o' n' Hin; apply H; now right|]. unfold effs in *. simpl. split; congruence.
  Qed.
End Run.

(** ** Operations of the builders *)

Section Owners.
  Context (power : nat -> option (Q * nat)) (cap kxy kz height harea : nat -> Q)
          (side_area dist2edge : nat -> nat -> Q) (dist : nat -> nat -> Q) (topBC botBC : option bc).

  Lemma power_owned i o : In o (power_ops power i) -> owner o = Some i.
  Proof. unfold power_ops. destruct (power i) as [[p s]|]; simpl; [|tauto]. intros [<-|[<-|[]]]; reflexivity. Qed.

  Lemma side_owned i nbs : forall ie o, In o (side_ops kxy side_area dist2edge dist i ie nbs) -> owner o = Some i.
  Proof.
    induction nbs as [|nb nbs IH]; intros ie o; simpl; [tauto|]. rewrite in_app_iff. intros [H|H]; [|eauto].
    unfold side_op in H. destruct nb as [n|]; [|contradiction]. destruct (Nat.ltb_spec i n); [|contradiction].
    destruct H as [<-|[]]. simpl. f_equal. lia.
  Qed.

  Lemma bc_owned i area b o : In o (bc_ops i area b) -> owner o = Some i.
  Proof. destruct b as [[v|v]|]; simpl; try tauto; intros [<-|[]]; reflexivity. Qed.

  Lemma face_owned i nb b o : In o (face_ops kz height harea i nb b) -> owner o = Some i.
  Proof.
    unfold face_ops. destruct nb as [n|]; [|apply bc_owned]. destruct (Nat.ltb_spec i n); simpl; [|tauto].
    intros [<-|[]]. simpl. f_equal. lia.
  Qed.

  Lemma contact_owned i cs o : In o (contact_ops kz height harea i cs) -> owner o = Some i.
  Proof.
    induction cs as [|[n r] cs IH]; simpl; [tauto|]. rewrite in_app_iff. intros [H|H]; [|auto].
    destruct (Nat.ltb_spec n i); [contradiction|]. destruct H as [<-|[]]. simpl. f_equal. lia.
  Qed.

  Lemma covered_owned i cs b o : In o (covered_ops kz height harea i cs b) -> owner o = Some i.
  Proof.
    unfold covered_ops. rewrite in_app_iff. intros [H|H]; [now apply contact_owned in H|].
    destruct (Qltb 0 (uncovered cs)); [now apply bc_owned in H|contradiction].
  Qed.

  Lemma prism_owned i p o : In o (prism_ops power cap kxy kz height harea side_area dist2edge dist topBC botBC i p) -> owner o = Some i.
  Proof.
    unfold prism_ops. rewrite !in_app_iff. intros [H|[[<-|[]]|[H|[H|H]]]].
    - now apply power_owned in H.
    - reflexivity.
    - now apply side_owned in H.
    - now apply face_owned in H.
    - now apply face_owned in H.
  Qed.

  Lemma stack_prism_owned i p os o :
    stack_prism_ops power cap kxy kz height harea side_area dist2edge dist topBC botBC i p = Ok os -> In o os -> owner o = Some i.
  Proof.
    unfold stack_prism_ops. destruct (stack_top_ops kz height harea topBC i p) as [t| | |] eqn:Et; try discriminate. cbn [bind].
    destruct (stack_bot_ops kz height harea botBC i p) as [b| | |] eqn:Eb; try discriminate. cbn [bind].
    intros E; injection E as <-. rewrite in_app_iff. cbn [In]. rewrite !in_app_iff. intros [H|[<-|[H|[H|H]]]].
    - now apply power_owned in H.
    - reflexivity.
    - now apply side_owned in H.
    - unfold stack_top_ops in Et. destruct (p_top p) as [n|]; [destruct (n =? i)|]; try discriminate; injection Et as <-.
      + now apply covered_owned in H.
      + now apply bc_owned in H.
    - unfold stack_bot_ops in Eb. destruct (p_bot p) as [n|]; [destruct (n =? i)|]; try discriminate; injection Eb as <-.
      + now apply covered_owned in H.
      + destruct botBC as [[v|v]|]; simpl in H; try tauto; destruct H as [<-|[]]; reflexivity.
  Qed.

  Context (minR : Q).

  Lemma side_neutral i nbs : forall ie, htc_only minR (side_ops kxy side_area dist2edge dist i ie nbs).
  Proof.
    induction nbs as [|nb nbs IH]; intros ie o n; simpl; [intros []|]. rewrite in_app_iff. intros [H|H]; [|exact (IH _ o n H)].
    unfold side_op in H. destruct nb as [k|]; [|contradiction]. destruct (i <? k); [|contradiction].
    destruct H as [<-|[]]. auto.
  Qed.

  Lemma contact_neutral i cs : htc_only minR (contact_ops kz height harea i cs).
  Proof.
    induction cs as [|[n r] cs IH]; intros o x; simpl; [intros []|]. rewrite in_app_iff. intros [H|H]; [|exact (IH o x H)].
    destruct (n <? i); [contradiction|]. destruct H as [<-|[]]. auto.
  Qed.

  Lemma bc_effs i area b n : effs minR (bc_ops i area b) n =
    match b with None => n | Some (HTC v) => with_htc (v * area)%Q n | Some (HeatFlux v) => with_hf (v * area)%Q n end.
  Proof. destruct b as [[v|v]|]; reflexivity. Qed.

  (** Exchange and heat of a node after the common first part. *)
  Lemma head_effs i nbs : let n := effs minR (power_ops power i ++ [SetC i (cap i)] ++ side_ops kxy side_area dist2edge dist i 0 nbs) node0 in
    n_htc n = 0%Q /\ n_hf n == power_value (power i).
  Proof.
    cbv zeta. rewrite app_assoc, effs_app.
    destruct (effs_neutral minR _ (effs minR (power_ops power i ++ [SetC i (cap i)]) node0) (side_neutral i nbs 0)) as (-> & ->).
    rewrite effs_app. unfold power_ops, power_value. destruct (power i) as [[p s]|]; simpl; split; try reflexivity. ring.
  Qed.

  Lemma face_effs i nb b n :
    n_htc (effs minR (face_ops kz height harea i nb b) n) =
      (if is_htc (exposed nb) b then face_htc (exposed nb) (harea i) b else n_htc n) /\
    n_hf (effs minR (face_ops kz height harea i nb b) n) =
      (if is_flux (exposed nb) b then face_flux (exposed nb) (harea i) b else n_hf n).
  Proof.
    unfold face_ops. destruct nb as [k|]; cbn [exposed is_htc is_flux].
    - destruct (i <? k); simpl; auto.
    - rewrite bc_effs. destruct b as [[v|v]|]; simpl; auto.
  Qed.

  (** Pairs: how often two prisms are coupled. *)
  Lemma couples_side i nbs a b : a < b -> forall ie,
    List.length (filter (couples a b) (side_ops kxy side_area dist2edge dist i ie nbs)) =
    if i =? a then List.length (filter (fun s => match s with Some k => k =? b | None => false end) nbs) else 0.
  Proof.
    intros L. induction nbs as [|nb nbs IH]; intros ie; [simpl; now destruct (i =? a)|].
    cbn [side_ops]. rewrite filter_app, app_length, IH. unfold side_op.
    destruct nb as [n|]; [|simpl; now destruct (i =? a)].
    destruct (Nat.ltb_spec i n); cbn [filter]; unfold couples.
    - destruct (Nat.eqb_spec i a), (Nat.eqb_spec n b), (Nat.eqb_spec i b), (Nat.eqb_spec n a); simpl; subst; try lia.
    - destruct (Nat.eqb_spec i a), (Nat.eqb_spec n b); simpl; subst; try lia.
  Qed.

  Lemma couples_face i nb c a b : a < b ->
    List.length (filter (couples a b) (face_ops kz height harea i nb c)) =
    if i =? a then (match nb with Some k => if k =? b then 1 else 0 | None => 0 end) else 0.
  Proof.
    intros L. unfold face_ops. destruct nb as [n|].
    - destruct (Nat.ltb_spec i n); cbn [filter]; unfold couples.
      + destruct (Nat.eqb_spec i a), (Nat.eqb_spec n b), (Nat.eqb_spec i b), (Nat.eqb_spec n a); simpl; subst; try lia.
      + destruct (Nat.eqb_spec i a), (Nat.eqb_spec n b); simpl; subst; try lia.
    - destruct c as [[v|v]|]; simpl; now destruct (i =? a).
  Qed.

  Lemma couples_prism i p a b : a < b ->
    List.length (filter (couples a b) (prism_ops power cap kxy kz height harea side_area dist2edge dist topBC botBC i p)) =
    if i =? a then names p b else 0.
  Proof.
    intros L. unfold prism_ops. rewrite !filter_app, !app_length, couples_side, !couples_face by assumption.
    assert (E : List.length (filter (couples a b) (power_ops power i)) = 0).
    { unfold power_ops. destruct (power i) as [[? ?]|]; reflexivity. }
    rewrite E. cbn [filter couples List.length Nat.add]. unfold names, slots. rewrite filter_app, app_length.
    destruct (i =? a); [|lia]. cbn [filter].
    destruct (p_top p) as [k|], (p_bot p) as [k'|]; simpl;
      repeat match goal with |- context [if ?c then _ else _] => destruct c end; simpl; lia.
  Qed.
End Owners.

(** ** Contacts *)

Lemma uncovered_sum (cs : list (nat * Q)) : forall acc, fold_left (fun a c => (a - snd c)%Q) cs acc == acc - sumf snd cs.
Proof.
  induction cs as [|c cs IH]; intros acc; cbn [fold_left sumf]; [ring|].
  rewrite IH. ring.
Qed.

(** ** Layers *)

Lemma Qltb_iff a b : Qltb a b = true <-> (a < b)%Q.
Proof.
  unfold Qltb. rewrite negb_true_iff. destruct (Qle_bool b a) eqn:E.
  - apply Qle_bool_iff in E. split; [discriminate|]. intros; lra.
  - split; auto. intros _. apply Qnot_le_lt. intros H. apply Qle_bool_iff in H. congruence.
Qed.

Lemma stacked_below ls : stacked ls -> forall e t r k e' t', ls = (e, t) :: r -> nth_error r k = Some (e', t') ->
  (e' <= e - t)%Q.
Proof.
  induction ls as [|[e0 t0] ls IH]; intros S e t r k e' t' E H; [discriminate|]. injection E as -> -> ->.
  destruct S as (P & S & G). destruct r as [|[e1 t1] r]; [destruct k; discriminate|].
  destruct k as [|k]; simpl in H.
  - injection H as -> ->. rewrite G. lra.
  - assert (X := IH S e1 t1 r k e' t' eq_refl H). destruct S as (P1 & _). lra.
Qed.

Lemma within_some ls : stacked ls -> forall a k h, in_layer_k ls k h -> layer_within a h ls = Some (a + k).
Proof.
  induction ls as [|[e t] ls IH]; intros S a k h (e' & t' & N & L1 & L2); [destruct k; discriminate|].
  cbn [layer_within]. destruct k as [|k].
  - simpl in N. injection N as -> ->. rewrite (proj2 (Qle_bool_iff _ _) L1), (proj2 (Qltb_iff _ _) L2). simpl. f_equal. lia.
  - simpl in N. assert (X := stacked_below _ S e t ls k e' t' eq_refl N).
    destruct (Qle_bool (e - t) h) eqn:E.
    + apply Qle_bool_iff in E. lra.
    + simpl. destruct S as (_ & S & _). rewrite (IH S (Datatypes.S a) k h); [f_equal; lia|].
      exists e', t'. auto.
Qed.

Lemma within_none ls h : (forall k, ~ in_layer_k ls k h) -> forall a, layer_within a h ls = None.
Proof.
  induction ls as [|[e t] ls IH]; intros H a; simpl; [reflexivity|].
  destruct (Qle_bool (e - t) h && Qltb h e) eqn:E.
  - exfalso. apply andb_prop in E as (E1 & E2). apply Qle_bool_iff in E1. apply Qltb_iff in E2.
    apply (H 0). exists e, t. auto.
  - apply IH. intros k (e' & t' & N). apply (H (Datatypes.S k)). exists e', t'. exact N.
Qed.
