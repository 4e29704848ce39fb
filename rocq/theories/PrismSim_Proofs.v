(** Lemmas about the static simulation of prism models *)
From Verif Require Import Base QSum ThermalNetwork_Model ThermalNetwork_Spec ThermalNetwork_Proofs ThermalNetwork_Props
  Steady_Spec Steady_Proofs Steady_Props Solver_Model Solver_Spec Solver_Proofs GridSim_Model GridSim_Spec GridSim_Proofs.
From Verif Require GridSim_Props.
From Verif Require Import PrismNet_Model WireNet_Model WireNet_Spec WireNet_Proofs WireNet_Props PrismSim_Model PrismSim_Spec.
From Coq Require Import Qabs Lqa.
Open Scope res_scope.
Open Scope Q_scope.

(** ** The loop over any builder *)
Section Loop.
  Context (lin : nat -> (nat -> nat -> Q) -> (nat -> Q) -> nat -> Q) (make : list Q -> res (option network)) (size t : nat) (envT : Q).
  Context (Hlin : solves_exactly lin) (Ht : In t solver_types).
  Context (Hmake : forall y, List.length y = size -> exists net M, make y = Ok (Some net) /\ List.length net = size /\
             make_mna net true [] = Ok M /\ exactly_one net M envT).
  Context (Hwrong : forall y, List.length y <> size -> make y = Ok None).

  Definition steady_of (y z : list Q) : Prop := List.length z = size /\
    exists net M, make y = Ok (Some net) /\ make_mna net true [] = Ok M /\ equilibrium net M envT (fun i => nth i z 0).

  Definition net_step (y : list Q) : res (option (list Q)) :=
    o <- make y ;; match o with None => Ok None | Some net => rmap Some (network_solve lin t envT net) end.
  Definition net_next (y : list Q) : option (list Q) := match net_step y with Ok r => r | _ => None end.

  Lemma net_step_ok y : List.length y = size -> exists z, net_step y = Ok (Some z) /\ steady_of y z.
  Proof.
    intros Hy; destruct (Hmake y Hy) as (net & M & Hb & Ln & HM & Hone).
    destruct (network_solve_spec lin t envT net M Hlin Ht HM Hone) as (xs & Hx & Lx & Ex).
    exists xs; unfold net_step; rewrite Hb; cbn [bind]; rewrite Hx; split; [reflexivity|]; split; [congruence|]; exists net, M; auto.
  Qed.
  Lemma net_next_some y z : net_next y = Some z -> List.length y = size /\ steady_of y z.
  Proof.
    intros H; destruct (Nat.eq_dec (List.length y) size) as [E|E].
    - destruct (net_step_ok y E) as (z' & Hz & Bz); unfold net_next in H; rewrite Hz in H; injection H as <-; auto.
    - unfold net_next, net_step in H; rewrite Hwrong in H by auto; discriminate.
  Qed.

  Lemma net_loop_static st : forall fuel k y, List.length y = size ->
    net_loop lin make t st envT fuel k y = static_loop net_next st fuel k y.
  Proof.
    induction fuel as [|fuel IH]; intros k y Hy; cbn [net_loop static_loop]; [reflexivity|].
    destruct (net_step_ok y Hy) as (z & Hz & Lz & _); unfold net_next at 1; rewrite Hz; unfold net_step in Hz.
    destruct (make y) as [[net|]| | |]; cbn [bind] in *; try discriminate.
    destruct (network_solve lin t envT net) as [x| | |]; cbn [rmap bind] in *; try discriminate; injection Hz as ->.
    destruct (residual_of (maximum_res st) z y) as [r| | |]; cbn [bind]; auto.
    destruct (Qltb (residual st) r); auto; destruct (0 <? dec64 k)%N; auto; rewrite IH by auto; reflexivity.
  Qed.

  Lemma net_chain : forall builds, chained net_next builds ->
    forall i a b, nth_error builds i = Some a -> nth_error builds (Datatypes.S i) = Some b -> steady_of a b.
  Proof.
    induction builds as [|x [|y bs] IH]; intros Hc i a b Ha Hb; cbn [chained] in Hc.
    - destruct i; discriminate.
    - destruct i as [|[|i]]; cbn [nth_error] in *; discriminate.
    - destruct Hc as [Hxy Hc]; destruct i as [|i]; [|exact (IH Hc i a b Ha Hb)].
      cbn [nth_error] in Ha, Hb; injection Ha as <-; injection Hb as <-; apply (net_next_some x y Hxy).
  Qed.

  Lemma loop_spec st fuel y0 : List.length y0 = size -> (1 <= iteration st)%N -> (iteration st <= N.of_nat fuel)%N ->
    exists T builds, net_loop lin make t st envT fuel (iteration st) y0 = Ok (Some T, builds) /\
      (1 <= List.length builds)%nat /\ (N.of_nat (List.length builds) <= iteration st)%N /\ hd_error builds = Some y0 /\
      (forall i a b, nth_error builds i = Some a -> nth_error builds (Datatypes.S i) = Some b -> steady_of a b) /\
      steady_of (last builds []) T /\
      (N.of_nat (List.length builds) = iteration st \/ agree (maximum_res st) (residual st) T (last builds [])).
  Proof.
    intros L0 Hi Hf; rewrite net_loop_static by auto.
    destruct (static_loop_spec net_next st fuel _ y0 Hi Hf) as [H|(o & builds & H & H1 & H2 & H3 & H4)].
    { exfalso; revert H; apply static_loop_total; intros y z Hy; destruct (net_next_some y z Hy) as [E [Lz _]]; congruence. }
    rewrite H; pose proof (net_chain builds H3) as Hch.
    assert (Hlast : List.length (last builds []) = size).
    { destruct builds as [|b bs]; [discriminate|]; injection H1 as ->; clear - Hch L0.
      assert (G : forall bs y, List.length y = size ->
        (forall i a b, nth_error (y :: bs) i = Some a -> nth_error (y :: bs) (Datatypes.S i) = Some b -> steady_of a b) ->
        List.length (last (y :: bs) []) = size); [|apply G; [exact L0|exact Hch]].
      clear; induction bs as [|z bs IH]; intros y Ly Hch; [exact Ly|]; change (last (y :: z :: bs) []) with (last (z :: bs) []).
      apply IH; [destruct (Hch 0%nat y z eq_refl eq_refl) as [L _]; exact L|].
      intros i a b Ha Hb; exact (Hch (Datatypes.S i) a b Ha Hb). }
    destruct o as [T|].
    - destruct H4 as [HT Hend]; destruct (net_next_some _ _ HT) as [_ BT]; exists T, builds; split; [reflexivity|].
      split; [destruct builds; [discriminate|cbn [List.length]; lia]|]; auto 8.
    - exfalso; destruct (net_step_ok _ Hlast) as (z & Hz & _); unfold net_next in H4; rewrite Hz in H4; discriminate.
  Qed.

  (** a builder that ignores the temperatures *)
  Lemma loop_constant st fuel y0 : List.length y0 = size -> (1 <= iteration st)%N -> (iteration st <= N.of_nat fuel)%N -> 0 <= residual st ->
    (forall a b, List.length a = size -> List.length b = size -> make a = make b) ->
    exists T builds, net_loop lin make t st envT fuel (iteration st) y0 = Ok (Some T, builds) /\ (List.length builds <= 2)%nat /\
      (forall prev, List.length prev = size -> steady_of prev T) /\
      (forall prev T', steady_of prev T' -> forall i, (i < size)%nat -> nth i T' 0 == nth i T 0).
  Proof.
    intros L0 Hi Hf Hres Hc.
    assert (Hall : forall y T prev, List.length y = size -> steady_of y T -> List.length prev = size -> steady_of prev T).
    { intros y T prev Ly [LT (net & M & Hb & HM & He)] Lp; split; [exact LT|]; exists net, M; split; [|auto].
      rewrite (Hc prev y Lp Ly); exact Hb. }
    assert (Huni : forall T prev T', steady_of y0 T -> steady_of prev T' -> forall i, (i < size)%nat -> nth i T' 0 == nth i T 0).
    { intros T prev T' [LT (net & M & Hb & HM & He)] [LT' (net' & M' & Hb' & HM' & He')] i Hi'.
      assert (Lp : List.length prev = size).
      { destruct (Nat.eq_dec (List.length prev) size) as [E|E]; [auto|rewrite Hwrong in Hb' by auto; discriminate]. }
      rewrite (Hc prev y0 Lp L0), Hb in Hb'; injection Hb' as <-; rewrite HM in HM'; injection HM' as <-.
      destruct (Hmake y0 L0) as (net2 & M2 & Hb2 & Ln2 & HM2 & (U & _ & HU)).
      rewrite Hb in Hb2; injection Hb2 as <-; rewrite HM in HM2; injection HM2 as <-.
      rewrite (HU _ He' i ltac:(lia)), (HU _ He i ltac:(lia)); reflexivity. }
    assert (G : exists T builds, net_loop lin make t st envT fuel (iteration st) y0 = Ok (Some T, builds) /\
      (List.length builds <= 2)%nat /\ steady_of y0 T).
    { rewrite net_loop_static by auto.
      destruct fuel as [|fuel]; [lia|]; cbn [static_loop].
      destruct (net_step_ok y0 L0) as (z & Hz & Bz); unfold net_next at 1; rewrite Hz.
      pose proof (proj1 Bz) as Lz.
      assert (exists r, residual_of (maximum_res st) z y0 = Ok r) as [r ->] by (unfold residual_of; rewrite Lz, L0, Nat.eqb_refl; eauto).
      cbn [bind]; destruct (Qltb (residual st) r); [|exists z, [y0]; split; [reflexivity|split; [cbn [List.length]; lia|auto]]].
      unfold dec64; destruct (N.eqb_spec (iteration st) 0); [lia|].
      destruct (N.ltb_spec 0 (iteration st - 1)) as [Hk|]; [|exists z, [y0]; split; [reflexivity|split; [cbn [List.length]; lia|auto]]].
      destruct fuel as [|fuel]; [lia|]; cbn [static_loop].
      destruct (net_step_ok z Lz) as (z2 & Hz2 & Bz2); unfold net_next at 1; rewrite Hz2.
      destruct (GridSim_Props.residual_zero (maximum_res st) z2 z) as (r2 & -> & Hr2).
      { rewrite Lz; apply Bz2. }
      { intros i Hi'; rewrite (proj1 Bz2) in Hi'; exact (Huni z z z2 Bz Bz2 i Hi'). }
      cbn [bind]; assert (Qltb (residual st) r2 = false) as -> by (apply Qltb_false; lra).
      cbn [rmap bind fst snd]; exists z2, [y0; z]; split; [reflexivity|]; split; [cbn [List.length]; lia|].
      exact (Hall z z2 y0 Lz Bz2 L0). }
    destruct G as (T & builds & HG & H2 & HT); exists T, builds; split; [exact HG|]; split; [exact H2|].
    split; [intros prev Lp; exact (Hall y0 T prev L0 HT Lp)|intros prev T' B i Hi'; exact (Huni T prev T' HT B i Hi')].
  Qed.
End Loop.

(** ** Laws that do not depend on the temperature *)
Section Constant.
  Context (k : lookups) (m : pmodel) (Hc : constant_laws k).

  Lemma constant_prism T T' i p :
    prism_ops (k_power k T) (k_cap k T) (k_xy k T) (k_z k T) (k_height k) (k_harea k) (k_side k) (k_edge k) (k_dist k) (m_top m) (m_bot m) i p =
    prism_ops (k_power k T') (k_cap k T') (k_xy k T') (k_z k T') (k_height k) (k_harea k) (k_side k) (k_edge k) (k_dist k) (m_top m) (m_bot m) i p.
  Proof.
    destruct Hc as [H _].
    assert (E1 : forall j, k_power k T j = k_power k T' j) by (intros j; destruct (H T T' j) as (? & ? & ? & ?); auto).
    assert (E2 : forall j, k_cap k T j = k_cap k T' j) by (intros j; destruct (H T T' j) as (? & ? & ? & ?); auto).
    assert (E3 : forall j, k_xy k T j = k_xy k T' j) by (intros j; destruct (H T T' j) as (? & ? & ? & ?); auto).
    assert (E4 : forall j, k_z k T j = k_z k T' j) by (intros j; destruct (H T T' j) as (? & ? & ? & ?); auto).
    assert (S : forall nbs ie, side_ops (k_xy k T) (k_side k) (k_edge k) (k_dist k) i ie nbs = side_ops (k_xy k T') (k_side k) (k_edge k) (k_dist k) i ie nbs).
    { induction nbs as [|[n|] nbs IH]; intros ie; cbn [side_ops side_op]; [reflexivity| |rewrite IH; reflexivity].
      rewrite IH, (E3 i), (E3 n); reflexivity. }
    assert (F : forall nb b, face_ops (k_z k T) (k_height k) (k_harea k) i nb b = face_ops (k_z k T') (k_height k) (k_harea k) i nb b).
    { intros [n|] b; unfold face_ops, face_r; [rewrite (E4 i), (E4 n)|]; reflexivity. }
    unfold prism_ops, power_ops; rewrite E1, E2, S, !F; reflexivity.
  Qed.

  Lemma constant_half l t t' : half_r k l t = half_r k l t'.
  Proof. unfold half_r, ave_k; destruct Hc as [_ H]; destruct (H (w_mat l) t t') as (-> & _); reflexivity. Qed.

  Lemma concat_ext {A} (f g : A -> res (list op)) xs : (forall x, In x xs -> f x = g x) -> concat_res f xs = concat_res g xs.
  Proof.
    induction xs as [|x xs IH]; intros H; [reflexivity|].
    change (bind (f x) (fun a => bind (concat_res f xs) (fun b => Ok (a ++ b))) = bind (g x) (fun a => bind (concat_res g xs) (fun b => Ok (a ++ b)))).
    rewrite (H x (or_introl eq_refl)), IH by (intros; apply H; right; auto); reflexivity.
  Qed.

  Lemma constant_line T T' l : List.length T = List.length T' -> line_ops k m T l = line_ops k m T' l.
  Proof.
    intros L; unfold line_ops.
    destruct (nth_error T (w_id l)) as [t|] eqn:E, (nth_error T' (w_id l)) as [t'|] eqn:E'; try reflexivity;
      try (apply nth_error_None in E); try (apply nth_error_None in E');
      try (assert (w_id l < List.length T)%nat by (apply nth_error_Some; congruence); lia);
      try (assert (w_id l < List.length T')%nat by (apply nth_error_Some; congruence); lia).
    destruct Hc as [_ H]; destruct (H (w_mat l) t t') as (_ & -> & -> & Er).
    assert (J : joule k l t = joule k l t') by (unfold joule; rewrite Er; reflexivity); rewrite J.
    rewrite (concat_ext (nb_ops k m l t) (nb_ops k m l t')); [reflexivity|].
    intros j _; unfold nb_ops; rewrite (constant_half l t t'); destruct (j <? prism_count m)%nat; [reflexivity|].
    destruct (w_id l <? j)%nat; [|reflexivity]; destruct (nth_error (m_lines m) (j - prism_count m)); [|reflexivity].
    rewrite (constant_half w t t'); reflexivity.
  Qed.

  Lemma constant_wires minR T T' : List.length T = List.length T' -> wire_build k m minR T = wire_build k m minR T'.
  Proof.
    intros L; unfold wire_build; rewrite L; destruct (_ =? _)%nat; [|reflexivity].
    rewrite (concat_ext (line_ops k m T) (line_ops k m T')) by (intros; apply constant_line; auto).
    replace (prism_calls k m T) with (prism_calls k m T'); [reflexivity|].
    unfold prism_calls; apply flat_map_ext; intros ip; apply constant_prism.
  Qed.
End Constant.
