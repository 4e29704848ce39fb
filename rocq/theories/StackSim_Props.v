(** C177, C178: the static simulation of stack-up prism models, its results and its files. *)
From Verif Require Import Base QSum ThermalNetwork_Model ThermalNetwork_Spec ThermalNetwork_Props
  Steady_Spec Steady_Props Solver_Model Solver_Spec Solver_Proofs Solver_Props GridSim_Model GridSim_Spec GridSim_Proofs.
From Verif Require GridSim_Props.
From Verif Require Import PrismNet_Model WireNet_Model WireNet_Spec WireNet_Proofs WireNet_Props PrismSim_Model PrismSim_Spec PrismSim_Proofs.
From Verif Require PrismSim_Props.
From Verif Require Import StackNet_Model StackNet_Spec StackNet_Props StackSim_Model StackSim_Spec.
From Coq Require Import Lqa.
Open Scope res_scope.
Open Scope Q_scope.

Lemma stack_total k local barea m minR envT : 0 < minR -> stack_coolable k m -> forall y, List.length y = elements m ->
  exists net M, stack_build k local barea m minR y = Ok (Some net) /\ List.length net = elements m /\ make_mna net true [] = Ok M /\ exactly_one net M envT.
Proof. intros HminR (H1 & H2 & H3) y Hy; exact (C176_exactly_one k local barea m minR y envT true HminR H1 H2 H3 Hy). Qed.
Lemma stack_wrong k local barea m minR y : List.length y <> elements m -> stack_build k local barea m minR y = Ok None.
Proof. intros H; unfold stack_build; change (element_count m) with (elements m); rewrite (proj2 (Nat.eqb_neq _ _) H); reflexivity. Qed.

(** laws that do not depend on the temperature *)
Lemma constant_stack k local barea m minR T T' : constant_laws k -> List.length T = List.length T' ->
  stack_build k local barea m minR T = stack_build k local barea m minR T'.
Proof.
  intros Hc L; unfold stack_build; rewrite L; destruct (_ =? _)%nat; [|reflexivity].
  rewrite (concat_ext (line_ops k (line_view m) T) (line_ops k (line_view m) T')) by (intros; apply constant_line; auto).
  replace (stack_calls k m T) with (stack_calls k m T'); [reflexivity|].
  unfold stack_calls; apply concat_ext; intros [i p] _; cbn [fst snd].
  destruct Hc as [H _].
  assert (E1 : forall j, k_power k T j = k_power k T' j) by (intros j; destruct (H T T' j) as (? & ? & ? & ?); auto).
  assert (E2 : forall j, k_cap k T j = k_cap k T' j) by (intros j; destruct (H T T' j) as (? & ? & ? & ?); auto).
  assert (E3 : forall j, k_xy k T j = k_xy k T' j) by (intros j; destruct (H T T' j) as (? & ? & ? & ?); auto).
  assert (E4 : forall j, k_z k T j = k_z k T' j) by (intros j; destruct (H T T' j) as (? & ? & ? & ?); auto).
  assert (S : forall nbs ie, side_ops (k_xy k T) (k_side k) (k_edge k) (k_dist k) i ie nbs = side_ops (k_xy k T') (k_side k) (k_edge k) (k_dist k) i ie nbs).
  { induction nbs as [|[n|] nbs IH]; intros ie; cbn [side_ops side_op]; [reflexivity| |rewrite IH; reflexivity].
    rewrite IH, (E3 i), (E3 n); reflexivity. }
  assert (C : forall cs b, covered_ops (k_z k T) (k_height k) (k_harea k) i cs b = covered_ops (k_z k T') (k_height k) (k_harea k) i cs b).
  { intros cs b; unfold covered_ops; f_equal; induction cs as [|[n s] cs IH]; cbn [contact_ops]; [reflexivity|].
    unfold face_r; rewrite IH, (E4 i), (E4 n); reflexivity. }
  unfold stack_prism_ops, stack_top_ops, stack_bot_ops, power_ops; rewrite E1, E2, S, !C; reflexivity.
Qed.

Section Static.
  Context (lin : nat -> (nat -> nat -> Q) -> (nat -> Q) -> nat -> Q) (Hlin : solves_exactly lin).
  Context (local : nat -> nat) (barea : wblock -> Q).

  (** ** C177: the simulation of a stack-up model every element of which is in contact with a prism cooled where nothing covers it
      ends within the allowed number of networks; the networks are built for the ambient temperature and then for the
      temperatures of the one before, the temperatures returned are the steady state of the last network, and unless the count
      is used up they agree with the temperatures it was built for. *)
  Theorem C177_self_consistent minR k m t st envT fuel : 0 < minR -> stack_coolable k m -> In t [0; 1; 2; 3; 10]%nat ->
    (1 <= iteration st)%N -> (iteration st <= N.of_nat fuel)%N ->
    exists T builds, stack_solve lin k local barea m minR t st envT fuel = Ok (Some (map (reported (in_celsius st)) T), builds) /\
      (1 <= List.length builds)%nat /\ (N.of_nat (List.length builds) <= iteration st)%N /\
      hd_error builds = Some (repeat envT (elements m)) /\
      (forall i a b, nth_error builds i = Some a -> nth_error builds (Datatypes.S i) = Some b -> stack_balanced minR k local barea m envT a b) /\
      stack_balanced minR k local barea m envT (last builds []) T /\
      (N.of_nat (List.length builds) = iteration st \/ agree (maximum_res st) (residual st) T (last builds [])).
  Proof.
    intros HminR Hm Ht Hi Hf.
    destruct (loop_spec lin (stack_build k local barea m minR) (elements m) t envT Hlin Ht (stack_total k local barea m minR envT HminR Hm) (stack_wrong k local barea m minR)
                st fuel (repeat envT (elements m)) (repeat_length _ _) Hi Hf) as (T & builds & HG & H1 & H2 & H3 & H4 & H5 & H6).
    exists T, builds; unfold stack_solve; change (element_count m) with (elements m); rewrite HG; split; [reflexivity|]; auto 8.
  Qed.

  (** When neither powers nor materials depend on the temperature at most two networks are built, and the result is the one
      steady state of the model. *)
  Theorem C177_constant_laws minR k m t st envT fuel : 0 < minR -> stack_coolable k m -> constant_laws k ->
    In t [0; 1; 2; 3; 10]%nat -> (1 <= iteration st)%N -> (iteration st <= N.of_nat fuel)%N -> 0 <= residual st ->
    exists T builds, stack_solve lin k local barea m minR t st envT fuel = Ok (Some (map (reported (in_celsius st)) T), builds) /\
      (List.length builds <= 2)%nat /\
      (forall prev, List.length prev = elements m -> stack_balanced minR k local barea m envT prev T) /\
      (forall prev T', stack_balanced minR k local barea m envT prev T' -> forall i, (i < elements m)%nat -> nth i T' 0 == nth i T 0).
  Proof.
    intros HminR Hm Hc Ht Hi Hf Hr.
    destruct (loop_constant lin (stack_build k local barea m minR) (elements m) t envT Hlin Ht (stack_total k local barea m minR envT HminR Hm) (stack_wrong k local barea m minR)
                st fuel (repeat envT (elements m)) (repeat_length _ _) Hi Hf Hr) as (T & builds & HG & H1 & H2 & H3).
    { intros a b La Lb; apply constant_stack; [auto|congruence]. }
    exists T, builds; unfold stack_solve; change (element_count m) with (elements m); rewrite HG; split; [reflexivity|]; auto.
  Qed.

  (** The heat that leaves at the temperatures returned is the heat produced at the temperatures of the last network. *)
  Theorem C177_heat_out minR k m t st envT fuel : 0 < minR -> stack_coolable k m -> physical k m -> stack_no_flux m -> In t [0; 1; 2; 3; 10]%nat ->
    (1 <= iteration st)%N -> (iteration st <= N.of_nat fuel)%N ->
    exists T builds net, stack_solve lin k local barea m minR t st envT fuel = Ok (Some (map (reported (in_celsius st)) T), builds) /\
      stack_build k local barea m minR (last builds []) = Ok (Some net) /\
      sumf (fun i => get_htc net i * (nth i T 0 - envT)) (seq 0 (elements m)) == heat_in k m (last builds []).
  Proof.
    intros HminR Hm Hp Hn Ht Hi Hf.
    destruct (C177_self_consistent minR k m t st envT fuel HminR Hm Ht Hi Hf) as (T & builds & HG & _ & _ & _ & _ & [LT (net & M & Hb & HM & He)] & _).
    exists T, builds, net; split; [exact HG|]; split; [exact Hb|].
    assert (Lb : List.length (last builds []) = elements m).
    { destruct (Nat.eq_dec (List.length (last builds [])) (elements m)) as [E|E]; [auto|rewrite stack_wrong in Hb by auto; discriminate]. }
    exact (C176_heat_balance k local barea m minR (last builds []) envT true net M (fun i => nth i T 0) (proj1 Hm) Hp Hn Lb Hb HM He).
  Qed.

  (** A prism whose face is marked with the number of another prism stops the simulation. *)
  Theorem C177_foreign_marker_throws minR k m t st envT fuel i p n : nth_error (m_prisms m) i = Some p -> p_top p = Some n -> n <> i ->
    (forall j q, (j < i)%nat -> nth_error (m_prisms m) j = Some q -> (p_top q = None \/ p_top q = Some j) /\ (p_bot q = None \/ p_bot q = Some j)) ->
    (0 < fuel)%nat -> stack_solve lin k local barea m minR t st envT fuel = Throw.
  Proof.
    intros Hp Hn Hne Hbefore Hf; destruct fuel as [|fuel]; [lia|]; unfold stack_solve; cbn [net_loop].
    assert (E : stack_build k local barea m minR (repeat envT (element_count m)) = Throw); [|rewrite E; reflexivity].
    unfold stack_build; rewrite repeat_length, Nat.eqb_refl.
    assert (G : stack_calls k m (repeat envT (element_count m)) = Throw); [|rewrite G; reflexivity].
    unfold stack_calls, prism_count; generalize (repeat envT (element_count m)); intros T.
    assert (A : forall ps a r, (forall j q, (j < r)%nat -> nth_error ps j = Some q -> (p_top q = None \/ p_top q = Some (a + j)%nat) /\ (p_bot q = None \/ p_bot q = Some (a + j)%nat)) ->
      nth_error ps r = Some p -> n <> (a + r)%nat ->
      concat_res (fun ip => stack_prism_ops (k_power k T) (k_cap k T) (k_xy k T) (k_z k T) (k_height k) (k_harea k)
         (k_side k) (k_edge k) (k_dist k) (m_top m) (m_bot m) (fst ip) (snd ip)) (combine (seq a (List.length ps)) ps) = Throw).
    { clear - Hn; induction ps as [|x ps IH]; intros a r Hb Hr Hne; [destruct r; discriminate|].
      cbn [List.length seq combine].
      match goal with |- concat_res ?f (?y :: ?ys) = _ => change (bind (f y) (fun u => bind (concat_res f ys) (fun v => Ok (u ++ v))) = Throw) end; cbn [fst snd].
      destruct r as [|r].
      - cbn [nth_error] in Hr; injection Hr as ->; unfold stack_prism_ops, stack_top_ops; rewrite Hn.
        destruct (Nat.eqb_spec n a); [lia|reflexivity].
      - rewrite (IH (Datatypes.S a) r); [|intros j q Hj Hq; specialize (Hb (Datatypes.S j) q ltac:(lia) Hq); replace (Datatypes.S a + j)%nat with (a + Datatypes.S j)%nat by lia; exact Hb|exact Hr|lia].
        destruct (Hb 0%nat x ltac:(lia) eq_refl) as [Ht Hbo]; replace (a + 0)%nat with a in * by lia.
        unfold stack_prism_ops, stack_top_ops, stack_bot_ops; destruct Ht as [-> | ->], Hbo as [-> | ->]; rewrite ?Nat.eqb_refl; reflexivity. }
    apply (A (m_prisms m) 0%nat i); auto.
  Qed.

  (** ** C178: the two numbers returned are the lowest and the highest temperature, every monitor gets the temperature of its
      element, and the files are those asked for. *)
  Theorem C178_results_and_files minR k m q probs fuel T builds : (0 < elements m)%nat ->
    stack_solve lin k local barea m minR (r_solver q) (r_static q) (r_env q) fuel = Ok (Some T, builds) -> List.length T = elements m ->
    (forall p, In p probs -> (p < elements m)%nat) ->
    exists mn mx, coldest mn T /\ hottest mx T /\
      stack_static lin k local barea m minR q probs fuel =
        Ok (Some (mn, mx, map (fun p => nth p T 0) probs),
            (if (r_dump_results q && negb (String.eqb (r_work_dir q) ""))%bool
             then [((r_work_dir q ++ "/static.txt")%string, PText (map (fun p => nth p T 0) probs))] else []) ++
            (if r_dump_hotmaps q then [((r_work_dir q ++ "/hotmap.vtk")%string, PMesh T)] else [])).
  Proof.
    intros Hn Hs LT Hp; unfold stack_static; rewrite Hs; cbn [bind fst].
    assert (Hne : T <> []) by (intros ->; cbn [List.length] in LT; lia).
    destruct (C55_report T probs Hne) as (mn & mx & ts & Hr & Lts & Hts & I1 & I2 & I3); [intros p H; rewrite LT; auto|].
    assert (Ets : ts = map (fun p => nth p T 0) probs).
    { clear - Hts Lts Hp LT; apply GridSim_Props.same_elements; intros i; destruct (nth_error probs i) as [p|] eqn:E.
      - rewrite (Hts i p E), (map_nth_error _ _ _ E); apply nth_error_nth'; rewrite LT; apply Hp; eapply nth_error_In; eauto.
      - apply nth_error_None in E; transitivity (@None Q); [apply nth_error_None; lia|symmetry; apply nth_error_None; rewrite map_length; lia]. }
    assert (Hpr : probe_at T probs = Ok ts).
    { unfold static_report in Hr; destruct (min_element T), (max_element T); cbn [bind] in Hr; try discriminate.
      destruct (probe_at T probs); cbn [bind] in Hr; congruence. }
    assert (Htxt : values_file q T probs = Ok (if (r_dump_results q && negb (String.eqb (r_work_dir q) ""))%bool
             then [((r_work_dir q ++ "/static.txt")%string, PText ts)] else [])).
    { unfold values_file; destruct (_ && _)%bool; [rewrite Hpr|]; reflexivity. }
    exists mn, mx; rewrite Htxt, Hr; cbn [bind]; rewrite <- Ets.
    split; [split; [exact I1|intros t Ht; apply I3; auto]|]; split; [split; [exact I2|intros t Ht; apply I3; auto]|]; reflexivity.
  Qed.
End Static.
Print Assumptions C177_self_consistent.
Print Assumptions C177_constant_laws.
Print Assumptions C177_heat_out.
Print Assumptions C177_foreign_marker_throws.
Print Assumptions C178_results_and_files.

(** ** Cases: the chip on its base, with constant materials *)
Example chip_coolable : stack_coolable PrismSim_Props.plain_look chip_on_base /\ physical PrismSim_Props.plain_look chip_on_base /\ stack_no_flux chip_on_base.
Proof.
  split; [split; [exact chip_well|split; [|exact chip_drains]]|split; [|intros v; split; discriminate]].
  - split; [intros; cbn; lra|apply chip_exchange].
  - intros l [<-|[]]; cbn [w_len w_area w_mat]; split; [lra|split; [lra|intros t; split; [cbn; lra|reflexivity]]].
Qed.
(** 6 W leave through the lower face of the base, which is 0.6 above the ambient; a sixth of the heat of the wire takes the way over
    the chip *)
Example C177_example : match stack_solve eliminate PrismSim_Props.plain_look (fun i => i) (fun _ => 1) chip_on_base (1#1000) 10 PrismSim_Props.bonded_settings 300 10 with
  | Ok (Some T, builds) => List.length builds = 2%nat /\ map Qred T = map Qred [300 + (6#10) + (1#6); 300 + (6#10); 300 + (6#10) + (5#24)]
  | _ => False end.
Proof. vm_compute; repeat split. Qed.
Example C178_example : match stack_static eliminate PrismSim_Props.plain_look (fun i => i) (fun _ => 1) chip_on_base (1#1000)
    (mkRequest "/tmp" true true 10 PrismSim_Props.bonded_settings 300) [1]%nat 10 with
  | Ok (Some (mn, mx, ts), [(f1, PText vs); (f2, PMesh T)]) => Qred mn = Qred (3006#10) /\ Qred mx = (36097#120) /\
      f1 = "/tmp/static.txt"%string /\ f2 = "/tmp/hotmap.vtk"%string /\ map Qred ts = [Qred (3006#10)] /\ map Qred vs = [Qred (3006#10)] /\ List.length T = 3%nat
  | _ => False end.
Proof. vm_compute; repeat split. Qed.
