(** C174, C175: the static simulation of prism models, its results and its files. *)
From Verif Require Import Base QSum ThermalNetwork_Model ThermalNetwork_Spec ThermalNetwork_Props
  Steady_Spec Steady_Props Solver_Model Solver_Spec Solver_Proofs Solver_Props GridSim_Model GridSim_Spec GridSim_Proofs.
From Verif Require GridSim_Props.
From Verif Require Import PrismNet_Model WireNet_Model WireNet_Spec WireNet_Proofs WireNet_Props PrismSim_Model PrismSim_Spec PrismSim_Proofs.
From Coq Require Import Lqa.
Open Scope res_scope.
Open Scope Q_scope.

Lemma builder_total k m minR envT : 0 < minR -> coolable k m -> forall y, List.length y = elements m ->
  exists net M, wire_build k m minR y = Ok (Some net) /\ List.length net = elements m /\ make_mna net true [] = Ok M /\ exactly_one net M envT.
Proof. intros HminR (H1 & H2 & H3) y Hy; exact (C173_exactly_one k m minR y envT true HminR H1 H2 H3 Hy). Qed.
Lemma builder_wrong k m minR y : List.length y <> elements m -> wire_build k m minR y = Ok None.
Proof. intros H; unfold wire_build; change (element_count m) with (elements m); rewrite (proj2 (Nat.eqb_neq _ _) H); reflexivity. Qed.

Section Static.
  Context (lin : nat -> (nat -> nat -> Q) -> (nat -> Q) -> nat -> Q) (Hlin : solves_exactly lin).

  (** ** C174: the simulation of a cooled prism model, wires included, ends within the allowed number of networks.  The first
      network is built for the ambient temperature, every other for the temperatures of the one before, and the temperatures
      returned are the steady state of the last network; unless the count is used up they agree with the temperatures it was
      built for. *)
  Theorem C174_self_consistent minR k m t st envT fuel : 0 < minR -> coolable k m -> In t [0; 1; 2; 3; 10]%nat ->
    (1 <= iteration st)%N -> (iteration st <= N.of_nat fuel)%N ->
    exists T builds, prism_solve lin k m minR t st envT fuel = Ok (Some (map (reported (in_celsius st)) T), builds) /\
      (1 <= List.length builds)%nat /\ (N.of_nat (List.length builds) <= iteration st)%N /\
      hd_error builds = Some (repeat envT (elements m)) /\
      (forall i a b, nth_error builds i = Some a -> nth_error builds (Datatypes.S i) = Some b -> balanced minR k m envT a b) /\
      balanced minR k m envT (last builds []) T /\
      (N.of_nat (List.length builds) = iteration st \/ agree (maximum_res st) (residual st) T (last builds [])).
  Proof.
    intros HminR Hm Ht Hi Hf.
    destruct (loop_spec lin (wire_build k m minR) (elements m) t envT Hlin Ht (builder_total k m minR envT HminR Hm) (builder_wrong k m minR)
                st fuel (repeat envT (elements m)) (repeat_length _ _) Hi Hf) as (T & builds & HG & H1 & H2 & H3 & H4 & H5 & H6).
    exists T, builds; unfold prism_solve; change (element_count m) with (elements m); rewrite HG; split; [reflexivity|]; auto 8.
  Qed.

  (** When neither powers nor materials depend on the temperature at most two networks are built, and the result is the one
      steady state of the model whatever temperatures the network is built for. *)
  Theorem C174_constant_laws minR k m t st envT fuel : 0 < minR -> coolable k m -> constant_laws k ->
    In t [0; 1; 2; 3; 10]%nat -> (1 <= iteration st)%N -> (iteration st <= N.of_nat fuel)%N -> 0 <= residual st ->
    exists T builds, prism_solve lin k m minR t st envT fuel = Ok (Some (map (reported (in_celsius st)) T), builds) /\
      (List.length builds <= 2)%nat /\
      (forall prev, List.length prev = elements m -> balanced minR k m envT prev T) /\
      (forall prev T', balanced minR k m envT prev T' -> forall i, (i < elements m)%nat -> nth i T' 0 == nth i T 0).
  Proof.
    intros HminR Hm Hc Ht Hi Hf Hr.
    destruct (loop_constant lin (wire_build k m minR) (elements m) t envT Hlin Ht (builder_total k m minR envT HminR Hm) (builder_wrong k m minR)
                st fuel (repeat envT (elements m)) (repeat_length _ _) Hi Hf Hr) as (T & builds & HG & H1 & H2 & H3).
    { intros a b La Lb; apply constant_wires; [auto|congruence]. }
    exists T, builds; unfold prism_solve; change (element_count m) with (elements m); rewrite HG; split; [reflexivity|]; auto.
  Qed.

  (** The heat that leaves at the temperatures returned is the heat produced at the temperatures of the last network. *)
  Theorem C174_heat_out minR k m t st envT fuel : 0 < minR -> coolable k m -> physical k m -> no_flux m -> In t [0; 1; 2; 3; 10]%nat ->
    (1 <= iteration st)%N -> (iteration st <= N.of_nat fuel)%N ->
    exists T builds net, prism_solve lin k m minR t st envT fuel = Ok (Some (map (reported (in_celsius st)) T), builds) /\
      wire_build k m minR (last builds []) = Ok (Some net) /\
      sumf (fun i => get_htc net i * (nth i T 0 - envT)) (seq 0 (List.length (m_prisms m))) == heat_in k m (last builds []).
  Proof.
    intros HminR Hm Hp Hn Ht Hi Hf.
    destruct (C174_self_consistent minR k m t st envT fuel HminR Hm Ht Hi Hf) as (T & builds & HG & _ & _ & _ & _ & [LT (net & M & Hb & HM & He)] & _).
    exists T, builds, net; split; [exact HG|]; split; [exact Hb|].
    assert (Lb : List.length (last builds []) = elements m).
    { destruct (Nat.eq_dec (List.length (last builds [])) (elements m)) as [E|E]; [auto|rewrite builder_wrong in Hb by auto; discriminate]. }
    exact (C173_heat_balance k m minR (last builds []) envT true net M (fun i => nth i T 0) (proj1 Hm) Hp Hn Lb Hb HM He).
  Qed.

  (** An unknown solver type is refused. *)
  Theorem C174_unknown_solver_refused minR k m t st envT fuel : 0 < minR -> coolable k m -> ~ In t [0; 1; 2; 3; 10]%nat ->
    (0 < fuel)%nat -> prism_solve lin k m minR t st envT fuel = Throw.
  Proof.
    intros HminR Hm Ht Hf; destruct fuel as [|fuel]; [lia|]; unfold prism_solve; cbn [net_loop].
    destruct (builder_total k m minR envT HminR Hm (repeat envT (element_count m)) (repeat_length _ _)) as (net & M & Hb & _ & HM & _).
    rewrite Hb; cbn [bind]; unfold network_solve; rewrite HM; destruct (C29_sources_scatter_to_full_rhs net envT) as (rhs & -> & _); cbn [bind].
    destruct (existsb (Nat.eqb t) solver_types) eqn:E; [|reflexivity].
    exfalso; apply Ht; apply existsb_exists in E as (x & Hx & E); apply Nat.eqb_eq in E; subst; exact Hx.
  Qed.

  (** ** C175: the two numbers returned are the lowest and the highest temperature of prisms and segments, every monitor gets the
      temperature of its element, and the files are those asked for.  The mesh file is not withheld when there is no work
      directory: it is then written to the root of the file system. *)
  Theorem C175_results_and_files minR k m q probs fuel T builds : (0 < elements m)%nat ->
    prism_solve lin k m minR (r_solver q) (r_static q) (r_env q) fuel = Ok (Some T, builds) -> List.length T = elements m ->
    (forall p, In p probs -> (p < elements m)%nat) ->
    exists mn mx, coldest mn T /\ hottest mx T /\
      prism_static lin k m minR q probs fuel =
        Ok (Some (mn, mx, map (fun p => nth p T 0) probs),
            (if (r_dump_results q && negb (String.eqb (r_work_dir q) ""))%bool
             then [((r_work_dir q ++ "/static.txt")%string, PText (map (fun p => nth p T 0) probs))] else []) ++
            (if r_dump_hotmaps q then [((r_work_dir q ++ "/hotmap.vtk")%string, PMesh T)] else [])).
  Proof.
    intros Hn Hs LT Hp; unfold prism_static; rewrite Hs; cbn [bind fst].
    assert (Hne : T <> []) by (intros ->; cbn [List.length] in LT; lia).
    destruct (C55_report T probs Hne) as (mn & mx & ts & Hr & Lts & Hts & I1 & I2 & I3); [intros p H; rewrite LT; auto|].
    assert (Ets : ts = map (fun p => nth p T 0) probs).
    { clear - Hts Lts Hp LT; apply GridSim_Props.same_elements; intros i; destruct (nth_error probs i) as [p|] eqn:E.
      - rewrite (Hts i p E), (map_nth_error _ _ _ E); apply nth_error_nth'; rewrite LT; apply Hp; eapply nth_error_In; eauto.
      - apply nth_error_None in E; transitivity (@None Q); [apply nth_error_None; lia|symmetry; apply nth_error_None; rewrite map_length; lia]. }
    assert (Hpr : probe_at T probs = Ok ts).
    { unfold static_report in Hr; destruct (min_element T), (max_element T); cbn [bind] in Hr; try discriminate.
      destruct (probe_at T probs); cbn [bind] in Hr; congruence. }
    assert (Htxt : values_file q T probs = Ok (if (r_dump_results q && negb (String.eqb (r_work_dir q) ""))%bool
             then [((r_work_dir q ++ "/static.txt")%string, PText ts)] else [])).
    { unfold values_file; destruct (_ && _)%bool; [rewrite Hpr|]; reflexivity. }
    exists mn, mx; rewrite Htxt, Hr; cbn [bind]; rewrite <- Ets.
    split; [split; [exact I1|intros t Ht; apply I3; auto]|]; split; [split; [exact I2|intros t Ht; apply I3; auto]|]; reflexivity.
  Qed.
End Static.
Print Assumptions C174_self_consistent.
Print Assumptions C174_constant_laws.
Print Assumptions C174_heat_out.
Print Assumptions C174_unknown_solver_refused.
Print Assumptions C175_results_and_files.

(** ** Cases: the chip on its bond wire, with constant materials *)
Definition plain_look : lookups :=
  mkLook (fun _ i => if (i =? 1)%nat then Some (5, 0%nat) else None) (fun _ _ => 1) (fun _ _ => 1) (fun _ _ => 1) (fun _ => 1) (fun _ => 1)
    (fun _ _ => 1) (fun _ _ => 1) (fun _ _ => 1) (fun _ _ => (2, 2, 2)) (fun _ _ => 1) (fun _ _ => 1) (fun _ _ => (1#4)).
Example plain_coolable : coolable plain_look bonded /\ constant_laws plain_look /\ physical plain_look bonded /\ no_flux bonded /\
  coolable bonded_look bonded.
Proof.
  split; [split; [exact bonded_well|split; [|exact bonded_way_out]]|split; [|split; [|split; [exact bonded_no_flux|]]]].
  - split; [intros; cbn; lra|apply bonded_exchange].
  - split; intros; repeat split.
  - intros l [<-|[<-|[]]]; cbn [w_len w_area w_mat]; (split; [lra|split; [lra|intros t; split; [cbn; lra|reflexivity]]]).
  - exact (conj bonded_well (conj bonded_exchange bonded_way_out)).
Qed.
Definition bonded_settings : static_settings := Build_static_settings 10 (1#10) true false.
Example C174_example : match prism_solve eliminate plain_look bonded (1#1000) 10 bonded_settings 300 10 with
  | Ok (Some T, builds) => List.length builds = 2%nat /\ map Qred T = map Qred [300 + (7#10); 300 + (67#10); 300 + (49#20); 300 + (109#20)]
  | _ => False end.
Proof. vm_compute; repeat split. Qed.
(** nothing stops a map from being written without a work directory *)
Example C175_example : match prism_static eliminate plain_look bonded (1#1000) (mkRequest "" true true 10 bonded_settings 300) [1; 3]%nat 10 with
  | Ok (Some (mn, mx, ts), [(name, PMesh T)]) => Qred mn = (3007#10) /\ Qred mx = (3067#10) /\ name = "/hotmap.vtk"%string /\
      map Qred ts = [3067#10; 6109#20] /\ List.length T = 4%nat
  | _ => False end.
Proof. vm_compute; repeat split. Qed.
