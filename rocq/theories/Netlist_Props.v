(** C122: the netlist of a thermal network. *)
From Coq Require Import Ascii.
From Verif Require Import Base QSum Names_Model Names_Proofs ThermalNetwork_Model ThermalNetwork_Spec ThermalNetwork_Proofs ThermalNetwork_Props Netlist_Model Netlist_Spec Netlist_Proofs.
Open Scope string_scope.
Open Scope list_scope.

(** The equation the solvers integrate: for every node, what is stored and what flows to other nodes and ambient is the
    heat source *)
Definition heat_balance (l : network) (m : mna) (refT : Q) (T dT : nat -> Q) : Prop :=
  forall i, (i < List.length l)%nat ->
    mulv (List.length l) (entry (m_C m)) dT i + mulv (List.length l) (entry (m_G m)) T i == nth i (make_full_rhs l refT) 0.
(** The line that would connect the heat supply to ground *)
Definition supply_line (l : network) : element := mkElem "VS" (node_name (List.length l)) "0" 0.

Lemma reachable_positive minR l : 0 < minR -> reachable minR l -> positive l.
Proof. intros M R i n k r E I. destruct (reachable_wf minR M l R i n E) as [_ W]. apply (W k r I). Qed.

Section Build.
  Context (refT : Q) (l : network) (T dT : nat -> Q).
  Notation n := (List.length l).
  Definition volt (x : nat -> Q) (r : Q) (p : string) : Q :=
    if String.eqb p ref_name then r else match List.find (fun i => String.eqb p (node_name i)) (seq 0 n) with Some i => x i | None => 0 end.
  Lemma find_node i : (i < n)%nat -> List.find (fun k => String.eqb (node_name i) (node_name k)) (seq 0 n) = Some i.
  Proof.
    intros L. assert (G : forall a c, (a <= i)%nat -> (i < a + c)%nat -> List.find (fun k => String.eqb (node_name i) (node_name k)) (seq a c) = Some i).
    2: { apply G; lia. }
    intros a c; revert a; induction c as [|c IH]; intros a A B; [lia|]. cbn [seq List.find]. rewrite node_name_eqb.
    destruct (Nat.eqb_spec i a) as [->|N]; [reflexivity|]. apply IH; lia.
  Qed.
  Lemma find_none p : (forall i, (i < n)%nat -> p <> node_name i) -> List.find (fun k => String.eqb p (node_name k)) (seq 0 n) = None.
  Proof.
    intros H. destruct (List.find _ (seq 0 n)) as [i|] eqn:E; [|reflexivity]. apply find_some in E as [I E]. apply in_seq in I.
    apply String.eqb_eq in E. exfalso; apply (H i); [lia|exact E].
  Qed.
  Lemma volt_node x r i : (i < n)%nat -> volt x r (node_name i) = x i.
  Proof. intros L; unfold volt; now rewrite node_name_ref, find_node. Qed.
  Lemma volt_none x r p : p <> ref_name -> (forall i, (i < n)%nat -> p <> node_name i) -> volt x r p = 0.
  Proof. intros H1 H2; unfold volt; rewrite find_none by exact H2. destruct (String.eqb_spec p ref_name); [contradiction|reflexivity]. Qed.
End Build.

Lemma mulv_ext n M x y i : (forall j, (j < n)%nat -> x j == y j) -> mulv n M x i == mulv n M y i.
Proof. intros H; unfold mulv; apply sumf_ext; intros j I; apply in_seq in I; rewrite H by lia; reflexivity. Qed.

(** C122. Once its heat supply is connected to ground, the circuit of the netlist has exactly the temperatures of the
    network: at every moment a state of the circuit is a solution of the equation the solvers integrate, and the other way
    round.  Missing: in the file the heat supply is not connected, and nodes with a temperature of their own. *)
Theorem C122_netlist_partial minR l bonds ps m refT T dT :
  0 < minR -> reachable minR l -> make_mna l bonds ps = Ok m -> (forall i nd, nth_error l i = Some nd -> n_t nd = None) ->
  heat_balance l m refT T dT <->
  exists v dv, circuit_state (netlist refT l ++ [supply_line l]) v dv /\
    forall i, (i < List.length l)%nat -> v (node_name i) == T i /\ dv (node_name i) == dT i.
Proof.
  intros M R HM U. apply make_mna_ok in HM as (-> & Hb & _). unfold heat_balance; cbn [m_C m_G].
  assert (P := reachable_positive minR l M R). assert (PB := body_passive (List.length l) l 0%nat P U).
  set (n := List.length l) in *. split.
  - intros H. set (v := volt l T refT). set (dv := volt l dT 0).
    assert (V : forall i, (i < n)%nat -> v (node_name i) = T i /\ dv (node_name i) = dT i) by (intros i L; unfold v, dv; now rewrite !volt_node).
    assert (G0 : v "0" = 0 /\ dv "0" = 0) by (unfold v, dv; rewrite !volt_none; auto; discriminate).
    assert (Gn : v (node_name n) = 0 /\ dv (node_name n) = 0).
    { unfold v, dv; rewrite !volt_none; auto; try discriminate; intros i L E; apply node_name_inj in E; unfold n in E; lia. }
    assert (Gr : v ref_name = refT /\ dv ref_name = 0) by (split; reflexivity).
    exists v, dv. split; [|intros i L; destruct (V i L) as [-> ->]; split; reflexivity].
    destruct G0 as [G0 G0'], Gn as [Gn Gn'], Gr as [Gr Gr'].
    split; [rewrite G0; reflexivity|]. split; [rewrite G0'; reflexivity|].
    set (B := body n 0 l) in *.
    assert (LB : Forall2 (law v dv) B (map (current v dv) B)) by (apply laws_hold; exact PB).
    exists ((- leaving ref_name (combine B (map (current v dv) B))) :: map (current v dv) B ++ [- sumf n_hf l]).
    split.
    + unfold netlist; cbn [app]. constructor; [|apply Forall2_app; [exact LB|constructor; [|constructor]]].
      * unfold law, is_a; cbn [e_name e_from e_to e_value append Ascii.eqb Bool.eqb ref_name]. rewrite G0, G0'.
        split; [change (v ref_name - 0 == refT); rewrite Gr; ring|change (dv ref_name == 0); rewrite Gr'; reflexivity].
      * unfold supply_line, law, is_a; cbn [e_name e_from e_to e_value Ascii.eqb Bool.eqb]. fold n. rewrite G0, G0', Gn, Gn'. split; ring.
    + intros p Np. unfold netlist; fold n; fold B; cbn [app combine].
      assert (E : forall e c r, leaving p ((e, c) :: r) == out p e c + leaving p r) by (intros; unfold leaving, out; cbn [sumf fst snd]; ring).
      rewrite E, leaving_app by (rewrite map_length; reflexivity). cbn [combine]. rewrite E. change (leaving p []) with 0.
      rewrite (leaving_passive v dv p B _ PB LB).
      unfold out at 1 3; unfold supply_line; cbn [e_from e_to fst snd]. fold n.
      destruct (String.eqb_spec p "0") as [->|_]; [contradiction|].
      destruct (String.eqb_spec p ref_name) as [->|Nr].
      { rewrite ref_node_name, (leaving_passive v dv ref_name B _ PB LB). ring. }
      destruct (in_dec string_dec p (map node_name (seq 0 (Datatypes.S n)))) as [I|I].
      * apply in_map_iff in I as (q & <- & I). apply in_seq in I. rewrite node_name_eqb.
        destruct (Nat.eqb_spec q n) as [->|Nq].
        { pose proof (supply_out l P Hb v dv U) as SO; fold n in SO; fold B in SO; rewrite SO. ring. }
        assert (L : (q < n)%nat) by lia. destruct (nth_error l q) as [nd|] eqn:Eq; [|apply nth_error_None in Eq; unfold n in L; lia].
        assert (Z : sumf (fun e => out (node_name q) e (current v dv e)) B == 0).
        { apply (balance refT l P Hb v dv q nd Eq U); [rewrite Gr; reflexivity|rewrite Gr'; reflexivity|].
          rewrite <- (H q L). fold n. rewrite (mulv_ext n (entry (tC_from 0 l)) (fun i => dv (node_name i)) dT), (mulv_ext n (entry (tG_from 0 l)) (fun i => v (node_name i)) T); [reflexivity|..];
            intros j J; destruct (V j J) as [X1 X2]; rewrite ?X1, ?X2; reflexivity. }
        rewrite Z. ring.
      * rewrite <- (leaving_passive v dv p B _ PB LB), leaving_other.
        { destruct (String.eqb_spec p (node_name n)) as [->|_]; [exfalso; apply I, in_map_iff; exists n; split; [reflexivity|apply in_seq; lia]|ring]. }
        intros e He. destruct (body_ends l Hb e He) as [(i & L & ->) [->|(j & J & ->)]]; (split; [intros <-; apply I, in_map_iff; exists i; split; [reflexivity|apply in_seq; unfold n; lia]|]); [congruence|].
        intros <-; apply I, in_map_iff; exists j; split; [reflexivity|apply in_seq; unfold n; lia].
  - intros (v & dv & (G0 & G0' & cs & F & K) & V) q L. unfold netlist in F, K; cbn [app] in F, K. inversion F as [|? c0 ? cs' L0 F']; subst.
    apply Forall2_app_inv_l in F' as (cb & cz & FB & FZ & ->).
    unfold law, is_a in L0; cbn [e_name e_from e_to e_value append Ascii.eqb Bool.eqb ref_name] in L0. destruct L0 as [R1 R2].
    change (v ref_name - v "0" == refT) in R1. change (dv ref_name == dv "0") in R2.
    destruct (nth_error l q) as [nd|] eqn:Eq; [|apply nth_error_None in Eq; unfold n in L; lia].
    assert (Z : sumf (fun e => out (node_name q) e (current v dv e)) (body n 0 l) == 0).
    { specialize (K (node_name q) (node_name_ground q)). cbn [combine] in K.
      assert (E : forall e c r, leaving (node_name q) ((e, c) :: r) == out (node_name q) e c + leaving (node_name q) r) by (intros; unfold leaving, out; cbn [sumf fst snd]; ring).
      rewrite E, leaving_app in K by (eapply Forall2_len; exact FB). fold n in K.
      rewrite (leaving_passive v dv (node_name q) (body n 0 l) cb PB FB) in K.
      rewrite (leaving_other (node_name q) [supply_line l] cz) in K.
      2: { intros e [<-|[]]; cbn [supply_line e_from e_to]; split; [|discriminate]. intros X; apply node_name_inj in X; fold n in X; lia. }
      unfold out at 1 in K; cbn [e_from e_to] in K. change ("0" : string) with "0" in K. rewrite node_name_ref in K.
      change (String.eqb (node_name q) "0") with false in K. cbv iota in K. lra. }
    apply (balance refT l P Hb v dv q nd Eq U) in Z; [|lra|lra]. rewrite <- Z. fold n.
    rewrite (mulv_ext n (entry (tC_from 0 l)) (fun i => dv (node_name i)) dT), (mulv_ext n (entry (tG_from 0 l)) (fun i => v (node_name i)) T); [reflexivity|..];
      intros j J; destruct (V j J) as [X1 X2]; rewrite ?X1, ?X2; reflexivity.
Qed.
Print Assumptions C122_netlist_partial.

(** Two nodes, the first one heated and the second one cooled, with heat capacities *)
Definition ex_ops : list op := [SetHF 0 3; SetC 0 2; SetHTC 1 (1 # 2); SetR 0 1 4].
Example C122_netlist_ex :
  exists l m, run (1 # 1000) (net_new 2) ex_ops = Ok l /\ make_mna l true [] = Ok m /\ (forall i nd, nth_error l i = Some nd -> n_t nd = None) /\
    heat_balance l m 25 (fun i => match i with 0%nat => 43 | _ => 31 end) (fun _ => 0) /\
    map (fun e => (e_name e, e_from e, e_to e, Qred (e_value e))) (netlist 25 l) =
      [("VREF", "REF", "0", 25); ("C0", "N0", "REF", 2); ("R0_1", "N0", "N1", 4); ("I2_0", "N2", "N0", 3); ("R1_REF", "N1", "REF", 2)].
Proof.
  eexists. eexists. split; [vm_compute; reflexivity|]. split; [vm_compute; reflexivity|]. split; [|split].
  - intros [|[|[|]]] nd E; cbn in E; inversion E; reflexivity.
  - intros [|[|i]] L; cbn in L; [vm_compute; reflexivity|vm_compute; reflexivity|lia].
  - vm_compute. reflexivity.
Qed.

(** C122. No two elements have the same name. *)
Lemma NoDup_app_intro {A} (a b : list A) : NoDup a -> NoDup b -> (forall x, In x a -> ~ In x b) -> NoDup (a ++ b).
Proof.
  induction a as [|x a IH]; intros H1 H2 H3; cbn; [exact H2|]. inversion H1; subst. constructor.
  - rewrite in_app_iff; intros [I|I]; [contradiction|exact (H3 x (or_introl eq_refl) I)].
  - apply IH; auto. intros y I; apply H3; right; exact I.
Qed.
(** The forms a name can have *)
Inductive form := FC | FR (k : nat) | FV | FI | FH.
Definition text (supply i : nat) (f : form) : string :=
  match f with
  | FC => "C" ++ to_dec i
  | FR k => "R" ++ to_dec i ++ "_" ++ to_dec k
  | FV => "V" ++ to_dec i
  | FI => "I" ++ to_dec supply ++ "_" ++ to_dec i
  | FH => "R" ++ to_dec i ++ "_" ++ "REF"
  end%string.
Lemma text_inj s i j f g : text s i f = text s j g -> i = j /\ f = g.
Proof.
  destruct f, g; cbn [text append]; intros [= H]; auto.
  - apply to_dec_inj in H as ->; auto.
  - destruct (digits_split _ _ _ _ (dec_digits i) (dec_digits j) H) as [A B]. apply to_dec_inj in A, B as ->; subst; auto.
  - destruct (digits_split _ _ _ _ (dec_digits i) (dec_digits j) H) as [A B]. exfalso. pose proof (dec_digits k) as D. rewrite B in D. destruct D as (_ & D & _). congruence.
  - apply to_dec_inj in H as ->; auto.
  - destruct (digits_split _ _ _ _ (dec_digits s) (dec_digits s) H) as [_ B]. apply to_dec_inj in B as ->; auto.
  - destruct (digits_split _ _ _ _ (dec_digits i) (dec_digits j) H) as [A B]. exfalso. pose proof (dec_digits k) as D. rewrite <- B in D. destruct D as (_ & D & _). congruence.
  - destruct (digits_split _ _ _ _ (dec_digits i) (dec_digits j) H) as [A _]. apply to_dec_inj in A as ->; auto.
Qed.
Definition forms (nd : node) : list form :=
  (if Qltb 0 (n_c nd) then [FC] else []) ++ map (fun e => FR (fst e)) (n_ns nd) ++ match n_t nd with Some _ => [FV] | None => [] end ++
  (if negb (Qeqb (n_hf nd) 0) then [FI] else []) ++ (if negb (Qeqb (n_htc nd) 0) then [FH] else []).
Lemma names_of s i nd : map e_name (node_lines s i nd) = map (text s i) (forms nd).
Proof.
  unfold node_lines, forms. rewrite !map_app, !map_map. cbn [e_name text fst].
  destruct (Qltb 0 (n_c nd)), (n_t nd), (negb (Qeqb (n_hf nd) 0)), (negb (Qeqb (n_htc nd) 0)); reflexivity.
Qed.
Lemma forms_nodup nd : NoDup (akeys (n_ns nd)) -> NoDup (forms nd).
Proof.
  intros H. assert (R : NoDup (map (fun e : nat * Q => FR (fst e)) (n_ns nd))).
  { unfold akeys in H. rewrite <- (map_map fst FR). apply FinFun.Injective_map_NoDup; [intros a b [= ->]; reflexivity|exact H]. }
  assert (I : forall f, In f (map (fun e : nat * Q => FR (fst e)) (n_ns nd)) -> exists k, f = FR k) by (intros f K; apply in_map_iff in K as (e & <- & _); eauto).
  unfold forms. repeat apply NoDup_app_intro; try exact R; try (destruct (Qltb 0 (n_c nd)); repeat constructor; intros []; fail);
    try (destruct (n_t nd); repeat constructor; intros []; fail); try (destruct (negb (Qeqb (n_hf nd) 0)); repeat constructor; intros []; fail);
    try (destruct (negb (Qeqb (n_htc nd) 0)); repeat constructor; intros []; fail);
    intros f A B; rewrite ?in_app_iff in B;
    destruct (Qltb 0 (n_c nd)), (n_t nd), (negb (Qeqb (n_hf nd) 0)), (negb (Qeqb (n_htc nd) 0)); cbn [In] in A, B;
    repeat match goal with
    | H : _ \/ _ |- _ => destruct H
    | H : False |- _ => destruct H
    | H : In f _ |- _ => apply I in H as [k H]
    end; congruence.
Qed.
Lemma body_names s l : forall k, (forall i nd, nth_error l i = Some nd -> NoDup (akeys (n_ns nd))) ->
  NoDup (map e_name (body s k l)) /\ forall x, In x (map e_name (body s k l)) -> exists i f, (k <= i)%nat /\ x = text s i f.
Proof.
  induction l as [|nd l IH]; intros k W; cbn [body map]; [split; [constructor|intros x []]|].
  destruct (IH (Datatypes.S k)) as [N F]; [intros i n E; apply (W (Datatypes.S i) n E)|]. rewrite map_app, names_of. split.
  - apply NoDup_app_intro; [|exact N|].
    + apply FinFun.Injective_map_NoDup; [intros a b E; apply text_inj in E as [_ ->]; reflexivity|apply forms_nodup, (W 0%nat nd eq_refl)].
    + intros x A B. apply in_map_iff in A as (f & <- & _). destruct (F _ B) as (i & g & L & E). apply text_inj in E as [-> _]. lia.
  - intros x H; apply in_app_iff in H as [H|H].
    + apply in_map_iff in H as (f & <- & _); exists k, f; auto.
    + destruct (F x H) as (i & f & L & ->); exists i, f; split; [lia|reflexivity].
Qed.
Theorem C122_names_distinct minR l refT : 0 < minR -> reachable minR l -> NoDup (map e_name (netlist refT l)).
Proof.
  intros M R. destruct (body_names (List.length l) l 0%nat) as [N F].
  { intros i nd E. apply (reachable_wf minR M l R i nd E). }
  unfold netlist; cbn [map e_name]. constructor; [|exact N]. intros I. destruct (F _ I) as (i & f & _ & E).
  destruct f; cbn [text append] in E; try discriminate. injection E as E.
  pose proof (dec_digits i) as D. rewrite <- E in D. destruct D as (_ & D & _). congruence.
Qed.
Print Assumptions C122_names_distinct.

(** C122. Every element is between nodes of the network, the reference, ground and, for heat sources, the supply. *)
Theorem C122_ends l bonds ps m refT e : make_mna l bonds ps = Ok m -> In e (netlist refT l) ->
  let known p := (p = "REF" \/ exists i, (i < List.length l)%nat /\ p = node_name i) in
  (e_from e = "REF" /\ e_to e = "0") \/ (known (e_from e) /\ known (e_to e)) \/ (e_from e = node_name (List.length l) /\ known (e_to e) /\ is_a "I" e = true).
Proof.
  intros HM I known. apply make_mna_ok in HM as (_ & Hb & _). destruct I as [<-|I]; [left; split; reflexivity|right].
  apply body_in in I as (i & nd & E & H); cbn [Nat.add] in H. assert (L : (i < List.length l)%nat) by (apply nth_error_Some; congruence).
  assert (Ki : known (node_name i)) by (right; eauto).
  unfold node_lines in H; rewrite !in_app_iff in H. destruct H as [H|[H|[H|[H|H]]]].
  - destruct (Qltb 0 (n_c nd)); [|destruct H]. destruct H as [<-|[]]. left; split; [exact Ki|left; reflexivity].
  - apply in_map_iff in H as ([k r] & <- & K). left; split; [exact Ki|right; exists k; split; [exact (neighbours_below l Hb i nd k r E K)|reflexivity]].
  - destruct (n_t nd); [|destruct H]. destruct H as [<-|[]]. left; split; [exact Ki|left; reflexivity].
  - destruct (negb (Qeqb (n_hf nd) 0)); [|destruct H]. destruct H as [<-|[]]. right; split; [reflexivity|]. split; [exact Ki|reflexivity].
  - destruct (negb (Qeqb (n_htc nd) 0)); [|destruct H]. destruct H as [<-|[]]. left; split; [exact Ki|left; reflexivity].
Qed.
Print Assumptions C122_ends.

(** C122. As written, a network whose heat sources do not add up to nothing has a netlist no temperatures satisfy: the node
    the heat is taken from is connected to nothing else. *)
Lemma supply_leaves s l : forall k v dv cs, (k + List.length l <= s)%nat -> (forall i nd j r, nth_error l i = Some nd -> In (j, r) (n_ns nd) -> (j < s)%nat) ->
  Forall2 (law v dv) (body s k l) cs -> leaving (node_name s) (combine (body s k l) cs) == sumf n_hf l.
Proof.
  induction l as [|nd l IH]; intros k v dv cs K W F; cbn [body] in *; cbn [sumf]; [inversion F; reflexivity|].
  apply Forall2_app_inv_l in F as (c1 & c2 & F1 & F2 & ->). cbn [List.length] in K.
  rewrite leaving_app by (eapply Forall2_len; exact F1).
  rewrite (IH (Datatypes.S k) v dv c2); [|lia|intros i n j r E; apply (W (Datatypes.S i) n j r E)|exact F2].
  assert (X : leaving (node_name s) (combine (node_lines s k nd) c1) == n_hf nd); [|rewrite X; ring].
  assert (NK : node_name k <> node_name s) by (intros E; apply node_name_inj in E; lia).
  unfold node_lines in *.
  apply Forall2_app_inv_l in F1 as (a1 & b1 & A1 & B1 & ->). rewrite leaving_app by (eapply Forall2_len; exact A1).
  apply Forall2_app_inv_l in B1 as (a2 & b2 & A2 & B2 & ->). rewrite leaving_app by (eapply Forall2_len; exact A2).
  apply Forall2_app_inv_l in B2 as (a3 & b3 & A3 & B3 & ->). rewrite leaving_app by (eapply Forall2_len; exact A3).
  apply Forall2_app_inv_l in B3 as (a4 & b4 & A4 & B4 & ->). rewrite leaving_app by (eapply Forall2_len; exact A4).
  rewrite (leaving_other _ _ a1), (leaving_other _ _ a2), (leaving_other _ _ a3), (leaving_other _ _ b4).
  - unfold Qeqb in *. destruct (Qeq_bool (n_hf nd) 0) eqn:E; cbn [negb] in *.
    + apply Qeq_bool_iff in E. inversion A4; cbn [combine]. unfold leaving; cbn [sumf]. rewrite E; ring.
    + inversion A4 as [|? c ? r Lw Rr]; subst. inversion Rr; subst. unfold law, is_a in Lw; cbn [e_name e_value append Ascii.eqb Bool.eqb] in Lw.
      unfold leaving; cbn [combine sumf fst snd e_from e_to]. rewrite String.eqb_refl.
      destruct (String.eqb_spec (node_name s) (node_name k)); [congruence|]. rewrite Lw; ring.
  - intros e He. destruct (negb _) in He; [|destruct He]. destruct He as [<-|[]]. split; [exact NK|discriminate].
  - intros e He. destruct (n_t nd) in He; [|destruct He]. destruct He as [<-|[]]. split; [exact NK|discriminate].
  - intros e He. apply in_map_iff in He as ([j r] & <- & J). split; [exact NK|]. cbn [e_to fst]. intros E; apply node_name_inj in E.
    specialize (W 0%nat nd j r eq_refl J). lia.
  - intros e He. destruct (Qltb _ _) in He; [|destruct He]. destruct He as [<-|[]]. split; [exact NK|discriminate].
Qed.
Theorem C122_heated_fails l bonds ps m refT : make_mna l bonds ps = Ok m -> ~ sumf n_hf l == 0 ->
  forall v dv, ~ circuit_state (netlist refT l) v dv.
Proof.
  intros HM Z v dv (_ & _ & cs & F & K). apply make_mna_ok in HM as (_ & Hb & _). apply Z.
  unfold netlist in *. inversion F as [|? c0 ? cs' L0 F']; subst. specialize (K _ (node_name_ground (List.length l))).
  rewrite <- (supply_leaves (List.length l) l 0%nat v dv cs' (le_n _) (neighbours_below l Hb) F').
  rewrite <- K. cbn [combine]. unfold leaving at 2; cbn [sumf fst snd e_from e_to]. rewrite node_name_ref.
  change (String.eqb (node_name (List.length l)) "0") with false; cbv iota. unfold leaving; ring.
Qed.
Theorem C122_heated_refuted :
  exists l m T, run (1 # 1000) (net_new 2) ex_ops = Ok l /\ make_mna l true [] = Ok m /\ heat_balance l m 25 T (fun _ => 0) /\
    forall v dv, ~ circuit_state (netlist 25 l) v dv.
Proof.
  destruct C122_netlist_ex as (l & m & R & HM & _ & B & _). exists l, m, (fun i => match i with 0%nat => 43 | _ => 31 end).
  split; [exact R|]. split; [exact HM|]. split; [exact B|]. apply (C122_heated_fails l true [] m 25 HM).
  vm_compute in R. injection R as <-. vm_compute. discriminate.
Qed.
Print Assumptions C122_heated_fails.
Print Assumptions C122_heated_refuted.

(** C122. Without heat sources nothing is missing: the netlist as written has the temperatures of the network. *)
Theorem C122_unheated minR l bonds ps m refT T dT :
  0 < minR -> reachable minR l -> make_mna l bonds ps = Ok m -> (forall i nd, nth_error l i = Some nd -> n_t nd = None /\ n_hf nd == 0) ->
  heat_balance l m refT T dT <->
  exists v dv, circuit_state (netlist refT l) v dv /\ forall i, (i < List.length l)%nat -> v (node_name i) == T i /\ dv (node_name i) == dT i.
Proof.
  intros M R HM U. rewrite (C122_netlist_partial minR l bonds ps m refT T dT M R HM) by (intros i nd E; apply (U i nd E)).
  apply make_mna_ok in HM as (_ & Hb & _).
  assert (Z : sumf n_hf l == 0) by (apply sumf_zero; intros nd I; apply In_nth_error in I as [i E]; apply (U i nd E)).
  assert (VL : forall es cs e c p, List.length es = List.length cs -> leaving p (combine (es ++ [e]) (cs ++ [c])) == leaving p (combine es cs) + out p e c).
  { intros es cs e c p L. rewrite leaving_app by exact L. cbn [combine]. unfold leaving at 2, out; cbn [sumf fst snd]. ring. }
  split.
  - intros (v & dv & (G & G' & cs & F & K) & V). exists v, dv. split; [|exact V]. split; [exact G|]. split; [exact G'|].
    apply Forall2_app_inv_l in F as (c1 & c2 & F1 & F2 & ->). inversion F2 as [|? c ? r Lw Rr]; subst. inversion Rr; subst.
    exists c1. split; [exact F1|]. intros p Np. specialize (K p Np). rewrite VL in K by (eapply Forall2_len; exact F1).
    unfold out, supply_line in K; cbn [e_from e_to] in K. destruct (String.eqb_spec p "0"); [contradiction|].
    destruct (String.eqb_spec p (node_name (List.length l))) as [Ep|_]; [|lra]. rewrite Ep. clear K VL.
    unfold netlist in F1. inversion F1 as [|? c0 ? cs' L0 F']; subst c1.
    unfold netlist; cbn [combine]. assert (X := supply_leaves (List.length l) l 0%nat v dv cs' (le_n _) (neighbours_below l Hb) F').
    unfold leaving in *; cbn [sumf fst snd e_from e_to]. rewrite X, node_name_ref, Z.
    change (String.eqb (node_name (List.length l)) "0") with false; cbv iota; ring.
  - intros (v & dv & (G & G' & cs & F & K) & V).
    (* the voltage of the supply node is free *)
    set (s := node_name (List.length l)).
    exists (fun p => if String.eqb p s then 0 else v p), (fun p => if String.eqb p s then 0 else dv p).
    assert (NS : forall e, In e (netlist refT l) -> e_from e <> s /\ e_to e <> s).
    { intros e [<-|I]; [split; discriminate|]. apply body_in in I as (i & nd & E & H); cbn [Nat.add] in H.
      assert (L : (i < List.length l)%nat) by (apply nth_error_Some; congruence).
      assert (Ni : node_name i <> s) by (intros X; apply node_name_inj in X; lia).
      unfold node_lines in H; rewrite !in_app_iff in H. destruct H as [H|[H|[H|[H|H]]]].
      - destruct (Qltb 0 (n_c nd)); [|destruct H]. destruct H as [<-|[]]. split; [exact Ni|discriminate].
      - apply in_map_iff in H as ([k r] & <- & I). split; [exact Ni|]. cbn [e_to fst]. intros X; apply node_name_inj in X.
        pose proof (neighbours_below l Hb i nd k r E I). lia.
      - destruct (n_t nd); [|destruct H]. destruct H as [<-|[]]. split; [exact Ni|discriminate].
      - destruct (U i nd E) as [_ Hz]. apply Qeq_bool_iff in Hz. unfold Qeqb in H. rewrite Hz in H. destruct H.
      - destruct (negb (Qeqb (n_htc nd) 0)); [|destruct H]. destruct H as [<-|[]]. split; [exact Ni|discriminate]. }
    split; [|intros i L; destruct (String.eqb_spec (node_name i) s) as [X|_]; [apply node_name_inj in X; lia|exact (V i L)]].
    split; [exact G|]. split; [exact G'|]. exists (cs ++ [0]). split.
    + apply Forall2_app.
      * clear K. revert NS F. generalize (netlist refT l) as es. intros es NS F. induction F as [|e c es cs Le F IH]; constructor.
        { destruct (NS e (or_introl eq_refl)) as [A B]. unfold law in *.
          destruct (String.eqb_spec (e_from e) s); [contradiction|]. destruct (String.eqb_spec (e_to e) s); [contradiction|]. exact Le. }
        { apply IH. intros e' I; apply NS; right; exact I. }
      * constructor; [|constructor]. unfold supply_line, law, is_a; cbn [e_name e_from e_to e_value Ascii.eqb Bool.eqb]. fold s. rewrite String.eqb_refl.
        change (String.eqb "0" s) with false; cbv iota. rewrite G, G'. split; ring.
    + intros p Np. rewrite VL by (eapply Forall2_len; exact F). rewrite (K p Np). unfold out.
      destruct (String.eqb p (e_from _)), (String.eqb p (e_to _)); ring.
Qed.
(** The two nodes cool down once the heat is off *)
Example C122_unheated_ex :
  exists l m, run (1 # 1000) (net_new 2) [SetC 0 2; SetHTC 1 (1 # 2); SetR 0 1 4] = Ok l /\ make_mna l true [] = Ok m /\
    (forall i nd, nth_error l i = Some nd -> n_t nd = None /\ n_hf nd == 0) /\
    heat_balance l m 25 (fun i => match i with 0%nat => 43 | _ => 31 end) (fun i => match i with 0%nat => - (3 # 2) | _ => 0 end).
Proof.
  eexists. eexists. split; [vm_compute; reflexivity|]. split; [vm_compute; reflexivity|]. split.
  - intros [|[|[|]]] nd E; cbn in E; inversion E; split; reflexivity.
  - intros [|[|i]] L; cbn in L; [vm_compute; reflexivity|vm_compute; reflexivity|lia].
Qed.
Print Assumptions C122_unheated.

(** C122. A node with a temperature of its own has that temperature above the reference in the circuit, not the temperature
    itself. *)
Theorem C122_temperature_offset l refT i nd t v dv :
  circuit_state (netlist refT l) v dv -> nth_error l i = Some nd -> n_t nd = Some t -> v (node_name i) == refT + t.
Proof.
  intros (G & _ & cs & F & _) E Ht.
  assert (Q : forall e, In e (netlist refT l) -> exists c, law v dv e c).
  { clear - F. induction F as [|e c es cs H _ IH]; intros x I; [destruct I|]. destruct I as [<-|I]; [eauto|auto]. }
  assert (A : In (mkElem ("V" ++ to_dec i)%string (node_name i) ref_name t) (netlist refT l)).
  { right. apply (in_body (List.length l) l 0%nat i nd); [exact E|]. unfold node_lines; rewrite !in_app_iff, Ht. right; right; left; left; reflexivity. }
  destruct (Q _ A) as [c Lc]. destruct (Q _ (or_introl eq_refl)) as [c0 L0].
  unfold law, is_a in Lc, L0; cbn [e_name e_from e_to e_value append Ascii.eqb Bool.eqb ref_name] in Lc, L0.
  destruct Lc as [Lc _], L0 as [L0 _]. change "REF" with ref_name in *. lra.
Qed.
Theorem C122_temperature_refuted :
  exists l v, run (1 # 1000) (net_new 1) [SetT 0 (Some 300)] = Ok l /\ circuit_state (netlist 25 l) v (fun _ => 0) /\ v (node_name 0) == 325.
Proof.
  eexists. exists (fun p => if String.eqb p "REF" then 25 else if String.eqb p "N0" then 325 else 0). split; [vm_compute; reflexivity|].
  split; [|reflexivity]. split; [reflexivity|]. split; [reflexivity|]. exists [0; 0].
  split; [repeat constructor|]. intros p _. unfold leaving; apply sumf_zero; intros [e c] I. apply in_combine_r in I; cbn [fst snd]. destruct I as [<-|[<-|[]]]; destruct (String.eqb p (e_from e)), (String.eqb p (e_to e)); reflexivity.
Qed.
Print Assumptions C122_temperature_offset.
Print Assumptions C122_temperature_refuted.
