(** Lemmas about netlists. *)
From Coq Require Import Ascii DecimalString.
From Verif Require Import Base QSum Names_Model Names_Proofs ThermalNetwork_Model ThermalNetwork_Spec ThermalNetwork_Proofs Netlist_Model Netlist_Spec.
Open Scope string_scope.
Open Scope list_scope.

(** ** names *)
Fixpoint digits (s : string) : Prop := match s with "" => True | String c r => (c <> "_")%char /\ (c <> "R")%char /\ digits r end.
Lemma uint_digits u : digits (NilEmpty.string_of_uint u).
Proof. induction u; cbn; repeat split; try discriminate; assumption. Qed.
Lemma dec_digits n : digits (to_dec n).
Proof. unfold to_dec; destruct (Nat.to_uint n) eqn:E; [apply (uint_digits (Decimal.D0 Decimal.Nil))|..]; apply uint_digits. Qed.
Lemma dec_nonempty n : to_dec n <> "".
Proof. unfold to_dec; destruct (Nat.to_uint n); discriminate. Qed.
Lemma digits_split a b c d : digits a -> digits b -> (a ++ "_" ++ c = b ++ "_" ++ d)%string -> a = b /\ c = d.
Proof.
  revert b; induction a as [|x a IH]; intros [|y b] Ha Hb H; cbn in *.
  - injection H; auto.
  - injection H as <- _; destruct Hb as [N _]; congruence.
  - injection H as -> _; destruct Ha as [N _]; congruence.
  - injection H as -> H; destruct (IH b) as [-> ->]; tauto.
Qed.
Lemma digits_no_sep a b c : digits a -> (a <> b ++ "_" ++ c)%string.
Proof.
  revert b; induction a as [|x a IH]; intros [|y b] Ha H; cbn in *; try discriminate; injection H as -> H; [tauto|].
  apply (IH b); tauto.
Qed.
Lemma node_name_inj i j : node_name i = node_name j -> i = j.
Proof. unfold node_name; cbn; intros [= H]; now apply to_dec_inj. Qed.
Lemma node_name_eqb i j : String.eqb (node_name i) (node_name j) = (i =? j)%nat.
Proof.
  destruct (Nat.eqb_spec i j) as [->|N]; [apply String.eqb_refl|].
  destruct (String.eqb_spec (node_name i) (node_name j)) as [H|]; [apply node_name_inj in H; contradiction|reflexivity].
Qed.
Lemma node_name_ref i : String.eqb (node_name i) ref_name = false.
Proof. reflexivity. Qed.
Lemma ref_node_name i : String.eqb ref_name (node_name i) = false.
Proof. reflexivity. Qed.
Lemma node_name_ground i : node_name i <> "0".
Proof. discriminate. Qed.

(** ** currents *)
Section Current.
  Context (v dv : string -> Q).
  (** The current of an element that is not a voltage source *)
  Definition current (e : element) : Q :=
    if is_a "R" e then (v (e_from e) - v (e_to e)) / e_value e
    else if is_a "C" e then e_value e * (dv (e_from e) - dv (e_to e))
    else if is_a "I" e then e_value e
    else 0.
  Definition passive (e : element) : Prop :=
    if is_a "R" e then ~ e_value e == 0 else if is_a "C" e then True else if is_a "I" e then True else False.
  Lemma law_current e c : passive e -> (law v dv e c <-> c == current e).
  Proof.
    unfold passive, law, current; destruct (is_a "R" e); [|destruct (is_a "C" e); [|destruct (is_a "I" e)]]; intros H; try contradiction; try reflexivity.
    split; intros E; [rewrite <- E; field; exact H|rewrite E; field; exact H].
  Qed.
  Definition out (p : string) (e : element) (c : Q) : Q :=
    (if String.eqb p (e_from e) then c else 0) - (if String.eqb p (e_to e) then c else 0).
  Lemma leaving_passive p es : forall cs, Forall passive es -> Forall2 (law v dv) es cs ->
    leaving p (combine es cs) == sumf (fun e => out p e (current e)) es.
  Proof.
    induction es as [|e es IH]; intros cs P F; inversion F as [|? c ? cs' L F']; subst; [reflexivity|].
    inversion P as [|? ? Pe Pes]; subst. unfold leaving in *; cbn [combine sumf]; rewrite (IH cs' Pes F').
    apply (law_current e c Pe) in L; cbn [fst snd]; unfold out.
    destruct (String.eqb p (e_from e)), (String.eqb p (e_to e)); rewrite ?L; ring.
  Qed.
  Lemma laws_hold es : Forall passive es -> Forall2 (law v dv) es (map current es).
  Proof.
    induction 1 as [|e es H _ IH]; cbn [map]; constructor; [apply law_current; [exact H|reflexivity]|exact IH].
  Qed.
End Current.

Definition positive (l : network) : Prop := forall i n k r, nth_error l i = Some n -> In (k, r) (n_ns n) -> 0 < r.
Definition unfixed (l : network) : Prop := forall i n, nth_error l i = Some n -> n_t n = None.

Lemma positive_tail n l : positive (n :: l) -> positive l.
Proof. intros H i m k r E; apply (H (Datatypes.S i) m k r E). Qed.
Lemma unfixed_tail n l : unfixed (n :: l) -> unfixed l.
Proof. intros H i m E; apply (H (Datatypes.S i) m E). Qed.

Lemma body_passive supply l : forall k, positive l -> unfixed l -> Forall passive (body supply k l).
Proof.
  induction l as [|n l IH]; intros k P U; cbn [body]; [constructor|].
  apply Forall_app; split; [|apply IH; [apply (positive_tail n l P)|apply (unfixed_tail n l U)]].
  unfold node_lines. rewrite (U 0%nat n eq_refl). rewrite !Forall_app. split; [|split; [|split; [|split]]].
  - destruct (Qltb 0 (n_c n)); repeat constructor.
  - apply Forall_forall; intros e He; apply in_map_iff in He as ([m r] & <- & I); unfold passive, is_a; cbn [e_name e_value fst snd append Ascii.eqb Bool.eqb].
    specialize (P 0%nat n m r eq_refl I); intros E; rewrite E in P; exact (Qlt_irrefl _ P).
  - constructor.
  - destruct (negb (Qeqb (n_hf n) 0)); repeat constructor.
  - destruct (Qeqb (n_htc n) 0) eqn:E; cbn [negb]; repeat constructor; unfold passive, is_a; cbn [e_name e_value append Ascii.eqb Bool.eqb].
    intros H. assert (Z : ~ n_htc n == 0) by (intros Z; apply Qeq_bool_iff in Z; unfold Qeqb in E; congruence).
    assert (X : 1 / n_htc n * n_htc n == 1) by (field; exact Z). rewrite H in X. discriminate X.
Qed.


Lemma node_out (v dv : string -> Q) supply i nd q : n_t nd = None ->
  (forall k r, In (k, r) (n_ns nd) -> 0 < r) ->
  sumf (fun e => out (node_name q) e (current v dv e)) (node_lines supply i nd) ==
  sumf (fun e => (ind (i =? q)%nat - ind (fst e =? q)%nat) * (v (node_name i) - v (node_name (fst e))) * (1 / snd e)) (n_ns nd)
  + (if (i =? q)%nat then (if Qltb 0 (n_c nd) then n_c nd * (dv (node_name i) - dv ref_name) else 0) + n_htc nd * (v (node_name i) - v ref_name) - n_hf nd else 0)
  + (if (supply =? q)%nat then n_hf nd else 0).
Proof.
  intros U P. unfold node_lines; rewrite U, !sumf_app; cbn [app sumf].
  assert (A : sumf (fun e => out (node_name q) e (current v dv e)) (map (fun e => mkElem ("R" ++ to_dec i ++ "_" ++ to_dec (fst e))%string (node_name i) (node_name (fst e)) (snd e)) (n_ns nd)) ==
    sumf (fun e => (ind (i =? q)%nat - ind (fst e =? q)%nat) * (v (node_name i) - v (node_name (fst e))) * (1 / snd e)) (n_ns nd)).
  { rewrite sumf_map; apply sumf_ext; intros [m r] I; unfold out, current, is_a; cbn [e_name e_from e_to e_value fst snd append Ascii.eqb Bool.eqb].
    rewrite !node_name_eqb, (Nat.eqb_sym q i), (Nat.eqb_sym q m). specialize (P m r I).
    assert (Z : ~ r == 0) by (intros Z; rewrite Z in P; exact (Qlt_irrefl _ P)).
    unfold ind; destruct (i =? q)%nat, (m =? q)%nat; field; exact Z. }
  rewrite A; clear A.
  assert (B : sumf (fun e => out (node_name q) e (current v dv e)) (if Qltb 0 (n_c nd) then [mkElem ("C" ++ to_dec i)%string (node_name i) ref_name (n_c nd)] else []) ==
    if (i =? q)%nat then (if Qltb 0 (n_c nd) then n_c nd * (dv (node_name i) - dv ref_name) else 0) else 0).
  { destruct (Qltb 0 (n_c nd)); cbn [sumf]; unfold out, current, is_a; cbn [e_name e_from e_to e_value append Ascii.eqb Bool.eqb];
      rewrite ?node_name_eqb, ?node_name_ref, ?(Nat.eqb_sym q i); destruct (i =? q)%nat; ring. }
  rewrite B; clear B.
  assert (C : sumf (fun e => out (node_name q) e (current v dv e)) (if negb (Qeqb (n_htc nd) 0) then [mkElem ("R" ++ to_dec i ++ "_" ++ ref_name)%string (node_name i) ref_name (1 / n_htc nd)] else []) ==
    if (i =? q)%nat then n_htc nd * (v (node_name i) - v ref_name) else 0).
  { unfold Qeqb; destruct (Qeq_bool (n_htc nd) 0) eqn:E; cbn [negb sumf].
    - apply Qeq_bool_iff in E; destruct (i =? q)%nat; rewrite ?E; ring.
    - assert (Z : ~ n_htc nd == 0) by (intros Z; apply Qeq_bool_iff in Z; congruence).
      unfold out, current, is_a; cbn [e_name e_from e_to e_value append Ascii.eqb Bool.eqb]; rewrite node_name_eqb, node_name_ref, (Nat.eqb_sym q i).
      destruct (i =? q)%nat; [field; exact Z|ring]. }
  rewrite C; clear C.
  assert (D : sumf (fun e => out (node_name q) e (current v dv e)) (if negb (Qeqb (n_hf nd) 0) then [mkElem ("I" ++ to_dec supply ++ "_" ++ to_dec i)%string (node_name supply) (node_name i) (n_hf nd)] else []) ==
    (if (supply =? q)%nat then n_hf nd else 0) - (if (i =? q)%nat then n_hf nd else 0)).
  { unfold Qeqb; destruct (Qeq_bool (n_hf nd) 0) eqn:E; cbn [negb sumf].
    - apply Qeq_bool_iff in E; destruct (i =? q)%nat, (supply =? q)%nat; rewrite ?E; ring.
    - unfold out, current, is_a; cbn [e_name e_from e_to e_value append Ascii.eqb Bool.eqb]; rewrite !node_name_eqb, (Nat.eqb_sym q i), (Nat.eqb_sym q supply).
      destruct (i =? q)%nat, (supply =? q)%nat; ring. }
  rewrite D. destruct (i =? q)%nat, (supply =? q)%nat; ring.
Qed.

(** What a node itself contributes *)
Definition own (v dv : string -> Q) (q : nat) (nd : node) : Q :=
  (if Qltb 0 (n_c nd) then n_c nd * (dv (node_name q) - dv ref_name) else 0) + n_htc nd * (v (node_name q) - v ref_name) - n_hf nd.

Lemma body_out (v dv : string -> Q) supply q l : forall k, unfixed l -> positive l ->
  sumf (fun e => out (node_name q) e (current v dv e)) (body supply k l) ==
  sumf (fun '(a, b, g) => (ind (a =? q)%nat - ind (b =? q)%nat) * (v (node_name a) - v (node_name b)) * g) (edges_from k l)
  + (if (k <=? q)%nat then match nth_error l (q - k) with Some nd => own v dv q nd | None => 0 end else 0)
  + (if (supply =? q)%nat then sumf n_hf l else 0).
Proof.
  induction l as [|nd l IH]; intros k U P; cbn [body edges_from sumf].
  - destruct (k <=? q)%nat, (supply =? q)%nat; try destruct (q - k)%nat; cbn; ring.
  - rewrite !sumf_app, (IH (Datatypes.S k) (unfixed_tail nd l U) (positive_tail nd l P)).
    rewrite (node_out v dv supply k nd q (U 0%nat nd eq_refl) (fun m r => P 0%nat nd m r eq_refl)).
    rewrite sumf_map; cbn [fst snd].
    assert (E : (if (k <=? q)%nat then match nth_error (nd :: l) (q - k) with Some nd => own v dv q nd | None => 0 end else 0) ==
      (if (k =? q)%nat then own v dv q nd else 0) + (if (Datatypes.S k <=? q)%nat then match nth_error l (q - Datatypes.S k) with Some nd => own v dv q nd | None => 0 end else 0)).
    { destruct (Nat.eqb_spec k q) as [->|N].
      - rewrite Nat.leb_refl, Nat.sub_diag, (proj2 (Nat.leb_gt (Datatypes.S q) q)) by lia. cbn [nth_error]. ring.
      - destruct (Nat.leb_spec k q) as [L|L]; [|rewrite (proj2 (Nat.leb_gt (Datatypes.S k) q)) by lia; ring].
        rewrite (proj2 (Nat.leb_le (Datatypes.S k) q)) by lia.
        replace (q - k)%nat with (Datatypes.S (q - Datatypes.S k)) by lia. cbn [nth_error]. ring. }
    rewrite E; unfold own. destruct (Nat.eqb_spec k q) as [->|N]; destruct (supply =? q)%nat; ring.
Qed.

Lemma leaving_app p a b c d : List.length a = List.length c -> leaving p (combine (a ++ b) (c ++ d)) == leaving p (combine a c) + leaving p (combine b d).
Proof.
  revert c; induction a as [|x a IH]; intros [|y c] H; try discriminate; cbn [app combine]; unfold leaving in *; cbn [sumf]; [ring|].
  rewrite IH by (cbn in H; lia). ring.
Qed.
Lemma leaving_other p es cs : (forall e, In e es -> e_from e <> p /\ e_to e <> p) -> leaving p (combine es cs) == 0.
Proof.
  revert cs; induction es as [|e es IH]; intros [|c cs] H; cbn [combine]; unfold leaving in *; cbn [sumf]; try reflexivity.
  rewrite IH by (intros; apply H; right; assumption). destruct (H e (or_introl eq_refl)) as [A B]. cbn [fst snd].
  destruct (String.eqb_spec p (e_from e)); [congruence|]. destruct (String.eqb_spec p (e_to e)); [congruence|]. ring.
Qed.
Lemma Forall2_len {A B} (R : A -> B -> Prop) l r : Forall2 R l r -> List.length l = List.length r.
Proof. induction 1; cbn; congruence. Qed.
Lemma body_in supply l : forall k e, In e (body supply k l) -> exists i nd, nth_error l i = Some nd /\ In e (node_lines supply (k + i) nd).
Proof.
  induction l as [|nd l IH]; intros k e H; cbn [body] in H; [destruct H|]. apply in_app_iff in H as [H|H].
  - exists 0%nat, nd; rewrite Nat.add_0_r; auto.
  - destruct (IH _ _ H) as (i & nd' & E & I); exists (Datatypes.S i), nd'; split; [exact E|]. now rewrite Nat.add_succ_r.
Qed.
Lemma in_body supply l : forall k i nd e, nth_error l i = Some nd -> In e (node_lines supply (k + i) nd) -> In e (body supply k l).
Proof.
  induction l as [|nd l IH]; intros k [|i] nd' e E I; try discriminate; cbn [body]; apply in_app_iff.
  - injection E as <-; rewrite Nat.add_0_r in I; auto.
  - right; apply (IH (Datatypes.S k) i nd' e E). now rewrite Nat.add_succ_r in I.
Qed.

(** ** the whole netlist *)
Lemma leb0 i : (0 <=? i)%nat = true.
Proof. reflexivity. Qed.
Lemma tC_entry i j l : forall k, entry (tC_from k l) i j ==
  if (i =? j)%nat then (if (k <=? i)%nat then match nth_error l (i - k) with Some nd => if Qltb 0 (n_c nd) then n_c nd else 0 | None => 0 end else 0) else 0.
Proof.
  induction l as [|nd l IH]; intros k; cbn [tC_from].
  - unfold entry; cbn [sumf]. destruct (i =? j)%nat, (k <=? i)%nat; try destruct (i - k)%nat; reflexivity.
  - unfold entry in *; rewrite sumf_app, IH.
    assert (A : sumf (fun '(a, b, v) => if ((a =? i) && (b =? j))%nat%bool then v else 0) (if Qltb 0 (n_c nd) then stamp1 k (n_c nd) else []) ==
      if ((k =? i) && (k =? j))%nat%bool then (if Qltb 0 (n_c nd) then n_c nd else 0) else 0).
    { destruct (Qltb 0 (n_c nd)); cbn [stamp1 sumf]; destruct ((k =? i) && (k =? j))%nat%bool; ring. }
    rewrite A; clear A. destruct (Nat.eqb_spec i j) as [<-|N].
    + rewrite Bool.andb_diag. destruct (Nat.eqb_spec k i) as [->|M].
      * rewrite Nat.leb_refl, Nat.sub_diag, (proj2 (Nat.leb_gt (Datatypes.S i) i)) by lia. cbn [nth_error]. ring.
      * destruct (Nat.leb_spec k i) as [L|L]; [|rewrite (proj2 (Nat.leb_gt (Datatypes.S k) i)) by lia; ring].
        rewrite (proj2 (Nat.leb_le (Datatypes.S k) i)) by lia. replace (i - k)%nat with (Datatypes.S (i - Datatypes.S k)) by lia. cbn [nth_error]. ring.
    + destruct (Nat.eqb_spec k i), (Nat.eqb_spec k j); cbn [andb]; try ring; congruence.
Qed.
Lemma tC_mulv l x i : (i < List.length l)%nat ->
  mulv (List.length l) (entry (tC_from 0 l)) x i == match nth_error l i with Some nd => (if Qltb 0 (n_c nd) then n_c nd else 0) * x i | None => 0 end.
Proof.
  intros L; unfold mulv.
  rewrite (sumf_ext _ (fun j => if (j =? i)%nat then (match nth_error l i with Some nd => if Qltb 0 (n_c nd) then n_c nd else 0 | None => 0 end) * x j else 0)).
  - rewrite (sumf_delta (fun j => match nth_error l i with Some nd => if Qltb 0 (n_c nd) then n_c nd else 0 | None => 0 end * x j) i) by exact L.
    destruct (nth_error l i); ring.
  - intros j _; rewrite tC_entry, leb0, Nat.sub_0_r, (Nat.eqb_sym j i). destruct (i =? j)%nat; [|ring]. reflexivity.
Qed.

Section Whole.
  Context (refT : Q) (l : network).
  Context (Hp : positive l) (Hb : in_bounds (List.length l) (List.length l) (tG_from 0 l) = true).
  Notation n := (List.length l).

  Lemma neighbours_below i nd k r : nth_error l i = Some nd -> In (k, r) (n_ns nd) -> (k < n)%nat.
  Proof.
    intros E I. destruct (edges_in_bounds l Hb i k (1 / r)) as [_ K]; [|exact K].
    apply edges_from_in. exists i, nd, r. auto.
  Qed.
  Lemma body_ends e : In e (body n 0 l) -> (exists i, (i <= n)%nat /\ e_from e = node_name i) /\ (e_to e = ref_name \/ exists i, (i < n)%nat /\ e_to e = node_name i).
  Proof.
    intros H; apply body_in in H as (i & nd & E & H); cbn [Nat.add] in H.
    assert (L : (i < n)%nat) by (apply nth_error_Some; congruence).
    unfold node_lines in H; rewrite !in_app_iff in H. destruct H as [H|[H|[H|[H|H]]]].
    - destruct (Qltb 0 (n_c nd)); [|destruct H]. destruct H as [<-|[]]. split; [exists i; split; [lia|reflexivity]|left; reflexivity].
    - apply in_map_iff in H as ([k r] & <- & I). split; [exists i; split; [lia|reflexivity]|].
      right; exists k; split; [exact (neighbours_below i nd k r E I)|reflexivity].
    - destruct (n_t nd); [|destruct H]. destruct H as [<-|[]]. split; [exists i; split; [lia|reflexivity]|left; reflexivity].
    - destruct (negb (Qeqb (n_hf nd) 0)); [|destruct H]. destruct H as [<-|[]]. split; [exists n; split; [lia|reflexivity]|right; exists i; auto].
    - destruct (negb (Qeqb (n_htc nd) 0)); [|destruct H]. destruct H as [<-|[]]. split; [exists i; split; [lia|reflexivity]|left; reflexivity].
  Qed.

  (** The heat balance of a node of the network *)
  Lemma balance (v dv : string -> Q) q nd : nth_error l q = Some nd -> unfixed l ->
    v ref_name == refT -> dv ref_name == 0 ->
    (sumf (fun e => out (node_name q) e (current v dv e)) (body n 0 l) == 0 <->
     mulv n (entry (tC_from 0 l)) (fun i => dv (node_name i)) q + mulv n (entry (tG_from 0 l)) (fun i => v (node_name i)) q == nth q (make_full_rhs l refT) 0).
  Proof.
    intros E U R D. assert (L : (q < n)%nat) by (apply nth_error_Some; congruence).
    rewrite (body_out v dv n q l 0%nat U Hp), leb0, Nat.sub_0_r, E, (proj2 (Nat.eqb_neq n q)) by lia.
    rewrite tC_mulv, E by exact L. rewrite G_mulv by (assumption || exact L).
    assert (F : nth q (make_full_rhs l refT) 0 = n_hf nd + n_htc nd * refT).
    { unfold make_full_rhs. exact (nth_error_nth _ _ _ (map_nth_error (fun nd => n_hf nd + n_htc nd * refT) q l E)). }
    assert (G : get_htc l q = n_htc nd) by (unfold get_htc; now rewrite (nth_error_nth _ _ _ E)).
    rewrite F, G. unfold esum, own.
    set (S1 := sumf _ (edges_from 0 l)). destruct (Qltb 0 (n_c nd)); rewrite ?R, ?D; split; intros H; lra.
  Qed.

  (** The current into the supply node *)
  Lemma supply_out (v dv : string -> Q) : unfixed l ->
    sumf (fun e => out (node_name n) e (current v dv e)) (body n 0 l) == sumf n_hf l.
  Proof.
    intros U. rewrite (body_out v dv n n l 0%nat U Hp), leb0, Nat.sub_0_r, Nat.eqb_refl, (proj2 (nth_error_None l n)) by lia.
    rewrite sumf_zero; [ring|]. intros [[a b] g] I. destruct (edges_in_bounds l Hb _ _ _ I) as [A B].
    rewrite (proj2 (Nat.eqb_neq a n)), (proj2 (Nat.eqb_neq b n)) by lia. unfold ind; ring.
  Qed.
End Whole.
