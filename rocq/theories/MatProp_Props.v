From Verif Require Import Base MatProp_Model MatProp_Spec.
From Coq Require Import Lqa Setoid.
Local Open Scope Q_scope.

Lemma run_declared ctor sets : mp_run ctor sets = mp_values (declared ctor sets).
Proof.
  unfold mp_run, declared; revert ctor; induction sets as [|s sets IH] using rev_ind; intros ctor; auto.
  rewrite fold_left_app, last_last; reflexivity.
Qed.

(** Constant properties: the reported dimensions are those of the last setting. *)
Theorem C16_value_dimensions :
  forall ctor sets, v_dims (mp_run ctor sets) = dims (declared ctor sets).
Proof. intros; rewrite run_declared; destruct (declared ctor sets); reflexivity. Qed.
Print Assumptions C16_value_dimensions.

(** The simple getter always succeeds, with the (first) component. *)
Theorem C16_value_simple :
  forall ctor sets old, v_simple (mp_run ctor sets) old = Ok (true, simple_component (declared ctor sets)).
Proof. intros; rewrite run_declared; destruct (declared ctor sets); reflexivity. Qed.
Print Assumptions C16_value_simple.

(** Indices out of range fail and leave the output alone; no query of a constant property throws. *)
Theorem C16_value_out_of_range :
  forall ctor sets row col old,
    ((3 <= row)%nat -> v_aniso (mp_run ctor sets) row old = Ok (false, old)) /\
    ((3 <= row \/ 3 <= col)%nat -> v_tensor (mp_run ctor sets) row col old = Ok (false, old)).
Proof.
  intros ctor sets row col old; unfold v_aniso, v_tensor; split; intros H.
  - apply Nat.leb_le in H; rewrite H; auto.
  - assert ((3 <=? row) || (3 <=? col) = true)%nat as ->; auto.
    apply orb_true_iff; destruct H as [H|H]; apply Nat.leb_le in H; auto.
Qed.
Print Assumptions C16_value_out_of_range.

Ltac small i := destruct i as [|[|[|i]]]; [..|exfalso; lia].

(** In range: the declared component, for simple and anisotropic properties queried per direction. *)
Theorem C16_value_anisotropic_partial :
  forall ctor sets row old, (row < 3)%nat -> fst (dims (declared ctor sets)) = 1%nat \/ snd (dims (declared ctor sets)) = 1%nat ->
    v_aniso (mp_run ctor sets) row old = Ok (true, diag_component (declared ctor sets) row).
Proof.
  intros ctor sets row old Hr Hd; rewrite run_declared.
  destruct (declared ctor sets); simpl in Hd; [| |lia]; small row; reflexivity.
Qed.
Print Assumptions C16_value_anisotropic_partial.

(** In range: every component of a tensor; the diagonal of the others. *)
Theorem C16_value_tensor_partial :
  forall ctor sets row col old, (row < 3)%nat -> (col < 3)%nat ->
    dims (declared ctor sets) = (3, 3)%nat \/ row = col ->
    v_tensor (mp_run ctor sets) row col old = Ok (true, tensor_component (declared ctor sets) row col).
Proof.
  intros ctor sets row col old Hr Hc Hd; rewrite run_declared.
  destruct (declared ctor sets); simpl in Hd.
  - assert (row = col) as -> by (destruct Hd; congruence); small col; reflexivity.
  - assert (row = col) as -> by (destruct Hd; congruence); small col; reflexivity.
  - small row; small col; reflexivity.
Qed.
Print Assumptions C16_value_tensor_partial.

Example C16_value_case :
  v_dims (mp_run (SetSimple 1) [SetAniso 1 2 3]) = (3, 1)%nat /\
  v_aniso (mp_run (SetSimple 1) [SetAniso 1 2 3]) 2 0 = Ok (true, 3) /\
  v_tensor (mp_run (SetSimple 1) [SetTensor 1 2 3 4 5 6 7 8 9]) 1 2 0 = Ok (true, 6).
Proof. repeat split. Qed.

(** Findings: off-diagonal tensor queries of a simple or anisotropic property answer the diagonal value instead of 0
    (full coupling between axes), and an anisotropic query of a tensor answers its first column, not its diagonal. *)
Theorem C16_value_tensor_off_diagonal_refuted :
  exists ctor row col old, (row < 3)%nat /\ (col < 3)%nat /\
    ~ succeeds_with (v_tensor (mp_run ctor []) row col old) (tensor_component (declared ctor []) row col).
Proof.
  exists (SetAniso 1 2 3), 1%nat, 2%nat, 0; split; [lia|split; [lia|]].
  intros (q & H & E); injection H as <-; vm_compute in E; discriminate.
Qed.
Print Assumptions C16_value_tensor_off_diagonal_refuted.

Theorem C16_value_anisotropic_of_tensor_refuted :
  exists ctor row old, (row < 3)%nat /\
    ~ succeeds_with (v_aniso (mp_run ctor []) row old) (diag_component (declared ctor []) row).
Proof.
  exists (SetTensor 1 2 3 4 5 6 7 8 9), 1%nat, 0; split; [lia|].
  intros (q & H & E); injection H as <-; vm_compute in E; discriminate.
Qed.
Print Assumptions C16_value_anisotropic_of_tensor_refuted.

(** Polynomial properties *)
Lemma calc_from_sum cs t : forall i acc, calc_from cs t i acc == acc + power_sum cs t i.
Proof. induction cs as [|c cs IH]; intros i acc; cbn [calc_from power_sum]; [|rewrite IH]; ring. Qed.

Lemma calculate_ok cs t : cs <> [] -> exists q, calculate cs t = Ok q /\ q == polynomial cs t.
Proof.
  destruct cs as [|c cs]; [congruence|intros _]; exists (calc_from cs t 1 c); split; auto.
  rewrite calc_from_sum; unfold polynomial; cbn [power_sum Z.of_nat]; change (t ^ 0) with 1; ring.
Qed.

Lemma select_ok (r : res (list Q)) c t : r = Ok c -> c <> [] ->
  succeeds_with (ok_val (bind r (fun c => calculate c t))) (polynomial c t).
Proof.
  intros -> Hc; destruct (calculate_ok c t Hc) as (q & Hq & E).
  exists q; simpl; rewrite Hq; auto.
Qed.

(** With 1, 3 or 9 non-empty coefficient lists, each getter evaluates sum c_i T^i of the declared component. *)
Theorem C16_polynomial_simple :
  forall c cs t old, c <> [] -> succeeds_with (p_simple (c :: cs) t old) (polynomial c t).
Proof. intros; apply select_ok; auto. Qed.
Print Assumptions C16_polynomial_simple.

Theorem C16_polynomial_anisotropic :
  forall cs row t old, List.length cs = 3%nat -> (row < 3)%nat -> ~ In [] cs ->
    succeeds_with (p_aniso cs t row old) (polynomial (nth row cs []) t).
Proof.
  intros cs row t old Hl Hr Hn; unfold p_aniso; rewrite Hl; apply select_ok.
  - unfold vat; cbn [Nat.eqb]; rewrite (nth_error_nth' cs []) by lia; auto.
  - intros E; apply Hn; rewrite <- E; apply nth_In; lia.
Qed.
Print Assumptions C16_polynomial_anisotropic.

Theorem C16_polynomial_tensor :
  forall cs row col t old, List.length cs = 9%nat -> (row < 3)%nat -> (col < 3)%nat -> ~ In [] cs ->
    succeeds_with (p_tensor cs t row col old) (polynomial (nth (row * 3 + col) cs []) t).
Proof.
  intros cs row col t old Hl Hr Hc Hn; unfold p_tensor; rewrite Hl; apply select_ok.
  - unfold vat; cbn [Nat.eqb]; rewrite (nth_error_nth' cs []) by lia; auto.
  - intros E; apply Hn; rewrite <- E; apply nth_In; lia.
Qed.
Print Assumptions C16_polynomial_tensor.

(** The dimensions are those of the number of coefficient lists; any other number fails the assertion. *)
Theorem C16_polynomial_dimensions : forall cs,
  (List.length cs = 1%nat -> p_dims cs = Ok (1, 1)%nat) /\
  (List.length cs = 3%nat -> p_dims cs = Ok (3, 1)%nat) /\
  (List.length cs = 9%nat -> p_dims cs = Ok (3, 3)%nat) /\
  (~ In (List.length cs) [1; 3; 9]%nat -> p_dims cs = Throw).
Proof.
  intros cs; unfold p_dims; repeat split; intros H; try (rewrite H; reflexivity).
  cbn [In] in H; destruct (Nat.eqb_spec (List.length cs) 1), (Nat.eqb_spec (List.length cs) 3), (Nat.eqb_spec (List.length cs) 9); auto; exfalso; apply H; auto.
Qed.
Print Assumptions C16_polynomial_dimensions.

(** Entry (row, col) of anything but a tensor: the row's polynomial of a vector, else the first one. *)
Theorem C16_polynomial_tensor_of_others : forall cs row col t old, ~ In [] cs -> cs <> [] ->
  (List.length cs = 3%nat -> (row < 3)%nat -> succeeds_with (p_tensor cs t row col old) (polynomial (nth row cs []) t)) /\
  (List.length cs <> 3%nat -> List.length cs <> 9%nat -> succeeds_with (p_tensor cs t row col old) (polynomial (hd [] cs) t)).
Proof.
  intros cs row col t old Hn Hne; unfold p_tensor; split; intros H.
  - intros Hr; rewrite H; cbn [Nat.eqb]; apply select_ok.
    + unfold vat; rewrite (nth_error_nth' cs []) by lia; auto.
    + intros E; apply Hn; rewrite <- E; apply nth_In; lia.
  - intros H'; apply Nat.eqb_neq in H, H'; rewrite H, H'; destruct cs as [|c cs]; [congruence|].
    apply select_ok; [reflexivity|]; intros E; apply Hn; left; exact E.
Qed.
Print Assumptions C16_polynomial_tensor_of_others.
Example C16_polynomial_others_case : p_tensor [[1]; [1; 2]; [1; 2; 3]] 2 2 1 0 = Ok (true, 17) /\ p_tensor [[4; 1]; [7]] 2 2 1 0 = Ok (true, 6).
Proof. split; vm_compute; reflexivity. Qed.

Example C16_polynomial_case :
  p_aniso [[1]; [1; 2]; [1; 2; 3]] 2 2 0 = Ok (true, 17) /\ polynomial [1; 2; 3] 2 == 17.
Proof. split; vm_compute; reflexivity. Qed.

(** Findings: polynomial getters do not check their indices as constant properties do – a bad row throws on an
    anisotropic property and succeeds on a simple one – and an empty coefficient list is undefined behaviour. *)
Theorem C16_polynomial_range_refuted :
  exists cs row t old, (3 <= row)%nat /\ p_aniso cs t row old <> Ok (false, old) /\ p_aniso cs t row old = Throw.
Proof. exists [[1]; [1]; [1]], 3%nat, 0, 0; split; [lia|split; [discriminate|reflexivity]]. Qed.
Print Assumptions C16_polynomial_range_refuted.

Theorem C16_polynomial_simple_range_refuted :
  exists cs row t old, (3 <= row)%nat /\ p_aniso cs t row old = Ok (true, 1).
Proof. exists [[1]], 7%nat, 0, 0; split; [lia|reflexivity]. Qed.
Print Assumptions C16_polynomial_simple_range_refuted.

Theorem C16_polynomial_empty_is_ub :
  forall t old, p_simple [] t old = UB /\ p_simple [[]] t old = UB.
Proof. split; reflexivity. Qed.
Print Assumptions C16_polynomial_empty_is_ub.
