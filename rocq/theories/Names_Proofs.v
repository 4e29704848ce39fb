From Verif Require Import Base Names_Model Names_Spec.
From Coq Require Import DecimalString DecimalNat DecimalFacts.
Local Open Scope string_scope.

Lemma to_uint_nonnil n : Nat.to_uint n <> Decimal.Nil.
Proof.
  rewrite <- (DecimalNat.Unsigned.of_to n), DecimalNat.Unsigned.to_of.
  apply DecimalFacts.unorm_nonnil.
Qed.

Lemma to_dec_inj a b : to_dec a = to_dec b -> a = b.
Proof.
  unfold to_dec; intros H.
  assert (H' : NilZero.uint_of_string (NilZero.string_of_uint (Nat.to_uint a)) =
               NilZero.uint_of_string (NilZero.string_of_uint (Nat.to_uint b))) by (rewrite H; auto).
  rewrite !NilZero.usu in H' by (apply to_uint_nonnil).
  injection H' as H'; now apply DecimalNat.Unsigned.to_uint_inj.
Qed.

Lemma append_inj_l (a b c : string) : a ++ b = a ++ c -> b = c.
Proof. induction a as [|x a IH]; simpl; auto; intros H; injection H; auto. Qed.

Lemma cand_inj base a b : base ++ to_dec a = base ++ to_dec b -> a = b.
Proof. intros H; apply append_inj_l in H; now apply to_dec_inj. Qed.

(** the search loop, for a count function that decides membership in [used] *)
Section Loop.
  Context (used : list string) (count : string -> bool).
  Context (Hcount : forall n, count n = true <-> In n used).

  Lemma count_false n : count n = false <-> ~ In n used.
  Proof. rewrite <- Hcount; destruct (count n); split; congruence. Qed.

  Lemma loop_sound fuel key i r :
    next_key_loop fuel count key i = Ok r ->
    ~ In r used /\ exists k, i <= k /\ r = key ++ to_dec k /\
      forall j, i <= j < k -> In (key ++ to_dec j) used.
  Proof.
    revert i; induction fuel as [|fuel IH]; simpl; intros i H; [discriminate|].
    destruct (count (key ++ to_dec i)) eqn:E; simpl in H.
    - apply IH in H as (Hr & k & Hk & -> & Hall); split; auto.
      exists k; repeat split; auto; [lia|]; intros j Hj.
      destruct (Nat.eq_dec j i) as [->|]; [now apply Hcount|apply Hall; lia].
    - injection H as <-; split; [now apply count_false|].
      exists i; repeat split; auto; intros; lia.
  Qed.

  Lemma loop_fuel_mono fuel fuel' key i r :
    fuel <= fuel' -> next_key_loop fuel count key i = Ok r -> next_key_loop fuel' count key i = Ok r.
  Proof.
    revert fuel' i; induction fuel as [|fuel IH]; simpl; intros fuel' i Hle H; [discriminate|].
    destruct fuel' as [|fuel']; [lia|]; simpl.
    destruct (count (key ++ to_dec i)); simpl in *; auto; apply IH; auto; lia.
  Qed.

  Lemma loop_out fuel key i :
    next_key_loop fuel count key i = OutOfFuel ->
    forall j, i <= j < i + fuel -> In (key ++ to_dec j) used.
  Proof.
    revert i; induction fuel as [|fuel IH]; simpl; intros i H j Hj; [lia|].
    destruct (count (key ++ to_dec i)) eqn:E; simpl in H; [|discriminate].
    destruct (Nat.eq_dec j i) as [->|]; [now apply Hcount|eapply IH; eauto; lia].
  Qed.

  Lemma loop_cases fuel key i :
    next_key_loop fuel count key i = OutOfFuel \/ exists r, next_key_loop fuel count key i = Ok r.
  Proof.
    revert i; induction fuel as [|fuel IH]; simpl; intros i; auto.
    destruct (count _); simpl; eauto.
  Qed.

  Lemma loop_terminates key i : exists r, next_key_loop (S (List.length used)) count key i = Ok r.
  Proof.
    destruct (loop_cases (S (List.length used)) key i) as [H|H]; auto; exfalso.
    assert (Hsub : incl (map (fun j => key ++ to_dec j) (seq i (S (List.length used)))) used).
    { intros x Hx; apply in_map_iff in Hx as (j & <- & Hj); apply in_seq in Hj.
      eapply loop_out; eauto; lia. }
    assert (Hnd : NoDup (map (fun j => key ++ to_dec j) (seq i (S (List.length used))))).
    { apply FinFun.Injective_map_NoDup; [|apply seq_NoDup].
      intros a b Hab; apply cand_inj in Hab; auto. }
    apply NoDup_incl_length in Hsub; auto.
    rewrite map_length, seq_length in Hsub; lia.
  Qed.

  Lemma next_key_returns key :
    exists r, returns (fun fuel => next_key fuel count key) r /\ first_free used key r.
  Proof.
    unfold next_key; destruct (count key) eqn:E; simpl.
    - destruct (loop_terminates key 1) as [r Hr]; exists r; split.
      + exists (S (List.length used)); intros fuel Hf; eapply loop_fuel_mono; eauto.
      + apply loop_sound in Hr as (Hni & k & Hk & -> & Hall); split; auto; right; split.
        * now apply Hcount.
        * exists k; repeat split; auto.
    - exists key; split; [exists 0; auto|].
      apply count_false in E; split; auto; left; auto.
  Qed.
End Loop.

Lemma layer_name_used_spec names n : layer_name_used names n = true <-> In n names.
Proof.
  unfold layer_name_used; rewrite existsb_exists; split.
  - intros (x & Hx & E); apply String.eqb_eq in E; subst; auto.
  - intros H; exists n; split; auto; apply String.eqb_refl.
Qed.

Lemma next_layer_name_returns names base :
  exists r, returns (fun fuel => get_next_layer_name fuel names base) r /\ first_free names base r.
Proof. apply (next_key_returns names (layer_name_used names)), layer_name_used_spec. Qed.

Lemma next_int_key_returns (used : list Z) (count : Z -> bool) key :
  (forall z, count z = true <-> In z used) ->
  exists r, returns (fun fuel => next_int_key fuel count key) r /\
    ~ In r used /\ (key <= r)%Z /\ forall z, (key <= z < r)%Z -> In z used.
Proof.
  intros Hcount.
  assert (Hsound : forall fuel k r, next_int_key fuel count k = Ok r ->
            ~ In r used /\ (k <= r)%Z /\ forall z, (k <= z < r)%Z -> In z used).
  { induction fuel as [|fuel IH]; simpl; intros k r H; [discriminate|].
    destruct (count k) eqn:E.
    - apply IH in H as (H1 & H2 & H3); repeat split; auto; [lia|]; intros z Hz.
      destruct (Z.eq_dec z k) as [->|]; [now apply Hcount|apply H3; lia].
    - injection H as <-; repeat split; try lia.
      intros Hin; apply Hcount in Hin; congruence. }
  assert (Hout : forall fuel k, next_int_key fuel count k = OutOfFuel ->
            forall j, (j < fuel)%nat -> In (k + Z.of_nat j)%Z used).
  { induction fuel as [|fuel IH]; simpl; intros k H j Hj; [lia|].
    destruct (count k) eqn:E; [|discriminate].
    destruct j as [|j]; [rewrite Z.add_0_r; now apply Hcount|].
    replace (k + Z.of_nat (S j))%Z with (k + 1 + Z.of_nat j)%Z by lia; apply (IH (k + 1)%Z); auto; lia. }
  assert (Hmono : forall fuel fuel' k r, (fuel <= fuel')%nat ->
            next_int_key fuel count k = Ok r -> next_int_key fuel' count k = Ok r).
  { induction fuel as [|fuel IH]; simpl; intros fuel' k r Hle H; [discriminate|].
    destruct fuel' as [|fuel']; [lia|]; simpl; destruct (count k); auto; apply IH; auto; lia. }
  destruct (next_int_key (S (List.length used)) count key) as [r| | |] eqn:E.
  - exists r; split; [exists (S (List.length used)); intros; eapply Hmono; eauto|eauto].
  - exfalso; revert E; generalize (S (List.length used)) key; clear; induction n; simpl; intros k H;
      [discriminate|destruct (count k); [eauto|discriminate]].
  - exfalso; revert E; generalize (S (List.length used)) key; clear; induction n; simpl; intros k H;
      [discriminate|destruct (count k); [eauto|discriminate]].
  - exfalso.
    assert (Hsub : incl (map (fun j => key + Z.of_nat j)%Z (seq 0 (S (List.length used)))) used).
    { intros x Hx; apply in_map_iff in Hx as (j & <- & Hj); apply in_seq in Hj; eapply Hout; eauto; lia. }
    assert (Hnd : NoDup (map (fun j => key + Z.of_nat j)%Z (seq 0 (S (List.length used))))).
    { apply FinFun.Injective_map_NoDup; [intros a b; lia|apply seq_NoDup]. }
    apply NoDup_incl_length in Hsub; auto; rewrite map_length, seq_length in Hsub; lia.
Qed.

(** padstack instance names *)
Lemma inst_name_returns used d :
  exists n, returns (fun fuel => next_padstack_inst_name fuel used d) (n, n :: used) /\
    ~ In n used /\
    exists k, 1 <= k /\ n = (d ++ "_inst_") ++ decimal k /\
      forall j, 1 <= j < k -> In ((d ++ "_inst_") ++ decimal j) used.
Proof.
  destruct (loop_terminates used (layer_name_used used) (layer_name_used_spec used) (d ++ "_inst_") 1) as [n Hn].
  exists n; split; [|exact (loop_sound used _ (layer_name_used_spec used) _ _ _ _ Hn)].
  exists (S (List.length used)); intros fuel Hf; unfold next_padstack_inst_name.
  now rewrite (loop_fuel_mono (layer_name_used used) _ _ _ _ _ Hf Hn).
Qed.

Lemma inst_names_returns defs : forall used,
  exists ns, returns (fun fuel => padstack_inst_names fuel used defs) (ns, rev ns ++ used)%list /\
    List.length ns = List.length defs /\ NoDup ns /\ (forall n, In n ns -> ~ In n used).
Proof.
  induction defs as [|d defs IH]; intros used.
  - exists []; repeat split; [exists 0; auto|constructor|easy].
  - destruct (inst_name_returns used d) as (n & [f1 H1] & Hni & _).
    destruct (IH (n :: used)) as (ns & [f2 H2] & Hlen & Hnd & Hfresh).
    exists (n :: ns); repeat split.
    + exists (f1 + f2); intros fuel Hf; simpl.
      rewrite H1 by lia; rewrite H2 by lia; simpl; rewrite <- app_assoc; auto.
    + simpl; auto.
    + constructor; auto; intros H; apply (Hfresh n H); now left.
    + intros x [->|Hx]; auto; intros Hin; apply (Hfresh x Hx); now right.
Qed.
