From Verif Require Import Base Version_Model.
Local Open Scope N_scope.

Definition two_digits (v : version) : Prop := fst v < 100 /\ snd v < 100.

(** the natural order of versions: major first, then minor *)
Definition before (a b : version) : Prop := fst a < fst b \/ (fst a = fst b /\ snd a < snd b).

Lemma to_int_small v : two_digits v -> to_int v = fst v * 100 + snd v.
Proof. intros [H1 H2]; unfold to_int; rewrite !N.mod_small; auto. Qed.

Theorem C17_round_trip : forall v, two_digits v -> from_int (to_int v) = v.
Proof.
  intros [a b] H; rewrite to_int_small by auto; destruct H as [H1 H2]; unfold from_int; simpl in *.
  rewrite N.add_comm, N.div_add, N.mod_add by lia.
  rewrite (N.div_small b), (N.mod_small b) by auto; rewrite N.mod_small; auto.
Qed.
Print Assumptions C17_round_trip.

Theorem C17_int_round_trip : forall n, n < 10000 -> to_int (from_int n) = n.
Proof.
  intros n H; unfold to_int, from_int; cbn [fst snd].
  assert (n / 100 < 100) by (apply N.div_lt_upper_bound; lia).
  rewrite (N.mod_small (n / 100 mod 100)), (N.mod_small (n / 100)) by (try apply N.mod_small; auto; apply N.mod_lt; lia).
  rewrite (N.mod_small (n mod 100)) by (apply N.mod_lt; lia).
  pose proof (N.div_mod n 100); lia.
Qed.
Print Assumptions C17_int_round_trip.

Theorem C17_order :
  forall a b, two_digits a -> two_digits b ->
    (version_lt a b = true <-> before a b) /\ (version_gt a b = true <-> before b a).
Proof.
  intros [a1 a2] [b1 b2] Ha Hb; unfold version_lt, version_gt, before.
  rewrite !N.ltb_lt, !to_int_small by auto; destruct Ha, Hb; simpl in *; lia.
Qed.
Print Assumptions C17_order.

(** a strict order on all versions, total on two-digit ones *)
Theorem C17_strict_order :
  (forall a, version_lt a a = false) /\
  (forall a b c, version_lt a b = true -> version_lt b c = true -> version_lt a c = true) /\
  (forall a b, version_gt a b = version_lt b a).
Proof.
  unfold version_lt, version_gt; split; [|split]; intros.
  - apply N.ltb_irrefl.
  - apply N.ltb_lt in H, H0; apply N.ltb_lt; lia.
  - reflexivity.
Qed.
Print Assumptions C17_strict_order.

Theorem C17_total_partial :
  forall a b, two_digits a -> two_digits b -> version_lt a b = true \/ a = b \/ version_lt b a = true.
Proof.
  intros a b Ha Hb; unfold version_lt; rewrite !N.ltb_lt.
  destruct (N.lt_trichotomy (to_int a) (to_int b)) as [H|[H|H]]; auto.
  right; left; rewrite <- (C17_round_trip a Ha), <- (C17_round_trip b Hb), H; auto.
Qed.
Print Assumptions C17_total_partial.

Example C17_case : two_digits (1, 99) /\ two_digits (2, 0) /\ to_int (1, 99) = 199 /\ version_lt (1, 99) (2, 0) = true.
Proof. repeat split; vm_compute; reflexivity. Qed.

(** Finding: from 100 on distinct versions compare equal and newer ones compare older. *)
Theorem C17_total_refuted :
  exists a b, a <> b /\ before a b /\ version_lt a b = false /\ version_lt b a = false.
Proof. exists (0, 0), (100, 0); split; [discriminate|split; [left; reflexivity|split; reflexivity]]. Qed.
Print Assumptions C17_total_refuted.

Theorem C17_order_refuted : exists a b, before a b /\ version_lt b a = true.
Proof. exists (1, 99), (1, 100); split; [right; split; reflexivity|reflexivity]. Qed.
Print Assumptions C17_order_refuted.
