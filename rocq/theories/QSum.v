(** Finite sums over [Q], shared by the numeric areas. *)
From Verif Require Import Base.
From Coq Require Export QArith Qminmax Lqa.
Open Scope Q_scope.

Fixpoint sumf {A} (f : A -> Q) (l : list A) : Q :=
  match l with
  | [] => 0
  | a :: l' => f a + sumf f l'
  end.

Section Sum.
  Context {A : Type}.
  Implicit Types (f g : A -> Q) (l : list A).

  Lemma sumf_ext f g l : (forall a, In a l -> f a == g a) -> sumf f l == sumf g l.
  Proof.
    induction l as [|a l IH]; intros H; simpl; [lra|].
    pose proof (H a (or_introl eq_refl)); assert (sumf f l == sumf g l) by (apply IH; intros; apply H; now right); lra.
  Qed.

  Lemma sumf_app f l1 l2 : sumf f (l1 ++ l2) == sumf f l1 + sumf f l2.
  Proof. induction l1; simpl; lra. Qed.

  Lemma sumf_plus f g l : sumf (fun a => f a + g a) l == sumf f l + sumf g l.
  Proof. induction l; simpl; lra. Qed.

  Lemma sumf_scal c f l : sumf (fun a => c * f a) l == c * sumf f l.
  Proof. induction l; simpl; [|rewrite IHl]; ring. Qed.

  Lemma sumf_opp f l : sumf (fun a => - f a) l == - sumf f l.
  Proof. induction l; simpl; lra. Qed.

  Lemma sumf_zero f l : (forall a, In a l -> f a == 0) -> sumf f l == 0.
  Proof.
    induction l as [|a l IH]; intros H; simpl; [lra|].
    pose proof (H a (or_introl eq_refl)); assert (sumf f l == 0) by (apply IH; intros; apply H; now right); lra.
  Qed.

  Lemma sumf_nonneg f l : (forall a, In a l -> 0 <= f a) -> 0 <= sumf f l.
  Proof.
    induction l as [|a l IH]; intros H; simpl; [lra|].
    pose proof (H a (or_introl eq_refl)); assert (0 <= sumf f l) by (apply IH; intros; apply H; now right); lra.
  Qed.

  Lemma sumf_le f g l : (forall a, In a l -> f a <= g a) -> sumf f l <= sumf g l.
  Proof.
    induction l as [|a l IH]; intros H; simpl; [lra|].
    pose proof (H a (or_introl eq_refl)); assert (sumf f l <= sumf g l) by (apply IH; intros; apply H; now right); lra.
  Qed.

  (** a sum of non-negative terms is zero only when every term is *)
  Lemma sumf_zero_inv f l : (forall a, In a l -> 0 <= f a) -> sumf f l == 0 -> forall a, In a l -> f a == 0.
  Proof.
    induction l as [|b l IH]; intros Hn H a; simpl in *; [tauto|].
    pose proof (Hn b (or_introl eq_refl)).
    assert (0 <= sumf f l) by (apply sumf_nonneg; auto).
    intros [<-|Ha]; [lra|]; apply IH; auto; lra.
  Qed.

  Lemma sumf_perm f l1 l2 : Permutation l1 l2 -> sumf f l1 == sumf f l2.
  Proof. induction 1; simpl; lra. Qed.

  Lemma sumf_filter f (p : A -> bool) l : sumf f (filter p l) == sumf (fun a => if p a then f a else 0) l.
  Proof. induction l as [|a l IH]; simpl; [lra|]; destruct (p a); simpl; lra. Qed.

  Lemma sumf_const c l : sumf (fun _ => c) l == inject_Z (Z.of_nat (List.length l)) * c.
  Proof.
    induction l as [|a l IH]; [change (0 == 0 * c); ring|].
    cbn [sumf List.length]; rewrite IH, Nat2Z.inj_succ; unfold Z.succ; rewrite inject_Z_plus; ring.
  Qed.
End Sum.

Lemma sumf_map {A B} (h : A -> B) (f : B -> Q) l : sumf f (map h l) == sumf (fun a => f (h a)) l.
Proof. induction l; simpl; lra. Qed.

Lemma sumf_flat_map {A B} (h : A -> list B) (f : B -> Q) l :
  sumf f (flat_map h l) == sumf (fun a => sumf f (h a)) l.
Proof. induction l; simpl; [lra|]; rewrite sumf_app; lra. Qed.

Lemma sumf_swap {A B} (f : A -> B -> Q) la lb :
  sumf (fun a => sumf (f a) lb) la == sumf (fun b => sumf (fun a => f a b) la) lb.
Proof.
  induction la as [|a la IH]; simpl.
  - symmetry; apply sumf_zero; intros; simpl; lra.
  - rewrite IH, <- sumf_plus; apply sumf_ext; intros; simpl; lra.
Qed.

Lemma sumf_delta_notin (v : nat -> Q) k l : ~ In k l -> sumf (fun j => if (j =? k)%nat then v j else 0) l == 0.
Proof. intros H; apply sumf_zero; intros a Ha; destruct (Nat.eqb_spec a k); subst; [tauto|lra]. Qed.

Lemma sumf_delta_in (v : nat -> Q) k l : NoDup l -> In k l -> sumf (fun j => if (j =? k)%nat then v j else 0) l == v k.
Proof.
  induction l as [|a l IH]; intros Hnd Hin; [destruct Hin|].
  destruct Hin as [->|Hk]; inversion Hnd as [|? ? Hn Hnd']; subst; simpl.
  - rewrite Nat.eqb_refl, sumf_delta_notin by auto; lra.
  - destruct (Nat.eqb_spec a k); [subst; tauto|]; rewrite IH; auto; lra.
Qed.

(** Kronecker delta over [0 .. n-1] *)
Lemma sumf_delta (v : nat -> Q) k n : (k < n)%nat -> sumf (fun j => if (j =? k)%nat then v j else 0) (seq 0 n) == v k.
Proof. intros H; apply sumf_delta_in; [apply seq_NoDup|apply in_seq; lia]. Qed.

Lemma sumf_split_at (f : nat -> Q) k n : (k < n)%nat ->
  sumf f (seq 0 n) == f k + sumf (fun j => if (j =? k)%nat then 0 else f j) (seq 0 n).
Proof.
  intros H; rewrite <- (sumf_delta f k n H), <- sumf_plus; apply sumf_ext; intros a _.
  destruct (a =? k)%nat; lra.
Qed.

Lemma Qmult_zero_sq (g x : Q) : 0 < g -> g * (x * x) == 0 -> x == 0.
Proof.
  intros Hg H; apply Qmult_integral in H as [H|H]; [lra|].
  now apply Qmult_integral in H as [H|H].
Qed.

Lemma Qsq_nonneg (x : Q) : 0 <= x * x.
Proof. nra. Qed.
