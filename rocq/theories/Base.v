(** Shared vocabulary of the model: outcomes of C++ calls and insertion-ordered association lists
    standing for [std::unordered_map] with unique keys. *)
From Coq Require Export List Bool Arith ZArith Lia String Permutation.
Export ListNotations.

(** Outcome of a C++ call.  [UB] is undefined behaviour, [Throw] an escaping exception (or the
    failing [ECAD_ASSERT]), [OutOfFuel] a loop or recursion that did not finish within the fuel. *)
Inductive res (A : Type) : Type :=
| Ok (a : A)
| UB
| Throw
| OutOfFuel.
Arguments Ok {A} a.
Arguments UB {A}.
Arguments Throw {A}.
Arguments OutOfFuel {A}.

Definition bind {A B} (r : res A) (f : A -> res B) : res B :=
  match r with
  | Ok a => f a
  | UB => UB
  | Throw => Throw
  | OutOfFuel => OutOfFuel
  end.

Definition rmap {A B} (f : A -> B) (r : res A) : res B := bind r (fun a => Ok (f a)).

Declare Scope res_scope.
Delimit Scope res_scope with res.
Notation "x <- e ;; f" := (bind e (fun x => f)) (at level 61, e at next level, right associativity) : res_scope.

(** Association lists with a boolean key test. *)
Section AList.
  Context {K V : Type} (keqb : K -> K -> bool).

  (** [std::unordered_map::find] *)
  Fixpoint alookup (k : K) (m : list (K * V)) : option V :=
    match m with
    | [] => None
    | (k', v) :: m' => if keqb k k' then Some v else alookup k m'
    end.

  (** [std::unordered_map::count] *)
  Definition acount (k : K) (m : list (K * V)) : bool :=
    match alookup k m with Some _ => true | None => false end.

  (** [std::unordered_map::emplace] / [insert]: keeps an existing entry. *)
  Definition aemplace (k : K) (v : V) (m : list (K * V)) : list (K * V) :=
    if acount k m then m else m ++ [(k, v)].

  (** [std::unordered_map::erase(key)] *)
  Definition aerase (k : K) (m : list (K * V)) : list (K * V) :=
    filter (fun e => negb (keqb k (fst e))) m.

  Definition akeys (m : list (K * V)) : list K := map fst m.

  Context (keqb_spec : forall a b, reflect (a = b) (keqb a b)).

  Lemma alookup_in k v m : alookup k m = Some v -> In (k, v) m.
  Proof.
    induction m as [|[k' v'] m IH]; simpl; [discriminate|].
    destruct (keqb_spec k k') as [->|Hne]; intros H; [injection H as ->; now left|right; auto].
  Qed.

  Lemma alookup_none k m : alookup k m = None <-> ~ In k (akeys m).
  Proof.
    induction m as [|[k' v'] m IH]; simpl; [tauto|].
    destruct (keqb_spec k k') as [->|Hne]; [split; [discriminate|tauto]|].
    rewrite IH; unfold akeys; split; [intros H [H'|H']; congruence|tauto].
  Qed.

  Lemma alookup_some_key k v m : alookup k m = Some v -> In k (akeys m).
  Proof. intros H; apply alookup_in in H; apply (in_map fst) in H; exact H. Qed.

  Lemma in_alookup k v m : NoDup (akeys m) -> In (k, v) m -> alookup k m = Some v.
  Proof.
    induction m as [|[k' v'] m IH]; simpl; [tauto|].
    intros Hnd [H|H].
    - injection H as -> ->; destruct (keqb_spec k k); congruence.
    - inversion Hnd as [|? ? Hni Hnd']; subst.
      destruct (keqb_spec k k') as [->|Hne]; auto.
      exfalso; apply Hni; apply (in_map fst) in H; exact H.
  Qed.

  Lemma acount_true k m : acount k m = true <-> In k (akeys m).
  Proof.
    unfold acount; destruct (alookup k m) eqn:E.
    - split; auto; intros _; eapply alookup_some_key; eauto.
    - apply alookup_none in E; split; [discriminate|tauto].
  Qed.

  Lemma acount_false k m : acount k m = false <-> ~ In k (akeys m).
  Proof. rewrite <- acount_true; destruct (acount k m); split; congruence. Qed.

  Lemma alookup_app k m1 m2 :
    alookup k (m1 ++ m2) = match alookup k m1 with Some v => Some v | None => alookup k m2 end.
  Proof.
    induction m1 as [|[k' v'] m1 IH]; simpl; auto; destruct (keqb k k'); auto.
  Qed.

  Lemma alookup_emplace k v k' m :
    alookup k' (aemplace k v m) =
    match alookup k' m with
    | Some w => Some w
    | None => if keqb k' k then Some v else None
    end.
  Proof.
    unfold aemplace; destruct (acount k m) eqn:E.
    - destruct (alookup k' m) eqn:E'; auto.
      destruct (keqb_spec k' k) as [->|]; auto.
      apply acount_true in E; apply alookup_none in E'; tauto.
    - rewrite alookup_app; simpl; auto.
  Qed.


  Lemma nodup_snoc {A} (l : list A) a : NoDup l -> ~ In a l -> NoDup (l ++ [a]).
  Proof.
    intros Hnd Hni; apply (Permutation_NoDup (l := a :: l)); [|constructor; auto].
    apply Permutation_cons_append.
  Qed.


  Lemma aemplace_nodup k v m : NoDup (akeys m) -> NoDup (akeys (aemplace k v m)).
  Proof.
    unfold aemplace; destruct (acount k m) eqn:E; auto; intros Hnd.
    apply acount_false in E; unfold akeys in *; rewrite map_app; simpl.
    apply nodup_snoc; auto.
  Qed.

  Lemma akeys_emplace k v m :
    akeys (aemplace k v m) = if acount k m then akeys m else akeys m ++ [k].
  Proof. unfold aemplace; destruct (acount k m); auto; unfold akeys; rewrite map_app; auto. Qed.

  Lemma alookup_erase k k' m :
    alookup k' (aerase k m) = if keqb k' k then None else alookup k' m.
  Proof.
    induction m as [|[k0 v0] m IH]; simpl.
    - destruct (keqb k' k); auto.
    - destruct (keqb_spec k k0) as [->|Hne]; simpl.
      + rewrite IH; destruct (keqb_spec k' k0); auto.
      + rewrite IH; destruct (keqb_spec k' k0) as [->|]; auto.
        destruct (keqb_spec k0 k); congruence.
  Qed.

  Lemma akeys_erase_in k k' m : In k' (akeys (aerase k m)) <-> In k' (akeys m) /\ k' <> k.
  Proof.
    unfold akeys, aerase; rewrite !in_map_iff; split.
    - intros ([k0 v0] & <- & H); apply filter_In in H as [H H']; simpl in *.
      split; [exists (k0, v0); auto|]; destruct (keqb_spec k k0); simpl in *; congruence.
    - intros [([k0 v0] & <- & H) Hne]; simpl in *; exists (k0, v0); split; auto.
      apply filter_In; split; auto; simpl; destruct (keqb_spec k k0); simpl; congruence.
  Qed.

  Lemma aerase_nodup k m : NoDup (akeys m) -> NoDup (akeys (aerase k m)).
  Proof.
    induction m as [|[k0 v0] m IH]; simpl; auto; intros Hnd; inversion Hnd as [|? ? Hni Hnd']; subst.
    destruct (keqb k k0); simpl; auto; constructor; auto.
    intros H; apply (akeys_erase_in k k0 m) in H; tauto.
  Qed.
End AList.

Lemma string_eqb_reflect : forall a b : string, reflect (a = b) (String.eqb a b).
Proof. exact String.eqb_spec. Qed.

Lemma Z_eqb_reflect : forall a b : Z, reflect (a = b) (Z.eqb a b).
Proof. exact Z.eqb_spec. Qed.

Lemma nat_eqb_reflect : forall a b : nat, reflect (a = b) (Nat.eqb a b).
Proof. exact Nat.eqb_spec. Qed.
