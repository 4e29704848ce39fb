From Verif Require Import Base Iterators_Model Iterators_Spec.

Section P.
  Context {A : Type}.

  (** generic: a view of the state as the list still to be delivered *)
  Lemma enumerates_by {St} (next : St -> option A * St) (Inv : St -> Prop) (view : St -> list A) :
    (forall s, Inv s -> match view s with
                        | [] => fst (next s) = None /\ view (snd (next s)) = []
                        | x :: r => fst (next s) = Some x /\ view (snd (next s)) = r
                        end /\ Inv (snd (next s))) ->
    forall s, Inv s -> enumerates next s (view s).
  Proof.
    intros H s I n; revert s I; induction n as [|n IH]; intros s I; simpl; auto.
    destruct (H s I) as [Hs I']; destruct (next s) as [o s']; simpl in *.
    rewrite (IH s' I'); destruct (view s) as [|x r]; destruct Hs as [-> ->]; simpl; auto.
    rewrite firstn_nil, Nat.sub_0_r; auto.
  Qed.

  Lemma simple_enumerates (l : list A) : enumerates it_next l l.
  Proof.
    apply (enumerates_by it_next (fun _ => True) (fun s => s)); auto.
    intros [|x r] _; simpl; auto.
  Qed.

  Lemma simple_current (l : list A) : current_agrees it_next it_current l.
  Proof. intros n; destruct (after it_next n l); auto. Qed.

  Lemma pair_enumerates (a b : list A) : enumerates pair_next (a, b) (a ++ b).
  Proof.
    apply (enumerates_by pair_next (fun _ => True) (fun s => fst s ++ snd s) ) with (s := (a, b)); auto.
    intros [[|x r] [|y q]] _; simpl; auto.
  Qed.

  Lemma conn_current_agrees (a b : list A) : current_agrees pair_next conn_current (a, b).
  Proof. intros n; destruct (after pair_next n (a, b)) as [[|x r] [|y q]]; auto. Qed.

  Definition cx_view (it : @complex A) : list A :=
    match cx_outer it with
    | [] => []
    | _ :: outer' => match cx_inner it with [] => [] | l => l ++ List.concat (before_empty outer') end
    end.

  Lemma cx_view_update outer inner : cx_view (cx_update outer inner) = List.concat (before_empty outer).
  Proof. destruct outer as [|[|x l] ls]; auto. Qed.

  Lemma complex_enumerates (c : list (list A)) :
    enumerates cx_next (cx_begin c) (List.concat (before_empty c)).
  Proof.
    unfold cx_begin; rewrite <- (cx_view_update c []).
    apply (enumerates_by cx_next (fun _ => True) cx_view); auto.
    intros [outer inner] _; unfold cx_view, cx_next; simpl.
    destruct outer as [|l outer]; simpl; auto.
    destruct inner as [|x [|y r]]; simpl; auto.
    split; auto; split; auto; apply cx_view_update.
  Qed.

  Lemma before_empty_all (c : list (list A)) : ~ In [] c -> before_empty c = c.
  Proof.
    induction c as [|[|x l] c IH]; simpl; auto; intros H; [tauto|]; f_equal; apply IH; tauto.
  Qed.

  Lemma complex_current (c : list (list A)) : current_agrees cx_next cx_current (cx_begin c).
  Proof.
    intros n; destruct (after cx_next n (cx_begin c)) as [[|l o] [|x [|y r]]]; auto.
  Qed.

  Lemma enumerates_unique {St} (next : St -> option A * St) s e1 e2 :
    enumerates next s e1 -> enumerates next s e2 -> e1 = e2.
  Proof.
    intros H1 H2; specialize (H1 (List.length e1 + List.length e2)); specialize (H2 (List.length e1 + List.length e2)).
    rewrite H1 in H2; clear H1.
    rewrite !firstn_all2 in H2 by (rewrite map_length; lia).
    revert e2 H2.
    assert (G : forall (x y : list A) n m, map Some x ++ repeat None n = map Some y ++ repeat None m -> x = y).
    { induction x as [|a x IH]; intros [|b y] n m H; simpl in H; auto.
      - destruct n; discriminate.
      - destruct m; discriminate.
      - injection H as -> H; f_equal; eauto. }
    eauto.
  Qed.
End P.
