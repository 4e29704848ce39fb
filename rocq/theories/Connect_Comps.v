(** A component algorithm that meets the contract of the extractor, so that the contract can be met. *)
From Coq Require Import Relations Permutation.
From Verif Require Import Base Connect_Model Connect_Spec Connect_Proofs.
Local Open Scope list_scope.

Definition has (i : nat) (c : list nat) : bool := existsb (Nat.eqb i) c.
Lemma has_In i c : has i c = true <-> In i c.
Proof. unfold has; rewrite existsb_exists; split; [intros (x & H & E); apply Nat.eqb_eq in E; subst; auto|intros H; exists i; rewrite Nat.eqb_refl; auto]. Qed.
Definition hits (e : nat * nat) (c : list nat) : bool := has (fst e) c || has (snd e) c.
Definition merge1 (cc : list (list nat)) (e : nat * nat) : list (list nat) :=
  List.concat (filter (hits e) cc) :: filter (fun c => negb (hits e c)) cc.
Definition comps (n : nat) (es : list (nat * nat)) : list (list nat) := fold_left merge1 es (map (fun k => [k]) (seq 0 n)).

Definition same (cc : list (list nat)) (i j : nat) : Prop := exists c, In c cc /\ In i c /\ In j c.
Definition edges (es : list (nat * nat)) (i j : nat) : Prop := In (i, j) es.

Record good (n : nat) (es : list (nat * nat)) (cc : list (list nat)) : Prop := {
  g_perm : Permutation (List.concat cc) (seq 0 n);
  g_ne : ~ In [] cc;
  g_range : forall i j, In (i, j) es -> i < n /\ j < n;
  g_rst : forall i j, i < n -> j < n -> same cc i j <-> clos_refl_sym_trans nat (edges es) i j
}.

Lemma same_fun (cc : list (list nat)) i c c' : NoDup (List.concat cc) -> In c cc -> In c' cc -> In i c -> In i c' -> c = c'.
Proof.
  intros N H H' Hi Hi'; apply In_nth_error in H as [k Hk]; apply In_nth_error in H' as [k' Hk'].
  pose proof (disjoint_at cc N _ _ _ _ _ Hk Hk' Hi Hi'); subst; congruence.
Qed.
Lemma split_concat {A} (p : list A -> bool) cc : Permutation (List.concat (filter p cc) ++ List.concat (filter (fun c => negb (p c)) cc)) (List.concat cc).
Proof.
  induction cc as [|c cc IH]; cbn; auto; destruct (p c); cbn.
  - rewrite <- app_assoc; apply Permutation_app_head, IH.
  - etransitivity; [|apply Permutation_app_head, IH]; rewrite !app_assoc; apply Permutation_app_tail, Permutation_app_comm.
Qed.

Lemma good_merge n es cc i j : good n es cc -> i < n -> j < n -> good n (es ++ [(i, j)]) (merge1 cc (i, j)).
Proof.
  intros Gd Hi Hj.
  assert (N : NoDup (List.concat cc)) by (eapply Permutation_NoDup; [apply Permutation_sym; exact (g_perm _ _ _ Gd)|apply seq_NoDup]).
  assert (Cl : forall x, x < n -> exists c, In c cc /\ In x c).
  { intros x Hx; assert (H : In x (List.concat cc)) by (eapply Permutation_in; [apply Permutation_sym, Gd|apply in_seq; lia]).
    apply in_concat in H as (c & ? & ?); eauto. }
  assert (P : Permutation (List.concat (merge1 cc (i, j))) (seq 0 n)) by (etransitivity; [apply split_concat|apply Gd]).
  assert (N' : NoDup (List.concat (merge1 cc (i, j)))) by (eapply Permutation_NoDup; [apply Permutation_sym; exact P|apply seq_NoDup]).
  assert (Hh : forall c, hits (i, j) c = true <-> In i c \/ In j c) by (intros c; unfold hits; cbn [fst snd]; rewrite orb_true_iff, !has_In; tauto).
  constructor; auto.
  - unfold merge1; intros [H|H].
    + destruct (Cl i Hi) as (c & Hc & Hic).
      assert (In i (List.concat (filter (hits (i, j)) cc))) as Hin.
      { apply in_concat; exists c; split; auto; apply filter_In; split; auto; apply Hh; auto. }
      rewrite H in Hin; destruct Hin.
    + apply filter_In in H as [H _]; exact (g_ne _ _ _ Gd H).
  - intros a b H; apply in_app_iff in H as [H|[H|[]]]; [apply (g_range _ _ _ Gd); auto|injection H as <- <-; auto].
  - assert (Mono : forall x y, same cc x y -> same (merge1 cc (i, j)) x y).
    { intros x y (c & Hc & Hx & Hy); unfold merge1, same; destruct (hits (i, j) c) eqn:E.
      - eexists; split; [left; reflexivity|]; split; apply in_concat; exists c; split; auto; apply filter_In; auto.
      - exists c; split; auto; right; apply filter_In; rewrite E; auto. }
    assert (New : same (merge1 cc (i, j)) i j).
    { eexists; split; [left; reflexivity|]; destruct (Cl i Hi) as (c & Hc & Hic), (Cl j Hj) as (d & Hd & Hjd).
      split; apply in_concat; [exists c|exists d]; (split; [apply filter_In; split; auto; apply Hh; auto|auto]). }
    assert (Rg : forall x y, clos_refl_sym_trans nat (edges (es ++ [(i, j)])) x y -> (x < n <-> y < n)).
    { induction 1 as [x y H|x|x y R IH|x y z R1 IH1 R2 IH2]; try tauto.
      apply in_app_iff in H as [H|[H|[]]]; [apply (g_range _ _ _ Gd) in H; tauto|injection H as <- <-; tauto]. }
    intros x y Hx Hy; split.
    + intros (c & Hc & Hxc & Hyc); destruct Hc as [<-|Hc].
      * assert (Up : forall a b, clos_refl_sym_trans nat (edges es) a b -> clos_refl_sym_trans nat (edges (es ++ [(i, j)])) a b).
        { induction 1; [apply rst_step, in_app_iff; left; auto|apply rst_refl|apply rst_sym; auto|eapply rst_trans; eauto]. }
        assert (To : forall z, z < n -> In z (List.concat (filter (hits (i, j)) cc)) -> clos_refl_sym_trans nat (edges (es ++ [(i, j)])) z i).
        { intros z Hz Hin; apply in_concat in Hin as (c & Hc & Hzc); apply filter_In in Hc as [Hc Hhit]; apply Hh in Hhit as [Ha|Ha].
          - apply Up, (g_rst _ _ _ Gd); auto; exists c; auto.
          - eapply rst_trans; [apply Up, (g_rst _ _ _ Gd z j); auto; exists c; auto|].
            apply rst_sym, rst_step, in_app_iff; right; left; auto. }
        eapply rst_trans; [apply To; auto|apply rst_sym, To; auto].
      * apply filter_In in Hc as [Hc _].
        assert (S0 : clos_refl_sym_trans nat (edges es) x y) by (apply (g_rst _ _ _ Gd); auto; exists c; auto).
        clear - S0; induction S0; [apply rst_step, in_app_iff; left; auto|apply rst_refl|apply rst_sym; auto|eapply rst_trans; eauto].
    + intros R.
      revert Hx Hy; induction R as [x y H|x|x y R IH|x y z R1 IH1 R2 IH2]; intros Hx Hy.
      * apply in_app_iff in H as [H|[H|[]]]; [|injection H as <- <-; exact New].
        apply Mono, (g_rst _ _ _ Gd); auto; apply rst_step; exact H.
      * destruct (Cl x Hx) as (c & Hc & Hxc); apply Mono; exists c; auto.
      * destruct (IH Hy Hx) as (c & ? & ? & ?); exists c; auto.
      * assert (Hm : y < n) by (apply (Rg _ _ R1); auto).
        destruct (IH1 Hx Hm) as (c & Hc & Hxc & Hyc), (IH2 Hm Hy) as (d & Hd & Hyd & Hzd).
        assert (c = d) by (eapply (same_fun (merge1 cc (i, j)) y); eauto); subst; exists d; auto.
Qed.

Lemma good_comps n es : (forall i j, In (i, j) es -> i < n /\ j < n) -> good n es (comps n es).
Proof.
  intros H; unfold comps.
  assert (A : forall done cc, good n done cc -> good n (done ++ es) (fold_left merge1 es cc)).
  { induction es as [|[i j] es IH]; intros done cc Gd; cbn [fold_left]; [rewrite app_nil_r; exact Gd|].
    replace (done ++ (i, j) :: es) with ((done ++ [(i, j)]) ++ es) by (rewrite <- app_assoc; reflexivity).
    apply IH; [intros; apply H; right; auto|]; destruct (H i j (or_introl eq_refl)); apply good_merge; auto. }
  apply (A []); constructor.
  - assert (E : forall l, List.concat (map (fun k : nat => [k]) l) = l) by (induction l; cbn; congruence); rewrite E; apply Permutation_refl.
  - intros C; apply in_map_iff in C as (x & C & _); discriminate.
  - intros i j [].
  - intros i j Hi Hj; split.
    + intros (c & Hc & H1 & H2); apply in_map_iff in Hc as (k & <- & _); destruct H1 as [<-|[]], H2 as [<-|[]]; apply rst_refl.
    + intros R; assert (i = j) as <- by (clear - R; induction R as [x y E| | |]; [destruct E|auto|auto|congruence]).
      exists [i]; split; [|cbn; auto]; apply in_map_iff; exists i; split; auto; apply in_seq; lia.
Qed.

(** the components of the touching graph *)
Section Components.
  Context {G : Type} (touchb : G -> G -> bool).
  Definition edgeb (ls : list (Z * Z)) (os : list (Z * G)) (e : nat * nat) : bool :=
    match nth_error os (fst e), nth_error os (snd e) with
    | Some (l1, g1), Some (l2, g2) =>
        (Z.eqb l1 l2 || existsb (fun x => (Z.eqb (fst x) l1 && Z.eqb (snd x) l2) || (Z.eqb (fst x) l2 && Z.eqb (snd x) l1)) ls) && touchb g1 g2
    | _, _ => false
    end.
  Definition all_components (ls : list (Z * Z)) (os : list (Z * G)) : list (list nat) :=
    comps (List.length os) (filter (edgeb ls os) (list_prod (seq 0 (List.length os)) (seq 0 (List.length os)))).

  Lemma all_components_contract : component_contract (fun a b => touchb a b = true) all_components.
  Proof.
    intros ls os edge.
    set (es := filter (edgeb ls os) (list_prod (seq 0 (List.length os)) (seq 0 (List.length os)))).
    assert (E : forall i j, In (i, j) es <-> edge i j).
    { intros i j; unfold es, edge; rewrite filter_In, in_prod_iff, !in_seq; unfold edgeb; cbn [fst snd]; split.
      - intros [_ H]; destruct (nth_error os i) as [[l1 g1]|] eqn:E1; [|discriminate]; destruct (nth_error os j) as [[l2 g2]|] eqn:E2; [|discriminate].
        apply andb_true_iff in H as [H Ht]; exists l1, g1, l2, g2; split; [auto|]; split; [auto|]; split; [|auto].
        apply orb_true_iff in H as [H|H]; [left; apply Z.eqb_eq; auto|right].
        apply existsb_exists in H as ([a b] & Hin & H); cbn [fst snd] in H; apply orb_true_iff in H as [H|H]; apply andb_true_iff in H as [Ha Hb];
          apply Z.eqb_eq in Ha; apply Z.eqb_eq in Hb; subst; auto.
      - intros (l1 & g1 & l2 & g2 & E1 & E2 & H & Ht); pose proof (nth_lt _ _ _ E1); pose proof (nth_lt _ _ _ E2).
        split; [lia|]; rewrite E1, E2, Ht, andb_true_r; destruct H as [->|H]; [rewrite Z.eqb_refl; auto|].
        apply orb_true_iff; right; apply existsb_exists; destruct H as [H|H]; eexists; (split; [exact H|]); cbn [fst snd]; rewrite !Z.eqb_refl; cbn; auto using orb_true_r. }
    assert (Gd : good (List.length os) es (all_components ls os)).
    { apply good_comps; intros i j H; unfold es in H; rewrite filter_In, in_prod_iff, !in_seq in H; lia. }
    split; [apply Gd|]; split; [apply Gd|]; intros i j Hi Hj; rewrite (rst_ext _ _ (fun i j => iff_sym (E i j))); apply Gd; auto.
  Qed.
End Components.
