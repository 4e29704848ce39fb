From Verif Require Import Base QSum Prism_Model Prism_Spec Prism_Proofs PrismNet_Model PrismNet_Proofs Monitor_Model Monitor_Spec Monitor_Proofs
  StackBuild_Model StackBuild_Spec.
From Coq Require Import QArith Qround Qabs Lqa Permutation.
Close Scope Q_scope.
Open Scope nat_scope.
Open Scope res_scope.

(** ** Placing *)

Lemma point_ok m scale l y ele e t tri v x :
  nth_error (m_layers m) l = Some y -> nth_error (y_elems y) ele = Some e -> alookup Nat.eqb l (m_temps m) = Some t ->
  nth_error (t_tris t) (e_tid e) = Some tri -> List.length (t_vs tri) = 3 -> Forall (fun v => v < List.length (t_pts t)) (t_vs tri) ->
  nth_error (t_vs tri) v = Some x ->
  (exists q, get_point (m_layers m) (m_temps m) scale l ele v = Ok q /\ corner_at (m_layers m) t scale l x q) /\
  (exists q, get_point (m_layers m) (m_temps m) scale l ele (3 + v) = Ok q /\ corner_at (m_layers m) t scale (l + 1) x q).
Proof.
  intros Hy He Ht Htri L3 FV Hx.
  assert (Hv : v < 3) by (rewrite <- L3; apply nth_error_Some; congruence).
  rewrite Forall_forall in FV. assert (Hxl := FV x (nth_error_In _ _ Hx)).
  destruct (nth_error (t_pts t) x) as [xy|] eqn:Exy; [|apply nth_error_None in Exy; lia].
  unfold get_point, get_template, vat. rewrite Ht. cbn [bind]. rewrite Hy. cbn [bind]. rewrite He. cbn [bind]. rewrite Htri. cbn [bind].
  replace (v <? 3) with true by (symmetry; apply Nat.ltb_lt; lia).
  replace (3 + v <? 3) with false by (symmetry; apply Nat.ltb_ge; lia).
  replace ((3 + v) mod 3) with v by (destruct v as [|[|[|v]]]; try reflexivity; lia).
  replace (v mod 3) with v by (destruct v as [|[|[|v]]]; try reflexivity; lia).
  rewrite Hx. cbn [bind]. rewrite Exy. cbn [bind].
  split.
  - eexists; split; [reflexivity|]. exists xy; split; [exact Exy|]. unfold level_height. rewrite Hy. reflexivity.
  - unfold is_bot. destruct (Nat.eqb_spec (l + 1) (List.length (m_layers m))) as [El|Nl]; cbn [bind].
    + eexists; split; [reflexivity|]. exists xy; split; [exact Exy|]. unfold level_height.
      replace (nth_error (m_layers m) (l + 1)) with (@None player) by (symmetry; apply nth_error_None; lia).
      rewrite (last_map_some _ y); [reflexivity|]. now replace (List.length (m_layers m) - 1) with l by lia.
    + assert (l < List.length (m_layers m)) by (apply nth_error_Some; congruence).
      destruct (nth_error (m_layers m) (l + 1)) as [y'|] eqn:E; [|apply nth_error_None in E; lia].
      cbn [bind]. eexists; split; [reflexivity|]. exists xy; split; [exact Exy|]. unfold level_height. rewrite E. reflexivity.
Qed.

(** What [place_one] gives for prism [i]. *)
Definition placed_one (m : pmodel) (scale : Q) (i : nat) (r : inst * list pt3) : Prop :=
  let p := fst r in
  i_top p = None /\ i_bot p = None /\ List.length (snd r) = 6 /\
  exists y e t tri, numbered (m_layers m) (i_lyr p) (i_ele p) i /\
    nth_error (m_layers m) (i_lyr p) = Some y /\ nth_error (y_elems y) (i_ele p) = Some e /\
    alookup Nat.eqb (i_lyr p) (m_temps m) = Some t /\ nth_error (t_tris t) (e_tid e) = Some tri /\
    Forall2 (nb_ok (m_layers m) (i_lyr p)) (e_side e) (i_side p) /\
    i_vs p = seq (6 * i) 6 /\
    forall v x, nth_error (t_vs tri) v = Some x -> v < 3 /\
      (exists q, nth_error (snd r) v = Some q /\ corner_at (m_layers m) t scale (i_lyr p) x q) /\
      (exists q, nth_error (snd r) (3 + v) = Some q /\ corner_at (m_layers m) t scale (i_lyr p + 1) x q).

Lemma place_one_ok m scale i : stack_wf m -> i < List.length (all_prisms (m_layers m)) ->
  exists r, place_one (m_layers m) (m_temps m) scale (offsets (m_layers m)) i = Ok r /\ placed_one m scale i r.
Proof.
  intros W Hi. destruct (nth_error (all_prisms (m_layers m)) i) as [[l k]|] eqn:N; [|apply nth_error_None in N; lia].
  assert (Nb : numbered (m_layers m) l k i) by exact N.
  pose proof (proj1 (numbered_iff _ _ _ _) Nb) as (y & Hy & Hk & _).
  destruct (nth_error (y_elems y) k) as [e|] eqn:He; [|apply nth_error_None in He; lia].
  destruct (W l y Hy) as (t & Ht & We). destruct (We e (nth_error_In _ _ He)) as (Sd & tri & Htri & L3 & FV).
  unfold place_one. rewrite (proj2 (local_numbered _ _ _ _) Nb). cbn [bind fst snd].
  destruct (t_vs tri) as [|a [|b [|c [|? ?]]]] eqn:Vs; try discriminate L3. clear L3.
  assert (L3 : List.length (t_vs tri) = 3) by (rewrite Vs; reflexivity).
  rewrite <- Vs in FV.
  assert (P := fun v x (H : nth_error (t_vs tri) v = Some x) => point_ok m scale l y k e t tri v x Hy He Ht Htri L3 FV H).
  destruct (P 0 a) as ((q0 & E0 & C0) & (q3 & E3 & C3)); [rewrite Vs; reflexivity|].
  destruct (P 1 b) as ((q1 & E1 & C1) & (q4 & E4 & C4)); [rewrite Vs; reflexivity|].
  destruct (P 2 c) as ((q2 & E2 & C2) & (q5 & E5 & C5)); [rewrite Vs; reflexivity|].
  cbn [Nat.add] in E3, E4, E5. cbn [seq mapM]. rewrite E0, E1, E2, E3, E4, E5. cbn [bind]. unfold vidx, vat. rewrite Hy. cbn [bind]. rewrite He. cbn [bind].
  destruct (mapM_ok (nb_global (offsets (m_layers m)) l) (nb_ok (m_layers m) l) (e_side e)) as (sd & Esd & Fsd).
  { eapply Forall_impl; [|exact Sd]. intros z Hz. now apply nb_global_ok. }
  rewrite Esd. cbn [bind]. eexists; split; [reflexivity|]. unfold placed_one. cbn [fst snd i_top i_bot i_lyr i_ele i_side i_vs].
  split; [reflexivity|]. split; [reflexivity|]. split; [reflexivity|].
  exists y, e, t, tri. do 6 (split; [assumption|]). split; [cbn [map seq]; repeat (f_equal; try lia)|].
  intros v x Hx. rewrite Vs in Hx. destruct v as [|[|[|v]]]; cbn [nth_error] in Hx.
  4:{ destruct v; discriminate. }
  all: injection Hx as <-; split; [lia|]; split; eexists; (split; [reflexivity|assumption]).
Qed.

Lemma flat_six {A B} (r : list (A * list B)) : Forall (fun p => List.length (snd p) = 6) r ->
  List.length (flat_map snd r) = 6 * List.length r /\
  forall i p v, nth_error r i = Some p -> v < 6 -> nth_error (flat_map snd r) (6 * i + v) = nth_error (snd p) v.
Proof.
  induction 1 as [|a r H F [IH1 IH2]]; cbn [flat_map List.length].
  - split; [reflexivity|]. intros [|i] p v; discriminate.
  - rewrite app_length, H, IH1. split; [lia|]. intros [|i] p v E Hv; cbn [nth_error] in E.
    + injection E as <-. cbn [Nat.mul Nat.add]. apply nth_error_app1. lia.
    + rewrite nth_error_app2 by lia. replace (6 * Datatypes.S i + v - List.length (snd a)) with (6 * i + v) by lia. now apply IH2.
Qed.

Lemma F2_nth {A B} (R : A -> B -> Prop) l r : Forall2 R l r -> forall i b, nth_error r i = Some b -> exists a, nth_error l i = Some a /\ R a b.
Proof.
  induction 1 as [|a b l r H F IH]; intros [|i] c E; cbn [nth_error] in *; try discriminate.
  - injection E as <-. eauto.
  - eauto.
Qed.

Lemma seq_nth_error s n i k : nth_error (seq s n) i = Some k -> k = s + i /\ i < n.
Proof.
  revert s i; induction n as [|n IH]; intros s [|i]; cbn [seq nth_error]; try discriminate.
  - intros [= <-]; lia.
  - intros H; apply IH in H; lia.
Qed.

Lemma place_ok scale m : stack_wf m -> exists m1 new, place scale m = Ok m1 /\ m_prisms m1 = m_prisms m ++ new /\
  m_layers m1 = m_layers m /\ m_temps m1 = m_temps m /\ m_lines m1 = m_lines m /\ m_scale m1 = scale /\
  m_offs m1 = offsets (m_layers m) /\
  List.length new = List.length (all_prisms (m_layers m)) /\ List.length (m_points m1) = 6 * List.length new /\
  forall i p, nth_error new i = Some p -> prism_placed m scale (m_points m1) i p /\ i_top p = None /\ i_bot p = None.
Proof.
  intros W. unfold place. rewrite total_pairs. cbn [bind].
  destruct (mapM_ok (place_one (m_layers m) (m_temps m) scale (offsets (m_layers m))) (placed_one m scale) (seq 0 (List.length (all_prisms (m_layers m)))))
    as (r & Er & Fr).
  { apply Forall_forall. intros i Hi. apply in_seq in Hi. apply place_one_ok; [assumption|lia]. }
  rewrite Er. cbn [bind]. eexists _, (map fst r). split; [reflexivity|]. cbn [m_prisms m_layers m_temps m_lines m_scale m_offs m_points].
  do 6 (split; [reflexivity|]).
  assert (Ln := F2_length _ _ _ Fr). rewrite seq_length in Ln.
  split; [rewrite map_length; congruence|].
  assert (S6 : Forall (fun p : inst * list pt3 => List.length (snd p) = 6) r).
  { clear - Fr. induction Fr as [|a b l r H F IH]; constructor; [|exact IH]. apply H. }
  destruct (flat_six r S6) as [F1 F2]. split; [rewrite map_length; exact F1|].
  intros i p Hp. rewrite nth_error_map in Hp. destruct (nth_error r i) as [a|] eqn:Ea; [|discriminate]. injection Hp as <-.
  destruct (F2_nth _ _ _ Fr _ _ Ea) as (k & Hk & T & Bt & L6 & y & e & t & tri & H1 & H2 & H3 & H4 & H5 & H6 & H7 & H8).
  apply seq_nth_error in Hk as [-> Hk]. cbn [Nat.add] in *.
  split; [|split; assumption]. exists y, e, t, tri. do 7 (split; [assumption|]).
  intros v x Hx. destruct (H8 v x Hx) as (Hv & (q & Q1 & Q2) & (q' & Q3 & Q4)). rewrite H7.
  split.
  - exists (6 * i + v), q. split; [rewrite nth_error_nth' with (d := 0) by (rewrite seq_length; lia); rewrite seq_nth by lia; reflexivity|].
    split; [|exact Q2]. rewrite (F2 _ _ _ Ea) by lia. exact Q1.
  - exists (6 * i + (3 + v)), q'. split; [rewrite nth_error_nth' with (d := 0) by (rewrite seq_length; lia); rewrite seq_nth by lia; reflexivity|].
    split; [|exact Q4]. rewrite (F2 _ _ _ Ea) by lia. exact Q3.
Qed.

Lemma list_ext {A} (l : list A) : forall r, (forall i, nth_error l i = nth_error r i) -> l = r.
Proof.
  induction l as [|a l IH]; intros [|b r] H.
  - reflexivity.
  - discriminate (H 0).
  - discriminate (H 0).
  - f_equal; [injection (H 0); auto|]. apply IH. intros i. exact (H (Datatypes.S i)).
Qed.

Lemma placed_built scale m m1 : stack_wf m -> m_prisms m = [] -> place scale m = Ok m1 -> built m1.
Proof.
  intros W E P. destruct (place_ok scale m W) as (m2 & new & P' & H1 & H2 & H3 & _ & _ & H4 & H5 & _ & H6).
  assert (m2 = m1) by congruence; subst m2. rewrite E in H1. cbn [app] in H1. split; [|split].
  - rewrite counts_offsets, H4, H2. reflexivity.
  - rewrite H1, H2. apply list_ext. intros i. rewrite nth_error_map. destruct (nth_error new i) as [p|] eqn:Ep; cbn [option_map].
    + destruct (H6 i p Ep) as ((y & e & t & tri & N & _) & _). symmetry. exact N.
    + symmetry. apply nth_error_None. rewrite <- H5. now apply nth_error_None.
  - rewrite H2, H3. intros l Hl. destruct (nth_error (m_layers m) l) as [y|] eqn:Hy; [|apply nth_error_None in Hy; lia].
    destruct (W l y Hy) as (t & Ht & _). eauto.
Qed.

(** ** Contacts *)

Lemma set_at_nth {A} (f : A -> A) l : forall i j, nth_error (set_at i f l) j = if i =? j then option_map f (nth_error l j) else nth_error l j.
Proof.
  induction l as [|a l IH]; intros i j.
  - destruct i, j; cbn [set_at nth_error]; try destruct (_ =? _); reflexivity.
  - destruct i, j; cbn [set_at nth_error Nat.eqb option_map]; try reflexivity. apply IH.
Qed.
Lemma set_at_length {A} (f : A -> A) l : forall i, List.length (set_at i f l) = List.length l.
Proof. induction l as [|a l IH]; intros [|i]; cbn [set_at List.length]; congruence. Qed.

(** Two models that differ in the neighbours of their prisms only. *)
Definition alike (m m' : pmodel) : Prop :=
  m_layers m' = m_layers m /\ m_temps m' = m_temps m /\ m_offs m' = m_offs m /\
  map (fun p => (i_lyr p, i_ele p)) (m_prisms m') = map (fun p => (i_lyr p, i_ele p)) (m_prisms m).
Lemma alike_nth m m' : alike m m' -> forall i,
  match nth_error (m_prisms m) i, nth_error (m_prisms m') i with
  | Some p, Some p' => i_lyr p' = i_lyr p /\ i_ele p' = i_ele p
  | None, None => True
  | _, _ => False
  end.
Proof.
  intros (_ & _ & _ & H) i. assert (E := f_equal (fun l => nth_error l i) H). cbn in E. rewrite !nth_error_map in E.
  destruct (nth_error (m_prisms m') i), (nth_error (m_prisms m) i); cbn [option_map] in E; try discriminate; auto.
  injection E; auto.
Qed.
Lemma alike_built m m' : alike m m' -> built m -> built m'.
Proof. intros (A1 & A2 & A3 & A4) (B1 & B2 & B3). split; [|split]; rewrite ?A1, ?A2, ?A3, ?A4; assumption. Qed.
Lemma alike_prism m m' l i t tid : alike m m' -> prism_of m' l i t tid <-> prism_of m l i t tid.
Proof. intros (A1 & A2 & _). unfold prism_of. rewrite A1, A2. reflexivity. Qed.
Lemma with_prisms_alike m ps : map (fun p => (i_lyr p, i_ele p)) ps = map (fun p => (i_lyr p, i_ele p)) (m_prisms m) -> alike m (with_prisms m ps).
Proof. intros H. split; [reflexivity|]. split; [reflexivity|]. split; [reflexivity|]. exact H. Qed.
Lemma tri_alike m m' i : alike m m' -> tri_of m' i = tri_of m i.
Proof.
  intros A. pose proof (alike_nth _ _ A i) as H. destruct A as (A1 & A2 & _). unfold tri_of, vidx.
  destruct (nth_error (m_prisms m) i), (nth_error (m_prisms m') i); try contradiction; cbn [bind]; [|reflexivity].
  destruct H as [-> ->]. rewrite A1, A2. reflexivity.
Qed.
Lemma tree_alike {K} (key : template -> nat -> K) m m' l : alike m m' -> layer_tree key m' l = layer_tree key m l.
Proof.
  intros A. pose proof (alike_nth _ _ A) as H. destruct A as (A1 & A2 & A3 & _). unfold layer_tree. rewrite A2, A3.
  destruct (get_template (m_temps m) l) as [t| | |]; cbn [bind]; auto. destruct (vat (m_offs m) l) as [b| | |]; cbn [bind]; auto.
  destruct (vat (m_offs m) (l + 1)) as [e| | |]; cbn [bind]; auto.
  induction (seq b (e - b)) as [|i is IH]; cbn [entries]; [reflexivity|]. rewrite IH.
  replace (entry key m' t l i) with (entry key m t l i); [reflexivity|].
  unfold entry, vat, vidx. specialize (H i). destruct (nth_error (m_prisms m) i), (nth_error (m_prisms m') i); try contradiction; cbn [bind]; [|reflexivity].
  destruct H as [-> ->]. rewrite A1. reflexivity.
Qed.
Lemma fresh_alike {K} (key : template -> nat -> K) m m' c : alike m m' -> fresh key m c -> fresh key m' c.
Proof. intros A F l tr H. rewrite (tree_alike _ _ _ _ A). now apply F. Qed.

Section Contacts.
  Context {K : Type} (key : template -> nat -> K) (select : K -> list (K * nat) -> list (K * nat)).
  Context (tarea : template -> nat -> Q) (inter : template -> nat -> template -> nat -> Q) (meets : K -> K -> bool).
  Context (m1 : pmodel) (B : built m1) (SO : select_ok meets select) (BO : boxes_ok key meets inter).

  Lemma tri_prism l i t tid : prism_of m1 l i t tid -> tri_of m1 i = Ok (t, tid).
  Proof.
    intros (y & k & e & Hy & He & <- & N & Ht); destruct B as (_ & P & _); unfold tri_of, vat, vidx, get_template.
    assert (H : nth_error (map (fun p => (i_lyr p, i_ele p)) (m_prisms m1)) i = Some (l, k)) by (rewrite P; exact N).
    rewrite nth_error_map in H; destruct (nth_error (m_prisms m1) i) as [p|]; [|discriminate]; cbn [option_map] in H; injection H as H1 H2.
    cbn [bind]; rewrite H1, Ht; cbn [bind]; rewrite Hy; cbn [bind]; rewrite H2, He; reflexivity.
  Qed.

  (** The contacts with one layer, whatever model alike and whatever trees are at hand. *)
  Lemma half_ok l t tid : l < List.length (m_layers m1) ->
    exists cs, contacts_with tarea inter m1 l t tid cs /\
      forall m c, alike m1 m -> fresh key m1 c -> exists c' found, search_layer key select m c l (key t tid) = Ok (c', found) /\
        fresh key m1 c' /\ touching tarea inter m t tid found = Ok cs.
  Proof.
    intros Hl. destruct (nth_error (m_layers m1) l) as [y|] eqn:Hy; [|apply nth_error_None in Hy; lia].
    destruct (layer_tree_ok key m1 B l y Hy) as (t' & tr & Ht' & Etr & _ & ND & Htr).
    assert (SP := SO (key t tid) tr). set (sel := select (key t tid) tr) in *.
    assert (Sub : forall v, In v sel <-> In v tr /\ meets (key t tid) (fst v) = true).
    { intros v. split; [intros H; apply (Permutation_in _ SP) in H; now apply filter_In in H|].
      intros H. apply (Permutation_in _ (Permutation_sym SP)). now apply filter_In. }
    assert (NDs : NoDup (map snd sel)).
    { apply (Permutation_NoDup (Permutation_map snd (Permutation_sym SP))).
      clear - ND. induction tr as [|v tr IH]; cbn [filter map]; [constructor|]. inversion ND; subst.
      destruct (meets _ _); cbn [map]; [constructor|]; auto. intros H. apply H1. apply in_map_iff in H as (w & <- & H).
      apply filter_In in H as [H _]. now apply in_map. }
    destruct (mapM_ok (fun j => u <- tri_of m1 j ;; Ok (j, inter t tid (fst u) (snd u)))
                (fun j c => exists tid', prism_of m1 l j t' tid' /\ c = (j, inter t tid t' tid')) (map snd sel)) as (r & Er & Fr).
    { apply Forall_forall. intros j Hj. apply in_map_iff in Hj as (v & <- & Hv). apply Sub in Hv as [Hv _].
      apply Htr in Hv as (i & tid' & Hp & ->). cbn [snd]. rewrite (tri_prism _ _ _ _ Hp). cbn [bind fst snd]. eauto. }
    set (cs := map (fun c => (fst c, snd c / tarea t tid)%Q) (filter (fun c => negb (Qle_bool (snd c) 0)) r)).
    exists cs. split.
    - assert (Rf : map fst r = map snd sel).
      { clear - Fr. induction Fr as [|a c l1 l2 (tid' & _ & ->) F IH]; cbn [map]; [reflexivity|]. now rewrite IH. }
      split.
      + unfold cs. rewrite map_map. cbn [fst]. rewrite <- Rf in NDs. clear - NDs.
        induction r as [|c r IH]; cbn [filter map]; [constructor|]. inversion NDs; subst.
        destruct (Qle_bool (snd c) 0); cbn [negb map]; auto. constructor; auto. intros H. apply H1.
        apply in_map_iff in H as (w & E & H). apply filter_In in H as [H _]. apply in_map_iff. eauto.
      + intros j q. unfold cs. rewrite in_map_iff. split.
        * intros (c & [= <- <-] & H). apply filter_In in H as [H P].
          assert (X : exists tid', prism_of m1 l (fst c) t' tid' /\ c = (fst c, inter t tid t' tid')).
          { clear - Fr H. induction Fr as [|a d l1 l2 (tid' & Hp & ->) F IH]; [destruct H|]. destruct H as [<-|H]; [exists tid'; auto|auto]. }
          destruct X as (tid' & Hp & Ec). exists t', tid'. rewrite Ec in P |- *. cbn [fst snd] in *. split; [exact Hp|].
          split; [|reflexivity]. apply Qnot_le_lt. intros H'. apply Qle_bool_iff in H'. rewrite H' in P. discriminate.
        * intros (t2 & tid' & Hp & P & ->). assert (t2 = t').
          { destruct Hp as (_ & _ & _ & _ & _ & _ & _ & Ht2). congruence. }
          subst t2. exists (j, inter t tid t' tid'). split; [reflexivity|]. apply filter_In. split.
          -- assert (Hj : In j (map snd sel)).
             { apply in_map_iff. exists (key t' tid', j). split; [reflexivity|]. apply Sub. split; [apply Htr; eauto|]. cbn [fst]. now apply BO. }
             clear - Fr Hj Hp B. induction Fr as [|a d l1 l2 (td & Hq & ->) F IH]; [destruct Hj|]. destruct Hj as [<-|Hj]; [|right; auto].
             left. destruct (prism_of_fun m1 _ _ _ _ _ _ Hq Hp) as [_ ->]. reflexivity.
          -- cbn [snd]. destruct (Qle_bool (inter t tid t' tid') 0) eqn:E; [|reflexivity]. apply Qle_bool_iff in E. exfalso.
             apply (Qlt_not_le _ _ P E).
    - intros m c A F. assert (Q := query_fresh key m c l (fresh_alike key _ _ _ A F)).
      unfold search_layer. destruct (query_tree key m c l) as [[c' tr']| | |] eqn:EQ; rewrite (tree_alike key _ _ l A), Etr in Q; try discriminate.
      destruct Q as [F' [= <-]]. cbn [bind fst snd]. eexists c', _. split; [reflexivity|]. split.
      { intros l0 tr0 H0. rewrite <- (tree_alike key _ _ l0 A). now apply F'. }
      unfold touching. fold sel.
      replace (mapM (fun j => u <- tri_of m j ;; Ok (j, inter t tid (fst u) (snd u))) (map snd sel))
        with (mapM (fun j => u <- tri_of m1 j ;; Ok (j, inter t tid (fst u) (snd u))) (map snd sel)).
      2:{ clear - A. induction (map snd sel) as [|j js IH]; cbn [mapM]; [reflexivity|]. rewrite (tri_alike _ _ j A), IH. reflexivity. }
      rewrite Er. reflexivity.
  Qed.

  Lemma numbered_prism i : i < List.length (all_prisms (m_layers m1)) -> exists l k t tid, numbered (m_layers m1) l k i /\ prism_of m1 l i t tid.
  Proof.
    intros Hi. destruct (nth_error (all_prisms (m_layers m1)) i) as [[l k]|] eqn:N; [|apply nth_error_None in N; lia].
    assert (Nb : numbered (m_layers m1) l k i) by exact N.
    pose proof (proj1 (numbered_iff _ _ _ _) Nb) as (y & Hy & Hk & _).
    destruct (nth_error (y_elems y) k) as [e|] eqn:He; [|apply nth_error_None in He; lia].
    destruct B as (_ & _ & T). destruct (T l) as [t Ht]; [apply nth_error_Some; congruence|].
    exists l, k, t, (e_tid e). split; [exact Nb|]. exists y, k, e. auto 6.
  Qed.
  Lemma prism_layer l i t tid l' t' tid' : prism_of m1 l i t tid -> prism_of m1 l' i t' tid' -> l = l' /\ t = t' /\ tid = tid'.
  Proof.
    intros H H'. assert (l = l').
    { destruct H as (_ & k & _ & _ & _ & _ & N & _), H' as (_ & k' & _ & _ & _ & _ & N' & _). unfold numbered in N, N'. congruence. }
    subst l'. split; [reflexivity|]. exact (prism_of_fun m1 _ _ _ _ _ _ H H').
  Qed.

  Definition val : Type := (option nat * option nat * ctacts)%type.
  Definition mark (v : val) (p : inst) : inst := mark_bot (snd (fst v)) (mark_top (fst (fst v)) p).
  Definition add_contacts (v : val) (c : ctacts) : ctacts := (fst c ++ fst (snd v), snd c ++ snd (snd v)).
  (** What a turn for prism [i] does, whatever the other turns did before. *)
  Definition turn (i : nat) (v : val) : Prop :=
    contacts_ok tarea inter m1 i (snd v) /\ (forall p, nth_error (m_prisms m1) i = Some p -> marked m1 i (mark v p)) /\
      forall s, alike m1 (b_model s) -> fresh key m1 (b_cache s) -> exists c,
      contact_step key select tarea inter s i =
        Ok (mkB (with_prisms (b_model s) (set_at i (mark v) (m_prisms (b_model s)))) (set_at i (add_contacts v) (b_contacts s)) c) /\
      fresh key m1 c.

  Lemma turn_ok i : i < List.length (all_prisms (m_layers m1)) -> exists v, turn i v.
  Proof.
    intros Hi. destruct (numbered_prism i Hi) as (l & k & t & tid & N & P).
    assert (Hl : l < List.length (m_layers m1)).
    { destruct P as (y & _ & _ & Hy & _). apply nth_error_Some. congruence. }
    assert (Up : exists top ct, top = (if l =? 0 then None else Some i) /\
      (match l with 0 => ct = [] | Datatypes.S l' => contacts_with tarea inter m1 l' t tid ct end) /\
      forall m c, alike m1 m -> fresh key m1 c -> exists c1, fresh key m1 c1 /\
      (match l with
          | O => Ok (None, [], c)
          | Datatypes.S l =>
              r <- search_layer key select m c l (key t tid) ;;
              cs <- touching tarea inter m t tid (snd r) ;; Ok (Some i, cs, fst r)
          end) = Ok (top, ct, c1)).
    { destruct l as [|l'].
      - exists None, []. split; [reflexivity|]. split; [reflexivity|]. intros m c _ F. exists c. auto.
      - destruct (half_ok l' t tid) as (cs & C & H); [lia|]. exists (Some i), cs. split; [reflexivity|]. split; [exact C|].
        intros m c A F. destruct (H m c A F) as (c' & found & E1 & F' & E2). exists c'. split; [exact F'|].
        rewrite E1. cbn [bind fst snd]. rewrite E2. reflexivity. }
    assert (Dn : exists bot cb, bot = (if l + 1 =? List.length (m_layers m1) then None else Some i) /\
      (if l + 1 =? List.length (m_layers m1) then cb = [] else contacts_with tarea inter m1 (l + 1) t tid cb) /\
      forall m c, alike m1 m -> fresh key m1 c -> exists c1, fresh key m1 c1 /\
      (if is_bot (m_layers m) l then Ok (None, [], c)
          else
            r <- search_layer key select m c (l + 1) (key t tid) ;;
            cs <- touching tarea inter m t tid (snd r) ;; Ok (Some i, cs, fst r)) = Ok (bot, cb, c1)).
    { unfold is_bot. destruct (Nat.eqb_spec (l + 1) (List.length (m_layers m1))) as [El|Nl].
      - exists None, []. split; [reflexivity|]. split; [reflexivity|]. intros m c (A & _) F. rewrite A, (proj2 (Nat.eqb_eq _ _) El). exists c. auto.
      - destruct (half_ok (l + 1) t tid) as (cs & C & H); [lia|]. exists (Some i), cs. split; [reflexivity|]. split; [exact C|].
        intros m c A F. destruct (H m c A F) as (c' & found & E1 & F' & E2). exists c'. split; [exact F'|].
        destruct A as (A & _). rewrite A, (proj2 (Nat.eqb_neq _ _) Nl). rewrite E1. cbn [bind fst snd]. rewrite E2. reflexivity. }
    destruct Up as (top & ct & ET & CT & HT), Dn as (bot & cb & EB & CB & HB).
    exists (top, bot, (ct, cb)). split; [|split].
    - intros l' t' tid' P'. destruct (prism_layer _ _ _ _ _ _ _ P P') as (<- & <- & <-). cbn [fst snd]. split; assumption.
    - intros p Hp. destruct B as (_ & BP & _).
      assert (X : nth_error (map (fun p => (i_lyr p, i_ele p)) (m_prisms m1)) i = Some (l, k)) by (rewrite BP; exact N).
      rewrite nth_error_map, Hp in X. injection X as X1 X2.
      unfold marked, mark, mark_bot, mark_top. cbn [i_top i_bot i_lyr fst snd]. rewrite X1. auto.
    - intros s A F. unfold contact_step. pose proof A as (A1 & A2 & A3 & A4).
      assert (O : m_offs (b_model s) = offsets (m_layers m1)).
      { destruct B as (BO1 & _). rewrite A3, BO1, counts_offsets. reflexivity. }
      rewrite O, (proj2 (local_numbered _ _ _ _) N). cbn [bind fst snd]. rewrite (tri_alike _ _ i A), (tri_prism _ _ _ _ P). cbn [bind fst snd].
      destruct (HT _ _ A F) as (c1 & F1 & E1). rewrite E1. cbn [bind].
      destruct (HB _ _ A F1) as (c2 & F2 & E2). rewrite E2. cbn [bind]. exists c2. split; [reflexivity|exact F2].
  Qed.

  (** All turns in some order. *)
  Lemma mark_keys v i ps : map (fun p => (i_lyr p, i_ele p)) (set_at i (mark v) ps) = map (fun p => (i_lyr p, i_ele p)) ps.
  Proof. revert i; induction ps as [|p ps IH]; intros [|i]; cbn [set_at map]; try reflexivity. f_equal. apply IH. Qed.
  Lemma alike_mark m i v : alike m1 m -> alike m1 (with_prisms m (set_at i (mark v) (m_prisms m))).
  Proof. intros (A1 & A2 & A3 & A4). split; [exact A1|]. split; [exact A2|]. split; [exact A3|]. cbn [with_prisms m_prisms]. rewrite mark_keys. exact A4. Qed.

  Lemma steps_ok (vs : nat -> val) w : (forall i, In i w -> turn i (vs i)) -> NoDup w ->
    forall s, alike m1 (b_model s) -> fresh key m1 (b_cache s) -> exists s', contact_steps key select tarea inter s w = Ok s' /\
      b_model s' = with_prisms (b_model s) (m_prisms (b_model s')) /\
      (forall j, nth_error (m_prisms (b_model s')) j = if in_dec Nat.eq_dec j w then option_map (mark (vs j)) (nth_error (m_prisms (b_model s)) j) else nth_error (m_prisms (b_model s)) j) /\
      (forall j, nth_error (b_contacts s') j = if in_dec Nat.eq_dec j w then option_map (add_contacts (vs j)) (nth_error (b_contacts s) j) else nth_error (b_contacts s) j).
  Proof.
    induction w as [|i w IH]; intros T ND s A F; cbn [contact_steps].
    - exists s. split; [reflexivity|]. split; [destruct s as [[] ? ?]; reflexivity|]. split; intros j; destruct (in_dec _ _ _) as [[]|]; reflexivity.
    - inversion ND as [|? ? Ni ND']; subst. destruct (T i (or_introl eq_refl)) as (_ & _ & H). destruct (H s A F) as (c & E & Fc). rewrite E. cbn [bind].
      match goal with |- exists s', contact_steps _ _ _ _ ?s1 _ = _ /\ _ => destruct (IH (fun j Hj => T j (or_intror Hj)) ND' s1) as (s' & E' & M & P & C) end.
      { cbn [b_model]. now apply alike_mark. }
      { exact Fc. }
      exists s'. split; [exact E'|]. cbn [b_model b_contacts with_prisms m_prisms] in M, P, C. split; [exact M|].
      split; intros j.
      + rewrite P, set_at_nth. destruct (Nat.eqb_spec i j) as [<-|Ne].
        * destruct (in_dec Nat.eq_dec i w); [contradiction|]. destruct (in_dec Nat.eq_dec i (i :: w)) as [|X]; [reflexivity|destruct X; left; reflexivity].
        * destruct (in_dec Nat.eq_dec j w), (in_dec Nat.eq_dec j (i :: w)) as [X|X]; try reflexivity; [destruct X; right; assumption|destruct X; [congruence|contradiction]].
      + rewrite C, set_at_nth. destruct (Nat.eqb_spec i j) as [<-|Ne].
        * destruct (in_dec Nat.eq_dec i w); [contradiction|]. destruct (in_dec Nat.eq_dec i (i :: w)) as [|X]; [reflexivity|destruct X; left; reflexivity].
        * destruct (in_dec Nat.eq_dec j w), (in_dec Nat.eq_dec j (i :: w)) as [X|X]; try reflexivity; [destruct X; right; assumption|destruct X; [congruence|contradiction]].
  Qed.
End Contacts.

Lemma choose {A} (R : nat -> A -> Prop) (d : A) n : (forall i, i < n -> exists v, R i v) -> exists f : nat -> A, forall i, i < n -> R i (f i).
Proof.
  induction n as [|n IH]; intros H; [exists (fun _ => d); intros; lia|].
  destruct IH as (f & Hf); [auto|]. destruct (H n) as (v & Hv); [lia|].
  exists (fun i => if i =? n then v else f i). intros i Hi. destruct (Nat.eqb_spec i n) as [->|]; [exact Hv|]. apply Hf. lia.
Qed.

(** Interleavings of tasks are permutations of their turns. *)
Lemma interleaving_perm {A} (ts : list (list A)) w : interleaving ts w -> Permutation w (List.concat ts).
Proof.
  induction 1 as [ts H|pre a t post w I IH].
  - replace (List.concat ts) with (@nil A); [constructor|]. induction ts as [|t ts IHt]; [reflexivity|]. cbn [List.concat].
    rewrite (H t (or_introl eq_refl)). apply IHt. intros u Hu. apply H. right; exact Hu.
  - rewrite concat_app in *. cbn [List.concat] in *. apply Permutation_cons_app. exact IH.
Qed.
Lemma tasks_concat acc ns : List.concat (layer_tasks (offsets_from acc ns)) = seq acc (list_sum ns).
Proof.
  unfold layer_tasks. revert acc; induction ns as [|n ns IH]; intros acc; [reflexivity|]. cbn [offsets_from tl list_sum fold_right].
  destruct (offsets_head (acc + n) ns) as (r & E). rewrite E. cbn [combine map List.concat fst snd].
  replace (acc + n - acc) with n by lia. change (fold_right plus 0 ns) with (list_sum ns). rewrite seq_app. f_equal.
  rewrite <- IH, E. reflexivity.
Qed.

(** ** Bond wires *)

Lemma inject_lt a b : (a < b)%Z -> (inject_Z a + 1 <= inject_Z b)%Q.
Proof. intros H. change 1%Q with (inject_Z 1). rewrite <- inject_Z_plus, <- Zle_Qle. lia. Qed.
Lemma round_half_ok q : nearest_whole q (round_half q).
Proof.
  unfold round_half, nearest_whole. destruct (Qle_bool 0 q) eqn:E.
  - apply Qle_bool_iff in E. pose proof (Qfloor_le (q + (1 # 2))) as L. pose proof (Qlt_floor (q + (1 # 2))) as U.
    rewrite inject_Z_plus in U. change (inject_Z 1) with 1%Q in U. set (z := Qfloor (q + (1 # 2))) in *. set (x := inject_Z z) in *.
    destruct (Qlt_le_dec (x - q) (1 # 2)) as [S|S].
    + left. apply Qabs_Qlt_condition. split; lra.
    + right. assert (Ex : (x == q + (1 # 2))%Q) by lra. split; [rewrite Qabs_neg by lra; lra|]. rewrite !Qabs_pos by lra. lra.
  - assert (N : (q < 0)%Q). { apply Qnot_le_lt. intros H. apply Qle_bool_iff in H. congruence. }
    pose proof (Qle_ceiling (q - (1 # 2))) as L. pose proof (Qceiling_lt (q - (1 # 2))) as U.
    unfold Z.sub in U. rewrite inject_Z_plus in U. change (inject_Z (- (1))) with (-1)%Q in U. set (z := Qceiling (q - (1 # 2))) in *. set (x := inject_Z z) in *.
    destruct (Qlt_le_dec (q - x) (1 # 2)) as [S|S].
    + left. apply Qabs_Qlt_condition. split; lra.
    + right. assert (Ex : (x == q - (1 # 2))%Q) by lra. split; [rewrite Qabs_pos by lra; lra|]. rewrite !Qabs_neg by lra. lra.
Qed.
Lemma nearest_whole_within q z : nearest_whole q z -> (- (1 # 2) <= q - inject_Z z <= 1 # 2)%Q.
Proof. intros [H|[H _]]; apply Qabs_Qle_condition; [lra|rewrite H; lra]. Qed.
Lemma nearest_whole_lt q z z' : nearest_whole q z -> nearest_whole q z' -> (z < z')%Z -> False.
Proof.
  intros A B L. assert (WA := nearest_whole_within _ _ A). assert (WB := nearest_whole_within _ _ B). assert (I := inject_lt _ _ L).
  destruct A as [A|[_ A]]; [apply Qabs_Qlt_condition in A; lra|]. destruct B as [B|[_ B]]; [apply Qabs_Qlt_condition in B; lra|].
  assert (Eq : (q == inject_Z z + (1 # 2))%Q) by lra. assert (Ez : (inject_Z z' == inject_Z z + 1)%Q) by lra.
  destruct (Z_lt_le_dec z 0) as [Nz|Pz].
  - assert (H : (inject_Z z + 1 <= 0)%Q). { change 0%Q with (inject_Z 0). apply inject_lt. exact Nz. }
    rewrite (Qabs_neg q), (Qabs_neg (inject_Z z')) in B by lra. lra.
  - assert (H : (0 <= inject_Z z)%Q). { change 0%Q with (inject_Z 0). rewrite <- Zle_Qle. exact Pz. }
    rewrite (Qabs_pos q), (Qabs_pos (inject_Z z)) in A by lra. lra.
Qed.
Lemma round_half_iff q z : round_half q = z <-> nearest_whole q z.
Proof.
  split; [intros <-; apply round_half_ok|]. intros H. pose proof (round_half_ok q) as R.
  destruct (Z.lt_trichotomy (round_half q) z) as [L|[E|L]]; [|exact E|]; exfalso; [exact (nearest_whole_lt _ _ _ R H L)|exact (nearest_whole_lt _ _ _ H R L)].
Qed.
Lemma index_of_nth z order : forall k, match index_of z k order with
  | Some l => exists i, l = k + i /\ nth_error order i = Some z
  | None => ~ In z order end.
Proof.
  induction order as [|h r IH]; intros k; cbn [index_of]; [intros []|]. destruct (Z.eqb_spec h z) as [->|N].
  - exists 0. split; [lia|reflexivity].
  - specialize (IH (Datatypes.S k)). destruct (index_of z (Datatypes.S k) r) as [l|].
    + destruct IH as (i & -> & E). exists (Datatypes.S i). split; [lia|exact E].
    + intros [E|H]; [contradiction|exact (IH H)].
Qed.
Lemma index_plane order vscale h : NoDup order -> match index_of (round_half (h * vscale)) 0 order with
  | Some l => plane_of order vscale h l /\ forall l', plane_of order vscale h l' -> l' = l
  | None => forall l, ~ plane_of order vscale h l end.
Proof.
  intros ND. pose proof (index_of_nth (round_half (h * vscale)) order 0) as H.
  destruct (index_of _ 0 order) as [l|].
  - destruct H as (i & -> & E). cbn [Nat.add]. split; [exists (round_half (h * vscale)); split; [exact E|apply round_half_ok]|].
    intros l' (z & E' & N). apply round_half_iff in N. subst z.
    apply (proj1 (NoDup_nth_error order) ND); [apply nth_error_Some; congruence|congruence].
  - intros l (z & E & N). apply round_half_iff in N. subst z. apply H. eapply nth_error_In; eauto.
Qed.

Section Wires.
  Context {K : Type} (key : template -> nat -> K) (nearest : list (K * nat) -> Z * Z -> list (K * nat)) (dist : Z * Z -> K -> Q).
  Context (NO : nearest_ok dist nearest) (order : list Z) (vscale : Q) (ND : NoDup order).

  Lemma end_prism_ok m c h p : built m -> fresh key m c ->
    (on_layer m order vscale h -> exists c' i, end_prism key nearest order vscale m c h p = Ok (c', i) /\ fresh key m c' /\ end_of key dist m order vscale h p i) /\
    (~ on_layer m order vscale h -> end_prism key nearest order vscale m c h p = Throw).
  Proof.
    intros B F. unfold end_prism. pose proof (index_plane order vscale h ND) as I.
    destruct (index_of _ 0 order) as [l|].
    2:{ split; [|reflexivity]. intros (l & y & P & _). destruct (I l P). }
    destruct I as [P U]. assert (Q := query_fresh key m c l F).
    destruct (nth_error (m_layers m) l) as [y|] eqn:Hy.
    - destruct (layer_tree_ok key m B l y Hy) as (t & tr & Ht & Et & Hlen & _ & Hin).
      destruct (query_tree key m c l) as [[c' tr']| | |]; try congruence. destruct Q as [F' E']. assert (tr' = tr) by congruence; subst tr'.
      cbn [bind fst snd]. assert (N := NO tr p). destruct tr as [|w tr].
      + rewrite N. split; [|reflexivity]. intros (l' & y' & P' & Hy' & NE). apply U in P'; subst l'. rewrite Hy in Hy'; injection Hy' as <-.
        destruct (y_elems y); [contradiction|discriminate].
      + destruct N as (v & -> & Iv & M). split.
        * intros _. apply Hin in Iv as (i & tid & Hp & ->). exists c', i. split; [reflexivity|]. split; [exact F'|].
          exists l, t, tid. split; [exact P|]. split; [exact Hp|]. intros j tid' Hj. apply (M (key t tid', j)). apply Hin. eauto.
        * intros Nl. destruct Nl. exists l, y. split; [exact P|]. split; [exact Hy|]. intros E0. rewrite E0 in Hlen. discriminate.
    - assert (ET : layer_tree key m l = Throw).
      { destruct (layer_tree_cases key m B l) as [[tr E]|E]; [|exact E]. exfalso.
        unfold layer_tree in E. destruct (get_template (m_temps m) l); cbn [bind] in E; try discriminate.
        unfold vat in E. destruct (nth_error (m_offs m) l); cbn [bind] in E; try discriminate.
        destruct (nth_error (m_offs m) (l + 1)) as [o|] eqn:Eo; cbn [bind] in E; try discriminate.
        assert (l + 1 < List.length (m_offs m)) by (apply nth_error_Some; congruence).
        destruct B as (O & _). rewrite O, counts_offsets, offsets_len, map_length in H. apply nth_error_None in Hy. lia. }
      split; [|].
      + intros (l' & y' & P' & Hy' & _). apply U in P'; subst l'. congruence.
      + intros _. destruct (query_tree key m c l) as [[c' tr']| | |]; try congruence; [destruct Q; congruence|reflexivity].
  Qed.

  Lemma last_nth {A} (l : list A) d : l <> [] -> nth_error l (List.length l - 1) = Some (last l d).
  Proof.
    induction l as [|a [|b l] IH]; intros H; [contradiction|reflexivity|].
    change (last (a :: b :: l) d) with (last (b :: l) d). rewrite <- IH by discriminate. cbn [List.length Nat.sub nth_error]. rewrite Nat.sub_0_r. reflexivity.
  Qed.

  Lemma on_wire_points (m : pmodel) pts l : forall seg (s : list ((Z * Z * Q) * (Z * Z * Q))) , seg = s -> Forall2 (at_ends pts)
    (map (fun ab => let f := fun a : Z * Z * Q => {| px := inject_Z (fst (fst a)) * m_scale m; py := inject_Z (snd (fst a)) * m_scale m; pz := snd a |}%Q in (f (fst ab), f (snd ab))) seg) l ->
    Forall2 (on_wire m pts) s l.
  Proof.
    intros seg s <-. revert l; induction seg as [|ab seg IH]; intros l F; cbn [map] in F; inversion F as [|? ? ? ? [E1 E2] F']; subst; constructor.
    - cbn [fst snd] in *. eexists _, _. split; [exact E1|]. split; [exact E2|]. split; reflexivity.
    - now apply IH.
  Qed.
  Lemma segments_map {A B} (f : A -> B) l : segments (map f l) = map (fun ab => (f (fst ab), f (snd ab))) (segments l).
  Proof. induction l as [|a [|b l] IH]; [reflexivity|reflexivity|]. cbn [map segments] in *. rewrite IH. reflexivity. Qed.

  Lemma frame_alike m m' : frame m m' -> alike m m'.
  Proof. intros (F1 & F2 & F3 & F4 & F5 & _). split; [exact F1|]. split; [exact F2|]. split; [exact F4|]. now rewrite F5. Qed.

  Lemma path_len fin n : forall id prev, List.length (path id prev fin n) = n.
  Proof. induction n as [|n IH]; intros id prev; cbn [path List.length]; [reflexivity|]. now rewrite IH. Qed.

  Lemma stack_wire_ok m c w : built m -> fresh key m c -> wire_fits m order vscale (w_pts w) (w_heights w) ->
    exists m' c' new, stack_wire key nearest order vscale (m, c) w = Ok (m', c') /\ frame m m' /\ fresh key m c' /\
      m_lines m' = m_lines m ++ new /\
      wire_drawn key dist m order vscale (m_points m') (List.length (all_prisms (m_layers m)) + List.length (m_lines m)) (w_pts w) (w_heights w) new.
  Proof.
    intros B F (L & NE & En). unfold stack_wire. rewrite (proj2 (Nat.eqb_eq _ _) L).
    destruct (w_pts w) as [|p [|p' ps]] eqn:Ep; [contradiction| |].
    - exists m, c, []. split; [reflexivity|]. split; [apply frame_refl|]. split; [exact F|]. split; [now rewrite app_nil_r|]. left. auto.
    - destruct (w_heights w) as [|h [|h' hs]] eqn:Eh; [discriminate L|discriminate L|]. cbn [hd].
      assert (On0 : on_layer m order vscale h) by (apply En; [cbn [List.length]; lia|left; reflexivity]).
      assert (On1 : on_layer m order vscale (last (h :: h' :: hs) 0%Q)) by (apply En; [cbn [List.length]; lia|right; apply last_nth; discriminate]).
      destruct (proj1 (end_prism_ok m c h p B F) On0) as (c1 & f & E1 & F1 & A1). rewrite E1. cbn [bind fst snd].
      destruct (proj1 (end_prism_ok m c1 (last (h :: h' :: hs) 0%Q) (last (p :: p' :: ps) (0, 0)%Z) B F1) On1) as (c2 & e & E2 & F2 & A2). rewrite E2. cbn [bind fst snd].
      assert (Tot : total (m_offs m) = Ok (List.length (all_prisms (m_layers m)))).
      { pose proof B as (O & _). rewrite O, counts_offsets. apply total_pairs. }
      assert (Pos : 0 < List.length (all_prisms (m_layers m))).
      { destruct A1 as (l & t & tid & _ & (y & k & e' & _ & _ & _ & N & _) & _). unfold numbered in N.
        assert (f < List.length (all_prisms (m_layers m))) by (apply nth_error_Some; congruence). lia. }
      unfold wire_points. rewrite Ep, Eh. cbn [combine map].
      match goal with |- context [add_wire (f, e, ?a :: ?b :: ?r) m] => destruct (wire_ok f e _ a b r m Tot Pos) as (m' & new & E & Fr & Ln & P & S) end.
      rewrite E. cbn [bind]. exists m', c2, new. split; [reflexivity|]. split; [exact Fr|]. split; [exact F2|]. split; [exact Ln|].
      right. exists p, (last (p :: p' :: ps) (0, 0)%Z), h, (last (h :: h' :: hs) 0%Q), f, e.
      split; [reflexivity|]. split; [apply last_nth; discriminate|]. split; [reflexivity|]. split; [apply last_nth; discriminate|].
      split; [exact A1|]. split; [exact A2|]. split.
      + rewrite P. f_equal. rewrite map_length, combine_length. cbn [List.length] in *. lia.
      + eapply on_wire_points; [reflexivity|]. rewrite <- segments_map. exact S.
  Qed.

  Lemma stack_wire_refused m c w : built m -> fresh key m c -> ~ wire_fits m order vscale (w_pts w) (w_heights w) ->
    stack_wire key nearest order vscale (m, c) w = Throw.
  Proof.
    intros B F NF. unfold stack_wire. destruct (Nat.eqb_spec (List.length (w_pts w)) (List.length (w_heights w))) as [L|L]; [|reflexivity].
    destruct (w_pts w) as [|p [|p' ps]] eqn:Ep; [reflexivity| |].
    - destruct NF. split; [exact L|]. split; [discriminate|]. cbn [List.length]. lia.
    - destruct (w_heights w) as [|h [|h' hs]] eqn:Eh; [discriminate L|discriminate L|]. cbn [hd].
      assert (D : forall h, on_layer m order vscale h \/ ~ on_layer m order vscale h).
      { intros x. pose proof (index_plane order vscale x ND) as I. destruct (index_of _ 0 order) as [l|].
        - destruct I as [P U]. destruct (nth_error (m_layers m) l) as [y|] eqn:Hy.
          + destruct (y_elems y) eqn:Ey; [right|left].
            * intros (l' & y' & P' & Hy' & NE). apply U in P'. subst l'. rewrite Hy in Hy'. injection Hy' as <-. contradiction.
            * exists l, y. split; [exact P|]. split; [exact Hy|]. rewrite Ey. discriminate.
          + right. intros (l' & y' & P' & Hy' & _). apply U in P'. subst l'. congruence.
        - right. intros (l' & y' & P' & _). exact (I l' P'). }
      destruct (D h) as [D0|D0].
      2:{ rewrite (proj2 (end_prism_ok m c h p B F) D0). reflexivity. }
      destruct (proj1 (end_prism_ok m c h p B F) D0) as (c1 & f & E1 & F1 & A1). rewrite E1. cbn [bind fst snd].
      destruct (D (last (h :: h' :: hs) 0%Q)) as [D1|D1].
      2:{ rewrite (proj2 (end_prism_ok m c1 _ _ B F1) D1). reflexivity. }
      destruct NF. split; [exact L|]. split; [discriminate|]. intros _ x [E|E]; [injection E as <-; exact D0|].
      rewrite (last_nth _ 0%Q) in E by discriminate. injection E as <-. exact D1.
  Qed.

  Lemma on_wire_app m pts r seg l : on_wire m pts seg l -> on_wire m (pts ++ r) seg l.
  Proof. intros (a & b & H1 & H2 & H). exists a, b. split; [now apply nth_app_some|]. split; [now apply nth_app_some|]. exact H. Qed.
  Lemma wire_drawn_app m pts r id ps hs g : wire_drawn key dist m order vscale pts id ps hs g -> wire_drawn key dist m order vscale (pts ++ r) id ps hs g.
  Proof.
    intros [H|(p0 & p1 & h0 & h1 & f & e & H1 & H2 & H3 & H4 & H5 & H6 & H7 & H8)]; [left; exact H|right].
    exists p0, p1, h0, h1, f, e. do 7 (split; [assumption|]). clear - H8. induction H8; constructor; auto. now apply on_wire_app.
  Qed.
  Lemma end_of_frame m m' h p i : frame m m' -> end_of key dist m' order vscale h p i -> end_of key dist m order vscale h p i.
  Proof.
    intros F (l & t & tid & P & Q & M). pose proof (frame_alike _ _ F) as A. exists l, t, tid. split; [exact P|].
    split; [now apply (alike_prism _ _ _ _ _ _ A)|]. intros j tid' H. apply (M j). now apply (alike_prism _ _ _ _ _ _ A).
  Qed.
  Lemma wires_drawn_frame m m' pts ws : frame m m' -> forall id ls, wires_drawn key dist m' order vscale pts id ws ls -> wires_drawn key dist m order vscale pts id ws ls.
  Proof.
    intros F. induction ws as [|w ws IH]; intros id ls H; cbn [wires_drawn] in *; [exact H|].
    destruct H as (g & r & E & D & R). exists g, r. split; [exact E|]. split; [|now apply IH].
    destruct D as [D|(p0 & p1 & h0 & h1 & f & e & H1 & H2 & H3 & H4 & H5 & H6 & H7 & H8)]; [left; exact D|right].
    exists p0, p1, h0, h1, f, e. do 4 (split; [assumption|]). split; [eapply end_of_frame; eauto|]. split; [eapply end_of_frame; eauto|].
    split; [exact H7|]. destruct F as (_ & _ & Sc & _). unfold on_wire in *. rewrite <- Sc. exact H8.
  Qed.
  Lemma fits_frame m m' ps hs : frame m m' -> wire_fits m order vscale ps hs -> wire_fits m' order vscale ps hs.
  Proof.
    intros (F1 & _) (L & NE & H). split; [exact L|]. split; [exact NE|]. unfold on_layer in *. rewrite F1. exact H.
  Qed.
  Lemma drawn_length m pts id ps hs g : List.length ps = List.length hs -> wire_drawn key dist m order vscale pts id ps hs g -> List.length g = List.length ps - 1.
  Proof.
    intros L [[E ->]|(p0 & p1 & h0 & h1 & f & e & _ & _ & _ & _ & _ & _ & H & _)]; [cbn [List.length]; lia|].
    rewrite <- (map_length ties), H. apply path_len.
  Qed.

  Lemma stack_wires_ok ws : forall m c, built m -> fresh key m c -> Forall (fun w => wire_fits m order vscale (w_pts w) (w_heights w)) ws ->
    exists m' c' new, stack_wires key nearest order vscale (m, c) ws = Ok (m', c') /\ frame m m' /\ m_lines m' = m_lines m ++ new /\
      wires_drawn key dist m order vscale (m_points m') (List.length (all_prisms (m_layers m)) + List.length (m_lines m))
        (map (fun w => (w_pts w, w_heights w)) ws) new.
  Proof.
    induction ws as [|w ws IH]; intros m c B F H; cbn [stack_wires].
    - exists m, c, []. split; [reflexivity|]. split; [apply frame_refl|]. split; [now rewrite app_nil_r|reflexivity].
    - inversion H as [|? ? Hw Hws]; subst. destruct (stack_wire_ok m c w B F Hw) as (m1 & c1 & g & E1 & Fr1 & F1 & L1 & D1). rewrite E1. cbn [bind].
      pose proof (frame_alike _ _ Fr1) as A.
      destruct (IH m1 c1) as (m2 & c2 & r & E2 & Fr2 & L2 & D2).
      { now apply (alike_built _ _ A). }
      { now apply (fresh_alike key _ _ _ A). }
      { eapply Forall_impl; [|exact Hws]. intros a Ha. cbn in Ha |- *. now apply (fits_frame m m1). }
      exists m2, c2, (g ++ r). split; [exact E2|]. split; [now apply (frame_trans m m1 m2)|]. split; [rewrite L2, L1, app_assoc; reflexivity|].
      cbn [map wires_drawn fst snd]. exists g, r. split; [reflexivity|]. split.
      + destruct Fr2 as (_ & _ & _ & _ & _ & x & ->). now apply wire_drawn_app.
      + apply (wires_drawn_frame m m1 _ _ Fr1). destruct Fr1 as (Ly & _). rewrite Ly, L1, app_length in D2. now rewrite Nat.add_assoc in D2.
  Qed.
End Wires.
