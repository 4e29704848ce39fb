(** Theorems about archives and identities. *)
From Verif Require Import Base Archive_Model Archive_Spec.
Open Scope res_scope.
Open Scope string_scope.
Open Scope list_scope.

Definition eqx (x y : string * string) : bool := String.eqb (fst x) (fst y) && String.eqb (snd x) (snd y).
Lemma eqx_spec x y : reflect (x = y) (eqx x y).
Proof.
  destruct x as [a b], y as [c d]. unfold eqx. cbn. destruct (String.eqb_spec a c), (String.eqb_spec b d); cbn; constructor; congruence.
Qed.
Definition memx (x : string * string) (l : list (string * string)) : bool := existsb (eqx x) l.
Lemma memx_in x l : memx x l = true <-> In x l.
Proof.
  unfold memx. rewrite existsb_exists. split.
  - intros (y & H1 & H2). destruct (eqx_spec x y); [subst; exact H1|discriminate].
  - intros H. exists x. split; [exact H|]. now destruct (eqx_spec x x).
Qed.

(** The members an archive of an object of the class holds *)
Definition written (t : table) (c : string) : list (string * string) := save_as t c (fun x => x).

Section General.
  Context {V : Type}.

  Lemma assign_at x (v : V) o y : assign x v o y = if eqx y x then v else o y.
  Proof. reflexivity. Qed.

  Lemma load_save t : forall c (o o0 : obj V) rest,
    exists o', load_as t c o0 (save_as t c o ++ rest) = Ok (o', rest) /\ forall x, o' x = if memx x (written t c) then o x else o0 x.
  Proof.
    induction t as [|[n k] t IH]; intros c o o0 rest.
    - exists o0. split; [reflexivity|]. intros x. reflexivity.
    - unfold written. cbn [load_as save_as]. destruct (String.eqb_spec n c) as [->|_]; [|apply IH].
      revert o0 rest. induction (k_ser k) as [|[b|m] ss IHs]; intros o0 rest.
      + exists o0. split; [reflexivity|]. intros x. reflexivity.
      + cbn [flat_map]. rewrite <- app_assoc.
        destruct (IH b o o0 (flat_map (fun s => match s with SField m => [o (c, m)] | SBase b => save_as t b o end) ss ++ rest)) as (o1 & E1 & P1).
        rewrite E1. cbn [bind fst snd]. destruct (IHs o1 rest) as (o2 & E2 & P2). exists o2. split; [exact E2|].
        intros x. rewrite P2, P1. unfold memx. rewrite existsb_app. unfold written.
        destruct (existsb (eqx x) (save_as t b (fun x => x))), (existsb (eqx x) (flat_map _ ss)); reflexivity.
      + cbn [flat_map app]. destruct (IHs (assign (c, m) (o (c, m)) o0) rest) as (o2 & E2 & P2). exists o2. split; [exact E2|].
        intros x. rewrite P2. unfold memx. cbn [existsb]. rewrite assign_at. destruct (eqx_spec x (c, m)) as [->|N]; cbn [orb]; [|reflexivity].
        destruct (existsb _ _); reflexivity.
  Qed.

  Lemma load_short t : forall c (o0 : obj V) vs, List.length vs < List.length (written t c) -> load_as t c o0 vs = Throw.
  Proof.
    assert (G : forall c (o0 : obj V) vs,
      (List.length vs < List.length (written t c) -> load_as t c o0 vs = Throw) /\
      (List.length (written t c) <= List.length vs -> exists o' vs', load_as t c o0 vs = Ok (o', vs') /\ List.length vs = List.length (written t c) + List.length vs')).
    2: { intros. now apply G. }
    unfold written. induction t as [|[n k] t IH]; intros c o0 vs.
    - cbn. split; [lia|]. intros _. exists o0, vs. auto.
    - cbn [load_as save_as]. destruct (String.eqb n c); [|apply IH].
      revert o0 vs. induction (k_ser k) as [|[b|m] ss IHs]; intros o0 vs.
      + cbn. split; [lia|]. intros _. exists o0, vs. auto.
      + cbn [flat_map]. rewrite app_length. destruct (IH b o0 vs) as [S1 L1]. split; intros H.
        * destruct (Nat.lt_ge_cases (List.length vs) (List.length (save_as t b (fun x => x)))) as [C|C].
          { rewrite (S1 C). reflexivity. }
          destruct (L1 C) as (o1 & v1 & E & L). rewrite E. cbn [bind fst snd]. apply IHs. lia.
        * destruct L1 as (o1 & v1 & E & L); [lia|]. rewrite E. cbn [bind fst snd].
          destruct (IHs o1 v1) as [_ L2]. destruct L2 as (o2 & v2 & E2 & L2); [lia|]. exists o2, v2. split; [exact E2|lia].
      + cbn [flat_map app List.length]. destruct vs as [|v vs]; [split; [reflexivity|cbn; lia]|]. cbn [List.length].
        destruct (IHs (assign (c, m) v o0) vs) as [S1 L1]. split; intros H; [apply S1; lia|].
        destruct L1 as (o2 & v2 & E2 & L2); [lia|]. exists o2, v2. split; [exact E2|lia].
  Qed.

  Lemma save_length t c (o : obj V) : List.length (save_as t c o) = List.length (written t c).
  Proof.
    unfold written. revert c. induction t as [|[n k] t IH]; intros c; [reflexivity|]. cbn. destruct (String.eqb n c); [|apply IH].
    induction (k_ser k) as [|[b|m] ss IHs]; cbn; [reflexivity| |]; [rewrite !app_length, IH, IHs|rewrite IHs]; reflexivity.
  Qed.
End General.

(** Base classes of every class, with the class *)
Fixpoint ancestors (fuel : nat) (c : string) : list string :=
  match fuel with
  | O => [c]
  | S f => c :: flat_map (fun ck => if String.eqb (fst ck) c then flat_map (ancestors f) (k_bases (snd ck)) else []) classes
  end.
Definition all_ancestors : list (string * list string) := Eval vm_compute in map (fun ck => (fst ck, ancestors 6 (fst ck))) classes.
Definition anc (c : string) : list string := match alookup String.eqb c all_ancestors with Some l => l | None => [c] end.
Definition sub (l r : list string) : bool := forallb (fun x => existsb (String.eqb x) r) l.
Lemma sub_in l r x : sub l r = true -> In x l -> In x r.
Proof.
  unfold sub. rewrite forallb_forall. intros H Hx. specialize (H x Hx). apply existsb_exists in H. destruct H as (y & H1 & H2).
  apply String.eqb_eq in H2. now subst.
Qed.
Lemma anc_closed : forallb (fun ck => forallb (fun b => sub (anc b) (anc (fst ck))) (k_bases (snd ck))) classes = true.
Proof. vm_compute. reflexivity. Qed.
Lemma anc_self : forallb (fun cl => existsb (String.eqb (fst cl)) (snd cl)) all_ancestors = true.
Proof. vm_compute. reflexivity. Qed.
Lemma anc_refl c : In c (anc c).
Proof.
  unfold anc. destruct (alookup String.eqb c all_ancestors) as [l|] eqn:E; [|now left].
  apply (alookup_in _ string_eqb_reflect) in E. pose proof anc_self as H. rewrite forallb_forall in H. specialize (H _ E). cbn in H.
  apply existsb_exists in H. destruct H as (y & H1 & H2). apply String.eqb_eq in H2. now subst.
Qed.
Lemma derives_anc c d : derives c d -> In d (anc c).
Proof.
  induction 1 as [c|c k b d H1 H2 _ IH]; [apply anc_refl|].
  pose proof anc_closed as H. rewrite forallb_forall in H. specialize (H _ H1). cbn in H. rewrite forallb_forall in H. specialize (H _ H2).
  exact (sub_in _ _ _ H IH).
Qed.
Definition layoutish (c : string) (x : string * string) : bool := String.eqb c "ELayoutView" && String.eqb (fst x) "EObject".
Lemma all_written :
  forallb (fun ck => forallb (fun d => forallb (fun dk => if String.eqb (fst dk) d then
    forallb (fun m => memx (d, m) (written classes (fst ck)) || memx (d, m) restored || layoutish (fst ck) (d, m)) (k_members (snd dk)) else true) classes)
    (anc (fst ck))) classes = true.
Proof. vm_compute. reflexivity. Qed.

Lemma member_written c k x : In (c, k) classes -> has_member c x -> ~ In x restored -> (c = "ELayoutView" -> fst x <> "EObject") -> memx x (written classes c) = true.
Proof.
  intros Hc (Hd & k' & Hk & Hm) Hr Hl. destruct x as [d m]. cbn [fst snd] in *. apply derives_anc in Hd.
  pose proof all_written as H. rewrite forallb_forall in H. specialize (H _ Hc). cbn beta iota in H. rewrite forallb_forall in H. specialize (H _ Hd).
  rewrite forallb_forall in H. specialize (H _ Hk). cbn [fst snd] in H. rewrite String.eqb_refl in H. rewrite forallb_forall in H. specialize (H _ Hm).
  destruct (memx (d, m) (written classes c)); [reflexivity|]. cbn [orb] in H.
  destruct (memx (d, m) restored) eqn:E; [exfalso; apply Hr, memx_in, E|]. cbn [orb] in H. unfold layoutish in H. cbn [fst] in H.
  apply andb_prop in H. destruct H as [H1 H2]. apply String.eqb_eq in H1, H2. now destruct (Hl H1).
Qed.

(** C114. Loading what was saved restores every data member of an object of any class, whatever the object it is loaded into
    held before, and reads exactly what was written.  Missing: the name and identity of a layout. *)
Theorem C114_members_restored_partial {V} c k (o o0 : obj V) rest :
  In (c, k) classes ->
  exists o', load_as classes c o0 (save_as classes c o ++ rest) = Ok (o', rest) /\
    forall x, has_member c x -> ~ In x restored -> (c = "ELayoutView" -> fst x <> "EObject") -> o' x = o x.
Proof.
  intros Hc. destruct (load_save classes c o o0 rest) as (o' & E & P). exists o'. split; [exact E|]. intros x H1 H2 H3.
  now rewrite P, (member_written c k x Hc H1 H2 H3).
Qed.
Example C114_members_restored_ex :
  has_member "EComponent" ("EObject", "m_name") /\ has_member "EComponent" ("EComponent", "m_scenario") /\
  rmap (fun ov => (fst ov ("EObject", "m_name"), fst ov ("EHierarchyObj", "m_transform"), fst ov ("EComponent", "m_scenario")))
    (load_as classes "EComponent" (fun _ => 0) (save_as classes "EComponent" (fun x => String.length (snd x) + String.length (fst x)) ++ [])) = Ok (13, 24, 20).
Proof.
  assert (I1 : exists k, In ("EComponent", k) classes /\ In "EHierarchyObj" (k_bases k) /\ In "m_scenario" (k_members k)).
  { eexists. split; [apply (alookup_in _ string_eqb_reflect); vm_compute; reflexivity|]. cbn. auto 10. }
  assert (I2 : exists k, In ("EHierarchyObj", k) classes /\ In "EObject" (k_bases k)).
  { eexists. split; [apply (alookup_in _ string_eqb_reflect); vm_compute; reflexivity|]. cbn. auto. }
  assert (I3 : exists k, In ("EObject", k) classes /\ In "m_name" (k_members k)).
  { eexists. split; [apply (alookup_in _ string_eqb_reflect); vm_compute; reflexivity|]. cbn. auto. }
  destruct I1 as (k1 & A1 & A2 & A3), I2 as (k2 & B1 & B2), I3 as (k3 & C1 & C2).
  split; [|split].
  - split; [|exists k3; auto]. cbn. eapply derives_base; [exact A1|exact A2|]. eapply derives_base; [exact B1|exact B2|]. apply derives_refl.
  - split; [apply derives_refl|exists k1; auto].
  - vm_compute. reflexivity.
Qed.
Print Assumptions C114_members_restored_partial.

(** C114. An archive holds nothing else: every value of it is that of a data member of the object, and none is there twice. *)
Fixpoint nodupx (l : list (string * string)) : bool := match l with [] => true | x :: r => negb (memx x r) && nodupx r end.
Lemma nodupx_ok l : nodupx l = true -> NoDup l.
Proof.
  induction l as [|x l IH]; intros H; [constructor|]. cbn in H. apply andb_prop in H. destruct H as [H1 H2]. constructor; [|exact (IH H2)].
  intros I. apply memx_in in I. now rewrite I in H1.
Qed.
Fixpoint ancestor (t : table) (fuel : nat) (c d : string) : bool :=
  String.eqb c d || match fuel with
  | O => false
  | S f => match alookup String.eqb c t with Some k => existsb (fun b => ancestor t f b d) (k_bases k) | None => false end
  end.
Lemma ancestor_ok f : forall c d, ancestor classes f c d = true -> derives c d.
Proof.
  induction f as [|f IH]; intros c d H; cbn [ancestor] in H; apply orb_prop in H; destruct H as [H|H];
    try (apply String.eqb_eq in H; subst; apply derives_refl); [discriminate|].
  destruct (alookup String.eqb c classes) as [k|] eqn:E; [|discriminate]. apply (alookup_in _ string_eqb_reflect) in E.
  apply existsb_exists in H. destruct H as (b & H1 & H2). eapply derives_base; [exact E|exact H1|exact (IH _ _ H2)].
Qed.
Definition tidy (t : table) (ck : string * klass) : bool :=
  nodupx (map (pair "") (k_members (snd ck))) && nodupx (save_as t (fst ck) (fun x => x)) &&
  forallb (fun x => ancestor t 6 (fst ck) (fst x) && match alookup String.eqb (fst x) t with Some k => existsb (String.eqb (snd x)) (k_members k) | None => false end)
    (save_as t (fst ck) (fun x => x)).
Lemma tidy_ok t c k : tidy t (c, k) = true ->
  NoDup (k_members k) /\ NoDup (save_as t c (fun x => x)) /\
  forall x, In x (save_as t c (fun x => x)) -> ancestor t 6 c (fst x) = true /\ exists k', In (fst x, k') t /\ In (snd x) (k_members k').
Proof.
  intros G. unfold tidy in G. cbn [fst snd] in G. apply andb_prop in G. destruct G as [G G3]. apply andb_prop in G. destruct G as [G1 G2].
  split; [|split].
  - exact (NoDup_map_inv _ _ (nodupx_ok _ G1)).
  - exact (nodupx_ok _ G2).
  - intros [d m] I. rewrite forallb_forall in G3. specialize (G3 _ I). cbn [fst snd] in *. apply andb_prop in G3. destruct G3 as [A B].
    split; [exact A|]. destruct (alookup String.eqb d t) as [k'|] eqn:E; [|discriminate].
    apply (alookup_in _ string_eqb_reflect) in E. apply existsb_exists in B. destruct B as (y & B1 & B2). apply String.eqb_eq in B2. subst y. eauto.
Qed.
Lemma all_tidy : forallb (tidy classes) classes = true.
Proof. vm_compute. reflexivity. Qed.
Theorem C114_only_members c k :
  In (c, k) classes ->
  NoDup (k_members k) /\ NoDup (save_as classes c (fun x => x)) /\ forall x, In x (save_as classes c (fun x => x)) -> has_member c x.
Proof.
  intros H. destruct (tidy_ok classes c k (proj1 (forallb_forall (tidy classes) classes) all_tidy (c, k) H)) as (A & B & C).
  split; [exact A|]. split; [exact B|]. intros x I. destruct (C x I) as [D E]. split; [exact (ancestor_ok 6 c (fst x) D)|exact E].
Qed.
Example C114_only_members_ex :
  (exists k, In ("ESize3D", k) classes) /\ save_as classes "ESize3D" (fun x => x) = [("ESize3D", "x"); ("ESize3D", "y"); ("ESize3D", "z")].
Proof. split; [eexists; apply (alookup_in _ string_eqb_reflect); vm_compute; reflexivity|vm_compute; reflexivity]. Qed.
Print Assumptions C114_only_members.

(** C114. A layout that was loaded does not have the name of the one that was saved, nor its identity: it keeps those it was
    made with. *)
Theorem C114_layout_name_dropped {V} (o o0 : obj V) rest :
  exists o', load_as classes "ELayoutView" o0 (save_as classes "ELayoutView" o ++ rest) = Ok (o', rest) /\
    o' ("EObject", "m_name") = o0 ("EObject", "m_name") /\ o' ("EObject", "m_uuid") = o0 ("EObject", "m_uuid").
Proof.
  destruct (load_save classes "ELayoutView" o o0 rest) as (o' & E & P). exists o'. split; [exact E|]. rewrite !P. split; reflexivity.
Qed.
Theorem C114_layout_name_refuted :
  exists (o o0 o' : obj string), load_as classes "ELayoutView" o0 (save_as classes "ELayoutView" o) = Ok (o', []) /\
    o ("EObject", "m_name") = "board" /\ o' ("EObject", "m_name") = "".
Proof.
  destruct (C114_layout_name_dropped (fun _ => "board") (fun _ => "") []) as (o' & E & N & _). rewrite app_nil_r in E.
  exists (fun _ => "board"), (fun _ => ""), o'. auto.
Qed.
Print Assumptions C114_layout_name_dropped.
Print Assumptions C114_layout_name_refuted.

(** C114. An archive cut off after any number of values, as by a crash while it was written, is never taken for a whole one:
    loading it throws, and then the database is empty.  A file that cannot be opened or is no archive leaves it alone. *)
Theorem C114_cut_off_archive_throws {V} emptied (o o0 : obj V) n :
  n < List.length (save_as classes "EDatabase" o) ->
  load_db emptied (Values (firstn n (save_as classes "EDatabase" o))) o0 = (Throw, emptied o0).
Proof.
  intros H. unfold load_db. rewrite (load_short classes "EDatabase"); [reflexivity|].
  rewrite save_length in H. rewrite firstn_length, save_length. lia.
Qed.
Example C114_cut_off_archive_ex :
  List.length (save_as classes "EDatabase" (fun x => String.length (snd x))) = 4 /\
  fst (load_db (fun o => o) (Values (firstn 3 (save_as classes "EDatabase" (fun x => String.length (snd x))))) (fun _ => 0)) = Throw /\
  fst (load_db (fun o => o) (Values (save_as classes "EDatabase" (fun x => String.length (snd x)))) (fun _ => 0)) = Ok true.
Proof. vm_compute. auto. Qed.
Print Assumptions C114_cut_off_archive_throws.

(** C115: identities *)
Definition plain (op : oop) : bool := match op with New _ | Assign _ _ | SetName _ _ => true | _ => false end.

Lemma set_at_ids i o l a : nth_error l i = Some a -> o_id o = o_id a -> map o_id (set_at i o l) = map o_id l.
Proof.
  intros H E. unfold set_at. rewrite H. revert i H. induction l as [|b l IH]; intros i H; [now destruct i|].
  destruct i; cbn in *; [injection H as ->; now rewrite E|]. now rewrite IH.
Qed.

Lemma ids_plain ops : forallb plain ops = true -> map o_id (w_objs (orun ops)) = map Some (seq 0 (w_next (orun ops))).
Proof.
  unfold orun. rewrite <- (rev_involutive ops). induction (rev ops) as [|op r IH]; [reflexivity|].
  cbn [rev]. rewrite forallb_app, fold_left_app. cbn [fold_left]. intros H. apply andb_prop in H. destruct H as [H1 H2]. specialize (IH H1).
  set (w := fold_left ostep (rev r) (mkWorld [] 0)) in *. destruct op; cbn in H2; try discriminate; cbn [ostep].
  - cbn [w_objs w_next]. rewrite map_app, IH, seq_S, map_app. reflexivity.
  - destruct (nth_error (w_objs w) i) eqn:Ei; [|exact IH]. destruct (nth_error (w_objs w) j); [|exact IH]. cbn [w_objs w_next].
    rewrite (set_at_ids i _ _ e Ei); [exact IH|reflexivity].
  - destruct (nth_error (w_objs w) i) eqn:Ei; [|exact IH]. cbn [w_objs w_next]. rewrite (set_at_ids i _ _ e Ei); [exact IH|reflexivity].
Qed.

(** C115. After any history of making objects, assigning and renaming them, an object is equal to itself and to no other
    one.  Missing: copied and moved objects. *)
Theorem C115_identity_partial ops i j a b :
  forallb plain ops = true -> nth_error (w_objs (orun ops)) i = Some a -> nth_error (w_objs (orun ops)) j = Some b ->
  same a b = Ok (i =? j)%nat.
Proof.
  intros H Ha Hb. pose proof (ids_plain ops H) as E.
  assert (G : forall i a, nth_error (w_objs (orun ops)) i = Some a -> o_id a = Some i).
  { intros i0 a0 H0. apply (map_nth_error o_id) in H0. rewrite E in H0.
    assert (L : i0 < w_next (orun ops)).
    { assert (N : nth_error (map Some (seq 0 (w_next (orun ops)))) i0 <> None) by congruence.
      apply nth_error_Some in N. now rewrite map_length, seq_length in N. }
    rewrite (map_nth_error Some i0 (seq 0 (w_next (orun ops))) (d := i0)) in H0; [congruence|].
    rewrite (nth_error_nth' _ 0); [|now rewrite seq_length]. now rewrite seq_nth. }
  unfold same. rewrite (G i a Ha), (G j b Hb). reflexivity.
Qed.
Example C115_identity_ex :
  let ops := [New "a"; New "b"; Assign 0 1; SetName 1 "c"] in
  forallb plain ops = true /\ w_objs (orun ops) = [mkObj "b" (Some 0); mkObj "c" (Some 1)] /\ same (mkObj "b" (Some 0)) (mkObj "c" (Some 1)) = Ok false.
Proof. repeat split. Qed.
Print Assumptions C115_identity_partial.

(** C115. The identity of a copied object is never set: whatever happened before, comparing the copy, even with itself, is
    undefined. *)
Theorem C115_copy_is_ub ops i a x :
  nth_error (w_objs (orun ops)) i = Some a ->
  exists c, w_objs (orun (ops ++ [CopyOf i])) = w_objs (orun ops) ++ [c] /\ o_name c = o_name a /\ same x c = UB /\ same c x = UB /\ same c c = UB.
Proof.
  intros H. exists (copy_ctor a). unfold orun in *. rewrite fold_left_app. cbn [fold_left ostep]. rewrite H. cbn. repeat split.
  unfold same. now destruct (o_id x).
Qed.
Theorem C115_copied_identity_refuted : exists ops a b,
  nth_error (w_objs (orun ops)) 0 = Some a /\ nth_error (w_objs (orun ops)) 1 = Some b /\ same a b = UB.
Proof. exists [New "net"; CopyOf 0]. eexists. eexists. split; [reflexivity|]. split; reflexivity. Qed.
Example C115_copy_is_ub_ex : nth_error (w_objs (orun [New "net"])) 0 = Some (mkObj "net" (Some 0)).
Proof. reflexivity. Qed.

(** C115. A moved object has the identity but not the name of the object it was made from. *)
Theorem C115_moved_name_dropped ops i a :
  nth_error (w_objs (orun ops)) i = Some a ->
  exists c, w_objs (orun (ops ++ [MoveOf i])) = w_objs (orun ops) ++ [c] /\ o_name c = "" /\ o_id c = o_id a.
Proof. intros H. exists (move_ctor a). unfold orun in *. rewrite fold_left_app. cbn [fold_left ostep]. rewrite H. auto. Qed.

(** C115. Assigning takes over the name and leaves the identity, moving takes over the identity and leaves the name; no other
    object changes. *)
Lemma set_at_nth i o l a : nth_error l i = Some a -> nth_error (set_at i o l) i = Some o /\ forall n, n <> i -> nth_error (set_at i o l) n = nth_error l n.
Proof.
  intros H. unfold set_at. rewrite H. revert i H. induction l as [|b l IH]; intros [|i] H; try discriminate; cbn in *.
  - split; [reflexivity|]. intros [|n] N; [easy|reflexivity].
  - destruct (IH i H) as [A B]. split; [exact A|]. intros [|n] N; [reflexivity|]. apply B. congruence.
Qed.
Theorem C115_assigned ops i j a b :
  nth_error (w_objs (orun ops)) i = Some a -> nth_error (w_objs (orun ops)) j = Some b ->
  exists c d,
    nth_error (w_objs (orun (ops ++ [Assign i j]))) i = Some c /\ o_name c = o_name b /\ o_id c = o_id a /\ nth_error (w_objs (orun (ops ++ [MoveAssign i j]))) i = Some d /\ o_name d = o_name a /\ o_id d = o_id b /\ forall n, n <> i ->
      nth_error (w_objs (orun (ops ++ [Assign i j]))) n = nth_error (w_objs (orun ops)) n /\ nth_error (w_objs (orun (ops ++ [MoveAssign i j]))) n = nth_error (w_objs (orun ops)) n.
Proof.
  intros Ha Hb. unfold orun in *. rewrite !fold_left_app. cbn [fold_left ostep]. rewrite Ha, Hb. cbn [w_objs].
  destruct (set_at_nth i (copy_assign a b) _ a Ha) as [C1 C2], (set_at_nth i (move_assign a b) _ a Ha) as [D1 D2].
  exists (copy_assign a b), (move_assign a b). repeat split; auto.
Qed.
Example C115_assigned_ex :
  w_objs (orun [New "a"; New "b"; Assign 0 1]) = [mkObj "b" (Some 0); mkObj "b" (Some 1)] /\ w_objs (orun [New "a"; New "b"; MoveAssign 0 1]) = [mkObj "a" (Some 1); mkObj "b" (Some 1)].
Proof. split; reflexivity. Qed.
Print Assumptions C115_assigned.
Print Assumptions C115_copy_is_ub.
Print Assumptions C115_copied_identity_refuted.
Print Assumptions C115_moved_name_dropped.
