(** Theorems about the settings classes seen from Python. *)
From Verif Require Import Base PyApi_Model PyApi_Spec.
From Coq Require Import QArith.
Close Scope Q_scope.
Open Scope nat_scope.
Open Scope string_scope.
Open Scope list_scope.
Open Scope res_scope.

(** ** Trees of members *)
Lemma member_field m o : member m o = field m o.
Proof.
  destruct o as [|c ms]; [reflexivity|]. cbn [member field]. induction ms as [|[k w] ms IH]; [reflexivity|].
  cbn [List.find alookup fst]. rewrite String.eqb_sym. destruct (String.eqb m k); [reflexivity|exact IH].
Qed.
Lemma follow_none p : follow None p = None.
Proof. destruct p; reflexivity. Qed.
Lemma follow_at p : forall o, follow (Some o) p = at_path p o.
Proof.
  induction p as [|m p IH]; intros o; [reflexivity|]. cbn [follow at_path]. rewrite member_field.
  destruct (field m o) as [o'|]; [apply IH|apply follow_none].
Qed.
Lemma at_app p q : forall o, at_path (p ++ q) o = match at_path p o with Some v => at_path q v | None => None end.
Proof. induction p as [|m p IH]; intros o; [reflexivity|]. cbn [app at_path]. destruct (field m o); [apply IH|reflexivity]. Qed.
Lemma put_member_same m v ms : alookup String.eqb m ms <> None -> alookup String.eqb m (put_member m v ms) = Some v.
Proof.
  induction ms as [|[k w] ms IH]; intros H; cbn [alookup] in *; [congruence|].
  cbn [put_member]. destruct (String.eqb m k) eqn:E; cbn [alookup]; rewrite E; [reflexivity|now apply IH].
Qed.
Lemma put_member_other m k v ms : m <> k -> alookup String.eqb k (put_member m v ms) = alookup String.eqb k ms.
Proof.
  intros N. induction ms as [|[l w] ms IH]; [reflexivity|]. cbn [put_member alookup].
  destruct (String.eqb m l) eqn:E.
  - cbn [alookup]. apply String.eqb_eq in E. subst l. assert (F : String.eqb k m = false) by (apply String.eqb_neq; congruence).
    now rewrite F.
  - cbn [alookup]. destruct (String.eqb k l); [reflexivity|exact IH].
Qed.
Lemma field_put_same m v o : field m o <> None -> field m (put_field m v o) = Some v.
Proof. destruct o as [|c ms]; cbn [field put_field]; [congruence|apply put_member_same]. Qed.
Lemma field_put_other m k v o : m <> k -> field k (put_field m v o) = field k o.
Proof. destruct o as [|c ms]; cbn [field put_field]; [reflexivity|apply put_member_other]. Qed.
Lemma class_put m v o : class_of (put_field m v o) = class_of o.
Proof. destruct o; reflexivity. Qed.
Lemma at_put p v : forall o, at_path p o <> None -> at_path p (put_path p v o) = Some v.
Proof.
  induction p as [|m p IH]; intros o H; [reflexivity|]. cbn [at_path put_path] in *.
  destruct (field m o) as [o'|] eqn:F; [|congruence].
  rewrite field_put_same by congruence. now apply IH.
Qed.
Lemma put_put p m v : forall o t, at_path p o = Some t -> field m t <> None -> put_path p (put_field m v t) o = put_path (p ++ [m]) v o.
Proof.
  induction p as [|k p IH]; intros o t H F; cbn [at_path put_path app] in *.
  - injection H as <-. destruct (field m o); [reflexivity|congruence].
  - destruct (field k o) as [o'|] eqn:G; [|congruence]. now rewrite (IH o' t H F).
Qed.
Lemma at_put_other p : forall q v o, ~ related p q -> at_path q (put_path p v o) = at_path q o.
Proof.
  induction p as [|m p IH]; intros q v o N; [destruct N; left; now exists q|].
  destruct q as [|k q]; [destruct N; right; now exists (m :: p)|].
  cbn [at_path put_path]. destruct (field m o) as [o'|] eqn:F; [|reflexivity].
  destruct (String.eqb m k) eqn:E.
  - apply String.eqb_eq in E. subst k. rewrite field_put_same by congruence. rewrite F. apply IH. intros [[r R]|[r R]]; apply N.
    + left. exists r. cbn [app]. now f_equal.
    + right. exists r. cbn [app]. now f_equal.
  - apply String.eqb_neq in E. now rewrite field_put_other.
Qed.

(** ** Objects of a state *)
Lemma nth_update {A} (f : A -> A) l : forall n i, nth_error (update n f l) i = if Nat.eqb i n then option_map f (nth_error l n) else nth_error l i.
Proof.
  intros n i. unfold update. destruct (nth_error l n) as [a|] eqn:E.
  - assert (L : n < List.length l) by (apply nth_error_Some; congruence).
    assert (FL : List.length (firstn n l) = n) by (apply firstn_length_le; lia).
    destruct (Nat.eqb_spec i n) as [->|N].
    + rewrite nth_error_app2 by lia. now rewrite FL, Nat.sub_diag.
    + destruct (Nat.lt_ge_cases i n) as [H|H].
      * rewrite nth_error_app1 by lia. rewrite <- (firstn_skipn n l) at 2. now rewrite nth_error_app1 by lia.
      * rewrite nth_error_app2 by lia. rewrite FL. destruct (i - n) as [|k] eqn:K; [lia|]. cbn [nth_error].
        rewrite <- (firstn_skipn (n + 1) l) at 2. assert (FL' : List.length (firstn (n + 1) l) = n + 1) by (apply firstn_length_le; lia).
        rewrite nth_error_app2 by lia. rewrite FL'. f_equal. lia.
  - destruct (Nat.eqb_spec i n) as [->|N]; [now rewrite E|reflexivity].
Qed.
Lemma obj_store s r v i : obj (store s r v) i = if Nat.eqb i (r_root r) then option_map (put_path (r_path r) v) (obj s i) else obj s i.
Proof.
  unfold obj, store. cbn [s_objs]. rewrite nth_update. destruct (Nat.eqb_spec i (r_root r)) as [->|N]; [|reflexivity].
  destruct (nth_error (s_objs s) (r_root r)) as [[g o]|]; reflexivity.
Qed.
Lemma whole_store_same s r v : whole s (r_root r) (r_path r) <> None -> whole (store s r v) (r_root r) (r_path r) = Some v.
Proof.
  unfold whole. rewrite obj_store, Nat.eqb_refl. destruct (obj s (r_root r)) as [o|]; [|intros H; now rewrite follow_none in H].
  cbn [option_map]. rewrite !follow_at. apply at_put.
Qed.
Lemma deref_whole s r o : deref s r = Ok o -> whole s (r_root r) (r_path r) = Some o.
Proof.
  unfold deref, whole, obj. destruct (nth_error (s_objs s) (r_root r)) as [[g w]|]; [|discriminate].
  destruct (through_extraction (r_path r) && negb (Nat.eqb (r_gen r) g)); [discriminate|]. cbn [option_map snd]. rewrite follow_at.
  destruct (at_path (r_path r) w); [congruence|discriminate].
Qed.
Lemma object_inv s x r o : object s x = Ok (r, o) -> nth_error (s_vars s) x = Some (VRef r) /\ deref s r = Ok o.
Proof.
  unfold object, variable. destruct (nth_error (s_vars s) x) as [[|r']|]; cbn [bind]; try discriminate.
  destruct (deref s r') as [o'| | |] eqn:D; cbn [bind]; try discriminate. now intros [= <- <-].
Qed.
Lemma object_stands s x r o : object s x = Ok (r, o) -> stands_for s x (r_root r) (r_path r) /\ whole s (r_root r) (r_path r) = Some o.
Proof.
  intros H. destruct (object_inv _ _ _ _ H) as [V D]. split; [exists (r_gen r); destruct r; exact V|now apply deref_whole].
Qed.
Lemma arg_value_of s e v : arg_value s e = Ok v -> value_of s e v.
Proof.
  destruct e as [l|y]; cbn [arg_value value_of]; [congruence|].
  destruct (object s y) as [[r o]| | |] eqn:O; cbn [bind]; try discriminate. intros [= <-]. cbn [snd].
  destruct (object_stands _ _ _ _ O). eauto.
Qed.
Lemma stands_fun s x i p i' p' : stands_for s x i p -> stands_for s x i' p' -> i = i' /\ p = p'.
Proof. intros [g H] [g' H']. rewrite H in H'. now injection H' as -> -> ->. Qed.

(** ** Attributes *)
Definition spelled (e : string * (string * kind)) : bool :=
  String.eqb (plain (fst e)) (plain (fst (snd e))) || String.eqb (fst e) "bot_block_bc".
Definition kinds_ok (e : string * (string * kind)) : bool :=
  match snd (snd e) with ByRef => existsb (String.eqb (fst e)) parts | ByCopy => negb (existsb (String.eqb (fst e)) parts) end.
Lemma attr_prop (P : string * (string * kind) -> bool) :
  forallb (fun c => forallb P (map (fun e => (fst (fst e), (snd (fst e), snd e))) (snd c))) bindings = true ->
  forall fuel c a r, find_attr fuel c a = Some r -> P (a, r) = true.
Proof.
  intros H. induction fuel as [|fuel IH]; intros c a r F; cbn [find_attr] in F; [discriminate|].
  destruct (class_entry c) as [[b attrs]|] eqn:C; [|discriminate].
  destruct (alookup String.eqb a _) as [r'|] eqn:A.
  - injection F as <-. unfold class_entry in C.
    apply (alookup_in _ (fun a b => String.eqb_spec a b)) in C. apply in_map_iff in C. destruct C as [[[c0 b0] at0] [E I]].
    cbn [fst snd] in E. injection E as -> -> ->. rewrite forallb_forall in H. specialize (H _ I). cbn [snd] in H.
    rewrite forallb_forall in H. apply H. now apply (alookup_in _ (fun a b => String.eqb_spec a b)) in A.
  - destruct b as [b|]; [|discriminate]. now apply IH with b.
Qed.
Lemma attr_spelled c a m k : attr c a = Some (m, k) -> a <> "bot_block_bc" -> same_spelling a m.
Proof.
  intros H N. apply (attr_prop spelled) in H; [|vm_compute; reflexivity]. unfold spelled in H. cbn [fst snd] in H.
  apply orb_prop in H. destruct H as [H|H]; apply String.eqb_eq in H; [exact H|contradiction].
Qed.
Lemma attr_kind c a m k : attr c a = Some (m, k) -> (k = ByRef <-> In a parts).
Proof.
  intros H. apply (attr_prop kinds_ok) in H; [|vm_compute; reflexivity]. unfold kinds_ok in H. cbn [fst snd] in H.
  assert (I : existsb (String.eqb a) parts = true <-> In a parts).
  { rewrite existsb_exists. split; [intros [b [B E]]; apply String.eqb_eq in E; now subst b|intros B; exists a; split; [exact B|apply String.eqb_refl]]. }
  rewrite <- I. destruct k, (existsb (String.eqb a) parts); cbn in H; split; congruence.
Qed.

Section Session.
  Context (cwd : string) (invalid maxf : Q).
  Notation step := (step cwd invalid maxf).
  Notation run := (run cwd invalid maxf).

  Lemma set_inv s x a e s' : step s (Set_ x a e) = Ok s' -> exists r o m k old v,
    object s x = Ok (r, o) /\ attr (class_of o) a = Some (m, k) /\ field m o = Some old /\ arg_value s e = Ok v /\ fits old v = true /\
    s' = store s r (put_field m v o).
  Proof.
    cbn [PyApi_Model.step]. destruct (object s x) as [[r o]| | |] eqn:O; cbn [bind]; try discriminate. cbn [fst snd].
    destruct (attr (class_of o) a) as [[m k]|] eqn:A; [|discriminate]. destruct (field m o) as [old|] eqn:F; [|discriminate].
    destruct (arg_value s e) as [v| | |] eqn:V; cbn [bind]; try discriminate. destruct (fits old v) eqn:W; [|discriminate].
    intros [= <-]. do 6 eexists. repeat split; eassumption.
  Qed.

  Lemma set_effect s r o m v : deref s r = Ok o -> field m o <> None ->
    whole (store s r (put_field m v o)) (r_root r) (r_path r ++ [m]) = Some v /\
    only_at s (store s r (put_field m v o)) (r_root r) (r_path r ++ [m]).
  Proof.
    intros D F. assert (W := deref_whole _ _ _ D). unfold whole in W.
    destruct (obj s (r_root r)) as [w|] eqn:B; [|rewrite follow_none in W; discriminate]. rewrite follow_at in W.
    assert (E : obj (store s r (put_field m v o)) (r_root r) = Some (put_path (r_path r ++ [m]) v w)).
    { rewrite obj_store, Nat.eqb_refl, B. cbn [option_map]. now rewrite (put_put _ _ _ _ _ W F). }
    split.
    - unfold whole. rewrite E, follow_at. apply at_put. rewrite at_app, W. cbn [at_path]. now destruct (field m o).
    - intros j q N. unfold whole. destruct (Nat.eq_dec j (r_root r)) as [->|J].
      + rewrite E, B, !follow_at. apply at_put_other. intros R. apply N. now split.
      + rewrite obj_store. apply Nat.eqb_neq in J. now rewrite J.
  Qed.

  (** C156: whatever the state of the program, assigning to an attribute other than [bot_block_bc] gives the member with the same
      name that value, and changes nothing else. *)
  Theorem C156_assign_partial : forall s x a e s', a <> "bot_block_bc" -> step s (Set_ x a e) = Ok s' ->
    exists i p m v, stands_for s x i p /\ same_spelling a m /\ value_of s e v /\
      whole s' i (p ++ [m]) = Some v /\ only_at s s' i (p ++ [m]) /\ s_vars s' = s_vars s.
  Proof.
    intros s x a e s' N H. destruct (set_inv _ _ _ _ _ H) as (r & o & m & k & old & v & O & A & F & V & _ & ->).
    destruct (object_stands _ _ _ _ O) as [SF _]. destruct (object_inv _ _ _ _ O) as [_ D].
    destruct (set_effect s r o m v D ltac:(congruence)) as [E1 E2].
    exists (r_root r), (r_path r), m, v. repeat split; try assumption.
    - eapply attr_spelled; eassumption.
    - now apply arg_value_of.
  Qed.

  (** C156: [bot_block_bc] is the member of the blocks on the top: whatever is assigned replaces these, and the blocks at the bottom
      stay as they were; reading it gives the blocks on the top. *)
  Theorem C156_bottom_blocks_refuted : forall s x e s' i p, step s (Set_ x "bot_block_bc" e) = Ok s' -> stands_for s x i p ->
    (exists v, value_of s e v /\ whole s' i (p ++ ["topBlockBC"]) = Some v) /\
    whole s' i (p ++ ["botBlockBC"]) = whole s i (p ++ ["botBlockBC"]).
  Proof.
    intros s x e s' i p H SF. destruct (set_inv _ _ _ _ _ H) as (r & o & m & k & old & v & O & A & F & V & _ & ->).
    destruct (object_stands _ _ _ _ O) as [SF' _]. destruct (stands_fun _ _ _ _ _ _ SF SF') as [-> ->].
    destruct (object_inv _ _ _ _ O) as [_ D].
    assert (M : m = "topBlockBC").
    { apply (attr_prop (fun e => negb (String.eqb (fst e) "bot_block_bc") || String.eqb (fst (snd e)) "topBlockBC")) in A; [|vm_compute; reflexivity].
      cbn [fst snd] in A. change (String.eqb "bot_block_bc" "bot_block_bc") with true in A. cbn [negb orb] in A. now apply String.eqb_eq in A. }
    subst m. destruct (set_effect s r o "topBlockBC" v D ltac:(congruence)) as [E1 E2]. split.
    - exists v. split; [now apply arg_value_of|exact E1].
    - apply E2. intros [_ [[q Q]|[q Q]]]; rewrite <- app_assoc in Q; apply app_inv_head in Q; discriminate.
  Qed.

  (** C156: [add_block_bc] is the way to the blocks at the bottom: it adds the block with its condition to the list of the side named,
      and the block to the boxes the mesh keeps apart; nothing else changes. *)
  Theorem C156_add_block : forall s x top b c s' i p ls bs,
    step s (AddBlock x top b c) = Ok s' -> stands_for s x i p ->
    whole s i (p ++ [if top then "topBlockBC" else "botBlockBC"]) = Some (CVal (Seq ls)) ->
    whole s i (p ++ ["layerCutSettings"; "imprintBox"]) = Some (CVal (Seq bs)) ->
    whole s' i (p ++ [if top then "topBlockBC" else "botBlockBC"]) = Some (CVal (Seq (ls ++ [Seq [b; c]]))) /\
    whole s' i (p ++ ["layerCutSettings"; "imprintBox"]) = Some (CVal (Seq (bs ++ [b]))) /\
    forall j q, ~ (j = i /\ (related (p ++ [if top then "topBlockBC" else "botBlockBC"]) q \/ related (p ++ ["layerCutSettings"; "imprintBox"]) q)) ->
      whole s' j q = whole s j q.
  Proof.
    intros s x top b c s' i p ls bs H SF WL WB. cbn [PyApi_Model.step] in H.
    destruct (object s x) as [[r o]| | |] eqn:O; cbn [bind] in H; try discriminate. cbn [fst snd] in H.
    destruct (is_prism o); [|discriminate]. injection H as <-.
    destruct (object_stands _ _ _ _ O) as [SF' W]. destruct (stands_fun _ _ _ _ _ _ SF SF') as [-> ->].
    set (m := if top then "topBlockBC" else "botBlockBC") in *.
    assert (NM : m <> "layerCutSettings") by (unfold m; destruct top; discriminate).
    unfold whole in W, WL, WB. destruct (obj s (r_root r)) as [w|] eqn:B; [|rewrite follow_none in W; discriminate].
    rewrite follow_at in W, WL, WB. rewrite at_app, W in WL, WB. cbn [at_path] in WL, WB.
    destruct (field m o) as [ml|] eqn:FM; [|discriminate]. injection WL as ->.
    destruct (field "layerCutSettings" o) as [lc|] eqn:FC; [|discriminate].
    destruct (field "imprintBox" lc) as [ib|] eqn:FI; [|discriminate]. injection WB as ->.
    assert (AB : add_block top b c o = put_path ["layerCutSettings"; "imprintBox"] (CVal (Seq (bs ++ [b]))) (put_path [m] (CVal (Seq (ls ++ [Seq [b; c]]))) o)).
    { assert (A1 : append m (Seq [b; c]) o = put_field m (CVal (Seq (ls ++ [Seq [b; c]]))) o) by (unfold append; now rewrite FM).
      assert (A2 : append "imprintBox" b lc = put_field "imprintBox" (CVal (Seq (bs ++ [b]))) lc) by (unfold append; now rewrite FI).
      unfold add_block. fold m. cbv zeta. rewrite A1, field_put_other by exact NM. rewrite FC, A2. cbn [put_path].
      rewrite FM, field_put_other by exact NM. now rewrite FC, FI. }
    assert (E : obj (store s r (add_block top b c o)) (r_root r) = Some (put_path (r_path r) (add_block top b c o) w)).
    { rewrite obj_store, Nat.eqb_refl, B. reflexivity. }
    assert (AT : forall q, at_path (r_path r ++ q) (put_path (r_path r) (add_block top b c o) w) = at_path q (add_block top b c o)).
    { intros q. rewrite at_app, at_put by congruence. reflexivity. }
    split; [|split].
    - unfold whole. rewrite E, follow_at, AT, AB. rewrite at_put_other; [apply at_put; cbn [at_path]; now rewrite FM|].
      intros [[q Q]|[q Q]]; injection Q; congruence.
    - unfold whole. rewrite E, follow_at, AT, AB. apply at_put. cbn [put_path at_path]. rewrite FM, field_put_other by exact NM. now rewrite FC, FI.
    - intros j q N. unfold whole. destruct (Nat.eq_dec j (r_root r)) as [->|J].
      + rewrite E, B, !follow_at. assert (R : related (r_path r) q \/ ~ related (r_path r) q).
        { clear. revert q. induction (r_path r) as [|k p IH]; intros q; [left; left; now exists q|]. destruct q as [|l q]; [left; right; now exists (k :: p)|].
          destruct (string_dec k l) as [->|D].
          - destruct (IH q) as [[[t T]|[t T]]|D]; [left; left; exists t; cbn; congruence|left; right; exists t; cbn; congruence|].
            right. intros [[t T]|[t T]]; injection T as T; apply D; [left|right]; now exists t.
          - right. intros [[t T]|[t T]]; injection T; congruence. }
        destruct R as [[[t ->]|[t T]]|R]; [| |now apply at_put_other].
        * rewrite AT, at_app, W, AB. rewrite at_put_other; [apply at_put_other|].
          -- intros RT. apply N. split; [reflexivity|left]. destruct RT as [[u ->]|[u U]]; [left|right]; exists u.
             ++ now rewrite app_assoc.
             ++ rewrite <- app_assoc. now f_equal.
          -- intros RT. apply N. split; [reflexivity|right]. destruct RT as [[u ->]|[u U]]; [left|right]; exists u.
             ++ now rewrite app_assoc.
             ++ rewrite <- app_assoc. now f_equal.
        * destruct N. split; [reflexivity|left; right]. exists (t ++ [m]). now rewrite T, app_assoc.
      + rewrite obj_store. apply Nat.eqb_neq in J. now rewrite J.
  Qed.

  Lemma get_inv s x a s' : step s (Get x a) = Ok s' -> exists r o m k v,
    object s x = Ok (r, o) /\ attr (class_of o) a = Some (m, k) /\ field m o = Some v /\
    s' = match k with ByRef => push s (VRef (Ref (r_root r) (r_gen r) (r_path r ++ [m]))) | ByCopy => fresh s v end.
  Proof.
    cbn [PyApi_Model.step]. destruct (object s x) as [[r o]| | |] eqn:O; cbn [bind]; try discriminate. cbn [fst snd].
    destruct (attr (class_of o) a) as [[m k]|] eqn:A; [|discriminate]. destruct (field m o) as [v|] eqn:F; [|discriminate].
    intros H. do 5 eexists. repeat split; try eassumption. destruct k; now injection H as <-.
  Qed.
  Lemma nth_push s v : nth_error (s_vars (push s v)) (List.length (s_vars s)) = Some v.
  Proof. unfold push. cbn [s_vars]. rewrite nth_error_app2 by lia. now rewrite Nat.sub_diag. Qed.
  Lemma nth_fresh s o : nth_error (s_vars (fresh s o)) (List.length (s_vars s)) = Some (VRef (Ref (List.length (s_objs s)) 0 [])).
  Proof. unfold fresh. cbn [s_vars]. rewrite nth_error_app2 by lia. now rewrite Nat.sub_diag. Qed.
  Lemma obj_fresh s o i : i < List.length (s_objs s) -> obj (fresh s o) i = obj s i.
  Proof. intros L. unfold obj, fresh. cbn [s_objs]. now rewrite nth_error_app1. Qed.
  Lemma obj_new s o : obj (fresh s o) (List.length (s_objs s)) = Some o.
  Proof. unfold obj, fresh. cbn [s_objs]. rewrite nth_error_app2 by lia. now rewrite Nat.sub_diag. Qed.

  (** C157: an attribute that is an object of its own is read by reference: assigning to an attribute of what was read changes the
      object it was read from. *)
  Theorem C157_reference : forall s x a b e s', In a parts -> b <> "bot_block_bc" ->
    run s [Get x a; Set_ (List.length (s_vars s)) b e] = Ok s' ->
    exists i p m m' v, stands_for s x i p /\ same_spelling a m /\ same_spelling b m' /\ whole s' i (p ++ [m; m']) = Some v /\
      (forall l, e = ALit l -> v = CVal l) /\ only_at s s' i (p ++ [m; m']).
  Proof.
    intros s x a b e s' I N H. cbn [PyApi_Model.run] in H. destruct (step s (Get x a)) as [s1| | |] eqn:G; cbn [bind] in H; try discriminate.
    destruct (get_inv _ _ _ _ G) as (r & o & m & k & v & O & A & F & ->).
    assert (K : k = ByRef) by (eapply attr_kind; eassumption). subst k.
    destruct (step _ (Set_ _ b e)) as [s2| | |] eqn:T; cbn [bind] in H; try discriminate. injection H as <-.
    destruct (C156_assign_partial _ _ _ _ _ N T) as (i & p & m' & w & SF & SP & VO & W & OA & _).
    destruct SF as [g SF]. rewrite nth_push in SF. injection SF as <- <- <-.
    destruct (object_stands _ _ _ _ O) as [SF _].
    exists (r_root r), (r_path r), m, m', w. rewrite <- app_assoc in W, OA. cbn [app] in W, OA. repeat split; try assumption.
    - eapply attr_spelled; [eassumption|]. intros ->. vm_compute in I. intuition discriminate.
    - intros l ->. exact VO.
  Qed.

  (** ** What a statement can change *)
  Lemma extract_inv s x y s' : step s (Extract x y) = Ok s' -> exists r o z q w,
    y = Some z /\ object s x = Ok (r, o) /\ is_setup o = true /\ object s z = Ok (q, w) /\ is_prism w = true /\
    s' = mkS (update (r_root r) (fun e => (S (fst e), snd e)) (s_objs (store s r (put_field "extractionSettings" w o)))) (s_vars s).
  Proof.
    cbn [PyApi_Model.step]. destruct (object s x) as [[r o]| | |] eqn:O; cbn [bind]; try discriminate. cbn [fst snd].
    destruct (is_setup o) eqn:SU; [|discriminate]. destruct y as [z|]; [|discriminate].
    destruct (variable s z) as [[|q0]| | |] eqn:Z; cbn [bind]; try discriminate.
    destruct (object s z) as [[q w]| | |] eqn:Q; cbn [bind]; try discriminate. cbn [snd].
    destruct (is_prism w) eqn:IP; [|discriminate]. intros [= <-]. do 5 eexists. repeat split; try eassumption.
  Qed.
  Lemma obj_bump n objs vars vars' i : obj (mkS (update n (fun e : nat * cobj => (S (fst e), snd e)) objs) vars) i = obj (mkS objs vars') i.
  Proof.
    unfold obj. cbn [s_objs]. rewrite nth_update. destruct (Nat.eqb_spec i n) as [->|N]; [|reflexivity].
    destruct (nth_error objs n) as [[g o]|]; reflexivity.
  Qed.
  Lemma step_frame s t s' i : step s t = Ok s' -> i < List.length (s_objs s) ->
    (forall x p, target t = Some x -> ~ stands_for s x i p) -> obj s' i = obj s i.
  Proof.
    intros H L Q.
    assert (ST : forall x r o v, target t = Some x -> object s x = Ok (r, o) -> obj (store s r v) i = obj s i).
    { intros x r o v T O. rewrite obj_store. destruct (Nat.eqb_spec i (r_root r)) as [E|E]; [|reflexivity].
      destruct (object_stands _ _ _ _ O) as [SF _]. rewrite <- E in SF. now destruct (Q x (r_path r) T). }
    destruct t as [c|x a|x a e|x l|x top bl bc|x y|x|x].
    - injection H as <-. now apply obj_fresh.
    - destruct (get_inv _ _ _ _ H) as (r & o & m & k & v & _ & _ & _ & ->). destruct k; [reflexivity|now apply obj_fresh].
    - destruct (set_inv _ _ _ _ _ H) as (r & o & m & k & old & v & O & _ & _ & _ & _ & ->). now apply (ST x r o).
    - cbn [PyApi_Model.step] in H. destruct (object s x) as [[r o]| | |] eqn:O; cbn [bind] in H; try discriminate. cbn [fst snd] in H.
      destruct o as [[| | |ls]|]; try discriminate. injection H as <-. now apply (ST x r (CVal (Seq ls))).
    - cbn [PyApi_Model.step] in H. destruct (object s x) as [[r o]| | |] eqn:O; cbn [bind] in H; try discriminate. cbn [fst snd] in H.
      destruct (is_prism o); [|discriminate]. injection H as <-. now apply (ST x r o).
    - destruct (extract_inv _ _ _ _ H) as (r & o & z & q & w & _ & O & _ & _ & _ & ->).
      rewrite (obj_bump _ _ _ (s_vars s)). etransitivity; [|apply (ST x r o (put_field "extractionSettings" w o) eq_refl O)]. reflexivity.
    - cbn [PyApi_Model.step] in H. destruct (object s x) as [[r o]| | |] eqn:O; cbn [bind] in H; try discriminate. cbn [fst snd] in H.
      destruct (is_setup o); [|discriminate]. destruct (field "extractionSettings" o) as [e|]; [|discriminate].
      destruct (nth_error (s_objs s) (r_root r)) as [[g w]|]; [|discriminate]. now injection H as <-.
    - cbn [PyApi_Model.step] in H. destruct (object s x) as [[r o]| | |] eqn:O; cbn [bind] in H; try discriminate. cbn [fst snd] in H.
      destruct (is_setup o); [|discriminate]. destruct (field "extractionSettings" o) as [e|]; [|discriminate].
      destruct (String.eqb (class_of e) _); [discriminate|]. now injection H as <-.
  Qed.
  Lemma length_store s r v : List.length (s_objs (store s r v)) = List.length (s_objs s).
  Proof.
    unfold store, update. cbn [s_objs]. destruct (nth_error (s_objs s) (r_root r)) as [a|] eqn:E; [|reflexivity].
    assert (L : r_root r < List.length (s_objs s)) by (apply nth_error_Some; congruence).
    rewrite app_length. cbn [List.length]. rewrite firstn_length_le, skipn_length by lia. lia.
  Qed.
  Lemma obj_lt s i : obj s i <> None <-> i < List.length (s_objs s).
  Proof. unfold obj. rewrite <- nth_error_Some. destruct (nth_error (s_objs s) i); cbn; split; congruence. Qed.
  Lemma obj_store_none s r v i : obj s i <> None -> obj (store s r v) i <> None.
  Proof. rewrite !obj_lt, length_store. tauto. Qed.
  Lemma step_grows s t s' : step s t = Ok s' -> List.length (s_objs s) <= List.length (s_objs s').
  Proof.
    intros H. assert (G : forall i, obj s i <> None -> obj s' i <> None).
    { intros i L.
      assert (FR : forall o, obj (fresh s o) i <> None) by (intros o; rewrite obj_fresh; [exact L|now apply obj_lt]).
      destruct t as [c|x a|x a e|x l|x top bl bc|x y|x|x].
      - injection H as <-. apply FR.
      - destruct (get_inv _ _ _ _ H) as (r & o & m & k & v & _ & _ & _ & ->). destruct k; [exact L|apply FR].
      - destruct (set_inv _ _ _ _ _ H) as (r & o & m & k & old & v & _ & _ & _ & _ & _ & ->). now apply obj_store_none.
      - cbn [PyApi_Model.step] in H. destruct (object s x) as [[r o]| | |]; cbn [bind] in H; try discriminate. cbn [fst snd] in H.
        destruct o as [[| | |ls]|]; try discriminate. injection H as <-. now apply obj_store_none.
      - cbn [PyApi_Model.step] in H. destruct (object s x) as [[r o]| | |]; cbn [bind] in H; try discriminate. cbn [fst snd] in H.
        destruct (is_prism o); [|discriminate]. injection H as <-. now apply obj_store_none.
      - destruct (extract_inv _ _ _ _ H) as (r & o & z & q & w & _ & _ & _ & _ & _ & ->).
        rewrite (obj_bump _ _ _ (s_vars s)). exact (obj_store_none s r _ i L).
      - cbn [PyApi_Model.step] in H. destruct (object s x) as [[r o]| | |]; cbn [bind] in H; try discriminate. cbn [fst snd] in H.
        destruct (is_setup o); [|discriminate]. destruct (field "extractionSettings" o) as [e|]; [|discriminate].
        destruct (nth_error (s_objs s) (r_root r)) as [[g w]|]; [|discriminate]. now injection H as <-.
      - cbn [PyApi_Model.step] in H. destruct (object s x) as [[r o]| | |]; cbn [bind] in H; try discriminate. cbn [fst snd] in H.
        destruct (is_setup o); [|discriminate]. destruct (field "extractionSettings" o) as [e|]; [|discriminate].
        destruct (String.eqb (class_of e) _); [discriminate|]. now injection H as <-. }
    destruct (Nat.le_gt_cases (List.length (s_objs s)) (List.length (s_objs s'))) as [L|L]; [exact L|].
    exfalso. apply obj_lt in L. apply G in L. apply obj_lt in L. lia.
  Qed.

  (** C157: over any run of statements, an object changes only if one of them is applied to a variable that stands for it or a part
      of it. *)
  Theorem C157_untouched : forall ts s s' i, i < List.length (s_objs s) -> run s ts = Ok s' -> quiet step i s ts -> obj s' i = obj s i.
  Proof.
    induction ts as [|t ts IH]; intros s s' i L H Q; cbn [PyApi_Model.run] in H; [congruence|].
    destruct (step s t) as [s1| | |] eqn:T; cbn [bind] in H; try discriminate. destruct Q as [Q1 Q2].
    etransitivity; [apply (IH s1)|now apply (step_frame s t)]; auto. apply step_grows in T. lia.
  Qed.

  (** C157: what is read is the member with the same name; an attribute that is an object of its own is read by reference, anything
      else gives an object of its own. *)
  Theorem C157_read : forall s x a s', a <> "bot_block_bc" -> step s (Get x a) = Ok s' ->
    exists i p m v i' p', stands_for s x i p /\ same_spelling a m /\ whole s i (p ++ [m]) = Some v /\
      stands_for s' (List.length (s_vars s)) i' p' /\ whole s' i' p' = Some v /\
      (In a parts -> i' = i /\ p' = p ++ [m]) /\ (~ In a parts -> i' = List.length (s_objs s) /\ p' = []).
  Proof.
    intros s x a s' N H. destruct (get_inv _ _ _ _ H) as (r & o & m & k & v & O & A & F & ->).
    destruct (object_stands _ _ _ _ O) as [SF W].
    assert (WV : whole s (r_root r) (r_path r ++ [m]) = Some v).
    { unfold whole in *. destruct (obj s (r_root r)) as [w|]; [|rewrite follow_none in W; discriminate]. rewrite follow_at in *.
      rewrite at_app, W. cbn [at_path]. now rewrite F. }
    exists (r_root r), (r_path r), m, v. assert (K := attr_kind _ _ _ _ A). destruct k.
    - exists (r_root r), (r_path r ++ [m]). split; [exact SF|]. split; [eapply attr_spelled; eassumption|]. split; [exact WV|].
      split; [exists (r_gen r); apply nth_push|]. split; [exact WV|]. split; [now split|]. intros NI. destruct NI. now apply K.
    - exists (List.length (s_objs s)), []. split; [exact SF|]. split; [eapply attr_spelled; eassumption|]. split; [exact WV|].
      split; [exists 0; apply nth_fresh|]. split; [unfold whole; now rewrite obj_new|]. split; [|now split].
      intros I. apply K in I. discriminate.
  Qed.

  Lemma step_vars s t s' y v : step s t = Ok s' -> nth_error (s_vars s) y = Some v -> nth_error (s_vars s') y = Some v.
  Proof.
    intros H V. assert (APP : forall w, nth_error (s_vars s ++ [w]) y = Some v).
    { intros w. rewrite nth_error_app1; [exact V|]. apply nth_error_Some. congruence. }
    destruct t as [c|x a|x a e|x l|x top bl bc|x z|x|x].
    - injection H as <-. apply APP.
    - destruct (get_inv _ _ _ _ H) as (r & o & m & k & w & _ & _ & _ & ->). destruct k; apply APP.
    - destruct (set_inv _ _ _ _ _ H) as (r & o & m & k & old & w & _ & _ & _ & _ & _ & ->). exact V.
    - cbn [PyApi_Model.step] in H. destruct (object s x) as [[r o]| | |]; cbn [bind] in H; try discriminate. cbn [fst snd] in H.
      destruct o as [[| | |ls]|]; try discriminate. injection H as <-. exact V.
    - cbn [PyApi_Model.step] in H. destruct (object s x) as [[r o]| | |]; cbn [bind] in H; try discriminate. cbn [fst snd] in H.
      destruct (is_prism o); [|discriminate]. injection H as <-. exact V.
    - destruct (extract_inv _ _ _ _ H) as (r & o & z' & q & w & _ & _ & _ & _ & _ & ->). exact V.
    - cbn [PyApi_Model.step] in H. destruct (object s x) as [[r o]| | |]; cbn [bind] in H; try discriminate. cbn [fst snd] in H.
      destruct (is_setup o); [|discriminate]. destruct (field "extractionSettings" o) as [e|]; [|discriminate].
      destruct (nth_error (s_objs s) (r_root r)) as [[g w]|]; [|discriminate]. injection H as <-. apply APP.
    - cbn [PyApi_Model.step] in H. destruct (object s x) as [[r o]| | |]; cbn [bind] in H; try discriminate. cbn [fst snd] in H.
      destruct (is_setup o); [|discriminate]. destruct (field "extractionSettings" o) as [e|]; [|discriminate].
      destruct (String.eqb (class_of e) _); [discriminate|]. injection H as <-. apply APP.
  Qed.
  Lemma only_quiet y n i : i <> n -> forall ts s, stands_for s y n [] ->
    Forall (fun t => target t = None \/ target t = Some y) ts -> quiet step i s ts.
  Proof.
    intros N. induction ts as [|t ts IH]; intros s SF F; [exact I|]. inversion F as [|? ? T F']; subst. split.
    - intros x p E SX. destruct T as [T|T]; [congruence|]. assert (x = y) by congruence. subst x.
      destruct (stands_fun _ _ _ _ _ _ SF SX). congruence.
    - intros s' H. apply IH; [|exact F']. destruct SF as [g SF]. exists g. eapply step_vars; eassumption.
  Qed.

  (** C157: lists, sets, numbers and the corners of a box are read as copies: whatever is then done to what was read, to append to a
      list of blocks or to move a corner, no object that existed before changes. *)
  Theorem C157_change_of_copy_refuted : forall s x a ts s', ~ In a parts ->
    Forall (fun t => target t = None \/ target t = Some (List.length (s_vars s))) ts ->
    run s (Get x a :: ts) = Ok s' -> forall i, i < List.length (s_objs s) -> obj s' i = obj s i.
  Proof.
    intros s x a ts s' NI F H i L. cbn [PyApi_Model.run] in H. destruct (step s (Get x a)) as [s1| | |] eqn:G; cbn [bind] in H; try discriminate.
    destruct (get_inv _ _ _ _ G) as (r & o & m & k & v & O & A & _ & E).
    assert (K : k = ByCopy) by (destruct k; [destruct NI; now apply (attr_kind _ _ _ _ A)|reflexivity]). rewrite K in E.
    etransitivity; [|apply (step_frame s (Get x a) s1 i G L); discriminate].
    apply (C157_untouched ts s1 s' i); [apply step_grows in G; lia|exact H|].
    apply (only_quiet (List.length (s_vars s)) (List.length (s_objs s))); [lia| |exact F]. rewrite E. exists 0. apply nth_fresh.
  Qed.

  (** ** The extraction settings of a simulation *)
  Fixpoint clean (o : cobj) : bool :=
    match o with
    | CVal _ => true
    | CObj c ms =>
        negb (String.eqb c "EThermalStaticSimulationSetup" || String.eqb c "EThermalTransientSimulationSetup" ||
              String.eqb c "EGridThermalModelExtractionSettings") && forallb (fun e => clean (snd e)) ms
    end.
  Definition inside (o : cobj) : bool := match o with CVal _ => true | CObj _ ms => forallb (fun e => clean (snd e)) ms end.
  Definition good (o : cobj) : Prop :=
    clean o = true \/ (is_setup o = true /\ inside o = true /\ exists e, field "extractionSettings" o = Some e /\ is_prism e = true).
  Lemma clean_inside o : clean o = true -> inside o = true.
  Proof. destruct o as [|c ms]; [reflexivity|]. cbn [clean inside]. intros H. apply andb_prop in H. apply H. Qed.
  Lemma inside_field o m v : inside o = true -> field m o = Some v -> clean v = true.
  Proof.
    destruct o as [|c ms]; cbn [inside field]; [discriminate|]. intros H F. apply (alookup_in _ (fun a b => String.eqb_spec a b)) in F.
    rewrite forallb_forall in H. apply (H _ F).
  Qed.
  Lemma clean_at p : forall o v, clean o = true -> at_path p o = Some v -> clean v = true.
  Proof.
    induction p as [|m p IH]; intros o v C H; cbn [at_path] in H; [congruence|].
    destruct (field m o) as [o'|] eqn:F; [|discriminate]. apply (IH o'); [|exact H]. eapply inside_field; [|exact F]. now apply clean_inside.
  Qed.
  Lemma good_inside o : good o -> inside o = true.
  Proof. intros [H|[_ [H _]]]; [now apply clean_inside|exact H]. Qed.
  Lemma good_at p o v : good o -> at_path p o = Some v -> p <> [] -> clean v = true.
  Proof.
    intros G H N. destruct p as [|m p]; [congruence|]. cbn [at_path] in H. destruct (field m o) as [o'|] eqn:F; [|discriminate].
    apply (clean_at p o'); [|exact H]. eapply inside_field; [|exact F]. now apply good_inside.
  Qed.
  Lemma good_at_any p o v : good o -> at_path p o = Some v -> good v.
  Proof.
    intros G H. destruct p as [|m p]; [cbn in H; congruence|]. left. apply (good_at (m :: p) o); [exact G|exact H|discriminate].
  Qed.
  Lemma good_not_setup o : good o -> is_setup o = false -> clean o = true.
  Proof. intros [H|[H _]] N; [exact H|congruence]. Qed.
  Lemma clean_not_setup o : clean o = true -> is_setup o = false.
  Proof.
    destruct o as [|c ms]; [reflexivity|]. cbn [clean]. unfold is_setup. cbn [class_of]. intros H. apply andb_prop in H. destruct H as [H _].
    apply negb_true_iff in H. apply orb_false_iff in H. apply H.
  Qed.
  Lemma put_member_clean m v ms : clean v = true -> forallb (fun e => clean (snd e)) ms = true -> forallb (fun e => clean (snd e)) (put_member m v ms) = true.
  Proof.
    intros C. induction ms as [|[k w] ms IH]; intros H; [reflexivity|]. cbn [forallb snd] in H. apply andb_prop in H. destruct H as [H1 H2].
    cbn [put_member]. destruct (String.eqb m k); cbn [forallb snd].
    - now rewrite C.
    - now rewrite H1, IH.
  Qed.
  Lemma inside_put m v o : clean v = true -> inside o = true -> inside (put_field m v o) = true.
  Proof. destruct o as [|c ms]; [auto|]. cbn [inside put_field]. apply put_member_clean. Qed.
  Lemma clean_put m v o : clean v = true -> clean o = true -> clean (put_field m v o) = true.
  Proof.
    destruct o as [|c ms]; [auto|]. cbn [clean put_field]. intros C H. apply andb_prop in H. destruct H as [H1 H2]. rewrite H1.
    cbn [andb]. now apply put_member_clean.
  Qed.
  Lemma clean_put_path p : forall v o, clean v = true -> clean o = true -> clean (put_path p v o) = true.
  Proof.
    induction p as [|m p IH]; intros v o C H; cbn [put_path]; [exact C|]. destruct (field m o) as [o'|] eqn:F; [|exact H].
    apply clean_put; [|exact H]. apply IH; [exact C|]. eapply inside_field; [|exact F]. now apply clean_inside.
  Qed.
  Lemma class_put_path p v : forall o t, at_path p o = Some t -> class_of v = class_of t -> class_of (put_path p v o) = class_of o.
  Proof.
    destruct p as [|m p]; intros o t H C; cbn [put_path at_path] in *; [congruence|].
    destruct (field m o) as [o'|]; [|reflexivity]. apply class_put.
  Qed.
  Lemma is_setup_class o o' : class_of o = class_of o' -> is_setup o = is_setup o'.
  Proof. unfold is_setup. now intros ->. Qed.
  Lemma is_prism_class o o' : class_of o = class_of o' -> is_prism o = is_prism o'.
  Proof. unfold is_prism. now intros ->. Qed.
  (** Replacing a part by a part of the same class. *)
  Lemma good_put p o t v : good o -> at_path p o = Some t -> class_of v = class_of t -> good v -> good (put_path p v o).
  Proof.
    intros G H C GV. destruct p as [|m p]; [exact GV|].
    assert (CV : clean v = true).
    { apply good_not_setup; [exact GV|]. rewrite (is_setup_class v t C). apply clean_not_setup. apply (good_at _ _ _ G H). discriminate. }
    destruct G as [G|[G1 [G2 [e [G3 G4]]]]]; [left; now apply clean_put_path|]. right.
    assert (Cl := class_put_path _ v _ _ H C). split; [now rewrite (is_setup_class _ _ Cl)|].
    cbn [put_path at_path] in *. destruct (field m o) as [o'|] eqn:F; [|discriminate].
    assert (CO : clean o' = true) by (eapply inside_field; eassumption). split.
    - apply inside_put; [|exact G2]. now apply clean_put_path.
    - destruct (String.eqb_spec m "extractionSettings") as [->|N].
      + rewrite field_put_same by congruence. eexists. split; [reflexivity|]. rewrite F in G3. injection G3 as ->.
        rewrite (is_prism_class _ e); [exact G4|]. eapply class_put_path; eassumption.
      + rewrite field_put_other by exact N. eauto.
  Qed.
  Lemma good_field m v o : good o -> clean v = true -> m <> "extractionSettings" -> good (put_field m v o).
  Proof.
    intros G CV N. destruct G as [G|[G1 [G2 [e [G3 G4]]]]]; [left; now apply clean_put|]. right. split; [|split].
    - rewrite <- G1. apply is_setup_class, class_put.
    - now apply inside_put.
    - rewrite field_put_other by exact N. eauto.
  Qed.
  Definition all_good (s : state) : Prop := forall i o, obj s i = Some o -> good o.
  Lemma attr_not_extraction c a m k : attr c a = Some (m, k) -> m <> "extractionSettings".
  Proof.
    intros H. apply (attr_prop (fun e => negb (String.eqb (fst (snd e)) "extractionSettings"))) in H; [|vm_compute; reflexivity].
    cbn [fst snd] in H. apply negb_true_iff in H. now apply String.eqb_neq.
  Qed.
  Lemma good_object s x r o : all_good s -> object s x = Ok (r, o) -> good o /\ exists w, obj s (r_root r) = Some w /\ at_path (r_path r) w = Some o.
  Proof.
    intros G O. destruct (object_stands _ _ _ _ O) as [_ W]. unfold whole in W.
    destruct (obj s (r_root r)) as [w|] eqn:E; [|rewrite follow_none in W; discriminate]. rewrite follow_at in W.
    split; [|eauto]. eapply good_at_any; [|exact W]. eapply G; exact E.
  Qed.
  Lemma good_store s x r o v : all_good s -> object s x = Ok (r, o) -> class_of v = class_of o -> good v -> all_good (store s r v).
  Proof.
    intros G O C GV i t E. rewrite obj_store in E. destruct (Nat.eqb_spec i (r_root r)) as [->|N]; [|now apply (G i)].
    destruct (good_object s x r o G O) as [_ [w [W1 W2]]]. rewrite W1 in E. injection E as <-.
    apply good_put with o; auto. now apply (G (r_root r)).
  Qed.
  Lemma good_fresh s o : all_good s -> good o -> all_good (fresh s o).
  Proof.
    intros G GO i t E. destruct (Nat.lt_ge_cases i (List.length (s_objs s))) as [L|L].
    - rewrite obj_fresh in E by exact L. now apply (G i).
    - destruct (Nat.eq_dec i (List.length (s_objs s))) as [->|N].
      + rewrite obj_new in E. congruence.
      + unfold obj, fresh in E. cbn [s_objs] in E. rewrite nth_error_app2 in E by lia.
        destruct (i - List.length (s_objs s)) as [|[|k]] eqn:K; [lia| |]; discriminate.
  Qed.
  Lemma good_construct c : good (construct cwd invalid maxf c).
  Proof.
    destruct c; try (left; reflexivity); right; (split; [reflexivity|split; [reflexivity|]]); eexists; split; reflexivity.
  Qed.
  Lemma clean_append m v o : clean o = true -> clean (append m v o) = true.
  Proof. intros C. unfold append. destruct (field m o) as [[[| | |l]|]|]; try exact C. now apply clean_put. Qed.
  Lemma class_append m v o : class_of (append m v o) = class_of o.
  Proof. unfold append. destruct (field m o) as [[[| | |l]|]|]; try reflexivity. apply class_put. Qed.
  Lemma prism_not_setup o : is_prism o = true -> is_setup o = false.
  Proof. unfold is_prism, is_setup. intros H. apply String.eqb_eq in H. rewrite H. reflexivity. Qed.
  Lemma fits_class old v : fits old v = true -> class_of v = class_of old.
  Proof.
    destruct old as [[]|], v as [[]|]; cbn [fits class_of]; intros H; try discriminate; try reflexivity. symmetry. now apply String.eqb_eq.
  Qed.

  Lemma step_good s t s' : all_good s -> step s t = Ok s' -> all_good s'.
  Proof.
    intros G H. destruct t as [c|x a|x a e|x l|x top bl bc|x y|x|x].
    - injection H as <-. apply good_fresh; [exact G|apply good_construct].
    - destruct (get_inv _ _ _ _ H) as (r & o & m & k & v & O & _ & F & ->). destruct k; [exact G|]. apply good_fresh; [exact G|].
      destruct (good_object _ _ _ _ G O) as [GO _]. left. eapply inside_field; [|exact F]. now apply good_inside.
    - destruct (set_inv _ _ _ _ _ H) as (r & o & m & k & old & v & O & A & F & V & FI & ->).
      destruct (good_object _ _ _ _ G O) as [GO _].
      assert (CO : clean old = true) by (eapply inside_field; [|exact F]; now apply good_inside).
      assert (GV : good v).
      { destruct e as [l|y]; cbn [arg_value] in V; [injection V as <-; now left|].
        destruct (object s y) as [[q w]| | |] eqn:Q; cbn [bind] in V; try discriminate. injection V as <-. cbn [snd].
        now apply (good_object _ _ _ _ G Q). }
      assert (CV : clean v = true).
      { apply good_not_setup; [exact GV|]. rewrite (is_setup_class v old (fits_class _ _ FI)). now apply clean_not_setup. }
      apply (good_store s x r o); auto; [apply class_put|]. apply good_field; auto. eapply attr_not_extraction; exact A.
    - cbn [PyApi_Model.step] in H. destruct (object s x) as [[r o]| | |] eqn:O; cbn [bind] in H; try discriminate. cbn [fst snd] in H.
      destruct o as [[| | |ls]|]; try discriminate. injection H as <-. apply (good_store s x r (CVal (Seq ls))); auto. now left.
    - cbn [PyApi_Model.step] in H. destruct (object s x) as [[r o]| | |] eqn:O; cbn [bind] in H; try discriminate. cbn [fst snd] in H.
      destruct (is_prism o) eqn:IP; [|discriminate]. injection H as <-. destruct (good_object _ _ _ _ G O) as [GO _].
      assert (C : clean o = true) by (apply good_not_setup; [exact GO|now apply prism_not_setup]).
      apply (good_store s x r o); auto.
      + unfold add_block. destruct (field "layerCutSettings" _); [rewrite class_put|]; apply class_append.
      + left. unfold add_block. destruct (field "layerCutSettings" _) as [c|] eqn:F; [|now apply clean_append].
        apply clean_put; [|now apply clean_append]. apply clean_append. eapply inside_field; [|exact F]. now apply clean_inside, clean_append.
    - destruct (extract_inv _ _ _ _ H) as (r & o & z & q & w & _ & O & SU & Q & IP & ->).
      destruct (good_object _ _ _ _ G O) as [GO _]. destruct (good_object _ _ _ _ G Q) as [GW _].
      assert (CW : clean w = true) by (apply good_not_setup; [exact GW|now apply prism_not_setup]).
      intros i t E. rewrite (obj_bump _ _ _ (s_vars s)) in E. revert i t E.
      change (all_good (store s r (put_field "extractionSettings" w o))). apply (good_store s x r o); auto; [apply class_put|].
      destruct GO as [C|[G1 [G2 [e [G3 G4]]]]]; [apply clean_not_setup in C; congruence|]. right. split; [|split].
      + rewrite <- SU. apply is_setup_class, class_put.
      + now apply inside_put.
      + exists w. split; [apply field_put_same; congruence|exact IP].
    - cbn [PyApi_Model.step] in H. destruct (object s x) as [[r o]| | |]; cbn [bind] in H; try discriminate. cbn [fst snd] in H.
      destruct (is_setup o); [|discriminate]. destruct (field "extractionSettings" o) as [e|]; [|discriminate].
      destruct (nth_error (s_objs s) (r_root r)) as [[g w]|]; [|discriminate]. injection H as <-. exact G.
    - cbn [PyApi_Model.step] in H. destruct (object s x) as [[r o]| | |]; cbn [bind] in H; try discriminate. cbn [fst snd] in H.
      destruct (is_setup o); [|discriminate]. destruct (field "extractionSettings" o) as [e|]; [|discriminate].
      destruct (String.eqb (class_of e) _); [discriminate|]. injection H as <-. exact G.
  Qed.
  Lemma run_good ts : forall s s', all_good s -> run s ts = Ok s' -> all_good s'.
  Proof.
    induction ts as [|t ts IH]; intros s s' G H; cbn [PyApi_Model.run] in H; [now injection H as <-|].
    destruct (step s t) as [s1| | |] eqn:T; cbn [bind] in H; try discriminate. eapply IH; [|exact H]. eapply step_good; eassumption.
  Qed.
  Lemma init_good : all_good init.
  Proof. intros [|i] o H; discriminate. Qed.
  Lemma setup_is_root s x r o : all_good s -> object s x = Ok (r, o) -> is_setup o = true ->
    r_path r = [] /\ exists e, field "extractionSettings" o = Some e /\ is_prism e = true.
  Proof.
    intros G O SU. destruct (good_object _ _ _ _ G O) as [GO [w [W1 W2]]]. split.
    - destruct (r_path r) as [|m p] eqn:P; [reflexivity|]. assert (C : clean o = true) by (apply (good_at (m :: p) w); [now apply (G (r_root r))|exact W2|discriminate]).
      apply clean_not_setup in C. congruence.
    - destruct GO as [C|[_ [_ E]]]; [apply clean_not_setup in C; congruence|exact E].
  Qed.

  (** C158: whatever a Python program did before, the extraction settings of a simulation are those of a prism model: the request for
      the settings of a grid model gives None. *)
  Theorem C158_prism_only : forall ts s x r o, run init ts = Ok s -> object s x = Ok (r, o) -> is_setup o = true ->
    (exists e, whole s (r_root r) ["extractionSettings"] = Some e /\ class_of e = "EPrismThermalModelExtractionSettings") /\
    step s (GetGrid x) = Ok (push s VNone).
  Proof.
    intros ts s x r o R O SU. assert (G := run_good _ _ _ init_good R). destruct (setup_is_root _ _ _ _ G O SU) as [P [e [F IP]]].
    assert (CE : class_of e = "EPrismThermalModelExtractionSettings") by now apply String.eqb_eq. split.
    - exists e. split; [|exact CE]. destruct (object_stands _ _ _ _ O) as [_ W]. rewrite P in W. unfold whole in *. cbn [follow] in W. rewrite W.
      cbn [follow]. now rewrite member_field.
    - cbn [PyApi_Model.step]. rewrite O. cbn [bind snd]. rewrite SU, F, CE. reflexivity.
  Qed.

  (** C158: [set_extraction_settings] gives the simulation a copy of the settings as they are at the time; what the program does to
      its own settings later does not reach it. *)
  Theorem C158_copied : forall ts s x y us s' r o q w, run init ts = Ok s -> object s x = Ok (r, o) -> object s y = Ok (q, w) ->
    run s (Extract x (Some y) :: us) = Ok s' ->
    (forall s1, step s (Extract x (Some y)) = Ok s1 -> quiet step (r_root r) s1 us) ->
    whole s' (r_root r) ["extractionSettings"] = Some w.
  Proof.
    intros ts s x y us s' r o q w R O Q H QU. assert (G := run_good _ _ _ init_good R).
    cbn [PyApi_Model.run] in H. destruct (step s (Extract x (Some y))) as [s1| | |] eqn:T; cbn [bind] in H; try discriminate.
    specialize (QU s1 eq_refl). destruct (extract_inv _ _ _ _ T) as (r' & o' & z & q' & w' & [= <-] & O' & SU & Q' & IP & E).
    rewrite O in O'. injection O' as <- <-. rewrite Q in Q'. injection Q' as <- <-.
    destruct (setup_is_root _ _ _ _ G O SU) as [P [e [F _]]]. destruct (good_object _ _ _ _ G O) as [_ [u [U1 U2]]].
    assert (L : r_root r < List.length (s_objs s)) by (apply obj_lt; congruence).
    assert (B : obj s1 (r_root r) = Some (put_field "extractionSettings" w o)).
    { rewrite E, (obj_bump _ _ _ (s_vars s)). change (obj (store s r (put_field "extractionSettings" w o)) (r_root r) = Some (put_field "extractionSettings" w o)).
      rewrite obj_store, Nat.eqb_refl, U1, P. reflexivity. }
    unfold whole. rewrite (C157_untouched us s1 s' (r_root r)); [|apply step_grows in T; lia|exact H|exact QU].
    rewrite B. cbn [follow]. rewrite member_field. apply field_put_same. congruence.
  Qed.

  (** C158: None in the place of extraction settings is a null pointer that is followed. *)
  Theorem C158_none_is_ub : forall s x r o, object s x = Ok (r, o) -> is_setup o = true -> step s (Extract x None) = UB.
  Proof. intros s x r o O SU. cbn [PyApi_Model.step]. rewrite O. cbn [bind snd]. now rewrite SU. Qed.

  (** C158: the settings obtained from a simulation are a reference to its own: assigning to an attribute changes the simulation. *)
  Theorem C158_own_settings : forall ts s x a e s', run init ts = Ok s -> a <> "bot_block_bc" ->
    run s [GetPrism x; Set_ (List.length (s_vars s)) a e] = Ok s' ->
    exists i m v, stands_for s x i [] /\ same_spelling a m /\ whole s' i ["extractionSettings"; m] = Some v /\
      (forall l, e = ALit l -> v = CVal l) /\ only_at s s' i ["extractionSettings"; m].
  Proof.
    intros ts s x a e s' R N H. assert (G := run_good _ _ _ init_good R). cbn [PyApi_Model.run] in H.
    destruct (step s (GetPrism x)) as [s1| | |] eqn:T; cbn [bind] in H; try discriminate.
    destruct (step s1 _) as [s2| | |] eqn:T2; cbn [bind] in H; try discriminate. injection H as <-.
    cbn [PyApi_Model.step] in T. destruct (object s x) as [[r o]| | |] eqn:O; cbn [bind] in T; try discriminate. cbn [fst snd] in T.
    destruct (is_setup o) eqn:SU; [|discriminate]. destruct (setup_is_root _ _ _ _ G O SU) as [P [ex [F IP]]]. rewrite F, IP, P in T.
    destruct (nth_error (s_objs s) (r_root r)) as [[g w]|]; [|discriminate]. injection T as <-.
    destruct (C156_assign_partial _ _ _ _ _ N T2) as (i & p & m & v & [g' SF] & SP & VO & W & OA & _).
    rewrite nth_push in SF. injection SF as <- <- <-. exists (r_root r), m, v. repeat split; try assumption.
    - destruct (object_stands _ _ _ _ O) as [S _]. now rewrite P in S.
    - intros l ->. exact VO.
  Qed.

  (** C158: but a reference taken before the settings are replaced points to a deleted object; any use of it is undefined. *)
  Theorem C158_stale_is_ub : forall ts s x z s', run init ts = Ok s -> run s [GetPrism x; Extract x (Some z)] = Ok s' ->
    stale s' (List.length (s_vars s)) /\
    (forall a, step s' (Get (List.length (s_vars s)) a) = UB) /\
    (forall a e, step s' (Set_ (List.length (s_vars s)) a e) = UB) /\
    (forall top b c, step s' (AddBlock (List.length (s_vars s)) top b c) = UB).
  Proof.
    intros ts s x z s' R H. assert (G := run_good _ _ _ init_good R). cbn [PyApi_Model.run] in H.
    destruct (step s (GetPrism x)) as [s1| | |] eqn:T; cbn [bind] in H; try discriminate.
    destruct (step s1 _) as [s2| | |] eqn:T2; cbn [bind] in H; try discriminate. injection H as <-.
    assert (G1 := step_good _ _ _ G T).
    cbn [PyApi_Model.step] in T. destruct (object s x) as [[r o]| | |] eqn:O; cbn [bind] in T; try discriminate. cbn [fst snd] in T.
    destruct (is_setup o) eqn:SU; [|discriminate]. destruct (setup_is_root _ _ _ _ G O SU) as [P [ex [F IP]]]. rewrite F, IP, P in T.
    destruct (nth_error (s_objs s) (r_root r)) as [[g w]|] eqn:NE; [|discriminate]. injection T as T. cbn [app] in T.
    assert (VY : nth_error (s_vars s1) (List.length (s_vars s)) = Some (VRef (Ref (r_root r) g ["extractionSettings"]))).
    { rewrite <- T. apply nth_push. }
    destruct (extract_inv _ _ _ _ T2) as (r' & o' & z' & q & w' & _ & O' & SU' & _ & _ & E).
    assert (RR : r_root r' = r_root r).
    { destruct (object_inv _ _ _ _ O) as [V _]. destruct (object_inv _ _ _ _ O') as [V' _].
      rewrite <- T in V'. unfold push in V'. cbn [s_vars] in V'. rewrite nth_error_app1 in V' by (apply nth_error_Some; congruence). congruence. }
    assert (VY2 : nth_error (s_vars s2) (List.length (s_vars s)) = Some (VRef (Ref (r_root r) g ["extractionSettings"]))) by (rewrite E; exact VY).
    assert (GEN : exists u, nth_error (s_objs s2) (r_root r) = Some (S g, u)).
    { rewrite E. cbn [s_objs]. rewrite RR, nth_update, Nat.eqb_refl. unfold store. cbn [s_objs]. rewrite RR, nth_update, Nat.eqb_refl.
      rewrite <- T. unfold push. cbn [s_objs]. rewrite NE. cbn [option_map fst snd]. eauto. }
    destruct GEN as [u GEN].
    assert (OB : object s2 (List.length (s_vars s)) = UB).
    { unfold object, variable. rewrite VY2. cbn [bind]. unfold deref. cbn [r_root r_path r_gen]. rewrite GEN. cbn [through_extraction].
      change (String.eqb "extractionSettings" "extractionSettings") with true.
      assert (NG : Nat.eqb g (S g) = false) by (apply Nat.eqb_neq; lia). rewrite NG. reflexivity. }
    split; [|split; [|split]].
    - exists (r_root r), g, []. split; [exact VY2|]. intros g' o0 X. rewrite GEN in X. injection X as <- _. lia.
    - intros a. cbn [PyApi_Model.step]. now rewrite OB.
    - intros a e. cbn [PyApi_Model.step]. now rewrite OB.
    - intros top b c. cbn [PyApi_Model.step]. now rewrite OB.
  Qed.
End Session.
Print Assumptions C156_assign_partial.
Print Assumptions C156_bottom_blocks_refuted.
Print Assumptions C156_add_block.
Print Assumptions C157_reference.
Print Assumptions C157_untouched.
Print Assumptions C157_read.
Print Assumptions C157_change_of_copy_refuted.
Print Assumptions C158_prism_only.
Print Assumptions C158_copied.
Print Assumptions C158_none_is_ub.
Print Assumptions C158_own_settings.
Print Assumptions C158_stale_is_ub.

(** ** Cases *)
Definition ex_run := run "/home" (-1) 1000.
(** settings with blocks at the bottom, added by [add_block_bc] *)
Definition ex_block : lit := Seq [Num 0; Num 0; Num 1; Num 1].
Definition ex_bc : lit := Seq [Text "HTC"; Num 5000].
Definition ex_bottom : list stmt := [New (NPrism "" 4 []); AddBlock 0 false ex_block ex_bc].
Example C156_assign_case : exists s, ex_run init (ex_bottom ++ [Get 0 "mesh_settings"; Set_ 1 "min_alpha" (ALit (Num 15))]) = Ok s /\
  whole s 0 ["meshSettings"; "minAlpha"] = Some (CVal (Num 15)) /\ whole s 0 ["meshSettings"; "minLen"] = Some (CVal (Num 0)) /\
  whole s 0 ["workDir"] = Some (CVal (Text "/home")).
Proof. eexists. split; [vm_compute; reflexivity|]. repeat split; vm_compute; reflexivity. Qed.
Example C156_add_block_case : exists s, ex_run init ex_bottom = Ok s /\ whole s 0 ["botBlockBC"] = Some (CVal (Seq [Seq [ex_block; ex_bc]])) /\
  whole s 0 ["layerCutSettings"; "imprintBox"] = Some (CVal (Seq [ex_block])) /\ whole s 0 ["topBlockBC"] = Some (CVal (Seq [])).
Proof. eexists. split; [vm_compute; reflexivity|]. repeat split; vm_compute; reflexivity. Qed.
Example C156_bottom_blocks_case : exists s, ex_run init (ex_bottom ++ [Set_ 0 "bot_block_bc" (ALit (Seq []))]) = Ok s /\
  whole s 0 ["botBlockBC"] = Some (CVal (Seq [Seq [ex_block; ex_bc]])) /\ whole s 0 ["topBlockBC"] = Some (CVal (Seq [])).
Proof. eexists. split; [vm_compute; reflexivity|]. split; vm_compute; reflexivity. Qed.
Example C156_top_block_case : exists s, ex_run init (ex_bottom ++ [Set_ 0 "bot_block_bc" (ALit (Seq [Seq [ex_block; ex_bc]])); Get 0 "top_block_bc"]) = Ok s /\
  whole s 0 ["topBlockBC"] = Some (CVal (Seq [Seq [ex_block; ex_bc]])) /\ obj s 1 = whole s 0 ["topBlockBC"].
Proof. eexists. split; [vm_compute; reflexivity|]. split; vm_compute; reflexivity. Qed.
(** [settings.top_block_bc.append(...)], [box.ll.x = 5]: lost *)
Example C157_append_case : exists s s', ex_run init ex_bottom = Ok s /\
  ex_run s [Get 0 "top_block_bc"; Append 1 (Seq [ex_block; ex_bc])] = Ok s' /\
  obj s' 1 = Some (CVal (Seq [Seq [ex_block; ex_bc]])) /\ whole s' 0 ["topBlockBC"] = Some (CVal (Seq [])).
Proof. do 2 eexists. split; [vm_compute; reflexivity|]. split; [vm_compute; reflexivity|]. split; vm_compute; reflexivity. Qed.
Example C157_corner_case : exists s s', ex_run init [New (NBox 0 0 1 1)] = Ok s /\
  ex_run s [Get 0 "ll"; Set_ 1 "x" (ALit (Num 5))] = Ok s' /\ whole s' 1 ["x"] = Some (CVal (Num 5)) /\ whole s' 0 ["ll"; "x"] = Some (CVal (Num 0)).
Proof. do 2 eexists. split; [vm_compute; reflexivity|]. split; [vm_compute; reflexivity|]. split; vm_compute; reflexivity. Qed.
Example C157_reference_case : exists s s', ex_run init ex_bottom = Ok s /\
  ex_run s [Get 0 "bot_uniform_bc"; Set_ (List.length (s_vars s)) "value" (ALit (Num 5000))] = Ok s' /\
  whole s' 0 ["botUniformBC"; "value"] = Some (CVal (Num 5000)) /\ whole s' 0 ["topUniformBC"; "value"] = Some (CVal (Num (-1))).
Proof. do 2 eexists. split; [vm_compute; reflexivity|]. split; [vm_compute; reflexivity|]. split; vm_compute; reflexivity. Qed.
Definition ex_setup : list stmt := ex_bottom ++ [New (NStaticSetup "/w" 4 [])].
(** the simulation keeps what it was given: variable 0 is changed afterwards *)
Example C158_copied_case : exists s s', ex_run init ex_setup = Ok s /\
  ex_run s [Extract 1 (Some 0); Set_ 0 "threads" (ALit (Num 8)); GetGrid 1] = Ok s' /\
  whole s' 1 ["extractionSettings"; "threads"] = Some (CVal (Num 4)) /\ whole s' 0 ["threads"] = Some (CVal (Num 8)) /\
  whole s' 1 ["extractionSettings"; "botBlockBC"] = Some (CVal (Seq [Seq [ex_block; ex_bc]])) /\ nth_error (s_vars s') 2 = Some VNone.
Proof. do 2 eexists. split; [vm_compute; reflexivity|]. split; [vm_compute; reflexivity|]. repeat split; vm_compute; reflexivity. Qed.
Example C158_own_case : exists s s', ex_run init ex_setup = Ok s /\
  ex_run s [GetPrism 1; Set_ 2 "force_rebuild" (ALit (Flag true))] = Ok s' /\
  whole s' 1 ["extractionSettings"; "forceRebuild"] = Some (CVal (Flag true)).
Proof. do 2 eexists. split; [vm_compute; reflexivity|]. split; [vm_compute; reflexivity|]. vm_compute; reflexivity. Qed.
Example C158_stale_case : exists s s', ex_run init ex_setup = Ok s /\ ex_run s [GetPrism 1; Extract 1 (Some 0)] = Ok s' /\
  ex_run s' [Set_ 2 "threads" (ALit (Num 2))] = UB.
Proof. do 2 eexists. split; [vm_compute; reflexivity|]. split; vm_compute; reflexivity. Qed.

(** ** Points from a list of coordinates *)
(** C159: two coordinates each make a point, in their order; it never reads beyond the list, and an odd last coordinate is dropped
    without notice. *)
Theorem C159_points : forall (A : Type) (ps : list (A * A)) (rest : list A), List.length rest < 2 ->
  coord_to_points (flat_map (fun p => [fst p; snd p]) ps ++ rest) = Ok ps.
Proof.
  intros A ps rest L. unfold coord_to_points.
  assert (LF : List.length (flat_map (fun p : A * A => [fst p; snd p]) ps) = 2 * List.length ps).
  { induction ps as [|p ps IH]; [reflexivity|]. cbn [flat_map app List.length]. rewrite IH. lia. }
  rewrite app_length, LF. replace ((2 * List.length ps + List.length rest) / 2) with (List.length ps).
  2:{ rewrite Nat.mul_comm, Nat.div_add_l by lia. rewrite (Nat.div_small _ 2) by lia. lia. }
  set (cs := flat_map _ ps ++ rest).
  assert (H : forall pre qs, ps = pre ++ qs -> point_loop cs (List.length pre) (List.length qs) = Ok qs).
  { intros pre qs. revert pre. induction qs as [|[x y] qs IH]; intros pre E; [reflexivity|]. cbn [List.length point_loop].
    assert (C : cs = flat_map (fun p : A * A => [fst p; snd p]) pre ++ x :: y :: (flat_map (fun p : A * A => [fst p; snd p]) qs ++ rest)).
    { unfold cs. rewrite E, flat_map_app. cbn [flat_map fst snd app]. rewrite <- app_assoc. reflexivity. }
    assert (LP : List.length (flat_map (fun p : A * A => [fst p; snd p]) pre) = List.length pre * 2).
    { clear. induction pre as [|p pre IH]; [reflexivity|]. cbn [flat_map app List.length]. rewrite IH. lia. }
    assert (N1 : nth_error cs (List.length pre * 2) = Some x).
    { rewrite C, nth_error_app2 by lia. now rewrite LP, Nat.sub_diag. }
    assert (N2 : nth_error cs (List.length pre * 2 + 1) = Some y).
    { rewrite C, nth_error_app2 by lia. rewrite LP. now replace (List.length pre * 2 + 1 - List.length pre * 2) with 1 by lia. }
    rewrite N1, N2.
    specialize (IH (pre ++ [(x, y)])). rewrite app_length in IH. cbn [List.length] in IH. rewrite IH; [reflexivity|].
    rewrite E, <- app_assoc. reflexivity. }
  exact (H [] ps eq_refl).
Qed.
Print Assumptions C159_points.
Example C159_points_case : coord_to_points [1; 2; 3; 4; 5]%Z = Ok [(1, 2); (3, 4)]%Z.
Proof. reflexivity. Qed.

(** ** New objects *)
(** what a chain of attributes leads to *)
Fixpoint reach (l : list string) (o : cobj) : option cobj :=
  match l with
  | [] => Some o
  | a :: l' =>
      match attr (class_of o) a with
      | Some (m, _) => match field m o with Some o' => reach l' o' | None => None end
      | None => None
      end
  end.
Lemma nth_last {A} (l : list A) (a : A) : nth_error (l ++ [a]) (List.length l) = Some a.
Proof. rewrite nth_error_app2, Nat.sub_diag by lia. reflexivity. Qed.
Lemma get_reaches cwd invalid maxf s x r o a m k v : object s x = Ok (r, o) -> attr (class_of o) a = Some (m, k) -> field m o = Some v ->
  exists s1 r1, step cwd invalid maxf s (Get x a) = Ok s1 /\ object s1 (List.length (s_vars s)) = Ok (r1, v) /\
    List.length (s_vars s1) = Datatypes.S (List.length (s_vars s)).
Proof.
  intros O A F. destruct (object_inv _ _ _ _ O) as [V D]. cbn [step]. rewrite O. cbn [bind fst snd]. rewrite A, F. destruct k.
  - do 2 eexists. split; [reflexivity|]. split.
    + unfold object, variable, push. cbn [s_vars]. rewrite nth_last. cbn [bind].
      unfold deref in *. cbn [s_objs r_root r_gen r_path]. destruct (nth_error (s_objs s) (r_root r)) as [[g w]|]; [|discriminate].
      assert (T : through_extraction (r_path r ++ [m]) = through_extraction (r_path r)).
      { destruct (r_path r) as [|n p]; [|reflexivity]. cbn [app through_extraction]. apply String.eqb_neq. eapply attr_not_extraction; exact A. }
      rewrite T. destruct (through_extraction (r_path r) && negb (Nat.eqb (r_gen r) g)); [discriminate|].
      rewrite at_app. destruct (at_path (r_path r) w) as [o'|]; [|discriminate]. injection D as ->. cbn [at_path]. rewrite F. reflexivity.
    + unfold push. cbn [s_vars]. rewrite app_length. cbn. lia.
  - do 2 eexists. split; [reflexivity|]. split.
    + unfold object, variable, fresh. cbn [s_vars]. rewrite nth_last. cbn [bind].
      unfold deref. cbn [s_objs r_root r_gen r_path]. rewrite nth_last. cbn [through_extraction andb at_path bind]. reflexivity.
    + unfold fresh. cbn [s_vars]. rewrite app_length. cbn. lia.
Qed.
Lemma chain_reaches cwd invalid maxf l : forall s x r o v, object s x = Ok (r, o) -> reach l o = Some v ->
  exists s' i p, run cwd invalid maxf s (chain x (List.length (s_vars s)) l) = Ok s' /\
    stands_for s' (chain_end x (List.length (s_vars s)) l) i p /\ whole s' i p = Some v.
Proof.
  induction l as [|a l IH]; intros s x r o v O R; cbn [reach chain run] in *.
  - injection R as <-. destruct (object_stands _ _ _ _ O) as [SF W]. exists s, (r_root r), (r_path r). repeat split; assumption.
  - destruct (attr (class_of o) a) as [[m k]|] eqn:A; [|discriminate]. destruct (field m o) as [w|] eqn:F; [|discriminate].
    destruct (get_reaches cwd invalid maxf _ _ _ _ _ _ _ _ O A F) as [s1 [r1 [G [O1 L1]]]]. rewrite G. cbn [bind].
    destruct (IH s1 _ _ _ _ O1 R) as [s' [i [p [E [SF W]]]]]. rewrite L1 in E, SF. exists s', i, p. split; [exact E|]. split; [|exact W].
    unfold chain_end in *. cbn [List.length]. destruct l as [|b l]; cbn [List.length] in *.
    + replace (List.length (s_vars s) + 1 - 1) with (List.length (s_vars s)) by lia. exact SF.
    + replace (List.length (s_vars s) + S (S (List.length l)) - 1) with (S (List.length (s_vars s)) + S (List.length l) - 1) by lia. exact SF.
Qed.
Definition reached (o : cobj) (e : list string * lit) : Prop := reach (fst e) o = Some (CVal (snd e)).
Lemma new_reached cwd invalid maxf c : Forall (reached (construct cwd invalid maxf c)) (documented cwd invalid maxf c).
Proof. destruct c as [| | | | | |[|c d] t n| | |[|c d] t n|[|c d] t n]; repeat (constructor; [reflexivity|]); constructor. Qed.
Lemma extraction_reached cwd invalid maxf c l : documented_extraction cwd invalid maxf c = Some l ->
  exists o, field "extractionSettings" (construct cwd invalid maxf c) = Some o /\ is_setup (construct cwd invalid maxf c) = true /\
    is_prism o = true /\ Forall (reached o) l.
Proof.
  intros H. destruct c; cbn [documented_extraction] in H; try discriminate; injection H as <-;
    (eexists; split; [reflexivity|]; split; [reflexivity|]; split; [reflexivity|]);
    (destruct dir as [|ch dir]; [destruct cwd|]; repeat (constructor; [reflexivity|]); constructor).
Qed.
Lemma fresh_object s o : object (fresh s o) (List.length (s_vars s)) = Ok (Ref (List.length (s_objs s)) 0 [], o).
Proof.
  unfold object, variable, fresh. cbn [s_vars]. rewrite nth_last. cbn [bind]. unfold deref. cbn [s_objs r_root r_gen r_path].
  rewrite nth_last. reflexivity.
Qed.

(** C161: a new object is made in every state, and whichever of its attributes the program reads, along whatever chain, has the
    value documented for it, computed from the arguments: no attribute is missing. *)
Theorem C161_new : forall cwd invalid maxf s c, exists s', step cwd invalid maxf s (New c) = Ok s' /\
  forall l v, In (l, v) (documented cwd invalid maxf c) -> exists s'' i p,
    run cwd invalid maxf s' (chain (List.length (s_vars s)) (List.length (s_vars s')) l) = Ok s'' /\
    stands_for s'' (chain_end (List.length (s_vars s)) (List.length (s_vars s')) l) i p /\ whole s'' i p = Some (CVal v).
Proof.
  intros. eexists. split; [reflexivity|]. intros l v I. eapply chain_reaches; [apply fresh_object|].
  exact (proj1 (Forall_forall _ _) (new_reached cwd invalid maxf c) _ I).
Qed.
Print Assumptions C161_new.
(** C161: a new simulation comes with extraction settings for prism models, and those are as if made with the same arguments. *)
Theorem C161_new_simulation : forall cwd invalid maxf s c d, documented_extraction cwd invalid maxf c = Some d ->
  exists s', run cwd invalid maxf s [New c; GetPrism (List.length (s_vars s))] = Ok s' /\
  forall l v, In (l, v) d -> exists s'' i p,
    run cwd invalid maxf s' (chain (List.length (s_vars s) + 1) (List.length (s_vars s')) l) = Ok s'' /\
    stands_for s'' (chain_end (List.length (s_vars s) + 1) (List.length (s_vars s')) l) i p /\ whole s'' i p = Some (CVal v).
Proof.
  intros cwd invalid maxf s c d H. destruct (extraction_reached _ _ _ _ _ H) as [e [F [U [P R]]]].
  cbn [run]. change (step cwd invalid maxf s (New c)) with (Ok (fresh s (construct cwd invalid maxf c))). cbn [bind].
  set (s1 := fresh s (construct cwd invalid maxf c)).
  assert (O : object s1 (List.length (s_vars s)) = Ok (Ref (List.length (s_objs s)) 0 [], construct cwd invalid maxf c)) by apply fresh_object.
  cbn [step]. rewrite O. cbn [bind fst snd r_root r_path app]. rewrite U, F.
  assert (N : nth_error (s_objs s1) (List.length (s_objs s)) = Some (0, construct cwd invalid maxf c)) by (unfold s1, fresh; cbn [s_objs]; apply nth_last).
  rewrite N, P. cbn [bind]. eexists. split; [reflexivity|]. intros l v I. eapply chain_reaches with (o := e).
  - assert (L : List.length (s_vars s) + 1 = List.length (s_vars s1)) by (unfold s1, fresh; cbn [s_vars]; rewrite app_length; reflexivity).
    rewrite L. unfold object, variable, push. cbn [s_vars]. rewrite nth_last. cbn [bind]. unfold deref. cbn [s_objs r_root r_gen r_path].
    rewrite N. cbn [through_extraction at_path]. rewrite Nat.eqb_refl. rewrite F, andb_false_r. reflexivity.
  - exact (proj1 (Forall_forall _ _) R _ I).
Qed.
Print Assumptions C161_new_simulation.
Example C161_new_case : exists s, ex_run init (New (NTransientSetup "" 4 []) :: chain 0 1 ["settings"; "mor"; "order"]) = Ok s /\ obj s (List.length (s_objs s) - 1) = Some (CVal (Num 0)) /\ whole s 0 ["workDir"] = Some (CVal (Text "/home")).
Proof. eexists. split; [vm_compute; reflexivity|]. split; vm_compute; reflexivity. Qed.
(** C161: both sides of new prism settings have no blocks, and a block added to one side is the only one there and the only box to
    be imprinted. *)
Theorem C161_new_blocks : forall cwd invalid maxf s dir threads nets (top : bool) block bc, exists s',
  run cwd invalid maxf s [New (NPrism dir threads nets); AddBlock (List.length (s_vars s)) top block bc] = Ok s' /\
  whole s' (List.length (s_objs s)) ["topBlockBC"] = Some (CVal (Seq (if top then [Seq [block; bc]] else []))) /\
  whole s' (List.length (s_objs s)) ["botBlockBC"] = Some (CVal (Seq (if top then [] else [Seq [block; bc]]))) /\
  whole s' (List.length (s_objs s)) ["layerCutSettings"; "imprintBox"] = Some (CVal (Seq [block])).
Proof.
  intros. cbn [run]. change (step cwd invalid maxf s (New (NPrism dir threads nets))) with (Ok (fresh s (prism_settings cwd invalid maxf dir threads nets))).
  cbn [bind step]. rewrite fresh_object. cbn [bind snd fst].
  change (is_prism (prism_settings cwd invalid maxf dir threads nets)) with true. cbn [bind]. eexists. split; [reflexivity|].
  unfold whole. rewrite obj_store. cbn [r_root r_path]. rewrite Nat.eqb_refl. unfold fresh, obj. cbn [s_objs]. rewrite nth_last.
  cbn [option_map snd put_path]. destruct top; repeat split; reflexivity.
Qed.
Print Assumptions C161_new_blocks.
