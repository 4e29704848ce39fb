(** Theorems about calls of the data manager from Python. *)
From Verif Require Import Base PyCall_Model PyCall_Spec.
From Coq Require Import QArith.
Close Scope Q_scope.
Open Scope nat_scope.
Open Scope string_scope.
Open Scope list_scope.
Open Scope res_scope.

Lemma is_a_accepts t : forall v, is_a t v -> accepts false t v = true.
Proof.
  induction t as [| | | |c|c|c|t IH]; intros v H; cbn [is_a] in H.
  - destruct H as [s ->]. reflexivity.
  - destruct H as [s ->]. reflexivity.
  - destruct H as [z [-> H]]. cbn [accepts]. now apply Z.leb_le.
  - destruct H as [b ->]. reflexivity.
  - destruct H as [z ->]. cbn [accepts]. apply String.eqb_refl.
  - destruct H as [z ->]. cbn [accepts]. apply String.eqb_refl.
  - destruct H as [z ->]. cbn [accepts]. apply String.eqb_refl.
  - destruct H as [l [-> [_ H]]]. cbn [accepts]. apply forallb_forall. rewrite Forall_forall in H. auto.
Qed.
Lemma accepts_more t : forall v, accepts false t v = true -> accepts true t v = true.
Proof.
  induction t as [| | | |c|c|c|t IH]; intros v H; destruct v; cbn [accepts] in *; auto; try discriminate.
  rewrite forallb_forall in *. auto.
Qed.
Lemma all_accepts ts : forall vs, Forall2 is_a ts vs -> accepts_all false ts vs = true.
Proof.
  induction ts as [|t ts IH]; intros vs H; inversion H as [|? v ? vs' H1 H2]; subst; [reflexivity|]. cbn [accepts_all].
  rewrite is_a_accepts by exact H1. now apply IH.
Qed.
Lemma all_more ts : forall vs, accepts_all false ts vs = true -> accepts_all true ts vs = true.
Proof.
  induction ts as [|t ts IH]; intros [|v vs] H; cbn [accepts_all] in *; auto; try discriminate.
  apply andb_prop in H. destruct H as [H1 H2]. rewrite accepts_more by exact H1. now apply IH.
Qed.

(** Two parameter lists no arguments belong to both of. *)
Fixpoint apart (t u : ty) : bool :=
  match t, u with
  | TStr, TStr | TFloat, TFloat | TInt, TInt | TBool, TBool => false
  | TEnum c, TEnum c' => negb (String.eqb c c')
  | TPtr c, TPtr c' | TRef c, TRef c' | TPtr c, TRef c' | TRef c, TPtr c' => negb (String.eqb c c')
  | TList t', TList u' => apart t' u'
  | TInt, TBool | TBool, TInt | TFloat, TInt | TInt, TFloat | TFloat, TBool | TBool, TFloat => false
  | _, _ => true
  end.
Fixpoint apart_all (ts us : list ty) : bool :=
  match ts, us with
  | [], [] => false
  | t :: ts', u :: us' => apart t u || apart_all ts' us'
  | _, _ => true
  end.
Lemma apart_ok t : forall u v, apart t u = true -> is_a t v -> accepts false u v = false.
Proof.
  induction t as [| | | |c|c|c|t IH]; intros u v A H; cbn [is_a] in H; destruct u; cbn [apart] in A; try discriminate.
  all: try (destruct H as [w ->]; reflexivity).
  all: try (destruct H as [w [-> H]]; reflexivity).
  all: try (destruct H as [w ->]; cbn [accepts]; apply negb_true_iff in A; rewrite String.eqb_sym; exact A).
  destruct H as [l [-> [N F]]]. destruct l as [|a l]; [congruence|]. inversion F as [|? ? F1 F2]; subst. cbn [accepts forallb].
  now rewrite (IH u a A F1).
Qed.
Lemma apart_all_ok ts : forall us vs, apart_all ts us = true -> Forall2 is_a ts vs -> accepts_all false us vs = false.
Proof.
  induction ts as [|t ts IH]; intros us vs A H; inversion H as [|? v ? vs' H1 H2]; subst; destruct us as [|u us]; cbn [apart_all accepts_all] in *; auto; try discriminate.
  apply orb_prop in A. destruct A as [A|A].
  - now rewrite (apart_ok t u v A H1).
  - rewrite (IH us vs' A H2). apply andb_false_r.
Qed.

(** Every function bound to a name is apart from the ones before it. *)
Fixpoint distinct (fs : list fn) : bool :=
  match fs with
  | [] => true
  | f :: fs' => forallb (fun g => apart_all (f_params g) (f_params f)) fs' && distinct fs'
  end.
Lemma first_is fs : forall k f vs, distinct fs = true -> In f fs -> Forall2 is_a (f_params f) vs -> exists j, first_match false k fs vs = Some (j, f).
Proof.
  induction fs as [|g fs IH]; intros k f vs D I H; [destruct I|]. cbn [distinct] in D. apply andb_prop in D. destruct D as [D1 D2].
  cbn [first_match]. destruct I as [->|I].
  - rewrite all_accepts by exact H. eauto.
  - rewrite forallb_forall in D1. rewrite (apart_all_ok (f_params f)) by auto. now apply IH.
Qed.
Lemma choose_is fs f vs : distinct fs = true -> In f fs -> Forall2 is_a (f_params f) vs -> exists j, choose fs vs = Some (j, f).
Proof.
  intros D I H. destruct (first_is fs 0 f vs D I H) as [j J]. unfold choose. destruct fs as [|g [|g' fs]].
  - destruct I.
  - destruct I as [->|[]]. cbn [first_match] in *. rewrite all_more; [eauto|]. now apply all_accepts.
  - rewrite J. eauto.
Qed.
Lemma all_distinct : forallb (fun e => distinct (snd e)) methods = true.
Proof. vm_compute. reflexivity. Qed.
Lemma names_unique : NoDup (map fst methods).
Proof. repeat (constructor; [vm_compute; intuition discriminate|]). constructor. Qed.

Section Call.
  Context (manager : string -> fn -> list pv -> res pv).

  (** C160: whatever the arguments: called on the class with arguments of the types of one of the functions bound to a name, lists
      not empty, that function is run with these arguments, and its result is handed on, except that of saving. *)
  Theorem C160_class_call_partial : forall name f args, bound name f -> name <> "save_database" -> Forall2 is_a (f_params f) args ->
    call manager name args = manager name f args.
  Proof.
    intros name f args [fs [I J]] N H. unfold call.
    assert (L : alookup String.eqb name methods = Some fs).
    { apply (in_alookup _ (fun a b => String.eqb_spec a b)); [exact names_unique|exact I]. }
    rewrite L. assert (D := all_distinct). rewrite forallb_forall in D. specialize (D _ I). cbn [snd] in D.
    destruct (choose_is fs f args D J H) as [j ->]. unfold invoke.
    assert (R : forallb (fun e => String.eqb (fst e) "save_database" || forallb f_ret (snd e)) methods = true) by (vm_compute; reflexivity).
    rewrite forallb_forall in R. specialize (R _ I). cbn [fst snd] in R. apply String.eqb_neq in N. rewrite N in R. cbn [orb] in R.
    rewrite forallb_forall in R. rewrite (R f J).
    destruct (String.eqb name "create_geometry_2d") eqn:G.
    - apply String.eqb_eq in G. subst name.
      assert (F : f_params f = [TPtr "ILayoutView"; TEnum "ELayerId"; TEnum "ENetId"; TPtr "EShape"]).
      { assert (L' : alookup String.eqb "create_geometry_2d" methods = Some [mkF [TPtr "ILayoutView"; TEnum "ELayerId"; TEnum "ENetId"; TPtr "EShape"] true]) by (vm_compute; reflexivity).
        rewrite L in L'. injection L' as ->. destruct J as [<-|[]]. reflexivity. }
      rewrite F in H. inversion H as [|? a ? ? _ H1]; subst. inversion H1 as [|? b ? ? _ H2]; subst. inversion H2 as [|? c ? ? _ H3]; subst.
      inversion H3 as [|? d ? ? D4 H4]; subst. destruct D4 as [id ->]. reflexivity.
    - destruct (manager name f args); reflexivity.
  Qed.

  (** C160: called on an instance of the class, the only thing its constructor suggests, no function of the data manager can be run:
      the instance is taken for the first argument and TypeError is raised, whatever the function and the arguments. *)
  Theorem C160_instance_call_refuted : forall id name args, call_on_instance manager id name args = Throw.
  Proof.
    intros id name args. unfold call_on_instance, call. destruct (alookup String.eqb name methods) as [fs|] eqn:L; [|reflexivity].
    apply (alookup_in _ (fun a b => String.eqb_spec a b)) in L.
    assert (R : forallb (fun e => forallb (fun f => match f_params f with [] => true | t :: _ => negb (accepts true t (PObj "EDataMgr" id)) && negb (accepts false t (PObj "EDataMgr" id)) end) (snd e)) methods = true) by (vm_compute; reflexivity).
    rewrite forallb_forall in R. specialize (R _ L). cbn [snd] in R.
    assert (M : forall conv k, first_match conv k fs (PObj "EDataMgr" id :: args) = None).
    { intros conv. clear L. induction fs as [|f fs IH]; intros k; [reflexivity|]. cbn [forallb] in R. apply andb_prop in R. destruct R as [R1 R2].
      cbn [first_match]. assert (E : accepts_all conv (f_params f) (PObj "EDataMgr" id :: args) = false).
      { destruct (f_params f) as [|t ts]; [reflexivity|]. cbn [accepts_all]. apply andb_prop in R1. destruct R1 as [R1 R3].
        apply negb_true_iff in R1, R3. destruct conv; [now rewrite R1|now rewrite R3]. }
      rewrite E. now apply IH. }
    unfold choose. destruct fs as [|f [|g fs]]; rewrite ?M; reflexivity.
  Qed.

  (** C160: a saving that fails looks like one that succeeds. *)
  Theorem C160_save_refuted : forall f args r, bound "save_database" f -> Forall2 is_a (f_params f) args ->
    manager "save_database" f args = Ok r -> call manager "save_database" args = Ok PNone.
  Proof.
    intros f args r [fs [I J]] H M. unfold call.
    assert (L : alookup String.eqb "save_database" methods = Some fs).
    { apply (in_alookup _ (fun a b => String.eqb_spec a b)); [exact names_unique|exact I]. }
    rewrite L. assert (D := all_distinct). rewrite forallb_forall in D. specialize (D _ I). cbn [snd] in D.
    destruct (choose_is fs f args D J H) as [j ->]. unfold invoke.
    change (String.eqb "save_database" "create_geometry_2d") with false. cbv iota. rewrite M. cbn [bind].
    assert (R : f_ret f = false).
    { assert (L' : option_map (forallb (fun f => negb (f_ret f))) (alookup String.eqb "save_database" methods) = Some true) by (vm_compute; reflexivity).
      rewrite L in L'. injection L' as L'. rewrite forallb_forall in L'. apply negb_true_iff. now apply L'. }
    now rewrite R.
  Qed.

  (** C160: a shape that is None is followed. *)
  Theorem C160_no_shape_is_ub : forall layout layer net, is_a (TPtr "ILayoutView") layout -> is_a (TEnum "ELayerId") layer -> is_a (TEnum "ENetId") net ->
    call manager "create_geometry_2d" [layout; layer; net; PNone] = UB.
  Proof. intros layout layer net [a ->] [b ->] [c ->]. reflexivity. Qed.
End Call.
Print Assumptions C160_class_call_partial.
Print Assumptions C160_instance_call_refuted.
Print Assumptions C160_save_refuted.
Print Assumptions C160_no_shape_is_ub.

Definition ex_manager : string -> fn -> list pv -> res pv :=
  fun name f args => Ok (PBool (match f_params f with _ :: TList TFloat :: _ => true | _ => false end)).
Example C160_polygon_case : call ex_manager "create_shape_polygon" [PObj "ECoordUnits" 0; PList [PFloat 1; PFloat 2]; PFloat 0] = Ok (PBool true) /\
  bound "create_shape_polygon" (mkF [TRef "ECoordUnits"; TList TFloat; TFloat] true).
Proof. split; [reflexivity|]. eexists. split; [do 26 right; left; reflexivity|]. right; left; reflexivity. Qed.
Example C160_instance_case : call_on_instance ex_manager 0 "threads" [] = Throw /\ call ex_manager "threads" [] = Ok (PBool false).
Proof. split; reflexivity. Qed.
Example C160_save_case : call (fun _ _ _ => Ok (PBool false)) "save_database" [PObj "IDatabase" 0; PStr "x"] = Ok PNone.
Proof. reflexivity. Qed.
(** a list of whole numbers is taken with conversion, an empty one for a list of points *)
Example C160_conversion_case : choose [mkF [TList (TRef "FPoint2D")] true; mkF [TList TFloat] true] [PList [PInt 1; PInt 2]] = Some (1, mkF [TList TFloat] true) /\
  choose [mkF [TList (TRef "FPoint2D")] true; mkF [TList TFloat] true] [PList []] = Some (0, mkF [TList (TRef "FPoint2D")] true).
Proof. split; reflexivity. Qed.
