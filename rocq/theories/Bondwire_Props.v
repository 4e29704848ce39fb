From Verif Require Import Base Bondwire_Model Bondwire_Spec.

Section P.
  Context {C : Type}.

  Definition rel (e : wend C) (a : aend C) : Prop :=
    e_loc e = a_loc a /\ e_flip e = a_flip a /\
    match a_place a with
    | AtPin c pin => e_layer e = ComponentLayer /\ e_comp e = Some c /\ e_pin e = pin
    | AtLayer l => l <> ComponentLayer /\ e_layer e = l /\ e_comp e = None /\ e_pin e = ""%string
    end.

  Lemma rel_comp e a : rel e a -> e_comp e = a_comp a.
  Proof. unfold rel, a_comp; intros (_ & _ & H); destruct (a_place a); intuition. Qed.

  Lemma rel_step b s o : proper o -> rel (b_start b) (fst s) /\ rel (b_end b) (snd s) ->
    rel (b_start (bw_step b o)) (fst (a_step s o)) /\ rel (b_end (bw_step b o)) (snd (a_step s o)).
  Proof.
    destruct s as [a1 a2]; intros Hp [H1 H2]; destruct o as [l|l p f|[c|] pin|l|l p f|[c|] pin|l]; simpl in *;
      try congruence; try tauto; unfold rel in *; simpl; intuition.
  Qed.

  Lemma rel_run ops : Forall proper ops ->
    rel (b_start (bw_run ops)) (fst (a_run ops)) /\ rel (b_end (bw_run ops)) (snd (a_run ops)).
  Proof.
    induction ops as [|o ops IH] using rev_ind; intros H.
    - split; unfold rel; simpl; repeat split; discriminate.
    - apply Forall_app in H as [H1 H2]; inversion H2; subst.
      unfold bw_run, a_run; rewrite !fold_left_app; simpl; apply rel_step; auto; apply IH; auto.
  Qed.

  Context (is_flipped : C -> bool) (pin_location : C -> string -> option (Z * Z)).

  Lemma rel_layer e a : rel e a -> get_layer is_flipped e = Ok (a_layer is_flipped a).
  Proof.
    unfold rel, get_layer, a_layer; intros (H1 & H2 & H3); destruct (a_place a) as [c pin|l].
    - destruct H3 as (-> & -> & _); reflexivity.
    - destruct H3 as (Hl & -> & _ & _); destruct (Z.eqb_spec ComponentLayer l); congruence.
  Qed.

  Lemma rel_pt e a : rel e a -> get_pt pin_location e = a_pt pin_location a.
  Proof.
    unfold rel, get_pt, a_pt; intros (H1 & H2 & H3); destruct (a_place a) as [c pin|l]; rewrite H1.
    - destruct H3 as (_ & -> & ->); reflexivity.
    - destruct H3 as (_ & _ & -> & _); reflexivity.
  Qed.

End P.

(** After any history of proper placements, each end is exactly where its last placement put it; the layer query
    returns (it dereferences no missing component) and, like the location and component queries, answers for it. *)
Theorem C18_endpoints_resolve_partial :
  forall C (is_flipped : C -> bool) (pin_location : C -> string -> option (Z * Z)) ops,
    Forall proper ops ->
    let b := bw_run ops in let (s, e) := a_run ops in
    get_layer is_flipped (b_start b) = Ok (a_layer is_flipped s) /\
    get_layer is_flipped (b_end b) = Ok (a_layer is_flipped e) /\
    get_pt pin_location (b_start b) = a_pt pin_location s /\ get_pt pin_location (b_end b) = a_pt pin_location e /\
    e_comp (b_start b) = a_comp s /\ e_comp (b_end b) = a_comp e.
Proof.
  intros C fl pl ops H b; pose proof (rel_run ops H) as [Hs He]; fold b in Hs, He; destruct (a_run ops) as [s e].
  split; [apply rel_layer; auto|split; [apply rel_layer; auto|]].
  split; [apply rel_pt; auto|split; [apply rel_pt; auto|]].
  split; apply rel_comp; auto.
Qed.
Print Assumptions C18_endpoints_resolve_partial.

(** Exactly one placement: a component and an explicit layer exclude each other. *)
Theorem C18_one_placement_partial :
  forall C (ops : list (bw_op C)) e, Forall proper ops -> e = b_start (bw_run ops) \/ e = b_end (bw_run ops) ->
    (e_layer e = ComponentLayer /\ e_comp e <> None) \/
    (e_layer e <> ComponentLayer /\ e_comp e = None /\ e_pin e = ""%string).
Proof.
  intros C ops e H Hc; pose proof (rel_run ops H) as [Hs He].
  destruct Hc as [->| ->]; [destruct Hs as (_ & _ & G)|destruct He as (_ & _ & G)];
    destruct (a_place _); intuition congruence.
Qed.
Print Assumptions C18_one_placement_partial.

(** Calls on one end never change the other. *)
Definition about_end {C} (o : bw_op C) : bool :=
  match o with EndLayer _ | EndLayerAt _ _ _ | EndComponent _ _ => true | _ => false end.

Theorem C18_ends_independent :
  forall C (ops : list (bw_op C)),
    b_start (bw_run ops) = b_start (bw_run (filter (fun o => negb (about_end o)) ops)) /\
    b_end (bw_run ops) = b_end (bw_run (filter about_end ops)).
Proof.
  intros C ops; unfold bw_run.
  enough (G : forall b1 b2 b3 : bondwire C, b_start b1 = b_start b2 -> b_end b1 = b_end b3 ->
    b_start (fold_left bw_step ops b1) = b_start (fold_left bw_step (filter (fun o => negb (about_end o)) ops) b2) /\
    b_end (fold_left bw_step ops b1) = b_end (fold_left bw_step (filter about_end ops) b3)) by (apply G; auto).
  induction ops as [|o ops IH]; simpl; auto; intros b1 b2 b3 H1 H2.
  destruct o; simpl; apply IH; simpl; rewrite ?H1, ?H2; auto.
Qed.
Print Assumptions C18_ends_independent.

Example C18_case :
  let ops := [StartComponent (Some true) "A1"; EndLayerAt 3 (5, 6)%Z true; StartLayer 2; StartComponent (Some false) "B2"] in
  Forall proper ops /\
  get_layer (fun c => c) (b_start (bw_run ops)) = Ok (ComponentLayer, false) /\
  get_layer (fun c => c) (b_end (bw_run ops)) = Ok (3%Z, true) /\
  get_pt (fun _ p => if String.eqb p "B2" then Some (7, 8)%Z else None) (b_start (bw_run ops)) = (7, 8)%Z.
Proof. split; [repeat constructor; discriminate|repeat split]. Qed.

(** Findings: a null component, the component layer id given as an explicit layer, or the plain primitive layer setter
    leave the end without a component and the layer query dereferences null. *)
Theorem C18_null_deref_refuted :
  forall C (is_flipped : C -> bool),
    (exists pin, get_layer is_flipped (b_start (bw_run [StartComponent None pin])) = UB) /\
    get_layer is_flipped (b_end (bw_run [EndLayer ComponentLayer])) = UB /\
    get_layer is_flipped (b_start (bw_run [PrimitiveLayer ComponentLayer])) = UB.
Proof. split; [exists "p"%string|split]; reflexivity. Qed.
Print Assumptions C18_null_deref_refuted.

(** The primitive layer setter – what layer mapping uses – on a component-attached start leaves both placements set. *)
Theorem C18_one_placement_refuted :
  forall C (c : C), exists ops,
    e_layer (b_start (bw_run ops)) = 3%Z /\ e_comp (b_start (bw_run ops)) = Some c.
Proof. intros C c; exists [StartComponent (Some c) "p"; PrimitiveLayer 3]; split; reflexivity. Qed.
Print Assumptions C18_one_placement_refuted.
