(** C07, C08 – layer maps. *)
From Verif Require Import Base LayerMap_Model LayerMap_Spec LayerMap_Proofs.
Local Open Scope Z_scope.

(** After any history of SetMapping calls the two lookups are inverse to each other. *)
Theorem C07_lookups_inverse :
  forall calls x y, x <> noLayer -> y <> noLayer ->
    (forward (lm_run calls) x = y <-> backward (lm_run calls) y = x).
Proof. exact (fun calls x y => fwd_bwd (lm_run calls) x y (good_run calls)). Qed.
Print Assumptions C07_lookups_inverse.

(** The reserved ids always map to themselves. *)
Theorem C07_reserved_ids_fixed :
  forall calls,
    forward (lm_run calls) noLayer = noLayer /\ forward (lm_run calls) ComponentLayer = ComponentLayer /\
    backward (lm_run calls) noLayer = noLayer /\ backward (lm_run calls) ComponentLayer = ComponentLayer.
Proof. exact (fun calls => reserved_fwd (lm_run calls) (good_run calls)). Qed.
Print Assumptions C07_reserved_ids_fixed.

(** An accepted mapping is never changed by a later call. *)
Theorem C07_mapping_stable :
  forall calls p x, forward (lm_run calls) x <> noLayer ->
    forward (lm_run (calls ++ [p])) x = forward (lm_run calls) x.
Proof.
  intros calls p x; rewrite run_snoc; exact (forward_stable (lm_run calls) p x (good_run calls)).
Qed.
Print Assumptions C07_mapping_stable.

(** A call with both sides unmapped takes effect and changes nothing else. *)
Theorem C07_fresh_mapping_effective :
  forall calls x y, x <> noLayer -> y <> noLayer ->
    forward (lm_run calls) x = noLayer -> backward (lm_run calls) y = noLayer ->
    forward (lm_run (calls ++ [(x, y)])) x = y /\ backward (lm_run (calls ++ [(x, y)])) y = x /\
    (forall x', x' <> x -> forward (lm_run (calls ++ [(x, y)])) x' = forward (lm_run calls) x').
Proof. intros calls x y; rewrite run_snoc; exact (set_effective (lm_run calls) x y (good_run calls)). Qed.
Print Assumptions C07_fresh_mapping_effective.

(** A call one of whose sides is taken (or is noLayer) is ignored altogether. *)
Theorem C07_conflicting_mapping_ignored :
  forall calls x y,
    x = noLayer \/ y = noLayer \/ forward (lm_run calls) x <> noLayer \/ backward (lm_run calls) y <> noLayer ->
    lm_run (calls ++ [(x, y)]) = lm_run calls.
Proof. intros calls x y; rewrite run_snoc; exact (set_refused (lm_run calls) x y (good_run calls)). Qed.
Print Assumptions C07_conflicting_mapping_ignored.

(** Only layers named in a call are mapped. *)
Theorem C07_only_requested_mappings :
  forall calls x y, In (x, y) (lm_run calls) ->
    In (x, y) calls \/ (x, y) = (noLayer, noLayer) \/ (x, y) = (ComponentLayer, ComponentLayer).
Proof.
  intros calls x y; unfold lm_run.
  enough (H : forall m, In (x, y) (fold_left (fun m p => set_mapping p m) calls m) -> In (x, y) calls \/ In (x, y) m).
  { intros H'; apply H in H' as [H'|H']; auto; apply new_in in H'; tauto. }
  induction calls as [|p calls IH]; simpl; auto; intros m H.
  apply IH in H as [H|H]; auto; apply set_mapping_in in H as [H|[H _]]; auto.
Qed.
Print Assumptions C07_only_requested_mappings.

Example C07_case :
  let m := lm_run [(3, 7); (4, 7); (3, 8); (5, 0)] in
  forward m 3 = 7 /\ forward m 4 = noLayer /\ backward m 7 = 3 /\ forward m 5 = 0 /\ backward m 8 = noLayer.
Proof. vm_compute; auto. Qed.

(** MappingRight composes: forward with the other's forward, backward with the other's backward. *)
Theorem C08_mapping_right_composes_partial :
  forall calls other, (forall p, In p calls -> valid_id (fst p)) ->
    (forall x, forward (mapping_right (lm_run calls) (lm_run other)) x
               = forward (lm_run other) (forward (lm_run calls) x)) /\
    (forall z, backward (mapping_right (lm_run calls) (lm_run other)) z
               = backward (lm_run calls) (backward (lm_run other) z)).
Proof.
  intros calls other H; split; intros x;
    [apply compose_right_fwd|apply compose_right_bwd]; auto using run_ok, good_run.
Qed.
Print Assumptions C08_mapping_right_composes_partial.

(** MappingLeft replaces the source layers. *)
Theorem C08_mapping_left_composes_partial :
  forall calls other, (forall p, In p calls -> valid_id (fst p)) ->
    (forall x, forward (mapping_left (lm_run calls) (lm_run other)) x
               = forward (lm_run calls) (backward (lm_run other) x)) /\
    (forall z, backward (mapping_left (lm_run calls) (lm_run other)) z
               = forward (lm_run other) (backward (lm_run calls) z)).
Proof.
  intros calls other H; split; intros x;
    [apply compose_left_fwd|apply compose_left_bwd]; auto using run_ok, good_run.
Qed.
Print Assumptions C08_mapping_left_composes_partial.

Example C08_case :
  let m := lm_run [(0, 5); (1, 6); (2, 7)] in let o := lm_run [(5, 50); (7, 70); (0, 10); (2, 12)] in
  (forall p, In p [(0, 5); (1, 6); (2, 7)] -> valid_id (fst p)) /\
  map (forward (mapping_right m o)) [0; 1; 2; -10] = [50; -1; 70; -10] /\
  map (forward (mapping_left m o)) [10; 11; 12; 1] = [5; -1; 7; -1].
Proof.
  split; [|vm_compute; auto].
  intros p Hp; left; simpl in Hp; destruct Hp as [<-|[<-|[<-|[]]]]; simpl; discriminate.
Qed.

(** Finding: without the restriction to layer ids >= 0 (and the two reserved ones) on the source side the
    composition is wrong: an unmapped layer below noLayer takes the place of the reserved entry. *)
Theorem C08_mapping_right_refuted :
  exists calls other z,
    backward (mapping_right (lm_run calls) (lm_run other)) z
    <> backward (lm_run calls) (backward (lm_run other) z).
Proof. exists [(-20, 5)], [], noLayer; vm_compute; discriminate. Qed.
Print Assumptions C08_mapping_right_refuted.

Theorem C08_mapping_left_refuted :
  exists calls other x,
    forward (mapping_left (lm_run calls) (lm_run other)) x
    <> forward (lm_run calls) (backward (lm_run other) x).
Proof. exists [(-20, 5)], [], noLayer; vm_compute; discriminate. Qed.
Print Assumptions C08_mapping_left_refuted.
