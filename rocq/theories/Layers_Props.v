(** C05, C06 – layers of a layout. *)
From Verif Require Import Base LayerMap_Model Layers_Model Layers_Spec Layers_Proofs.
Local Open Scope string_scope.

(** In every reachable layer collection the id of a layer is its position. *)
Theorem C05_layer_id_is_position :
  forall ops c outs, layer_run ly_init ops = Ok (c, outs) -> id_is_position (ly_list c).
Proof. intros ops c outs E; apply (layer_run_inv ops _ _ _ inv_init E). Qed.
Print Assumptions C05_layer_id_is_position.

(** FindLayerByLayerId(i) returns exactly the layer with id i. *)
Theorem C05_find_layer_by_id :
  forall ops c outs i l, layer_run ly_init ops = Ok (c, outs) ->
    (find_layer_by_id c i = Some l <-> In l (ly_list c) /\ l_id l = i).
Proof.
  intros ops c outs i l E; apply find_by_id_sound; apply (layer_run_inv ops _ _ _ inv_init E).
Qed.
Print Assumptions C05_find_layer_by_id.

(** The id returned by AppendLayer finds the layer just appended. *)
Theorem C05_append_returns_its_id :
  forall ops c outs n t c' i, layer_run ly_init ops = Ok (c, outs) ->
    append_layer c n t = (c', i) -> find_layer_by_id c' i = Some (mkLayer (ly_next c) n t i).
Proof.
  intros ops c outs n t c' i E; apply append_found; apply (layer_run_inv ops _ _ _ inv_init E).
Qed.
Print Assumptions C05_append_returns_its_id.

(** AppendLayers appends the given layers in order and returns their ids. *)
Theorem C05_append_layers :
  forall ops c outs ls c' is, layer_run ly_init ops = Ok (c, outs) ->
    append_layers c ls = (c', is) ->
    exists new, ly_list c' = (ly_list c ++ new)%list /\
      map (fun l => (l_name l, l_type l)) new = ls /\ map l_id new = is.
Proof.
  intros ops c outs ls c' is E Ea.
  destruct (append_layers_spec ls c c' is Ea (proj1 (layer_run_inv ops _ _ _ inv_init E)))
    as (_ & new & H1 & H2 & H3 & _); eauto.
Qed.
Print Assumptions C05_append_layers.

(** Layers are never reordered, renamed or lost: after any further history the earlier layers still appear,
    in the same order. *)
Theorem C05_layers_never_reordered :
  forall ops1 ops2 c1 outs1 c2 outs2,
    layer_run ly_init ops1 = Ok (c1, outs1) -> layer_run c1 ops2 = Ok (c2, outs2) ->
    sublist (map ident (ly_list c1)) (map ident (ly_list c2)).
Proof.
  intros ops1 ops2 c1 outs1 c2 outs2 E1 E2.
  apply (layer_run_inv ops2 _ _ _ (proj1 (layer_run_inv ops1 _ _ _ inv_init E1)) E2).
Qed.
Print Assumptions C05_layers_never_reordered.

(** A history never fails once there is a layer. *)
Theorem C05_histories_run :
  forall ops1 ops2 c1 outs1, layer_run ly_init ops1 = Ok (c1, outs1) -> ly_list c1 <> [] ->
    exists c2 outs2, layer_run c1 ops2 = Ok (c2, outs2).
Proof.
  intros ops1 ops2 c1 outs1 E1; apply layer_run_total; apply (layer_run_inv ops1 _ _ _ inv_init E1).
Qed.
Print Assumptions C05_histories_run.

(** GetDefaultLayerMap is the identity on the layers of the layout and nothing else. *)
Theorem C05_default_layer_map_identity :
  forall ops c outs i, layer_run ly_init ops = Ok (c, outs) ->
    forward (default_layer_map c) (Z.of_nat i) = if (i <? List.length (ly_list c))%nat then Z.of_nat i else noLayer.
Proof.
  intros ops c outs i E; apply default_map_spec; apply (layer_run_inv ops _ _ _ inv_init E).
Qed.
Print Assumptions C05_default_layer_map_identity.

Example C05_case :
  exists c outs, layer_run ly_init [AppendLayer "M1" LConducting; AppendLayers [("M2", LConducting); ("D", LDielectric)];
                                    AddDefaultDielectricLayers; AppendLayer "M1" LConducting] = Ok (c, outs) /\
    map (fun l => (l_name l, l_id l)) (ly_list c) =
    [("M1", 0); ("Dielectric", 1); ("M2", 2); ("D", 3); ("M1", 4)]%Z /\
    outs = [OIds [0]; OIds [1; 2]; OMap [(-10, -10); (-1, -1); (0, 0); (1, 2); (2, 3)]; OIds [4]]%Z.
Proof. eexists _, _; split; [vm_compute; reflexivity|vm_compute; auto]. Qed.

(** AddDefaultDielectricLayers on every reachable non-empty collection. *)
Theorem C06_dielectric_insertion :
  forall ops c outs, layer_run ly_init ops = Ok (c, outs) -> ly_list c <> [] ->
  exists c' m, add_default_dielectrics c = Ok (c', m) /\
    (* the ids are positions again *)
    id_is_position (ly_list c') /\
    (* the old layers are all there, in order, unchanged *)
    map ident (older (ly_next c) (ly_list c')) = map ident (ly_list c) /\
    (* the others are dielectrics, one per adjacent pair of conductors, with fresh names *)
    (forall l, In l (newer (ly_next c) (ly_list c')) -> l_type l = LDielectric) /\
    List.length (newer (ly_next c) (ly_list c')) = conducting_pairs (ly_list c) /\
    names_ok (ly_next c) (ly_list c') /\
    (* no two neighbouring conductors remain *)
    neighbours no_both (ly_list c') /\
    (* the returned map relates the positions of each old layer, and only those *)
    (forall i j l l', nth_error (ly_list c) i = Some l -> nth_error (ly_list c') j = Some l' ->
       l_obj l = l_obj l' -> forward m (Z.of_nat i) = Z.of_nat j /\ backward m (Z.of_nat j) = Z.of_nat i) /\
    (forall j l', nth_error (ly_list c') j = Some l' -> (ly_next c <= l_obj l')%nat -> backward m (Z.of_nat j) = noLayer) /\
    (forall i, (List.length (ly_list c) <= i)%nat -> forward m (Z.of_nat i) = noLayer).
Proof.
  intros ops c outs E Hne.
  destruct (add_dielectrics_full c (proj1 (layer_run_inv ops _ _ _ inv_init E)) Hne)
    as (c' & m & H1 & [H2 _] & H3 & H4 & H5 & H6 & H7 & H8 & H9 & H10).
  exists c', m; auto 12.
Qed.
Print Assumptions C06_dielectric_insertion.

Example C06_case :
  exists c outs c' m,
    layer_run ly_init [AppendLayers [("A", LConducting); ("B", LConducting); ("Dielectric", LDielectric);
                                     ("C", LConducting); ("D", LConducting); ("E", LConducting)]] = Ok (c, outs) /\
    ly_list c <> [] /\ add_default_dielectrics c = Ok (c', m) /\
    map l_name (ly_list c') = ["A"; "Dielectric1"; "B"; "Dielectric"; "C"; "Dielectric2"; "D"; "Dielectric3"; "E"] /\
    map (forward m) [0; 1; 2; 3; 4; 5; 6]%Z = [0; 2; 3; 4; 6; 8; -1]%Z.
Proof.
  eexists _, _, _, _; split; [vm_compute; reflexivity|]; split; [vm_compute; discriminate|].
  split; [vm_compute; reflexivity|vm_compute; auto].
Qed.

(** Finding: on a layout without layers the call is undefined behaviour. *)
Theorem C06_empty_stackup_is_ub : add_default_dielectrics ly_init = UB.
Proof. reflexivity. Qed.
Print Assumptions C06_empty_stackup_is_ub.
