(** C04, C09, C10 – definitions of a database and the database registry. *)
From Verif Require Import Base Names_Spec Database_Model Database_Spec Database_Proofs.
Local Open Scope string_scope.

(** Every history of definition operations runs to completion with exactly the outputs of the abstract
    database, in which a definition is never replaced, kinds are independent, a duplicate creation has no
    effect and the id of a material is its position.  (Clones and id lookups are not mixed, see C04.) *)
Theorem C10_definition_collections_refine :
  forall ops,
    forallb (fun o => negb (is_clone_db o)) ops = true \/
    forallb (fun o => negb (is_find_by_id o)) ops = true ->
    exists d outs t, db_run db_init ops = Ok (d, outs) /\ dspec_run dt_empty ops t outs.
Proof. exact db_run_refines. Qed.
Print Assumptions C10_definition_collections_refine.

Example C10_case :
  let ops := [CreateDef KCell "a"; CreateDef KMaterialDef "a"; CreateDef KCell "a"; CreateDef KMaterialDef "b";
              FindDef KCell "a"; DefCount KMaterialDef; NextDefName KMaterialDef "a"; FindMaterialDefById 1;
              AddLayerMap "a"; AddLayerMap "a"; ClearDefs KCell; FindDef KCell "a"; FindDef KMaterialDef "a"] in
  rmap snd (db_run db_init ops) =
  Ok [ODef (Some (mkDef 0 KCell (-1))); ODef (Some (mkDef 1 KMaterialDef 0)); ODef None;
      ODef (Some (mkDef 2 KMaterialDef 1)); ODef (Some (mkDef 0 KCell (-1))); OSize 2; OName "a1";
      ODef (Some (mkDef 2 KMaterialDef 1)); ODef (Some (mkDef 3 KLayerMap (-1))); ODef None; OUnit; ODef None;
      ODef (Some (mkDef 1 KMaterialDef 0))].
Proof. vm_compute; auto. Qed.

(** Finding: adding a material definition object directly to the material collection under a used name is
    undefined behaviour (the object is destroyed, then read). *)
Theorem C10_add_definition_duplicate_material_is_ub :
  exists ops d outs, db_run db_init ops = Ok (d, outs) /\
    forall x, add_definition d KMaterialDef "a" x = UB.
Proof.
  exists [CreateDef KMaterialDef "a"]; eexists _, _; split; [vm_compute; reflexivity|intros; reflexivity].
Qed.
Print Assumptions C10_add_definition_duplicate_material_is_ub.

(** Material ids are exactly 0, 1, 2, ... in creation order, for every history including clones. *)
Theorem C04_material_ids_dense :
  forall ops d outs, db_run db_init ops = Ok (d, outs) ->
  exists names : list string, NoDup names /\
    forall n, match get_definition d KMaterialDef n with
              | Some x => (0 <= d_mid x)%Z /\ nth_error names (Z.to_nat (d_mid x)) = Some n
              | None => ~ In n names
              end.
Proof. exact material_ids_dense. Qed.
Print Assumptions C04_material_ids_dense.

(** FindMaterialDefById returns exactly the material with that id, as long as the database is not a clone. *)
Theorem C04_find_material_by_id_partial :
  forall ops d outs,
    forallb (fun o => negb (is_clone_db o)) ops = true ->
    db_run db_init ops = Ok (d, outs) ->
    forall i x, find_material_by_id d i = Some x <->
                exists n, get_definition d KMaterialDef n = Some x /\ d_mid x = i.
Proof. exact material_find_by_id. Qed.
Print Assumptions C04_find_material_by_id_partial.

Example C04_case :
  exists d outs, db_run db_init [CreateDef KMaterialDef "Cu"; CreateDef KMaterialDef "Cu"; CreateDef KMaterialDef "Al"]
                 = Ok (d, outs) /\
    find_material_by_id d 1 = Some (mkDef 1 KMaterialDef 1) /\
    get_definition d KMaterialDef "Al" = Some (mkDef 1 KMaterialDef 1) /\ find_material_by_id d 2 = None.
Proof. eexists _, _; split; [vm_compute; reflexivity|vm_compute; auto]. Qed.

(** Finding: on a clone the ids are kept but FindMaterialDefById finds nothing. *)
Theorem C04_clone_lookup_refuted :
  exists ops d outs n x, db_run db_init ops = Ok (d, outs) /\
    get_definition d KMaterialDef n = Some x /\ find_material_by_id d (d_mid x) = None.
Proof.
  exists [CreateDef KMaterialDef "Cu"; CloneDb]; eexists _, _, "Cu", _; split; [vm_compute; reflexivity|].
  vm_compute; auto.
Qed.
Print Assumptions C04_clone_lookup_refuted.

(** A clone has the same definitions (kind and id) under the same names. *)
Theorem C10_clone_keeps_definitions :
  forall d k n,
    option_map (fun x => (d_kind x, d_mid x)) (get_definition (clone_db d) k n) =
    option_map (fun x => (d_kind x, d_mid x)) (get_definition d k n).
Proof. exact clone_keeps_definitions. Qed.
Print Assumptions C10_clone_keeps_definitions.

(** The registry of databases behaves as a map from names to live databases. *)
Theorem C09_registry_is_a_map :
  forall ops, snd (reg_run rg_init ops) = snd (rspec_run rt_empty ops).
Proof. exact reg_run_refines. Qed.
Print Assumptions C09_registry_is_a_map.

Example C09_case :
  snd (reg_run rg_init [CreateDatabase "a"; CreateDatabase "a"; CreateDatabase "b"; RemoveDatabase "a";
                        RemoveDatabase "a"; OpenDatabase "a"; OpenDatabase "b"; CreateDatabase "a";
                        LoadDatabase (Some "b"); LoadDatabase (Some "c"); OpenDatabase "c"; ShutDown; OpenDatabase "b"])
  = [RDb (Some 0); RDb None; RDb (Some 1); RBool true; RBool false; RDb None; RDb (Some 1); RDb (Some 2);
     RDb None; RDb (Some 4); RDb (Some 4); RUnit; RDb None].
Proof. vm_compute; auto. Qed.
