(** C02, C03 – the net collection. *)
From Verif Require Import Base Names_Spec Net_Model Net_Spec Net_Proofs.
Local Open Scope string_scope.

(** Every history of create/add/find/count/clear/clone/reload calls runs without exception and its outputs
    are those of the abstract name-to-id table. *)
Theorem C02_net_collection_is_a_map :
  forall ops, forallb (fun o => negb (is_rename o)) ops = true ->
  exists c outs t, net_run nc_init ops = Ok (c, outs) /\ spec_run nt_empty ops t outs.
Proof. exact run_refines. Qed.
Print Assumptions C02_net_collection_is_a_map.

Example C02_case :
  let ops := [CreateNet "a"; CreateNet "a"; AddNet "a"; FindNetByNetId 1; ClearNets; FindNetByName "a";
              CreateNet "b"; NetCount] in
  forallb (fun o => negb (is_rename o)) ops = true /\
  rmap snd (net_run nc_init ops) =
  Ok [ONet (Some (mkNet "a" 0)); ONet None; ONet (Some (mkNet "a1" 1)); ONet (Some (mkNet "a1" 1)); ODone;
      ONet None; ONet (Some (mkNet "b" 0)); OCount 1].
Proof. vm_compute; auto. Qed.

(** Finding: the statement fails when a caller renames a net it obtained (INet::SetName is public): the net
    keeps being found under its old name and not under its new one. *)
Theorem C02_rename_refuted :
  exists ops c outs, net_run nc_init ops = Ok (c, outs) /\
    exists n x, In (n, x) (nc_map c) /\ nc_find c (net_name x) = None /\ nc_find c n = Some x /\ net_name x <> n.
Proof.
  exists [CreateNet "old"; RenameNet "old" "new"]; eexists _, _; split; [vm_compute; reflexivity|].
  exists "old", (mkNet "new" 0); vm_compute; repeat split; auto; discriminate.
Qed.
Print Assumptions C02_rename_refuted.

(** Ids are unique in every history without clone (and without renaming). *)
Theorem C03_net_ids_unique_partial :
  forall ops c outs n m x y,
    forallb (fun o => negb (is_rename o || is_clone o)) ops = true ->
    net_run nc_init ops = Ok (c, outs) ->
    nc_find c n = Some x -> nc_find c m = Some y -> net_id x = net_id y -> n = m.
Proof. exact ids_unique. Qed.
Print Assumptions C03_net_ids_unique_partial.

Example C03_case :
  exists c outs, net_run nc_init [CreateNet "a"; AddNet "a"; ReloadNets; CreateNet "c"] = Ok (c, outs) /\
    option_map net_id (nc_find c "a") = Some 0%Z /\
    option_map net_id (nc_find c "a1") = Some 1%Z /\ option_map net_id (nc_find c "c") = Some 2%Z.
Proof. eexists _, _; split; [vm_compute; reflexivity|vm_compute; auto]. Qed.

(** Finding: a clone restarts its id counter, so a net created on the clone reuses an id. *)
Theorem C03_net_ids_unique_refuted :
  exists ops c outs n m x y,
    forallb (fun o => negb (is_rename o)) ops = true /\
    net_run nc_init ops = Ok (c, outs) /\
    nc_find c n = Some x /\ nc_find c m = Some y /\ net_id x = net_id y /\ n <> m.
Proof.
  exists [CreateNet "a"; CloneNets; CreateNet "b"]; eexists _, _.
  exists "a", "b", (mkNet "a" 0), (mkNet "b" 0).
  split; [reflexivity|split; [vm_compute; reflexivity|]].
  vm_compute; repeat split; auto; discriminate.
Qed.
Print Assumptions C03_net_ids_unique_refuted.
