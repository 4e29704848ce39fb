(** Abstract net table: a partial function from names to ids and the next id. *)
From Verif Require Import Base Names_Spec Net_Model.

Record net_table := { nt_ids : string -> option Z; nt_next : Z }.

Definition nt_empty : net_table := {| nt_ids := fun _ => None; nt_next := 0 |}.

Definition nt_put (t : net_table) (n : string) : net_table :=
  {| nt_ids := fun m => if String.eqb m n then Some (nt_next t) else nt_ids t m;
     nt_next := nt_next t + 1 |}.

(** [l] lists exactly the names in the table *)
Definition lists_names (t : net_table) (l : list string) : Prop :=
  NoDup l /\ forall n, In n l <-> nt_ids t n <> None.

Inductive spec_step : net_table -> net_op -> net_table -> net_out -> Prop :=
| S_create_new t n : nt_ids t n = None ->
    spec_step t (CreateNet n) (nt_put t n) (ONet (Some (mkNet n (nt_next t))))
| S_create_dup t n : nt_ids t n <> None ->
    spec_step t (CreateNet n) t (ONet None)
| S_add t n l r : lists_names t l -> first_free l n r ->
    spec_step t (AddNet n) (nt_put t r) (ONet (Some (mkNet r (nt_next t))))
| S_find_name_some t n i : nt_ids t n = Some i ->
    spec_step t (FindNetByName n) t (ONet (Some (mkNet n i)))
| S_find_name_none t n : nt_ids t n = None ->
    spec_step t (FindNetByName n) t (ONet None)
| S_find_id_some t n i : nt_ids t n = Some i ->
    spec_step t (FindNetByNetId i) t (ONet (Some (mkNet n i)))
| S_find_id_none t i : (forall n, nt_ids t n <> Some i) ->
    spec_step t (FindNetByNetId i) t (ONet None)
| S_count t l : lists_names t l ->
    spec_step t NetCount t (OCount (List.length l))
| S_clear t : spec_step t ClearNets nt_empty ODone
| S_reload t : spec_step t ReloadNets t ODone
| S_clone t : spec_step t CloneNets {| nt_ids := nt_ids t; nt_next := 0 |} ODone.

Inductive spec_run : net_table -> list net_op -> net_table -> list net_out -> Prop :=
| SR_nil t : spec_run t [] t []
| SR_cons t o t' out ops t'' outs :
    spec_step t o t' out -> spec_run t' ops t'' outs -> spec_run t (o :: ops) t'' (out :: outs).

(** operations of the collection's own interface, i.e. without renaming a net behind its back *)
Definition is_rename (o : net_op) : bool := match o with RenameNet _ _ => true | _ => false end.
Definition is_clone (o : net_op) : bool := match o with CloneNets => true | _ => false end.
