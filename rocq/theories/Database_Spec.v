(** Abstract database: for each kind, the definitions in creation order. *)
From Verif Require Import Base Names_Spec Database_Model.

(** name and object identity of every definition of a kind, oldest first *)
Record dtable := { dt_defs : kind -> list (string * nat); dt_serial : nat }.

Definition dt_empty : dtable := {| dt_defs := fun _ => []; dt_serial := 0 |}.

Definition dt_add (t : dtable) (k : kind) (n : string) : dtable :=
  {| dt_defs := fun k' => if kind_eqb k' k then dt_defs t k ++ [(n, dt_serial t)] else dt_defs t k';
     dt_serial := S (dt_serial t) |}.

(** the id of the [p]-th definition of kind [k]: its position for a material, -1 otherwise *)
Definition id_at (k : kind) (p : nat) : Z := match k with KMaterialDef => Z.of_nat p | _ => -1 end%Z.

(** the definition at position [p] of kind [k] *)
Definition is_def (t : dtable) (k : kind) (p : nat) (n : string) (x : defn) : Prop :=
  nth_error (dt_defs t k) p = Some (n, d_obj x) /\ d_kind x = k /\ d_mid x = id_at k p.

Definition name_used (t : dtable) (k : kind) (n : string) : Prop := In n (map fst (dt_defs t k)).

Inductive dspec_step : dtable -> db_op -> dtable -> db_out -> Prop :=
| D_create_new t k n x : ~ name_used t k n ->
    x = mkDef (dt_serial t) k (id_at k (List.length (dt_defs t k))) ->
    dspec_step t (CreateDef k n) (dt_add t k n) (ODef (Some x))
| D_create_dup t k n : name_used t k n -> dspec_step t (CreateDef k n) t (ODef None)
| D_addmap_new t n x : ~ name_used t KLayerMap n -> x = mkDef (dt_serial t) KLayerMap (-1) ->
    dspec_step t (AddLayerMap n) (dt_add t KLayerMap n) (ODef (Some x))
| D_addmap_dup t n : name_used t KLayerMap n ->
    dspec_step t (AddLayerMap n) {| dt_defs := dt_defs t; dt_serial := S (dt_serial t) |} (ODef None)
| D_find_some t k n p x : is_def t k p n x -> dspec_step t (FindDef k n) t (ODef (Some x))
| D_find_none t k n : ~ name_used t k n -> dspec_step t (FindDef k n) t (ODef None)
| D_findid_some t p n x : is_def t KMaterialDef p n x ->
    dspec_step t (FindMaterialDefById (Z.of_nat p)) t (ODef (Some x))
| D_findid_none t i : (i < 0 \/ Z.of_nat (List.length (dt_defs t KMaterialDef)) <= i)%Z ->
    dspec_step t (FindMaterialDefById i) t (ODef None)
| D_next t k b r : first_free (map fst (dt_defs t k)) b r -> dspec_step t (NextDefName k b) t (OName r)
| D_count t k : dspec_step t (DefCount k) t (OSize (List.length (dt_defs t k)))
| D_clear t k : dspec_step t (ClearDefs k)
    {| dt_defs := fun k' => if kind_eqb k' k then [] else dt_defs t k'; dt_serial := dt_serial t |} OUnit
| D_clone t : dspec_step t CloneDb (* same definitions, new objects *)
    {| dt_defs := fun k => map (fun e => (fst e, dt_serial t + snd e)) (dt_defs t k);
       dt_serial := dt_serial t + dt_serial t |} OUnit.

Inductive dspec_run : dtable -> list db_op -> dtable -> list db_out -> Prop :=
| DR_nil t : dspec_run t [] t []
| DR_cons t o t' out ops t'' outs :
    dspec_step t o t' out -> dspec_run t' ops t'' outs -> dspec_run t (o :: ops) t'' (out :: outs).

Definition is_clone_db (o : db_op) : bool := match o with CloneDb => true | _ => false end.
Definition is_find_by_id (o : db_op) : bool := match o with FindMaterialDefById _ => true | _ => false end.

(** Abstract registry: which database object is live under each name. *)
Record rtable := { rt_live : string -> option nat; rt_serial : nat }.
Definition rt_empty : rtable := {| rt_live := fun _ => None; rt_serial := 0 |}.
Definition rt_set (t : rtable) (n : string) (v : option nat) (s : nat) : rtable :=
  {| rt_live := fun m => if String.eqb m n then v else rt_live t m; rt_serial := s |}.

Definition rspec_step (t : rtable) (o : reg_op) : rtable * reg_out :=
  match o with
  | CreateDatabase n =>
      match rt_live t n with
      | Some _ => (t, RDb None)
      | None => (rt_set t n (Some (rt_serial t)) (S (rt_serial t)), RDb (Some (rt_serial t)))
      end
  | OpenDatabase n => (t, RDb (rt_live t n))
  | RemoveDatabase n =>
      (rt_set t n None (rt_serial t), RBool (match rt_live t n with Some _ => true | None => false end))
  | ShutDown => ({| rt_live := fun _ => None; rt_serial := rt_serial t |}, RUnit)
  | LoadDatabase None => ({| rt_live := rt_live t; rt_serial := S (rt_serial t) |}, RDb None)
  | LoadDatabase (Some n) =>
      match rt_live t n with
      | Some _ => ({| rt_live := rt_live t; rt_serial := S (rt_serial t) |}, RDb None)
      | None => (rt_set t n (Some (rt_serial t)) (S (rt_serial t)), RDb (Some (rt_serial t)))
      end
  end.

Fixpoint rspec_run (t : rtable) (ops : list reg_op) : rtable * list reg_out :=
  match ops with
  | [] => (t, [])
  | o :: ops' => let (t1, x) := rspec_step t o in let (t2, xs) := rspec_run t1 ops' in (t2, x :: xs)
  end.
