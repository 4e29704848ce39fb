(** EDatabase: the five definition collections of a database, and EDataMgr: the registry of databases. *)
From Verif Require Import Base Names_Model.

(** src/basic/ECadCommon.h EDefinitionType – the five kinds of definitions a database stores. *)
Inductive kind := KComponentDef | KPadstackDef | KMaterialDef | KLayerMap | KCell.

Definition kind_eqb (a b : kind) : bool :=
  match a, b with
  | KComponentDef, KComponentDef | KPadstackDef, KPadstackDef | KMaterialDef, KMaterialDef
  | KLayerMap, KLayerMap | KCell, KCell => true
  | _, _ => false
  end.

(** A definition object: its identity (address), kind and, for materials, the id it was constructed with
    (src/design/EMaterialDef.cpp:27-30; noMaterial = -1 otherwise). *)
Record defn := mkDef { d_obj : nat; d_kind : kind; d_mid : Z }.

(** A database: for each kind the unordered map name -> definition, the material id index
    [m_idLut : id -> object] and the number of objects allocated so far. *)
Record db := mkDb { db_defs : kind -> list (string * defn); db_lut : list (Z * defn); db_next : nat }.

(** src/design/EDatabase.cpp:46-54 – all five collections exist from the start. *)
Definition db_init : db := mkDb (fun _ => []) [] 0.

Definition set_kind (f : kind -> list (string * defn)) (k : kind) (l : list (string * defn))
  : kind -> list (string * defn) := fun k' => if kind_eqb k' k then l else f k'.

(** src/collection/EDefinitionCollection.cpp:93-98 dispatching on the kind, then GetDefinition of the kind's
    collection, e.g. EMaterialDefCollection.cpp:54-59 *)
Definition get_definition (d : db) (k : kind) (n : string) : option defn := alookup String.eqb n (db_defs d k).

(** EDefinitionCollection.cpp:86-91 and e.g. ECellCollection.cpp:40-48; for materials
    EMaterialDefCollection.cpp:43-52, which also enters the object into the id index.  When the name is
    taken the temporary owning pointer is destroyed: harmless for the other kinds' return value (the present
    definition), but the material version then reads the freed object. *)
Definition add_definition (d : db) (k : kind) (n : string) (x : defn) : res (db * option defn) :=
  match k with
  | KMaterialDef =>
      if acount String.eqb n (db_defs d k) then UB
      else
        let d' := mkDb (set_kind (db_defs d) k (aemplace String.eqb n x (db_defs d k)))
                       (aemplace Z.eqb (d_mid x) x (db_lut d)) (db_next d) in
        Ok (d', get_definition d' k n)
  | _ =>
      let d' := mkDb (set_kind (db_defs d) k (aemplace String.eqb n x (db_defs d k))) (db_lut d) (db_next d) in
      Ok (d', get_definition d' k n)
  end.

(** operator new *)
Definition alloc (d : db) (k : kind) (mid : Z) : db * defn :=
  (mkDb (db_defs d) (db_lut d) (S (db_next d)), mkDef (db_next d) k mid).

(** EDatabase.cpp:150-156 (cell), 190-196 (material, id = size of the collection), 216-222 (component),
    235-241 (layer map), 264-270 (padstack) *)
Definition create_def (d : db) (k : kind) (n : string) : res (db * option defn) :=
  match get_definition d k n with
  | Some _ => Ok (d, None)
  | None =>
      let mid := match k with KMaterialDef => Z.of_nat (List.length (db_defs d KMaterialDef)) | _ => (-1)%Z end in
      let (d1, x) := alloc d k mid in
      add_definition d1 k n x
  end.

(** EDatabase.cpp:249-257 – AddLayerMap of a caller-made layer map named [n] *)
Definition add_layer_map (d : db) (n : string) : res (db * option defn) :=
  let (d1, x) := alloc d KLayerMap (-1)%Z in
  match get_definition d1 KLayerMap n with
  | Some _ => Ok (d1, None)
  | None => add_definition d1 KLayerMap n x
  end.

(** EDatabase.cpp:204-209, EMaterialDefCollection.cpp:67-73 *)
Definition find_material_by_id (d : db) (i : Z) : option defn := alookup Z.eqb i (db_lut d).

(** EDatabase.cpp:140-143, EDefinitionCollection.cpp:100-105, EMaterialDefCollection.cpp:61-65 *)
Definition next_def_name (d : db) (k : kind) (base : string) : res string :=
  next_key (S (List.length (db_defs d k))) (fun n => acount String.eqb n (db_defs d k)) base.

(** EMaterialDefCollection.cpp:94-98 and BaseCollection::Clear (ECollection.h:75) of the other kinds *)
Definition clear_defs (d : db) (k : kind) : db :=
  mkDb (set_kind (db_defs d) k []) (match k with KMaterialDef => [] | _ => db_lut d end) (db_next d).

(** EDatabase.cpp:60-73: every collection is copied entry by entry (ECollection.h:62-71); the objects are
    new, the material ids kept (EMaterialDef.cpp:41-51); the copied material collection has an empty id index
    (EMaterialDefCollection.cpp:32-41).  A clone's object gets identity [db_next + old identity]. *)
Definition clone_defn (d : db) (x : defn) : defn := mkDef (db_next d + d_obj x) (d_kind x) (d_mid x).

Definition clone_db (d : db) : db :=
  mkDb (fun k => map (fun e => (fst e, clone_defn d (snd e))) (db_defs d k)) [] (db_next d + db_next d).

Inductive db_op :=
| CreateDef (k : kind) (n : string) | AddLayerMap (n : string)
| FindDef (k : kind) (n : string) | FindMaterialDefById (i : Z)
| NextDefName (k : kind) (base : string) | DefCount (k : kind) | ClearDefs (k : kind)
| CloneDb.

Inductive db_out := ODef (x : option defn) | OName (n : string) | OSize (n : nat) | OUnit.

Definition db_step (d : db) (o : db_op) : res (db * db_out) :=
  match o with
  | CreateDef k n => bind (create_def d k n) (fun p => Ok (fst p, ODef (snd p)))
  | AddLayerMap n => bind (add_layer_map d n) (fun p => Ok (fst p, ODef (snd p)))
  | FindDef k n => Ok (d, ODef (get_definition d k n))
  | FindMaterialDefById i => Ok (d, ODef (find_material_by_id d i))
  | NextDefName k b => bind (next_def_name d k b) (fun r => Ok (d, OName r))
  | DefCount k => Ok (d, OSize (List.length (db_defs d k)))
  | ClearDefs k => Ok (clear_defs d k, OUnit)
  | CloneDb => Ok (clone_db d, OUnit)
  end.

Fixpoint db_run (d : db) (ops : list db_op) : res (db * list db_out) :=
  match ops with
  | [] => Ok (d, [])
  | o :: ops' =>
      bind (db_step d o) (fun p => bind (db_run (fst p) ops') (fun q => Ok (fst q, snd p :: snd q)))
  end.

(** src/EDataMgr.cpp – the registry: [m_databases : name -> shared_ptr<EDatabase>]; a database is represented
    by its identity. *)
Record registry := mkReg { rg_map : list (string * nat); rg_next : nat }.
Definition rg_init : registry := mkReg [] 0.

Inductive reg_op :=
| CreateDatabase (n : string) | OpenDatabase (n : string) | RemoveDatabase (n : string) | ShutDown
| LoadDatabase (contents : option string). (* name stored in the archive, or unreadable archive *)
Inductive reg_out := RDb (x : option nat) | RBool (b : bool) | RUnit.

Definition reg_step (r : registry) (o : reg_op) : registry * reg_out :=
  match o with
  | CreateDatabase n =>                                        (* EDataMgr.cpp:38-44 *)
      if acount String.eqb n (rg_map r) then (r, RDb None)
      else let m := aemplace String.eqb n (rg_next r) (rg_map r) in
           (mkReg m (S (rg_next r)), RDb (alookup String.eqb n m))
  | OpenDatabase n => (r, RDb (alookup String.eqb n (rg_map r)))          (* EDataMgr.cpp:46-51 *)
  | RemoveDatabase n =>                                        (* EDataMgr.cpp:53-56 *)
      (mkReg (aerase String.eqb n (rg_map r)) (rg_next r),
       RBool (Nat.ltb (List.length (aerase String.eqb n (rg_map r))) (List.length (rg_map r))))
  | ShutDown => (mkReg [] (rg_next r), RUnit)                   (* EDataMgr.cpp:58-64 *)
  | LoadDatabase None => (mkReg (rg_map r) (S (rg_next r)), RDb None)     (* EDataMgr.cpp:88-94 *)
  | LoadDatabase (Some n) =>
      if acount String.eqb n (rg_map r) then (mkReg (rg_map r) (S (rg_next r)), RDb None)
      else let m := aemplace String.eqb n (rg_next r) (rg_map r) in
           (mkReg m (S (rg_next r)), RDb (alookup String.eqb n m))
  end.

Fixpoint reg_run (r : registry) (ops : list reg_op) : registry * list reg_out :=
  match ops with
  | [] => (r, [])
  | o :: ops' => let (r1, x) := reg_step r o in let (r2, xs) := reg_run r1 ops' in (r2, x :: xs)
  end.
