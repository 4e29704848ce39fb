(** ENetCollection: nets of a layout, keyed by name, with a uid counter and a lazily built id index. *)
From Verif Require Import Base Names_Model.

(** src/design/ENet.h / ENet.cpp:25-42 – a net has a name (EObject) and a net id. *)
Record net := mkNet { net_name : string; net_id : Z }.

(** src/collection/ENetCollection.h:44-45 – [m_collection] (unordered map name -> net), [m_uidGen]
    (EUidGenerator, src/basic/EUidGenerator.h:22-25; the 32-bit wrap is not modelled) and the lazily built
    [m_netIdNameMap] ([None] = null pointer). *)
Record netcoll := mkNC {
  nc_map : list (string * net);
  nc_uid : Z;
  nc_lut : option (list (Z * string))
}.

(** ENetCollection.cpp:21-23 *)
Definition nc_init : netcoll := mkNC [] 0 None.

(** EUnorderedMapCollection::Count, src/basic/ECollection.h:78 *)
Definition nc_count (c : netcoll) (n : string) : bool := acount String.eqb n (nc_map c).

(** ENetCollection.cpp:45-49 – FindNetByName *)
Definition nc_find (c : netcoll) (n : string) : option net := alookup String.eqb n (nc_map c).

(** ENetCollection.cpp:40-43 – NextNetName; the fuel is shown sufficient in Net_Proofs. *)
Definition nc_next_name (c : netcoll) (n : string) : res string :=
  next_key (S (List.length (nc_map c))) (nc_count c) n.

(** ENetCollection.cpp:103-112 – BuildNetIdLUT: iterates the nets (here in list order) and inserts
    (id, name), keeping the first entry of an id. *)
Definition build_lut (m : list (string * net)) : list (Z * string) :=
  fold_left (fun l e => aemplace Z.eqb (net_id (snd e)) (net_name (snd e)) l) m [].

Definition nc_build_lut (c : netcoll) : netcoll :=
  match nc_lut c with
  | Some _ => c
  | None => mkNC (nc_map c) (nc_uid c) (Some (build_lut (nc_map c)))
  end.

(** ENetCollection.cpp:51-57 – FindNetByNetId (a const method mutating the index) *)
Definition nc_find_id (c : netcoll) (i : Z) : netcoll * option net :=
  let c' := nc_build_lut c in
  match nc_lut c' with
  | None => (c', None)
  | Some lut =>
      match alookup Z.eqb i lut with
      | None => (c', None)
      | Some n => (c', nc_find c' n)
      end
  end.

(** ENetCollection.cpp:59-68 – CreateNet *)
Definition nc_create (c : netcoll) (n : string) : netcoll * option net :=
  if nc_count c n then (c, None)
  else let x := mkNet n (nc_uid c) in
       (mkNC (aemplace String.eqb n x (nc_map c)) (nc_uid c + 1) None, Some x).

(** ENetCollection.cpp:70-78 – AddNet of a net whose current name is [n] *)
Definition nc_add (c : netcoll) (n : string) : res (netcoll * option net) :=
  bind (nc_next_name c n) (fun name =>
    let x := mkNet name (nc_uid c) in
    let c' := mkNC (aemplace String.eqb name x (nc_map c)) (nc_uid c + 1) None in
    match nc_find c' name with          (* At(name) throws std::out_of_range when absent *)
    | Some y => Ok (c', Some y)
    | None => Throw
    end).

(** ENetCollection.cpp:91-96 – Clear *)
Definition nc_clear (c : netcoll) : netcoll := mkNC [] 0 None.

(** ENetCollection.cpp:29-38,98-101 – Clone: only the base collection is copied; the new object's uid
    generator starts at 0 and its index is null. *)
Definition nc_clone (c : netcoll) : netcoll := mkNC (nc_map c) 0 None.

(** ENetCollection.cpp:9-16 – save and load: the base collection and the uid generator are archived. *)
Definition nc_reload (c : netcoll) : netcoll := mkNC (nc_map c) (nc_uid c) None.

(** src/interface/INet.h:11 – a caller may rename a net it obtained; the collection is not told. [k] is
    the key under which the net is stored. *)
Definition nc_rename (c : netcoll) (k new : string) : netcoll :=
  mkNC (map (fun e => if String.eqb k (fst e) then (fst e, mkNet new (net_id (snd e))) else e) (nc_map c))
       (nc_uid c) (nc_lut c).

Inductive net_op :=
| CreateNet (n : string) | AddNet (n : string)
| FindNetByName (n : string) | FindNetByNetId (i : Z)
| NetCount | ClearNets
| CloneNets     (* continue with the clone *)
| ReloadNets    (* save, load, continue with the loaded collection *)
| RenameNet (k new : string).

Inductive net_out := ONet (x : option net) | OCount (n : nat) | ODone.

Definition net_step (c : netcoll) (o : net_op) : res (netcoll * net_out) :=
  match o with
  | CreateNet n => let (c', x) := nc_create c n in Ok (c', ONet x)
  | AddNet n => bind (nc_add c n) (fun p => Ok (fst p, ONet (snd p)))
  | FindNetByName n => Ok (c, ONet (nc_find c n))
  | FindNetByNetId i => let (c', x) := nc_find_id c i in Ok (c', ONet x)
  | NetCount => Ok (c, OCount (List.length (nc_map c)))
  | ClearNets => Ok (nc_clear c, ODone)
  | CloneNets => Ok (nc_clone c, ODone)
  | ReloadNets => Ok (nc_reload c, ODone)
  | RenameNet k n => Ok (nc_rename c k n, ODone)
  end.

Fixpoint net_run (c : netcoll) (ops : list net_op) : res (netcoll * list net_out) :=
  match ops with
  | [] => Ok (c, [])
  | o :: ops' =>
      bind (net_step c o) (fun p =>
        bind (net_run (fst p) ops') (fun q => Ok (fst q, snd p :: snd q)))
  end.
