(** The import of a GDSII file with its layer map file, from bytes and text to the database:
    src/extension/gds/ECadExtGdsHandler.cpp on top of EGdsFileIO.cpp, EGdsParser.cpp and EGdsLayerMap.cpp.

    The reader is that of GdsReader_Model.v, the import that of GdsImport_Model.v. *)
From Verif Require Import Base Gds_Model GdsReader_Model Names_Model GdsImport_Model.
Local Open Scope Z_scope.
Local Open Scope res_scope.

(** [std::getline] until the end of the file, EGdsLayerMap.cpp 56-59: what follows the last line break is a line too *)
Fixpoint map_lines_of (t : gstr) : list gstr :=
  match t with
  | [] => [[]]
  | c :: t' =>
      if c =? 10 then [] :: map_lines_of t'
      else match map_lines_of t' with [] => [[c]] | l :: ls => (c :: l) :: ls end
  end.

Section Import.
  Context (split : gstr -> list gstr) (starts_m : gstr -> bool) (stoi : gstr -> option Z) (stod : gstr -> option QArith_base.Q).

  (** The layers, ECadExtGdsHandler.cpp 41-64 and EGdsLayerMap.cpp 43-68.  [layer_map]: [None] if no file is named,
      [Some None] if the file can not be opened *)
  Definition layers_from (layer_map : option (option gstr)) (order : list Z) : res layer_source :=
    match layer_map with
    | None => Ok (FromGds order)
    | Some None => Ok (FromFile None)
    | Some (Some text) => p <- parse_map split starts_m stoi stod (map_lines_of text) [] ;; Ok (FromFile p)
    end.

  (** [CreateDatabase], ECadExtGdsHandler.cpp 19-82; EGdsParser.cpp 28-39, EGdsFileIO.cpp 19-37.  [file] is [None] if it can not
      be opened; [order] is the order the layer numbers of the file are walked in.  The result is the registry and, if a database
      is returned, its units ([None]: those of a new database) *)
  Definition import_gds (fuel : nat) (cap : Z) (r : registry) (name : gstr) (file : option (list Z)) (layer_map : option (option gstr))
    (order : list Z) : registry * res (option (option (dbl * dbl))) :=
    match file with
    | None => (r, Ok None)
    | Some bytes =>
        match read_file fuel cap bytes with
        | UB => (r, UB)
        | Throw => (r, Throw)
        | OutOfFuel => (r, OutOfFuel)
        | Ok (db, false) => (r, Ok None)
        | Ok (db, true) =>
            if existsb (fun e => gstr_eqb (fst e) name) r then (r, Ok None)
            else match layers_from layer_map order with
                 | UB => (r ++ [(name, [])], UB)
                 | Throw => (r ++ [(name, [])], Throw)
                 | OutOfFuel => (r ++ [(name, [])], OutOfFuel)
                 | Ok src =>
                     match create_database r name src db with
                     | Ok (r', b) => (r', Ok (if b then Some (db_units db) else None))
                     | UB => (r ++ [(name, [])], UB)
                     | Throw => (r ++ [(name, [])], Throw)
                     | OutOfFuel => (r ++ [(name, [])], OutOfFuel)
                     end
                 end
        end
    end.
End Import.
