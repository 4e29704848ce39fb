(** Model of the GDSII import: src/extension/gds/ECadExtGdsHandler.cpp and EGdsLayerMap.cpp.

    A cell created by the import is represented by its name, its layers (their position is their id,
    theorem C05), its primitives and its cell instances, each in creation order.  The registry of
    databases (EDataMgr.cpp:38-51) is the list of its names with the cells of each. *)
From Coq Require Import QArith.
From Verif Require Import Base Gds_Model GdsReader_Model Names_Model.
Local Open Scope Z_scope.
Local Open Scope res_scope.

(** Character codes of a string. *)
Fixpoint codes (s : string) : gstr :=
  match s with
  | EmptyString => []
  | String c s' => Z.of_nat (Ascii.nat_of_ascii c) :: codes s'
  end.

(** [std::to_string] of an [int]. *)
Definition int_codes (z : Z) : gstr :=
  if z <? 0 then 45 :: codes (to_dec (Z.to_nat (- z))) else codes (to_dec (Z.to_nat z)).

(** EGdsLayerMap.h:10-18; [gl_metal] is [type == ConductingLayer]. *)
Record glayer := mkglayer { gl_name : gstr; gl_metal : bool; gl_id : Z; gl_data : Z; gl_thick : Q }.

Section LayerMapFile.
  (** [generic::str::Split] by blanks, [StartsWith<CaseInsensitive>(_, "m")], [std::stoi] and
      [std::stod] (the last two throw on text that is no number). *)
  Context (split : gstr -> list gstr) (starts_m : gstr -> bool)
          (stoi : gstr -> option Z) (stod : gstr -> option Q).

  (** EGdsLayerMap.cpp:70-82 [ParseOneLine] *)
  Definition parse_line (line : gstr) : res (option glayer) :=
    match split line with
    | [n; ty; l; d; t] =>
        match stoi l, stoi d, stod t with
        | Some l, Some d, Some t => Ok (Some (mkglayer n (starts_m ty) l d t))
        | _, _, _ => Throw
        end
    | _ => Ok None
    end.

  (** EGdsLayerMap.cpp:54-68 [operator()] on the lines of a file *)
  Fixpoint parse_map (lines : list gstr) (acc : list glayer) : res (option (list glayer)) :=
    match lines with
    | [] => Ok (Some acc)
    | line :: rest =>
        match line with
        | [] => parse_map rest acc
        | c :: _ =>
            if c =? 35 then parse_map rest acc
            else
              r <- parse_line line ;;
              match r with
              | None => Ok None
              | Some l => parse_map rest (acc ++ [l])
              end
        end
    end.
End LayerMapFile.

(** A layer of an imported cell. *)
Record ilayer := mkilayer { il_name : gstr; il_metal : bool; il_elev : Q; il_thick : Q }.

(** Primitives and cell instances of an imported cell. *)
Inductive prim : Type :=
| PPolygon (layer : nat) (points : list gpt)
| PPath (layer : nat) (pathType width : Z) (points : list gpt)
| PText (layer : nat) (scale rotation : dbl) (offset : gpt) (text : gstr).

(** makeETransform2D leaves the mirror at [No] (ETransform.h:122-130). *)
Record inst := mkinst { in_name : gstr; in_cell : gstr; in_scale : dbl; in_rot : dbl; in_offset : gpt; in_mirror : bool }.

Record icell := mkicell { ic_name : gstr; ic_layers : list ilayer; ic_prims : list prim; ic_insts : list inst }.

(** [m_layerIdMap]: GDS layer number to the set of layer ids. *)
Definition lidmap := list (Z * list nat).

Fixpoint lid_find (g : Z) (m : lidmap) : option (list nat) :=
  match m with
  | [] => None
  | (k, s) :: m' => if k =? g then Some s else lid_find g m'
  end.

(** [std::set::insert] *)
Fixpoint set_insert (x : nat) (s : list nat) : list nat :=
  match s with
  | [] => [x]
  | y :: s' => if (x <? y)%nat then x :: s else if (x =? y)%nat then s else y :: set_insert x s'
  end.

(** [m_layerIdMap.insert(make_pair(g, {})).first->second.insert(id)], lines 53 and 62 *)
Fixpoint lid_add (g : Z) (id : nat) (m : lidmap) : lidmap :=
  match m with
  | [] => [(g, [id])]
  | (k, s) :: m' => if k =? g then (k, set_insert id s) :: m' else (k, s) :: lid_add g id m'
  end.

(** ECadExtGdsHandler.cpp:49-56: layers of a layer map file *)
Fixpoint file_layers (ls : list glayer) (id : nat) (elev : Q) (m : lidmap) : list ilayer * lidmap :=
  match ls with
  | [] => ([], m)
  | l :: ls' =>
      let '(out, m') := file_layers ls' (S id) (elev - gl_thick l)%Q (lid_add (gl_id l) id m) in
      (mkilayer (gl_name l) (gl_metal l) elev (gl_thick l) :: out, m')
  end.

(** ECadExtGdsHandler.cpp:59-64: layers of the GDS file, in the order [unordered_set] gives *)
Fixpoint default_layers (ls : list Z) (id : nat) (m : lidmap) : list ilayer * lidmap :=
  match ls with
  | [] => ([], m)
  | l :: ls' =>
      let '(out, m') := default_layers ls' (S id) (lid_add l id m) in
      (mkilayer (codes "layer_" ++ int_codes l) true 0 0 :: out, m')
  end.

(** ECadExtGdsHandler.cpp:84-161 [ImportOneCell], [ImportOnePolygon], [ImportOnePath],
    [ImportOneText].  A set with one id and a set with several are filled the same way: the shared
    template of the latter is only a matter of storage. *)
Definition import_object (m : lidmap) (o : gobj) : list prim :=
  match o with
  | GPolygon layer _ pts =>
      match lid_find layer m with None => [] | Some ids => map (fun i => PPolygon i pts) ids end
  | GPath layer _ pt w pts =>
      match lid_find layer m with None => [] | Some ids => map (fun i => PPath i pt w pts) ids end
  | GText layer _ _ text pos _ _ rot scale _ =>
      match lid_find layer m with None => [] | Some ids => map (fun i => PText i scale rot pos text) ids end
  | _ => []
  end.

Definition import_cell (layers : list ilayer) (m : lidmap) (c : gcell) : icell :=
  mkicell (c_name c) layers (flat_map (import_object m) (c_objs c)) [].

(** [IDatabase::FindCellByName] *)
Definition find_cell (name : gstr) (cells : list icell) : option icell :=
  find (fun c => gstr_eqb (ic_name c) name) cells.

(** [IDatabase::CreateCircuitCell] is null when the name is taken, and line 70 dereferences it. *)
Fixpoint import_cells (layers : list ilayer) (m : lidmap) (cs : list gcell) (done : list icell) : res (list icell) :=
  match cs with
  | [] => Ok done
  | c :: cs' =>
      match find_cell (c_name c) done with
      | Some _ => UB
      | None => import_cells layers m cs' (done ++ [import_cell layers m c])
      end
  end.

(** ECadExtGdsHandler.cpp:185-215; the positions of an array are numbered from 0 *)
Fixpoint array_insts (cell : gstr) (scale rot : dbl) (i : nat) (ps : list gpt) : list inst :=
  match ps with
  | [] => []
  | p :: ps' => mkinst (cell ++ codes "_inst_" ++ codes (to_dec i)) cell scale rot p false
                :: array_insts cell scale rot (S i) ps'
  end.

Definition import_reference (cells : list icell) (o : gobj) : list inst :=
  match o with
  | GSref cell pos rot scale _ =>
      match find_cell cell cells with
      | None => []
      | Some _ => [mkinst (cell ++ codes "_inst") cell scale rot pos false]
      end
  | GAref cell _ _ _ _ ps rot scale _ =>
      match find_cell cell cells with
      | None => []
      | Some _ => array_insts cell scale rot 0 ps
      end
  | _ => []
  end.

(** Appending instances to the cell found by name, lines 76-80 and 163-183. *)
Definition add_insts (name : gstr) (is_ : list inst) (cells : list icell) : list icell :=
  map (fun c => if gstr_eqb (ic_name c) name
                then mkicell (ic_name c) (ic_layers c) (ic_prims c) (ic_insts c ++ is_) else c) cells.

Fixpoint import_references (cs : list gcell) (cells : list icell) : res (list icell) :=
  match cs with
  | [] => Ok cells
  | c :: cs' =>
      match find_cell (c_name c) cells with
      | None => UB
      | Some _ => import_references cs' (add_insts (c_name c) (flat_map (import_reference cells) (c_objs c)) cells)
      end
  end.

(** Where the layers come from: a layer map file parsed with a result, or the layers of the GDS
    file in the order [order] of the unordered set. *)
Inductive layer_source : Type :=
| FromFile (parsed : option (list glayer))
| FromGds (order : list Z).

Definition registry := list (gstr * list icell).

Definition reg_set (n : gstr) (cells : list icell) (r : registry) : registry :=
  map (fun e => if gstr_eqb (fst e) n then (n, cells) else e) r.

(** ECadExtGdsHandler.cpp:19-82 [CreateDatabase] after the file was read: the registry and whether
    a database was returned. *)
Definition create_database (r : registry) (name : gstr) (src : layer_source) (db : gdb) : res (registry * bool) :=
  if existsb (fun e => gstr_eqb (fst e) name) r then Ok (r, false)
  else
    let r := r ++ [(name, [])] in
    match (match src with
           | FromFile None => None
           | FromFile (Some ls) => Some (file_layers ls 0 0%Q [])
           | FromGds order => Some (default_layers order 0 [])
           end) with
    | None => Ok (r, false)
    | Some (layers, m) =>
        cells <- import_cells layers m (db_cells db) [] ;;
        cells <- import_references (db_cells db) cells ;;
        Ok (reg_set name cells r, true)
    end.
