(** Model of the consumer of the GDSII records: src/extension/gds/EGdsFileIO.cpp (EGdsReader) and
    EGdsObjects.h (EGdsDB, EGdsCell).

    The counters of unsupported records are only printed, so they are left out; the index is in
    range because no event names UNKNOWN (theorem C45_unknown_never_delivered).  ECAD_ASSERT is a
    no-op in release builds and is left out.  Strings are lists of character codes. *)
From Verif Require Import Base Gds_Model.
Local Open Scope Z_scope.
Local Open Scope res_scope.

Definition gstr := list Z.
Definition gpt := (Z * Z)%type.

(** Conversion of [int] to [int16_t] (EGdsObjects.h:17, 25: LayerId and DataType). *)
Definition to_int16 (v : Z) : Z := let u := v mod 2 ^ 16 in if u <? 2 ^ 15 then u else u - 2 ^ 16.

(** EGdsObjects.h:39-104, the objects of a cell. *)
Inductive gobj : Type :=
| GPolygon (layer dataType : Z) (points : list gpt)
| GPath (layer dataType pathType width : Z) (points : list gpt)
| GText (layer dataType textType : Z) (text : gstr) (position : gpt) (width presentation : Z)
        (rotation scale : dbl) (strans : Z)
| GSref (cell : gstr) (position : gpt) (rotation scale : dbl) (strans : Z)
| GAref (cell : gstr) (cols rows : Z) (sp0 sp1 : Z) (positions : list gpt) (rotation scale : dbl)
        (strans : Z).

Record gcell := mkcell { c_name : gstr; c_objs : list gobj }.

(** EGdsObjects.h:177-219 [EGdsDB]; [header] is the text of the version; [cellIdxMap] holds exactly
    the names of [cells].  [units] are the two arguments of SetUnit / SetPrecision. *)
Record gdb := mkgdb {
  db_header : option Z;
  db_lib : gstr;
  db_units : option (dbl * dbl);
  db_cells : list gcell;
  db_layers : list Z
}.

Definition gdb0 : gdb := mkgdb None [] None [] [].

Definition gstr_eqb (a b : gstr) : bool := if list_eq_dec Z.eq_dec a b then true else false.

(** EGdsObjects.h:211-219 [AddCell] *)
Definition add_cell (name : gstr) (db : gdb) : gdb :=
  if existsb (fun c => gstr_eqb (c_name c) name) (db_cells db) then db
  else mkgdb (db_header db) (db_lib db) (db_units db) (db_cells db ++ [mkcell name []]) (db_layers db).

(** [std::unordered_set<int16_t>::insert] *)
Definition add_layer (l : Z) (db : gdb) : gdb :=
  let l := to_int16 l in
  if existsb (Z.eqb l) (db_layers db) then db
  else mkgdb (db_header db) (db_lib db) (db_units db) (db_cells db) (db_layers db ++ [l]).

(** [m_db.Cells().back().objects.push_back(o)]; [back] of an empty vector is undefined. *)
Definition push_back_obj (o : gobj) (db : gdb) : res gdb :=
  match rev (db_cells db) with
  | [] => UB
  | c :: rc => Ok (mkgdb (db_header db) (db_lib db) (db_units db)
                         (rev rc ++ [mkcell (c_name c) (c_objs c ++ [o])]) (db_layers db))
  end.

Definition set_header (v : Z) (db : gdb) : gdb :=
  mkgdb (Some v) (db_lib db) (db_units db) (db_cells db) (db_layers db).
Definition set_lib (s : gstr) (db : gdb) : gdb :=
  mkgdb (db_header db) s (db_units db) (db_cells db) (db_layers db).
Definition set_units (u p : dbl) (db : gdb) : gdb :=
  mkgdb (db_header db) (db_lib db) (Some (u, p)) (db_cells db) (db_layers db).

(** EGdsFileIO.h:36-51, the temporary data of the element being read. *)
Record temp := mktemp {
  t_string : gstr; t_sname : gstr; t_layer : Z; t_dataType : Z; t_pathType : Z; t_textType : Z;
  t_sp0 : Z; t_sp1 : Z; t_width : Z; t_columns : Z; t_rows : Z; t_angle : dbl; t_mag : dbl;
  t_strans : Z; t_presentation : Z; t_points : list gpt
}.

Definition dzero : dbl := mkdbl false 0 0.
Definition done_ : dbl := mkdbl false 1 0.

(** EGdsFileIO.cpp:39-57 [Reset] *)
Definition temp0 : temp :=
  mktemp [] [] (-1) (-1) (-1) (-1) 0 0 0 0 0 dzero done_ (-1) (-1) [].

Record rstate := mkrstate { s_status : Z; s_temp : temp; s_db : gdb }.

(** EGdsFileIO.cpp:19-37, start of [operator()] *)
Definition rinit : rstate := mkrstate UNKNOWN temp0 gdb0.

(** [data.front()] on an empty vector is undefined, [data.at(i)] throws. *)
Definition front {A} (l : list A) : res A := match l with [] => UB | x :: _ => Ok x end.
Definition at_ {A} (l : list A) (i : nat) : res A :=
  match nth_error l i with Some x => Ok x | None => Throw end.

(** EGdsFileIO.cpp:117-122, XY: pairs of [data]; an odd count reads past the end. *)
Fixpoint pairs (l : list Z) : res (list gpt) :=
  match l with
  | [] => Ok []
  | [_] => UB
  | x :: y :: l' => ps <- pairs l' ;; Ok ((x, y) :: ps)
  end.

Definition upd_temp (s : rstate) (t : temp) : rstate := mkrstate (s_status s) t (s_db s).
Definition upd_db (s : rstate) (d : gdb) : rstate := mkrstate (s_status s) (s_temp s) d.
Definition upd_status (s : rstate) (v : Z) : rstate := mkrstate v (s_temp s) (s_db s).

(** EGdsFileIO.cpp:79-141 [ReadInteger] *)
Definition read_integer (s : rstate) (rt : Z) (data : list Z) : res rstate :=
  let t := s_temp s in
  if rt =? HEADER then v <- front data ;; Ok (upd_db s (set_header v (s_db s)))
  else if rt =? LAYER then v <- front data ;;
    Ok (upd_temp s (mktemp (t_string t) (t_sname t) v (t_dataType t) (t_pathType t) (t_textType t) (t_sp0 t) (t_sp1 t)
      (t_width t) (t_columns t) (t_rows t) (t_angle t) (t_mag t) (t_strans t) (t_presentation t) (t_points t)))
  else if rt =? DATATYPE then v <- front data ;;
    Ok (upd_temp s (mktemp (t_string t) (t_sname t) (t_layer t) v (t_pathType t) (t_textType t) (t_sp0 t) (t_sp1 t)
      (t_width t) (t_columns t) (t_rows t) (t_angle t) (t_mag t) (t_strans t) (t_presentation t) (t_points t)))
  else if rt =? PATHTYPE then v <- front data ;;
    Ok (upd_temp s (mktemp (t_string t) (t_sname t) (t_layer t) (t_dataType t) v (t_textType t) (t_sp0 t) (t_sp1 t)
      (t_width t) (t_columns t) (t_rows t) (t_angle t) (t_mag t) (t_strans t) (t_presentation t) (t_points t)))
  else if rt =? TEXTTYPE then v <- front data ;;
    Ok (upd_temp s (mktemp (t_string t) (t_sname t) (t_layer t) (t_dataType t) (t_pathType t) v (t_sp0 t) (t_sp1 t)
      (t_width t) (t_columns t) (t_rows t) (t_angle t) (t_mag t) (t_strans t) (t_presentation t) (t_points t)))
  else if rt =? SPACING then a <- at_ data 0 ;; b <- at_ data 1 ;;
    Ok (upd_temp s (mktemp (t_string t) (t_sname t) (t_layer t) (t_dataType t) (t_pathType t) (t_textType t) a b
      (t_width t) (t_columns t) (t_rows t) (t_angle t) (t_mag t) (t_strans t) (t_presentation t) (t_points t)))
  else if rt =? WIDTH then v <- front data ;;
    Ok (upd_temp s (mktemp (t_string t) (t_sname t) (t_layer t) (t_dataType t) (t_pathType t) (t_textType t) (t_sp0 t) (t_sp1 t)
      v (t_columns t) (t_rows t) (t_angle t) (t_mag t) (t_strans t) (t_presentation t) (t_points t)))
  else if rt =? STRANS then v <- front data ;;
    Ok (upd_temp s (mktemp (t_string t) (t_sname t) (t_layer t) (t_dataType t) (t_pathType t) (t_textType t) (t_sp0 t) (t_sp1 t)
      (t_width t) (t_columns t) (t_rows t) (t_angle t) (t_mag t) v (t_presentation t) (t_points t)))
  else if rt =? PRESENTATION then v <- front data ;;
    Ok (upd_temp s (mktemp (t_string t) (t_sname t) (t_layer t) (t_dataType t) (t_pathType t) (t_textType t) (t_sp0 t) (t_sp1 t)
      (t_width t) (t_columns t) (t_rows t) (t_angle t) (t_mag t) (t_strans t) v (t_points t)))
  else if rt =? COLROW then a <- at_ data 0 ;; b <- at_ data 1 ;;
    Ok (upd_temp s (mktemp (t_string t) (t_sname t) (t_layer t) (t_dataType t) (t_pathType t) (t_textType t) (t_sp0 t) (t_sp1 t)
      (t_width t) a b (t_angle t) (t_mag t) (t_strans t) (t_presentation t) (t_points t)))
  else if rt =? XY then ps <- pairs data ;;
    Ok (upd_temp s (mktemp (t_string t) (t_sname t) (t_layer t) (t_dataType t) (t_pathType t) (t_textType t) (t_sp0 t) (t_sp1 t)
      (t_width t) (t_columns t) (t_rows t) (t_angle t) (t_mag t) (t_strans t) (t_presentation t) (t_points t ++ ps)))
  else if rt =? BGNLIB then Ok (upd_status s BGNLIB)
  else if rt =? BGNSTR then Ok (upd_status s BGNSTR)
  else Ok s.

(** EGdsFileIO.cpp:153-178 [ReadFloat] *)
Definition read_float (s : rstate) (rt : Z) (data : list dbl) : res rstate :=
  let t := s_temp s in
  if rt =? UNITS then u <- at_ data 0 ;; p <- at_ data 1 ;; Ok (upd_db s (set_units u p (s_db s)))
  else if rt =? ANGLE then v <- front data ;;
    Ok (upd_temp s (mktemp (t_string t) (t_sname t) (t_layer t) (t_dataType t) (t_pathType t) (t_textType t) (t_sp0 t) (t_sp1 t)
      (t_width t) (t_columns t) (t_rows t) v (t_mag t) (t_strans t) (t_presentation t) (t_points t)))
  else if rt =? MAG then v <- front data ;;
    Ok (upd_temp s (mktemp (t_string t) (t_sname t) (t_layer t) (t_dataType t) (t_pathType t) (t_textType t) (t_sp0 t) (t_sp1 t)
      (t_width t) (t_columns t) (t_rows t) (t_angle t) v (t_strans t) (t_presentation t) (t_points t)))
  else Ok s.

(** EGdsFileIO.cpp:180-212 [ReadString]; HEADER never comes as a string from the parser. *)
Definition read_string (s : rstate) (rt : Z) (data : gstr) : res rstate :=
  let t := s_temp s in
  if rt =? STRNAME then Ok (upd_db s (add_cell data (s_db s)))
  else if rt =? LIBNAME then Ok (upd_db s (set_lib data (s_db s)))
  else if rt =? STRING then
    Ok (upd_temp s (mktemp data (t_sname t) (t_layer t) (t_dataType t) (t_pathType t) (t_textType t) (t_sp0 t) (t_sp1 t)
      (t_width t) (t_columns t) (t_rows t) (t_angle t) (t_mag t) (t_strans t) (t_presentation t) (t_points t)))
  else if rt =? SNAME then
    Ok (upd_temp s (mktemp (t_string t) data (t_layer t) (t_dataType t) (t_pathType t) (t_textType t) (t_sp0 t) (t_sp1 t)
      (t_width t) (t_columns t) (t_rows t) (t_angle t) (t_mag t) (t_strans t) (t_presentation t) (t_points t)))
  else Ok s.

(** EGdsFileIO.cpp:229-253, the object made of the temporary data, if the status asks for one. *)
Definition make_obj (status : Z) (t : temp) : res (option gobj) :=
  let layer := to_int16 (t_layer t) in
  let dt := to_int16 (t_dataType t) in
  if (status =? BOX) || (status =? BOUNDARY) then Ok (Some (GPolygon layer dt (t_points t)))
  else if status =? PATH then Ok (Some (GPath layer dt (t_pathType t) (t_width t) (t_points t)))
  else if status =? TEXT then
    p <- front (t_points t) ;;
    Ok (Some (GText layer dt (t_textType t) (t_string t) p (t_width t) (t_presentation t) (t_angle t) (t_mag t) (t_strans t)))
  else if status =? SREF then
    p <- front (t_points t) ;;
    Ok (Some (GSref (t_sname t) p (t_angle t) (t_mag t) (t_strans t)))
  else if status =? AREF then
    Ok (Some (GAref (t_sname t) (t_columns t) (t_rows t) (t_sp0 t) (t_sp1 t) (t_points t) (t_angle t) (t_mag t) (t_strans t)))
  else Ok None.

(** EGdsFileIO.cpp:214-271 [ReadBeginEnd] *)
Definition read_begin_end (s : rstate) (rt : Z) : res rstate :=
  if (rt =? BOX) || (rt =? BOUNDARY) || (rt =? PATH) || (rt =? TEXT) || (rt =? SREF) || (rt =? AREF)
  then Ok (upd_status s rt)
  else if rt =? ENDEL then
    let db := add_layer (t_layer (s_temp s)) (s_db s) in
    o <- make_obj (s_status s) (s_temp s) ;;
    db' <- (match o with Some o => push_back_obj o db | None => Ok db end) ;;
    Ok (mkrstate BGNSTR temp0 db')
  else if rt =? ENDLIB then Ok (upd_status s UNKNOWN)
  else if rt =? ENDSTR then Ok (upd_status s BGNLIB)
  else Ok s.

Definition read_event (s : rstate) (e : event) : res rstate :=
  match e with
  | EvBits rt _ d | EvInt2 rt _ d | EvInt4 rt _ d => read_integer s rt d
  | EvReal4 rt _ d | EvReal8 rt _ d => read_float s rt d
  | EvString rt _ d => read_string s rt d
  | EvBeginEnd rt => read_begin_end s rt
  end.

Fixpoint read_events (s : rstate) (es : list event) : res rstate :=
  match es with
  | [] => Ok s
  | e :: es' => s' <- read_event s e ;; read_events s' es'
  end.

(** [EGdsReader::operator()] on the bytes of a file: the parser's calls are made one by one; when
    both would fail only the kind of failure depends on the interleaving. *)
Definition read_file (fuel : nat) (cap : Z) (input : list Z) : res (gdb * bool) :=
  r <- parse_stream fuel cap input ;;
  let '(evs, ok) := r in
  s <- read_events rinit evs ;;
  Ok (s_db s, ok).
