(** What a GDSII library contains, read off its records without any state machine. *)
From Verif Require Import Base Gds_Model Gds_Spec GdsReader_Model.
Local Open Scope Z_scope.

(** The integers, reals and text carried by a record of type [t]. *)
Definition ints (t : Z) (r : grec) : list Z :=
  if g_type r =? t then match g_body r with CBits vs | CInt2 vs | CInt4 vs => vs | _ => [] end else [].
Definition reals (t : Z) (r : grec) : list real8 :=
  if g_type r =? t then match g_body r with CReal8 rs => rs | _ => [] end else [].
Definition texts (t : Z) (r : grec) : option gstr :=
  if g_type r =? t then match g_body r with CString cs => Some (text_of cs) | _ => None end else None.

(** The value of an attribute of an element: the one of its last record, or the default. *)
Definition last_int (t : Z) (body : list grec) (d : Z) : Z :=
  fold_left (fun a r => hd a (ints t r)) body d.
Definition last_int2 (t : Z) (body : list grec) (d : Z) : Z :=
  fold_left (fun a r => nth 1 (ints t r) a) body d.
Definition last_real (t : Z) (body : list grec) (d : dbl) : dbl :=
  fold_left (fun a r => hd a (map real8_double (reals t r))) body d.
Definition last_text (t : Z) (body : list grec) (d : gstr) : gstr :=
  fold_left (fun a r => match texts t r with Some s => s | None => a end) body d.

Fixpoint points_of (l : list Z) : list gpt :=
  match l with
  | x :: y :: l' => (x, y) :: points_of l'
  | _ => []
  end.
(** All points of the XY records, in order. *)
Definition all_points (body : list grec) : list gpt := flat_map (fun r => points_of (ints XY r)) body.

(** An element: its kind and the records between its begin and its ENDEL. *)
Record element := mkel { el_kind : Z; el_body : list grec }.

Definition NODE : Z := 21.
Definition TEXTNODE : Z := 20.

(** Without an ANGLE record an element is not turned, without a MAG record it keeps its size. *)
Definition no_turn : dbl := mkdbl false 0 0.
Definition same_size : dbl := mkdbl false 1 0.

(** The object an element stands for; nodes stand for none. *)
Definition element_obj (e : element) : list gobj :=
  let b := el_body e in
  let layer := last_int LAYER b (-1) in
  let dt := last_int DATATYPE b (-1) in
  let width := last_int WIDTH b 0 in
  let angle := last_real ANGLE b no_turn in
  let mag := last_real MAG b same_size in
  let strans := last_int STRANS b (-1) in
  let pts := all_points b in
  if (el_kind e =? BOX) || (el_kind e =? BOUNDARY) then [GPolygon layer dt pts]
  else if el_kind e =? PATH then [GPath layer dt (last_int PATHTYPE b (-1)) width pts]
  else if el_kind e =? TEXT then
    [GText layer dt (last_int TEXTTYPE b (-1)) (last_text STRING b []) (hd (0, 0) pts) width
           (last_int PRESENTATION b (-1)) angle mag strans]
  else if el_kind e =? SREF then [GSref (last_text SNAME b []) (hd (0, 0) pts) angle mag strans]
  else if el_kind e =? AREF then
    [GAref (last_text SNAME b []) (last_int COLROW b 0) (last_int2 COLROW b 0) 0 0 pts angle mag strans]
  else [].

(** Records that may stand inside an element. *)
Definition control_records :=
  [HEADER; BGNLIB; LIBNAME; UNITS; ENDLIB; BGNSTR; STRNAME; ENDSTR; BOUNDARY; PATH; SREF; AREF; TEXT;
   ENDEL; TEXTNODE; NODE; BOX].
Definition one_value := [LAYER; DATATYPE; PATHTYPE; TEXTTYPE; WIDTH; STRANS; PRESENTATION].
Definition attribute_ok (r : grec) : Prop :=
  rec_ok r /\ ~ In (g_type r) control_records /\
  (In (g_type r) one_value -> ints (g_type r) r <> []) /\
  (In (g_type r) [ANGLE; MAG] -> reals (g_type r) r <> []) /\
  (g_type r = COLROW -> (2 <= List.length (ints COLROW r))%nat) /\
  (g_type r = XY -> exists h, List.length (ints XY r) = (2 * h)%nat).

Definition element_ok (e : element) : Prop :=
  In (el_kind e) [BOX; BOUNDARY; PATH; TEXT; SREF; AREF; NODE; TEXTNODE] /\
  Forall attribute_ok (el_body e) /\
  (In (el_kind e) [TEXT; SREF] -> all_points (el_body e) <> []).

Definition begin_rec (t : Z) : grec := mkgrec t 0 CNothing.
Definition element_recs (e : element) : list grec := begin_rec (el_kind e) :: el_body e ++ [begin_rec ENDEL].

(** A structure and a library. *)
Record struct := mkstruct { st_name : list Z; st_els : list element }.
Record glib := mkglib { lib_version : Z; lib_name : list Z; lib_unit : real8; lib_prec : real8; lib_structs : list struct }.

Definition struct_recs (s : struct) : list grec :=
  mkgrec BGNSTR 2 (CInt2 (repeat 0 12)) :: mkgrec STRNAME 6 (CString (st_name s)) ::
  flat_map element_recs (st_els s) ++ [begin_rec ENDSTR].

Definition lib_recs (l : glib) : list grec :=
  mkgrec HEADER 2 (CInt2 [lib_version l]) :: mkgrec BGNLIB 2 (CInt2 (repeat 0 12)) ::
  mkgrec LIBNAME 6 (CString (lib_name l)) :: mkgrec UNITS 5 (CReal8 [lib_unit l; lib_prec l]) ::
  flat_map struct_recs (lib_structs l) ++ [begin_rec ENDLIB].

Definition struct_cell (s : struct) : gcell :=
  mkcell (text_of (st_name s)) (flat_map element_obj (st_els s)).

Definition lib_ok (l : glib) : Prop :=
  Forall rec_ok (lib_recs l) /\
  Forall (fun s => Forall element_ok (st_els s)) (lib_structs l) /\
  NoDup (map (fun s => text_of (st_name s)) (lib_structs l)).
