(** Import of a KiCad board: src/extension/kicad/ECadExtKiCadHandler.cpp and EKiCadObjects.cpp.

    The input is the tree of the parsed file (KiCad_Model, with the values as strings).  Only what reaches the
    layout is modelled: the nets and the layers.  Segments, zones, vias, pads and drawings are extracted by the
    code and then dropped; of them only the outcome is modelled, whether extracting them goes through, throws or
    is undefined.
    std::stoi and the stream extraction operators are oracles. *)
From Verif Require Import Base QSum Net_Model Layers_Model Xfl_Model.
Open Scope res_scope.
Local Open Scope string_scope.
Local Open Scope list_scope.

Inductive ktree := KNode (value : string) (branches : list ktree).
Definition kvalue (t : ktree) : string := match t with KNode v _ => v end.
Definition kbranches (t : ktree) : list ktree := match t with KNode _ b => b end.

(** EKiCadObjects.h:82-99 *)
Inductive ktype := KUnknown | KSilk | KPaste | KMask | KConducting | KDielectric | KMixed.
Record klayer := { kl_id : Z; kl_type : ktype; kl_thick : Q; kl_mat : string }.
(** EKiCadObjects.h:182-190: the maps as lists without repeated keys *)
Record kdb := { k_layers : list (string * klayer); k_nets : list (Z * string) }.
Definition kdb_init : kdb := {| k_layers := []; k_nets := [] |}.

(** EKiCadObjects.cpp:48-63 *)
Definition set_type (s : string) (t : ktype) : ktype :=
  if String.eqb s "Top Silk Screen" || String.eqb s "Bottom Silk Screen" then KSilk
  else if String.eqb s "Top Solder Paste" || String.eqb s "Bottom Solder Paste" then KPaste
  else if String.eqb s "Top Solder Mask" || String.eqb s "Bottom Solder Mask" then KMask
  else if String.eqb s "copper" then KConducting
  else if String.eqb s "core" then KDielectric
  else if String.eqb s "mixed" then KMixed
  else t.

Fixpoint update {V} (k : string) (v : V) (m : list (string * V)) : list (string * V) :=
  match m with
  | [] => []
  | (k', v') :: m' => if String.eqb k k' then (k', v) :: m' else (k', v') :: update k v m'
  end.

(** Drawings.  ECadExtKiCadHandler.h:57-64, 78-81: [GetValue] of [n] variables reads the first [n] branches, past
    the end if there are fewer; so does [front] with one *)
Definition get_values (n : nat) (t : ktree) : res unit := if (List.length (kbranches t) <? n)%nat then UB else Ok tt.
Fixpoint each (f : ktree -> res unit) (ts : list ktree) : res unit :=
  match ts with [] => Ok tt | t :: ts' => _ <- f t ;; each f ts' end.
(** ECadExtKiCadHandler.cpp:306-317: [points.back()] of no points is undefined *)
Definition draw_points (t : ktree) : res unit :=
  _ <- each (get_values 2) (kbranches t) ;; match kbranches t with [] => UB | _ => Ok tt end.
(** 319-333 *)
Definition draw_stroke (t : ktree) : res unit :=
  each (fun s =>
    if String.eqb (kvalue s) "width" then get_values 1 s
    else if String.eqb (kvalue s) "type" then get_values 1 s
    else if String.eqb (kvalue s) "fill" then get_values 1 s
    else if String.eqb (kvalue s) "layer" then get_values 1 s
    else Ok tt) (kbranches t).
(** 136-154 *)
Definition draw_segment (t : ktree) : res unit :=
  each (fun s =>
    if String.eqb (kvalue s) "start" then get_values 2 s
    else if String.eqb (kvalue s) "end" then get_values 2 s
    else if String.eqb (kvalue s) "width" then get_values 1 s
    else if String.eqb (kvalue s) "net" then get_values 1 s
    else if String.eqb (kvalue s) "layer" then get_values 1 s
    else Ok tt) (kbranches t).
(** 166-177 *)
Definition draw_outline (t : ktree) : res unit :=
  each (fun s => if String.eqb (kvalue s) "pts" then draw_points s else Ok tt) (kbranches t).
(** 156-180 *)
Definition draw_zone (t : ktree) : res unit :=
  each (fun s =>
    if String.eqb (kvalue s) "net" then get_values 1 s
    else if String.eqb (kvalue s) "layer" then get_values 1 s
    else if String.eqb (kvalue s) "polygon" then draw_outline s
    else if String.eqb (kvalue s) "filled_polygon" then draw_outline s
    else Ok tt) (kbranches t).
(** 182-205; the two layers are read with [at] *)
Definition draw_via (t : ktree) : res unit :=
  each (fun s =>
    if String.eqb (kvalue s) "at" then get_values 2 s
    else if String.eqb (kvalue s) "size" then get_values 1 s
    else if String.eqb (kvalue s) "net" then get_values 1 s
    else if String.eqb (kvalue s) "layers" then (if (List.length (kbranches s) <? 2)%nat then Throw else Ok tt)
    else Ok tt) (kbranches t).
(** 207-219 *)
Definition draw_circle (t : ktree) : res unit :=
  each (fun s =>
    if String.eqb (kvalue s) "center" then get_values 2 s
    else if String.eqb (kvalue s) "end" then get_values 2 s
    else if String.eqb (kvalue s) "stroke" then draw_stroke s
    else Ok tt) (kbranches t).
(** 221-231 *)
Definition draw_poly (t : ktree) : res unit :=
  each (fun s =>
    if String.eqb (kvalue s) "pts" then draw_points s
    else if String.eqb (kvalue s) "stroke" then draw_stroke s
    else Ok tt) (kbranches t).
(** 233-241: by position; the fourth branch is not read *)
Definition get_at (i n : nat) (t : ktree) : res unit := match nth_error (kbranches t) i with Some s => get_values n s | None => Throw end.
Definition draw_arc (t : ktree) : res unit :=
  _ <- get_at 0 2 t ;; _ <- get_at 1 2 t ;; _ <- get_at 2 1 t ;; get_at 4 1 t.
(** 243-255 *)
Definition draw_line (t : ktree) : res unit :=
  each (fun s =>
    if String.eqb (kvalue s) "start" then get_values 2 s
    else if String.eqb (kvalue s) "end" then get_values 2 s
    else if String.eqb (kvalue s) "stroke" then draw_stroke s
    else Ok tt) (kbranches t).
(** 257-304: name, type and shape come first *)
Definition draw_pad (t : ktree) : res unit :=
  match kbranches t with
  | _ :: _ :: _ :: bs =>
      each (fun s =>
        if String.eqb (kvalue s) "at" then Ok tt
        else if String.eqb (kvalue s) "size" then get_values 2 s
        else if String.eqb (kvalue s) "layers" then Ok tt
        else if String.eqb (kvalue s) "roundrect_rratio" then get_values 1 s
        else if String.eqb (kvalue s) "net" then get_values 1 s
        else if String.eqb (kvalue s) "primitives" then
          each (fun p => if String.eqb (kvalue p) "gr_poly" then match kbranches p with [] => UB | q :: _ => draw_points q end else Ok tt) (kbranches s)
        else Ok tt) bs
  | _ => UB
  end.
(** 16-26: the table of the node kinds *)
Definition drawing (v : string) : option (ktree -> res unit) :=
  if String.eqb v "segment" then Some draw_segment
  else if String.eqb v "zone" then Some draw_zone
  else if String.eqb v "via" then Some draw_via
  else if String.eqb v "pad" then Some draw_pad
  else if String.eqb v "fp_arc" then Some draw_arc
  else if String.eqb v "gr_arc" then Some draw_arc
  else if String.eqb v "fp_line" then Some draw_line
  else if String.eqb v "gr_line" then Some draw_line
  else if String.eqb v "fp_poly" then Some draw_poly
  else if String.eqb v "fp_circle" then Some draw_circle
  else if String.eqb v "gr_circle" then Some draw_circle
  else None.

Section Extract.
  (** std::stoi ([None] throws); the extraction of a number, an index and a word, [None] when the variable read
      into keeps its value *)
  Context (stoi : string -> option Z) (num : string -> option Q) (idx : string -> Z) (word : string -> option string).

  (** ECadExtKiCadHandler.cpp:64-74, EKiCadObjects.cpp:74-78 (a name already there is kept); the id is a size_t *)
  Definition extract_layer (d : kdb) (t : ktree) : res kdb :=
    match stoi (kvalue t), kbranches t with
    | Some id, n :: _ :: _ =>
        Ok {| k_layers := aemplace String.eqb (kvalue n) {| kl_id := (id mod 2 ^ 64)%Z; kl_type := KUnknown; kl_thick := 0%Q; kl_mat := "" |} (k_layers d); k_nets := k_nets d |}
    | None, _ => Throw
    | Some _, _ => Throw
    end.
  Fixpoint extract_layers (d : kdb) (ts : list ktree) : res kdb :=
    match ts with [] => Ok d | t :: ts' => d' <- extract_layer d t ;; extract_layers d' ts' end.

  (** 88-98; reading the first branch of a node without branches is undefined *)
  Definition stack_entry (l : klayer) (t : ktree) : res klayer :=
    let v := kvalue t in
    let known := String.eqb v "type" || String.eqb v "thickness" || String.eqb v "material" || String.eqb v "epsilon_r" || String.eqb v "loss_tangent" in
    match kbranches t with
    | [] => if known then UB else Ok l
    | b :: _ =>
        Ok (if String.eqb v "type" then {| kl_id := kl_id l; kl_type := set_type (kvalue b) (kl_type l); kl_thick := kl_thick l; kl_mat := kl_mat l |}
            else if String.eqb v "thickness" then {| kl_id := kl_id l; kl_type := kl_type l; kl_thick := match num (kvalue b) with Some q => q | None => kl_thick l end; kl_mat := kl_mat l |}
            else if String.eqb v "material" then {| kl_id := kl_id l; kl_type := kl_type l; kl_thick := kl_thick l; kl_mat := match word (kvalue b) with Some w => w | None => kl_mat l end |}
            else l)
    end.
  Fixpoint stack_entries (l : klayer) (ts : list ktree) : res klayer :=
    match ts with [] => Ok l | t :: ts' => l' <- stack_entry l t ;; stack_entries l' ts' end.
  (** 82-103: entries of the stack-up whose name is no layer are passed over *)
  Fixpoint extract_stackup (d : kdb) (ts : list ktree) : res kdb :=
    match ts with
    | [] => Ok d
    | t :: ts' =>
        if String.eqb (kvalue t) "layer" then
          match kbranches t with
          | [] => UB
          | n :: es =>
              match alookup String.eqb (kvalue n) (k_layers d) with
              | Some l => l' <- stack_entries l es ;; extract_stackup {| k_layers := update (kvalue n) l' (k_layers d); k_nets := k_nets d |} ts'
              | None => extract_stackup d ts'
              end
          end
        else extract_stackup d ts'
    end.

  (** 106-112 and EKiCadObjects.cpp:80-85: the first name of an id stays *)
  Definition extract_net (d : kdb) (t : ktree) : res kdb :=
    match kbranches t with
    | i :: n :: _ => Ok {| k_layers := k_layers d; k_nets := aemplace Z.eqb (idx (kvalue i)) (kvalue n) (k_nets d) |}
    | _ => Throw
    end.

  (** 57-62, 76-80 and 114-134: inside a footprint, layer, at and pad are read in place *)
  Fixpoint extract_node (d : kdb) (t : ktree) : res kdb :=
    let fix all (d : kdb) (ts : list ktree) (footprint : bool) : res kdb :=
      match ts with
      | [] => Ok d
      | t :: ts' =>
          d' <- (if footprint && String.eqb (kvalue t) "layer" then _ <- get_values 1 t ;; Ok d
                 else if footprint && String.eqb (kvalue t) "at" then Ok d
                 else if footprint && String.eqb (kvalue t) "pad" then _ <- draw_pad t ;; Ok d
                 else extract_node d t) ;;
          all d' ts' footprint
      end in
    match t with
    | KNode v bs =>
        if String.eqb v "layers" then extract_layers d bs
        else if String.eqb v "setup" then all d bs false
        else if String.eqb v "stackup" then extract_stackup d bs
        else if String.eqb v "net" then extract_net d t
        else if String.eqb v "footprint" then match bs with [] => UB | _ :: bs' => all d bs' true end
        else match drawing v with Some draw => _ <- draw t ;; Ok d | None => Ok d end
    end.
  Fixpoint extract (d : kdb) (ts : list ktree) : res kdb :=
    match ts with [] => Ok d | t :: ts' => d' <- extract_node d t ;; extract d' ts' end.

  (** 351-374; [ls] are the layers in the order the map is walked in *)
  Definition layer_kept (l : string * klayer) : bool := (kl_id (snd l) <=? 32)%Z.
  Fixpoint create_layers (elev : Q) (ls : list (string * klayer)) : list stackup :=
    match ls with
    | [] => []
    | l :: ls' =>
        if layer_kept l
        then {| su_name := fst l; su_type := match kl_type (snd l) with KConducting => LConducting | _ => LDielectric end;
                su_elev := elev; su_thick := kl_thick (snd l);
                su_cond := if String.eqb (kl_mat (snd l)) "" then default_cond else kl_mat (snd l);
                su_diel := if String.eqb (kl_mat (snd l)) "" then default_diel else kl_mat (snd l) |}
             :: create_layers (elev - kl_thick (snd l))%Q ls'
        else create_layers elev ls'
    end.
  (** 376-387; [ns] are the nets in the order the map is walked in *)
  Definition create_nets (ns : list (Z * string)) : netcoll := fold_left (fun c n => fst (nc_create c (snd n))) ns nc_init.

  (** 29-39: the names of the open databases before and after, and the result *)
  Definition import_board (open_dbs : list string) (name : string) (parsed : option (list ktree))
    (walk_layers : list (string * klayer) -> list (string * klayer)) (walk_nets : list (Z * string) -> list (Z * string))
    : list string * res (option (layers * list stackup * netcoll)) :=
    if existsb (String.eqb name) open_dbs then (open_dbs, Ok None)
    else (open_dbs ++ [name],
          match parsed with
          | None => Ok None
          | Some ts =>
              d <- extract kdb_init ts ;;
              let us := create_layers 0%Q (walk_layers (k_layers d)) in
              Ok (Some (fst (append_layers ly_init (map (fun u => (su_name u, su_type u)) us)), us, create_nets (walk_nets (k_nets d))))
          end).
End Extract.
