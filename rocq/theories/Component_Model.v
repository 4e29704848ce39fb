(** Placed components: pins and boundary of an EComponent (src/design/EComponent.cpp), found through its
    component definition (src/design/EComponentDef.cpp, src/collection/EComponentDefPinCollection.cpp). *)
From Verif Require Import Base Transform_Model PadInst_Model.

(** EComponentDef.h: boundary (may be null) and the pins in order of creation *)
Record cdef := mkCDef { cd_boundary : option outline; cd_pins : list (string * pt) }.

(** EComponentDefPinCollection.cpp:38-52 – CreatePin appends, names are not compared *)
Definition create_pin (d : cdef) (n : string) (l : pt) : cdef := mkCDef (cd_boundary d) (cd_pins d ++ [(n, l)]).

(** EComponentDefPinCollection.cpp:54-61 *)
Fixpoint find_pin (ps : list (string * pt)) (n : string) : option pt :=
  match ps with
  | [] => None
  | (m, l) :: ps' => if String.eqb n m then Some l else find_pin ps' n
  end.

(** EComponent.h:57-63: definition (may be null), placement transform, flipped flag *)
Record comp := mkComp { c_def : option cdef; c_tr : transform; c_flipped : bool }.

Section Component.
  Context (cosQ sinQ : Q -> Q).

  (** EComponent.cpp:111-114 and 140-143 – the transform both calls build *)
  Definition comp_transform (c : comp) : transform :=
    let t := if c_flipped c then edit (fun d => mkTD (td_scale d) (td_rot d) MXY (td_off d)) t_new else t_new in
    append cosQ sinQ t (c_tr c).

  (** EComponent.cpp:107-119 *)
  Definition get_boundary (c : comp) : res (option outline) :=
    match c_def c with
    | None => UB
    | Some d =>
        match cd_boundary d with
        | None => Ok None
        | Some b => Ok (Some (move_outline (get_transform cosQ sinQ (comp_transform c)) b))
        end
    end.

  (** EComponent.cpp:136-146 – answer and the value of the output argument, which was [loc] *)
  Definition pin_location (c : comp) (n : string) (loc : pt) : res (bool * pt) :=
    match c_def c with
    | None => UB
    | Some d =>
        match find_pin (cd_pins d) n with
        | None => Ok (false, loc)
        | Some l => Ok (true, aff_apply (get_transform cosQ sinQ (comp_transform c)) l)
        end
    end.

  (** src/basic/protocol/Transformable.h:8-21, EComponent.cpp:121-124; [CRead] is any call that evaluates the
      matrix of the placement, e.g. EHierarchyObj.cpp:46-49 (printing) *)
  Inductive c_op := CSet (u : transform) | CAdd (u : transform) | CRead | CFlip (b : bool).

  Definition c_step (c : comp) (o : c_op) : comp :=
    match o with
    | CSet u => mkComp (c_def c) u (c_flipped c)
    | CAdd u => mkComp (c_def c) (append cosQ sinQ (c_tr c) u) (c_flipped c)
    | CRead => mkComp (c_def c) (read cosQ sinQ (c_tr c)) (c_flipped c)
    | CFlip b => mkComp (c_def c) (c_tr c) b
    end.
  Definition c_run (c : comp) (ops : list c_op) : comp := fold_left c_step ops c.

  (** EComponent.cpp:34-37 *)
  Definition c_new (d : option cdef) : comp := mkComp d t_new false.
End Component.
