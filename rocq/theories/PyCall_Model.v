(** Calls of the data manager from Python, py.pybind11/PyEcad.cpp 5-120.

    How a call chooses among the functions bound to a name is that of pybind11 (its documentation, not in the repository): the
    arguments must be as many as the parameters and each be accepted by its parameter; if a name has more than one function they are
    tried in the order of their definition, first without conversions, then with them; a name with one function is tried with
    conversions.  If none accepts, TypeError is raised.  A function called on an instance gets the instance as its first argument. *)
From Verif Require Import Base.
From Coq Require Import QArith.
Close Scope Q_scope.
Open Scope nat_scope.
Open Scope string_scope.
Open Scope list_scope.
Open Scope res_scope.

Inductive ty := TStr | TFloat | TInt | TBool | TEnum (c : string) | TPtr (c : string) | TRef (c : string) | TList (t : ty).
Inductive pv := PStr (s : string) | PFloat (q : Q) | PInt (z : Z) | PBool (b : bool) | PEnum (c : string) (z : Z) | PObj (c : string) (id : nat)
              | PNone | PList (l : list pv).

(** [conv]: with conversions.  None is a null pointer.  Objects of derived classes are not told apart here. *)
Fixpoint accepts (conv : bool) (t : ty) (v : pv) : bool :=
  match t, v with
  | TStr, PStr _ => true
  | TFloat, PFloat _ => true
  | TFloat, PInt _ | TFloat, PBool _ => conv
  | TInt, PInt z => (0 <=? z)%Z
  | TInt, PBool _ => true
  | TBool, PBool _ => true
  | TBool, PInt _ | TBool, PFloat _ | TBool, PNone => conv
  | TEnum c, PEnum c' _ => String.eqb c c'
  | TPtr c, PObj c' _ | TRef c, PObj c' _ => String.eqb c c'
  | TPtr _, PNone => true
  | TList t', PList l => forallb (accepts conv t') l
  | _, _ => false
  end.
Fixpoint accepts_all (conv : bool) (ts : list ty) (vs : list pv) : bool :=
  match ts, vs with
  | [], [] => true
  | t :: ts', v :: vs' => accepts conv t v && accepts_all conv ts' vs'
  | _, _ => false
  end.

(** Parameters and result of the functions bound, PyEcad.cpp 10-117; [ret] tells whether the function hands the result of the data
    manager on *)
Record fn := mkF { f_params : list ty; f_ret : bool }.
Definition methods : list (string * list fn) :=
  let db := TPtr "IDatabase" in let layout := TPtr "ILayoutView" in let units := TRef "ECoordUnits" in
  let pt := TRef "FPoint2D" in let layer := TEnum "ELayerId" in let net := TEnum "ENetId" in
  [ ("init", [mkF [TEnum "ELogLevel"; TStr] true; mkF [TEnum "ELogLevel"] true; mkF [] true]);
    ("create_database", [mkF [TStr] true]); ("open_database", [mkF [TStr] true]); ("remove_database", [mkF [TStr] true]);
    ("shut_down", [mkF [TBool] true; mkF [] true]);
    ("save_database", [mkF [db; TStr; TEnum "EArchiveFormat"] false; mkF [db; TStr] false]);
    ("load_database", [mkF [TStr; TEnum "EArchiveFormat"] true; mkF [TStr] true]);
    ("create_circuit_cell", [mkF [db; TStr] true]); ("create_net", [mkF [layout; TStr] true]);
    ("create_stackup_layer", [mkF [TStr; TEnum "ELayerType"; TFloat; TFloat; TStr; TStr] true]);
    ("create_layer_map", [mkF [db; TStr] true]); ("create_material_def", [mkF [db; TStr] true]);
    ("create_simple_material_prop", [mkF [TFloat] true]); ("create_polynomial_material_prop", [mkF [TList (TList TFloat)] true]);
    ("create_component_def", [mkF [db; TStr] true]); ("find_component_def_by_name", [mkF [db; TStr] true]);
    ("create_component_def_pin", [mkF [TPtr "IComponentDef"; TStr; pt; TEnum "EPinIOType"; TPtr "IPadstackDef"; layer] true;
       mkF [TPtr "IComponentDef"; TStr; pt; TEnum "EPinIOType"] true]);
    ("create_component", [mkF [layout; TStr; TPtr "IComponentDef"; layer; TRef "ETransform2D"; TBool] true]);
    ("create_bondwire", [mkF [layout; TStr; net; TFloat] true]);
    ("create_padstack_def", [mkF [db; TStr] true]); ("create_padstack_def_data", [mkF [] true]);
    ("create_cell_inst", [mkF [layout; TStr; layout; TRef "ETransform2D"] true]);
    ("create_geometry_2d", [mkF [layout; layer; net; TPtr "EShape"] true]);
    ("create_shape_rectangle", [mkF [units; pt; pt] true]); ("create_shape_circle", [mkF [units; pt; TFloat] true]);
    ("create_shape_path", [mkF [units; TList pt; TFloat] true]);
    ("create_shape_polygon", [mkF [units; TList pt; TFloat] true; mkF [units; TList TFloat; TFloat] true]);
    ("create_shape_polygon_with_holes", [mkF [TRef "EPolygonWithHolesData"] true]); ("create_box", [mkF [units; pt; pt] true]);
    ("create_transform_2d", [mkF [units; TFloat; TFloat; pt; TEnum "EMirror2D"] true]);
    ("hier_sep", [mkF [] true]); ("set_threads", [mkF [TInt] true]); ("threads", [mkF [] true]) ].

Fixpoint first_match (conv : bool) (k : nat) (fs : list fn) (args : list pv) : option (nat * fn) :=
  match fs with
  | [] => None
  | f :: fs' => if accepts_all conv (f_params f) args then Some (k, f) else first_match conv (k + 1) fs' args
  end.
Definition choose (fs : list fn) (args : list pv) : option (nat * fn) :=
  match fs with
  | [_] => first_match true 0 fs args
  | _ => match first_match false 0 fs args with Some r => Some r | None => first_match true 0 fs args end
  end.

Section Call.
  (** what the data manager gives for a function, of those with one name, with its arguments *)
  Context (manager : string -> fn -> list pv -> res pv).

  (** PyEcad.cpp 95-96: the shape is followed to clone it; everything else is handed on *)
  Definition invoke (name : string) (f : fn) (args : list pv) : res pv :=
    if String.eqb name "create_geometry_2d" then
      match nth_error args 3 with
      | Some PNone => UB
      | _ => manager name f args
      end
    else r <- manager name f args ;; Ok (if f_ret f then r else PNone).
  (** DataMgr.name(args) *)
  Definition call (name : string) (args : list pv) : res pv :=
    match alookup String.eqb name methods with
    | None => Throw
    | Some fs => match choose fs args with Some (_, f) => invoke name f args | None => Throw end
    end.
  (** DataMgr().name(args): PyEcad.cpp 9, 5-6 make the one instance *)
  Definition call_on_instance (id : nat) (name : string) (args : list pv) : res pv := call name (PObj "EDataMgr" id :: args).
End Call.
