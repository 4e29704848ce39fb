(** The settings classes as a Python program sees them.  Models the bindings of py.pybind11/PyEcadBasic.hpp to the classes of
    src/basic/ECadSettings.h, and statements of a Python program that use them.

    What pybind11 does is taken from its documentation, it is not in the repository: an attribute made by [def_readwrite] of a class
    type gives a reference into the object, of any other type (numbers, strings, enumerations, vectors, sets) a converted copy; a
    property whose getter is a lambda returning a value gives a copy; assignments copy; a name that is not bound raises an
    exception, and so does a value of a wrong type.  An object of a derived class assigned to a member of a base class, and numbers
    given for booleans, are left out (here: refused). *)
From Verif Require Import Base.
From Coq Require Import QArith.
Close Scope Q_scope.
Open Scope nat_scope.
Open Scope string_scope.
Open Scope list_scope.
Open Scope res_scope.

(** Numbers, booleans, strings and enumerators, and vectors, sets, pairs *)
Inductive lit := Num (q : Q) | Flag (b : bool) | Text (s : string) | Seq (l : list lit).
(** A C++ object with its class and data members, those of its base classes included *)
Inductive cobj := CVal (l : lit) | CObj (cls : string) (ms : list (string * cobj)).

Definition field (m : string) (o : cobj) : option cobj :=
  match o with CObj _ ms => alookup String.eqb m ms | CVal _ => None end.
Fixpoint put_member (m : string) (v : cobj) (ms : list (string * cobj)) : list (string * cobj) :=
  match ms with
  | [] => []
  | (k, w) :: ms' => if String.eqb m k then (k, v) :: ms' else (k, w) :: put_member m v ms'
  end.
Definition put_field (m : string) (v : cobj) (o : cobj) : cobj :=
  match o with CObj c ms => CObj c (put_member m v ms) | CVal l => CVal l end.
Fixpoint at_path (p : list string) (o : cobj) : option cobj :=
  match p with
  | [] => Some o
  | m :: p' => match field m o with Some o' => at_path p' o' | None => None end
  end.
Fixpoint put_path (p : list string) (v : cobj) (o : cobj) : cobj :=
  match p with
  | [] => v
  | m :: p' => match field m o with Some o' => put_field m (put_path p' v o') o | None => o end
  end.

(** ** The bindings, PyEcadBasic.hpp 190-195, 226-232 (points and boxes of floating point numbers; the others are
    alike) and 282-411 *)
Inductive kind := ByRef | ByCopy.
(** class, base class, attributes: Python name, C++ member, what reading it gives *)
Definition bindings : list (string * option string * list (string * string * kind)) :=
  [ ("FPoint2D", None, [("x", "x", ByCopy); ("y", "y", ByCopy)]);
    ("FBox2D", None, [("ll", "ll", ByCopy); ("ur", "ur", ByCopy)]);
    ("ETemperature", None, [("value", "value", ByCopy); ("unit", "unit", ByCopy)]);
    ("EMeshSettings", None, [("min_alpha", "minAlpha", ByCopy); ("min_len", "minLen", ByCopy); ("max_len", "maxLen", ByCopy);
       ("tolerance", "tolerance", ByCopy)]);
    ("ELayoutPolygonMergeSettings", None, [("threads", "threads", ByCopy); ("out_file", "outFile", ByCopy);
       ("mt_by_layer", "mtByLayer", ByCopy); ("include_padstack_inst", "includePadstackInst", ByCopy);
       ("include_dielectric_layer", "includeDielectricLayer", ByCopy);
       ("skip_top_bot_dielectric_layers", "skipTopBotDielectricLayers", ByCopy); ("select_nets", "selectNets", ByCopy)]);
    ("ELayerCutModelExtractionSettings", None, [("dump_sketch_img", "dumpSketchImg", ByCopy);
       ("layer_cut_precision", "layerCutPrecision", ByCopy); ("layer_transition_ratio", "layerTransitionRatio", ByCopy);
       ("add_circle_center_as_steiner_point", "addCircleCenterAsSteinerPoint", ByCopy); ("imprint_box", "imprintBox", ByCopy)]);
    ("EPrismMeshSettings", Some "EMeshSettings", [("iteration", "iteration", ByCopy); ("dump_mesh_file", "dumpMeshFile", ByCopy);
       ("gen_mesh_by_layer", "genMeshByLayer", ByCopy); ("imprint_upper_layer", "imprintUpperLayer", ByCopy)]);
    ("EThermalBoundaryCondition", None, [("type", "type", ByCopy); ("value", "value", ByCopy)]);
    ("EThermalModelExtractionSettings", None, [("force_rebuild", "forceRebuild", ByCopy); ("threads", "threads", ByCopy);
       ("work_dir", "workDir", ByCopy); ("top_uniform_bc", "topUniformBC", ByRef); ("bot_uniform_bc", "botUniformBC", ByRef);
       ("top_block_bc", "topBlockBC", ByCopy); ("bot_block_bc", "topBlockBC", ByCopy); ("env_temperature", "envTemperature", ByRef)]);
    ("EPrismThermalModelExtractionSettings", Some "EThermalModelExtractionSettings", [("mesh_settings", "meshSettings", ByRef);
       ("polygon_merge_settings", "polygonMergeSettings", ByRef); ("layer_cut_settings", "layerCutSettings", ByRef)]);
    ("EThermalSettings", None, [("dump_results", "dumpResults", ByCopy); ("threads", "threads", ByCopy);
       ("env_temperature", "envTemperature", ByRef)]);
    ("EThermalStaticSettings", Some "EThermalSettings", [("maximum_res", "maximumRes", ByCopy); ("dump_hotmaps", "dumpHotmaps", ByCopy);
       ("dump_matrices", "dumpMatrices", ByCopy); ("residual", "residual", ByCopy); ("iteration", "iteration", ByCopy);
       ("solver_type", "solverType", ByCopy)]);
    ("EThermalModelReductionSettings", None, [("order", "order", ByCopy); ("rom_load_file", "romLoadFile", ByCopy);
       ("rom_save_file", "romSaveFile", ByCopy)]);
    ("EThermalTransientSettings", Some "EThermalSettings", [("verbose", "verbose", ByCopy); ("adaptive", "adaptive", ByCopy);
       ("temperature_depend", "temperatureDepend", ByCopy); ("step", "step", ByCopy); ("duration", "duration", ByCopy);
       ("absolute_error", "absoluteError", ByCopy); ("relative_error", "relativeError", ByCopy);
       ("min_sampling_interval", "minSamplingInterval", ByCopy); ("sampling_window", "samplingWindow", ByCopy); ("mor", "mor", ByRef)]);
    ("EThermalSimulationSetup", None, [("work_dir", "workDir", ByCopy); ("monitors", "monitors", ByCopy)]);
    ("EThermalStaticSimulationSetup", Some "EThermalSimulationSetup", [("settings", "settings", ByRef)]);
    ("EThermalTransientSimulationSetup", Some "EThermalSimulationSetup", [("settings", "settings", ByRef)]) ].

Definition class_entry (c : string) : option (option string * list (string * string * kind)) :=
  alookup String.eqb c (map (fun e => (fst (fst e), (snd (fst e), snd e))) bindings).
(** Python looks a name up in the class, then in its base *)
Fixpoint find_attr (fuel : nat) (c a : string) : option (string * kind) :=
  match fuel with
  | 0 => None
  | S f =>
      match class_entry c with
      | None => None
      | Some (base, attrs) =>
          match alookup String.eqb a (map (fun e => (fst (fst e), (snd (fst e), snd e))) attrs) with
          | Some r => Some r
          | None => match base with Some b => find_attr f b a | None => None end
          end
      end
  end.
Definition attr (c a : string) : option (string * kind) := find_attr (List.length bindings) c a.

(** ** What the constructors make: the defaults of ECadSettings.h *)
Section Session.
  (** fs::CurrentPath(), invalidFloat, maxFloat *)
  Context (cwd : string) (invalid maxf : Q).

  Definition num (z : Z) : cobj := CVal (Num (inject_Z z)).
  Definition flag (b : bool) : cobj := CVal (Flag b).
  Definition text (s : string) : cobj := CVal (Text s).
  Definition none : cobj := CVal (Seq []).
  Definition point (x y : Q) : cobj := CObj "FPoint2D" [("x", CVal (Num x)); ("y", CVal (Num y))].
  Definition box (x1 y1 x2 y2 : Q) : cobj := CObj "FBox2D" [("ll", point x1 y1); ("ur", point x2 y2)].
  (** ECadUnits.h 113-118 *)
  Definition temperature (v : Q) (u : string) : cobj := CObj "ETemperature" [("value", CVal (Num v)); ("unit", text u)].
  (** ECadSettings.h 124-142, 157-174 *)
  Definition mesh_members : list (string * cobj) :=
    [("minAlpha", num 20); ("minLen", num 0); ("maxLen", CVal (Num maxf)); ("tolerance", num 0)].
  Definition prism_mesh : cobj :=
    CObj "EPrismMeshSettings" (mesh_members ++
      [("iteration", num 0); ("dumpMeshFile", flag false); ("genMeshByLayer", flag false); ("imprintUpperLayer", flag false)]).
  (** 31-60 *)
  Definition polygon_merge (threads : Z) (nets : list lit) : cobj :=
    CObj "ELayoutPolygonMergeSettings"
      [("threads", num threads); ("outFile", text ""); ("mtByLayer", flag true); ("includePadstackInst", flag true);
       ("includeDielectricLayer", flag true); ("skipTopBotDielectricLayers", flag false); ("selectNets", CVal (Seq nets))].
  (** 191-212 *)
  Definition layer_cut : cobj :=
    CObj "ELayerCutModelExtractionSettings"
      [("dumpSketchImg", flag true); ("layerCutPrecision", num 6); ("layerTransitionRatio", num 2);
       ("addCircleCenterAsSteinerPoint", flag false); ("imprintBox", none)].
  (** 228-246 *)
  Definition no_bc : cobj := CObj "EThermalBoundaryCondition" [("type", text "HTC"); ("value", CVal (Num invalid))].
  (** 259-290, 311-317, 358-375 *)
  Definition prism_settings (dir : string) (threads : Z) (nets : list lit) : cobj :=
    CObj "EPrismThermalModelExtractionSettings"
      [("forceRebuild", flag false); ("threads", num threads); ("workDir", text (if String.eqb dir "" then cwd else dir));
       ("topUniformBC", no_bc); ("botUniformBC", no_bc); ("topBlockBC", none); ("botBlockBC", none);
       ("envTemperature", temperature (inject_Z 25) "Celsius");
       ("meshSettings", prism_mesh); ("polygonMergeSettings", polygon_merge threads nets); ("layerCutSettings", layer_cut)].
  (** 437-466 *)
  Definition static_settings (threads : Z) : cobj :=
    CObj "EThermalStaticSettings"
      [("dumpResults", flag true); ("threads", num threads); ("envTemperature", temperature (inject_Z 25) "Celsius");
       ("maximumRes", flag true); ("dumpHotmaps", flag false); ("dumpMatrices", flag false); ("residual", CVal (Num (1 # 10)));
       ("iteration", num 10); ("solverType", text "ConjugateGradient")].
  (** 470-493 *)
  Definition transient_settings (threads : Z) : cobj :=
    CObj "EThermalTransientSettings"
      [("dumpResults", flag true); ("threads", num threads); ("envTemperature", temperature (inject_Z 25) "Celsius");
       ("verbose", flag false); ("adaptive", flag true); ("temperatureDepend", flag true); ("step", num 1); ("duration", num 10);
       ("absoluteError", CVal (Num (1 # 1000000))); ("relativeError", CVal (Num (1 # 1000000)));
       ("minSamplingInterval", num 0); ("samplingWindow", num 0);
       ("mor", CObj "EThermalModelReductionSettings" [("order", num 0); ("romLoadFile", text ""); ("romSaveFile", text "")])].
  (** 406-429, 461-466, 495-500; the working directory is set before the extraction settings are made *)
  Definition setup (cls : string) (settings : cobj) (dir : string) (threads : Z) (nets : list lit) : cobj :=
    let dir' := if String.eqb dir "" then cwd else dir in
    CObj cls [("workDir", text dir'); ("monitors", none); ("extractionSettings", prism_settings dir' threads nets);
              ("settings", settings)].

  (** The constructors bound, PyEcadBasic.hpp 192, 228, 283, 296, 304, 323, 349, 364, 380, 404, 409 *)
  Inductive ctor :=
  | NPoint (x y : Q) | NBox (x1 y1 x2 y2 : Q) | NTemperature (v : Q) (u : string) | NMesh | NPrismMesh
  | NMerge (threads : Z) (nets : list lit) | NPrism (dir : string) (threads : Z) (nets : list lit)
  | NStaticSettings (threads : Z) | NTransientSettings (threads : Z)
  | NStaticSetup (dir : string) (threads : Z) (nets : list lit) | NTransientSetup (dir : string) (threads : Z) (nets : list lit).
  Definition construct (c : ctor) : cobj :=
    match c with
    | NPoint x y => point x y
    | NBox a b c d => box a b c d
    | NTemperature v u => temperature v u
    | NMesh => CObj "EMeshSettings" mesh_members
    | NPrismMesh => prism_mesh
    | NMerge t n => polygon_merge t n
    | NPrism d t n => prism_settings d t n
    | NStaticSettings t => static_settings t
    | NTransientSettings t => transient_settings t
    | NStaticSetup d t n => setup "EThermalStaticSimulationSetup" (static_settings t) d t n
    | NTransientSetup d t n => setup "EThermalTransientSimulationSetup" (transient_settings t) d t n
    end.

  (** ** A Python program *)
  (** A reference into an object: which object, how often its extraction settings had been replaced when the reference was taken,
      and the members to go through.  A variable is [None] or such a reference. *)
  Record ref := Ref { r_root : nat; r_gen : nat; r_path : list string }.
  Inductive val := VNone | VRef (r : ref).
  (** objects with the number of times their extraction settings were replaced; variables in the order of their introduction *)
  Record state := mkS { s_objs : list (nat * cobj); s_vars : list val }.
  Definition init : state := mkS [] [].

  Definition through_extraction (p : list string) : bool :=
    match p with m :: _ => String.eqb m "extractionSettings" | [] => false end.
  (** reading through a reference; the object a reference of an earlier extraction setting points to is deleted *)
  Definition deref (s : state) (r : ref) : res cobj :=
    match nth_error (s_objs s) (r_root r) with
    | None => Throw
    | Some (g, o) =>
        if through_extraction (r_path r) && negb (Nat.eqb (r_gen r) g) then UB
        else match at_path (r_path r) o with Some v => Ok v | None => Throw end
    end.
  Definition variable (s : state) (x : nat) : res val :=
    match nth_error (s_vars s) x with Some v => Ok v | None => Throw end.
  (** the object a variable stands for; None has no attributes *)
  Definition object (s : state) (x : nat) : res (ref * cobj) :=
    v <- variable s x ;; match v with VNone => Throw | VRef r => o <- deref s r ;; Ok (r, o) end.
  Definition update {A} (n : nat) (f : A -> A) (l : list A) : list A :=
    match nth_error l n with Some a => firstn n l ++ f a :: skipn (n + 1) l | None => l end.
  Definition store (s : state) (r : ref) (v : cobj) : state :=
    mkS (update (r_root r) (fun e => (fst e, put_path (r_path r) v (snd e))) (s_objs s)) (s_vars s).
  Definition push (s : state) (v : val) : state := mkS (s_objs s) (s_vars s ++ [v]).
  (** a new object and a variable for it *)
  Definition fresh (s : state) (o : cobj) : state :=
    mkS (s_objs s ++ [(0, o)]) (s_vars s ++ [VRef (Ref (List.length (s_objs s)) 0 [])]).

  Definition class_of (o : cobj) : string := match o with CObj c _ => c | CVal _ => "" end.
  (** whether a value can be assigned where [old] stands *)
  Definition fits (old v : cobj) : bool :=
    match old, v with
    | CVal (Num _), CVal (Num _) | CVal (Flag _), CVal (Flag _) | CVal (Text _), CVal (Text _) | CVal (Seq _), CVal (Seq _) => true
    | CObj c _, CObj c' _ => String.eqb c c'
    | _, _ => false
    end.
  Definition is_setup (o : cobj) : bool :=
    String.eqb (class_of o) "EThermalStaticSimulationSetup" || String.eqb (class_of o) "EThermalTransientSimulationSetup".
  Definition is_prism (o : cobj) : bool := String.eqb (class_of o) "EPrismThermalModelExtractionSettings".

  (** vector::emplace_back on a member *)
  Definition append (m : string) (v : lit) (o : cobj) : cobj :=
    match field m o with Some (CVal (Seq l)) => put_field m (CVal (Seq (l ++ [v]))) o | _ => o end.
  (** EPrismThermalModelExtractionSettings::AddBlockBC, ECadSettings.h 292-298, 384-388; there are two orientations in Python *)
  Definition add_block (top : bool) (block bc : lit) (o : cobj) : cobj :=
    let o1 := append (if top then "topBlockBC" else "botBlockBC") (Seq [block; bc]) o in
    match field "layerCutSettings" o1 with
    | Some c => put_field "layerCutSettings" (append "imprintBox" block c) o1
    | None => o1
    end.

  Inductive arg := ALit (l : lit) | AVar (x : nat).
  Inductive stmt :=
  | New (c : ctor)                                   (* y = Class(...) *)
  | Get (x : nat) (a : string)                       (* y = x.a *)
  | Set_ (x : nat) (a : string) (e : arg)            (* x.a = e *)
  | Append (x : nat) (l : lit)                       (* x.append(l) *)
  | AddBlock (x : nat) (top : bool) (block bc : lit) (* x.add_block_bc(...) *)
  | Extract (x : nat) (y : option nat)               (* x.set_extraction_settings(y), or of None *)
  | GetPrism (x : nat)                               (* y = x.get_prism_thermal_model_extraction_settings() *)
  | GetGrid (x : nat).                               (* y = x.get_grid_thermal_model_extraction_settings() *)

  Definition arg_value (s : state) (e : arg) : res cobj :=
    match e with ALit l => Ok (CVal l) | AVar y => p <- object s y ;; Ok (snd p) end.

  (** a statement; the methods are PyEcadBasic.hpp 353 (add_block_bc), 396-398 (set_extraction_settings, which clones its
      argument) and 399-400 *)
  Definition step (s : state) (t : stmt) : res state :=
    match t with
    | New c => Ok (fresh s (construct c))
    | Get x a =>
        p <- object s x ;;
        match attr (class_of (snd p)) a with
        | None => Throw
        | Some (m, k) =>
            match field m (snd p) with
            | None => Throw
            | Some v =>
                match k with
                | ByRef => Ok (push s (VRef (Ref (r_root (fst p)) (r_gen (fst p)) (r_path (fst p) ++ [m]))))
                | ByCopy => Ok (fresh s v)
                end
            end
        end
    | Set_ x a e =>
        p <- object s x ;;
        match attr (class_of (snd p)) a with
        | None => Throw
        | Some (m, _) =>
            match field m (snd p) with
            | None => Throw
            | Some old => v <- arg_value s e ;; if fits old v then Ok (store s (fst p) (put_field m v (snd p))) else Throw
            end
        end
    | Append x l =>
        p <- object s x ;;
        match snd p with
        | CVal (Seq ls) => Ok (store s (fst p) (CVal (Seq (ls ++ [l]))))
        | _ => Throw
        end
    | AddBlock x top block bc =>
        p <- object s x ;;
        if is_prism (snd p) then Ok (store s (fst p) (add_block top block bc (snd p))) else Throw
    | Extract x y =>
        p <- object s x ;;
        if is_setup (snd p) then
          match y with
          | None => UB
          | Some y =>
              v <- variable s y ;;
              match v with
              | VNone => UB
              | VRef _ =>
                  q <- object s y ;;
                  if is_prism (snd q) then
                    let s' := store s (fst p) (put_field "extractionSettings" (snd q) (snd p)) in
                    Ok (mkS (update (r_root (fst p)) (fun e => (S (fst e), snd e)) (s_objs s')) (s_vars s'))
                  else Throw
              end
          end
        else Throw
    | GetPrism x =>
        p <- object s x ;;
        if is_setup (snd p) then
          match field "extractionSettings" (snd p), nth_error (s_objs s) (r_root (fst p)) with
          | Some e, Some (g, _) =>
              Ok (push s (if is_prism e then VRef (Ref (r_root (fst p)) g (r_path (fst p) ++ ["extractionSettings"])) else VNone))
          | _, _ => Throw
          end
        else Throw
    | GetGrid x =>
        (** a pointer to grid settings has no Python class and raises an exception *)
        p <- object s x ;;
        if is_setup (snd p) then
          match field "extractionSettings" (snd p) with
          | Some e => if String.eqb (class_of e) "EGridThermalModelExtractionSettings" then Throw else Ok (push s VNone)
          | None => Throw
          end
        else Throw
    end.
  Fixpoint run (s : state) (ts : list stmt) : res state :=
    match ts with
    | [] => Ok s
    | t :: ts' => s' <- step s t ;; run s' ts'
    end.
End Session.

(** Coord2Point2D, PyEcadBasic.hpp 39-46: coord_to_point2d and coord_to_fpoint2d *)
Fixpoint point_loop {A} (coords : list A) (i n : nat) : res (list (A * A)) :=
  match n with
  | 0 => Ok []
  | S n' =>
      match nth_error coords (i * 2), nth_error coords (i * 2 + 1) with
      | Some x, Some y => ps <- point_loop coords (i + 1) n' ;; Ok ((x, y) :: ps)
      | _, _ => UB
      end
  end.
Definition coord_to_points {A} (coords : list A) : res (list (A * A)) := point_loop coords 0 (List.length coords / 2).
