(** Monitored points of a thermal simulation: which element of a model each of them is attached to, and what the
    simulation returns for them.  Models src/model/thermal/utils/EPrismThermalModelQuery.cpp,
    src/model/thermal/utils/EStackupPrismThermalModelQuery.cpp, SearchElementIndices of the thermal models,
    src/simulation/thermal/EThermalSimulation.cpp and RunThermalSimulation of src/design/ELayoutView.cpp.

    The spatial index is boost's; a tree is the list of what was inserted and a query an oracle. *)
From Verif Require Import Base Prism_Model PrismNet_Model Units_Model Solver_Model.
From Coq Require Import QArith.
Close Scope Q_scope.
Open Scope nat_scope.
Open Scope res_scope.

Section Query.
  (** [key]: what an element is filed under, from its triangulation and triangle (3rdparty/generic): the centre in a
      prism model, the bounding box in a stack-up model.  [nearest]: the query for the one nearest entry;
      [covered]: whether a key matches the area of an area query. *)
  Context {K A : Type} (key : template -> nat -> K) (nearest : list (K * nat) -> Z * Z -> list (K * nat)).
  Context (select : A -> list (K * nat) -> list (K * nat)).
  Definition tree : Type := list (K * nat).

  (** EPrismThermalModelQuery.cpp 79-82, EStackupPrismThermalModelQuery.cpp 51-54: one turn of the loop *)
  Definition entry (m : pmodel) (t : template) (layer i : nat) : res (K * nat) :=
    p <- vat (m_prisms m) i ;;
    if i_lyr p =? layer then
      y <- vidx (m_layers m) layer ;;
      e <- vat (y_elems y) (i_ele p) ;;
      Ok (key t (e_tid e), i)
    else Throw.
  Fixpoint entries (m : pmodel) (t : template) (layer : nat) (is : list nat) : res tree :=
    match is with
    | [] => Ok []
    | i :: is' => a <- entry m t layer i ;; r <- entries m t layer is' ;; Ok (a :: r)
    end.
  (** EPrismThermalModelQuery.cpp 74-83, EStackupPrismThermalModelQuery.cpp 46-55 *)
  Definition layer_tree (m : pmodel) (layer : nat) : res tree :=
    t <- get_template (m_temps m) layer ;;
    b <- vat (m_offs m) layer ;;
    e <- vat (m_offs m) (layer + 1) ;;
    entries m t layer (seq b (e - b)).

  (** The cache of trees, EPrismThermalModelQuery.cpp 69-85, EStackupPrismThermalModelQuery.cpp 42-57; the whole
      function holds the mutex *)
  Definition cache : Type := list (nat * tree).
  Definition query_tree (m : pmodel) (c : cache) (layer : nat) : res (cache * tree) :=
    match alookup Nat.eqb layer c with
    | Some t => Ok (c, t)
    | None => t <- layer_tree m layer ;; Ok (aemplace Nat.eqb layer t c, t)
    end.

  (** The constructor without lazy building, EPrismThermalModelQuery.cpp 7-16 and EStackupPrismThermalModelQuery.cpp
      5-13: the layers are handed to a pool of threads; because of the mutex a run is some sequence of whole calls.
      An exception of a task stays in the pool. *)
  Fixpoint warm (m : pmodel) (c : cache) (schedule : list nat) : res cache :=
    match schedule with
    | [] => Ok c
    | l :: s =>
        match query_tree m c l with
        | Ok (c', _) => warm m c' s
        | Throw => warm m c s
        | UB => UB
        | OutOfFuel => OutOfFuel
        end
    end.

  (** BuildIndexTree, EPrismThermalModelQuery.cpp 52-67: every prism through the triangulation of layer 0 *)
  Fixpoint all_entries (m : pmodel) (t : template) (i : nat) (ps : list inst) : res tree :=
    match ps with
    | [] => Ok []
    | p :: ps' =>
        y <- vidx (m_layers m) (i_lyr p) ;;
        e <- vat (y_elems y) (i_ele p) ;;
        r <- all_entries m t (Datatypes.S i) ps' ;;
        Ok ((key t (e_tid e), i) :: r)
    end.
  Definition index_tree (m : pmodel) : res tree := t <- get_template (m_temps m) 0 ;; all_entries m t 0 (m_prisms m).

  (** SearchPrismInstances, EPrismThermalModelQuery.cpp 18-30: of the whole model, and of a layer *)
  Definition search_area (m : pmodel) (a : A) : res (list nat) := t <- index_tree m ;; Ok (map snd (select a t)).
  Definition search_layer (m : pmodel) (c : cache) (layer : nat) (a : A) : res (cache * list nat) :=
    r <- query_tree m c layer ;; Ok (fst r, map snd (select a (snd r))).

  (** EPrismThermalModel.cpp 207-219, EStackupPrismThermalModel.cpp 26-38; [strict] is that of NearestLayer.  The
      coordinates are converted to integers by dropping the fraction. *)
  Definition heights (m : pmodel) : list (Q * Q) := map (fun y => (y_elev y, y_thick y)) (m_layers m).
  Definition monitor : Type := Q * Q * Q.
  Definition find_one (strict : bool) (m : pmodel) (c : cache) (mon : monitor) : res (cache * nat) :=
    let '(x, y, z) := mon in
    l <- nearest_layer strict z (heights m) ;;
    if Qeq_bool (m_scale m) 0 then UB
    else
      px <- to_int64 (x / m_scale m) ;;
      py <- to_int64 (y / m_scale m) ;;
      r <- query_tree m c l ;;
      match nearest (snd r) (px, py) with
      | [] => UB
      | v :: _ => Ok (fst r, snd v)
      end.
  Fixpoint find_all (strict : bool) (m : pmodel) (c : cache) (mons : list monitor) : res (list nat) :=
    match mons with
    | [] => Ok []
    | mon :: mons' => a <- find_one strict m c mon ;; r <- find_all strict m (fst a) mons' ;; Ok (snd a :: r)
    end.
  Definition search_elements (strict : bool) (m : pmodel) (schedule : list nat) (mons : list monitor) : res (list nat) :=
    c <- warm m [] schedule ;; find_all strict m c mons.
End Query.
Arguments tree : clear implicits.
Arguments cache : clear implicits.

Section Simulation.
  (** The elements a model finds for the monitors ([stackup] tells the two prism models apart), the temperatures its
      static solve leaves ([None] if there is no network) and what its transient solve does with the probes. *)
  Context {G T : Type}.
  Inductive tmodel := MGrid (g : G) | MPrism (stackup : bool) (p : pmodel) | MOther.
  Inductive setup := SStatic | STransient.
  Context (find : bool -> pmodel -> list monitor -> res (list nat)).
  Context (field : tmodel -> res (option (list Q))) (transient : tmodel -> list nat -> res (option T)).

  (** EThermalModel.h 28: the version of a grid model leaves the indices of the solver settings as they are, empty *)
  Definition probes_of (m : tmodel) (mons : list monitor) : res (list nat) :=
    match m with MPrism s p => find s p mons | _ => Ok [] end.

  (** EThermalSimulation.cpp 26-56, 96-110, 129-143, 163-177.  [None] is the pair of invalid floats; [mkdir] tells
      whether the working directory can be made. *)
  Definition run_static (mkdir : bool) (m : option tmodel) (s : setup) (mons : list monitor) : res (option (Q * Q * list Q)) :=
    match m with
    | None => Throw
    | Some m =>
        if mkdir then
          match m with
          | MOther => Throw
          | _ => match s with
                 | STransient => Ok None
                 | SStatic => ps <- probes_of m mons ;; r <- field m ;; static_report r ps
                 end
          end
        else Throw
    end.
  (** 58-87, 112-123, 145-157, 179-191 *)
  Definition run_transient (mkdir : bool) (m : option tmodel) (s : setup) (mons : list monitor) : res (option T) :=
    match m with
    | None => Throw
    | Some m =>
        if mkdir then
          match m with
          | MOther => Throw
          | _ => match s with
                 | SStatic => Ok None
                 | STransient => ps <- probes_of m mons ;; transient m ps
                 end
          end
        else Throw
    end.

  (** ELayoutView.cpp 353-376; [extract] is None without extraction settings, else what ExtractThermalModel gives.
      The temperatures are cleared first, so an invalid result comes with none. *)
  Definition layout_static (mkdir : bool) (extract : option (res (option tmodel))) (mons : list monitor) : res (option (Q * Q) * list Q) :=
    match extract with
    | None => Ok (None, [])
    | Some x =>
        m <- x ;;
        match m with
        | None => Ok (None, [])
        | Some m =>
            r <- run_static mkdir (Some m) SStatic mons ;;
            match r with
            | None => Ok (None, [])
            | Some (mn, mx, ts) => Ok (Some (mn, mx), ts)
            end
        end
    end.
  Definition layout_transient (mkdir : bool) (extract : option (res (option tmodel))) (mons : list monitor) : res (option T) :=
    match extract with
    | None => Ok None
    | Some x =>
        m <- x ;;
        match m with
        | None => Ok None
        | Some m => run_transient mkdir (Some m) STransient mons
        end
    end.
End Simulation.
Arguments tmodel : clear implicits.
