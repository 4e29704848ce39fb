(** Objects of a design as a Python program holds them: handles are plain pointers (return_value_policy::reference in
    py.pybind11/PyEcad.cpp 15-70 and PyEcadDesign.hpp 6-70), the objects belong to the databases of the data manager and
    are deleted with them.

    Objects are numbered in the order of their creation and numbers are not used again.  A cell and its layout are one
    object, they live and die together (src/design/ECell.cpp 99-108); nets, layers, primitives and padstacks, which behave
    like components without a definition, are left out. *)
From Verif Require Import Base.
Open Scope nat_scope.
Open Scope string_scope.
Open Scope list_scope.
Open Scope res_scope.

Inductive kind := KDb | KCell | KDef | KMap | KComp | KInst.
Definition kind_eqb (a b : kind) : bool :=
  match a, b with
  | KDb, KDb | KCell, KCell | KDef, KDef | KMap, KMap | KComp, KComp | KInst, KInst => true
  | _, _ => false
  end.
Definition key_eqb (a b : kind * string) : bool := kind_eqb (fst a) (fst b) && String.eqb (snd a) (snd b).

(** An object: what owns it, what it owns (the collections of a database, src/design/EDatabase.h, and of a layout,
    src/design/ELayoutView.h, by kind and name) and what it only points to (the definition of a component, the layout an
    instance stands for, the layer map of an instance); for a component definition its boundary. *)
Record obj := mkO {
  o_kind : kind; o_name : string; o_owner : option nat; o_kids : list ((kind * string) * nat);
  o_ref : option nat; o_map : option nat; o_bound : option Z }.
Definition heap := list (option obj).

Definition get (h : heap) (i : nat) : option obj := match nth_error h i with Some r => r | None => None end.
Fixpoint put (h : heap) (i : nat) (o : option obj) : heap :=
  match h, i with
  | [], _ => []
  | _ :: h', 0 => o :: h'
  | a :: h', S i' => a :: put h' i' o
  end.
Definition set (h : heap) (i : nat) (o : obj) : heap := put h i (Some o).
Definition kill (h : heap) (l : list nat) : heap := fold_left (fun h i => put h i None) l h.

Definition with_kids (o : obj) ks := mkO (o_kind o) (o_name o) (o_owner o) ks (o_ref o) (o_map o) (o_bound o).
Definition with_map (o : obj) m := mkO (o_kind o) (o_name o) (o_owner o) (o_kids o) (o_ref o) m (o_bound o).
Definition with_bound (o : obj) b := mkO (o_kind o) (o_name o) (o_owner o) (o_kids o) (o_ref o) (o_map o) b.

(** A new object in a collection of [p]: it is appended, the caller has looked the name up *)
Definition add (h : heap) (p : nat) (k : kind) (n : string) (ref : option nat) : heap :=
  match get h p with
  | Some o => set h p (with_kids o (o_kids o ++ [((k, n), List.length h)])) ++ [Some (mkO k n (Some p) [] ref None None)]
  | None => h
  end.
Definition find_kid (o : obj) (k : kind) (n : string) : option nat := alookup key_eqb (k, n) (o_kids o).

(** what is deleted with a database: its definitions and cells, and what the layouts of these own *)
Definition kids (h : heap) (i : nat) : list nat := match get h i with Some o => map snd (o_kids o) | None => [] end.
Definition doomed (h : heap) (d : nat) : list nat := d :: flat_map (fun c => c :: kids h c) (kids h d).

(** ** Flattening *)
Section Program.
  (** the name of a merged object and the name taken instead of a used one (src/utility/ELayoutMergeUtility.cpp 17-18,
      src/basic/ECollection.h 113-124) *)
  Context (prefixed : string -> string -> string) (unused : list (kind * string) -> string -> string).

  (** ELayoutMergeUtility.cpp 47-55 with src/collection/EComponentCollection.cpp 39-48: a clone of a component, placed through
      the layer map of the instance.  The clone points to the same definition. *)
  Definition clone_component (inst : obj) (c : nat) (h : heap) (k : nat) : res heap :=
    match get h k, get h c with
    | Some comp, Some cell =>
        u <- match o_map inst with
             | Some m => match get h m with None => UB | Some _ => Ok tt end
             | None => Ok tt
             end ;;
        let n := unused (map fst (o_kids cell)) (prefixed (o_name inst) (o_name comp)) in
        Ok (match find_kid cell KComp n with Some _ => h | None => add h c KComp n (o_ref comp) end)
    | _, _ => UB
    end.
  Definition of_kind (k : kind) (l : list ((kind * string) * nat)) : list nat :=
    map snd (filter (fun e => kind_eqb (fst (fst e)) k) l).
  (** src/design/ELayoutView.cpp 376-385, src/design/ECell.cpp 133-137, src/design/ECellInst.cpp 69-72 and
      ELayoutMergeUtility.cpp 8-12: the layout an instance stands for is flattened, its components are merged, and in the end
      the instances are deleted *)
  Fixpoint flatten (fuel : nat) (h : heap) (c : nat) : res heap :=
    match fuel with
    | 0 => OutOfFuel
    | S f =>
        match get h c with
        | None => UB
        | Some cell =>
            h1 <- fold_left (fun r i =>
                    h <- r ;;
                    match get h i with
                    | None => UB
                    | Some inst =>
                        match o_ref inst with
                        | None => UB
                        | Some d =>
                            h' <- flatten f h d ;;
                            if Nat.eqb c d then Ok h'
                            else match get h' d with
                                 | None => UB
                                 | Some def => fold_left (fun r k => h <- r ;; clone_component inst c h k) (of_kind KComp (o_kids def)) (Ok h')
                                 end
                        end
                    end) (of_kind KInst (o_kids cell)) (Ok h) ;;
            match get h1 c with
            | None => UB
            | Some cell1 =>
                Ok (set (kill h1 (of_kind KInst (o_kids cell1))) c
                        (with_kids cell1 (filter (fun e => negb (kind_eqb (fst (fst e)) KInst)) (o_kids cell1))))
            end
        end
    end.

  (** ** Programs *)
  (** the Python classes of handles; a cell and its layout are different Python objects *)
  Inductive pyclass := PDb | PCell | PLayout | PDef | PMap | PComp | PInst.
  Inductive val := VNone | VObj (c : pyclass) (i : nat) | VText (s : string) | VShape (z : Z) | VBool (b : bool).
  Record state := mkS { s_heap : heap; s_reg : list (string * nat); s_vars : list val }.
  Definition init : state := mkS [] [] [].

  (** what a variable holds, for a parameter of a class: Python refuses other classes, and None where it is used as [self] *)
  Definition pyclass_eqb (a b : pyclass) : bool :=
    match a, b with
    | PDb, PDb | PCell, PCell | PLayout, PLayout | PDef, PDef | PMap, PMap | PComp, PComp | PInst, PInst => true
    | _, _ => false
    end.
  Definition pointer (s : state) (c : pyclass) (x : nat) : res (option nat) :=
    match nth_error (s_vars s) x with
    | Some VNone => Ok None
    | Some (VObj c' i) => if pyclass_eqb c c' then Ok (Some i) else Throw
    | _ => Throw
    end.
  Definition self (s : state) (c : pyclass) (x : nat) : res nat :=
    p <- pointer s c x ;; match p with Some i => Ok i | None => Throw end.
  (** using the object *)
  Definition use (s : state) (i : nat) : res obj := match get (s_heap s) i with Some o => Ok o | None => UB end.

  Definition ret (s : state) (v : val) : res state := Ok (mkS (s_heap s) (s_reg s) (s_vars s ++ [v])).
  Definition retH (s : state) (h : heap) (v : val) : res state := Ok (mkS h (s_reg s) (s_vars s ++ [v])).
  Definition maybe (c : pyclass) (p : option nat) : val := match p with Some i => VObj c i | None => VNone end.

  Inductive stmt :=
  | CreateDb (n : string) | OpenDb (n : string) | RemoveDb (n : string) | ShutDown
  | CreateIn (c : pyclass) (x : nat) (n : string)      (* create_circuit_cell, create_component_def, create_layer_map *)
  | FindIn (c : pyclass) (x : nat) (n : string)        (* find_cell_by_name, find_component_def_by_name *)
  | GetLayout (x : nat) | GetFlattened (x : nat) | Flatten (x : nat) | GetDatabase (x : nat) | GetName (c : pyclass) (x : nat)
  | SetBoundary (x : nat) (z : Z)                       (* of a component definition *)
  | CreateComponent (x : nat) (n : string) (y : nat) | FindComponent (x : nat) (n : string) | GetBoundary (x : nat)
  | CreateInst (x : nat) (n : string) (y : nat) | SetMap (x y : nat).

  (** the collection of a database a class of definitions is kept in *)
  Definition kind_of (c : pyclass) : option kind :=
    match c with PCell => Some KCell | PDef => Some KDef | PMap => Some KMap | _ => None end.
  Definition named (c : pyclass) : bool := match c with PDb | PCell | PLayout | PComp => true | _ => false end.

  Definition step (fuel : nat) (s : state) (t : stmt) : res state :=
    match t with
    (** src/EDataMgr.cpp 38-56 *)
    | CreateDb n =>
        if acount String.eqb n (s_reg s) then ret s VNone
        else Ok (mkS (s_heap s ++ [Some (mkO KDb n None [] None None None)]) (aemplace String.eqb n (List.length (s_heap s)) (s_reg s))
                     (s_vars s ++ [VObj PDb (List.length (s_heap s))]))
    | OpenDb n => ret s (maybe PDb (alookup String.eqb n (s_reg s)))
    | RemoveDb n =>
        match alookup String.eqb n (s_reg s) with
        | Some d => Ok (mkS (kill (s_heap s) (doomed (s_heap s) d)) (aerase String.eqb n (s_reg s)) (s_vars s ++ [VBool true]))
        | None => ret s (VBool false)
        end
    (** 58-64 *)
    | ShutDown => Ok (mkS (kill (s_heap s) (flat_map (fun e => doomed (s_heap s) (snd e)) (s_reg s))) [] (s_vars s ++ [VNone]))
    (** 97-101, 132-136, 176-180 with src/design/EDatabase.cpp 150-156, 216-222, 235-241: no database, a name in use: None *)
    | CreateIn c x n =>
        p <- pointer s PDb x ;;
        match p, kind_of c with
        | None, Some _ => ret s VNone
        | Some d, Some k =>
            o <- use s d ;;
            match find_kid o k n with
            | Some _ => ret s VNone
            | None => retH s (add (s_heap s) d k n None) (VObj c (List.length (s_heap s)))
            end
        | _, None => Throw
        end
    (** PyEcadDesign.hpp 19, PyEcad.cpp 64-65; EDatabase.cpp 158-161, 224-228 *)
    | FindIn c x n =>
        match c with
        | PCell => d <- self s PDb x ;; o <- use s d ;; ret s (maybe PCell (find_kid o KCell n))
        | PDef =>
            p <- pointer s PDb x ;;
            match p with None => ret s VNone | Some d => o <- use s d ;; ret s (maybe PDef (find_kid o KDef n)) end
        | _ => Throw
        end
    (** PyEcadDesign.hpp 7-10, 58-60, 70; ECell.cpp 128-137 *)
    | GetLayout x => i <- self s PCell x ;; o <- use s i ;; ret s (VObj PLayout i)
    | GetFlattened x => i <- self s PCell x ;; o <- use s i ;; h <- flatten fuel (s_heap s) i ;; retH s h (VObj PLayout i)
    | Flatten x => i <- self s PLayout x ;; o <- use s i ;; h <- flatten fuel (s_heap s) i ;; retH s h VNone
    | GetDatabase x => i <- self s PLayout x ;; o <- use s i ;; ret s (maybe PDb (o_owner o))
    | GetName c x => if named c then i <- self s c x ;; o <- use s i ;; ret s (VText (o_name o)) else Throw
    (** PyEcadDesign.hpp 114-116 *)
    | SetBoundary x z => i <- self s PDef x ;; o <- use s i ;; retH s (set (s_heap s) i (with_bound o (Some z))) VNone
    (** EDataMgr.cpp 221-226, EComponentCollection.cpp 50-59: a name in use gives None; the definition is not looked at *)
    | CreateComponent x n y =>
        p <- pointer s PLayout x ;;
        q <- pointer s PDef y ;;
        match p with
        | None => ret s VNone
        | Some c =>
            o <- use s c ;;
            match find_kid o KComp n with
            | Some _ => ret s VNone
            | None => retH s (add (s_heap s) c KComp n q) (VObj PComp (List.length (s_heap s)))
            end
        end
    | FindComponent x n => i <- self s PLayout x ;; o <- use s i ;; ret s (maybe PComp (find_kid o KComp n))
    (** src/design/EComponent.cpp 107-119: the definition of the component is read *)
    | GetBoundary x =>
        i <- self s PComp x ;; o <- use s i ;;
        match o_ref o with
        | None => UB
        | Some d => def <- use s d ;; ret s (match o_bound def with Some z => VShape z | None => VNone end)
        end
    (** EDataMgr.cpp 214-219, src/collection/ECellInstCollection.cpp 46-53 *)
    | CreateInst x n y =>
        p <- pointer s PLayout x ;;
        q <- pointer s PLayout y ;;
        match p with
        | None => ret s VNone
        | Some c => o <- use s c ;; retH s (add (s_heap s) c KInst n q) (VObj PInst (List.length (s_heap s)))
        end
    (** PyEcadDesign.hpp 13; ECellInst.cpp 74-77: the map is not looked at *)
    | SetMap x y =>
        i <- self s PInst x ;;
        q <- pointer s PMap y ;;
        o <- use s i ;; retH s (set (s_heap s) i (with_map o q)) VNone
    end.
  Fixpoint run (fuel : nat) (s : state) (ts : list stmt) : res state :=
    match ts with
    | [] => Ok s
    | t :: ts' => s' <- step fuel s t ;; run fuel s' ts'
    end.
End Program.
