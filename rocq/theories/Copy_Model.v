(** Copies of layouts and databases: which objects are new and where their pointers lead.  Models the copy assignments of
    src/design/ELayoutView.cpp, ECell.cpp, EDatabase.cpp, src/basic/ECollection.h and the [CloneImp]s of the objects.

    An object has an address; [A] stands for the members of an object that hold no pointer to another object of the
    database, which every copy takes over.  A copy of a collection has new objects, one for each; their addresses are
    taken in order from [n]. *)
From Verif Require Import Base.
Open Scope res_scope.

Definition addr := nat.

(** The layer of an end of a bond wire: ELayerId::ComponentLayer or another one. *)
Inductive lyr := OnComponent | OnLayer (l : Z).

(** EModelType *)
Inductive mkind := MLayerCut | MGrid | MPrism | MStackup | MChip.
Definition mkind_eqb (a b : mkind) : bool :=
  match a, b with
  | MLayerCut, MLayerCut | MGrid, MGrid | MPrism, MPrism | MStackup, MStackup | MChip, MChip => true
  | _, _ => false
  end.

Section Copy.
  Context {A : Type}.

  (** EComponent.h 50-54, EHierarchyObj.h 26-27; the key in the collection is kept beside the object *)
  Record comp := mkComp { c_at : addr; c_name : string; c_ref : addr; c_def : addr; c_data : A }.
  (** ECellInst.h 38-39, EHierarchyObj.h 26-27 *)
  Record inst := mkInst { i_at : addr; i_ref : addr; i_def : addr; i_map : option addr; i_data : A }.
  (** EPadstackInst.h 48-52 *)
  Record pad := mkPad { p_at : addr; p_def : option addr; p_map : option addr; p_data : A }.
  (** one end of a bond wire, EPrimitive.h 129-134; the layer of the start is that of the primitive *)
  Record wend := mkEnd { e_lyr : lyr; e_comp : option addr; e_pin : string }.
  (** EPrimitive.h 128-141 *)
  Record wire := mkWire { w_at : addr; w_start : wend; w_end : wend; w_joint : option addr; w_data : A }.
  Inductive prim := PWire (w : wire) | POther (at_ : addr) (a : A).
  (** a model in the collection of a layout; [m_kind] is what [GetModelType] of the object answers, [m_lay] the layout of
      a prism model (EPrismThermalModel.h 225) *)
  Record mod_ := mkMod { m_at : addr; m_kind : mkind; m_lay : option addr; m_data : A }.
  Record layout := mkLayout { l_at : addr; l_name : string; l_cell : addr; l_comps : list (string * comp); l_insts : list inst;
                              l_prims : list prim; l_pads : list pad; l_mods : list (mkind * mod_); l_data : A }.

  (** ECollection.h 62-70 and the copy assignment of EVectorCollection: a clone of every element *)
  Fixpoint clone_all {X Y : Type} (f : X -> addr -> Y) (n : addr) (l : list X) : list Y :=
    match l with
    | [] => []
    | x :: r => f x n :: clone_all f (S n) r
    end.

  (** EComponent.h 47, ECellInst.h 33, EPadstackInst.h 43 (implicit copy constructors), EPrimitive.h: members are copied *)
  Definition clone_comp (kc : string * comp) (a : addr) : string * comp :=
    (fst kc, mkComp a (c_name (snd kc)) (c_ref (snd kc)) (c_def (snd kc)) (c_data (snd kc))).
  Definition clone_inst (i : inst) (a : addr) : inst := mkInst a (i_ref i) (i_def i) (i_map i) (i_data i).
  Definition clone_pad (p : pad) (a : addr) : pad := mkPad a (p_def p) (p_map p) (p_data p).
  Definition clone_prim (p : prim) (a : addr) : prim :=
    match p with
    | PWire w => PWire (mkWire a (w_start w) (w_end w) (w_joint w) (w_data w))
    | POther _ d => POther a d
    end.
  (** ELayerCutModel.h 117, EPrismThermalModel.h 218, EGridThermalModel.h 111, EChipThermalModel.h 78.
      EStackupPrismThermalModel has no [CloneImp] of its own: a prism model is made of it. *)
  Definition clone_mod (km : mkind * mod_) (a : addr) : mkind * mod_ :=
    (fst km, mkMod a (match m_kind (snd km) with MStackup => MPrism | k => k end) (m_lay (snd km)) (m_data (snd km))).

  (** The object behind a pointer, among those alive *)
  Definition deref (heap : list comp) (p : addr) : res comp :=
    match find (fun c => c_at c =? p) heap with Some c => Ok c | None => UB end.

  (** ELayoutView.cpp 85-88: an end of a wire moves to the component of the copy with the name of its component;
      EPrimitive.cpp 346-351, 358-363 SetStartComponent, SetEndComponent *)
  Definition reattach_end (heap : list comp) (comps : list (string * comp)) (e : wend) : res wend :=
    match e_comp e with
    | None => Ok e
    | Some p =>
        c <- deref heap p ;;
        Ok (mkEnd OnComponent (option_map c_at (alookup String.eqb (c_name c) comps)) (e_pin e))
    end.
  (** ELayoutView.cpp 82-90 *)
  Fixpoint reattach (heap : list comp) (comps : list (string * comp)) (ps : list prim) : res (list prim) :=
    match ps with
    | [] => Ok []
    | PWire w :: r =>
        s <- reattach_end heap comps (w_start w) ;;
        e <- reattach_end heap comps (w_end w) ;;
        r' <- reattach heap comps r ;;
        Ok (PWire (mkWire (w_at w) s e (w_joint w) (w_data w)) :: r')
    | p :: r => r' <- reattach heap comps r ;; Ok (p :: r')
    end.

  Definition layout_size (l : layout) : nat :=
    S (List.length (l_comps l) + List.length (l_insts l) + List.length (l_prims l) + List.length (l_pads l) + List.length (l_mods l)).

  (** ELayoutView.cpp 74-93 *)
  Definition copy_layout (heap : list comp) (n : addr) (l : layout) : res layout :=
    let n1 := S n in
    let comps := clone_all clone_comp n1 (l_comps l) in
    let n2 := n1 + List.length (l_comps l) in
    let insts := clone_all clone_inst n2 (l_insts l) in
    let n3 := n2 + List.length (l_insts l) in
    let n4 := n3 + List.length (l_prims l) in
    let pads := clone_all clone_pad n4 (l_pads l) in
    let mods := clone_all clone_mod (n4 + List.length (l_pads l)) (l_mods l) in
    prims <- reattach heap comps (clone_all clone_prim n3 (l_prims l)) ;;
    Ok (mkLayout n (l_name l) (l_cell l) comps insts prims pads mods (l_data l)).

  (** EBondwire::GetStartLayer / GetEndLayer with a pointer for the side, EPrimitive.cpp 290-294, 310-314 *)
  Definition end_side (flipped : A -> bool) (own : bool) (heap : list comp) (e : wend) : res bool :=
    match e_lyr e with
    | OnComponent => match e_comp e with None => UB | Some p => c <- deref heap p ;; Ok (flipped (c_data c)) end
    | OnLayer _ => Ok own
    end.

  (** EComponent::SetName, EComponent.h 57-60: the key in the collection stays *)
  Definition rename (key name : string) (l : layout) : layout :=
    mkLayout (l_at l) (l_name l) (l_cell l)
      (map (fun kc => if String.eqb (fst kc) key then (fst kc, mkComp (c_at (snd kc)) name (c_ref (snd kc)) (c_def (snd kc)) (c_data (snd kc))) else kc) (l_comps l))
      (l_insts l) (l_prims l) (l_pads l) (l_mods l) (l_data l).

  (** Definitions of a database: cells with their layouts, and others *)
  Inductive body := BCell (l : layout) | BOther (a : A).
  Record defn := mkDefn { f_at : addr; f_db : addr; f_body : body }.
  Record db := mkDb { d_at : addr; d_defs : list (string * defn) }.

  Definition body_size (b : body) : nat := S match b with BCell l => layout_size l | BOther _ => 0 end.

  (** ECell.cpp 48-55, EDefinition copy; EDatabase.cpp 68: SetDatabase *)
  Definition copy_defn (heap : list comp) (d n : addr) (f : defn) : res defn :=
    match f_body f with
    | BCell l =>
        l' <- copy_layout heap (S n) l ;;
        Ok (mkDefn n d (BCell (mkLayout (l_at l') (l_name l') n (l_comps l') (l_insts l') (l_prims l') (l_pads l') (l_mods l') (l_data l'))))
    | BOther a => Ok (mkDefn n d (BOther a))
    end.
  Fixpoint copy_defns (heap : list comp) (d n : addr) (fs : list (string * defn)) : res (list (string * defn)) :=
    match fs with
    | [] => Ok []
    | (k, f) :: r =>
        f' <- copy_defn heap d n f ;;
        r' <- copy_defns heap d (n + body_size (f_body f)) r ;;
        Ok ((k, f') :: r')
    end.
  (** EDatabase.cpp 65-73 *)
  Definition copy_db (heap : list comp) (n : addr) (d : db) : res db :=
    fs <- copy_defns heap n (S n) (d_defs d) ;;
    Ok (mkDb n fs).

  Definition layouts (d : db) : list layout :=
    flat_map (fun kf => match f_body (snd kf) with BCell l => [l] | BOther _ => [] end) (d_defs d).

  (** Reading what an instance instantiates (ECellInst.cpp 63-66 and any use of the answer), with the databases that
      are still there *)
  Definition def_layout (alive : list db) (i : inst) : res layout :=
    match find (fun l => l_at l =? i_def i) (flat_map layouts alive) with Some l => Ok l | None => UB end.

  (** EModelCollection.cpp 39-43 *)
  Definition find_model (l : layout) (k : mkind) : option mod_ := alookup mkind_eqb k (l_mods l).
  (** ELayoutView.cpp 340-347 without forceRebuild: the model found, if it matches *)
  Definition reuse_model (matches : A -> bool) (l : layout) (k : mkind) : option mod_ :=
    match find_model l k with Some m => if matches (m_data m) then Some m else None | None => None end.

  (** EModelCollection.cpp 45-49 *)
  Definition add_model (l : list (mkind * mod_)) (m : option mod_) : list (mkind * mod_) :=
    match m with None => l | Some m => aemplace mkind_eqb (m_kind m) m (aerase mkind_eqb (m_kind m) l) end.
  Inductive mop := Add (m : option mod_) | Clear.
  Definition mod_step (l : list (mkind * mod_)) (o : mop) : list (mkind * mod_) :=
    match o with Add m => add_model l m | Clear => [] end.

  (** Boost writes an object behind a pointer to a base class only if its class was exported; an exception otherwise.
      Exported: ELayerCutModel.cpp 2, EPrismThermalModel.cpp 2, EStackupPrismThermalModel.cpp 2. *)
  Definition exported (k : mkind) : bool := match k with MLayerCut | MPrism | MStackup => true | MGrid | MChip => false end.
  (** What is behind the path of an archive *)
  Inductive file := NoFile | Archive (d : db) | Broken.
  (** EDatabase.cpp 76-102; [dir]: the directory exists or was made, [open]: the file could be opened, which empties it *)
  Definition save (dir open : bool) (d : db) (f : file) : res bool * file :=
    if dir && open then
      if forallb (fun l => forallb (fun km => exported (m_kind (snd km))) (l_mods l)) (layouts d) then (Ok true, Archive d) else (Throw, Broken)
    else (Ok false, f).
End Copy.
Arguments comp : clear implicits.
Arguments inst : clear implicits.
Arguments pad : clear implicits.
Arguments wire : clear implicits.
Arguments prim : clear implicits.
Arguments mod_ : clear implicits.
Arguments layout : clear implicits.
Arguments body : clear implicits.
Arguments defn : clear implicits.
Arguments db : clear implicits.
Arguments file : clear implicits.
