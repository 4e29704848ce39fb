(** The per-layout cache of extracted models. *)
From Verif Require Import Base.

Section Cache.
  (** S: thermal extraction settings, C: layer cut settings (Settings_Model.v).  type_of: GetModelType
      (ECadSettings.h:342, 379-382); force: forceRebuild; cut_of: the layer cut settings of a prism settings value;
      eqS, eqC: operator==; builds s r: GenerateThermalModel succeeds on revision r of the layout (it returns null e.g.
      when the metal fraction file cannot be written, EThermalModelExtraction.cpp:39, EMetalFractionMapping.cpp:147-149). *)
  Context {S C : Type} (type_of : S -> nat) (force : S -> bool) (cut_of : S -> option C)
          (eqS : S -> S -> bool) (eqC : C -> C -> bool) (builds : S -> nat -> bool).

  (** a built layer cut model: the settings it stores (ELayerCutModelBuilder.cpp:11), the layout revision it was
      extracted from, and the number of the build *)
  Record cutmodel := mkCM { k_set : C; k_rev : nat; k_stamp : nat }.
  (** a built thermal model (EPrismThermalModel.cpp:42, EGridThermalModel.cpp:236) and the layer cut model it used *)
  Record model := mkM { m_set : S; m_rev : nat; m_stamp : nat; m_cut : option cutmodel }.

  Record state := mkSt {
    s_rev : nat;                    (* edits of the layout so far *)
    s_stamp : nat;                  (* builds so far *)
    s_models : list (nat * model);  (* EModelCollection: EModelType -> model *)
    s_cut : option cutmodel         (* its entry for EModelType::LayerCut *)
  }.
  Definition init : state := mkSt 0 0 [] None.

  (** src/design/ELayoutView.cpp:328-338 *)
  Definition extract_cut (st : state) (c : C) : state * cutmodel :=
    match s_cut st with
    | Some k =>
        if eqC (k_set k) c then (st, k)
        else let k' := mkCM c (s_rev st) (s_stamp st) in
             (mkSt (s_rev st) (Datatypes.S (s_stamp st)) (s_models st) (Some k'), k')
    | None => let k' := mkCM c (s_rev st) (s_stamp st) in
              (mkSt (s_rev st) (Datatypes.S (s_stamp st)) (s_models st) (Some k'), k')
    end.

  (** src/extraction/thermal/EThermalModelExtraction.cpp:22-32, 34-44, 183-187: prism models first ask the layout for the
      layer cut model *)
  Definition generate (st : state) (s : S) : state * option model :=
    let '(st', k) := match cut_of s with
                     | Some c => let (st', k) := extract_cut st c in (st', Some k)
                     | None => (st, None)
                     end in
    if builds s (s_rev st')
    then (mkSt (s_rev st') (Datatypes.S (s_stamp st')) (s_models st') (s_cut st'),
          Some (mkM s (s_rev st') (s_stamp st') k))
    else (st', None).

  (** src/collection/EModelCollection.cpp:39-49 – FindModel, AddModel (a null model is refused, an old one replaced) *)
  Definition find_model (st : state) (t : nat) : option model := alookup Nat.eqb t (s_models st).
  Definition add_model (st : state) (m : option model) : state :=
    match m with
    | None => st
    | Some m => let t := type_of (m_set m) in
                mkSt (s_rev st) (s_stamp st) (aemplace Nat.eqb t m (aerase Nat.eqb t (s_models st))) (s_cut st)
    end.

  (** ELayoutView.cpp:340-351 *)
  Definition extract (st : state) (s : S) : state * option model :=
    let t := type_of s in
    let reuse := match find_model st t with
                 | Some m => if negb (force s) && eqS (m_set m) s then Some m else None
                 | None => None
                 end in
    match reuse with
    | Some m => (st, Some m)
    | None => let (st', m) := generate st s in
              let st'' := add_model st' m in (st'', find_model st'' t)
    end.

  Inductive op := Edit | ExtractCut (c : C) | Extract (s : S).
  Inductive out := ODone | OCut (k : cutmodel) | OModel (m : option model).

  Definition step (st : state) (o : op) : state * out :=
    match o with
    | Edit => (mkSt (Datatypes.S (s_rev st)) (s_stamp st) (s_models st) (s_cut st), ODone)
    | ExtractCut c => let (st', k) := extract_cut st c in (st', OCut k)
    | Extract s => let (st', m) := extract st s in (st', OModel m)
    end.
  Definition run (st : state) (ops : list op) : state := fold_left (fun st o => fst (step st o)) ops st.
End Cache.
