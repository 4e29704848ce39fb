(** Flattening of cell hierarchies.  Cells (and their layouts) are numbered; an object is opaque, and merging an
    instance into a layout maps each object by [place] (rename, remap net and layer, append transform – the details of
    one merge are in Merge_Model.v). *)
From Verif Require Import Base.

Section Flatten.
  (** Ob: objects; T: what an instance carries besides its definition (name, transform, layer map) *)
  Context {Ob T : Type} (place : T -> Ob -> Ob) (replace : T -> T -> T).

  Record inst := mkInst { i_def : nat; i_tag : T }.
  Record layout := mkL { l_objs : list Ob; l_insts : list inst }.
  (** the layouts of all cells of a database *)
  Definition db : Type := nat -> layout.

  Definition upd (st : db) (c : nat) (l : layout) : db := fun d => if (d =? c)%nat then l else st d.

  (** src/utility/ELayoutMergeUtility.cpp:8-118: nothing if the definition is the layout itself; otherwise clones of
      the definition's objects (and of instances it still has) are appended *)
  Definition merge (st : db) (c : nat) (i : inst) : db :=
    if (i_def i =? c)%nat then st
    else
      let other := st (i_def i) in
      upd st c (mkL (l_objs (st c) ++ map (place (i_tag i)) (l_objs other))
                    (l_insts (st c) ++ map (fun k => mkInst (i_def k) (replace (i_tag i) (i_tag k))) (l_insts other))).

  (** src/design/ELayoutView.cpp:376-385 – Flatten, with src/design/ECell.cpp:133-137 and ECellInst.cpp:69-72:
      the definition is flattened (in place) before it is merged; the instances are cleared at the end. *)
  Fixpoint flatten (fuel : nat) (st : db) (c : nat) : res db :=
    match fuel with
    | O => OutOfFuel
    | S fuel' =>
        bind (fold_left (fun r i => bind r (fun st => bind (flatten fuel' st (i_def i)) (fun st' => Ok (merge st' c i))))
                        (l_insts (st c)) (Ok st))
             (fun st' => Ok (upd st' c (mkL (l_objs (st' c)) [])))
    end.

  (** src/utility/EFlattenUtility.cpp:67-73 – ScheduleFlattenTasks: one task per path, in preorder *)
  Fixpoint tasks (fuel : nat) (st : db) (c : nat) : res (list nat) :=
    match fuel with
    | O => OutOfFuel
    | S fuel' =>
        bind (fold_left (fun r i => bind r (fun l => bind (tasks fuel' st (i_def i)) (fun l' => Ok (l ++ l'))))
                        (l_insts (st c)) (Ok []))
             (fun l => Ok (c :: l))
    end.

  (** EFlattenUtility.cpp:75-79 – FlattenOneCell under the mutex: the executed tasks, in the order the lock was taken *)
  Definition run_tasks (fuel : nat) (st : db) (sched : list nat) : res db :=
    fold_left (fun r c => bind r (fun st => flatten fuel st c)) sched (Ok st).

  (** EFlattenUtility.cpp:27-50 and 52-65.  [cells]: the cells of the database in iteration order.  A definition
      outside the database makes [at] throw. *)
  Definition defs (st : db) (c : nat) : list nat := map i_def (l_insts (st c)).
  Definition get_top_cells (st : db) (cells : list nat) : res (bool * list nat) :=
    let used := flat_map (defs st) cells in
    if forallb (fun d => existsb (Nat.eqb d) cells) used
    then let tops := filter (fun c => negb (existsb (Nat.eqb c) used)) cells in
         Ok (negb (match tops with [] => true | _ => false end), tops)
    else Throw.
End Flatten.
Arguments inst : clear implicits.
Arguments layout : clear implicits.
Arguments db : clear implicits.
