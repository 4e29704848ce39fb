(** Keyed setters: material properties, uniform boundary conditions, grid data tables. *)
From Verif Require Import Base LookupTable_Model.
From Coq Require Import QArith.
Local Open Scope Q_scope.

Section Keyed.
  Context {V : Type}.

  (** src/design/EMaterialDef.cpp:68-71 (property ids are enumerators, modelled as naturals) *)
  Definition set_property (m : list (nat * V)) (s : nat * V) : list (nat * V) :=
    aemplace Nat.eqb (fst s) (snd s) m.
  Definition properties_of (hist : list (nat * V)) : list (nat * V) := fold_left set_property hist [].
  (** EMaterialDef.cpp:73-78 *)
  Definition get_property (m : list (nat * V)) (id : nat) : option V := alookup Nat.eqb id m.
  (** EMaterialDef.cpp:63-66 *)
  Definition has_property (m : list (nat * V)) (id : nat) : bool := acount Nat.eqb id m.

  (** src/model/thermal/EThermalModel.cpp:72-75 *)
  Definition set_uniform_bc (m : list (nat * V)) (s : nat * V) : list (nat * V) :=
    aemplace Nat.eqb (fst s) (snd s) m.
  Definition bcs_of (hist : list (nat * V)) : list (nat * V) := fold_left set_uniform_bc hist [].
  (** EThermalModel.cpp:77-83; [valid] is EThermalBoundaryCondition::isValid (ECadSettings.h:246) *)
  Definition get_uniform_bc (valid : V -> bool) (m : list (nat * V)) (o : nat) : option V :=
    match alookup Nat.eqb o m with
    | None => None
    | Some bc => if valid bc then Some bc else None
    end.
End Keyed.

(** generic::geometry::OccupancyGridMap<EFloat> (external): a width, a height and a value per cell *)
Record grid := mkGrid { gr_w : nat; gr_h : nat; gr_at : nat -> nat -> Q }.

(** src/model/thermal/EThermalModel.h:61-63 – the interpolator cache is a snapshot: the keys, and per cell the values *)
Record gtable := mkGT {
  gt_w : nat; gt_h : nat;
  gt_data : list (Q * grid);
  gt_interp : option (list Q * (nat -> nat -> list Q))
}.

Section Grid.
  (** boost's pchip interpolator over keys xs and values ys; it may throw *)
  Context (pchip : list Q -> list Q -> Q -> res Q).

  Definition gt_new (w h : nat) : gtable := mkGT w h [] None.

  (** src/model/thermal/EGridThermalModel.cpp:27-34 *)
  Definition gt_add (t : gtable) (k : Q) (d : grid) : gtable * bool :=
    if negb (gr_w d =? gt_w t)%nat || negb (gr_h d =? gt_h t)%nat then (t, false)
    else (mkGT (gt_w t) (gt_h t) (tbl_emplace k d (gt_data t)) None, true).

  (** EGridThermalModel.cpp:100-119 *)
  Definition gt_build (t : gtable) : gtable * (list Q * (nat -> nat -> list Q)) :=
    match gt_interp t with
    | Some i => (t, i)
    | None =>
        let i := (map fst (gt_data t), fun x y => map (fun s => gr_at (snd s) x y) (gt_data t)) in
        (mkGT (gt_w t) (gt_h t) (gt_data t) (Some i), i)
    end.

  (** EGridThermalModel.cpp:36-60: the new object, the success flag and the value *)
  Definition gt_query (t : gtable) (k : Q) (x y : nat) : gtable * (bool * res Q) :=
    if (gt_w t <=? x)%nat || (gt_h t <=? y)%nat then (t, (false, Ok 0))
    else match gt_data t with
         | [] => (t, (false, Ok 0))
         | [(_, d)] => (t, (true, Ok (gr_at d x y)))
         | (k0, d0) :: _ =>
             let (kn, dn) := last (gt_data t) (0, d0) in
             if Qle_bool k k0 then (t, (true, Ok (gr_at d0 x y)))
             else if Qle_bool kn k then (t, (true, Ok (gr_at dn x y)))
             else let (t', i) := gt_build t in (t', (true, pchip (fst i) (snd i x y) k))
         end.

  (** EGridThermalModel.cpp:70-75 *)
  Definition gt_get_table (t : gtable) (k : Q) : option grid :=
    (fix go l := match l with
                 | [] => None
                 | (k', d) :: r => if Qeq_bool k' k then Some d else go r
                 end) (gt_data t).

  (** EGridThermalModel.cpp:62-68 *)
  Definition gt_keys (t : gtable) : list Q := map fst (gt_data t).

  Inductive gt_op := GAdd (k : Q) (d : grid) | GQuery (k : Q) (x y : nat).
  Inductive gt_out := OAdd (b : bool) | OQuery (b : bool) (r : res Q).

  Definition gt_step (t : gtable) (o : gt_op) : gtable * gt_out :=
    match o with
    | GAdd k d => let (t', b) := gt_add t k d in (t', OAdd b)
    | GQuery k x y => let (t', r) := gt_query t k x y in (t', OQuery (fst r) (snd r))
    end.

  Fixpoint gt_run (t : gtable) (ops : list gt_op) : gtable * list gt_out :=
    match ops with
    | [] => (t, [])
    | o :: ops' => let (t1, out) := gt_step t o in let (t2, outs) := gt_run t1 ops' in (t2, out :: outs)
    end.
End Grid.
