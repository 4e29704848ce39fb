(** Extraction of a grid thermal model from a layout.
    src/extraction/thermal/EThermalModelExtraction.cpp:33-160, src/model/thermal/EGridThermalModel.cpp:316-364,
    src/utility/EMetalFractionMapping.h:58-65.

    The metal fraction map (Fraction_Model) and the region it covers are given: two axes and one map per stack-up
    layer.  Lengths already are in metres.  The number pi * r * r / l of a bond wire is a parameter of it. *)
From Verif Require Import Base QSum LookupTable_Model Fraction_Model.
From Verif Require Grid_Model.
Open Scope res_scope.
Open Scope Q_scope.

(** A stack-up layer with its metal map. *)
Record xlayer := mkXL { xl_id : Z; xl_name : string; xl_thick : Q; xl_size : nat * nat; xl_mf : grid }.
(** A component: the samples of its loss power by SetLossPower, placement layer, bounding box of its boundary. *)
Record xcomp := mkXC { xc_loss : list (Q * Q); xc_layer : Z; xc_box : option ((Z * Z) * (Z * Z)) }.
Record xwire := mkXW { xw_from : Z * Z; xw_to : Z * Z; xw_layer : Z; xw_alpha : Q }.

(** ** Layers, 58-73 *)
Definition layer_of (l : xlayer) : Grid_Model.glayer :=
  Grid_Model.mkLayer (xl_name l) (xl_thick l) "" "" (xl_size l) (xl_mf l) [].
Fixpoint append_all (m : Grid_Model.gmodel) (lm : list (Z * nat)) (ls : list xlayer) : res (Grid_Model.gmodel * list (Z * nat)) :=
  match ls with
  | [] => Ok (m, lm)
  | l :: ls' =>
    match Grid_Model.append_layer m (layer_of l) with
    | (m', Some i) => append_all m' (aemplace Z.eqb (xl_id l) i lm) ls'
    | (_, None) => Throw
    end
  end.
Definition extract_layers (nx ny : nat) (rx ry : Q) (ls : list xlayer) : res (Grid_Model.gmodel * list (Z * nat)) :=
  append_all (Grid_Model.mkGrid nx ny rx ry 1 [] [] None None [] []) [] ls.

(** ** Component powers, 91-138 *)
Definition temps : list Q := [25; 50; 75; 100; 125].
Definition celsius2kelvins (t : Q) : Q := t + (27315 # 100).

(** a map entry is overwritten in place or added *)
Definition put {V} (k : nat) (v : V) (m : list (nat * V)) : list (nat * V) :=
  match alookup Nat.eqb k m with
  | Some _ => map (fun e => if (fst e =? k)%nat then (k, v) else e) m
  | None => m ++ [(k, v)]
  end.

(** 122-127, one temperature after the other *)
Fixpoint spread_temps (ax ay : axis) (ll ur : Z * Z) (loss : list (Q * Q)) (ts : list Q) (gs : list grid) : res (list grid) :=
  match ts, gs with
  | t :: ts', g :: gs' =>
    p <- lookup (table_of loss) t ;;
    g' <- spread ax ay g {| c_ll := ll; c_ur := ur; c_power := p |} ;;
    r <- spread_temps ax ay ll ur loss ts' gs' ;;
    Ok (g' :: r)
  | _, _ => Ok []
  end.
Definition add_component (lm : list (Z * nat)) (ax ay : axis) (gm : list (nat * list grid)) (c : xcomp) : res (list (nat * list grid)) :=
  match table_of (xc_loss c) with
  | [] => Ok gm
  | _ =>
    match alookup Z.eqb (xc_layer c) lm with
    | None => Throw
    | Some k =>
      match xc_box c with
      | None => Throw
      | Some (ll, ur) =>
        let gs := match alookup Nat.eqb k gm with Some gs => gs | None => map (fun _ => (fun _ _ => 0) : grid) temps end in
        gs' <- spread_temps ax ay ll ur (xc_loss c) temps gs ;;
        Ok (put k gs' gm)
      end
    end
  end.
Fixpoint extract_powers (lm : list (Z * nat)) (ax ay : axis) (gm : list (nat * list grid)) (cs : list xcomp) : res (list (nat * list grid)) :=
  match cs with
  | [] => Ok gm
  | c :: r => gm' <- add_component lm ax ay gm c ;; extract_powers lm ax ay gm' r
  end.
(** 133-138: the samples of the power model of a layer, by the temperature they are stored under *)
Definition power_samples (gs : list grid) : list (Q * grid) := combine (map celsius2kelvins temps) gs.

(** ** Indices, EMetalFractionMapping.h:58-65; [None] is invalidIndex *)
Definition index_of (ax ay : axis) (p : Z * Z) : res (option Z * option Z) :=
  x <- get_index ax (fst p) ;; y <- get_index ay (snd p) ;; Ok (x, y).

(** ** Bond wires, 75-89: no check, always the first layer *)
Definition jump : Type := ((option Z * option Z) * nat) * ((option Z * option Z) * nat) * Q.
Definition extract_jump (ax ay : axis) (w : xwire) : res jump :=
  a <- index_of ax ay (xw_from w) ;; b <- index_of ax ay (xw_to w) ;; Ok ((a, 0%nat), (b, 0%nat), xw_alpha w).

(** ** Block boundary conditions, 145-158: no check either *)
Definition extract_block (ax ay : axis) (b : ((Z * Z) * (Z * Z)) * Grid_Model.bc) : res (option ((option Z * option Z) * (option Z * option Z) * Grid_Model.bc)) :=
  match snd b with
  | Grid_Model.BadBC => Ok None
  | _ => ll <- index_of ax ay (fst (fst b)) ;; ur <- index_of ax ay (snd (fst b)) ;; Ok (Some (ll, ur, snd b))
  end.
(** the block as the network builder takes it, if all its indices are there *)
Definition block_of (b : (option Z * option Z) * (option Z * option Z) * Grid_Model.bc) : option (nat * nat * (nat * nat) * Grid_Model.bc) :=
  match b with
  | ((Some x0, Some y0), (Some x1, Some y1), v) => Some (Z.to_nat x0, Z.to_nat y0, (Z.to_nat x1, Z.to_nat y1), v)
  | _ => None
  end.
