(** Coarsening of thermal models by halving the grid.
    src/model/thermal/utils/EThermalModelReduction.cpp

    Grids are [Keyed_Model.grid]; the flat index of the external OccupancyGridMap is taken to be
    x * height + y, as line 144 of the file presumes.  Sizes are naturals, so 0.5 * n is exact. *)
From Verif Require Import Base QSum LookupTable_Model Keyed_Model.

(** EThermalModelReduction.cpp:115-131 *)
Definition half_floor (n : nat) : nat := Nat.div n 2.
Definition half_ceil (n : nat) : nat := Nat.div (n + 1) 2.

Inductive method := Average | Accumulation | Maximum | Minimum.

(** the nested loops over x and y, all four cases *)
Definition all_cells (w h : nat) : list (nat * nat) :=
  flat_map (fun x => map (fun y => (x, y)) (seq 0 h)) (seq 0 w).

(** result(x, y) = v; an index outside the grid is undefined behaviour *)
Definition grid_put (g : grid) (x y : nat) (v : Q) : res grid :=
  if ((x <? gr_w g) && (y <? gr_h g))%nat%bool
  then Ok (mkGrid (gr_w g) (gr_h g) (fun x' y' => if ((x' =? x) && (y' =? y))%nat%bool then v else gr_at g x' y'))
  else UB.

Fixpoint accumulate (comb : Q -> Q -> Q) (d : grid) (cs : list (nat * nat)) (g : grid) : res grid :=
  match cs with
  | [] => Ok g
  | (x, y) :: cs' =>
    bind (grid_put g (half_floor x) (half_floor y) (comb (gr_at g (half_floor x) (half_floor y)) (gr_at d x y)))
         (accumulate comb d cs')
  end.

(** count[index.x * size.y + index.y] += 1, line 144 *)
Fixpoint count_cells (sy : nat) (size : nat) (cs : list (nat * nat)) (c : nat -> nat) : res (nat -> nat) :=
  match cs with
  | [] => Ok c
  | (x, y) :: cs' =>
    let i := (half_floor x * sy + half_floor y)%nat in
    if (i <? size)%nat
    then count_cells sy size cs' (fun j => if (j =? i)%nat then Datatypes.S (c j) else c j)
    else UB
  end.

Definition of_nat (n : nat) : Q := inject_Z (Z.of_nat n).

(** EThermalModelReduction.cpp:133-181 *)
Definition reduce_grid (meth : method) (d : grid) : res grid :=
  let nx := gr_w d in let ny := gr_h d in
  let g0 := mkGrid (half_ceil nx) (half_ceil ny) (fun _ _ => 0) in
  let cs := all_cells nx ny in
  match meth with
  | Average =>
    bind (accumulate Qplus d cs g0) (fun s =>
    bind (count_cells (gr_h g0) (gr_w g0 * gr_h g0) cs (fun _ => 0%nat)) (fun c =>
    Ok (mkGrid (gr_w g0) (gr_h g0) (fun x y => gr_at s x y / of_nat (c (x * gr_h g0 + y)%nat)))))
  | Accumulation => accumulate Qplus d cs g0
  | Maximum => accumulate Qmax d cs g0
  | Minimum => accumulate Qmin d cs g0
  end.

(** EThermalModelReduction.cpp:183-197 *)
Fixpoint reduce_samples (meth : method) (src : gtable) (keys : list Q) (t : gtable) : res gtable :=
  match keys with
  | [] => Ok t
  | k :: keys' =>
    match gt_get_table src k with
    | None => reduce_samples meth src keys' t
    | Some d => bind (reduce_grid meth d) (fun d' => reduce_samples meth src keys' (fst (gt_add t k d')))
    end
  end.
Definition reduce_table (meth : method) (t : gtable) : res gtable :=
  reduce_samples meth t (gt_keys t) (gt_new (half_ceil (gt_w t)) (half_ceil (gt_h t))).

(** The chip model, EChipThermalModel.h:40-60: tiles, resolution, powers, layer densities (shared
    pointers are reduced once per object, lines 36-42, which is a map over the values). *)
Record chip := mkChip {
  c_tx : nat; c_ty : nat; c_res : Q;
  c_powers : option gtable;
  c_dens : list (string * option grid) }.

Fixpoint reduce_dens (ds : list (string * option grid)) : res (list (string * option grid)) :=
  match ds with
  | [] => Ok []
  | (n, None) :: ds' => rmap (cons (n, None)) (reduce_dens ds')
  | (n, Some d) :: ds' => bind (reduce_grid Average d) (fun d' => rmap (cons (n, Some d')) (reduce_dens ds'))
  end.

(** EThermalModelReduction.cpp:19-44; [None] is the returned false *)
Definition reduce_chip (c : chip) : res (option chip) :=
  if ((c_tx c <=? 1) || (c_ty c <=? 1))%nat%bool then Ok None
  else
    bind (match c_powers c with None => Ok None | Some t => rmap Some (reduce_table Accumulation t) end) (fun p =>
    bind (reduce_dens (c_dens c)) (fun ds =>
    Ok (Some (mkChip (half_ceil (c_tx c)) (half_ceil (c_ty c)) (c_res c * 2) p ds)))).

(** EThermalModelReduction.cpp:102-111; [None] is nullptr *)
Fixpoint make_reduction (c : chip) (order : nat) : res (option chip) :=
  match order with
  | 0 => Ok (Some c)
  | Datatypes.S k => bind (reduce_chip c) (fun o => match o with None => Ok None | Some c' => make_reduction c' k end)
  end%nat.

(** The grid model, lines 54-89.  A layer's power models are a vector with a capacity: emplace_back
    into a full vector reallocates while the range-for still holds its iterators. *)
Inductive pmodel :=
| PTable (t : gtable)
| PBox (llx lly urx ury : nat) (total : Q).
Record rlayer := mkRL { r_power : list pmodel; r_cap : nat; r_mf : option grid }.
Record rmodel := mkRM { r_nx : nat; r_ny : nat; r_resx : Q; r_resy : Q; r_layers : list rlayer }.

(** lines 64-79 *)
Definition reduce_power (p : pmodel) : res pmodel :=
  match p with
  | PTable t => rmap PTable (reduce_table Accumulation t)
  | PBox llx lly urx ury total => Ok (PBox (half_ceil llx) (half_ceil lly) (half_ceil urx) (half_ceil ury) total)
  end.

(** lines 63-81: [todo] are the elements between the loop's saved iterators, [v] the vector *)
Fixpoint reduce_powers (cap : nat) (todo v : list pmodel) : res (list pmodel) :=
  match todo with
  | [] => Ok v
  | p :: todo' =>
    bind (reduce_power p) (fun p' =>
      if (List.length v <? cap)%nat
      then reduce_powers cap todo' (v ++ [p'])
      else UB)          (* reallocation: the loop increments and dereferences freed storage *)
  end.
Definition reduce_mf (mf : option grid) : res (option grid) :=
  match mf with None => Ok None | Some d => rmap Some (reduce_grid Average d) end.
Fixpoint reduce_layers (ls : list rlayer) : res (list rlayer) :=
  match ls with
  | [] => Ok []
  | l :: ls' =>
    bind (reduce_powers (r_cap l) (r_power l) (r_power l)) (fun ps =>
    bind (reduce_mf (r_mf l)) (fun mf =>
    rmap (cons (mkRL ps (r_cap l) mf)) (reduce_layers ls')))
  end.
Definition reduce_model (m : rmodel) : res (option rmodel) :=
  if ((r_nx m <=? 1) || (r_ny m <=? 1))%nat%bool then Ok None
  else bind (reduce_layers (r_layers m)) (fun ls =>
       Ok (Some (mkRM (half_ceil (r_nx m)) (half_ceil (r_ny m)) (r_resx m * 2) (r_resy m * 2) ls))).
