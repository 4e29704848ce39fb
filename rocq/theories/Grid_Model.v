(** The grid thermal model and the network built from it.
    src/model/thermal/EGridThermalModel.{h,cpp}, src/model/thermal/EThermalModel.cpp
    src/solver/thermal/utils/EGridThermalNetworkBuilder.{h,cpp}

    Sizes and indices are unbounded naturals; [invalidIndex] is [None]; scalars are rationals.
    Power tables are functions of cell and temperature ([EGridDataTable::Query] is modelled in
    Keyed_Model); material constants are the literals of the builder. *)
From Verif Require Import Base QSum ThermalNetwork_Model.

Definition cell := (nat * nat * nat)%type.   (* ESize3D x y z *)

Inductive bc := HTC (v : Q) | HeatFlux (v : Q) | BadBC.

(** EThermalModel.cpp: EGridPowerModel 20-43, EBlockPowerModel 45-70 *)
Inductive power :=
| PGrid (query : Q -> nat -> nat -> option Q)
| PBlock (llx lly urx ury : nat) (total : Q).

Record glayer := mkLayer {
  l_name : string;
  l_thick : Q;
  l_top : string;
  l_bot : string;
  l_size : nat * nat;              (* width and height of the metal fraction grid *)
  l_mf : nat -> nat -> Q;
  l_power : list power }.

Record gmodel := mkGrid {
  g_nx : nat; g_ny : nat;
  g_resx : Q; g_resy : Q; g_scale : Q;
  g_layers : list glayer;
  g_jumps : list (cell * cell * Q);
  g_top : option bc; g_bottom : option bc;
  g_topblocks : list (nat * nat * (nat * nat) * bc);
  g_botblocks : list (nat * nat * (nat * nat) * bc) }.

(** EGridThermalModel.cpp:261-274 *)
Definition g_nz (m : gmodel) : nat := List.length (g_layers m).
Definition total_grids (m : gmodel) : nat := g_nx m * g_ny m * g_nz m.

(** EGridThermalModel.h:126-129 *)
Definition flatten (m : gmodel) (c : cell) : nat :=
  let '(x, y, z) := c in g_nx m * g_ny m * z + g_ny m * x + y.

(** EGridThermalModel.h:131-140 *)
Definition unflatten (m : gmodel) (i : nat) : cell :=
  let tmp := (g_nx m * g_ny m)%nat in
  let z := (i / tmp)%nat in
  let tmp := (i mod tmp)%nat in
  let y := (tmp mod g_ny m)%nat in
  let x := (tmp / g_ny m)%nat in
  (x, y, z).

(** EGridThermalModel.h:147-150 *)
Definition valid (m : gmodel) (c : cell) : bool :=
  let '(x, y, z) := c in ((x <? g_nx m) && (y <? g_ny m) && (z <? g_nz m))%nat%bool.

Inductive orientation := Top | Bot | Left | Right | Front | End_.

(** EGridThermalNetworkBuilder.cpp:306-348; a coordinate set to [invalidIndex] makes the result
    invalid (h:isValid), here [None] *)
Definition neighbor (m : gmodel) (c : cell) (o : orientation) : option cell :=
  let '(x, y, z) := c in
  match o with
  | Top => match z with 0 => None | Datatypes.S z' => Some (x, y, z') end
  | Bot => if (z =? g_nz m - 1)%nat then None else Some (x, y, Datatypes.S z)
  | Left => match x with 0 => None | Datatypes.S x' => Some (x', y, z) end
  | Right => if (x =? g_nx m - 1)%nat then None else Some (Datatypes.S x, y, z)
  | Front => match y with 0 => None | Datatypes.S y' => Some (x, y', z) end
  | End_ => if (y =? g_ny m - 1)%nat then None else Some (x, Datatypes.S y, z)
  end%nat.

(** EGridThermalNetworkBuilder.h: lengths and areas *)
Definition xlen (m : gmodel) : Q := g_resx m * g_scale m.
Definition ylen (m : gmodel) : Q := g_resy m * g_scale m.
Definition layer0 : glayer := mkLayer ""%string 0 ""%string ""%string (0%nat, 0%nat) (fun _ _ => 0) [].
Definition zlen (m : gmodel) (z : nat) : Q := l_thick (nth z (g_layers m) layer0).
Definition xarea (m : gmodel) (z : nat) : Q := zlen m z * ylen m.
Definition yarea (m : gmodel) (z : nat) : Q := zlen m z * xlen m.
Definition zarea (m : gmodel) : Q := xlen m * ylen m.

(** EGridThermalNetworkBuilder.cpp:207-211 *)
Definition get_res (k1 z1 k2 z2 area : Q) : Q := (z1 / k1 + z2 / k2) / area.

(** cpp:195-199, 213-254: the composite conductivity, equal in the three directions *)
Definition metal_fraction (m : gmodel) (c : cell) : Q :=
  let '(x, y, z) := c in l_mf (nth z (g_layers m) layer0) x y.
Definition conducting_k : Q := 400.
Definition dielectric_k : Q := 70.
Definition cell_k (m : gmodel) (c : cell) : Q :=
  metal_fraction m c * conducting_k + (1 - metal_fraction m c) * dielectric_k.

(** cpp:201-205, 263-291: both capacities use the conducting density *)
Definition cell_cap (m : gmodel) (c : cell) : Q :=
  let '(x, y, z) := c in
  let cap cc rho := cc * rho * zlen m z * zarea m in
  metal_fraction m c * cap 380 8850 + (1 - metal_fraction m c) * cap 691 8850.

Definition opt_list {A B} (o : option A) (f : A -> B) : list B :=
  match o with Some a => [f a] | None => [] end.

(** cpp:26-68, one cell *)
Definition cell_ops (m : gmodel) (i : nat) : list op :=
  let g1 := unflatten m i in
  let z1 := snd g1 in
  let k1 := cell_k m g1 in
  SetC i (cell_cap m g1) ::
  opt_list (neighbor m g1 Right) (fun g2 =>
    SetR i (flatten m g2) (get_res k1 ((1#2) * xlen m) (cell_k m g2) (xlen m) (xarea m z1))) ++
  opt_list (neighbor m g1 End_) (fun g2 =>
    SetR i (flatten m g2) (get_res k1 ((1#2) * ylen m) (cell_k m g2) ((1#2) * ylen m) (yarea m z1))) ++
  opt_list (neighbor m g1 Bot) (fun g2 =>
    SetR i (flatten m g2) (get_res k1 ((1#2) * zlen m z1) (cell_k m g2) ((1#2) * zlen m (snd g2)) (zarea m))).

(** cpp:71-77, bond wires: the resistance passed is [k * alpha], alpha = pi r^2 / L *)
Definition jump_ops (m : gmodel) : list op :=
  flat_map (fun '(a, b, alpha) =>
    let i := flatten m a in let j := flatten m b in
    if (i =? j)%nat then [] else [SetR i j (conducting_k * alpha)]) (g_jumps m).

Definition range (a b : nat) : list nat := seq a (Datatypes.S b - a).   (* for (x = a; x <= b; ++x) *)
Definition thermal_rd : Q := 1#100.   (* cpp:7 *)

(** cpp:117-133 *)
Definition grid_power_ops (m : gmodel) (T : nat -> Q) (q : Q -> nat -> nat -> option Q) (z : nat) : list op :=
  flat_map (fun x => flat_map (fun y =>
    let i := flatten m (x, y, z) in
    opt_list (q (T i) x y) (fun v => SetHF i v)) (seq 0 (g_ny m))) (seq 0 (g_nx m)).

(** cpp:79-101; [node] is the index AppendNode will return *)
Fixpoint layer_power_ops (m : gmodel) (T : nat -> Q) (z : nat) (node : nat) (ps : list power) : list op * nat :=
  match ps with
  | [] => ([], node)
  | PGrid q :: ps' =>
    let '(os, n) := layer_power_ops m T z node ps' in (grid_power_ops m T q z ++ os, n)
  | PBlock llx lly urx ury total :: ps' =>
    let '(os, n) := layer_power_ops m T z (Datatypes.S node) ps' in
    ([AppendNode None; SetHF node total] ++
     flat_map (fun x => map (fun y => SetR (flatten m (x, y, z)) node thermal_rd) (range lly ury)) (range llx urx) ++ os, n)
  end.
Fixpoint power_ops (m : gmodel) (T : nat -> Q) (z node : nat) (ls : list glayer) : list op :=
  match ls with
  | [] => []
  | l :: ls' => let '(os, n) := layer_power_ops m T z node (l_power l) in os ++ power_ops m T (Datatypes.S z) n ls'
  end.

(** cpp:135-163 and 165-193 *)
Definition bc_op (m : gmodel) (b : bc) (i : nat) : list op :=
  match b with
  | HTC v => [SetHTC i (zarea m * v)]
  | HeatFlux v => [SetHF i (zarea m * v)]
  | BadBC => []      (* isValid() fails, lines 138 and 168 *)
  end.
Definition uniform_bc_ops (m : gmodel) (b : option bc) (z : nat) : list op :=
  match b with
  | None => []
  | Some b => flat_map (fun x => flat_map (fun y => bc_op m b (flatten m (x, y, z))) (seq 0 (g_ny m))) (seq 0 (g_nx m))
  end.
Definition block_bc_ops (m : gmodel) (bs : list (nat * nat * (nat * nat) * bc)) (z : nat) : list op :=
  flat_map (fun '(llx, lly, (urx, ury), b) =>
    flat_map (fun x => flat_map (fun y => bc_op m b (flatten m (x, y, z))) (range lly ury)) (range llx urx)) bs.

(** cpp:15-115 *)
Definition build_ops (m : gmodel) (T : nat -> Q) : list op :=
  flat_map (cell_ops m) (seq 0 (total_grids m)) ++
  jump_ops m ++
  power_ops m T 0 (total_grids m) (g_layers m) ++
  uniform_bc_ops m (g_top m) 0 ++
  uniform_bc_ops m (g_bottom m) (g_nz m - 1) ++
  block_bc_ops m (g_topblocks m) 0 ++
  block_bc_ops m (g_botblocks m) (g_nz m - 1).

Definition build (minR : Q) (m : gmodel) (T : list Q) : res (option network) :=
  if (List.length T =? total_grids m)%nat
  then rmap Some (run minR (net_new (total_grids m)) (build_ops m (fun i => nth i T 0)))
  else Ok None.

(** the builder's summary: every SetHF is accompanied by one of the two accumulations
    (cpp:90-92, 128-129, 152-153, 182-183); AddHF never occurs *)
Definition summary_heat (os : list op) : Q * Q :=
  fold_left (fun '(i, o) op => match op with
    | SetHF _ v => if Qltb 0 v then (i + v, o) else (i, o + v)
    | _ => (i, o) end) os (0, 0).

(** EThermalModel.cpp:50-55, 67-70; [Size] for ll <= ur *)
Definition block_query (llx lly urx ury : nat) (total : Q) (x y : nat) : Q :=
  if ((llx <=? x) && (x <=? urx) && (lly <=? y) && (y <=? ury))%nat%bool
  then total / inject_Z (Z.of_nat ((ury - lly + 1) * (urx - llx + 1))) else 0.

(** EGridThermalModel.cpp:316-327; [None] is the returned invalidIndex *)
Definition append_layer (m : gmodel) (l : glayer) : gmodel * option nat :=
  if Qltb (l_thick l) 0 then (m, None)
  else if negb ((fst (l_size l) =? g_nx m) && (snd (l_size l) =? g_ny m))%nat then (m, None)
  else
    let with_layers ls := mkGrid (g_nx m) (g_ny m) (g_resx m) (g_resy m) (g_scale m) ls (g_jumps m)
                                 (g_top m) (g_bottom m) (g_topblocks m) (g_botblocks m) in
    let set_bot n (x : glayer) := mkLayer (l_name x) (l_thick x) (l_top x) n (l_size x) (l_mf x) (l_power x) in
    let set_top n (x : glayer) := mkLayer (l_name x) (l_thick x) n (l_bot x) (l_size x) (l_mf x) (l_power x) in
    match rev (g_layers m) with
    | [] => (with_layers (g_layers m ++ [l]), Some 0%nat)
    | b :: rest =>
      let ls := rev rest ++ [set_bot (l_name l) b] ++ [set_top (l_name b) l] in
      (with_layers ls, Some (List.length ls - 1)%nat)
    end.
Fixpoint append_layers (m : gmodel) (ls : list glayer) : gmodel :=
  match ls with
  | [] => m
  | l :: ls' => append_layers (fst (append_layer m l)) ls'
  end.
