(** What a user may assume about the static simulation of a grid model *)
From Verif Require Import Base QSum ThermalNetwork_Model ThermalNetwork_Spec Grid_Model Grid_Spec Grid_Props Steady_Spec.

(** The linear solver solves every system with exactly one solution *)
Definition solves_exactly (lin : nat -> (nat -> nat -> Q) -> (nat -> Q) -> nat -> Q) : Prop :=
  forall n M b, (exists T, steady n M b T /\ forall T', steady n M b T' -> forall i, (i < n)%nat -> T' i == T i) ->
  steady n M b (lin n M b).

(** every power is a table; none is given as a block *)
Definition tables_only (g : gmodel) : Prop :=
  forall l p, In l (g_layers g) -> In p (l_power l) -> exists q, p = PGrid q.

(** some layer has a power given as a block *)
Definition some_block (g : gmodel) : Prop :=
  exists l llx lly urx ury q, In l (g_layers g) /\ In (PBlock llx lly urx ury q) (l_power l).

(** no power depends on the temperature *)
Definition constant_power (g : gmodel) : Prop :=
  forall l q, In l (g_layers g) -> In (PGrid q) (l_power l) -> forall t t' x y, q t x y = q t' x y.

(** a model that can be solved: cells, layers, positive area, cooled, everything within the grid *)
Definition solvable_model (g : gmodel) : Prop :=
  (0 < g_nx g)%nat /\ (0 < g_ny g)%nat /\ g_layers g <> [] /\ blocks_in_grid g /\ blocks_ordered g /\
  0 < width_x g * width_y g /\ cooled g.

(** [T] is the steady state of the network built for the temperatures [prev] *)
Definition balance_of (minR : Q) (g : gmodel) (envT : Q) (prev T : list Q) : Prop :=
  List.length T = total_grids g /\
  exists net m, build minR g prev = Ok (Some net) /\ make_mna net true [] = Ok m /\
    equilibrium net m envT (fun i => nth i T 0).

(** the number reported for the absolute temperature [t] *)
Definition reported (celsius : bool) (t : Q) : Q := if celsius then t - (27315 # 100) else t.

Definition hottest (mx : Q) (l : list Q) : Prop := In mx l /\ forall t, In t l -> t <= mx.
Definition coldest (mn : Q) (l : list Q) : Prop := In mn l /\ forall t, In t l -> mn <= t.

(** the temperature of a cell in a list of all temperatures, layer by layer and column by column *)
Definition cell_temp (g : gmodel) (T : list Q) (x y z : nat) : Q := nth (g_nx g * g_ny g * z + g_ny g * x + y) T 0.

(** A picture shows a layer whose temperatures differ: the coldest cell has shade 0, the hottest 1, and the others in proportion *)
Definition shows_layer (g : gmodel) (T : list Q) (z : nat) (shades : nat -> nat -> option Q) : Prop :=
  exists lo hi, lo < hi /\
    (exists x y, (x < g_nx g)%nat /\ (y < g_ny g)%nat /\ cell_temp g T x y z = lo) /\
    (exists x y, (x < g_nx g)%nat /\ (y < g_ny g)%nat /\ cell_temp g T x y z = hi) /\
    forall x y, (x < g_nx g)%nat -> (y < g_ny g)%nat ->
      exists s, shades x y = Some s /\ 0 <= s /\ s <= 1 /\ cell_temp g T x y z == lo + s * (hi - lo).

(** all temperatures of a layer are equal *)
Definition flat_layer (g : gmodel) (T : list Q) (z : nat) : Prop :=
  forall x y x' y', (x < g_nx g)%nat -> (y < g_ny g)%nat -> (x' < g_nx g)%nat -> (y' < g_ny g)%nat ->
    cell_temp g T x y z == cell_temp g T x' y' z.
