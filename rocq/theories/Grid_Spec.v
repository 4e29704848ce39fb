(** What a user may assume about grid models and the network built from them. *)
From Verif Require Import Base QSum ThermalNetwork_Model ThermalNetwork_Spec Grid_Model.

Definition in_grid (m : gmodel) (c : cell) : Prop :=
  let '(x, y, z) := c in (x < g_nx m /\ y < g_ny m /\ z < g_nz m)%nat.

Definition opposite (o : orientation) : orientation :=
  match o with Top => Bot | Bot => Top | Left => Right | Right => Left | Front => End_ | End_ => Front end.

(** [b] is the next cell after [a] along one axis *)
Definition next_x (a b : cell) : Prop := let '(x, y, z) := a in b = (Datatypes.S x, y, z).
Definition next_y (a b : cell) : Prop := let '(x, y, z) := a in b = (x, Datatypes.S y, z).
Definition next_z (a b : cell) : Prop := let '(x, y, z) := a in b = (x, y, Datatypes.S z).
Definition share_face (a b : cell) : Prop :=
  next_x a b \/ next_x b a \/ next_y a b \/ next_y b a \/ next_z a b \/ next_z b a.

(** the calls that put a resistor between the nodes [i] and [j] *)
Definition on_pair (i j : nat) (o : op) : bool :=
  match o with
  | SetR a b _ => ((a =? i) && (b =? j) || (a =? j) && (b =? i))%nat%bool
  | _ => false
  end.

(** every cell has the same material mix [f] *)
Definition uniform (m : gmodel) (f : Q) : Prop := forall c, in_grid m c -> metal_fraction m c == f.

(** total power of a power model at the given temperatures *)
Definition power_total (m : gmodel) (T : nat -> Q) (z : nat) (p : power) : Q :=
  match p with
  | PGrid q => sumf (fun x => sumf (fun y => match q (T (flatten m (x, y, z))) x y with Some v => v | None => 0 end)
                                   (seq 0 (g_ny m))) (seq 0 (g_nx m))
  | PBlock _ _ _ _ total => total
  end.
Definition model_power (m : gmodel) (T : nat -> Q) : Q :=
  sumf (fun z => sumf (power_total m T z) (l_power (nth z (g_layers m) layer0))) (seq 0 (g_nz m)).

Definition is_grid_power (p : power) : bool := match p with PGrid _ => true | _ => false end.
Definition is_flux (b : bc) : bool := match b with HeatFlux _ => true | _ => false end.
Definition no_flux (m : gmodel) : Prop :=
  (forall b, g_top m = Some b -> is_flux b = false) /\ (forall b, g_bottom m = Some b -> is_flux b = false) /\
  (forall r b, In (r, b) (g_topblocks m) -> is_flux b = false) /\
  (forall r b, In (r, b) (g_botblocks m) -> is_flux b = false).

(** consecutive layers name each other *)
Definition linked (ls : list glayer) : Prop :=
  forall i a b, nth_error ls i = Some a -> nth_error ls (Datatypes.S i) = Some b ->
    l_bot a = l_name b /\ l_top b = l_name a.

(** The edges of a cell in metres, read off the model's resolution, scale and layers alone. *)
Definition width_x (m : gmodel) : Q := g_resx m * g_scale m.
Definition width_y (m : gmodel) : Q := g_resy m * g_scale m.
Definition width_z (m : gmodel) (z : nat) : Q :=
  match nth_error (g_layers m) z with Some l => l_thick l | None => 0 end.
