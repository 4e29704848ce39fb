(** What an exported chip model should say about the layout. *)
From Verif Require Import Base QSum Fraction_Model Fraction_Spec LayoutCtm_Model.
From Verif Require CtmGrid_Model Keyed_Model CtmStack_Model.
Import CtmGrid_Model (chip, cc_res, cc_tx, cc_ty, cc_layers, cc_dens, cc_size, cc_head).
Import CtmStack_Model (cl_name, cl_thick).
Open Scope Q_scope.

(** As few tiles of the size [stride] as cover [len] *)
Definition fewest_tiles (map_size : Z -> Z -> nat) : Prop :=
  forall len stride, (0 < len)%Z -> (0 < stride)%Z ->
    (Z.of_nat (map_size len stride) * stride < len + stride /\ len <= Z.of_nat (map_size len stride) * stride)%Z.

(** The tiles along one direction that the chip model speaks of: they start at [lo] and are [stride] wide. *)
Definition tiles_of (a : axis) (lo stride : Z) (n : nat) : Prop :=
  a_lo a = lo /\ a_stride a = stride /\ a_tiles a = Z.of_nat n.

(** The chip model has, for every layer of the stack-up, a density table which gives for each tile what the shapes on that
    layer cover of it. *)
Definition tells {polygon} (cover : polygon -> list (nat * nat * Q)) (meter : Q) (nx ny : nat) (nets : list Z) (stack : list stlayer)
    (prims : list (primitive (polygon := polygon))) (c : chip) : Prop :=
  (cc_tx c, cc_ty c) = (nx, ny) /\ List.length (cc_layers c) = List.length stack /\
  forall k t, nth_error stack k = Some t ->
    (exists cl, nth_error (cc_layers c) k = Some cl /\ cl_name cl = st_name t /\ cl_thick cl == st_thick t * meter * 1000000) /\
    exists g, alookup String.eqb (st_name t) (cc_dens c) = Some (Some g) /\ (Keyed_Model.gr_w g, Keyed_Model.gr_h g) = (nx, ny) /\
      forall x y, (x < nx)%nat -> (y < ny)%nat ->
        is_clamp (sumf (metal cover x y) (filter (counts (st_id t) nets) prims)) (Keyed_Model.gr_at g x y).

(** What the layout must be like: the region is a whole number of tiles, the layers differ in id and name. *)
Definition fits {polygon} (s : settings) (l : layout (polygon := polygon)) (kx ky : nat) : Prop :=
  c_named s = true /\ (0 < kx)%nat /\ (0 < ky)%nat /\ (0 < c_stride s)%Z /\
  (fst (lo_ur l) + c_right s - (fst (lo_ll l) - c_left s) = Z.of_nat kx * c_stride s)%Z /\
  (snd (lo_ur l) + c_top s - (snd (lo_ll l) - c_bot s) = Z.of_nat ky * c_stride s)%Z /\
  NoDup (map st_id (lo_stack l)) /\ NoDup (map st_name (lo_stack l)) /\
  forall t, In t (lo_stack l) -> 0 <= st_thick t /\ st_id t <> (-1)%Z.

(** Every layer that is not a conductor lies directly between two conductors. *)
Definition between_conductors (stack : list stlayer) : Prop :=
  forall k t, nth_error stack k = Some t -> st_metal t = false ->
    exists j a b, k = S j /\ nth_error stack j = Some a /\ st_metal a = true /\ nth_error stack (S k) = Some b /\ st_metal b = true.
