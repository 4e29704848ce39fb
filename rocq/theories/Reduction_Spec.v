From Verif Require Import Base QSum LookupTable_Model Keyed_Model Reduction_Model.

(** sum of all cells of a grid *)
Definition grid_total (g : grid) : Q := sumf (fun x => sumf (fun y => gr_at g x y) (seq 0 (gr_h g))) (seq 0 (gr_w g)).

(** (x, y) is one of the at most four cells of [d] merged into the coarse cell (X, Y) *)
Definition child (d : grid) (X Y x y : nat) : Prop :=
  (x < gr_w d /\ y < gr_h d /\ (x = 2 * X \/ x = 2 * X + 1) /\ (y = 2 * Y \/ y = 2 * Y + 1))%nat.

(** the number of fine lines merged into a coarse one *)
Definition merged (n X : nat) : nat := if (2 * X + 1 <? n)%nat then 2 else 1.

(** the coarse grid covers the fine one *)
Definition covers (n m : nat) : Prop := (n <= 2 * m < n + 2)%nat.
