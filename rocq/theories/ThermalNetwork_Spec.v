(** What a user may assume about the thermal network, stated on the entries of the assembled
    matrices and on the history of calls only. *)
From Verif Require Import Base QSum ThermalNetwork_Model.

(** matrix-vector product and row sum of an [n]-column matrix given by its entries *)
Definition mulv (n : nat) (M : nat -> nat -> Q) (x : nat -> Q) (i : nat) : Q :=
  sumf (fun j => M i j * x j) (seq 0 n).
Definition row_sum (n : nat) (M : nat -> nat -> Q) (i : nat) : Q := sumf (fun j => M i j) (seq 0 n).

(** the coefficient, power and capacity of node [i] as read back by the getters *)
Definition get_htc (l : network) (i : nat) : Q := n_htc (nth i l node0).
Definition get_hf (l : network) (i : nat) : Q := n_hf (nth i l node0).
Definition get_c (l : network) (i : nat) : Q := n_c (nth i l node0).
Definition get_scen (l : network) (i : nat) : option nat := n_scen (nth i l node0).

(** the conductance given to the unordered pair [a, b] by one call *)
Definition call_conductance (minR : Q) (a b : nat) (o : op) : Q :=
  match o with
  | SetR x y r =>
    if ((x =? a) && (y =? b) || (x =? b) && (y =? a))%nat%bool then 1 / Qmax r minR else 0
  | _ => 0
  end.

(** the two ends of every resistor exist among [n] nodes *)
Definition ends_below (n : nat) (o : op) : Prop :=
  match o with SetR a b _ => (a < n)%nat /\ (b < n)%nat | _ => True end.

(** node [i] can reach a node with a positive coefficient to ambient through resistors *)
Inductive grounded (n : nat) (M : nat -> nat -> Q) (h : nat -> Q) : nat -> Prop :=
| grounded_here i : (i < n)%nat -> 0 < h i -> grounded n M h i
| grounded_via i j : (i < n)%nat -> (j < n)%nat -> i <> j -> ~ M i j == 0 -> grounded n M h j -> grounded n M h i.

(** the steady state equation of every node *)
Definition steady (n : nat) (M : nat -> nat -> Q) (rhs : nat -> Q) (T : nat -> Q) : Prop :=
  forall i, (i < n)%nat -> mulv n M T i == rhs i.
