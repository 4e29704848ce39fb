(** What a user may assume about the rates of a transient simulation; the getters, [dissipates] and
    [equilibrium] are those of ThermalNetwork_Spec and Steady_Spec. *)
From Verif Require Import Base QSum ThermalNetwork_Model ThermalNetwork_Spec Steady_Spec.

(** every node that produces or absorbs heat has a scenario, and scenarios are at most 2^24 *)
Definition scenarios_small (l : network) : Prop :=
  forall i, (i < List.length l)%nat -> ~ get_hf l i == 0 -> exists s, get_scen l i = Some s /\ (Z.of_nat s <= 2 ^ 24)%Z.

(** the factor of node [i]'s heat at time [t] *)
Definition factor (l : network) (e : option (Q -> Z -> Q)) (t : Q) (i : nat) : Q :=
  match e, get_scen l i with
  | Some f, Some s => f t (Z.of_nat s)
  | _, _ => 1
  end.

(** the heat node [i] receives per second when the temperatures are [x]: from the other nodes through the
    conductances of G, from the ambient, and its own *)
Definition inflow (l : network) (m : mna) (refT : Q) (e : option (Q -> Z -> Q)) (t : Q) (x : nat -> Q) (i : nat) : Q :=
  sumf (fun j => if (j =? i)%nat then 0 else - entry (m_G m) i j * (x j - x i)) (seq 0 (List.length l))
  + get_htc l i * (refT - x i) + get_hf l i * factor l e t i.

(** every node stores heat *)
Definition all_store (l : network) : Prop := forall i, (i < List.length l)%nat -> 0 < get_c l i.

(** the sum over all nodes, weighted by their capacities, of [u] times [v] *)
Definition weighted (l : network) (u v : nat -> Q) : Q := sumf (fun i => get_c l i * u i * v i) (seq 0 (List.length l)).

(** the integers a 32 bit float can hold, and those with an even significand *)
Definition float_integer (v : Z) : Prop := exists a x, (0 <= a < 2 ^ 24 /\ 0 <= x /\ v = a * 2 ^ x)%Z.
Definition even_float (v : Z) : Prop := exists a x, (0 <= a < 2 ^ 24 /\ 0 <= x /\ v = a * 2 ^ x)%Z /\ Z.even a = true.
