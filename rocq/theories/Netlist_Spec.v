(** What a circuit simulator makes of a netlist: the first letter of a name tells what an element is, voltages are
    temperatures and currents are heat flows. *)
From Coq Require Import Ascii.
From Verif Require Import Base QSum Netlist_Model.
Open Scope string_scope.

Definition is_a (k : ascii) (e : element) : bool := match e_name e with String a _ => Ascii.eqb a k | "" => false end.

(** The law of an element for the voltages [v] of the nodes, their rates of change [dv] and the current [c] that flows
    through the element from its first node to its second one *)
Definition law (v dv : string -> Q) (e : element) (c : Q) : Prop :=
  if is_a "R" e then c * e_value e == v (e_from e) - v (e_to e)
  else if is_a "C" e then c == e_value e * (dv (e_from e) - dv (e_to e))
  else if is_a "I" e then c == e_value e
  else if is_a "V" e then v (e_from e) - v (e_to e) == e_value e /\ dv (e_from e) == dv (e_to e)
  else False.

(** The sum of the currents that leave the node [p] *)
Definition leaving (p : string) (ecs : list (element * Q)) : Q :=
  sumf (fun ec => (if String.eqb p (e_from (fst ec)) then snd ec else 0) - (if String.eqb p (e_to (fst ec)) then snd ec else 0)) ecs.

(** [v] and [dv] are a state of the circuit: node 0 is ground, every element follows its law and no current is lost at a
    node *)
Definition circuit_state (es : list element) (v dv : string -> Q) : Prop :=
  v "0" == 0 /\ dv "0" == 0 /\
  exists cs, Forall2 (law v dv) es cs /\ forall p, p <> "0" -> leaving p (combine es cs) == 0.
