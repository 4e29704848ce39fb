(** The SPICE netlist of a thermal network, src/solver/thermal/network/utils/ThermalNetlistWriter.h.

    A line of the file is its name, two nodes and a value; the padding between them, the digits a value is printed with
    and the two control lines at the end (the initial value of node 0 and the time step) are left out.  The neighbours of
    a node come in the order of [std::unordered_map]. *)
From Verif Require Import Base QSum Names_Model ThermalNetwork_Model.
Open Scope string_scope.
Open Scope list_scope.

Record element := mkElem { e_name : string; e_from : string; e_to : string; e_value : Q }.

(** ThermalNetlistWriter.h 37, 32 *)
Definition node_name (i : nat) : string := ("N" ++ to_dec i)%string.
Definition ref_name : string := "REF".

(** ThermalNetlistWriter.h 48-80: what is written for the node [i]; [supply] is the number of nodes.  [math::NE] is the
    exact comparison here. *)
Definition node_lines (supply i : nat) (nd : node) : list element :=
  (if Qltb 0 (n_c nd) then [mkElem ("C" ++ to_dec i)%string (node_name i) ref_name (n_c nd)] else []) ++
  map (fun e => mkElem ("R" ++ to_dec i ++ "_" ++ to_dec (fst e))%string (node_name i) (node_name (fst e)) (snd e)) (n_ns nd) ++
  match n_t nd with Some t => [mkElem ("V" ++ to_dec i)%string (node_name i) ref_name t] | None => [] end ++
  (if negb (Qeqb (n_hf nd) 0) then [mkElem ("I" ++ to_dec supply ++ "_" ++ to_dec i)%string (node_name supply) (node_name i) (n_hf nd)] else []) ++
  (if negb (Qeqb (n_htc nd) 0) then [mkElem ("R" ++ to_dec i ++ "_" ++ ref_name)%string (node_name i) ref_name (1 / n_htc nd)] else []).

Fixpoint body (supply i : nat) (l : network) : list element :=
  match l with
  | [] => []
  | nd :: r => node_lines supply i nd ++ body supply (Datatypes.S i) r
  end.

(** ThermalNetlistWriter.h 27-89 *)
Definition netlist (refT : Q) (l : network) : list element :=
  mkElem ("V" ++ ref_name)%string ref_name "0" refT :: body (List.length l) 0 l.
