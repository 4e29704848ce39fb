(** What the network built from a prism model should contain. *)
From Verif Require Import Base QSum ThermalNetwork_Model PrismNet_Model.
Open Scope nat_scope.

(** The node an operation writes. *)
Definition owner (o : op) : option nat :=
  match o with
  | AppendNode _ => None
  | SetScenario i _ | SetT i _ | SetHF i _ | AddHF i _ | SetHTC i _ | AddHTC i _ | SetC i _ => Some i
  | SetR a b _ => Some (Nat.min a b)
  end.

(** The thermal exchange with the ambient expected of one face of [area]. *)
Definition face_htc (exposed : bool) (area : Q) (b : option bc) : Q :=
  match exposed, b with true, Some (HTC v) => v * area | _, _ => 0 end.
Definition face_flux (exposed : bool) (area : Q) (b : option bc) : Q :=
  match exposed, b with true, Some (HeatFlux v) => v * area | _, _ => 0 end.
Definition exposed (nb : option nat) : bool := match nb with None => true | Some _ => false end.
Definition is_htc (e : bool) (b : option bc) : bool := match e, b with true, Some (HTC _) => true | _, _ => false end.
Definition is_flux (e : bool) (b : option bc) : bool := match e, b with true, Some (HeatFlux _) => true | _, _ => false end.
Definition power_value (power : option (Q * nat)) : Q := match power with Some (p, _) => p | None => 0 end.

(** [o] couples nodes [a] and [b]. *)
Definition couples (a b : nat) (o : op) : bool :=
  match o with SetR x y _ => ((x =? a) && (y =? b)) || ((x =? b) && (y =? a)) | _ => false end.
(** How often prism [p] names [n] as neighbour. *)
Definition slots (p : prism) : list (option nat) := p_side p ++ [p_top p; p_bot p].
Definition names (p : prism) (n : nat) : nat :=
  List.length (filter (fun s => match s with Some k => k =? n | None => false end) (slots p)).

(** Layers stacked without gaps, from top to bottom, as (elevation of the top, thickness). *)
Fixpoint stacked (ls : list (Q * Q)) : Prop :=
  match ls with
  | [] => True
  | (e, t) :: r => (0 < t)%Q /\ stacked r /\ match r with [] => True | (e', _) :: _ => (e' == e - t)%Q end
  end.
Definition in_layer_k (ls : list (Q * Q)) (k : nat) (h : Q) : Prop :=
  exists e t, nth_error ls k = Some (e, t) /\ (e - t <= h)%Q /\ (h < e)%Q.
Definition below_all (ls : list (Q * Q)) (h : Q) : Prop := forall e t, In (e, t) ls -> (h < e - t)%Q.
