(** What is said about shapes. *)
From Verif Require Import Base QSum.
From Verif Require Import Transform_Model Transform_Spec Shape_Model.
Local Open Scope Q_scope.

Definition in_box (p : pt) (b : box) : Prop :=
  fst (fst b) <= fst p <= fst (snd b) /\ snd (fst b) <= snd p <= snd (snd b).

(** The smallest box that holds the points: each of its sides goes through one of them. *)
Definition least_box (ps : list pt) (b : box) : Prop :=
  (forall p, In p ps -> in_box p b) /\
  (exists p, In p ps /\ fst p == fst (fst b)) /\ (exists p, In p ps /\ snd p == snd (fst b)) /\
  (exists p, In p ps /\ fst p == fst (snd b)) /\ (exists p, In p ps /\ snd p == snd (snd b)).

(** Rounding of coordinates keeps their order. *)
Definition monotone (rnd : Q -> Q) : Prop := forall x y, x <= y -> rnd x <= rnd y.
Definition exact (rnd : Q -> Q) : Prop := forall x, rnd x == x.

(** The squared distance of two points. *)
Definition dist2 (p q : pt) : Q := (fst p - fst q) * (fst p - fst q) + (snd p - snd q) * (snd p - snd q).
Definition in_disc (o : pt) (r : Q) (p : pt) : Prop := dist2 p o <= r * r.

(** A transform object that was not appended to after its matrix had been asked for (see C12): its items and its
    matrix say the same. *)
Section S.
  Context (cosQ sinQ : Q -> Q).
  Definition consistent (t : transform) : Prop :=
    forall p, peq (moves cosQ sinQ t p) (aff_apply (seq_transform cosQ sinQ (t_seq t)) p).

  (** Transforms applied to a point one after the other. *)
  Definition moves_all (ts : list transform) (p : pt) : pt := fold_left (fun q t => moves cosQ sinQ t q) ts p.
  Definition rmoves_all (rnd : Q -> Q) (ts : list transform) (p : pt) : pt :=
    fold_left (fun q t => (rnd (fst (moves cosQ sinQ t q)), rnd (snd (moves cosQ sinQ t q)))) ts p.

  (** Every item turns by a multiple of a right angle; no item scales. *)
  Definition right_angles (t : transform) : Prop :=
    forall d, In d (t_seq t) -> (cosQ (td_rot d) == 0 \/ sinQ (td_rot d) == 0).
  Definition unscaled (t : transform) : Prop := forall d, In d (t_seq t) -> td_scale d == 1.
End S.

(** The transforms of a history of calls, oldest first. *)
Fixpoint s_moves (ops : list s_op) : list transform :=
  match ops with
  | [] => []
  | SMove t :: ops' => t :: s_moves ops'
  | SQuery :: ops' => s_moves ops'
  end.

(** Shapes whose points are stored: not a rectangle, path or circle (inside a template these are fine). *)
Definition pointwise (s : shape) : Prop :=
  match s with Poly _ => True | PolyH _ _ => True | Templ (Some _) _ => True | _ => False end.
