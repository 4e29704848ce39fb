(** Elementary geometry of prisms *)
From Coq Require Import Reals.
From Verif Require Import PrismGeom_Model.
Open Scope R_scope.

(** all vertices at one elevation *)
Definition level (t : tri) : Prop := pz (v1 t) = pz (v0 t) /\ pz (v2 t) = pz (v0 t).

(** twice the signed area of three points in the plane *)
Definition turn (a b c : R * R) : R := (fst b - fst a) * (snd c - snd a) - (snd b - snd a) * (fst c - fst a).
Definition signed (t : tri) : R := turn (px (v0 t), py (v0 t)) (px (v1 t), py (v1 t)) (px (v2 t), py (v2 t)).
Definition collinear (t : tri) : Prop := signed t = 0.

(** the corner opposite to side [ie], which joins corner [ie] and the following one *)
Definition corner (t : tri) (i : nat) : R * R := match i with 0%nat => (px (v0 t), py (v0 t)) | 1%nat => (px (v1 t), py (v1 t)) | _ => (px (v2 t), py (v2 t)) end.
Definition following (i : nat) : nat := match i with 0%nat => 1%nat | 1%nat => 2%nat | _ => 0%nat end.

(** [t] and [u] share side [ie] of [t], which is side [je] of [u], and lie on different sides of it *)
Definition adjacent (t : tri) (ie : nat) (u : tri) (je : nat) : Prop :=
  (ie < 3)%nat /\ (je < 3)%nat /\ corner t ie = corner u (following je) /\ corner t (following ie) = corner u je /\
  turn (corner t ie) (corner t (following ie)) (corner t (following (following ie))) *
  turn (corner t ie) (corner t (following ie)) (corner u (following (following je))) < 0.

(** the way between the centres crosses the common side at a right angle *)
Definition straight (t : tri) (ie : nat) (u : tri) : Prop :=
  let a := corner t ie in let b := corner t (following ie) in
  (fst b - fst a) * (fst (center u) - fst (center t)) + (snd b - snd a) * (snd (center u) - snd (center t)) = 0.
