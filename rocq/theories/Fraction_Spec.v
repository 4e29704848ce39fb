(** What the metal fraction map and the spread powers should be. *)
From Verif Require Import Base QSum Fraction_Model.
Open Scope Q_scope.

Section Spec.
  Context {polygon : Type} (cover : polygon -> list (nat * nat * Q)).

  (** The part of cell (i, j) the polygon covers. *)
  Definition covered (i j : nat) (p : polygon) : Q :=
    sumf (fun c => if ((fst (fst c) =? i) && (snd (fst c) =? j))%nat%bool then snd c else 0) (cover p).
  (** The shape counts for the layer: it lies on it and its net is selected. *)
  Definition counts (layer : Z) (nets : list Z) (p : primitive (polygon := polygon)) : bool :=
    ((pr_layer p =? layer)%Z && (match nets with [] => true | _ => existsb (Z.eqb (pr_net p)) nets end))%bool.
  (** Metal of one primitive in a cell: its outline less its holes. *)
  Definition metal (i j : nat) (p : primitive (polygon := polygon)) : Q :=
    match pr_shape p with
    | None => 0
    | Some (o, hs) => covered i j o - sumf (covered i j) hs
    end.
End Spec.

(** A value forced into the unit interval. *)
Definition is_clamp (v w : Q) : Prop :=
  (v < 0 /\ w == 0) \/ (1 < v /\ w == 1) \/ (0 <= v /\ v <= 1 /\ w == v).

(** Everything in a grid of nx by ny cells. *)
Definition total (nx ny : nat) (g : grid) : Q := sumf (fun c => g (fst c) (snd c)) (list_prod (seq 0 nx) (seq 0 ny)).

(** The tile of number [i] covers [p]. *)
Definition tile_holds (a : axis) (i p : Z) : Prop := (a_lo a + i * a_stride a <= p < a_lo a + (i + 1) * a_stride a)%Z.
(** Strictly inside the upper bound. *)
Definition inside (a : axis) (p : Z) : Prop := (a_lo a <= p < a_hi a)%Z.
Definition proper (a : axis) : Prop := (0 < a_stride a /\ 0 < a_tiles a /\ a_hi a = a_lo a + a_stride a * a_tiles a)%Z.
Definition box_ok (c : component) : Prop := (fst (c_ll c) <= fst (c_ur c) /\ snd (c_ll c) <= snd (c_ur c))%Z.
