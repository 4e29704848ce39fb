(** What a user may assume about an extracted grid model. *)
From Verif Require Import Base QSum LookupTable_Model LookupTable_Spec Fraction_Model Fraction_Spec GridExtract_Model.
Open Scope Q_scope.

(** Tile [i] of an axis and the interval from [lo] to [hi] have a point in common. *)
Definition meets (a : axis) (lo hi : Z) (i : nat) : bool :=
  ((a_lo a + Z.of_nat i * a_stride a <=? hi) && (lo <? a_lo a + (Z.of_nat i + 1) * a_stride a))%Z.
(** The number of tiles that do. *)
Definition met (a : axis) (lo hi : Z) : nat := List.length (filter (meets a lo hi) (seq 0 (Z.to_nat (a_tiles a)))).
(** The share of a cell in a power [p] spread evenly over the tiles the box meets. *)
Definition share (ax ay : axis) (box : (Z * Z) * (Z * Z)) (p : Q) (i j : nat) : Q :=
  let '((x0, y0), (x1, y1)) := box in
  if (meets ax x0 x1 i && meets ay y0 y1 j)%bool
  then p / (inject_Z (Z.of_nat (met ax x0 x1)) * inject_Z (Z.of_nat (met ay y0 y1))) else 0.

(** A component with losses. *)
Definition lossy (c : xcomp) : bool := match xc_loss c with [] => false | _ => true end.
(** It has a box that lies in the region, short of its upper edges, and its layer has the index [k]. *)
Definition placed (lm : list (Z * nat)) (ax ay : axis) (c : xcomp) : Prop :=
  exists ll ur, xc_box c = Some (ll, ur) /\ alookup Z.eqb (xc_layer c) lm <> None /\
    (fst ll <= fst ur /\ snd ll <= snd ur)%Z /\
    inside ax (fst ll) /\ inside ay (snd ll) /\ inside ax (fst ur) /\ inside ay (snd ur).
Definition on_layer (lm : list (Z * nat)) (k : nat) (c : xcomp) : bool :=
  (lossy c && match alookup Z.eqb (xc_layer c) lm with Some i => i =? k | None => false end)%nat%bool.
(** The loss of a component at a temperature. *)
Definition loss_at (t : Q) (c : xcomp) : Q := match lookup (table_of (xc_loss c)) t with Ok p => p | _ => 0 end.
Definition share_of (ax ay : axis) (t : Q) (i j : nat) (c : xcomp) : Q :=
  match xc_box c with Some b => share ax ay b (loss_at t c) i j | None => 0 end.

(** Losses that do not depend on the temperature. *)
Definition constant_loss (c : xcomp) : Prop := forall s s', In s (xc_loss c) -> In s' (xc_loss c) -> snd s == snd s'.
