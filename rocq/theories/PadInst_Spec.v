From Verif Require Import Base Padstack_Model LayerMap_Model Transform_Model Transform_Spec PadInst_Model.

(** the parameters in force on a padstack layer: the pad of that layer if it has a shape, else the via's *)
Inductive in_force (d : psdata) (l : Z) : outline -> pt -> Q -> Prop :=
| if_pad n p s : l = Z.of_nat n -> nth_error (ps_pads d) n = Some p -> pr_shape (pad_par p) = Some s ->
    in_force d l s (pr_off (pad_par p)) (pr_rot (pad_par p))
| if_via s : (forall n p, l = Z.of_nat n -> nth_error (ps_pads d) n = Some p -> pr_shape (pad_par p) = None) ->
    pr_shape (ps_via d) = Some s -> in_force d l s (pr_off (ps_via d)) (pr_rot (ps_via d)).

(** [l] lies between the two layers of the range, whichever is the upper one *)
Definition between (a b l : Z) : Prop := (a <= l <= b \/ b <= l <= a)%Z.

(** the instance has outline [s] with offset [o] and rotation [r] on layer [l] *)
Inductive has_shape (h : heap) (i : pinst) (l : Z) (s : outline) (o : pt) (r : Q) : Prop :=
| hs a m d : between (i_top i) (i_bot i) l -> i_map i = Some a -> nth_error h a = Some m ->
    i_def i = Some (Some d) -> in_force d (forward (mo_map m) l) s o r -> has_shape h i l s o r.

(** the layer map leads to no negative pad index except "no layer" *)
Definition sane_target (h : heap) (i : pinst) (l : Z) : Prop :=
  forall a, i_map i = Some a ->
    exists m, nth_error h a = Some m /\ (0 <= forward (mo_map m) l \/ forward (mo_map m) l = noLayer)%Z.

Section Place.
  Context (cosQ sinQ : Q -> Q).

  (** a pad's own rotation and offset *)
  Definition local_pt (o : pt) (r : Q) (p : pt) : pt := shift_pt o (rotate_pt cosQ sinQ r p).

  (** where a pad belongs: first its own rotation and offset inside the padstack, then the instance's placement *)
  Definition expected_pt (t : transform) (o : pt) (r : Q) (p : pt) : pt :=
    moves cosQ sinQ t (local_pt o r p).
End Place.

(** a layer mapping that keeps, or that reverses, the order of the layers it maps *)
Definition keeps_order (f : lmap) : Prop :=
  forall a b, (0 <= a)%Z -> (0 <= b)%Z ->
    forward f a <> noLayer -> forward f b <> noLayer -> (a < b)%Z -> (forward f a < forward f b)%Z.
Definition reverses_order (f : lmap) : Prop :=
  forall a b, (0 <= a)%Z -> (0 <= b)%Z ->
    forward f a <> noLayer -> forward f b <> noLayer -> (a < b)%Z -> (forward f b < forward f a)%Z.

(** every layer map object was filled by SetMapping calls on valid ids *)
Definition map_built (m : lmap) : Prop :=
  exists calls, m = lm_run calls /\ forall p, In p calls -> (0 <= fst p)%Z.

(** what the layer mapping must do with one instance: same definition and placement, the range mapped, and a
    layer map of its own (a registered, named object that did not exist before) which leads from the new layer
    to where the old map led from the old layer *)
Inductive mapped_to (lyr : lmap) (before after : mstate) (i i' : pinst) : Prop :=
| mt a b o o' :
    i_map i = Some a -> nth_error (ms_heap before) a = Some o ->
    i_map i' = Some b -> nth_error (ms_heap after) b = Some o' ->
    (List.length (ms_heap before) <= b)%nat ->
    alookup String.eqb (mo_name o') (ms_reg after) = Some b ->
    (forall x, forward (mo_map o') x = forward (mo_map o) (backward lyr x)) ->
    i_def i' = i_def i -> i_tr i' = i_tr i ->
    i_top i' = forward lyr (i_top i) -> i_bot i' = forward lyr (i_bot i) ->
    mapped_to lyr before after i i'.
