(** What a user may assume about the steady temperatures of a thermal network and of a grid model.
    [steady], [grounded] and the getters are those of ThermalNetwork_Spec. *)
From Verif Require Import Base QSum ThermalNetwork_Model ThermalNetwork_Spec Grid_Model Grid_Spec.

(** [T] solves the system handed to the static solver for the ambient temperature [refT] *)
Definition equilibrium (l : network) (m : mna) (refT : Q) (T : nat -> Q) : Prop :=
  steady (List.length l) (entry (m_G m)) (fun i => nth i (make_full_rhs l refT) 0) T.

(** no coefficient is negative and every node reaches the ambient *)
Definition dissipates (l : network) (m : mna) : Prop :=
  (forall i, (i < List.length l)%nat -> 0 <= get_htc l i) /\
  (forall i, (i < List.length l)%nat -> grounded (List.length l) (entry (m_G m)) (get_htc l) i).

(** there is one equilibrium and no other *)
Definition exactly_one (l : network) (m : mna) (refT : Q) : Prop :=
  exists T, equilibrium l m refT T /\
  forall T', equilibrium l m refT T' -> forall i, (i < List.length l)%nat -> T' i == T i.

(** the nodes chosen by [I] are coupled to no other node and exchange no heat with the ambient *)
Definition island (l : network) (m : mna) (I : nat -> bool) : Prop :=
  forall i, (i < List.length l)%nat -> I i = true -> get_htc l i == 0 /\
  forall j, (j < List.length l)%nat -> I j = false -> entry (m_G m) i j == 0.

(** the same nodes, resistors and coefficients; powers may differ *)
Definition same_passive (l l' : network) : Prop :=
  Forall2 (fun a b => n_ns a = n_ns b /\ n_htc a = n_htc b) l l'.

(** the sum of all coefficients to the ambient *)
Definition total_htc (l : network) : Q := sumf (get_htc l) (seq 0 (List.length l)).

(** * Grid models *)
(** the corners of every power block are in order *)
Definition blocks_ordered (m : gmodel) : Prop :=
  forall l llx lly urx ury q, In l (g_layers m) -> In (PBlock llx lly urx ury q) (l_power l) ->
  (llx <= urx /\ lly <= ury)%nat.

(** the boundary condition [b] occurs in the model *)
Definition has_bc (m : gmodel) (b : bc) : Prop :=
  g_top m = Some b \/ g_bottom m = Some b \/ exists r, In (r, b) (g_topblocks m) \/ In (r, b) (g_botblocks m).

(** the whole top or bottom face exchanges heat with the ambient and no coefficient is zero or negative *)
Definition cooled (m : gmodel) : Prop :=
  (exists v, g_top m = Some (HTC v) \/ g_bottom m = Some (HTC v)) /\ forall v, has_bc m (HTC v) -> 0 < v.
