(** What a layer stack-up of a chip thermal model should be. *)
From Coq Require Import QArith Sorted Permutation.
From Verif Require Import Base CtmStack_Model.

(** A via layer is well placed when the names of its two neighbours come from an order in which
    metal layers come first: [rank] decreases from a via to its neighbours. *)
Definition ranked (h : header) (rank : string -> nat) : Prop :=
  forall v, In v (h_via h) -> ~ In (vl_name v) (map ml_name (h_metal h)) ->
    (rank (vl_top v) < rank (vl_name v))%nat /\ (rank (vl_bot v) < rank (vl_name v))%nat.

(** The place of a layer: that of the first metal layer of its name, otherwise between the metal
    neighbours of a via of its name. *)
Inductive placed (h : header) : string -> Q -> Q -> Prop :=
| PMetal l1 m l2 : h_metal h = l1 ++ m :: l2 -> ~ In (ml_name m) (map ml_name l1) ->
    placed h (ml_name m) (ml_elev m) (ml_thick m)
| PVia v topE topT botE botT : ~ In (vl_name v) (map ml_name (h_metal h)) -> In v (h_via h) ->
    placed h (vl_top v) topE topT -> placed h (vl_bot v) botE botT ->
    placed h (vl_name v) (topE - topT) (topE - topT - botE).

(** Consecutive layers: strictly falling, each as thick as the way to the next. *)
Fixpoint contiguous (st : list slayer) : Prop :=
  match st with
  | a :: ((b :: _) as st') => (sl_elev b < sl_elev a)%Q /\ (sl_thick a == sl_elev a - sl_elev b)%Q /\ contiguous st'
  | _ => True
  end.
