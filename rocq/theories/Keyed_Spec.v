From Verif Require Import Base LookupTable_Model LookupTable_Spec Keyed_Model.
From Coq Require Import QArith.
Local Open Scope Q_scope.

(** the first and the last value a history writes to key k *)
Fixpoint first_set {V} (hist : list (nat * V)) (k : nat) : option V :=
  match hist with
  | [] => None
  | (k', v) :: r => if (k' =? k)%nat then Some v else first_set r k
  end.
Definition last_set {V} (hist : list (nat * V)) (k : nat) : option V := first_set (rev hist) k.

Definition set_once {V} (hist : list (nat * V)) (k : nat) : Prop :=
  (List.length (filter (fun s => (fst s =? k)%nat) hist) <= 1)%nat.

(** the samples a grid table of size w x h keeps: those of the right size, in history order *)
Fixpoint accepted (w h : nat) (ops : list gt_op) : list (Q * grid) :=
  match ops with
  | [] => []
  | GAdd k d :: r => if ((gr_w d =? w) && (gr_h d =? h))%nat then (k, d) :: accepted w h r else accepted w h r
  | GQuery _ _ _ :: r => accepted w h r
  end.

(** what a query must answer, given the samples so far; no notion of a cache *)
Section S.
  Context (pchip : list Q -> list Q -> Q -> res Q).

  Inductive query_spec (w h : nat) (samples : list (Q * grid)) (k : Q) (x y : nat) : bool -> res Q -> Prop :=
  | q_outside : (w <= x \/ h <= y)%nat -> query_spec w h samples k x y false (Ok 0)
  | q_empty : samples = [] -> query_spec w h samples k x y false (Ok 0)
  | q_first k0 d0 r : (x < w)%nat -> (y < h)%nat -> samples = (k0, d0) :: r -> k <= k0 \/ r = [] ->
      query_spec w h samples k x y true (Ok (gr_at d0 x y))
  | q_last kn dn r : (x < w)%nat -> (y < h)%nat -> samples = r ++ [(kn, dn)] -> r <> [] ->
      (forall k0 d0 r', samples = (k0, d0) :: r' -> k0 < k) -> kn <= k ->
      query_spec w h samples k x y true (Ok (gr_at dn x y))
  | q_inside : (x < w)%nat -> (y < h)%nat -> 
      (forall k0 d0 r, samples = (k0, d0) :: r -> k0 < k) -> (forall kn dn r, samples = r ++ [(kn, dn)] -> k < kn) ->
      samples <> [] ->
      query_spec w h samples k x y true (pchip (map fst samples) (map (fun s => gr_at (snd s) x y) samples) k).

  (** outputs of a history against the samples accepted before each call *)
  Inductive outputs_spec (w h : nat) : list (Q * grid) -> list gt_op -> list gt_out -> Prop :=
  | o_nil s : outputs_spec w h s [] []
  | o_add s k d ops outs b :
      b = ((gr_w d =? w) && (gr_h d =? h))%nat ->
      outputs_spec w h (if b then tbl_emplace k d s else s) ops outs ->
      outputs_spec w h s (GAdd k d :: ops) (OAdd b :: outs)
  | o_query s k x y ops outs b r :
      query_spec w h s k x y b r ->
      outputs_spec w h s ops outs ->
      outputs_spec w h s (GQuery k x y :: ops) (OQuery b r :: outs).
End S.
