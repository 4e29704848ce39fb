(** The layer-cut geometry model.
    src/model/geometry/ELayerCutModel.{h,cpp}, src/model/geometry/utils/ELayerCutModelBuilder.cpp

    Heights are unbounded integers (the code's int); floats are rationals.  ECAD_ASSERT is the
    external GENERIC_ASSERT and is taken as a no-op.  A quotient of thicknesses is compared with the
    ratio by cross multiplication: for a zero divisor the double quotient is +inf (greater than the
    ratio) or NaN (not greater), which is what the product says too. *)
From Verif Require Import Base QSum ThermalNetwork_Model.
From Coq Require Import Qround.

(** ELayerCutModel.h:18-37 *)
Record lrange := mkR { hi : Z; lo : Z }.
Definition r_valid (r : lrange) : bool := (lo r <? hi r)%Z.
Definition thick (r : lrange) : Z := (hi r - lo r)%Z.

(** std::round: half away from zero *)
Definition round_away (q : Q) : Z :=
  if Qle_bool 0 q then Qfloor (q + (1#2)) else Qceiling (q - (1#2)).
(** std::round(0.5 * s) *)
Definition round_half (s : Z) : Z := if Z.even s then (s / 2)%Z else if (0 <? s)%Z then ((s + 1) / 2)%Z else ((s - 1) / 2)%Z.

(** ELayerCutModel.cpp:159-166 *)
Definition slice (r : lrange) : lrange * lrange :=
  let mid := round_half (hi r + lo r) in (mkR (hi r) mid, mkR mid (lo r)).

(** generic::math::GT(a / b, ratio) *)
Definition too_thick (ratio : Q) (a b : Z) : bool := Qltb (ratio * inject_Z b) (inject_Z a).

(** ELayerCutModel.cpp:157-201.  [p] are the ranges before [curr], nearest first.  [curH] is read once
    per iteration and not refreshed after the first slice. *)
Definition split_if (b : bool) (p : list lrange) (c : lrange) : list lrange * lrange :=
  if b then let '(top, bot) := slice c in (top :: p, bot) else (p, c).
Fixpoint slice_pass (ratio : Q) (p : list lrange) (curr : lrange) (rest : list lrange) : list lrange * bool :=
  let curH := thick curr in
  let s1 := match p with pr :: _ => too_thick ratio curH (thick pr) | [] => false end in
  let '(p, curr) := split_if s1 p curr in
  let s2 := match rest with nx :: _ => too_thick ratio curH (thick nx) | [] => false end in
  let '(p, curr) := split_if s2 p curr in
  match rest with
  | [] => (rev (curr :: p), s1 || s2)%bool
  | nx :: rest' => let '(l, s) := slice_pass ratio (curr :: p) nx rest' in (l, (s1 || s2) || s)%bool
  end.
Definition slice_once (ratio : Q) (l : list lrange) : list lrange * bool :=
  match l with [] => ([], false) | c :: r => slice_pass ratio [] c r end.

(** ELayerCutModel.cpp:86-89 *)
Fixpoint slice_all (fuel : nat) (ratio : Q) (l : list lrange) : res (list lrange) :=
  match fuel with
  | 0 => OutOfFuel
  | Datatypes.S k => let '(l', s) := slice_once ratio l in if s then slice_all k ratio l' else Ok l'
  end%nat.

(** One added polygon: its range, whether it has a material, the range of its power block. *)
Record shape := mkS { s_range : lrange; s_mat : bool; s_power : option lrange }.

(** std::set insertion, kept in descending order (lines 64-65) *)
Fixpoint zinsert (h : Z) (l : list Z) : list Z :=
  match l with
  | [] => [h]
  | x :: l' => if (x <? h)%Z then h :: l else if (x =? h)%Z then l else x :: zinsert h l'
  end.
(** ELayerCutModel.cpp:50-63 *)
Definition shape_heights (s : shape) : list Z :=
  if s_mat s && r_valid (s_range s)
  then [hi (s_range s); lo (s_range s)] ++ match s_power s with Some r => [hi r; lo r] | None => [] end
  else [].
Definition layer_order (ss : list shape) : list Z := fold_right zinsert [] (rev (flat_map shape_heights ss)).

(** m_height2Index, filled by emplace in order (lines 66-67, 104-105) *)
Fixpoint index_of (h : Z) (l : list Z) : option nat :=
  match l with
  | [] => None
  | x :: l' => if (x =? h)%Z then Some 0%nat else option_map Datatypes.S (index_of h l')
  end.
Definition at_height (h : Z) (l : list Z) : res nat := match index_of h l with Some i => Ok i | None => Throw end.

Definition lmap := nat -> option (list nat).
Definition push (m : lmap) (i layer : nat) : lmap :=
  fun l => if (l =? layer)%nat then Some (match m l with Some v => v | None => [] end ++ [i]) else m l.

(** TotalLayers, lines 109-112, when there are heights *)
Definition total_layers (order : list Z) : nat := List.length order - 1.

(** ELayerCutModel.cpp:69-81 *)
Fixpoint fill (order : list Z) (i : nat) (ss : list shape) (m : lmap) : res lmap :=
  match ss with
  | [] => Ok m
  | s :: ss' =>
    if r_valid (s_range s) then
      bind (at_height (hi (s_range s)) order) (fun sl =>
      bind (at_height (lo (s_range s)) order) (fun el =>
      let el := Nat.min (total_layers order) el in
      fill order (Datatypes.S i) ss' (fold_left (fun m l => push m i l) (seq sl (el - sl)) m)))
    else fill order (Datatypes.S i) ss' m
  end.

(** lines 84-86, 90-93 *)
Fixpoint ranges_of (order : list Z) : list lrange :=
  match order with
  | a :: ((b :: _) as r) => mkR a b :: ranges_of r
  | _ => []
  end.
Definition order_of (rs : list lrange) (d : Z) : list Z := map hi rs ++ [last (map lo rs) d].

(** ELayerCutModel.cpp:94-100; [prev] is lyrPolygons.at(i - 1) *)
Fixpoint relabel (old : list Z) (m : lmap) (prev : res (list nat)) (hs : list Z) : res (list (list nat)) :=
  match hs with
  | [] => Ok []
  | h :: hs' =>
    bind (match index_of h old with
          | Some j => match m j with Some v => Ok v | None => Throw end
          | None => prev end) (fun v =>
    rmap (cons v) (relabel old m (Ok v) hs'))
  end.

Record lcm := mkL { l_order : list Z; l_polys : lmap }.

(** ELayerCutModel.cpp:45-107.  Without heights, line 85 reads an empty vector with at(). *)
Definition build_lut (fuel : nat) (ratio : Q) (ss : list shape) : res lcm :=
  let order := layer_order ss in
  bind (fill order 0 ss (fun _ => None)) (fun m =>
  if Qltb 1 ratio then
    match order with
    | [] => Throw
    | _ =>
      bind (slice_all fuel ratio (ranges_of order)) (fun rs =>
      match rs with
      | [] => UB                     (* ranges.back() of an empty list *)
      | r0 :: _ =>
        let order' := order_of rs 0 in
        bind (relabel order m Throw (map hi rs)) (fun vs =>
        Ok (mkL order' (fun l => nth_error vs l)))
      end)
    end
  else Ok (mkL order m)).

(** Queries, lines 114-131 *)
Definition layer_by_height (m : lcm) (h : Z) : option nat := index_of h (l_order m).
Definition layer_polygons (m : lcm) (l : nat) : option (list nat) := l_polys m l.

(** ELayerCutModel.cpp:138-147 *)
Definition get_height (scale : Q) (h : Q) : Z := round_away (h * scale).
Definition get_range (scale elevation thickness : Q) : lrange :=
  mkR (get_height scale elevation) (get_height scale (elevation - thickness)).

(** ELayerCutModelBuilder.cpp:44-53: the part of a power block that carries the heat; AddPolygon and AddPowerBlock
    themselves are in CutBuild_Model.v *)
Definition power_range (scale elevation thickness pos pth : Q) : lrange :=
  let pe := elevation - thickness * pos in
  let pt := Qmin (thickness * pth) (thickness - elevation + pe) in
  get_range scale pe pt.
