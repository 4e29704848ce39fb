(** Model of the metal fraction map, src/utility/EMetalFractionMapping.{h,cpp}, and of the component
    powers spread over it, src/extraction/thermal/EThermalModelExtraction.cpp:93-130.

    How much of a cell a polygon covers (OccupancyGridMappingFactory::Map2Grid of the geometry library)
    is a parameter; floating point numbers are rationals. *)
From Verif Require Import Base QSum.
From Coq Require Import Qround.
Open Scope res_scope.
Open Scope Q_scope.

Definition qlt (a b : Q) : bool := negb (Qle_bool b a).

(** A grid map: the value of every cell. *)
Definition grid : Type := nat -> nat -> Q.
Definition update (g : grid) (i j : nat) (f : Q -> Q) : grid :=
  fun a b => if ((a =? i) && (b =? j))%nat%bool then f (g a b) else g a b.

(** ** The map of one layer *)
Section Map.
  Context {polygon : Type} (cover : polygon -> list (nat * nat * Q)).

  (** A primitive: layer, net, and its shape: outline and holes, if it has a geometry. *)
  Record primitive := { pr_layer : Z; pr_net : Z; pr_shape : option (polygon * list polygon) }.

  (** [ELayerMetalFractionMapper::GenerateMetalFractionMapping]; EMetalFractionMapping.cpp:29-62.
      [noLayer] is -1.  An empty selection means all nets. *)
  Definition chosen (layer : Z) (nets : list Z) (p : primitive) : option (polygon * list polygon) :=
    if (pr_layer p =? -1)%Z then None
    else if negb (pr_layer p =? layer)%Z then None
    else if (negb (List.length nets =? 0)%nat && negb (existsb (Z.eqb (pr_net p)) nets))%bool then None
    else pr_shape p.
  Fixpoint collect (layer : Z) (nets : list Z) (ps : list primitive) (solids holes : list polygon) : list polygon * list polygon :=
    match ps with
    | [] => (solids, holes)
    | p :: r => match chosen layer nets p with
                | None => collect layer nets r solids holes
                | Some (o, hs) => collect layer nets r (solids ++ [o]) (holes ++ hs)
                end
    end.

  (** [Map2Grid] with a blend function. *)
  Definition map2grid (blend : Q -> Q -> Q) (g : grid) (polys : list polygon) : grid :=
    fold_left (fun g c => let '(i, j, r) := c in update g i j (fun v => blend v r)) (List.concat (map cover polys)) g.

  (** The clamping loops; EMetalFractionMapping.cpp:78-86. *)
  Definition clamp_cell (v : Q) : Q := let w := if qlt v 0 then 0 else v in if qlt 1 w then 1 else w.
  Definition clamp_all (nx ny : nat) (g : grid) : grid :=
    fold_left (fun g c => update g (fst c) (snd c) clamp_cell) (list_prod (seq 0 nx) (seq 0 ny)) g.

  (** [Mapping] on a fresh grid of zeros; EMetalFractionMapping.cpp:64-87, 140-142. *)
  Definition layer_fraction (nx ny : nat) (layer : Z) (nets : list Z) (ps : list primitive) : grid :=
    let '(solids, holes) := collect layer nets ps [] [] in
    clamp_all nx ny (map2grid Qminus (map2grid Qplus (fun _ _ => 0) solids) holes).
End Map.

(** ** The mapped region *)

(** [std::round]: half away from zero. *)
Definition round_away (q : Q) : Z :=
  if Qle_bool 0 q then Qfloor (q + (1 # 2)) else Qceiling (q - (1 # 2)).

(** One axis of the region: bounds, tiles and tile size; EMetalFractionMapping.cpp:114-128.  A grid of no
    tiles divides by zero and converts an infinity. *)
Record axis := { a_lo : Z; a_hi : Z; a_tiles : Z; a_stride : Z }.
Definition make_axis (lo hi ext_lo ext_hi tiles : Z) : res axis :=
  if (tiles =? 0)%Z then UB
  else
    let lo' := (lo - ext_lo)%Z in
    let hi' := (hi + ext_hi)%Z in
    let stride := round_away (inject_Z (hi' - lo') / inject_Z tiles) in
    Ok {| a_lo := lo'; a_hi := (lo' + stride * tiles)%Z; a_tiles := tiles; a_stride := stride |}.

(** One axis of [EMetalFractionInfo::GetIndex]; EMetalFractionMapping.h:58-65. *)
Definition get_index (a : axis) (p : Z) : res (option Z) :=
  if ((a_lo a <=? p) && (p <=? a_hi a))%Z
  then if (a_stride a =? 0)%Z then UB else Ok (Some (Z.quot (p - a_lo a) (a_stride a)))
  else Ok None.

(** ** Component powers *)

(** [gridData[t](i, j) += power]: a cell outside the grid is not there. *)
Definition add_cell (nx ny : Z) (power : Q) (g : res grid) (c : Z * Z) : res grid :=
  g' <- g ;;
  if ((0 <=? fst c) && (fst c <? nx) && (0 <=? snd c) && (snd c <? ny))%Z
  then Ok (update g' (Z.to_nat (fst c)) (Z.to_nat (snd c)) (fun v => v + power))
  else UB.
(** [for (i = a; i <= b; ++i)]. *)
Definition zrange (a b : Z) : list Z := map (fun k => (a + Z.of_nat k)%Z) (seq 0 (Z.to_nat (b - a + 1))).

(** A component on the layer: lower left, upper right, loss power.  EThermalModelExtraction.cpp:110-128; the
    corner outside the region meets the assertion. *)
Record component := { c_ll : Z * Z; c_ur : Z * Z; c_power : Q }.
Definition spread (ax ay : axis) (g : grid) (c : component) : res grid :=
  lx <- get_index ax (fst (c_ll c)) ;; ly <- get_index ay (snd (c_ll c)) ;;
  ux <- get_index ax (fst (c_ur c)) ;; uy <- get_index ay (snd (c_ur c)) ;;
  match lx, ly, ux, uy with
  | Some x0, Some y0, Some x1, Some y1 =>
      let total := ((y1 - y0 + 1) * (x1 - x0 + 1))%Z in
      let power := c_power c / inject_Z total in
      fold_left (add_cell (a_tiles ax) (a_tiles ay) power) (list_prod (zrange x0 x1) (zrange y0 y1)) (Ok g)
  | _, _, _, _ => Throw
  end.
Fixpoint spread_all (ax ay : axis) (g : grid) (cs : list component) : res grid :=
  match cs with
  | [] => Ok g
  | c :: r => g' <- spread ax ay g c ;; spread_all ax ay g' r
  end.
