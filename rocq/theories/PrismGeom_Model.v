(** Lengths, areas and volumes of prisms and the conduction through their sides.
    src/solver/thermal/utils/EPrismThermalNetworkBuilder.cpp, EStackupPrismThermalNetworkBuilder.cpp

    Numbers are the real numbers of the standard library.  The functions of 3rdparty/generic are taken to be
    the usual ones: [Triangle2D::Center] the centroid, [PointLineDistanceSq] the squared distance to the line
    through two points, [Distance] and [Norm2] the Euclidean ones, [Triangle3D::Area] half the length of the
    vector product. *)
From Coq Require Import Reals.
Open Scope R_scope.

Record pt3 := mkP { px : R; py : R; pz : R }.
(** the three lower indices of [PrismInstance::vertices] *)
Record tri := mkT { v0 : pt3; v1 : pt3; v2 : pt3 }.

Section Geometry.
  (** [scale]: UnitScale2Meter(); [thickness]: of the layer, in model units *)
  Context (scale : R).

  (** EPrismThermalNetworkBuilder.cpp 245-249 *)
  Definition vertex (t : tri) (iv : nat) : pt3 := match iv with 0%nat => v0 t | 1%nat => v1 t | _ => v2 t end.
  (** (ie + 1) % 3 in 275, 284 *)
  Definition next (ie : nat) : nat := match ie with 0%nat => 1%nat | 1%nat => 2%nat | _ => 0%nat end.

  (** 251-265: points of the plane *)
  Definition center (t : tri) : R * R :=
    ((px (v0 t) + px (v1 t) + px (v2 t)) / 3, (py (v0 t) + py (v1 t) + py (v2 t)) / 3).

  Definition flat (p : pt3) : R * R := (px p, py p).
  Definition dist_sq (a b : R * R) : R := (fst b - fst a) * (fst b - fst a) + (snd b - snd a) * (snd b - snd a).
  Definition line_dist_sq (c a b : R * R) : R :=
    let x := (fst b - fst a) * (snd c - snd a) - (snd b - snd a) * (fst c - fst a) in x * x / dist_sq a b.

  (** 267-276 *)
  Definition center_to_side (t : tri) (ie : nat) : R :=
    sqrt (line_dist_sq (center t) (flat (vertex t ie)) (flat (vertex t (next ie)))) * scale.
  (** 278-286 *)
  Definition edge_length (t : tri) (ie : nat) : R :=
    sqrt (dist_sq (flat (vertex t ie)) (flat (vertex t (next ie)))) * scale.
  (** 318-323 *)
  Definition height (thickness : R) : R := thickness * scale.
  (** 288-294 *)
  Definition side_area (thickness : R) (t : tri) (ie : nat) : R := height thickness * edge_length t ie.
  (** 296-303 *)
  Definition top_area (t : tri) : R :=
    let ax := px (v1 t) - px (v0 t) in let ay := py (v1 t) - py (v0 t) in let az := pz (v1 t) - pz (v0 t) in
    let bx := px (v2 t) - px (v0 t) in let b_y := py (v2 t) - py (v0 t) in let bz := pz (v2 t) - pz (v0 t) in
    let cx := ay * bz - az * b_y in let cy := az * bx - ax * bz in let cz := ax * b_y - ay * bx in
    sqrt (cx * cx + cy * cy + cz * cz) / 2 * (scale * scale).
  (** 305-309 *)
  Definition volume (thickness : R) (t : tri) : R := top_area t * height thickness.

  (** 80-100 (EStackupPrismThermalNetworkBuilder.cpp 46-68): the resistance set between prism [t] and its neighbour [u]
      over side [ie] of [t]; [k] and [ku] are the conductivities in the plane *)
  Definition side_resistance (thickness : R) (t : tri) (ie : nat) (k : R) (u : tri) (ku : R) : R :=
    let dist := sqrt (dist_sq (center t) (center u)) * scale in
    let dist2edge := center_to_side t ie in
    dist2edge / k / side_area thickness t ie + (dist - dist2edge) / ku / side_area thickness t ie.
End Geometry.
