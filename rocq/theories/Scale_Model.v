(** The length scales of thermal models: src/extraction/thermal/EThermalModelExtraction.cpp, src/model/thermal/EPrismThermalModel.h
    and src/extraction/geometry/EGeometryModelExtraction.cpp, with the doubles of Units_Model.v.

    Simplified: [std::pow] is the exact power, rounded; a division by zero is [None] (the code goes on with an infinity or NaN). *)
From Coq Require Import Qpower.
From Verif Require Import Base QSum Units_Model.
Local Open Scope res_scope.
Local Open Scope Q_scope.

(** [coordUnits.toUnit(coordUnits.toCoord(1), Meter)], EThermalModelExtraction.cpp 288 and 449, EGeometryModelExtraction.cpp 40 *)
Definition model_scale (cu : coord_units) : res Q := c <- to_coord cu 1 ;; Ok (to_unit_in cu c Meter).

(** [UnitScale2Meter] and [CoordScale2Meter], EPrismThermalModel.h 235-243; the scales are stored by [BuildPrismModel],
    EPrismThermalModel.cpp 88-91, EStackupPrismThermalModelBuilder.cpp 20-23, EThermalModelExtraction.cpp 287 and 448;
    used for areas by EStackupPrismThermalNetworkBuilder.cpp 190 and EPrismThermalNetworkBuilder.cpp 302 *)
Definition unit_scale (cu : coord_units) (order : Z) : res Q := s <- model_scale cu ;; Ok (fl (s ^ order)).
Definition coord_scale (cu : coord_units) (order : Z) : res Q := s <- model_scale cu ;; Ok (fl (fl (cu_unit cu * s) ^ order)).

(** The length in metres of an edge of [c] coordinates of a prism model that is parallel to an axis: its points are in user
    units, EPrismThermalModel.cpp 193-205, and distances are taken to metres by EPrismThermalNetworkBuilder.cpp 275 and 339 *)
Definition prism_length (cu : coord_units) (c : Z) : res Q :=
  s <- unit_scale cu 1 ;; Ok (fl (fl (fl (inject_Z c) * cu_unit cu) * s)).
(** The size of a tile of a grid model in metres, EThermalModelExtraction.cpp 55-56 *)
Definition tile_size (cu : coord_units) (stride : Z) : Q := to_unit_in cu stride Meter.

(** The resistance of a solder joint of a bond wire: its area in coordinates, its thickness in user units.
    EGeometryModelExtraction.cpp 65 and 79 *)
Definition joint_resistance (cu : coord_units) (resistivity thickness area : Q) : res (option Q) :=
  s <- model_scale cu ;;
  let d := fl (fl (fl (area * cu_unit cu) * cu_unit cu) * s) in
  if Qeq_bool d 0 then Ok None else Ok (Some (fl (fl (resistivity * thickness) / d))).
