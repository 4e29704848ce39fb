(** The files of metal densities, src/utility/EMetalFractionMapping.cpp and src/model/thermal/io/EGridThermalModelIO.cpp.

    A file is its text.  [show] is what [operator<<] prints of a number, [showf] what it prints after
    [std::setiosflags(std::ios::fixed) << std::setprecision(6)]. *)
From Coq Require Import QArith Ascii.
From Verif Require Import Base Names_Model Vtk_Model.
Close Scope Q_scope.
Open Scope string_scope.
Open Scope nat_scope.
Open Scope list_scope.

Definition density := nat -> nat -> Q.

(** The parts of [EMetalFractionInfo] (EMetalFractionMapping.h 47-56) that are written *)
Record info := mkInfo { f_nx : nat; f_ny : nat; f_lo : Z * Z; f_hi : Z * Z; f_stride : Z * Z; f_layers : list string }.

(** The parts of a grid thermal model that are written: reference point, resolution and scale, tiles, and the layers with
    their metal fraction if they have one *)
Record gmodel := mkG { g_ref : Q * Q; g_res : Q * Q; g_scale : Q; g_nx : nat; g_ny : nat; g_layers : list (string * option density) }.

Section Write.
  Context (show showf : Q -> string).

  (** What both put after a number of tiles: a blank and a name per layer *)
  Definition columns (names : list string) : string := cat (map (fun n => " " ++ n)%string names).

  (** ** [WriteThermalProfile] (EMetalFractionMapping.cpp 250-308) *)
  Section Thermal.
    (** [coordUnits.toUnit(c, Micrometer)] *)
    Context (um : Z -> Q).

    (** 277-284 *)
    Fixpoint names_from (i : nat) (l : list string) : list string :=
      match l with
      | [] => []
      | n :: r => (if (n =? "")%string then ("LAYER" ++ to_dec i)%string else n) :: names_from (S i) r
      end.
    (** 293-307: the tile (i, j) *)
    Definition tile_line (f : info) (mf : list density) (i j : nat) : string :=
      let x := (fst (f_lo f) + fst (f_stride f) * Z.of_nat i)%Z in
      let y := (snd (f_lo f) + snd (f_stride f) * Z.of_nat j)%Z in
      (to_dec (i * f_ny f + j + 1) ++ " " ++ show (um x) ++ " " ++ show (um y) ++ " " ++ show (um (x + fst (f_stride f))%Z) ++ " " ++ show (um (y + snd (f_stride f))%Z) ++
       cat (map (fun d : density => " " ++ show (d i j))%string mf) ++ eol)%string.
    Definition thermal_text (f : info) (mf : list density) : string :=
      let layers := columns (names_from 0 (f_layers f)) in
      ("# Version 3.0" ++ eol ++
       "# DIE" ++ " " ++ show (um (fst (f_lo f))) ++ " " ++ show (um (snd (f_lo f))) ++ " " ++ show (um (fst (f_hi f))) ++ " " ++ show (um (snd (f_hi f))) ++ eol ++
       "# TILE" ++ " " ++ to_dec (f_nx f) ++ " " ++ to_dec (f_ny f) ++ eol ++
       "# LAYER" ++ " " ++ to_dec (List.length (f_layers f)) ++ layers ++ eol ++
       "# TileID X1(um) Y1(um) X2(um) Y2(um)" ++ layers ++ eol ++
       cat (flat_map (fun i => map (tile_line f mf i) (seq 0 (f_ny f))) (seq 0 (f_nx f))))%string.
    (** the result and the file, if one was opened *)
    Definition thermal_profile (dir opened : bool) (f : info) (mf : list density) : bool * option string :=
      if negb (List.length (f_layers f) =? List.length mf) then (false, None)
      else if negb dir then (false, None)
      else if negb opened then (false, None)
      else (true, Some (thermal_text f mf)).
  End Thermal.

  (** ** [GenerateTxtProfile] (EGridThermalModelIO.cpp 16-72) *)

  (** 31-34: the region is not scaled *)
  Definition micro (q : Q) : Q := (q * 1000000)%Q.
  Definition txt_head (m : gmodel) : string :=
    ("# Version 3.0" ++ eol ++
     "# DIE" ++ " " ++ showf (micro (fst (g_ref m))) ++ " " ++ showf (micro (snd (g_ref m))) ++ " " ++
       showf (micro (fst (g_ref m) + fst (g_res m) * inject_Z (Z.of_nat (g_nx m)))) ++ " " ++
       showf (micro (snd (g_ref m) + snd (g_res m) * inject_Z (Z.of_nat (g_ny m)))) ++ eol ++
     "# TILE" ++ " " ++ to_dec (g_nx m) ++ " " ++ to_dec (g_ny m) ++ eol ++
     "# SCALE_FACTOR" ++ " " ++ showf (g_scale m) ++ eol)%string.
  (** 36-48: names and fractions; nothing if a layer has no fraction *)
  Fixpoint fractions (ls : list (string * option density)) : option (list string * list density) :=
    match ls with
    | [] => Some ([], [])
    | (_, None) :: _ => None
    | (n, Some d) :: r => match fractions r with Some (ns, ds) => Some ((if (n =? "")%string then "Unknown" else n) :: ns, d :: ds) | None => None end
    end.
  (** 52-71: the box has its own stream with the default precision *)
  Definition txt_line (m : gmodel) (mf : list density) (x y : nat) : string :=
    let rx := micro (fst (g_res m)) in let ry := micro (snd (g_res m)) in
    let lx := (micro (fst (g_ref m)) + inject_Z (Z.of_nat x) * rx)%Q in
    let ly := (micro (snd (g_ref m)) + inject_Z (Z.of_nat y) * ry)%Q in
    (to_dec (x * g_ny m + y + 1) ++ " " ++ show lx ++ " " ++ show ly ++ " " ++ show (lx + rx) ++ " " ++ show (ly + ry) ++
     cat (map (fun d : density => " " ++ showf (d x y))%string mf) ++ eol)%string.
  Definition txt_profile (opened : bool) (m : gmodel) : bool * option string :=
    if negb opened then (false, None)
    else match fractions (g_layers m) with
         | None => (false, Some (txt_head m))
         | Some (names, mf) =>
             (true, Some (txt_head m ++
                "# LAYER" ++ " " ++ to_dec (List.length (g_layers m)) ++ columns names ++ eol ++
                "# TileID X1(um) Y1(um) X2(um) Y2(um)" ++ columns names ++ eol ++
                cat (flat_map (fun x => map (txt_line m mf x) (seq 0 (g_ny m))) (seq 0 (g_nx m))))%string)
         end.
End Write.
