(** Conversion between chip thermal models and grid thermal models,
    src/model/thermal/io/EThermalModelIO.cpp.

    Both conversions are taken with reduceOrder = 0 (the reductions are in Reduction_Model) and
    without the error text.  Lengths and powers are rationals; the clipping in single precision
    ([std::min<float>]) is exact.  [math::LT] is the exact order.  The via layers of a header carry
    no elevation of their own, since nothing reads it.  A power table whose interpolation throws counts as a failing
    query. *)
From Verif Require Import Base QSum.
From Verif Require CtmStack_Model Keyed_Model ThermalNetwork_Model Grid_Model.
Import CtmStack_Model.
Import Grid_Model (glayer, mkLayer, l_name, l_thick, l_top, l_bot, l_size, l_mf, l_power,
                   power, PGrid, PBlock, gmodel, g_nx, g_ny, g_resx, g_resy, g_scale, g_layers,
                   append_layer).
Import ThermalNetwork_Model (Qltb).
Import Keyed_Model (grid, gr_w, gr_h, gr_at, gtable, gt_new, gt_add, gt_query).
Local Open Scope res_scope.

(** EChipThermalModel.h:27-62: header, power table and layer densities.  [cc_size] is the upper right
    corner of the boxes [size] and [origin], whose lower left corner is the origin. *)
Record chip := mkcc {
  cc_encrypted : bool;
  cc_res : Q; cc_scale : Q;
  cc_size : Q * Q;
  cc_tx : nat; cc_ty : nat;
  cc_temps : list Q;
  cc_layers : list clayer;
  cc_head : header;
  cc_powers : option gtable;
  cc_dens : list (string * option grid) }.

(** The grid model as read by the export: each layer with its metal flag (EGridThermalModel.h:51). *)
Record xmodel := mkx {
  x_nx : nat; x_ny : nat;
  x_resx : Q; x_resy : Q; x_scale : Q;
  x_layers : list (glayer * bool) }.

(** ** Grid to chip, EThermalModelIO.cpp:84-185 *)

(** EThermalModelIO.cpp:114 *)
Definition temperatures : list Q := [25; 50; 75; 100; 125].

(** EGridThermalModel.cpp:245-251 *)
Definition total_thickness (ls : list (glayer * bool)) : Q :=
  fold_left (fun a l => a + l_thick (fst l)) ls 0.

(** EThermalModelIO.cpp:117-144: the layers, the metal layers and the via layers *)
Fixpoint export_layers (elev : Q) (ls : list (glayer * bool)) : list clayer * list metal * list via :=
  match ls with
  | [] => ([], [], [])
  | (l, ism) :: ls' =>
      let t := l_thick l * 1000000 in
      let '(cs, ms, vs) := export_layers (elev - t) ls' in
      (mkclayer (l_name l) elev t :: cs,
       if ism then mkmetal (l_name l) elev t :: ms else ms,
       if ism then vs else mkvia (l_name l) (l_top l) (l_bot l) :: vs)
  end.

(** EThermalModel.cpp:30-33, 50-55; [None] is a failing query.  [Size] is only used when the tile is
    inside, so its wrap-around does not matter. *)
Definition power_query (p : power) (T : Q) (x y : nat) : option Q :=
  match p with
  | PGrid q => q T x y
  | PBlock llx lly urx ury total =>
      if ((llx <=? x) && (x <=? urx) && (lly <=? y) && (y <=? ury))%nat%bool
      then Some (total / inject_Z (Z.of_nat ((ury - lly + 1) * (urx - llx + 1)))) else None
  end.

(** EThermalModelIO.cpp:150-165, the entry of one tile at one temperature (the loops visit every tile
    once for every power model) *)
Definition add_powers (T : Q) (x y : nat) (acc : Q) (ps : list power) : Q :=
  fold_left (fun a p => match power_query p T x y with Some v => a + v | None => a end) ps acc.
Definition tile_power (ls : list (glayer * bool)) (T : Q) (x y : nat) : Q :=
  fold_left (fun a l => add_powers T x y a (l_power (fst l))) ls 0.

(** EThermalModelIO.cpp:147, 167-170 *)
Definition power_table (m : xmodel) : gtable :=
  fold_left (fun t T => fst (gt_add t T (Keyed_Model.mkGrid (x_nx m) (x_ny m) (tile_power (x_layers m) T))))
            temperatures (gt_new (x_nx m) (x_ny m)).

(** EThermalModelIO.cpp:172-177; a layer of the model always has a fraction *)
Definition densities (ls : list (glayer * bool)) : list (string * option grid) :=
  fold_left (fun ds l => aemplace String.eqb (l_name (fst l))
                (Some (Keyed_Model.mkGrid (fst (l_size (fst l))) (snd (l_size (fst l))) (l_mf (fst l)))) ds) ls [].

(** EThermalModelIO.cpp:84-185; [ne] is math::NE of the generic library, [None] is nullptr *)
Definition export (ne : Q -> Q -> bool) (encrypted : bool) (m : xmodel) : option chip :=
  if ne (x_resx m) (x_resy m) then None
  else
    let res := x_resx m * 1000000 in
    let '(cs, ms, vs) := export_layers (total_thickness (x_layers m) * 1000000) (x_layers m) in
    let ds := densities (x_layers m) in
    if (List.length ds =? List.length cs)%nat
    then Some (mkcc encrypted res (x_scale m)
                    (inject_Z (Z.of_nat (x_nx m)) * res, inject_Z (Z.of_nat (x_ny m)) * res)
                    (x_nx m) (x_ny m) temperatures cs
                    (mkheader (map cl_name cs) vs ms) (Some (power_table m)) ds)
    else None.

(** ** Chip to grid, EThermalModelIO.cpp:17-82 *)

Section import.
  (** boost's interpolator, see Keyed_Model *)
  Context (pchip : list Q -> list Q -> Q -> res Q).
  (** the order in which an unordered set of names is walked *)
  Context (order : list string -> list string).

  (** EChipThermalModel.cpp:150-158: every name followed by "_", the last "_" removed *)
  Definition join (ns : list string) : string := String.concat "_" ns.
  Definition layer_name (s : slayer) : string := join (order (sl_names s)).

  (** EThermalModelIO.cpp:44-48 *)
  Definition present (c : chip) (ns : list string) : list string :=
    filter (fun n => acount String.eqb n (cc_dens c)) ns.

  (** EThermalModelIO.cpp:53-60: reading a missing table, or outside of one, is undefined *)
  Definition readable (tx ty : nat) (d : option grid) : bool :=
    ((tx =? 0) || (ty =? 0) || match d with Some g => (tx <=? gr_w g) && (ty <=? gr_h g) | None => false end)%nat%bool.
  Fixpoint sum_dens (c : chip) (ns : list string) (acc : nat -> nat -> Q) : res (nat -> nat -> Q) :=
    match ns with
    | [] => Ok acc
    | n :: ns' =>
        match alookup String.eqb n (cc_dens c) with
        | None => Throw
        | Some d =>
            if readable (cc_tx c) (cc_ty c) d
            then sum_dens c ns' (fun x y => acc x y + match d with Some g => gr_at g x y | None => 0 end)
            else UB
        end
    end.

  (** EThermalModelIO.cpp:42-67; [None] is a null pointer *)
  Definition layer_fraction (c : chip) (ns : list string) : res (option grid) :=
    match present c ns with
    | [n] => match alookup String.eqb n (cc_dens c) with Some d => Ok d | None => Throw end
    | ps =>
        f <- sum_dens c ps (fun _ _ => 0) ;;
        Ok (Some (Keyed_Model.mkGrid (cc_tx c) (cc_ty c) (fun x y => Qmin (f x y) 1)))
    end.

  (** EThermalModel.cpp:30-33 over a table *)
  Definition table_power (t : gtable) : power :=
    PGrid (fun T x y => match snd (gt_query pchip t T x y) with (true, Ok v) => Some v | _ => None end).

  (** EThermalModelIO.cpp:68-72; EGridThermalModel.cpp:199-204 does not add a null power model *)
  Definition grid_layer (c : chip) (dev : string) (s : slayer) (g : grid) : glayer :=
    mkLayer (layer_name s) (sl_thick s * (1 # 1000000)) ""%string ""%string (gr_w g, gr_h g) (gr_at g)
            (if String.eqb (layer_name s) dev
             then match cc_powers c with Some t => [table_power t] | None => [] end else []).

  (** EThermalModelIO.cpp:38-75; what AppendLayer returns is not looked at.  A layer without fraction
      has the size invalidIndex by invalidIndex (EGridThermalModel.cpp:231, ECadUnits.h:16-17) and is
      refused. *)
  Fixpoint import_layers (c : chip) (dev : string) (st : list slayer) (m : gmodel) : res gmodel :=
    match st with
    | [] => Ok m
    | s :: st' =>
        mf <- layer_fraction c (order (sl_names s)) ;;
        import_layers c dev st' (match mf with
                                 | Some g => fst (append_layer m (grid_layer c dev s g))
                                 | None => m
                                 end)
    end.

  (** EGridThermalModel.cpp:281-286, 293-298 *)
  Definition set_scale (v : Q) (m : gmodel) : gmodel :=
    if Qltb v 0 then m
    else Grid_Model.mkGrid (g_nx m) (g_ny m) (g_resx m) (g_resy m) v (g_layers m) (Grid_Model.g_jumps m)
           (Grid_Model.g_top m) (Grid_Model.g_bottom m) (Grid_Model.g_topblocks m) (Grid_Model.g_botblocks m).
  Definition set_resolution (x y : Q) (m : gmodel) : gmodel :=
    if (Qltb x 0 || Qltb y 0)%bool then m
    else Grid_Model.mkGrid (g_nx m) (g_ny m) x y (g_scale m) (g_layers m) (Grid_Model.g_jumps m)
           (Grid_Model.g_top m) (Grid_Model.g_bottom m) (Grid_Model.g_topblocks m) (Grid_Model.g_botblocks m).

  (** EGridThermalModel.h:107-116: a new model *)
  Definition new_grid (nx ny : nat) : gmodel := Grid_Model.mkGrid nx ny 0 0 1 [] [] None None [] [].

  (** EChipThermalModel.cpp:53-67: the name of the lowest stack-up layer holding a metal layer; the
      empty string when there is none *)
  Definition device_layer (c : chip) (st : list slayer) : string :=
    match find (fun s => existsb (is_metal (cc_head c)) (sl_names s)) (rev st) with
    | Some s => layer_name s
    | None => ""%string
    end.

  (** EThermalModelIO.cpp:17-82; [None] is nullptr *)
  Definition import (fuel : nat) (c : chip) : res (option gmodel) :=
    st <- build_stackup fuel (cc_head c) ;;
    let dev := device_layer c st in
    if String.eqb dev "" then Ok None
    else
      m <- import_layers c dev st (new_grid (cc_tx c) (cc_ty c)) ;;
      let r := cc_res c * (1 # 1000000) in
      Ok (Some (set_resolution r r (set_scale (cc_scale c) m))).
End import.

(** The imported model as seen by a later export: SetIsMetal is never called on its layers
    (EGridThermalModel.h:51 is the default). *)
Definition as_exportable (g : gmodel) : xmodel :=
  mkx (g_nx g) (g_ny g) (g_resx g) (g_resy g) (g_scale g) (map (fun l => (l, false)) (g_layers g)).
