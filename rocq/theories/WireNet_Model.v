(** The thermal network of a whole prism model: prisms, bond wires and block boundary conditions.
    src/solver/thermal/utils/EPrismThermalNetworkBuilder.cpp, src/model/thermal/EPrismThermalModel.{h,cpp}

    What one prism and one block contribute is PrismNet_Model; the segments of bond wires and the assembly
    are added here.  Material look-ups are parameters, numbers are rationals, the tolerant test of the
    current against zero is exact. *)
From Verif Require Import Base QSum ThermalNetwork_Model PrismNet_Model.
Open Scope nat_scope.
Open Scope res_scope.

(** [LineElement] (EPrismThermalModel.h 74-85); [w_len] is the distance of its ends and [w_area] is pi r^2,
    both in metres (EPrismThermalNetworkBuilder.cpp 309-340). *)
Record wline := mkLine {
  w_id : nat;
  w_mat : nat;
  w_scen : nat;
  w_current : Q;
  w_len : Q;
  w_area : Q;
  w_front : list nat;
  w_back : list nat }.

(** A block boundary condition: whether it is on the top, the prisms found in it, its value. *)
Record wblock := mkBlock { b_top : bool; b_found : list nat; b_bc : bc }.

(** The model.  The neighbours of the elements above and below are those of the prisms. *)
Record pmodel := mkModel {
  m_prisms : list prism;
  m_lines : list wline;
  m_top : option bc;
  m_bot : option bc;
  m_blocks : list wblock }.

(** [TotalPrismElements], [TotalElements] (EPrismThermalModel.h 226-236). *)
Definition prism_count (m : pmodel) : nat := List.length (m_prisms m).
Definition element_count (m : pmodel) : nat := prism_count m + List.length (m_lines m).

(** Everything the builder asks the material library and the geometry for.  Prism quantities are as in
    PrismNet_Model, at the temperatures given; material quantities are per material and temperature. *)
Record lookups := mkLook {
  k_power : list Q -> nat -> option (Q * nat);
  k_cap : list Q -> nat -> Q;
  k_xy : list Q -> nat -> Q;
  k_z : list Q -> nat -> Q;
  k_height : nat -> Q;
  k_harea : nat -> Q;
  k_side : nat -> nat -> Q;
  k_edge : nat -> nat -> Q;
  k_dist : nat -> nat -> Q;
  k_cond : nat -> Q -> Q * Q * Q;
  k_density : nat -> Q -> Q;
  k_heat : nat -> Q -> Q;
  k_resist : nat -> Q -> Q }.

Section Wires.
  Context (k : lookups) (m : pmodel).

  (** EPrismThermalNetworkBuilder.cpp 174-175, 184-185. *)
  Definition ave_k (mat : nat) (t : Q) : Q := let '(x, y, z) := k_cond k mat t in ((x + y + z) / 3)%Q.
  (** 181, 188. *)
  Definition half_r (l : wline) (t : Q) : Q := ((1#2) * w_len l / ave_k (w_mat l) t / w_area l)%Q.
  (** 317-324. *)
  Definition joule (l : wline) (t : Q) : Q :=
    if Qeqb (w_current l) 0 then 0%Q
    else (k_resist k (w_mat l) t * w_len l * w_current l * w_current l / w_area l)%Q.

  (** 178-191; [GetLine] and [LineLocalIndex] (EPrismThermalModel.h 241, EPrismThermalModel.cpp) look the
      neighbour up with [at].  Both conductivities are those at the temperature of the segment itself (184). *)
  Definition nb_ops (l : wline) (t : Q) (nb : nat) : res (list op) :=
    if nb <? prism_count m then Ok [SetR nb (w_id l) (half_r l t)]
    else if w_id l <? nb then
      match nth_error (m_lines m) (nb - prism_count m) with
      | Some l2 => Ok [SetR (w_id l) nb (half_r l t + half_r l2 t)%Q]
      | None => Throw
      end
    else Ok [].

  Fixpoint concat_res {A} (f : A -> res (list op)) (xs : list A) : res (list op) :=
    match xs with
    | [] => Ok []
    | x :: r => a <- f x ;; b <- concat_res f r ;; Ok (a ++ b)
    end.

  (** 156-193, one round of the loop. *)
  Definition line_ops (T : list Q) (l : wline) : res (list op) :=
    match nth_error T (w_id l) with
    | None => Throw
    | Some t =>
        nbs <- concat_res (nb_ops l t) (w_front l ++ w_back l) ;;
        Ok ([SetC (w_id l) (k_heat k (w_mat l) t * k_density k (w_mat l) t * (w_area l * w_len l))%Q;
             SetScenario (w_id l) (w_scen l)] ++
            (if Qltb 0 (joule l t) then [AddHF (w_id l) (joule l t)] else []) ++ nbs)
    end.

  Definition prism_calls (T : list Q) : list op :=
    flat_map (fun ip => prism_ops (k_power k T) (k_cap k T) (k_xy k T) (k_z k T) (k_height k) (k_harea k)
                          (k_side k) (k_edge k) (k_dist k) (m_top m) (m_bot m) (fst ip) (snd ip))
      (combine (seq 0 (prism_count m)) (m_prisms m)).

  (** 195-250. *)
  Definition above_of (i : nat) : option nat := match nth_error (m_prisms m) i with Some p => p_top p | None => None end.
  Definition below_of (i : nat) : option nat := match nth_error (m_prisms m) i with Some p => p_bot p | None => None end.
  Definition block_calls : list op :=
    flat_map (fun b => block_ops (k_harea k) (if b_top b then above_of else below_of) (b_found b) (b_bc b)) (m_blocks m).

  (** 20-51; by C53 the threads of 30-45 leave the same network as the loop over all prisms. *)
  Definition wire_build (minR : Q) (T : list Q) : res (option network) :=
    if List.length T =? element_count m then
      ls <- concat_res (line_ops T) (m_lines m) ;;
      rmap Some (run minR (net_new (element_count m)) (prism_calls T ++ ls ++ block_calls))
    else Ok None.
End Wires.
