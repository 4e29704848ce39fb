(** Building the thermal network of a prism model, and contacts of stack-up prism models.
    src/solver/thermal/utils/EPrismThermalNetworkBuilder.cpp
    src/solver/thermal/utils/EStackupPrismThermalNetworkBuilder.cpp
    src/model/thermal/utils/EStackupPrismThermalModelBuilder.cpp
    src/model/thermal/utils/E(Stackup)PrismThermalModelQuery.cpp

    The network operations are those of ThermalNetwork_Model.  Geometry and material look-ups are
    parameters (areas, distances, conductivities, ... of 3rdparty/generic and the material library);
    numbers are rationals. *)
From Verif Require Import Base QSum ThermalNetwork_Model.
Open Scope nat_scope.
Open Scope res_scope.

(** A valid uniform boundary condition ([EThermalBoundaryCondition]). *)
Inductive bc := HTC (v : Q) | HeatFlux (v : Q).

(** The parts of a [PrismInstance] the network needs; [contacts] only in stack-up models. *)
Record prism := {
  p_side : list (option nat);
  p_top : option nat;
  p_bot : option nat;
  p_ctop : list (nat * Q);
  p_cbot : list (nat * Q)
}.

Section Builder.
  (** [power]: looked-up power times ratio and scenario, if the element has a power table;
      [cap]: c * rho * volume; [kxy] = 0.5 (k0 + k1); [kz] = k2; geometry in metres. *)
  Context (power : nat -> option (Q * nat)) (cap kxy kz height harea : nat -> Q)
          (side_area dist2edge : nat -> nat -> Q) (dist : nat -> nat -> Q)
          (topBC botBC : option bc).

  (** EPrismThermalNetworkBuilder.cpp 62-68. *)
  Definition power_ops (i : nat) : list op :=
    match power i with Some (p, s) => [AddHF i p; SetScenario i s] | None => [] end.

  (** 80-100: edges, each pair from its smaller end only. *)
  Definition side_op (i ie : nat) (nb : option nat) : list op :=
    match nb with
    | None => []
    | Some n => if i <? n then
        [SetR i n (dist2edge i ie / kxy i / side_area i ie +
                   (dist i n - dist2edge i ie) / kxy n / side_area i ie)%Q]
        else []
    end.
  Fixpoint side_ops (i ie : nat) (nbs : list (option nat)) : list op :=
    match nbs with [] => [] | nb :: r => side_op i ie nb ++ side_ops i (Datatypes.S ie) r end.

  (** 106-118: a uniform boundary condition over [area] of prism [i]. *)
  Definition bc_ops (i : nat) (area : Q) (b : option bc) : list op :=
    match b with
    | None => []
    | Some (HTC v) => [SetHTC i (v * area)%Q]
    | Some (HeatFlux v) => [SetHF i (v * area)%Q]
    end.

  (** 125, 150: the two half heights in series over [area]. *)
  Definition face_r (i n : nat) (area : Q) : Q :=
    (((1#2) * height i / kz i + (1#2) * height n / kz n) / area)%Q.

  (** 104-127, 129-152. *)
  Definition face_ops (i : nat) (nb : option nat) (b : option bc) : list op :=
    match nb with
    | None => bc_ops i (harea i) b
    | Some n => if i <? n then [SetR i n (face_r i n (harea i))] else []
    end.

  (** The body of the loop of [BuildPrismElement] (59-153) for prism [i]. *)
  Definition prism_ops (i : nat) (p : prism) : list op :=
    power_ops i ++ [SetC i (cap i)] ++ side_ops i 0 (p_side p) ++
    face_ops i (p_top p) topBC ++ face_ops i (p_bot p) botBC.

  (** Contacts of stack-up prisms (EStackupPrismThermalNetworkBuilder.cpp 91-103). *)
  Fixpoint contact_ops (i : nat) (cs : list (nat * Q)) : list op :=
    match cs with
    | [] => []
    | (n, ratio) :: r =>
        (if n <? i then [] else [SetR i n (face_r i n (harea i * ratio)%Q)]) ++ contact_ops i r
    end.
  (** 90, 92: the uncovered share. *)
  Definition uncovered (cs : list (nat * Q)) : Q := fold_left (fun a c => (a - snd c)%Q) cs 1%Q.

  (** 89-117, 137-165: prism with the marker. *)
  Definition covered_ops (i : nat) (cs : list (nat * Q)) (b : option bc) : list op :=
    contact_ops i cs ++
    (if Qltb 0 (uncovered cs) then bc_ops i (harea i * uncovered cs)%Q b else []).

  (** EStackupPrismThermalNetworkBuilder.cpp 73-120. *)
  Definition stack_top_ops (i : nat) (p : prism) : res (list op) :=
    match p_top p with
    | None => Ok (bc_ops i (harea i) topBC)
    | Some n => if n =? i then Ok (covered_ops i (p_ctop p) topBC) else Throw
    end.
  (** 122-168; the heat flux of 130 is not multiplied with the area. *)
  Definition stack_bot_ops (i : nat) (p : prism) : res (list op) :=
    match p_bot p with
    | None => Ok (match botBC with Some (HeatFlux v) => [SetHF i v] | b => bc_ops i (harea i) b end)
    | Some n => if n =? i then Ok (covered_ops i (p_cbot p) botBC) else Throw
    end.
  (** The body of the loop of the stack-up [BuildPrismElement] (28-169). *)
  Definition stack_prism_ops (i : nat) (p : prism) : res (list op) :=
    t <- stack_top_ops i p ;;
    b <- stack_bot_ops i p ;;
    Ok (power_ops i ++ [SetC i (cap i)] ++ side_ops i 0 (p_side p) ++ t ++ b).
End Builder.

(** [BuildPrismElement(start, end)] as the list of network operations it performs, given what one
    prism performs. *)
Definition range_ops (ops : nat -> list op) (be : nat * nat) : list op :=
  flat_map ops (seq (fst be) (snd be - fst be)).

(** The tasks submitted by [Build] (EPrismThermalNetworkBuilder.cpp 30-45) for [size] prisms and a
    pool of [blocks] threads. *)
Definition tasks (size blocks : nat) : list (nat * nat) :=
  let bs := size / blocks in
  let full := if 0 <? bs then map (fun i => (i * bs, i * bs + bs)) (seq 0 blocks) else [] in
  let begin := if 0 <? bs then blocks * bs else 0 in
  full ++ (if begin =? size then [] else [(begin, size)]).

(** The executions of a set of tasks run by a pool: at every moment any unfinished task does its next
    step. *)
Inductive interleaving {A} : list (list A) -> list A -> Prop :=
| il_done ts : (forall t, In t ts -> t = []) -> interleaving ts []
| il_step pre a t post w : interleaving (pre ++ t :: post) w -> interleaving (pre ++ (a :: t) :: post) (a :: w).

(** ** The shared summary
    [summary.iHeatFlow += p] (65, 115, 140) is a read of the shared member followed by a write. *)
Inductive sop := SRead (task : nat) | SWrite (task : nat) (p : Q).
Definition sstate : Type := (Q * (nat -> Q)).
Definition sstep (s : sstate) (o : sop) : sstate :=
  match o with
  | SRead k => (fst s, fun j => if j =? k then fst s else snd s j)
  | SWrite k p => ((snd s k + p)%Q, snd s)
  end.
Definition srun (s : sstate) (os : list sop) : sstate := fold_left sstep os s.
Definition add_sops (k : nat) (ps : list Q) : list sop := flat_map (fun p => [SRead k; SWrite k p]) ps.

(** ** Block boundary conditions
    EPrismThermalNetworkBuilder.cpp 209-237 and EStackupPrismThermalNetworkBuilder.cpp 184-215:
    [found] are the prisms the query returns for the block, [elem_nb] the top (bottom) neighbour
    stored in their elements. *)
Definition block_ops (harea : nat -> Q) (elem_nb : nat -> option nat) (found : list nat) (b : bc) : list op :=
  flat_map (fun i => match elem_nb i with
                     | Some _ => []
                     | None => match b with HTC v => [SetHTC i (v * harea i)%Q] | HeatFlux v => [SetHF i (v * harea i)%Q] end
                     end) found.
(** The stack-up builder divides a heat flux by the area of the block first (189-190). *)
Definition stack_block_ops (harea : nat -> Q) (elem_nb : nat -> option nat) (found : list nat) (area : Q) (b : bc) : list op :=
  block_ops harea elem_nb found (match b with HeatFlux v => HeatFlux (v / area)%Q | b => b end).
(** The extraction of stack-up models stores the element's own number as its top and bottom neighbour
    (EThermalModelExtraction.cpp 443-444). *)
Definition stack_elem_nb (local : nat -> nat) (i : nat) : option nat := Some (local i).

(** ** Contacts of stack-up prisms
    EStackupPrismThermalModelBuilder.cpp 68-81 (83-96): [found] are the prisms of the adjacent layer
    whose boxes meet prism [i]'s box, [inter i j] the area common to both triangles, [area i] the area
    of the triangle; [edge] tells that there is no adjacent layer.  The emptiness test of 78 (93) asks
    the array of the two contact lists, which is never empty. *)
Definition contacts (inter : nat -> nat -> Q) (area : nat -> Q) (i : nat) (found : list nat) : list (nat * Q) :=
  flat_map (fun j => if Qltb 0 (inter i j) then [(j, (inter i j / area i)%Q)] else []) found.
Definition array_empty {A} (a : A * A) : bool := false.
Definition contact_marker (edge : bool) (i : nat) (both : list (nat * Q) * list (nat * Q)) : option nat :=
  if edge then None else if array_empty both then None else Some i.
(** [BuildPrismInstanceTopBotNeighbors] for one prism, sides unchanged. *)
Definition build_contacts (inter : nat -> nat -> Q) (area : nat -> Q) (is_top is_bot : bool)
           (i : nat) (above below : list nat) (side : list (option nat)) : prism :=
  let ct := if is_top then [] else contacts inter area i above in
  let cb := if is_bot then [] else contacts inter area i below in
  {| p_side := side; p_top := contact_marker is_top i (ct, []); p_bot := contact_marker is_bot i (ct, cb);
     p_ctop := ct; p_cbot := cb |}.

(** ** Layer of a height
    [NearestLayer] (EPrismThermalModelQuery.cpp 39-50 with [strict], EStackupPrismThermalModelQuery.cpp
    66-77 without); layers are (elevation, thickness), comparisons exact instead of tolerant. *)
Fixpoint layer_within (k : nat) (h : Q) (ls : list (Q * Q)) : option nat :=
  match ls with
  | [] => None
  | (e, t) :: r => if Qle_bool (e - t) h && Qltb h e then Some k else layer_within (Datatypes.S k) h r
  end.
Definition nearest_layer (strict : bool) (h : Q) (ls : list (Q * Q)) : res nat :=
  match ls with
  | [] => UB
  | (e, _) :: _ =>
      if (if strict then Qltb e h else Qle_bool e h) then Ok 0
      else match layer_within 0 h ls with Some k => Ok k | None => Ok (List.length ls - 1) end
  end.
