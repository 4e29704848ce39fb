(** Reading the result file of a metal fraction mapping. *)
From Coq Require Import QArith Ascii.
From Verif Require Import Base Text_Spec.
Close Scope Q_scope.
Open Scope string_scope.
Open Scope nat_scope.
Open Scope list_scope.

(** A layer: name, 1 if it is metal, elevation, thickness *)
Record rlayer := mkRl { l_name : string; l_metal : nat; l_elev : Q; l_thick : Q }.
(** A line of values: the tile and a value per layer *)
Record rvalues := mkRv { v_x : nat; v_y : nat; v_all : list Q }.
Record rfile := mkRf { r_layers : list rlayer; r_origin : list Q; r_ext : list Q; r_nx : nat; r_ny : nat; r_res : list Q; r_values : list rvalues }.

Section Read.
  (** the value of a word that is a number *)
  Context (real : string -> option Q).
  Definition a_real : reader Q := fun ws =>
    match ws with w :: r => match real w with Some q => Some (q, r) | None => None end | [] => None end.
  Definition a_layer : reader rlayer := fun ws =>
    match ws with
    | k :: name :: ws =>
        if negb (String.eqb k "LAYER") then None else
        match number ws with None => None | Some (m, ws) =>
        match a_real ws with None => None | Some (e, ws) =>
        match a_real ws with None => None | Some (t, ws) => Some (mkRl name m e t, ws) end end end
    | _ => None
    end.
  Definition a_values (layers : nat) : reader rvalues := fun ws =>
    match number ws with None => None | Some (x, ws) =>
    match number ws with None => None | Some (y, ws) =>
    match times layers a_real ws with None => None | Some (vs, ws) => Some (mkRv x y vs, ws) end end end.

  Definition read_result (text : string) : option rfile :=
    match expect ["LAYERS"] (words text) with None => None | Some ws =>
    match number ws with None => None | Some (n, ws) =>
    match times n a_layer ws with None => None | Some (ls, ws) =>
    match expect ["ORIGIN"] ws with None => None | Some ws =>
    match times 4 a_real ws with None => None | Some (origin, ws) =>
    match expect ["EXTENSION"] ws with None => None | Some ws =>
    match times 4 a_real ws with None => None | Some (ext, ws) =>
    match expect ["TILE"] ws with None => None | Some ws =>
    match number ws with None => None | Some (nx, ws) =>
    match number ws with None => None | Some (ny, ws) =>
    match expect ["RESOLUTION"] ws with None => None | Some ws =>
    match times 2 a_real ws with None => None | Some (rs, ws) =>
    match times (nx * ny) (a_values n) ws with
    | Some (vs, []) => Some (mkRf ls origin ext nx ny rs vs)
    | _ => None
    end end end end end end end end end end end end end.
End Read.

(** What is found under a name once all files are written: what was written last. *)
Definition found {A} (name : string) (writes : list (string * A)) : option A :=
  fold_left (fun o w => if String.eqb (fst w) name then Some (snd w) else o) writes None.
