(** Reading a mesh file as described in the file format of VTK, version 2.0, "legacy" ASCII files of unstructured grids. *)
From Coq Require Import QArith Ascii.
From Verif Require Import Base Text_Spec.
Close Scope Q_scope.
Open Scope string_scope.
Open Scope nat_scope.
Open Scope list_scope.

(** Points, cells with their type and the numbers of their points, and one value per cell *)
Record mesh := mkMesh { v_points : list (Q * Q * Q); v_cells : list (nat * list nat); v_data : option (list Q) }.

Section Read.
  (** the value of a word that is a number *)
  Context (real : string -> option Q).

  Definition read_real : reader Q := fun ws =>
    match ws with w :: r => match real w with Some q => Some (q, r) | None => None end | [] => None end.
  Definition read_point : reader (Q * Q * Q) := fun ws =>
    match times 3 read_real ws with Some ([x; y; z], r) => Some ((x, y, z), r) | _ => None end.
  (** a cell is the number of its points and the points *)
  Definition read_cell : reader (list nat) := fun ws =>
    match number ws with Some (k, r) => times k number r | None => None end.

  (** the values of the cells and the colours they are shown in *)
  Definition read_data (n : nat) (ws : list string) : option (option (list Q)) :=
    match ws with
    | [] => Some None
    | _ =>
        match expect ["CELL_DATA"] ws with None => None | Some ws =>
        match number ws with None => None | Some (k, ws) =>
        if negb (k =? n) then None else
        match expect ["SCALARS"; "SCALARS"; "FLOAT"; "1"; "LOOKUP_TABLE"; "TEMPERATURE"] ws with None => None | Some ws =>
        match times n read_real ws with None => None | Some (ts, ws) =>
        match expect ["LOOKUP_TABLE"; "TEMPERATURE"] ws with None => None | Some ws =>
        match number ws with None => None | Some (c, ws) =>
        match times c (times 4 read_real) ws with Some (_, []) => Some (Some ts) | _ => None end
        end end end end end end
    end.

  (** after the version and the title: points, cells, types of cells, data *)
  Definition read_mesh (text : string) : option mesh :=
    match expect ["ASCII"; "DATASET"; "UNSTRUCTURED_GRID"; "POINTS"] (words (next_line (next_line text))) with None => None | Some ws =>
    match number ws with None => None | Some (np, ws) =>
    match expect ["FLOAT"] ws with None => None | Some ws =>
    match times np read_point ws with None => None | Some (pts, ws) =>
    match expect ["CELLS"] ws with None => None | Some ws =>
    match number ws with None => None | Some (nc, ws) =>
    match number ws with None => None | Some (size, ws) =>
    match times nc read_cell ws with None => None | Some (cells, ws) =>
    (* the size is that of all the cells with their counts *)
    if negb (size =? list_sum (map (fun c => 1 + List.length c) cells)) then None else
    match expect ["CELL_TYPES"] ws with None => None | Some ws =>
    match number ws with None => None | Some (nt, ws) =>
    if negb (nt =? nc) then None else
    match times nt number ws with None => None | Some (types, ws) =>
    match read_data nc ws with None => None | Some d => Some (mkMesh pts (combine types cells) d) end
    end end end end end end end end end end end.
End Read.
