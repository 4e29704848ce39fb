(** The mesh file of a prism thermal model, src/model/thermal/io/EPrismThermalModelIO.cpp.

    The file is its text, character by character.  Numbers that are not whole are printed by the standard library:
    [show] is the text [operator<<] makes of one; [color] is [generic::color::RGBFromScalar] of 3rdparty/generic. *)
From Coq Require Import QArith Ascii.
From Verif Require Import Base Names_Model Prism_Model.
Close Scope Q_scope.
Open Scope string_scope.
Open Scope nat_scope.
Open Scope list_scope.
Open Scope res_scope.

(** ECAD_EOL *)
Definition eol : string := String "010" "".
Fixpoint cat (l : list string) : string := match l with [] => "" | s :: r => (s ++ cat r)%string end.

Section Write.
  Context (show : Q -> string) (color : nat -> Z * Z * Z).

  (** EPrismThermalModelIO.cpp 27-29 *)
  Definition point_line (p : pt3) : string := (show (px p) ++ " " ++ show (py p) ++ " " ++ show (pz p) ++ eol)%string.
  (** 33-39 *)
  Definition prism_line (i : inst) : string := ("6" ++ cat (map (fun v => " " ++ to_dec v)%string (i_vs i)) ++ eol)%string.
  (** 40-44 *)
  Definition line_line (l : line) : string := ("2" ++ " " ++ to_dec (fst (l_ends l)) ++ " " ++ to_dec (snd (l_ends l)) ++ eol)%string.
  (** 59-62 *)
  Definition color_line (i : nat) : string :=
    let '(r, g, b) := color i in
    (show (inject_Z r / 255) ++ " " ++ show (inject_Z g / 255) ++ " " ++ show (inject_Z b / 255) ++ " " ++ show 1 ++ eol)%string.
  (** 51-63 *)
  Definition data_text (n : nat) (ts : list Q) : string :=
    ("CELL_DATA" ++ " " ++ to_dec n ++ eol ++ "SCALARS SCALARS FLOAT 1 " ++ eol ++ "LOOKUP_TABLE TEMPERATURE" ++ eol ++
     cat (map (fun t => show t ++ eol) ts) ++ eol ++ "LOOKUP_TABLE TEMPERATURE 100" ++ eol ++ cat (map color_line (seq 0 100)))%string.

  (** 19-63; the prisms are those [TotalPrismElements] counts, got by number with [at] *)
  Definition vtk_text (m : pmodel) (temps : option (list Q)) : res string :=
    np <- total (m_offs m) ;;
    prisms <- mapM (vat (m_prisms m)) (seq 0 np) ;;
    let nl := List.length (m_lines m) in
    Ok ("# vtk DataFile Version 2.0" ++ eol ++ "Unstructured Grid" ++ eol ++ "ASCII" ++ eol ++ "DATASET UNSTRUCTURED_GRID" ++ eol ++
        "POINTS" ++ " " ++ to_dec (List.length (m_points m)) ++ " " ++ "FLOAT" ++ eol ++ cat (map point_line (m_points m)) ++ eol ++
        "CELLS" ++ " " ++ to_dec (nl + np) ++ " " ++ to_dec (np * 7 + nl * 3) ++ eol ++
        cat (map prism_line prisms) ++ cat (map line_line (m_lines m)) ++ eol ++
        "CELL_TYPES" ++ " " ++ to_dec (nl + np) ++ eol ++ cat (repeat ("13" ++ eol) np) ++ cat (repeat ("3" ++ eol) nl) ++
        match temps with
        | Some ts => if (List.length ts =? nl + np)%nat then data_text (nl + np) ts else ""
        | None => ""
        end)%string.

  (** [GenerateVTKFile] (6-68): [dir] and [opened] tell whether the folder could be made and the file be opened; the
      result and the text of the file if it was opened *)
  Definition generate (dir opened : bool) (m : pmodel) (temps : option (list Q)) : res (bool * option string) :=
    if dir then if opened then t <- vtk_text m temps ;; Ok (true, Some t) else Ok (false, None) else Ok (false, None).
End Write.
