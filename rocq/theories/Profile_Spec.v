(** Reading a density profile. *)
From Coq Require Import QArith Ascii.
From Verif Require Import Base Text_Spec.
Close Scope Q_scope.
Open Scope string_scope.
Open Scope nat_scope.
Open Scope list_scope.

Record row := mkRow { w_id : nat; w_box : list Q; w_values : list Q }.
Record profile := mkProf { p_die : list Q; p_nx : nat; p_ny : nat; p_scale : option Q; p_names : list string; p_rows : list row }.

Section Read.
  (** the value of a word that is a number *)
  Context (real : string -> option Q).
  Definition one_real : reader Q := fun ws =>
    match ws with w :: r => match real w with Some q => Some (q, r) | None => None end | [] => None end.
  Definition one_word : reader string := fun ws => match ws with w :: r => Some (w, r) | [] => None end.
  (** number and box of a tile and a value per layer *)
  Definition read_row (layers : nat) : reader row := fun ws =>
    match number ws with None => None | Some (id, ws) =>
    match times 4 one_real ws with None => None | Some (b, ws) =>
    match times layers one_real ws with None => None | Some (vs, ws) => Some (mkRow id b vs, ws) end end end.
  (** the scale is optional *)
  Definition read_scale (ws : list string) : option (option Q * list string) :=
    match expect ["#"; "SCALE_FACTOR"] ws with
    | Some ws => match one_real ws with Some (s, ws) => Some (Some s, ws) | None => None end
    | None => Some (None, ws)
    end.
  Definition same_names (a b : list string) : bool := if list_eq_dec string_dec a b then true else false.

  Definition read_profile (text : string) : option profile :=
    match expect ["#"; "Version"; "3.0"; "#"; "DIE"] (words text) with None => None | Some ws =>
    match times 4 one_real ws with None => None | Some (die, ws) =>
    match expect ["#"; "TILE"] ws with None => None | Some ws =>
    match number ws with None => None | Some (nx, ws) =>
    match number ws with None => None | Some (ny, ws) =>
    match read_scale ws with None => None | Some (scale, ws) =>
    match expect ["#"; "LAYER"] ws with None => None | Some ws =>
    match number ws with None => None | Some (n, ws) =>
    match times n one_word ws with None => None | Some (names, ws) =>
    match expect ["#"; "TileID"; "X1(um)"; "Y1(um)"; "X2(um)"; "Y2(um)"] ws with None => None | Some ws =>
    match times n one_word ws with None => None | Some (names', ws) =>
    if negb (same_names names names') then None else
    match times (nx * ny) (read_row n) ws with Some (rows, []) => Some (mkProf die nx ny scale names rows) | _ => None end
    end end end end end end end end end end end.
End Read.

(** The profile of [nx] by [ny] tiles that start at [lo] and have the size [size], with a value per layer *)
Definition profile_of (rd rb rv : Q -> Q) (xs ys : nat -> Q) (nx ny : nat) (scale : option Q) (names : list string) (mf : list (nat -> nat -> Q)) (p : profile) : Prop :=
  p_die p = map rd [xs 0; ys 0; xs nx; ys ny] /\ p_nx p = nx /\ p_ny p = ny /\ p_scale p = scale /\ p_names p = names /\
  List.length (p_rows p) = nx * ny /\
  forall x y, x < nx -> y < ny -> exists r, nth_error (p_rows p) (x * ny + y) = Some r /\ w_id r = x * ny + y + 1 /\
    w_box r = map rb [xs x; ys y; xs (S x); ys (S y)] /\ w_values r = map (fun d => rv (d x y)) mf.
