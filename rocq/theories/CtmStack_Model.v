(** Model of the layer stack-up of a chip thermal model, src/model/thermal/EChipThermalModel.cpp.

    Lengths are rationals.  [math::EQ] of the generic library is taken to be |a - b| <= tolerance.
    The name of a merged layer concatenates an unordered set of names (lines 150-158), so it is
    represented by the list of names. *)
From Coq Require Import QArith Qabs.
From Verif Require Import Base.
Local Open Scope res_scope.

(** EChipThermalModel.h:8-25 *)
Record metal := mkmetal { ml_name : string; ml_elev : Q; ml_thick : Q }.
Record via := mkvia { vl_name : string; vl_top : string; vl_bot : string }.

(** EChipThermalModel.h:27-41, the fields the stack-up depends on *)
Record header := mkheader { h_tech : list string; h_via : list via; h_metal : list metal }.

(** EChipThermalModel.cpp:69-92 [GetLayerHeightThickness]; [None] for [return false].  The recursion
    has no bound in the code. *)
Fixpoint height_thickness (fuel : nat) (h : header) (name : string) : res (option (Q * Q)) :=
  match fuel with
  | O => OutOfFuel
  | S f =>
      match find (fun l => String.eqb name (ml_name l)) (h_metal h) with
      | Some l => Ok (Some (ml_elev l, ml_thick l))
      | None =>
          (fix try_via (vs : list via) : res (option (Q * Q)) :=
             match vs with
             | [] => Ok None
             | v :: vs' =>
                 if String.eqb name (vl_name v) then
                   t <- height_thickness f h (vl_top v) ;;
                   match t with
                   | None => try_via vs'
                   | Some (topH, topT) =>
                       b <- height_thickness f h (vl_bot v) ;;
                       match b with
                       | None => try_via vs'
                       | Some (botH, _) => Ok (Some (topH - topT, topH - topT - botH)%Q)
                       end
                   end
                 else try_via vs'
             end) (h_via h)
      end
  end.

Record clayer := mkclayer { cl_name : string; cl_elev : Q; cl_thick : Q }.

(** EChipThermalModel.cpp:113-126 *)
Fixpoint all_layers (fuel : nat) (h : header) (names : list string) : res (list clayer) :=
  match names with
  | [] => Ok []
  | n :: ns =>
      r <- height_thickness fuel h n ;;
      ls <- all_layers fuel h ns ;;
      Ok (match r with Some (e, t) => mkclayer n e t :: ls | None => ls end)
  end.

(** [std::list::sort] with [l1.elevation > l2.elevation], line 127: stable *)
Fixpoint insert_layer (l : clayer) (ls : list clayer) : list clayer :=
  match ls with
  | [] => [l]
  | x :: ls' => if Qle_bool (cl_elev x) (cl_elev l) then l :: ls else x :: insert_layer l ls'
  end.
Definition sort_layers (ls : list clayer) : list clayer := fold_right insert_layer [] ls.

(** One entry of [names]/[stackups]: the elevation, the names and the thicknesses. *)
Record group := mkgroup { g_elev : Q; g_names : list string; g_thicks : list Q }.

Definition Qeqt (tol a b : Q) : bool := Qle_bool (Qabs (a - b)) tol.

(** [std::unordered_set::insert] *)
Definition uinsert (n : string) (s : list string) : list string :=
  if existsb (String.eqb n) s then s else s ++ [n].

(** EChipThermalModel.cpp:133-149; [curr] is the last layer taken. *)
Fixpoint groups_from (tol : Q) (g : group) (curr : Q) (ls : list clayer) : list group :=
  match ls with
  | [] => [g]
  | l :: ls' =>
      if Qeqt tol curr (cl_elev l)
      then groups_from tol (mkgroup (g_elev g) (uinsert (cl_name l) (g_names g)) (g_thicks g ++ [cl_thick l])) (cl_elev l) ls'
      else g :: groups_from tol (mkgroup (cl_elev l) [cl_name l] [cl_thick l]) (cl_elev l) ls'
  end.
Definition make_groups (tol : Q) (ls : list clayer) : list group :=
  match ls with
  | [] => []
  | l :: ls' => groups_from tol (mkgroup (cl_elev l) [cl_name l] [cl_thick l]) (cl_elev l) ls'
  end.

(** [std::max_element] *)
Definition qmax_list (l : list Q) : Q :=
  match l with
  | [] => 0
  | x :: l' => fold_left (fun a b => if Qle_bool b a then a else b) l' x
  end.

Record slayer := mkslayer { sl_names : list string; sl_elev : Q; sl_thick : Q }.

(** EChipThermalModel.cpp:160-168 *)
Fixpoint stack_layers (gs : list group) : list slayer :=
  match gs with
  | [] => []
  | [g] => [mkslayer (g_names g) (g_elev g) (qmax_list (g_thicks g))]
  | g :: ((g' :: _) as gs') => mkslayer (g_names g) (g_elev g) (g_elev g - g_elev g') :: stack_layers gs'
  end.

(** The tolerance of line 130. *)
Definition tolerance : Q := 1 # 1000000.

(** EChipThermalModel.cpp:108-169 without the cache *)
Definition build_stackup (fuel : nat) (h : header) : res (list slayer) :=
  ls <- all_layers fuel h (h_tech h) ;;
  Ok (stack_layers (make_groups tolerance (sort_layers ls))).

(** EChipThermalModel.cpp:53-67 [GetLastMatelLayerInStackup]; [None] for the empty string *)
Definition is_metal (h : header) (n : string) : bool := existsb (fun l => String.eqb (ml_name l) n) (h_metal h).
Definition last_metal (h : header) (st : list slayer) : option (list string) :=
  match find (fun l => existsb (is_metal h) (sl_names l)) (rev st) with
  | Some l => Some (sl_names l)
  | None => None
  end.

(** ** The model object: a public header and a cached stack-up *)

Record ctm := mkctm { c_header : header; c_cache : option (list slayer) }.

(** EChipThermalModel.cpp:94-98, 110 *)
Definition get_stackup (fuel : nat) (m : ctm) : res (ctm * list slayer) :=
  match c_cache m with
  | Some s => Ok (m, s)
  | None => s <- build_stackup fuel (c_header m) ;; Ok (mkctm (c_header m) (Some s), s)
  end.

(** The header is a public member (EChipThermalModel.h:55). *)
Definition set_header (h : header) (m : ctm) : ctm := mkctm h (c_cache m).

(** EChipThermalModel.cpp:19-28 copy assignment *)
Definition copy_assign (m other : ctm) : ctm :=
  mkctm (c_header other) (match c_cache other with Some s => Some s | None => c_cache m end).

(** Operations of a client holding two models. *)
Inductive ctm_op := GetStackup | SetHeader (h : header) | AssignFrom (other : ctm).
Fixpoint ctm_run (fuel : nat) (m : ctm) (ops : list ctm_op) : res (ctm * list (list slayer)) :=
  match ops with
  | [] => Ok (m, [])
  | GetStackup :: ops' =>
      r <- get_stackup fuel m ;;
      let '(m', s) := r in
      rest <- ctm_run fuel m' ops' ;;
      let '(m'', out) := rest in Ok (m'', s :: out)
  | SetHeader h :: ops' => ctm_run fuel (set_header h m) ops'
  | AssignFrom o :: ops' => ctm_run fuel (copy_assign m o) ops'
  end.
