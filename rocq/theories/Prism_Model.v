(** Prism thermal model: numbering, corner points and neighbours of the prisms, bond wire lines.
    Models src/model/thermal/EPrismThermalModel.{h,cpp} and the mesh part of
    src/extraction/thermal/EThermalModelExtraction.cpp.

    Simplifications: floating point numbers are rationals; [noNeighbor] is [None]; the
    triangulation of 3rdparty/generic is a list of points and a list of triangles; materials,
    nets and power tables of the elements are not part of this file. *)
From Verif Require Import Base.
From Coq Require Import QArith.
Close Scope Q_scope.
Open Scope nat_scope.
Open Scope res_scope.

(** [std::vector::at] (throws) and [std::vector::operator[]] (undefined behaviour). *)
Definition vat {A} (l : list A) (i : nat) : res A :=
  match nth_error l i with Some a => Ok a | None => Throw end.
Definition vidx {A} (l : list A) (i : nat) : res A :=
  match nth_error l i with Some a => Ok a | None => UB end.

(** [tri::Triangulation] (3rdparty/generic): points, and per triangle its three vertices and its
    three edge neighbours. *)
Record triangle := { t_vs : list nat; t_nb : list (option nat) }.
Record template := { t_pts : list (Z * Z); t_tris : list triangle }.

(** [PrismElement] (EPrismThermalModel.h 54-82): [e_id], [e_tid] = templateId, three edge
    neighbours, top and bottom neighbour, all local to a layer. *)
Record elem := { e_id : nat; e_tid : nat; e_side : list (option nat); e_top : option nat; e_bot : option nat }.

(** [PrismLayer] (EPrismThermalModel.h 84-118). *)
Record player := { y_elev : Q; y_thick : Q; y_elems : list elem }.

(** [PrismInstance] (EPrismThermalModel.h 139-162) without the contacts of stack-up models. *)
Record inst := { i_lyr : nat; i_ele : nat; i_vs : list nat; i_side : list (option nat); i_top : option nat; i_bot : option nat }.

(** [LineElement] (EPrismThermalModel.h 26-52), connectivity only. *)
Record line := { l_id : nat; l_ends : nat * nat; l_front : list nat; l_back : list nat }.

Record pt3 := { px : Q; py : Q; pz : Q }.

(** [EPrismThermalModel] (EPrismThermalModel.h 164-248). *)
Record pmodel := {
  m_layers : list player;
  m_temps : list (nat * template);
  m_scale : Q;
  m_offs : list nat;
  m_points : list pt3;
  m_prisms : list inst;
  m_lines : list line
}.

(** [SetLayerPrismTemplate] / [GetLayerPrismTemplate] (EPrismThermalModel.cpp 48-56). *)
Definition set_template (k : nat) (t : template) (m : pmodel) : pmodel :=
  {| m_layers := m_layers m; m_temps := aemplace Nat.eqb k t (m_temps m); m_scale := m_scale m;
     m_offs := m_offs m; m_points := m_points m; m_prisms := m_prisms m; m_lines := m_lines m |}.
Definition get_template (temps : list (nat * template)) (k : nat) : res template :=
  match alookup Nat.eqb k temps with Some t => Ok t | None => Throw end.

(** [m_indexOffset] as computed in [BuildPrismModel] (EPrismThermalModel.cpp 92-94). *)
Fixpoint offsets_from (acc : nat) (sizes : list nat) : list nat :=
  match sizes with
  | [] => [acc]
  | n :: sizes' => acc :: offsets_from (acc + n) sizes'
  end.
Definition sizes (layers : list player) : list nat := map (fun y => List.length (y_elems y)) layers.
Definition offsets (layers : list player) : list nat := offsets_from 0 (sizes layers).

(** [TotalPrismElements] (EPrismThermalModel.h 260-263): [m_indexOffset.back()], undefined on a
    model that was never built. *)
Definition total (offs : list nat) : res nat :=
  match offs with [] => UB | _ => Ok (last offs 0) end.

(** [GlobalIndex] (EPrismThermalModel.h 265-268). *)
Definition global_index (offs : list nat) (lyr ele : nat) : res nat :=
  o <- vidx offs lyr ;; Ok (o + ele).

(** [PrismLocalIndex] (EPrismThermalModel.h 270-275): the loop over the layers; it reads past the
    end of the offsets when no layer holds the index. *)
Fixpoint local_from (offs : list nat) (lyr index : nat) : res (nat * nat) :=
  match offs with
  | o :: ((o' :: _) as offs') =>
      if (o <=? index) && (index <? o') then Ok (lyr, index - o) else local_from offs' (Datatypes.S lyr) index
  | _ => UB
  end.
Definition local_index (offs : list nat) (index : nat) : res (nat * nat) := local_from offs 0 index.

(** [LineLocalIndex] (EPrismThermalModel.h 277-281) and [isPrima] (283-286). *)
Definition line_local_index (offs : list nat) (index : nat) : res nat :=
  t <- total offs ;; if (t <=? index) then Ok (index - t) else Throw.
Definition is_prism (offs : list nat) (index : nat) : res bool :=
  t <- total offs ;; Ok (index <? t).

(** [isBotLayer] (EPrismThermalModel.h 293-296). *)
Definition is_bot (layers : list player) (lyr : nat) : bool := lyr + 1 =? List.length layers.

(** [GetPoint(lyr, ele, vtx)] (EPrismThermalModel.cpp 193-205). *)
Definition get_point (layers : list player) (temps : list (nat * template)) (scale : Q)
           (lyr ele vtx : nat) : res pt3 :=
  t <- get_template temps lyr ;;
  y <- vat layers lyr ;;
  e <- vat (y_elems y) ele ;;
  tri <- vat (t_tris t) (e_tid e) ;;
  h <- (if vtx <? 3 then Ok (y_elev y)
        else if is_bot layers lyr then Ok (y_elev y - y_thick y)%Q
        else y' <- vat layers (lyr + 1) ;; Ok (y_elev y')) ;;
  v <- vat (t_vs tri) (vtx mod 3) ;;
  p <- vat (t_pts t) v ;;
  Ok {| px := inject_Z (fst p) * scale; py := inject_Z (snd p) * scale; pz := h |}%Q.

(** The two-level map from (level, template vertex) to point number, and the points so far
    (EPrismThermalModel.cpp 97-106). *)
Definition keqb (a b : nat * nat) : bool := (fst a =? fst b) && (snd a =? snd b).
Definition pstate : Type := list ((nat * nat) * nat) * list pt3.

(** One find-or-add of EPrismThermalModel.cpp 118-123 (and 124-129): the number of the point of
    template vertex [vtx] on level [level], added with the given position if not there yet. *)
Definition touch (level vtx : nat) (pos : res pt3) (s : pstate) : res (nat * pstate) :=
  match alookup keqb (level, vtx) (fst s) with
  | Some n => Ok (n, s)
  | None => p <- pos ;; Ok (List.length (snd s), (fst s ++ [((level, vtx), List.length (snd s))], snd s ++ [p]))
  end.

Section Build.
  Context (layers : list player) (temps : list (nat * template)) (scale : Q) (offs : list nat).

  (** The corner loop EPrismThermalModel.cpp 117-130: [vs] are the remaining vertices, [v] the
      position of the first of them; the result is the list of (top, bottom) point numbers. *)
  Fixpoint corners (lyr ele v : nat) (vs : list nat) (s : pstate) : res (list (nat * nat) * pstate) :=
    match vs with
    | [] => Ok ([], s)
    | x :: vs' =>
        a <- touch lyr x (get_point layers temps scale lyr ele v) s ;;
        b <- touch (lyr + 1) x (get_point layers temps scale lyr ele (v + 3)) (snd a) ;;
        r <- corners lyr ele (v + 1) vs' (snd b) ;;
        Ok ((fst a, fst b) :: fst r, snd r)
    end.

  (** Global number of an optional local neighbour (133-148). *)
  Definition nb_global (lyr : nat) (n : option nat) : res (option nat) :=
    match n with None => Ok None | Some k => g <- global_index offs lyr k ;; Ok (Some g) end.
  Fixpoint mapM {A B} (f : A -> res B) (l : list A) : res (list B) :=
    match l with [] => Ok [] | a :: l' => b <- f a ;; r <- mapM f l' ;; Ok (b :: r) end.

  (** One turn of the loop of [BuildPrismModel] (EPrismThermalModel.cpp 108-149).  The reference to
      layer [lyrIdx - 1] of a first layer element wraps around and reads outside the offsets. *)
  Definition build_one (tris : list triangle) (i : nat) (s : pstate) : res (inst * pstate) :=
    li <- local_index offs i ;;
    y <- vidx layers (fst li) ;;
    e <- vat (y_elems y) (snd li) ;;
    tri <- vat tris (e_tid e) ;;
    c <- corners (fst li) (snd li) 0 (t_vs tri) s ;;
    sd <- mapM (nb_global (fst li)) (e_side e) ;;
    tp <- (match e_top e with
           | None => Ok None
           | Some k => match fst li with 0 => UB | Datatypes.S l => nb_global l (Some k) end
           end) ;;
    bt <- nb_global (fst li + 1) (e_bot e) ;;
    Ok ({| i_lyr := fst li; i_ele := snd li; i_vs := map fst (fst c) ++ map snd (fst c);
           i_side := sd; i_top := tp; i_bot := bt |}, snd c).

  Fixpoint build_loop (tris : list triangle) (is : list nat) (s : pstate) : res (list inst * pstate) :=
    match is with
    | [] => Ok ([], s)
    | i :: is' =>
        a <- build_one tris i s ;;
        r <- build_loop tris is' (snd a) ;;
        Ok (fst a :: fst r, snd r)
    end.
End Build.

(** [BuildPrismModel] (EPrismThermalModel.cpp 88-150): the points are cleared, the prisms only
    reserved, so the new prisms are appended to those of an earlier build. *)
Definition build (scale : Q) (m : pmodel) : res pmodel :=
  let offs := offsets (m_layers m) in
  t0 <- get_template (m_temps m) 0 ;;
  n <- total offs ;;
  r <- build_loop (m_layers m) (m_temps m) scale offs (t_tris t0) (seq 0 n) ([], []) ;;
  Ok {| m_layers := m_layers m; m_temps := m_temps m; m_scale := scale; m_offs := offs;
        m_points := snd (snd r); m_prisms := m_prisms m ++ fst r; m_lines := m_lines m |}.

(** [AddLineElement] (EPrismThermalModel.cpp 73-86), connectivity only. *)
Definition add_line (a b : pt3) (front back : list nat) (m : pmodel) : res pmodel :=
  t <- total (m_offs m) ;;
  if 0 <? t then
    let k := List.length (m_points m) in
    Ok {| m_layers := m_layers m; m_temps := m_temps m; m_scale := m_scale m; m_offs := m_offs m;
          m_points := m_points m ++ [a; b]; m_prisms := m_prisms m;
          m_lines := m_lines m ++ [{| l_id := t + List.length (m_lines m); l_ends := (k, k + 1);
                                      l_front := front; l_back := back |}] |}
  else Throw.

(** [prevLine.neighbors.back().emplace_back(line.id)] (EPrismThermalModel.cpp 172-174) for the line
    just before the last one. *)
Fixpoint link_prev (ls : list line) : list line :=
  match ls with
  | [p; l] => [{| l_id := l_id p; l_ends := l_ends p; l_front := l_front p; l_back := l_back p ++ [l_id l] |};
               {| l_id := l_id l; l_ends := l_ends l; l_front := l_front l ++ [l_id p]; l_back := l_back l |}]
  | p :: ls' => p :: link_prev ls'
  | [] => []
  end.
(** [line.neighbors.back().push_back] for the last line (181). *)
Fixpoint link_last (n : nat) (ls : list line) : list line :=
  match ls with
  | [l] => [{| l_id := l_id l; l_ends := l_ends l; l_front := l_front l; l_back := l_back l ++ [n] |}]
  | p :: ls' => p :: link_last n ls'
  | [] => []
  end.
Definition with_lines (f : list line -> list line) (m : pmodel) : pmodel :=
  {| m_layers := m_layers m; m_temps := m_temps m; m_scale := m_scale m; m_offs := m_offs m;
     m_points := m_points m; m_prisms := m_prisms m; m_lines := f (m_lines m) |}.

(** The bond wire loop (EPrismThermalModel.cpp 155-183) for one wire with points [pts]; [first] and
    [fin] are the prisms the spatial query finds for the two ends.  [start] tells the first turn. *)
Fixpoint wire_from (start : bool) (first fin : nat) (pts : list pt3) (m : pmodel) : res pmodel :=
  match pts with
  | a :: ((b :: pts') as rest) =>
      m1 <- add_line a b (if start then [first] else []) [] m ;;
      let m2 := if start then m1 else with_lines link_prev m1 in
      let m3 := match pts' with [] => with_lines (link_last fin) m2 | _ => m2 end in
      wire_from false first fin rest m3
  | _ => Ok m
  end.
(** The whole body of the wire loop; without points [pts.size() - 1] wraps and [pts.at(0)] throws. *)
Definition add_wire (w : nat * nat * list pt3) (m : pmodel) : res pmodel :=
  match snd w with
  | [] => Throw
  | pts => wire_from true (fst (fst w)) (snd (fst w)) pts m
  end.
Fixpoint add_wires (ws : list (nat * nat * list pt3)) (m : pmodel) : res pmodel :=
  match ws with [] => Ok m | w :: ws' => m' <- add_wire w m ;; add_wires ws' m' end.

(** ** Mesh extraction (EThermalModelExtraction.cpp 225-286) *)

(** [buildOnePrismLayer] (228-256): one element per triangle of the template that has a solid
    material in this layer, in triangle order; [solid] stands for the polygon query and the
    material tests of 233-238. *)
Definition extract_layer (solid : nat -> bool) (ntri : nat) : list nat :=
  filter solid (seq 0 ntri).

(** [idMap] (230, 241): triangle number to element number. *)
Fixpoint id_of (tids : list nat) (t : nat) : option nat :=
  match tids with
  | [] => None
  | x :: r => if x =? t then Some 0 else option_map Datatypes.S (id_of r t)
  end.

(** [build connection] (262-286) for one element of layer [lyr]: edge neighbours through the id map
    of its own layer (268-273); the top neighbour is written while the layer above is handled, the
    bottom neighbour while its own layer is (275-286). *)
Definition extract_elem (above cur below : option (list nat)) (tris : list triangle) (tid : nat) : res elem :=
  tri <- vat tris tid ;;
  let look (m : option (list nat)) (t : nat) := match m with Some l => id_of l t | None => None end in
  match look cur tid with
  | None => Throw
  | Some k =>
      Ok {| e_id := k; e_tid := tid;
            e_side := map (fun n => match n with Some t => look cur t | None => None end) (t_nb tri);
            e_top := look above tid; e_bot := look below tid |}
  end.

Definition prev_layer {A} (ls : list A) (lyr : nat) : option A :=
  match lyr with 0 => None | Datatypes.S l => nth_error ls l end.

(** All layers: [solids] gives, per layer, the material test. *)
Definition extract_tids (solids : list (nat -> bool)) (ntri : nat) : list (list nat) :=
  map (fun s => extract_layer s ntri) solids.
Definition extract_layers (solids : list (nat -> bool)) (tris : list triangle) : res (list (list elem)) :=
  let tids := extract_tids solids (List.length tris) in
  mapM (fun lyr =>
          match nth_error tids lyr with
          | None => Throw
          | Some l => mapM (extract_elem (prev_layer tids lyr) (Some l) (nth_error tids (lyr + 1)) tris) l
          end) (seq 0 (List.length tids)).
