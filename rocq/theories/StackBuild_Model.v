(** Building a stack-up prism thermal model: numbering, corner points, side neighbours and contacts of its prisms, and its bond
    wires.  Models src/model/thermal/utils/EStackupPrismThermalModelBuilder.cpp, with the queries of Monitor_Model.

    Every layer has a triangulation of its own.  The boxes, areas and intersections of triangles are those of 3rdparty/generic and
    the spatial index is boost's; materials, radii and currents of wires are left out. *)
From Verif Require Import Base Prism_Model PrismNet_Model Monitor_Model.
From Coq Require Import QArith Qround.
Close Scope Q_scope.
Open Scope nat_scope.
Open Scope res_scope.

Section Stack.
  (** [key]: box of a triangle of a triangulation; [select]: the entries whose box meets a box; [nearest]: the nearest entry;
      [tarea]: area of a triangle; [inter]: area common to two triangles *)
  Context {K : Type} (key : template -> nat -> K) (select : K -> list (K * nat) -> list (K * nat)).
  Context (nearest : list (K * nat) -> Z * Z -> list (K * nat)).
  Context (tarea : template -> nat -> Q) (inter : template -> nat -> template -> nat -> Q).

  (** ** Prisms and points *)
  Section Place.
    Context (layers : list player) (temps : list (nat * template)) (scale : Q) (offs : list nat).
    (** EStackupPrismThermalModelBuilder.cpp 31-48: prism [i] and its six points *)
    Definition place_one (i : nat) : res (inst * list pt3) :=
      li <- local_index offs i ;;
      pts <- mapM (get_point layers temps scale (fst li) (snd li)) (seq 0 6) ;;
      y <- vidx layers (fst li) ;;
      e <- vat (y_elems y) (snd li) ;;
      sd <- mapM (nb_global offs (fst li)) (e_side e) ;;
      Ok ({| i_lyr := fst li; i_ele := snd li; i_vs := map (fun v => 6 * i + v) (seq 0 6);
             i_side := sd; i_top := None; i_bot := None |}, pts).
  End Place.
  (** 20-49.  The points are resized to six for every prism, all of them are overwritten; the prisms are appended to those of an
      earlier build. *)
  Definition place (scale : Q) (m : pmodel) : res pmodel :=
    let offs := offsets (m_layers m) in
    n <- total offs ;;
    r <- mapM (place_one (m_layers m) (m_temps m) scale offs) (seq 0 n) ;;
    Ok {| m_layers := m_layers m; m_temps := m_temps m; m_scale := scale; m_offs := offs;
          m_points := flat_map snd r; m_prisms := m_prisms m ++ map fst r; m_lines := m_lines m |}.

  (** ** Contacts *)
  Definition ctacts : Type := (list (nat * Q) * list (nat * Q))%type.
  (** the model, the contacts of its prisms and the trees built so far *)
  Record bstate := mkB { b_model : pmodel; b_contacts : list ctacts; b_cache : cache K }.

  (** EStackupPrismThermalModelQuery.cpp 20-25: triangulation and triangle of a prism *)
  Definition tri_of (m : pmodel) (i : nat) : res (template * nat) :=
    p <- vidx (m_prisms m) i ;;
    t <- get_template (m_temps m) (i_lyr p) ;;
    y <- vidx (m_layers m) (i_lyr p) ;;
    e <- vat (y_elems y) (i_ele p) ;;
    Ok (t, e_tid e).

  (** EStackupPrismThermalModelBuilder.cpp 73-77 (88-92) *)
  Definition touching (m : pmodel) (t : template) (tid : nat) (found : list nat) : res (list (nat * Q)) :=
    r <- mapM (fun j => u <- tri_of m j ;; Ok (j, inter t tid (fst u) (snd u))) found ;;
    Ok (map (fun c => (fst c, snd c / tarea t tid)%Q) (filter (fun c => negb (Qle_bool (snd c) 0)) r)).

  Fixpoint set_at {A} (i : nat) (f : A -> A) (l : list A) : list A :=
    match l, i with
    | [], _ => []
    | a :: l', O => f a :: l'
    | a :: l', Datatypes.S i' => a :: set_at i' f l'
    end.
  Definition mark_top (n : option nat) (p : inst) : inst :=
    {| i_lyr := i_lyr p; i_ele := i_ele p; i_vs := i_vs p; i_side := i_side p; i_top := n; i_bot := i_bot p |}.
  Definition mark_bot (n : option nat) (p : inst) : inst :=
    {| i_lyr := i_lyr p; i_ele := i_ele p; i_vs := i_vs p; i_side := i_side p; i_top := i_top p; i_bot := n |}.
  Definition with_prisms (m : pmodel) (ps : list inst) : pmodel :=
    {| m_layers := m_layers m; m_temps := m_temps m; m_scale := m_scale m; m_offs := m_offs m;
       m_points := m_points m; m_prisms := ps; m_lines := m_lines m |}.

  (** One turn of 60-97.  The test whether there are contacts asks the array of the two lists, which is never empty. *)
  Definition contact_step (s : bstate) (i : nat) : res bstate :=
    let m := b_model s in
    li <- local_index (m_offs m) i ;;
    u <- tri_of m i ;;
    a <- (match fst li with
          | O => Ok (None, [], b_cache s)
          | Datatypes.S l =>
              r <- search_layer key select m (b_cache s) l (key (fst u) (snd u)) ;;
              cs <- touching m (fst u) (snd u) (snd r) ;; Ok (Some i, cs, fst r)
          end) ;;
    let '(top, ctop, c1) := a in
    b <- (if is_bot (m_layers m) (fst li) then Ok (None, [], c1)
          else
            r <- search_layer key select m c1 (fst li + 1) (key (fst u) (snd u)) ;;
            cs <- touching m (fst u) (snd u) (snd r) ;; Ok (Some i, cs, fst r)) ;;
    let '(bot, cbot, c2) := b in
    Ok (mkB (with_prisms m (set_at i (fun p => mark_bot bot (mark_top top p)) (m_prisms m)))
            (set_at i (fun c => (fst c ++ ctop, snd c ++ cbot)) (b_contacts s)) c2).
  Fixpoint contact_steps (s : bstate) (is : list nat) : res bstate :=
    match is with [] => Ok s | i :: is' => s' <- contact_step s i ;; contact_steps s' is' end.

  (** 51-57: with threads, one task for the prisms of every layer; a step of a task is a turn of the loop, which changes only its
      own prism and, under a mutex, the cache.  [w] is the order in which the turns are taken. *)
  Definition layer_tasks (offs : list nat) : list (list nat) :=
    map (fun be => seq (fst be) (snd be - fst be)) (combine offs (tl offs)).
  (** 20-58; a new builder has an empty cache, the contacts of prisms of earlier builds are [old] *)
  Definition stack_build (scale : Q) (m : pmodel) (old : list ctacts) (w : list nat) : res bstate :=
    m1 <- place scale m ;;
    contact_steps (mkB m1 (old ++ repeat ([], []) (List.length (m_prisms m1) - List.length old)) []) w.

  (** ** Bond wires *)
  (** std::round: to the nearest whole number, halves away from zero *)
  Definition round_half (q : Q) : Z := if Qle_bool 0 q then Qfloor (q + (1 # 2)) else Qceiling (q - (1 # 2)).
  (** ELayerCutModel.cpp 127-132, 139-142: the cut planes from top to bottom, as whole numbers *)
  Fixpoint index_of (z : Z) (k : nat) (order : list Z) : option nat :=
    match order with [] => None | h :: r => if (h =? z)%Z then Some k else index_of z (Datatypes.S k) r end.
  Record wire := mkwire { w_pts : list (Z * Z); w_heights : list Q }.

  (** EStackupPrismThermalModelBuilder.cpp 112-116, 124-128, EPrismThermalModel.cpp 164-168, 176-180: the prism an end of a wire is
      connected to.  The index of an unknown plane has no triangulation, which throws; the assertion fails for an empty layer. *)
  Definition end_prism (order : list Z) (vscale : Q) (m : pmodel) (c : cache K) (h : Q) (p : Z * Z) : res (cache K * nat) :=
    match index_of (round_half (h * vscale)%Q) 0 order with
    | None => Throw
    | Some l =>
        r <- query_tree key m c l ;;
        match nearest (snd r) p with [v] => Ok (fst r, snd v) | _ => Throw end
    end.
  Definition wire_points (scale : Q) (w : wire) : list pt3 :=
    map (fun a => {| px := inject_Z (fst (fst a)) * scale; py := inject_Z (snd (fst a)) * scale; pz := snd a |}%Q)
        (combine (w_pts w) (w_heights w)).
  (** 100-132, and EPrismThermalModel.cpp 152-184; the two ends are looked up first, here. *)
  Definition stack_wire (order : list Z) (vscale : Q) (mc : pmodel * cache K) (w : wire) : res (pmodel * cache K) :=
    let '(m, c) := mc in
    if List.length (w_pts w) =? List.length (w_heights w) then
      match w_pts w with
      | [] => Throw
      | [_] => Ok (m, c)
      | _ =>
          a <- end_prism order vscale m c (hd 0%Q (w_heights w)) (hd (0, 0)%Z (w_pts w)) ;;
          b <- end_prism order vscale m (fst a) (last (w_heights w) 0%Q) (last (w_pts w) (0, 0)%Z) ;;
          m' <- add_wire (snd a, snd b, wire_points (m_scale m) w) m ;;
          Ok (m', fst b)
      end
    else Throw.
  Fixpoint stack_wires (order : list Z) (vscale : Q) (mc : pmodel * cache K) (ws : list wire) : res (pmodel * cache K) :=
    match ws with [] => Ok mc | w :: ws' => mc' <- stack_wire order vscale mc w ;; stack_wires order vscale mc' ws' end.
End Stack.
Arguments mkB {K}.
Arguments b_model {K}.
Arguments b_contacts {K}.
Arguments b_cache {K}.
