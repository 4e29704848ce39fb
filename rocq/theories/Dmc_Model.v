(** Import of DMC/DOM files: src/extension/dmcdom/ECadExtDmcDomHandler.cpp.

    A DMC file lists records (one per polygon), a DOM file lists the points of all of them.  The
    iterators [curr], [next], [ptBegin] and [ptEnd] are the remaining suffixes of the two vectors.
    Moving [next] past the end of the vector, which the loop does in its last round without ever
    dereferencing it, is not counted as an error.  Texts are already split into records here, the layer
    field excepted ([parse_sig]); point and box scaling and the layout boundary are left out, as are the
    padstack definitions, which carry the via shape and nothing else. *)
From Coq Require Import Ascii.
From Verif Require Import Base Names_Model Net_Model LayerMap_Model Layers_Model.
Open Scope res_scope.

(** ECadExtDmcDomHandler.h:11-23 – EDmcData *)
Record record := {
  r_points : nat; r_hole : bool; r_via : bool;
  r_net : Z; r_netname : string; r_layer : Z; r_lyrname : string; r_sig1 : Z; r_sig2 : Z
}.

Section Points.
  Context {P : Type}.

  (** Shape: outline and holes. *)
  Definition shape : Type := list P * list (list P).
  Record primitive := { p_layer : Z; p_net : Z; p_shape : shape }.
  Record via := { v_net : Z; v_sig1 : Z; v_sig2 : Z; v_shape : shape }.
  Record padstack := { i_top : Z; i_bot : Z; i_net : Z; i_shape : shape }.

  (** The variables of CreateDatabase, 84-97; [s_pts] starts at [ptBegin]. *)
  Record state := {
    s_nets : netcoll; s_layers : layers;
    s_netmap : list (Z * Z); s_lyrmap : list (Z * Z); s_sigmap : list (Z * Z);
    s_vias : list via; s_prims : list primitive; s_pts : list P
  }.
  Definition start (pts : list P) : state :=
    {| s_nets := nc_init; s_layers := ly_init; s_netmap := []; s_lyrmap := []; s_sigmap := []; s_vias := []; s_prims := []; s_pts := pts |}.

  (** 108-111 – [std::advance] past the end of the points is undefined. *)
  Definition take_points (n : nat) (pts : list P) : res (list P * list P) :=
    if n <=? List.length pts then Ok (firstn n pts, skipn n pts) else UB.

  (** 112-121 – the holes that follow *)
  Fixpoint take_holes (rs : list record) (pts : list P) : res (list (list P) * list record * list P) :=
    match rs with
    | r :: rs' =>
        if r_hole r then
          h <- take_points (r_points r) pts ;;
          t <- take_holes rs' (snd h) ;;
          Ok (fst h :: fst (fst t), snd (fst t), snd t)
        else Ok ([], rs, pts)
    | [] => Ok ([], [], pts)
    end.

  (** 128-132 – the net of the record; CreateNet returns null for a name already in use. *)
  Definition net_of (r : record) (s : state) : res state :=
    if acount Z.eqb (r_net r) (s_netmap s) then Ok s
    else match nc_create (s_nets s) (r_netname r) with
         | (nets, Some n) =>
             Ok {| s_nets := nets; s_layers := s_layers s; s_netmap := aemplace Z.eqb (r_net r) (net_id n) (s_netmap s);
                   s_lyrmap := s_lyrmap s; s_sigmap := s_sigmap s; s_vias := s_vias s; s_prims := s_prims s; s_pts := s_pts s |}
         | (_, None) => UB
         end.
  (** [unordered_map::at] *)
  Definition at_ (m : list (Z * Z)) (k : Z) : res Z := match alookup Z.eqb k m with Some v => Ok v | None => Throw end.

  (** 134-147 *)
  Definition place (r : record) (sh : shape) (s : state) : res state :=
    if r_via r then
      Ok {| s_nets := s_nets s; s_layers := s_layers s; s_netmap := s_netmap s; s_lyrmap := s_lyrmap s; s_sigmap := s_sigmap s;
            s_vias := s_vias s ++ [{| v_net := r_net r; v_sig1 := r_sig1 r; v_sig2 := r_sig2 r; v_shape := sh |}];
            s_prims := s_prims s; s_pts := s_pts s |}
    else
      let '(ls, lm) := if acount Z.eqb (r_layer r) (s_lyrmap s) then (s_layers s, s_lyrmap s)
                       else let '(ls, i) := append_layer (s_layers s) (r_lyrname r) LConducting in
                            (ls, aemplace Z.eqb (r_layer r) i (s_lyrmap s)) in
      let sm := aemplace Z.eqb (r_sig1 r) (r_layer r) (s_sigmap s) in
      l <- at_ lm (r_layer r) ;;
      n <- at_ (s_netmap s) (r_net r) ;;
      Ok {| s_nets := s_nets s; s_layers := ls; s_netmap := s_netmap s; s_lyrmap := lm; s_sigmap := sm;
            s_vias := s_vias s; s_prims := s_prims s ++ [{| p_layer := l; p_net := n; p_shape := sh |}]; s_pts := s_pts s |}.

  Definition set_pts (pts : list P) (s : state) : state :=
    {| s_nets := s_nets s; s_layers := s_layers s; s_netmap := s_netmap s; s_lyrmap := s_lyrmap s; s_sigmap := s_sigmap s;
       s_vias := s_vias s; s_prims := s_prims s; s_pts := pts |}.

  (** 98-149 – a hole that is met here has no outline before it and is passed over. *)
  Fixpoint records_loop (fuel : nat) (rs : list record) (s : state) : res state :=
    match rs with
    | [] => Ok s
    | r :: rs' =>
        match fuel with
        | O => OutOfFuel
        | S fuel =>
            if r_hole r then records_loop fuel rs' s
            else
              o <- take_points (r_points r) (s_pts s) ;;
              h <- take_holes rs' (snd o) ;;
              s <- net_of r (set_pts (snd h) s) ;;
              s <- place r (fst o, fst (fst h)) s ;;
              records_loop fuel (snd (fst h)) s
        end
    end.

  (** 170-185 – a padstack instance per via *)
  Fixpoint padstacks (s : state) (vs : list via) : res (list padstack) :=
    match vs with
    | [] => Ok []
    | v :: vs' =>
        n <- at_ (s_netmap s) (v_net v) ;;
        l1 <- at_ (s_sigmap s) (v_sig1 v) ;; top <- at_ (s_lyrmap s) l1 ;;
        l2 <- at_ (s_sigmap s) (v_sig2 v) ;; bot <- at_ (s_lyrmap s) l2 ;;
        r <- padstacks s vs' ;;
        Ok ({| i_top := top; i_bot := bot; i_net := n; i_shape := v_shape v |} :: r)
    end.

  Record layout := { o_nets : netcoll; o_layers : layers; o_prims : list primitive; o_padstacks : list padstack }.

  (** 98-187.  AddDefaultDielectricLayers (ELayoutView.cpp:175-181) maps the layers of primitives
      (EPrimitiveCollection.cpp:78-84) and padstacks (EPadstackInstCollection.cpp:62-85). *)
  Definition import_records (rs : list record) (pts : list P) : res layout :=
    s <- records_loop (List.length rs) rs (start pts) ;;
    ps <- padstacks s (s_vias s) ;;
    d <- add_default_dielectrics (s_layers s) ;;
    Ok {| o_nets := s_nets s; o_layers := fst d;
          o_prims := map (fun p => {| p_layer := forward (snd d) (p_layer p); p_net := p_net p; p_shape := p_shape p |}) (s_prims s);
          o_padstacks := map (fun i => {| i_top := forward (snd d) (i_top i); i_bot := forward (snd d) (i_bot i);
                                          i_net := i_net i; i_shape := i_shape i |}) ps |}.
End Points.
Arguments shape : clear implicits.
Arguments primitive : clear implicits.
Arguments via : clear implicits.
Arguments padstack : clear implicits.
Arguments state : clear implicits.
Arguments layout : clear implicits.

Section Lines.
  (** [std::stoi] (throws if there is no number) and [generic::str::Split] by "-". *)
  Context (stoi : string -> option Z) (split : string -> list string).
  Definition stoi_ (s : string) : res Z := match stoi s with Some z => Ok z | None => Throw end.

  (** 29-38, 48-54 – the layer field; [Ok None] is a line that is refused.  [sigLyr2] of a record that
      is not a via stays unset and is not used. *)
  Definition parse_sig (sig : string) : res (option (bool * Z * Z)) :=
    match sig with
    | EmptyString => Ok None
    | String c rest =>
        if Ascii.eqb c "V"%char then
          match rest with
          | EmptyString => Ok (Some (true, -1, -1)%Z)
          | _ => match split rest with
                 | [a; b] => a <- stoi_ a ;; b <- stoi_ b ;; Ok (Some (true, a, b))
                 | _ => Ok None
                 end
          end
        else a <- stoi_ sig ;; Ok (Some (false, a, 0%Z))
    end.
End Lines.
