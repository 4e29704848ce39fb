(** Heights of layers, components and bondwires, and bondwire refinement.
    src/utility/ELayoutRetriever.cpp, src/utility/ELayoutModifier.cpp

    EFloat is Q, ECoord (int64) is unbounded Z.  Within<LORC>(h, a, b) of generic::math is a < h <= b, the
    division of an integer point by 2 and the conversion of a float coordinate to an integer truncate, and
    DistanceSq is the exact squared distance.  Layout data enter as plain values. *)
From Verif Require Import Base QSum ThermalNetwork_Model.
From Coq Require Import Qround.

(** * Stack-up *)
(** a layer; [sl_stackup] tells whether GetStackupLayerFromLayer is non-null *)
Record slayer := mkSL { sl_id : Z; sl_name : string; sl_stackup : bool; sl_elev : Q; sl_thick : Q }.

(** ELayerCollection.cpp:83-99 *)
Definition stackup (ls : list slayer) : list slayer := filter sl_stackup ls.

(** ELayoutModifier.cpp:18-29 on the layer collection; [up] is the stack-up layer above *)
Fixpoint update_from (up : option slayer) (ls : list slayer) : list slayer :=
  match ls with
  | [] => []
  | l :: ls' =>
    if sl_stackup l then
      let l' := match up with
                | None => l
                | Some u => mkSL (sl_id l) (sl_name l) (sl_stackup l) (sl_elev u - sl_thick u) (sl_thick l)
                end in
      l' :: update_from (Some l') ls'
    else l :: update_from up ls'
  end.
Definition update_elevation (ls : list slayer) : list slayer := update_from None ls.

(** ELayoutModifier.cpp:6-16; FindLayerByName gives the first layer of that name *)
Fixpoint set_thickness (name : string) (t : Q) (ls : list slayer) : option (list slayer) :=
  match ls with
  | [] => None
  | l :: ls' =>
    if String.eqb (sl_name l) name then
      if sl_stackup l then Some (mkSL (sl_id l) (sl_name l) (sl_stackup l) (sl_elev l) t :: ls') else None
    else option_map (cons l) (set_thickness name t ls')
  end.
Definition modify_thickness (ls : list slayer) (name : string) (t : Q) : bool * list slayer :=
  match set_thickness name t ls with
  | None => (false, ls)
  | Some ls' => (true, update_elevation ls')
  end.

(** The retriever: the map built on first use (322-334) and kept while non-empty.  emplace keeps the first
    entry of an id. *)
Definition hmap := list (Z * (Q * Q)).
Fixpoint lookup (m : hmap) (id : Z) : option (Q * Q) :=
  match m with [] => None | (k, v) :: m' => if (k =? id)%Z then Some v else lookup m' id end.
Definition build_map (ls : list slayer) : hmap := map (fun l => (sl_id l, (sl_elev l, sl_thick l))) (stackup ls).
Definition use_map (cache : hmap) (ls : list slayer) : hmap := match cache with [] => build_map ls | _ => cache end.

(** 27-35 *)
Definition layer_height (m : hmap) (id : Z) : option (Q * Q) := lookup m id.

(** 14-25; the two calls of GetLayerHeightThickness ignore their result: a missing id leaves the
    variables uninitialised *)
Definition stackup_height (m : hmap) (ls : list slayer) : res (Q * Q) :=
  match stackup ls, rev (stackup ls) with
  | t :: _, b :: _ =>
    match lookup m (sl_id t), lookup m (sl_id b) with
    | Some (te, _), Some (be, bt) => Ok (te, te - be + bt)
    | _, _ => UB
    end
  | _, _ => UB
  end.

(** 263-277 *)
Fixpoint search_stackup (m : hmap) (ls : list slayer) (h : Q) : res (option slayer) :=
  match ls with
  | [] => Ok None
  | l :: ls' =>
    match lookup m (sl_id l) with
    | None => UB
    | Some (e, t) => if Qltb (e - t) h && Qle_bool h e then Ok (Some l) else search_stackup m ls' h
    end
  end.
Definition search_layer (m : hmap) (ls : list slayer) (h : Q) : res (option slayer) := search_stackup m (stackup ls) h.

(** * Components *)
Record comp := mkComp { c_layer : Z; c_flip : bool; c_height : Q; c_bump : Q }.
(** 42-52 *)
Definition component_height (m : hmap) (c : comp) : option (Q * Q) :=
  match lookup m (c_layer c) with
  | None => None
  | Some (e, t) => Some (if c_flip c then e - t - c_bump c else e + c_bump c + c_height c, c_height c)
  end.
(** 54-64 *)
Definition bump_height (m : hmap) (c : comp) : option (Q * Q) :=
  match lookup m (c_layer c) with
  | None => None
  | Some (e, t) => Some (if c_flip c then e - t else e + c_bump c, c_bump c)
  end.

(** * Bondwires *)
(** one end: bonded to a component, to a layer (with the flip state of GetStartLayer/GetEndLayer), or nowhere *)
Inductive bond := OnComp (c : comp) | OnLayer (id : Z) (flip : bool) | Nowhere.
Definition bond_flip (b : bond) : bool := match b with OnComp c => c_flip c | OnLayer _ f => f | Nowhere => false end.
(** 69-90; [sj] is the thickness of the solder joint if there is one *)
Definition bond_height (m : hmap) (b : bond) (sj : option Q) : option Q :=
  let face o flip := option_map (fun '(e, t) =>
    let h := if (flip : bool) then e - t else e in
    match sj with Some s => if flip then h - s else h + s | None => h end) o in
  match b with
  | OnComp c => face (component_height m c) (c_flip c)
  | OnLayer id f => face (lookup m id) f
  | Nowhere => None
  end.
(** 178-200: elevation and thickness of the solder joint *)
Definition joint_range (m : hmap) (b : bond) (sj : Q) : option (Q * Q) :=
  option_map (fun h => (if bond_flip b then h + sj else h, sj)) (bond_height m b (Some sj)).

Definition pt := (Z * Z)%type.
Definition wire := (list pt * list Q)%type.

(** integer point times 1/8 or 7/8, truncating *)
Definition eighth (k : Z) (p : pt) : pt := (Z.quot (k * fst p) 8, Z.quot (k * snd p) 8).
Definition padd (p q : pt) : pt := (fst p + fst q, snd p + snd q)%Z.
Definition psub (p q : pt) : pt := (fst p - fst q, snd p - snd q)%Z.

(** 232-246, 248-261 *)
Definition simple_segments (s e : pt) (hs he : Q) (fs fe : bool) (h : Q) : wire :=
  ([s; padd s (eighth 1 (psub e s)); padd s (eighth 7 (psub e s)); e],
   [hs; (if fs then hs - h else hs + h); (if fe then he - h else he + h); he]).
Definition jedec4_segments (s e : pt) (hs he : Q) (fs : bool) (h : Q) : wire :=
  let top := if fs then hs - h else hs + h in
  ([s; s; padd s (eighth 1 (psub e s)); e], [hs; top; top; he]).

(** (p1 + p2) / 2 *)
Definition pmid (p q : pt) : pt := (Z.quot (fst p + fst q) 2, Z.quot (snd p + snd q) 2).
Definition hmid (a b : Q) : Q := (a + b) / 2.

(** a point of the wire with its height *)
Definition wpt := (pt * Q)%type.
Definition wmid (a b : wpt) : wpt := (pmid (fst a) (fst b), hmid (snd a) (snd b)).

(** 122-130: the two vectors are filled in step, so they are one list here *)
Fixpoint refine_from (last : wpt) (ws : list wpt) : list wpt :=
  match ws with
  | [] => []
  | w :: ws' => wmid last w :: w :: refine_from w ws'
  end.
Definition refine (ws : list wpt) : res (list wpt) :=
  match ws with [] => UB | w :: ws' => Ok (w :: refine_from w ws') end.
(** 110-134, from a non-empty vector of points *)
Fixpoint min_seg (fuel : nat) (n : nat) (ws : list wpt) : res (list wpt) :=
  match fuel with
  | O => OutOfFuel
  | Datatypes.S k =>
    if (n <=? List.length ws)%nat then Ok ws
    else bind (refine ws) (min_seg k n)
  end.

(** * Refinement by length *)
Definition trunc (q : Q) : Z := if Qle_bool 0 q then Qfloor q else Qceiling q.
Section MaxLen.
  Context (scale : Q).
  Definition zc (w : wpt) : Z := trunc (snd w * scale).
  (** 141-143 *)
  Definition dist_sq (a b : wpt) : Z :=
    let dx := (fst (fst a) - fst (fst b))%Z in
    let dy := (snd (fst a) - snd (fst b))%Z in
    let dz := (zc a - zc b)%Z in
    (dx * dx + dy * dy + dz * dz)%Z.
  (** 147-149 *)
  Definition same (a b : wpt) : bool :=
    ((fst (fst a) =? fst (fst b)) && (snd (fst a) =? snd (fst b)) && (zc a =? zc b))%Z.

  (** 155-171.  [back] is the last point written, [t] = pt2ds[i], [rest] the points after it, [final] the
      last point of the wire; the result is what is appended *)
  Fixpoint max_loop (fuel : nat) (max_sq : Z) (final back cur t : wpt) (rest : list wpt) : res (list wpt) :=
    match fuel with
    | O => OutOfFuel
    | Datatypes.S k =>
      if (max_sq <? dist_sq back cur)%Z then max_loop k max_sq final back (wmid back cur) t rest
      else rmap (cons cur)
        (if same cur t then
           match rest with
           | [] => Ok [final]
           | t' :: rest' => max_loop k max_sq final cur t' t' rest'
           end
         else max_loop k max_sq final cur t t rest)
    end.
  (** 136-176 on the points of GetBondwireSegments; at(1) throws for fewer than two *)
  Definition max_len (fuel : nat) (maxlen : Z) (ws : list wpt) : res (list wpt) :=
    match ws with
    | w0 :: t :: rest => rmap (cons w0) (max_loop fuel (maxlen * maxlen) (last rest t) w0 t t rest)
    | _ => Throw
    end.
End MaxLen.
