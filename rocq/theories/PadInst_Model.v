(** Padstack instances: the shape an instance shows on a layer (src/design/EPadstackInst.cpp) and the layer
    mapping of a collection of instances (src/collection/EPadstackInstCollection.cpp).  A shape is its list of
    outline points; EShape::Transform moves every point (the external library's conversion of circles and
    boxes to polygons is left out).  Layer maps live in a heap and are referred to by address. *)
From Verif Require Import Base Bondwire_Model Padstack_Model LayerMap_Model Transform_Model Names_Model.

Definition outline : Type := list pt.
Definition move_outline (m : aff) (s : outline) : outline := map (aff_apply m) s.

(** src/design/EPadstackDefData.h: shape (may be null), offset and rotation of a pad or of the via *)
Record params := mkPar { pr_shape : option outline; pr_off : pt; pr_rot : Q }.
Record psdata := mkData { ps_pads : list (pad params); ps_via : params }.

(** EPadstackInst.h: definition (may be null, and so may its data), layer map (may be null), range, transform *)
Record pinst := mkInst { i_def : option (option psdata); i_map : option nat; i_top : Z; i_bot : Z;
                         i_tr : transform }.

(** a layer map object: its name and its entries; the heap is indexed by address *)
Record mapobj := mkObj { mo_name : string; mo_map : lmap }.
Definition heap : Type := list mapobj.

Section PadInst.
  Context (cosQ sinQ : Q -> Q).

  (** EPadstackInst.cpp:106-114 – pad parameters of the layer, else those of the via *)
  Definition pick_params (d : psdata) (l : Z) : res params :=
    bind (get_pad (ps_pads d) l) (fun r =>
      match r with
      | Some p => match pr_shape p with Some _ => Ok p | None => Ok (ps_via d) end
      | None => Ok (ps_via d)
      end).

  (** EPadstackInst.cpp:117-119 *)
  Definition shape_transform (i : pinst) (p : params) : transform :=
    append cosQ sinQ (i_tr i) (make_transform cosQ sinQ 1 (pr_rot p) (pr_off p) MNo).

  (** EPadstackInst.cpp:89-122 *)
  Definition layer_shape (h : heap) (i : pinst) (lyr : Z) : res (option outline) :=
    if ((lyr <? Z.min (i_top i) (i_bot i)) || (Z.max (i_top i) (i_bot i) <? lyr))%Z%bool then Ok None
    else match i_map i with
    | None => Ok None
    | Some a =>
        match i_def i with
        | None | Some None => Ok None
        | Some (Some d) =>
            match nth_error h a with
            | None => UB
            | Some o =>
                bind (pick_params d (forward (mo_map o) lyr)) (fun p =>
                  match pr_shape p with
                  | None => Ok None
                  | Some s => Ok (Some (move_outline (get_transform cosQ sinQ (shape_transform i p)) s))
                  end)
            end
        end
    end.
End PadInst.

(** the database's layer maps: name to address *)
Record mstate := mkMS { ms_heap : heap; ms_reg : list (string * nat) }.

(** EPadstackInstCollection.cpp:71-82 – the new layer map of an origin; [lut] is the local table lyrMaps *)
Definition map_origin (lyr : lmap) (s : mstate) (lut : list (nat * nat)) (a : nat)
  : res (mstate * list (nat * nat) * nat) :=
  match alookup Nat.eqb a lut with
  | Some b => Ok (s, lut, b)
  | None =>
      match nth_error (ms_heap s) a with
      | None => UB
      | Some o =>
          bind (next_key (S (List.length (ms_reg s))) (fun n => acount String.eqb n (ms_reg s)) (mo_name o)) (fun nm =>
            let b := List.length (ms_heap s) in
            if acount String.eqb nm (ms_reg s) then Throw
            else Ok (mkMS (ms_heap s ++ [mkObj nm (mapping_left (mo_map o) lyr)]) (ms_reg s ++ [(nm, b)]),
                     lut ++ [(a, b)], b))
      end
  end.

(** EPadstackInstCollection.cpp:67-83 – one turn of the loop *)
Definition map_inst (lyr : lmap) (s : mstate) (lut : list (nat * nat)) (i : pinst)
  : res (mstate * list (nat * nat) * pinst) :=
  match i_map i with
  | None => UB
  | Some a =>
      bind (map_origin lyr s lut a) (fun r =>
        Ok (fst r, mkInst (i_def i) (Some (snd r)) (forward lyr (i_top i)) (forward lyr (i_bot i)) (i_tr i)))
  end.

Fixpoint map_insts (lyr : lmap) (s : mstate) (lut : list (nat * nat)) (l : list pinst)
  : res (mstate * list pinst) :=
  match l with
  | [] => Ok (s, [])
  | i :: l' =>
      bind (map_inst lyr s lut i) (fun r =>
        bind (map_insts lyr (fst (fst r)) (snd (fst r)) l') (fun q => Ok (fst q, snd r :: snd q)))
  end.

(** EPadstackInstCollection.cpp:62-85 *)
Definition map_collection (lyr : lmap) (s : mstate) (l : list pinst) : res (mstate * list pinst) :=
  map_insts lyr s [] l.
