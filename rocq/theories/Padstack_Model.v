(** EPadstackDefData pads, src/design/EPadstackDefData.{h,cpp}.  [P] stands for (shape, offset, rotation). *)
From Verif Require Import Base Bondwire_Model.

Section Padstack.
  Context {P : Type} (p_default : P).

  Record pad := mkPad { pad_lyr : string; pad_par : P }.

  (** EPadstackDefData.cpp:109-114: resize keeps the pads that remain, then renames all *)
  Fixpoint set_layers (pads : list pad) (layers : list string) : list pad :=
    match layers with
    | [] => []
    | n :: ns =>
        match pads with
        | [] => mkPad n p_default :: set_layers [] ns
        | p :: ps => mkPad n (pad_par p) :: set_layers ps ns
        end
    end.

  Fixpoint upd (pads : list pad) (i : nat) (v : P) : list pad :=
    match pads, i with
    | [], _ => []
    | p :: ps, O => mkPad (pad_lyr p) v :: ps
    | p :: ps, S i' => p :: upd ps i' v
    end.

  (** EPadstackDefData.cpp:116-126; indexing below zero is out of bounds *)
  Definition set_pad (pads : list pad) (id : Z) (v : P) : res (list pad * bool) :=
    if (id =? noLayer)%Z then Ok (pads, false)
    else if (Z.of_nat (List.length pads) <=? id)%Z then Ok (pads, false)
    else if (id <? 0)%Z then UB
    else Ok (upd pads (Z.to_nat id) v, true).

  (** EPadstackDefData.cpp:128-138: None is a false return *)
  Definition get_pad (pads : list pad) (id : Z) : res (option P) :=
    if (id =? noLayer)%Z then Ok None
    else if (Z.of_nat (List.length pads) <=? id)%Z then Ok None
    else if (id <? 0)%Z then UB
    else match nth_error pads (Z.to_nat id) with Some p => Ok (Some (pad_par p)) | None => UB end.

  (** EPadstackDefData.cpp:230-237 *)
  Fixpoint layer_id_from (pads : list pad) (name : string) (i : nat) : Z :=
    match pads with
    | [] => noLayer
    | p :: ps => if String.eqb name (pad_lyr p) then Z.of_nat i else layer_id_from ps name (S i)
    end.
  Definition pad_layer_id (pads : list pad) (name : string) : Z := layer_id_from pads name 0.

  (** EPadstackDefData.cpp:140-148 *)
  Definition set_pad_named (pads : list pad) (name : string) (v : P) := set_pad pads (pad_layer_id pads name) v.
  Definition get_pad_named (pads : list pad) (name : string) := get_pad pads (pad_layer_id pads name).

  Inductive ps_op := SetLayers (ls : list string) | SetPad (id : Z) (v : P) | SetPadNamed (n : string) (v : P).

  Definition ps_step (r : res (list pad * list bool)) (o : ps_op) : res (list pad * list bool) :=
    bind r (fun s => let (pads, outs) := s in
      match o with
      | SetLayers ls => Ok (set_layers pads ls, outs)
      | SetPad id v => bind (set_pad pads id v) (fun q => Ok (fst q, outs ++ [snd q]))
      | SetPadNamed n v => bind (set_pad_named pads n v) (fun q => Ok (fst q, outs ++ [snd q]))
      end).
  Definition ps_run (ops : list ps_op) : res (list pad * list bool) := fold_left ps_step ops (Ok ([], [])).
End Padstack.
Arguments pad : clear implicits.
Arguments ps_op : clear implicits.
