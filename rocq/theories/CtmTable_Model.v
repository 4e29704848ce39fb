(** Model of the power and density files of a chip thermal model,
    src/model/thermal/io/EChipThermalModelIO.cpp:334-380 and 454-515.

    A file is a list of 4-byte words; integers and single precision numbers are given by their value
    ([Z]), so the loss of precision from double to float is not modelled, nor files whose length is
    not a multiple of four.  A table is the list of its values in the order of [operator[]]; where
    [operator()] finds the value of tile (x, y) is a matter of the generic library and a parameter. *)
From Verif Require Import Base.
Local Open Scope res_scope.

Fixpoint set_nth {A} (i : nat) (v : A) (l : list A) : list A :=
  match i, l with
  | _, [] => []
  | O, _ :: l' => v :: l'
  | S i', x :: l' => x :: set_nth i' v l'
  end.

(** EChipThermalModelIO.cpp:454-469 *)
Definition write_power (t : list Z) : list Z := t.

(** EChipThermalModelIO.cpp:342-344: the words read so far are stored, the rest of the table is left
    as it is; the result is always success. *)
Fixpoint read_power_from (i : nat) (ws : list Z) (t : list Z) : list Z :=
  match ws with
  | [] => t
  | w :: ws' => if (i <? List.length t)%nat then read_power_from (S i) ws' (set_nth i w t) else t
  end.
Definition read_power (ws : list Z) (t : list Z) : list Z := read_power_from 0 ws t.

Section density.
  (** Position of tile (x, y) of an nx by ny table. *)
  Context (pos : nat -> nat -> nat -> nat -> nat).
  (** Tile boxes are written and ignored; their values do not matter. *)
  Context (boxw : nat -> nat -> list Z) (boxw_len : forall x y, List.length (boxw x y) = 4%nat).

  Definition at_tile (nx ny : nat) (t : list Z) (x y : nat) : Z := nth (pos nx ny x y) t 0%Z.

  (** EChipThermalModelIO.cpp:495-511 *)
  Definition tile_record (nx ny : nat) (tabs : list (list Z)) (x y : nat) : list Z :=
    Z.of_nat (x * ny + y + 1) :: boxw x y ++ map (fun t => at_tile nx ny t x y) tabs.
  Definition write_density (nx ny : nat) (tabs : list (list Z)) : list Z :=
    flat_map (fun x => flat_map (fun y => tile_record nx ny tabs x y) (seq 0 ny)) (seq 0 nx).
End density.

(** The stream: the words left, the end-of-file flag, and the local variable [f] ([None] while it is
    uninitialised). *)
Record stream := mkst { s_words : list Z; s_eof : bool; s_f : option Z }.
(** [fp.read] of one word into [f] *)
Definition rd (s : stream) : stream :=
  match s_words s with
  | w :: ws => mkst ws (s_eof s) (Some w)
  | [] => mkst [] true (s_f s)
  end.
(** [fp.read] into [id] *)
Definition rd_id (s : stream) : stream :=
  match s_words s with
  | _ :: ws => mkst ws (s_eof s) (s_f s)
  | [] => mkst [] true (s_f s)
  end.

(** EChipThermalModelIO.cpp:370-373: one value for every layer; storing an uninitialised value is
    undefined. *)
Fixpoint read_tile (i : nat) (s : stream) (tabs : list (list Z)) : res (stream * list (list Z)) :=
  match tabs with
  | [] => Ok (s, [])
  | t :: tabs' =>
      let s1 := rd s in
      match s_f s1 with
      | None => UB
      | Some v => r <- read_tile i s1 tabs' ;; let '(s2, rest) := r in Ok (s2, set_nth i v t :: rest)
      end
  end.

(** EChipThermalModelIO.cpp:361-376; [n] tiles remain. *)
Fixpoint read_tiles (n i : nat) (s : stream) (tabs : list (list Z)) : res (list (list Z)) :=
  match n with
  | O => Ok tabs
  | S n' =>
      if s_eof s then Ok tabs
      else
        r <- read_tile i (rd (rd (rd (rd (rd_id s))))) tabs ;;
        let '(s', tabs') := r in read_tiles n' (S i) s' tabs'
  end.
Definition read_density (size : nat) (ws : list Z) (tabs : list (list Z)) : res (list (list Z)) :=
  read_tiles size 0 (mkst ws false None) tabs.
