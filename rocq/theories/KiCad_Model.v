(** Model of the KiCad S-expression reader, src/extension/kicad/EKiCadParser.cpp.

    The stream is the list of characters not yet read.  At end of file [peek] gives EOF, which is no
    character, and [get] fails, so the three loops without a test for it push an indeterminate
    character for ever: they are written with fuel, and never give a result for any fuel.  The depth
    of the C++ stack is not modelled. *)
From Verif Require Import Base.
Local Open Scope Z_scope.
Local Open Scope res_scope.

Definition str := list Z.

(** EKiCadParser.h:9-13 *)
Inductive tree : Type := Node (value : str) (branches : list tree).

(** Tab, newline, carriage return and blank. *)
Definition is_ws (c : Z) : bool := (c =? 9) || (c =? 10) || (c =? 13) || (c =? 32).
Definition LP : Z := 40.
Definition RP : Z := 41.
Definition QUOTE : Z := 34.
Definition BACKSLASH : Z := 92.

(** EKiCadParser.cpp:105-114 *)
Fixpoint read_whitespace (inp : str) : str :=
  match inp with
  | c :: rest => if is_ws c then read_whitespace rest else inp
  | [] => []
  end.

(** EKiCadParser.cpp:95-103 *)
Fixpoint read_until (inp : str) (c : Z) : str :=
  match inp with
  | x :: rest => if x =? c then rest else read_until rest c
  | [] => []
  end.

(** EKiCadParser.cpp:50-62 [ReadString] and 82-93 [ReadNodeName]: the same loop *)
Fixpoint read_word (fuel : nat) (inp s : str) : res (str * str) :=
  match fuel with
  | O => OutOfFuel
  | S f =>
      match inp with
      | [] => read_word f [] (s ++ [0])
      | b :: rest => if is_ws b || (b =? RP) then Ok (s, inp) else read_word f rest (s ++ [b])
      end
  end.

(** EKiCadParser.cpp:64-80 [ReadQuotedString]; [a] is the character before the next one, [None]
    for EOF. *)
Fixpoint quoted_loop (fuel : nat) (a : option Z) (inp s : str) : res (str * str) :=
  match fuel with
  | O => OutOfFuel
  | S f =>
      match inp with
      | [] => quoted_loop f None [] (s ++ [0])
      | b :: rest =>
          if (b =? QUOTE) && negb (match a with Some a => a =? BACKSLASH | None => false end)
          then Ok (s, inp)
          else quoted_loop f (Some b) rest (s ++ [b])
      end
  end.
Definition read_quoted (fuel : nat) (inp : str) : res (str * str) := quoted_loop fuel (hd_error inp) inp [].

(** EKiCadParser.cpp:21-48 [ReadTree] and its loop *)
Fixpoint read_tree (fuel : nat) (inp : str) : res (tree * str) :=
  match fuel with
  | O => OutOfFuel
  | S f =>
      r <- read_word f (read_whitespace (read_until inp LP)) [] ;;
      let '(name, rest) := r in
      p <- read_branches f rest [] ;;
      let '(bs, rest') := p in
      Ok (Node name bs, rest')
  end
with read_branches (fuel : nat) (inp : str) (bs : list tree) : res (list tree * str) :=
  match fuel with
  | O => OutOfFuel
  | S f =>
      match read_whitespace inp with
      | [] => Ok (bs, [])
      | b :: rest =>
          if b =? RP then Ok (bs, rest)
          else if b =? LP then
            r <- read_tree f (b :: rest) ;;
            let '(t, rest') := r in
            read_branches f rest' (bs ++ [t])
          else if b =? QUOTE then
            r <- read_quoted f rest ;;
            let '(s, rest') := r in
            read_branches f (tl rest') (bs ++ [Node s []])
          else
            r <- read_word f (b :: rest) [] ;;
            let '(s, rest') := r in
            read_branches f rest' (bs ++ [Node s []])
      end
  end.

(** EKiCadParser.cpp:9-19 [operator()] on the contents of a file *)
Definition parse_file (fuel : nat) (file : str) : res tree :=
  r <- read_tree fuel file ;; Ok (fst r).
