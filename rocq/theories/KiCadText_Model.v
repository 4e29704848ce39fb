(** A KiCad board file from its text to the layout: src/extension/kicad/ECadExtKiCadHandler.cpp on top of EKiCadParser.cpp.

    The reader is that of KiCad_Model.v, whose characters are numbers; the import is that of KiCadImport_Model.v, whose values
    are strings.  Simplified: what is registered
    when a call never returns or fails is what was registered before it. *)
From Coq Require Import Ascii.
From Verif Require Import Base QSum Net_Model Layers_Model Xfl_Model KiCad_Model KiCadImport_Model.
Local Open Scope list_scope.

(** The value of a node as a string *)
Fixpoint text_of (s : str) : string := match s with [] => EmptyString | c :: r => String (ascii_of_nat (Z.to_nat c)) (text_of r) end.
Fixpoint ktree_of (t : tree) : ktree := match t with Node v bs => KNode (text_of v) (map ktree_of bs) end.

Section Import.
  Context (stoi : string -> option Z) (num : string -> option Q) (idx : string -> Z) (word : string -> option string).

  (** [CreateDatabase] and [ExtractKiCadObjects], ECadExtKiCadHandler.cpp 29-55; EKiCadParser.cpp 9-19.  [file] is [None] if
      it can not be opened; the branches of the tree are extracted *)
  Definition import_text (fuel : nat) (open_dbs : list string) (name : string) (file : option str)
    (walk_layers : list (string * klayer) -> list (string * klayer)) (walk_nets : list (Z * string) -> list (Z * string))
    : list string * res (option (layers * list stackup * netcoll)) :=
    if existsb (String.eqb name) open_dbs then (open_dbs, Ok None)
    else match file with
         | None => import_board stoi num idx word open_dbs name None walk_layers walk_nets
         | Some s =>
             match parse_file fuel s with
             | Ok t => import_board stoi num idx word open_dbs name (Some (kbranches (ktree_of t))) walk_layers walk_nets
             | UB => (open_dbs ++ [name], UB)
             | Throw => (open_dbs ++ [name], Throw)
             | OutOfFuel => (open_dbs ++ [name], OutOfFuel)
             end
         end.
End Import.
