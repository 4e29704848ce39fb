(** The path of a bond wire.  src/utility/ELayoutRetriever.cpp:66-106, 232-261 on top of [bond_height] and the segment
    functions of Retriever_Model. *)
From Verif Require Import Base QSum Retriever_Model.

(** ECadDef.h:148-154 *)
Inductive wire_type := Simple | Jedec4 | InvalidType.

Record bondwire := mkBW {
  w_type : wire_type;
  w_from : pt; w_to : pt;           (* GetStartPt, GetEndPt *)
  w_start : bond; w_end : bond;     (* what the ends are bonded to *)
  w_sj0 : option Q; w_sj1 : option Q;  (* thickness of the solder joints *)
  w_height : Q }.

(** 66-93: fails if one of the ends has no height *)
Definition wire_heights (m : hmap) (w : bondwire) : option (Q * Q) :=
  match bond_height m (w_start w) (w_sj0 w) with
  | None => None
  | Some a => match bond_height m (w_end w) (w_sj1 w) with None => None | Some b => Some (a, b) end
  end.

(** 95-106, 232-261; [None] is the result false *)
Definition segments (m : hmap) (w : bondwire) : res (option wire) :=
  match w_type w with
  | Simple => Ok (option_map (fun '(a, b) => simple_segments (w_from w) (w_to w) a b (bond_flip (w_start w)) (bond_flip (w_end w)) (w_height w)) (wire_heights m w))
  | Jedec4 => Ok (option_map (fun '(a, b) => jedec4_segments (w_from w) (w_to w) a b (bond_flip (w_start w)) (w_height w)) (wire_heights m w))
  | InvalidType => Throw
  end.

(** the same wire from the other end *)
Definition reversed (w : bondwire) : bondwire :=
  mkBW (w_type w) (w_to w) (w_from w) (w_end w) (w_start w) (w_sj1 w) (w_sj0 w) (w_height w).
