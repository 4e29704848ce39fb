(** What the text of a board says, and board files that are cut off. *)
From Coq Require Import Ascii.
From Verif Require Import Base KiCad_Model KiCad_Spec KiCadImport_Model.
Local Open Scope Z_scope.

(** What an S-expression says, quoted or not *)
Definition letters (s : list Z) : string := string_of_list_ascii (map (fun c => ascii_of_N (Z.to_N c)) s).
Fixpoint content (e : sx) : ktree :=
  match e with
  | Atom s => KNode (letters s) []
  | Quoted s => KNode (letters s) []
  | Lst n es => KNode (letters n) (map content es)
  end.

(** The text of complete lists one after the other, with nothing that closes the list they are in *)
Inductive cut_text : list sx -> str -> Prop :=
| CutEnd w : Forall blank w -> cut_text [] w
| CutItem w n items te es t : Forall blank w -> renders (Lst n items) te -> cut_text es t -> cut_text (Lst n items :: es) (w ++ te ++ t).
