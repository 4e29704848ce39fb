(** S-expressions and their texts. *)
From Verif Require Import Base KiCad_Model.
Local Open Scope Z_scope.

(** An S-expression: an atom, a quoted string (its text between the quotes), or a list headed by a
    name. *)
Inductive sx : Type :=
| Atom (s : str)
| Quoted (s : str)
| Lst (name : str) (items : list sx).

(** The tree an S-expression stands for. *)
Fixpoint tree_of (e : sx) : tree :=
  match e with
  | Atom s => Node s []
  | Quoted s => Node s []
  | Lst n es => Node n (map tree_of es)
  end.

Definition blank (c : Z) : Prop := c = 9 \/ c = 10 \/ c = 13 \/ c = 32.
Definition delimiter (c : Z) : Prop := blank c \/ c = LP \/ c = RP \/ c = QUOTE.

(** The text of an atom has no delimiters. *)
Definition atom_text (s : str) : Prop := s <> [] /\ Forall (fun c => ~ delimiter c) s.

(** The text between quotes: a quote inside follows a backslash, and the last character is no
    backslash. *)
Definition quoted_text (s : str) : Prop :=
  (forall u v, s = u ++ QUOTE :: v -> exists u', u = u' ++ [BACKSLASH]) /\
  (forall u, s <> u ++ [BACKSLASH]).

(** [renders e t]: [t] is a text of [e], with any white space between its parts; an item that
    starts with a parenthesis or follows a quoted string or a list needs none before it when what
    comes before is closed. [items_text closed es t]: [t] is a text of the items up to and
    including the closing parenthesis; [closed] tells that what precedes needs no separator. *)
Inductive renders : sx -> str -> Prop :=
| RAtom s : atom_text s -> renders (Atom s) s
| RQuoted s : quoted_text s -> renders (Quoted s) (QUOTE :: s ++ [QUOTE])
| RLst n es w t : Forall blank w -> atom_text n -> items_text false es t ->
    renders (Lst n es) (LP :: w ++ n ++ t)
with items_text : bool -> list sx -> str -> Prop :=
| INil closed w : Forall blank w -> items_text closed [] (w ++ [RP])
| ICons closed w e te es t : Forall blank w -> (closed = true \/ w <> []) -> renders e te ->
    items_text (match e with Atom _ => false | _ => true end) es t ->
    items_text closed (e :: es) (w ++ te ++ t).

(** What a quoted text means: a backslash takes the next character literally. *)
Fixpoint unescape (s : str) : str :=
  match s with
  | b :: rest =>
      match rest with
      | c :: rest' => if b =? BACKSLASH then c :: unescape rest' else b :: unescape rest
      | [] => [b]
      end
  | [] => []
  end.
