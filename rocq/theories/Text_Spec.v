(** Reading of text files made of words: what programs that read the files of this library do with them. *)
From Coq Require Import Ascii DecimalString.
From Verif Require Import Base.
Open Scope string_scope.
Open Scope list_scope.

(** Blanks, tabs and line ends separate words. *)
Definition blank (c : ascii) : bool := Ascii.eqb c " " || Ascii.eqb c "010" || Ascii.eqb c "013" || Ascii.eqb c "009".

Fixpoint words (s : string) : list string :=
  match s with
  | "" => []
  | String c r =>
      if blank c then words r
      else match r with
           | "" => [String c ""]
           | String d _ => if blank d then String c "" :: words r
                           else match words r with [] => [String c ""] | w :: t => String c w :: t end
           end
  end.

(** The text after the first line end *)
Fixpoint next_line (s : string) : string :=
  match s with "" => "" | String c r => if Ascii.eqb c "010" then r else next_line r end.

(** A word without blanks *)
Fixpoint solid (s : string) : bool := match s with "" => true | String c r => negb (blank c) && solid r end.
Definition word (s : string) : Prop := s <> "" /\ solid s = true.

(** Readers take what they read from a list of words. *)
Definition reader (A : Type) : Type := list string -> option (A * list string).

Fixpoint expect (ks ws : list string) : option (list string) :=
  match ks, ws with
  | [], _ => Some ws
  | k :: ks', w :: ws' => if String.eqb k w then expect ks' ws' else None
  | _ :: _, [] => None
  end.

Definition number : reader nat := fun ws =>
  match ws with w :: r => match NilZero.uint_of_string w with Some u => Some (Nat.of_uint u, r) | None => None end | [] => None end.

Fixpoint times {A} (n : nat) (f : reader A) : reader (list A) := fun ws =>
  match n with
  | O => Some ([], ws)
  | S n' => match f ws with
            | Some (a, r) => match times n' f r with Some (l, r') => Some (a :: l, r') | None => None end
            | None => None
            end
  end.
