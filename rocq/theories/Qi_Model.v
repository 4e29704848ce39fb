(** The parts of Boost.Spirit.Qi (not in the repository) that src/extension/xfl/EXflParser.h is made of.

    A parser takes a text and gives what it has read and the rest of the text, or nothing.  Qi is deterministic: an
    alternative is tried only if those before it fail, a loop goes on as long as its body succeeds, and neither gives
    anything back later.  Left out: "inf" and "nan" as numbers. *)
From Coq Require Import Ascii.
From Verif Require Import Base.
Open Scope string_scope.
Open Scope nat_scope.
Open Scope list_scope.

(** ** Characters *)
Definition code (c : ascii) : nat := nat_of_ascii c.
Definition between (a b : nat) (c : ascii) : bool := (a <=? code c) && (code c <=? b).
Definition eq_char (a c : ascii) : bool := Ascii.eqb a c.
(** ascii::space *)
Definition space (c : ascii) : bool := between 9 13 c || (code c =? 32).
Definition digit (c : ascii) : bool := between 48 57 c.
Definition letter (c : ascii) : bool := between 65 90 c || between 97 122 c || (code c =? 95).
(** line ends: CR, LF *)
Definition line_end (c : ascii) : bool := (code c =? 10) || (code c =? 13).
Definition lower (c : ascii) : ascii := if between 65 90 c then ascii_of_nat (code c + 32) else c.
Fixpoint one_of (cs : string) (c : ascii) : bool := match cs with "" => false | String d r => eq_char d c || one_of r c end.

(** ** The skipper, EXflParser.h 88-104: spaces and comments up to the end of their line; a comment without a line end
    is not skipped.  [from] is where the comment began.  (After CR a LF is a space.) *)
Fixpoint skip_from (from : option string) (s : string) : string :=
  match s with
  | "" => match from with Some t => t | None => "" end
  | String c r =>
      match from with
      | Some _ => if line_end c then skip_from None r else skip_from from r
      | None => if space c then skip_from None r else if eq_char "#" c then skip_from (Some s) r else s
      end
  end.
Definition skip (s : string) : string := skip_from None s.

(** ** Parsers *)
Definition P (A : Type) : Type := string -> option (A * string).
Definition pret {A} (a : A) : P A := fun s => Some (a, s).
Definition pbind {A B} (p : P A) (f : A -> P B) : P B := fun s => match p s with Some (a, r) => f a r | None => None end.
Declare Scope qi_scope.
Delimit Scope qi_scope with qi.
Notation "x <~ p ;; q" := (pbind p (fun x => q)) (at level 61, p at next level, right associativity) : qi_scope.
Notation "p >> q" := (pbind p (fun _ => q)) (at level 61, right associativity) : qi_scope.
Open Scope qi_scope.
Definition palt {A} (p q : P A) : P A := fun s => match p s with Some x => Some x | None => q s end.
Definition popt {A} (p : P A) : P (option A) := fun s => match p s with Some (a, r) => Some (Some a, r) | None => Some (None, s) end.
Definition pnot {A} (p : P A) : P unit := fun s => match p s with Some _ => None | None => Some (tt, s) end.
Definition pminus {A B} (p : P A) (q : P B) : P A := fun s => match q s with Some _ => None | None => p s end.
(** The loop; [n] bounds the number of turns, see [XflText_Props] for why it never matters. *)
Fixpoint ploop {A} (n : nat) (p : P A) : P (list A) := fun s =>
  match n with
  | O => Some ([], s)
  | S n' => match p s with
            | Some (a, r) => match ploop n' p r with Some (l, r') => Some (a :: l, r') | None => None end
            | None => Some ([], s)
            end
  end.
Definition pstar {A} (p : P A) : P (list A) := fun s => ploop (S (String.length s)) p s.
(** Pre-skipping: outside [lexeme] every parser skips first, [lexeme] itself does once. *)
Definition tok {A} (p : P A) : P A := fun s => p (skip s).

(** ** Primitive parsers, without skipping *)
Definition one (f : ascii -> bool) : P ascii := fun s =>
  match s with String c r => if f c then Some (c, r) else None | "" => None end.
Fixpoint span (f : ascii -> bool) (s : string) : string * string :=
  match s with
  | String c r => if f c then let (a, b) := span f r in (String c a, b) else ("", s)
  | "" => ("", "")
  end.
Definition many (f : ascii -> bool) : P string := fun s => Some (span f s).
Definition many1 (f : ascii -> bool) : P string := fun s =>
  match span f s with ("", _) => None | (w, r) => Some (w, r) end.
Fixpoint lit (w : string) : P unit := fun s =>
  match w, s with
  | "", _ => Some (tt, s)
  | String a w', String c r => if eq_char a c then lit w' r else None
  | String _ _, "" => None
  end.
(** no_case[w] *)
Fixpoint nocase (w : string) : P unit := fun s =>
  match w, s with
  | "", _ => Some (tt, s)
  | String a w', String c r => if eq_char (lower a) (lower c) then nocase w' r else None
  | String _ _, "" => None
  end.
(** eol: CR, LF or CR LF *)
Definition eol : P unit := fun s =>
  match s with
  | String c r =>
      if eq_char "013" c then match r with String d r' => if eq_char "010" d then Some (tt, r') else Some (tt, r) | "" => Some (tt, r) end
      else if eq_char "010" c then Some (tt, r) else None
  | "" => None
  end.
Definition sign : P (option ascii) := popt (one (one_of "+-")).
(** int_: a sign, digits; a number that does not fit 32 bits is no number *)
Fixpoint digits_value (acc : Z) (w : string) : Z :=
  match w with "" => acc | String c r => digits_value (acc * 10 + Z.of_nat (code c - 48))%Z r end.
Definition int_ : P Z :=
  sg <~ sign ;; w <~ many1 digit ;;
  (fun s => let v := digits_value 0 w in
            let z := match sg with Some c => if eq_char "-" c then (- v)%Z else v | None => v end in
            if ((-2147483648 <=? z) && (z <=? 2147483647))%Z then Some (z, s) else None).
(** the text of a sign *)
Definition of_sign (o : option ascii) : string := match o with Some c => String c "" | None => "" end.
(** double_: a sign, digits with a point among, before or behind them, an exponent if it is complete; the text of it *)
Definition mantissa : P string :=
  palt (a <~ many1 digit ;; b <~ popt (one (eq_char ".") >> many digit) ;; pret (a ++ match b with Some f => "." ++ f | None => "" end)%string)
       (one (eq_char ".") >> f <~ many1 digit ;; pret ("." ++ f)%string).
Definition exponent : P string :=
  e <~ one (one_of "eE") ;; sg <~ sign ;; w <~ many1 digit ;; pret (String e (of_sign sg ++ w))%string.
Definition double_text : P string :=
  sg <~ sign ;; m <~ mantissa ;; e <~ popt exponent ;; pret (of_sign sg ++ m ++ match e with Some x => x | None => "" end)%string.
