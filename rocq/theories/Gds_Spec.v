(** What a GDSII stream is, independent of the parser: values, records and their byte encoding as
    the GDSII Stream Format Manual (release 6.0) gives them. *)
From Verif Require Import Base Gds_Model.
From Coq Require Import QArith.
Local Open Scope Z_scope.

Definition byte (b : Z) : Prop := 0 <= b < 256.

(** [k] bytes, most significant first, of [v] modulo 256^k. *)
Fixpoint be (k : nat) (v : Z) : list Z :=
  match k with
  | O => []
  | S k' => be k' (v / 256) ++ [v mod 256]
  end.

(** Two's complement in [k] bytes. *)
Definition enc_int (k : nat) (v : Z) : list Z := be k (v mod 256 ^ Z.of_nat k).

(** An 8-byte real: sign, excess-64 exponent to the base 16, 56-bit fraction. *)
Record real8 := mkreal8 { r_neg : bool; r_exp : Z; r_frac : Z }.
Definition real8_ok (r : real8) : Prop := 0 <= r_exp r < 128 /\ 0 <= r_frac r < 2 ^ 56.
Definition enc_real8 (r : real8) : list Z :=
  ((if r_neg r then 128 else 0) + r_exp r) :: be 7 (r_frac r).

(** The number an 8-byte real stands for. *)
Definition real8_value (r : real8) : Q :=
  ((if r_neg r then -1 else 1) * (inject_Z (r_frac r) / inject_Z (2 ^ 56)) * (16 # 1) ^ (r_exp r - 64))%Q.

(** The number a [double] stands for. *)
Definition dbl_value (d : dbl) : Q :=
  ((if d_neg d then -1 else 1) * inject_Z (d_mant d) * (2 # 1) ^ (d_exp d))%Q.

(** Integers a [double] can hold: at most 53 significant bits. *)
Definition is_double_int (z : Z) : Prop := exists k j, 0 <= j /\ 0 <= k <= 2 ^ 53 /\ z = k * 2 ^ j.

(** The contents of a record. *)
Inductive content : Type :=
| CBits (ws : list Z)
| CInt2 (vs : list Z)
| CInt4 (vs : list Z)
| CReal8 (rs : list real8)
| CString (cs : list Z)
| CNothing
| COther (bs : list Z).

Record grec := mkgrec { g_type : Z; g_tag : Z; g_body : content }.

Definition pad (bs : list Z) : list Z := if Nat.even (List.length bs) then bs else bs ++ [0].

Definition enc_body (c : content) : list Z :=
  match c with
  | CBits ws => List.concat (map (be 2) ws)
  | CInt2 vs => List.concat (map (enc_int 2) vs)
  | CInt4 vs => List.concat (map (enc_int 4) vs)
  | CReal8 rs => List.concat (map enc_real8 rs)
  | CString cs => pad cs
  | CNothing => []
  | COther bs => bs
  end.

Definition enc_rec (r : grec) : list Z :=
  be 2 (4 + Z.of_nat (List.length (enc_body (g_body r)))) ++ [g_type r; g_tag r] ++ enc_body (g_body r).

Definition enc_all (rs : list grec) : list Z := List.concat (map enc_rec rs).

(** Which record carries which kind of data (manual, table of record types). *)
Definition bit_records := [23; 26; 38; 52].
Definition int2_records := [0; 1; 5; 13; 14; 19; 22; 33; 34; 37; 42; 43; 46; 50; 51; 54; 57; 59].
Definition int4_records := [15; 16; 39; 47; 48; 49; 53].
Definition real8_records := [3; 27; 28].
Definition string_records := [2; 6; 18; 25; 31; 32; 35; 36; 44; 55; 58].
Definition empty_records := [4; 7; 8; 9; 10; 11; 12; 17; 20; 21; 45; 56].
(** discontinued or unreleased records *)
Definition other_records := [24; 29; 30; 40; 41].

Definition body_ok (t : Z) (c : content) : Prop :=
  match c with
  | CBits ws => In t bit_records /\ Forall (fun w => 0 <= w < 65536) ws
  | CInt2 vs => In t int2_records /\ Forall (fun v => - 2 ^ 15 <= v < 2 ^ 15) vs
  | CInt4 vs => In t int4_records /\ Forall (fun v => - 2 ^ 31 <= v < 2 ^ 31) vs
  | CReal8 rs => In t real8_records /\ Forall real8_ok rs
  | CString cs => In t string_records /\ Forall byte cs
  | CNothing => In t empty_records
  | COther bs => (In t other_records \/ 60 <= t) /\ Forall byte bs
  end.

Definition rec_ok (r : grec) : Prop :=
  byte (g_type r) /\ byte (g_tag r) /\ body_ok (g_type r) (g_body r) /\
  4 + Z.of_nat (List.length (enc_body (g_body r))) < 65536.

(** Text up to the first NUL, with '.' for what cannot be printed. *)
Fixpoint text_of (cs : list Z) : list Z :=
  match cs with
  | [] => []
  | c :: cs' => if c =? 0 then [] else (if (32 <=? c) && (c <=? 126) then c else 46) :: text_of cs'
  end.

(** The [double] nearest to an 8-byte real (its correctness is property C43). *)
Definition real8_double (r : real8) : dbl :=
  mkdbl (r_neg r) (round53 (r_frac r)) (4 * (r_exp r - 64) - 56).

(** What the reader has to be told about a record. *)
Definition rec_event (r : grec) : option event :=
  let t := g_type r in
  let d := Z.min (g_tag r) 7 in
  match g_body r with
  | CBits ws => Some (EvBits t d ws)
  | CInt2 vs => Some (EvInt2 t d vs)
  | CInt4 vs => Some (EvInt4 t d vs)
  | CReal8 rs => Some (EvReal8 t d (map real8_double rs))
  | CString cs => Some (EvString t d (text_of cs))
  | CNothing => Some (EvBeginEnd t)
  | COther _ => None
  end.

Fixpoint events (rs : list grec) : list event :=
  match rs with
  | [] => []
  | r :: rs' => match rec_event r with Some e => e :: events rs' | None => events rs' end
  end.

(** A rest of the stream that is not a complete record: no two length bytes, or fewer bytes than
    the length says. *)
Definition incomplete (bs : list Z) : Prop :=
  match bs with
  | b0 :: b1 :: _ => byte b0 /\ byte b1 /\ 2 <= b0 * 256 + b1 /\ Z.of_nat (List.length bs) < b0 * 256 + b1
  | _ => True
  end.

(** Framing of a byte string: does following the length fields meet a length of one? *)
Inductive meets_one : list Z -> Prop :=
| one_here rest : meets_one (0 :: 1 :: rest)
| one_null rest : meets_one rest -> meets_one (0 :: 0 :: rest)
| one_later a b rest : 2 <= a * 256 + b -> a * 256 + b - 2 <= Z.of_nat (List.length rest) ->
    meets_one (skipn (Z.to_nat (a * 256 + b - 2)) rest) -> meets_one (a :: b :: rest).
