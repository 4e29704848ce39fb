(** Model of the GDSII stream parser, src/extension/gds/EGdsParser.cpp and EGdsRecords.h.

    Bytes are [Z] values 0..255.  [unsigned int] and [size_t] arithmetic wraps modulo 2^32 and 2^64.
    The read buffer is modelled as memory: a list of [cap] cells, [None] for a cell no byte was
    stored in yet, so that a record pointer kept across a refill or a read past the record reads
    what is really there.  Reading a free'd buffer, a cell outside the buffer or an uninitialised
    cell is [UB]. *)
From Verif Require Import Base.
Local Open Scope Z_scope.
Local Open Scope res_scope.

(** ** Record tables, EGdsRecords.h *)

(** Record codes used by name, EGdsRecords.h:9-71. *)
Definition HEADER : Z := 0.
Definition BGNLIB : Z := 1.
Definition LIBNAME : Z := 2.
Definition UNITS : Z := 3.
Definition ENDLIB : Z := 4.
Definition BGNSTR : Z := 5.
Definition STRNAME : Z := 6.
Definition ENDSTR : Z := 7.
Definition BOUNDARY : Z := 8.
Definition PATH : Z := 9.
Definition SREF : Z := 10.
Definition AREF : Z := 11.
Definition TEXT : Z := 12.
Definition LAYER : Z := 13.
Definition DATATYPE : Z := 14.
Definition WIDTH : Z := 15.
Definition XY : Z := 16.
Definition ENDEL : Z := 17.
Definition SNAME : Z := 18.
Definition COLROW : Z := 19.
Definition TEXTTYPE : Z := 22.
Definition PRESENTATION : Z := 23.
Definition SPACING : Z := 24.
Definition STRING : Z := 25.
Definition STRANS : Z := 26.
Definition MAG : Z := 27.
Definition ANGLE : Z := 28.
Definition PATHTYPE : Z := 33.
Definition BOX : Z := 45.
Definition UNKNOWN : Z := 60.

(** Data kinds, EGdsRecords.h:201-214. *)
Definition NO_DATA : Z := 0.
Definition BIT_ARRAY : Z := 1.
Definition INTEGER_2 : Z := 2.
Definition INTEGER_4 : Z := 3.
Definition REAL_4 : Z := 4.
Definition REAL_8 : Z := 5.
Definition DSTRING : Z := 6.

(** EGdsRecords.h:244-306 [eGdsRecordsExpectData], indexed by record code. *)
Definition expect_table : list Z :=
  [2; 2; 6; 5; 0; 2; 6; 0; 0; 0; 0; 0; 0; 2; 2; 3; 3; 0; 6; 2;
   0; 0; 2; 1; 65535; 6; 1; 5; 5; 65535; 65535; 6; 6; 2; 2; 6; 6; 2; 1; 3;
   65535; 65535; 2; 2; 6; 0; 2; 3; 3; 3; 2; 2; 1; 3; 2; 6; 0; 2; 6; 2;
   65535].

(** EGdsRecords.h:313-318 [GdsRecordType] *)
Definition record_type (numeric : Z) : Z := if UNKNOWN <? numeric then UNKNOWN else numeric.

(** EGdsRecords.h:308-311 [GdsRecordExpectedData]; out of the table is undefined, which
    [record_type] rules out. *)
Definition expected_data (rt : Z) : Z := nth (Z.to_nat rt) expect_table 0.

(** EGdsRecords.h:320-325 [GdsDataType] *)
Definition data_type (numeric : Z) : Z := if 7 <? numeric then 7 else numeric.

(** ** Numbers *)

(** Conversion of an [unsigned int] to [int] (pushed into a [std::vector<int>]). *)
Definition to_int32 (u : Z) : Z := if u <? 2 ^ 31 then u else u - 2 ^ 32.

(** EGdsParser.cpp:126-137, two bytes to a signed integer with [unsigned int] arithmetic. *)
Definition dec_int2 (b0 b1 : Z) : Z :=
  let d := (Z.shiftl b0 8 + b1) mod 2 ^ 32 in
  let d := if Z.testbit d 15
           then ((Z.lxor (Z.land d (2 ^ 15 - 1)) (2 ^ 15 - 1) + 1) * (2 ^ 32 - 1)) mod 2 ^ 32
           else d in
  to_int32 d.

(** EGdsParser.cpp:143-156, four bytes to a signed integer. *)
Definition dec_int4 (bs : list Z) : Z :=
  let d := fold_left (fun d b => (Z.shiftl d 8 mod 2 ^ 32 + b) mod 2 ^ 32) bs 0 in
  let d := if Z.testbit d 31
           then ((Z.lxor (Z.land d (2 ^ 31 - 1)) (2 ^ 31 - 1) + 1) * (2 ^ 32 - 1)) mod 2 ^ 32
           else d in
  to_int32 d.

(** EGdsParser.cpp:116-120, a bit array word. *)
Definition dec_bits (b0 b1 : Z) : Z := Z.shiftl b0 8 + b1.

(** Conversion of an unsigned 64-bit integer to [double] (lines 170, 188 [(double)realMantissaInt]):
    IEEE-754 round to nearest, ties to even, with 53 significant bits. *)
Definition round53 (m : Z) : Z :=
  if m <? 2 ^ 53 then m
  else
    let k := Z.log2 m - 52 in
    let q := m / 2 ^ k in
    let r := m mod 2 ^ k in
    let half := 2 ^ (k - 1) in
    if (r <? half) || ((r =? half) && Z.even q) then q * 2 ^ k else (q + 1) * 2 ^ k.

(** A finite [double]: (-1)^neg * mant * 2^exp.  Scaling by a power of two is exact in the range
    of the format (|exponent| below 400), so only [round53] rounds. *)
Record dbl := mkdbl { d_neg : bool; d_mant : Z; d_exp : Z }.

(** EGdsParser.cpp:180-192 for [w] = 56 (8-byte real) and 162-174 for [w] = 24 (4-byte real):
    [std::pow(2, w)] and [std::pow(16, realExponent)] are exact powers of two. *)
Definition dec_real (w : Z) (b0 : Z) (rest : list Z) : dbl :=
  let realSign := Z.testbit b0 7 in
  let realExponent := Z.land b0 127 - 64 in
  let m := fold_left (fun a b => (Z.shiftl a 8 mod 2 ^ 64 + b) mod 2 ^ 64) rest 0 in
  mkdbl realSign (round53 m) (4 * realExponent - w).

(** ** The calls made on the reader, EGdsParser.cpp:110-225 *)

Inductive event : Type :=
| EvBits (rt dt : Z) (data : list Z)
| EvInt2 (rt dt : Z) (data : list Z)
| EvInt4 (rt dt : Z) (data : list Z)
| EvReal4 (rt dt : Z) (data : list dbl)
| EvReal8 (rt dt : Z) (data : list dbl)
| EvString (rt dt : Z) (data : list Z)
| EvBeginEnd (rt : Z).

(** ** The read buffer *)

Record pst := mkpst {
  p_cap : Z;                    (* m_bcap *)
  p_gen : nat;                  (* which allocation m_buffer is *)
  p_mem : list (option Z);      (* the m_bcap cells of m_buffer *)
  p_ptr : nat;                  (* m_bptr - m_buffer *)
  p_len : nat;                  (* m_blen *)
  p_in : list Z                 (* what the stream still holds *)
}.

(** EGdsParser.cpp:11-18, constructor; the code uses [cap] = 4096. *)
Definition pinit (cap : Z) (input : list Z) : pst :=
  mkpst cap 0 (repeat None (Z.to_nat cap)) 0 0 input.

(** EGdsParser.cpp:256-258 [while(m_bcap < n) m_bcap *= 2] in [size_t]. *)
Fixpoint grow (fuel : nat) (cap n : Z) : res Z :=
  if cap <? n then
    match fuel with
    | O => OutOfFuel
    | S f => grow f ((cap * 2) mod 2 ^ 64) n
    end
  else Ok cap.

(** Storing a block of bytes in memory ([memcpy], [memmove], [istream::read]). *)
Definition write_at (off : nat) (xs mem : list (option Z)) : list (option Z) :=
  firstn off mem ++ xs ++ skipn (off + List.length xs) mem.

(** EGdsParser.cpp:252-292 [Parse].  Result: the new state and the offset of the returned pointer,
    [None] for [nullptr] (then [noRead] is 0, otherwise it is [n]).  [istream::read] stores as many
    bytes as are available, up to the number asked for. *)
Definition parse (F : nat) (st : pst) (n : Z) : res (pst * option nat) :=
  st1 <- (if Z.of_nat (p_len st) <? n then
            let kept := firstn (p_len st) (skipn (p_ptr st) (p_mem st)) in
            cgm <- (if p_cap st <? (n * 2) mod 2 ^ 64 then
                      cap' <- grow F (p_cap st) n ;;
                      Ok (cap', S (p_gen st), write_at 0 kept (repeat None (Z.to_nat cap')))
                    else Ok (p_cap st, p_gen st, write_at 0 kept (p_mem st))) ;;
            let '(cap', gen', mem') := cgm in
            let room := (Z.to_nat cap' - p_len st)%nat in
            let chunk := firstn room (p_in st) in
            Ok (mkpst cap' gen' (write_at (p_len st) (map Some chunk) mem') 0
                      (p_len st + List.length chunk) (skipn room (p_in st)))
          else Ok st) ;;
  if n <=? Z.of_nat (p_len st1) then
    Ok (mkpst (p_cap st1) (p_gen st1) (p_mem st1) (p_ptr st1 + Z.to_nat n)
              (p_len st1 - Z.to_nat n) (p_in st1), Some (p_ptr st1))
  else Ok (st1, None).

(** A pointer into the buffer: the allocation and the offset. *)
Definition ptr := (nat * nat)%type.

(** [record[i]] for a possibly null or stale [record]. *)
Definition rd (st : pst) (record : option ptr) (i : nat) : res Z :=
  match record with
  | None => UB
  | Some (g, off) =>
      if (g =? p_gen st)%nat then
        match nth_error (p_mem st) (off + i) with
        | Some (Some b) => Ok b
        | _ => UB
        end
      else UB
  end.

(** ** Decoding one record *)

Section Decode.
  Context (get : nat -> res Z).

  (** [k] bytes from index [i] *)
  Fixpoint get_bytes (i k : nat) : res (list Z) :=
    match k with
    | O => Ok []
    | S k' => b <- get i ;; bs <- get_bytes (S i) k' ;; Ok (b :: bs)
    end.

  (** [for(dataKtr = 2; dataKtr < noRead; dataKtr += k)]: one value of [k] bytes per step. *)
  Fixpoint dec_seq {A} (dec : list Z -> A) (k count i : nat) : res (list A) :=
    match count with
    | O => Ok []
    | S c => bs <- get_bytes i k ;; vs <- dec_seq dec k c (i + k) ;; Ok (dec bs :: vs)
    end.

  (** Number of steps of that loop. *)
  Definition steps (noRead k : nat) : nat := ((noRead - 2 + (k - 1)) / k)%nat.

  (** [std::isprint] in the C locale. *)
  Definition isprint (c : Z) : bool := (32 <=? c) && (c <=? 126).
  Definition printable (c : Z) : Z := if isprint c then c else 46.

  (** EGdsParser.cpp:198-213 *)
  Fixpoint dec_string (count i : nat) : res (list Z) :=
    match count with
    | O => Ok []
    | S c =>
        c1 <- get i ;;
        c2 <- get (S i) ;;
        if c1 =? 0 then Ok []
        else if c2 =? 0 then Ok [printable c1]
        else rest <- dec_string c (S (S i)) ;; Ok (printable c1 :: printable c2 :: rest)
    end.

  Definition nthb (bs : list Z) (i : nat) : Z := nth i bs 0.

  (** EGdsParser.cpp:87-225: the call on the reader made for a record of [noRead] bytes.  A
      [reserve] with the negative argument [(noRead - 2) >> 1] throws [std::length_error]. *)
  Definition dec_record (noRead : nat) : res (option event) :=
    r0 <- get 0%nat ;;
    let rt := record_type r0 in
    let ed := expected_data rt in
    r1 <- get 1%nat ;;
    let dt := data_type r1 in
    let reserve := if (noRead <? 2)%nat then Throw else Ok tt in
    if ed =? BIT_ARRAY then
      _ <- reserve ;;
      vs <- dec_seq (fun bs => dec_bits (nthb bs 0) (nthb bs 1)) 2 (steps noRead 2) 2 ;;
      Ok (Some (EvBits rt dt vs))
    else if ed =? INTEGER_2 then
      _ <- reserve ;;
      vs <- dec_seq (fun bs => dec_int2 (nthb bs 0) (nthb bs 1)) 2 (steps noRead 2) 2 ;;
      Ok (Some (EvInt2 rt dt vs))
    else if ed =? INTEGER_4 then
      _ <- reserve ;;
      vs <- dec_seq dec_int4 4 (steps noRead 4) 2 ;;
      Ok (Some (EvInt4 rt dt vs))
    else if ed =? REAL_4 then
      _ <- reserve ;;
      vs <- dec_seq (fun bs => dec_real 24 (nthb bs 0) (tl bs)) 4 (steps noRead 4) 2 ;;
      Ok (Some (EvReal4 rt dt vs))
    else if ed =? REAL_8 then
      _ <- reserve ;;
      vs <- dec_seq (fun bs => dec_real 56 (nthb bs 0) (tl bs)) 8 (steps noRead 8) 2 ;;
      Ok (Some (EvReal8 rt dt vs))
    else if ed =? DSTRING then
      _ <- reserve ;;
      s <- dec_string (steps noRead 2) 2 ;;
      Ok (Some (EvString rt dt s))
    else if ed =? NO_DATA then Ok (Some (EvBeginEnd rt))
    else Ok None.
End Decode.

(** ** The record loop, EGdsParser.cpp:41-250 *)

(** One pass of [while(1)]: [None] for [break]. *)
Definition pass (F : nat) (st : pst) (record : option ptr) : res (option (pst * option ptr * option event)) :=
  p <- parse F st 2 ;;
  let '(st1, head) := p in
  match head with
  | None => Ok None
  | Some off =>
      b0 <- rd st1 (Some (p_gen st1, off)) 0 ;;
      b1 <- rd st1 (Some (p_gen st1, off)) 1 ;;
      let noBytes := b0 * 256 + b1 in
      if noBytes =? 0 then
        ev <- dec_record (rd st1 record) 2 ;;
        Ok (Some (st1, record, ev))
      else
        p2 <- parse F st1 ((noBytes - 2) mod 2 ^ 64) ;;
        let '(st2, body) := p2 in
        match body with
        | None => Ok None
        | Some off2 =>
            let record' := Some (p_gen st2, off2) in
            ev <- dec_record (rd st2 record') (Z.to_nat (noBytes - 2)) ;;
            Ok (Some (st2, record', ev))
        end
  end.

(** The loop: the events in order; the function itself always returns [true] (line 249). *)
Fixpoint loop (F fuel : nat) (st : pst) (record : option ptr) : res (list event * bool) :=
  match fuel with
  | O => OutOfFuel
  | S f =>
      r <- pass F st record ;;
      match r with
      | None => Ok ([], true)
      | Some (st', record', ev) =>
          rest <- loop F f st' record' ;;
          let '(evs, ok) := rest in
          Ok (match ev with Some e => e :: evs | None => evs end, ok)
      end
  end.

(** [EGdsParser::operator()(std::istream &)] on a stream holding [input]; [fuel] bounds both the
    record loop and the capacity loop. *)
Definition parse_stream (fuel : nat) (cap : Z) (input : list Z) : res (list event * bool) :=
  loop fuel fuel (pinit cap input) None.
