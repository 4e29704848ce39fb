(** Model of the chip thermal model files, src/model/thermal/io/EChipThermalModelIO.cpp.

    A text is a list of byte values 0..255.  A floating point number is a whole number of millionths:
    the writer prints six decimals, so other values are rounded when they are printed (not modelled).
    [std::stod] is modelled for texts of the form [sign] digits [. digits] followed by anything;
    exponents, hexadecimal numbers, infinities and NaN are not modelled.  [str::Split] of the generic
    library is taken to return the non-blank words of a line, [Trim] to drop surrounding blanks. *)
From Verif Require Import Base.
Local Open Scope res_scope.
Local Open Scope Z_scope.

Definition text := list Z.
Definition bytes (s : string) : text := map (fun c => Z.of_N (Ascii.N_of_ascii c)) (list_ascii_of_string s).

(** ** Numbers *)

(** Decimal digits; [fuel] bounds the number of digits. *)
Fixpoint dec (fuel : nat) (n : Z) : text :=
  match fuel with
  | O => []
  | S f => if n <? 10 then [48 + n] else dec f (n / 10) ++ [48 + n mod 10]
  end.
Definition digits (n : Z) : text := dec (S (Z.to_nat (Z.log2 n))) n.
(** exactly [k] digits *)
Fixpoint dec_fixed (k : nat) (n : Z) : text :=
  match k with
  | O => []
  | S k' => dec_fixed k' (n / 10) ++ [48 + n mod 10]
  end.

(** [operator<<] in fixed notation with precision 6, and [std::to_string(double)] *)
Definition fmt (z : Z) : text :=
  (if z <? 0 then [45] else []) ++ digits (Z.abs z / 1000000) ++ [46] ++ dec_fixed 6 (Z.abs z mod 1000000).

Definition is_digit (c : Z) : bool := (48 <=? c) && (c <=? 57).
Fixpoint span_digits (l : text) : text * text :=
  match l with
  | c :: l' => if is_digit c then let '(a, b) := span_digits l' in (c :: a, b) else ([], l)
  | [] => ([], [])
  end.
Definition val (l : text) : Z := fold_left (fun a c => a * 10 + (c - 48)) l 0.
(** The first six digits after the point. *)
Definition frac (l : text) : Z := val (firstn 6 (l ++ repeat 48 6)).
Definition sign_split (l : text) : Z * text :=
  match l with
  | 45 :: l' => (-1, l')
  | 43 :: l' => (1, l')
  | _ => (1, l)
  end.

(** [std::stod]: [std::invalid_argument] when no number can be read *)
Definition stod (l : text) : res Z :=
  let '(s, l1) := sign_split l in
  let '(ip, l2) := span_digits l1 in
  let '(fp, _) := match l2 with 46 :: l3 => span_digits l3 | _ => ([], l2) end in
  match ip, fp with
  | [], [] => Throw
  | _, _ => Ok (s * (val ip * 1000000 + frac fp))
  end.

(** [std::stol] *)
Definition stol (l : text) : res Z :=
  let '(s, l1) := sign_split l in
  let '(ip, _) := span_digits l1 in
  match ip with
  | [] => Throw
  | _ => let v := s * val ip in if (- 2 ^ 63 <=? v) && (v <? 2 ^ 63) then Ok v else Throw
  end.

(** ** Encryption *)

(** EChipThermalModelIO.cpp:390-393 and 168: [char] arithmetic is modulo 256. *)
Definition shift (len : nat) : Z := 3 * Z.of_nat len + 22.
Definition encrypt (s : text) (len : nat) : text := map (fun c => (c + shift len) mod 256) s.
Definition decrypt_text (s : text) (len : nat) : text := map (fun c => (c - shift len) mod 256) s.
(** EChipThermalModelIO.cpp:166-173 *)
Definition decrypt (s : text) (len : nat) : res Z :=
  v <- stod (decrypt_text s len) ;; Ok (if 0 <=? v then v else 0).

(** ** The header *)

(** EChipThermalModel.h:8-25; [ECTMv1Layer::elevation] of the LAYER entries is in no file. *)
Record lay := mklay { l_name : text; l_thick : Z }.
Record met := mkmet { m_name : text; m_thick : Z; m_elev : Z }.
Record vialay := mkvl { v_name : text; v_bot : text; v_top : text }.
Record box := mkbox { b_llx : Z; b_lly : Z; b_urx : Z; b_ury : Z }.

(** EChipThermalModel.h:27-41 *)
Record hdr := mkhdr {
  encrypted : bool; head : text; resolution : Z; scale : Z; die : box; origin : box;
  tiles : Z * Z; temps : list Z; layers : list lay; tech : list text; vias : list vialay; metals : list met }.

Definition default_head : text := bytes "Version 1.0 2022 R2".
Definition default_hdr : hdr :=
  mkhdr false default_head 10000000 1000000 (mkbox 0 0 0 0) (mkbox 0 0 0 0) (0, 0) [] [] [] [] [].

(** ** Writing, EChipThermalModelIO.cpp:382-452 *)

Definition eol : Z := 10.
Definition sp : text := [32].
Definition spaced (ws : list text) : text := List.concat (map (fun w => sp ++ w) ws).
(** [std::left << std::setw(21)] *)
Definition pad21 (w : text) : text := w ++ repeat 32 (21 - List.length w).
(** A number, enciphered with the length of the layer's name when the header says so. *)
Definition num (enc : bool) (z : Z) (len : nat) : text := if enc then encrypt (fmt z) len else fmt z.
Definition box_words (b : box) : list text := [fmt (b_llx b); fmt (b_lly b); fmt (b_urx b); fmt (b_ury b)].
Definition none_if_empty (w : text) : text := match w with [] => bytes "None" | _ => w end.

Definition metal_line (enc : bool) (m : met) : text :=
  sp ++ sp ++ pad21 (m_name m) ++ pad21 (num enc (m_thick m) (List.length (m_name m)))
  ++ pad21 (num enc (m_elev m) (List.length (m_name m))).
Definition via_line (v : vialay) : text :=
  sp ++ sp ++ pad21 (v_name v) ++ pad21 (none_if_empty (v_bot v)) ++ pad21 (none_if_empty (v_top v)).

Definition write_lines (h : hdr) : list text :=
  [ head h ++ sp ++ (if encrypted h then bytes "(encrypted)" else []);
    bytes "LAYER" ++ spaced (digits (Z.of_nat (List.length (layers h))) ::
      flat_map (fun l => [l_name l; num (encrypted h) (l_thick l) (List.length (l_name l))]) (layers h));
    bytes "DIE" ++ spaced (box_words (die h));
    bytes "TEMP" ++ spaced (map fmt (temps h));
    bytes "TILE" ++ spaced [digits (fst (tiles h)); digits (snd (tiles h))];
    bytes "RESOLUTION" ++ spaced [fmt (resolution h)];
    bytes "DIE_ORIG" ++ spaced (box_words (die h));
    bytes "SCALE_FACTOR" ++ spaced [fmt (scale h)];
    bytes "ALL_LAYERS" ++ spaced (digits (Z.of_nat (List.length (tech h))) :: tech h);
    [];
    bytes "METAL_LAYERS {";
    bytes "#<layer>        <thickness>        <height>" ]
  ++ map (metal_line (encrypted h)) (metals h)
  ++ [ bytes "}"; bytes "VIA_LAYERS {"; bytes "#<layer>        <bottom_layer>        <top_layer>" ]
  ++ map via_line (vias h)
  ++ [ bytes "}" ].

Definition write_header (h : hdr) : text := List.concat (map (fun l => l ++ [eol]) (write_lines h)).

(** ** Reading, EChipThermalModelIO.cpp:158-332 *)

(** [std::getline] until the end of the file: the text after the last line end is a line too. *)
Fixpoint lines_from (cur : text) (t : text) : list text :=
  match t with
  | [] => [rev cur]
  | c :: t' => if c =? eol then rev cur :: lines_from [] t' else lines_from (c :: cur) t'
  end.
Definition lines_of (t : text) : list text := lines_from [] t.

Definition is_blank (c : Z) : bool := (c =? 32) || ((9 <=? c) && (c <=? 13)).
Fixpoint words_from (cur : text) (t : text) : list text :=
  let flush := match cur with [] => [] | _ => [rev cur] end in
  match t with
  | [] => flush
  | c :: t' => if is_blank c then flush ++ words_from [] t' else words_from (c :: cur) t'
  end.
Definition words (t : text) : list text := words_from [] t.
Fixpoint trim_left (t : text) : text :=
  match t with c :: t' => if is_blank c then trim_left t' else t | [] => [] end.

Fixpoint starts (p t : text) : bool :=
  match p, t with
  | [], _ => true
  | x :: p', y :: t' => (x =? y) && starts p' t'
  | _ :: _, [] => false
  end.
Definition lower (c : Z) : Z := if (65 <=? c) && (c <=? 90) then c + 32 else c.
Fixpoint contains (p t : text) : bool :=
  starts p t || match t with [] => false | _ :: t' => contains p t' end.
Definition contains_ci (p t : text) : bool := contains (map lower p) (map lower t).

Inductive mode := Top | Metals | Vias.
(** [Fail] is [return false]. *)
Inductive outcome := Go (m : mode) (h : hdr) | Fail.

Definition read_num (enc : bool) (w : text) (len : nat) : res Z := if enc then decrypt w len else stod w.

Fixpoint stods (ws : list text) : res (list Z) :=
  match ws with
  | [] => Ok []
  | w :: ws' => x <- stod w ;; xs <- stods ws' ;; Ok (x :: xs)
  end.

(** The name/thickness pairs of a LAYER line, lines 204-209. *)
Fixpoint read_layers (enc : bool) (ws : list text) : res (list lay) :=
  match ws with
  | n :: w :: ws' =>
      x <- read_num enc w (List.length n) ;; xs <- read_layers enc ws' ;; Ok (mklay n x :: xs)
  | _ => Ok []
  end.

Definition two64 : Z := 2 ^ 64.

(** One line outside of the METAL_LAYERS and VIA_LAYERS blocks, lines 182-327. *)
Definition top_line (h : hdr) (l : text) : res outcome :=
  let ws := words l in
  let n := Z.of_nat (List.length ws) in
  match l with
  | [] => Ok (Go Top h)
  | _ =>
  if starts (bytes "#Version") l then
    Ok (Go Top (mkhdr (encrypted h || contains_ci (bytes "Encrypted") l) l (resolution h) (scale h) (die h) (origin h)
                      (tiles h) (temps h) (layers h) (tech h) (vias h) (metals h)))
  else if starts (bytes "LAYER") l then
    match ws with
    | _ :: c :: rest =>
        k <- stol c ;;
        let k := k mod two64 in
        if n =? (k * 2 + 2) mod two64 then
          if n =? k * 2 + 2 then
            ls <- read_layers (encrypted h) rest ;;
            Ok (Go Top (mkhdr (encrypted h) (head h) (resolution h) (scale h) (die h) (origin h)
                      (tiles h) (temps h) (layers h ++ ls) (tech h) (vias h) (metals h)))
          else UB
        else Ok Fail
    | _ => Ok Fail
    end
  else if starts (bytes "DIE") l then
    match ws with
    | [_; a; b; c; d] =>
        a <- stod a ;; b <- stod b ;; c <- stod c ;; d <- stod d ;;
        let bx := mkbox a b c d in
        Ok (Go Top (if starts (bytes "DIE_ORIG") l
                    then mkhdr (encrypted h) (head h) (resolution h) (scale h) (die h) bx
                           (tiles h) (temps h) (layers h) (tech h) (vias h) (metals h)
                    else mkhdr (encrypted h) (head h) (resolution h) (scale h) bx (origin h)
                           (tiles h) (temps h) (layers h) (tech h) (vias h) (metals h)))
    | _ => Ok Fail
    end
  else if starts (bytes "TEMP") l then
    ts <- stods (tl ws) ;;
    let ts := temps h ++ ts in
    if (Nat.ltb (List.length ts) 5) then Ok Fail
    else Ok (Go Top (mkhdr (encrypted h) (head h) (resolution h) (scale h) (die h) (origin h)
                      (tiles h) ts (layers h) (tech h) (vias h) (metals h)))
  else if starts (bytes "TILE") l then
    match ws with
    | [_; x; y] =>
        x <- stol x ;; y <- stol y ;;
        let x := x mod two64 in let y := y mod two64 in
        if (100000 <? x) || (100000 <? y) then Ok Fail
        else Ok (Go Top (mkhdr (encrypted h) (head h) (resolution h) (scale h) (die h) (origin h)
                      (x, y) (temps h) (layers h) (tech h) (vias h) (metals h)))
    | _ => Ok Fail
    end
  else if starts (bytes "RESOLUTION") l then
    match ws with
    | [_; x] => x <- stod x ;; Ok (Go Top (mkhdr (encrypted h) (head h) x (scale h) (die h) (origin h)
                      (tiles h) (temps h) (layers h) (tech h) (vias h) (metals h)))
    | _ => Ok Fail
    end
  else if starts (bytes "SCALE_FACTOR") l then
    match ws with
    | [_; x] => x <- stod x ;; Ok (Go Top (mkhdr (encrypted h) (head h) (resolution h) x (die h) (origin h)
                      (tiles h) (temps h) (layers h) (tech h) (vias h) (metals h)))
    | _ => Ok Fail
    end
  else if starts (bytes "ALL_LAYERS") l then
    match ws with
    | _ :: c :: rest =>
        k <- stol c ;;
        let k := k mod two64 in
        if n =? (k + 2) mod two64 then
          Ok (Go Top (mkhdr (encrypted h) (head h) (resolution h) (scale h) (die h) (origin h)
                      (tiles h) (temps h) (layers h) (tech h ++ rest) (vias h) (metals h)))
        else Ok Fail
    | _ => Ok Fail
    end
  else if starts (bytes "METAL_LAYERS") l then Ok (Go Metals h)
  else if starts (bytes "VIA_LAYERS") l then Ok (Go Vias h)
  else Ok (Go Top h)
  end.

(** One line inside a block, lines 284-303 and 307-326; [m] is the block. *)
Definition block_line (m : mode) (h : hdr) (l : text) : res outcome :=
  match l with
  | [] => Ok (Go m h)
  | _ =>
  if starts (bytes "#") l then Ok (Go m h)
  else if starts (bytes "}") (trim_left l) then Ok (Go Top h)
  else match words l with
       | [a; b; c] =>
           match m with
           | Vias => Ok (Go m (mkhdr (encrypted h) (head h) (resolution h) (scale h) (die h) (origin h)
                      (tiles h) (temps h) (layers h) (tech h) (vias h ++ [mkvl a b c]) (metals h)))
           | _ =>
               t <- read_num (encrypted h) b (List.length a) ;;
               e <- read_num (encrypted h) c (List.length a) ;;
               Ok (Go m (mkhdr (encrypted h) (head h) (resolution h) (scale h) (die h) (origin h)
                      (tiles h) (temps h) (layers h) (tech h) (vias h) (metals h ++ [mkmet a t e])))
           end
       | _ => Ok Fail
       end
  end.

(** [None] is [return false]. *)
Fixpoint parse_lines (m : mode) (h : hdr) (ls : list text) : res (option hdr) :=
  match ls with
  | [] => Ok (Some h)
  | l :: ls' =>
      r <- (match m with Top => top_line h l | _ => block_line m h l end) ;;
      match r with
      | Fail => Ok None
      | Go m' h' => parse_lines m' h' ls'
      end
  end.

(** [ParseCTMv1HeaderFile] into a header [h0] (lists are appended to it). *)
Definition parse_header (h0 : hdr) (t : text) : res (option hdr) := parse_lines Top h0 (lines_of t).
