(** The text of DMC and DOM files: src/extension/dmcdom/ECadExtDmcDomHandler.cpp 16-60 and 190-236, and the writer of
    such files, src/utility/ELayoutPolygonMerger.cpp 262-322 (a private member that nothing calls).

    Streams are the remaining characters; the extraction operators are those of libstdc++ in the C locale.  Doubles are
    those of [Units_Model] (unbounded exponents).  [str::Split] of 3rdparty/generic is a parameter. *)
From Coq Require Import Ascii.
From Verif Require Import Base QSum Units_Model Names_Model Net_Model LayerMap_Model Layers_Model Database_Model Dmc_Model Qi_Model.
Open Scope res_scope.
Open Scope list_scope.
Open Scope string_scope.
Open Scope Z_scope.

(** ** Extraction: [None] is a failed stream *)
Definition skip_ws (s : string) : string := snd (span space s).
(** an optional sign; true for minus *)
Definition get_sign (s : string) : bool * string :=
  match s with
  | String c r => if eq_char "-" c then (true, r) else if eq_char "+" c then (false, r) else (false, s)
  | "" => (false, "")
  end.
Definition signed (neg : bool) (z : Z) : Z := if neg then - z else z.
(** digits behind a sign *)
Definition get_digits (s : string) : option (bool * Z * string) :=
  let (neg, s1) := get_sign (skip_ws s) in
  match span digit s1 with
  | ("", _) => None
  | (w, r) => Some (neg, digits_value 0 w, r)
  end.
Definition in_int (z : Z) : bool := (-2147483648 <=? z) && (z <=? 2147483647).
(** [>> int]: a number outside the type fails *)
Definition get_int (s : string) : option (Z * string) :=
  match get_digits s with
  | Some (neg, v, r) => if in_int (signed neg v) then Some (signed neg v, r) else None
  | None => None
  end.
(** [>> size_t]: a negative number wraps around *)
Definition get_size (s : string) : option (Z * string) :=
  match get_digits s with
  | Some (neg, v, r) => if v <? 2 ^ 64 then Some (signed neg v mod 2 ^ 64, r) else None
  | None => None
  end.
(** a number 10^n *)
Definition ten (n : Z) : Q := (inject_Z 10 ^ n)%Q.
(** [>> double]: sign, digits, a point and digits, and behind a digit an exponent; then all of it must be a number *)
Definition get_double (s : string) : option (Q * string) :=
  let (neg, s1) := get_sign (skip_ws s) in
  let (a, s2) := span digit s1 in
  let (b, s3) := match s2 with String c r => if eq_char "." c then span digit r else ("", s2) | "" => ("", s2) end in
  if String.eqb (a ++ b) "" then None
  else
    let m := (inject_Z (signed neg (digits_value 0 (a ++ b))) * ten (- Z.of_nat (String.length b)))%Q in
    match s3 with
    | String c r =>
        if one_of "eE" c then
          let (eneg, r1) := get_sign r in
          match span digit r1 with
          | ("", _) => None
          | (w, r2) => Some (fl (m * ten (signed eneg (digits_value 0 w))), r2)
          end
        else Some (fl m, s3)
    | "" => Some (fl m, s3)
    end.
(** [>> std::string] *)
Definition get_word (s : string) : option (string * string) :=
  match span (fun c => negb (space c)) (skip_ws s) with
  | ("", _) => None
  | (w, r) => Some (w, r)
  end.
(** [std::stoi] *)
Definition stoi (s : string) : option Z := option_map fst (get_int s).

(** ** Lines: [std::getline] until the end of the file; empty lines are left out (197-203, 221-227) *)
Fixpoint lines (s : string) : list string :=
  match s with
  | "" => [""]
  | String c r =>
      if eq_char "010" c then "" :: lines r
      else match lines r with l :: ls => String c l :: ls | [] => [String c ""] end
  end.
Definition filled_lines (s : string) : list string := filter (fun l => negb (String.eqb l "")) (lines s).

Definition point : Type := Z * Z.
Definition box : Type := point * point.
Section Parse.
  Context (split : string -> list string) (scale : Q).
  (** a double times the scale, stored in a coordinate *)
  Definition coord (v : Q) : res Z := to_int64 (fl (v * scale)).
  (** 16-22: what cannot be read is 0 *)
  Definition dom_line (l : string) : res point :=
    let (x, y) := match get_double l with
                  | Some (x, r) => (x, match get_double r with Some (y, _) => y | None => 0%Q end)
                  | None => (0%Q, 0%Q)
                  end in
    x' <- coord x ;; y' <- coord y ;; Ok (x', y').
  (** 24-60: [Ok None] is a line that is refused *)
  Definition dmc_fields (l : string) :=
    match get_size l with | None => None | Some (n, r) =>
    match get_int r with | None => None | Some (dark, r) =>
    match get_int r with | None => None | Some (layer, r) =>
    match get_double r with | None => None | Some (llx, r) =>
    match get_double r with | None => None | Some (urx, r) =>
    match get_double r with | None => None | Some (lly, r) =>
    match get_double r with | None => None | Some (ury, r) =>
    match get_int r with | None => None | Some (net, r) =>
    match get_word r with | None => None | Some (netname, r) =>
    match get_word r with | None => None | Some (sig, r) =>
      Some (n, dark, layer, ((llx, lly), (urx, ury)), net, netname, sig, match get_word r with Some (w, _) => w | None => "" end)
    end end end end end end end end end end.
  Definition dmc_line (l : string) : res (option (record * box)) :=
    match dmc_fields l with
    | None => Ok None
    | Some (n, dark, layer, ((llx, lly), (urx, ury)), net, netname, sig, lyrname) =>
        sg <- parse_sig stoi split sig ;;
        match sg with
        | None => Ok None
        | Some (via, sig1, sig2) =>
            x1 <- coord llx ;; x2 <- coord urx ;; y1 <- coord lly ;; y2 <- coord ury ;;
            Ok (Some ({| r_points := Z.to_nat n; r_hole := dark =? 0; r_via := via; r_net := net; r_netname := netname;
                         r_layer := layer; r_lyrname := lyrname; r_sig1 := sig1; r_sig2 := sig2 |}, ((x1, y1), (x2, y2))))
        end
    end.
  (** 190-212 *)
  Fixpoint dom_lines (ls : list string) : res (list point) :=
    match ls with [] => Ok [] | l :: ls' => p <- dom_line l ;; ps <- dom_lines ls' ;; Ok (p :: ps) end.
  (** 214-236 *)
  Fixpoint dmc_lines (ls : list string) : res (option (list (record * box))) :=
    match ls with
    | [] => Ok (Some [])
    | l :: ls' => o <- dmc_line l ;; match o with
                                      | None => Ok None
                                      | Some r => rs <- dmc_lines ls' ;; Ok (option_map (cons r) rs)
                                      end
    end.
End Parse.

(** 100-106 – the boxes of all outlines, joined; the box that holds nothing is [None] *)
Definition join (a : option box) (b : box) : option box :=
  match a with
  | None => Some b
  | Some ((ax1, ay1), (ax2, ay2)) =>
      let '((bx1, by1), (bx2, by2)) := b in Some ((Z.min ax1 bx1, Z.min ay1 by1), (Z.max ax2 bx2, Z.max ay2 by2))
  end.
Definition boundary (rs : list (record * box)) : option box :=
  fold_left join (map snd (filter (fun r => negb (r_hole (fst r))) rs)) None.

(** 67-188 and src/extension/ECadExtension.cpp 9-13: the units are the default ones; [dmc] and [dom] are the texts of the
    files, if they can be opened.  The registry of databases is that of C09. *)
Definition create_database (split : string -> list string) (reg : registry) (name : string) (dmc dom : option string)
  : res (registry * option (layout point * option box)) :=
  match reg_step reg (OpenDatabase name), dom, dmc with
  | (_, RDb (Some _)), _, _ => Ok (reg, None)
  | _, None, _ => Ok (reg, None)
  | _, Some dom, dmc =>
      pts <- dom_lines (scale2coord default_units) (filled_lines dom) ;;
      match dmc with
      | None => Ok (reg, None)
      | Some dmc =>
          rs <- dmc_lines split (scale2coord default_units) (filled_lines dmc) ;;
          match rs with
          | None => Ok (reg, None)
          | Some rs =>
              let (reg', _) := reg_step reg (CreateDatabase name) in
              lay <- import_records (map fst rs) pts ;;
              Ok (reg', Some (lay, boundary rs))
          end
      end
  end.

(** ** The writer *)
(** [<<] of an integer, and of a double with six digits behind the point *)
Definition print_z (z : Z) : string := (if z <? 0 then "-" else "") ++ to_dec (Z.to_nat (Z.abs z)).
(** the last [k] digits *)
Fixpoint last_digits (k : nat) (n : Z) : string :=
  match k with O => "" | S k' => last_digits k' (n / 10) ++ String (ascii_of_nat (48 + Z.to_nat (n mod 10))) "" end.
Definition print6 (q : Q) : string :=
  let n := round_even (Qabs.Qabs q * inject_Z 1000000) in
  (if Qle_bool 0 q then "" else "-") ++ to_dec (Z.to_nat (n / 1000000)) ++ "." ++ last_digits 6 n.
(** merged polygons of a layer: net number, outline, holes *)
Record merged := { g_net : Z; g_solid : list point; g_holes : list (list point) }.
Fixpoint cat (l : list string) : string := match l with [] => "" | s :: r => s ++ cat r end.
Section Write.
  (** the units of the layout, its nets and layers by number, and [geometry::Extent] *)
  Context (cu : coord_units) (net_of layer_of : Z -> option string) (extent : list point -> box).
  Definition blank : string := " ".
  Definition eol : string := String "010" "".
  (** 290-303 *)
  Definition write_dmc (layer : Z) (lname : string) (net : Z) (nname : string) (p : list point) (hole : bool) : string :=
    let '((x1, y1), (x2, y2)) := extent p in
    to_dec (List.length p) ++ blank ++ (if hole then "0" else "1") ++ blank ++ print_z layer ++ blank ++
    print6 (to_unit cu x1) ++ blank ++ print6 (to_unit cu x2) ++ blank ++ print6 (to_unit cu y1) ++ blank ++ print6 (to_unit cu y2) ++ blank ++
    print_z net ++ blank ++ nname ++ blank ++ print_z layer ++ blank ++ lname ++ eol.
  Definition write_dom (p : list point) : string :=
    cat (map (fun a => print6 (to_unit cu (fst a)) ++ blank ++ print6 (to_unit cu (snd a)) ++ eol) p).
  (** 305-317: a polygon whose net or layer is not found is left out *)
  Definition write_one (layer : Z) (g : merged) : string * string :=
    match net_of (g_net g), layer_of layer with
    | Some nname, Some lname =>
        (write_dmc layer lname (g_net g) nname (g_solid g) false ++ cat (map (fun h => write_dmc layer lname (g_net g) nname h true) (g_holes g)),
         write_dom (g_solid g) ++ cat (map write_dom (g_holes g)))
    | _, _ => ("", "")
    end.
  (** 262-283, 319-322: all layers in the order of the map of mergers (any order) *)
  Definition write (mergers : list (Z * list merged)) : string * string :=
    let all := flat_map (fun m => map (write_one (fst m)) (snd m)) mergers in
    (cat (map fst all), cat (map snd all)).
End Write.
