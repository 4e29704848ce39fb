(** Reading of the text of an XFL file, src/extension/xfl/EXflParser.h.

    The reader hands what it has read to handlers (479-595), which put it into the database; here it gives the list of
    these calls.  What was handed over stays there when the rule fails later.  [value] is the number Spirit makes of the
    text of one. *)
From Coq Require Import Ascii QArith.
From Verif Require Import Base Qi_Model.
Close Scope Q_scope.
Open Scope string_scope.
Open Scope nat_scope.
Open Scope list_scope.
Open Scope qi_scope.

(** ** EXflObjects.h 13-179, 340-375.  Members that may stay without a value are options; the names of the dies of a bond
    wire are left out. *)
Record material := mkMat { m_metal : bool; m_name : string; m_cond : Q; m_eps : Q; m_mu : Q; m_loss : Q; m_causality : Z }.
Record layer := mkLay { ly_name : string; ly_thick : Q; ly_type : ascii; ly_cond : string; ly_diel : string }.
Definition point : Type := Q * Q.
Inductive piece := PPoint (p : point) | PArc (kind : Z) (fin mid : point).
Inductive shape :=
| SPolygon (ps : list point) | SComposite (cs : list piece) | SRectangle (w h : Q) | SSquare (w : Q) | SDiamond (w : Q)
| SCircle (d : Q) | SAnnular (outer inner : Q) | SOblong (w l r : Q) | SBullet (w l r : Q) | SFinger (w l r : Q).
Record template := mkTmpl { t_id : Z; t_shape : shape }.
Inductive board := BPolygon (ps : list point) | BComposite (cs : list piece) | BShape (id : Z) (loc : point) (rot : Q) (mirror : ascii) (rot_first : bool).
Record pad := mkPad { p_layer : Z; p_shape : Z; p_rot : Q; p_ap_shape : Z; p_ap_rot : Q }.
Record padstack := mkPs { ps_id : Z; ps_pads : list pad }.
Record via := mkVia { v_name : string; v_padstack : Z; v_prot : Q; v_shape : Z; v_srot : Q; v_thick : Q; v_mat : string }.
Record node := mkNode { n_comp : string; n_pin : string; n_io : string; n_npe : option (Z * Z); n_loc : point; n_layer : Z }.
Record net := mkNet { nt_name : string; nt_type : ascii; nt_attr : Z; nt_npe : option (Z * Z * Z); nt_nodes : list node }.
Inductive inst :=
| IPath (layer : Z) (w : Q) (path : list piece)
| IVia (s e : Z) (name : string) (loc : point) (rot : Q) (mirror : ascii)
| IBondwire (s e id : Z) (sloc eloc : point)
| IShape (is_void : bool) (layer : Z) (sh : shape) (loc : point)
| IOutline (is_void : bool) (layer : Z) (sh : shape)
| ITemplate (is_void : bool) (layer id : Z) (loc : point) (rot : Q) (mirror : ascii) (rot_first : bool).
Record route := mkRoute { r_net : string; r_objects : list inst }.
Record pin := mkPin { pn_name : string; pn_io : string; pn_loc : point; pn_ps : Z * Z }.
Record part_extra := mkExtra { x_shape : ascii; x_ll : point; x_ur : point; x_height : Q; x_kind : option (ascii * Q * bool * string) }.
Record part := mkPart { pt_name : string; pt_extra : option part_extra; pt_pins : list pin }.

(** The handlers, 479-595 *)
Inductive call :=
| CVersion (major minor : Z) | CUnit (u : string) | CDesign (t : string) | CScale (q : Q)
| CMaterial (m : material) | CLayer (l : layer) | CShape (t : template) | CBoard (b : board) | CPadstack (p : padstack)
| CVia (v : via) | CPart (p : part) | CNet (n : net) | CRoute (r : route) | CUnknown (n : string) | CLine (l : string).

(** ** Words, 296-299 *)
Definition name_char (c : ascii) : bool := letter c || digit c || eq_char "-" c.
Definition wide_char (c : ascii) : bool := name_char c || eq_char "." c.
Definition quote : ascii := "034".
Definition text : P string := tok (a <~ one letter ;; w <~ many name_char ;; pret (String a w)).
Definition textNC : P string := tok (many1 wide_char).
Definition textDQ : P string := tok (one (eq_char quote) >> w <~ many1 (fun c => negb (eq_char quote c)) ;; one (eq_char quote) >> pret w).
Definition textEOL : P string := tok (w <~ many1 (fun c => negb (line_end c)) ;; eol >> pret w).
Definition kw (w : string) : P unit := tok (nocase w).
Definition sym (w : string) : P unit := tok (lit w).
Definition chr (cs : string) : P ascii := tok (one (one_of cs)).
Definition int : P Z := tok int_.
Definition blanks : P string := many1 (eq_char " ").
Definition blanks0 : P string := many (eq_char " ").

Section Grammar.
  Context (value : string -> Q).
  Definition real_ : P Q := w <~ double_text ;; pret (value w).
  Definition real : P Q := tok real_.

  (** 301-306.  If a number follows the three of a dielectric without a whole number behind it, it is kept although it
      is not consumed. *)
  Definition loss : P (Q * Z) := fun s =>
    match real s with
    | Some (q, r) => match int r with Some (i, r') => Some ((q, i), r') | None => Some ((q, 0%Z), s) end
    | None => Some ((0%Q, 0%Z), s)
    end.
  Definition material_ : P material :=
    palt (kw "C" >> n <~ textDQ ;; c <~ real ;; pret (mkMat true n c 0%Q 0%Q 0%Q 0))
         (kw "D" >> n <~ textDQ ;; a <~ real ;; b <~ real ;; c <~ real ;; l <~ loss ;; pret (mkMat false n a b c (fst l) (snd l))).
  (** 308 *)
  Definition layer_ : P layer :=
    n <~ textDQ ;; t <~ real ;; k <~ chr "SDP" ;; c <~ textDQ ;; d <~ textDQ ;; pret (mkLay n t k c d).
  (** 310-325 *)
  Definition point_ : P point := x <~ real ;; y <~ real ;; pret (x, y).
  Definition polygon : P (list point) := sym "{" >> ps <~ pstar point_ ;; sym "}" >> pret ps.
  Definition arc_kind : P Z := palt (kw "ARC" >> pret 0%Z) (palt (kw "RARC" >> pret 1%Z) (kw "ARC3" >> pret 2%Z)).
  Definition arc : P piece :=
    k <~ arc_kind ;; e <~ point_ ;; m <~ point_ ;; pret (PArc k e m).
  Definition composite : P (list piece) :=
    sym "{" >> p <~ point_ ;; cs <~ pstar (palt (q <~ point_ ;; pret (PPoint q)) arc) ;; sym "}" >> pret (PPoint p :: cs).
  (** 327-334 *)
  Definition two {A} (f : Q -> Q -> A) : P A := a <~ real ;; b <~ real ;; pret (f a b).
  Definition three {A} (f : Q -> Q -> Q -> A) : P A := a <~ real ;; b <~ real ;; c <~ real ;; pret (f a b c).
  Definition square : P shape := a <~ real ;; pret (SSquare a).
  Definition circle : P shape := a <~ real ;; pret (SCircle a).
  (** 336-349; a diamond is read by the rule of squares (341) *)
  Definition form_ : P shape :=
    palt (kw "polygon" >> ps <~ polygon ;; pret (SPolygon ps))
    (palt (kw "rectangle" >> two SRectangle)
    (palt (kw "square" >> square)
    (palt (kw "diamond" >> square)
    (palt (kw "circle" >> circle)
    (palt (kw "annular" >> two SAnnular)
    (palt (kw "oblong" >> three SOblong)
    (palt (kw "bullet" >> three SBullet)
    (palt (kw "finger" >> three SFinger)
          (kw "composite" >> cs <~ composite ;; pret (SComposite cs)))))))))).
  Definition shape_ : P template := id <~ int ;; sh <~ form_ ;; pret (mkTmpl id sh).
  (** 351-362: nothing is skipped inside a pad *)
  Definition pad_ : P pad :=
    tok (l <~ int_ ;; blanks >> s <~ int_ ;; blanks >> r <~ real_ ;;
         o <~ popt (blanks >> i <~ int_ ;; blanks >> q <~ real_ ;; pret (i, q)) ;;
         blanks0 >> eol >> pret (mkPad l s r (match o with Some x => fst x | None => -1 end) (match o with Some x => snd x | None => 0%Q end))).
  Definition padstack_ : P padstack := id <~ int ;; sym "{" >> ps <~ pstar pad_ ;; sym "}" >> pret (mkPs id ps).
  (** 364-373 *)
  Definition via_ : P via :=
    tok (n <~ many1 wide_char ;; blanks >> p <~ int_ ;; blanks >> pr <~ real_ ;; blanks >> s <~ int_ ;; blanks >> sr <~ real_ ;;
         o <~ popt (blanks >> t <~ real_ ;; blanks >> m <~ many1 wide_char ;; pret (t, m)) ;;
         blanks0 >> eol >> pret (mkVia n p pr s sr (match o with Some x => fst x | None => 0%Q end) (match o with Some x => snd x | None => "" end))).
  (** 375-389 *)
  Definition node_ : P node :=
    c <~ textNC ;; p <~ textNC ;; io <~ text ;; o <~ popt (a <~ int ;; b <~ int ;; pret (a, b)) ;;
    sym "{" >> loc <~ point_ ;; l <~ int ;; sym "}" >> pret (mkNode c p io o loc l).
  Definition net_ : P net :=
    n <~ textDQ ;; k <~ chr "SPG" ;; a <~ int ;; o <~ popt (x <~ int ;; y <~ int ;; z <~ int ;; pret (x, y, z)) ;;
    sym "{" >> ns <~ pstar node_ ;; sym "}" >> pret (mkNet n k a o ns).

  (** 391-434 *)
  Definition void_or (w : string) : P bool := palt (kw w >> pret false) (kw ("void_" ++ w)%string >> pret true).
  Definition inst_path : P inst := kw "path" >> l <~ int ;; w <~ real ;; c <~ composite ;; pret (IPath l w c).
  Definition inst_via : P inst :=
    kw "via" >> s <~ int ;; e <~ int ;; n <~ textNC ;; p <~ point_ ;; r <~ real ;; m <~ popt (chr "NY01") ;;
    pret (IVia s e n p r (match m with Some c => c | None => "N"%char end)).
  Definition inst_bondwire : P inst :=
    kw "bondwire" >> s <~ int ;; e <~ int ;; i <~ int ;; p <~ point_ ;; q <~ point_ ;;
    popt (textNC >> textNC) >> pret (IBondwire s e i p q).
  Definition inst_polygon : P inst := v <~ void_or "polygon" ;; l <~ int ;; ps <~ polygon ;; pret (IOutline v l (SPolygon ps)).
  Definition inst_rectangle : P inst := v <~ void_or "rectangle" ;; l <~ int ;; s <~ two SRectangle ;; p <~ point_ ;; pret (IShape v l s p).
  Definition inst_square : P inst := v <~ void_or "square" ;; l <~ int ;; s <~ square ;; p <~ point_ ;; pret (IShape v l s p).
  Definition inst_circle : P inst := v <~ void_or "circle" ;; l <~ int ;; s <~ circle ;; p <~ point_ ;; pret (IShape v l s p).
  Definition inst_annular : P inst := kw "annular" >> l <~ int ;; s <~ two SAnnular ;; p <~ point_ ;; pret (IShape false l s p).
  Definition inst_composite : P inst := v <~ void_or "composite" ;; l <~ int ;; cs <~ composite ;; pret (IOutline v l (SComposite cs)).
  Definition inst_shape : P inst :=
    v <~ void_or "shape" ;; l <~ int ;; id <~ int ;; p <~ point_ ;;
    palt (r <~ real ;; m <~ chr "NY" ;; pret (ITemplate v l id p r m true))
         (m <~ chr "NY" ;; r <~ real ;; pret (ITemplate v l id p r m false)).
  (** 436-449; there is a rule for diamonds (409-411), but it is not among the alternatives *)
  Definition object_ : P inst :=
    palt inst_path (palt inst_via (palt inst_bondwire (palt inst_polygon (palt inst_rectangle (palt inst_square
    (palt inst_circle (palt inst_annular (palt inst_composite inst_shape)))))))).
  Definition route_ : P route := n <~ textDQ ;; sym "{" >> os <~ pstar object_ ;; sym "}" >> pret (mkRoute n os).

  (** 451-462 *)
  Definition pin_ : P pin :=
    n <~ textNC ;; p <~ point_ ;; io <~ text ;; o <~ popt (a <~ int ;; b <~ int ;; pret (a, b)) ;;
    pret (mkPin n io p (match o with Some x => x | None => (0, 0)%Z end)).
  Definition part_kind : P (ascii * Q * bool * string) :=
    k <~ chr "RLCSDMO" ;; v <~ real ;; f <~ popt (kw "noflip") ;; m <~ popt textNC ;;
    pret (k, v, match f with Some _ => true | None => false end, match m with Some w => w | None => "" end).
  Definition part_ : P part :=
    n <~ textNC ;;
    x <~ popt (s <~ chr "RCD" ;; a <~ point_ ;; b <~ point_ ;; h <~ real ;; k <~ popt part_kind ;; pret (mkExtra s a b h k)) ;;
    sym "{" >> ps <~ pstar pin_ ;; sym "}" >> pret (mkPart n x ps).

  (** ** Sections, 215-285.  What is handed over is kept also if the section fails. *)
  Definition R : Type := list call -> string -> list call * option string.
  Definition act {A} (p : P A) (f : A -> call) : R := fun db s =>
    match p s with Some (a, r) => (db ++ [f a], Some r) | None => (db, None) end.
  Definition ralt (p q : R) : R := fun db s => match p db s with (db', Some r) => (db', Some r) | (db', None) => q db' s end.
  Fixpoint rloop (n : nat) (p : R) : R := fun db s =>
    match n with
    | O => (db, Some s)
    | S n' => match p db s with (db', Some r) => rloop n' p db' r | (db', None) => (db', Some s) end
    end.
  Definition rstar (p : R) : R := fun db s => rloop (S (String.length s)) p db s.
  Definition section (name : string) {A} (p : P A) (f : A -> call) : R := fun db s =>
    match kw ("." ++ name)%string s with
    | None => (db, None)
    | Some (_, r) =>
        match rstar (act p f) db r with
        | (db', Some r') => match kw (".end " ++ name)%string r' with Some (_, r'') => (db', Some r'') | None => (db', None) end
        | (db', None) => (db', None)
        end
    end.
  (** 222-225, 268-276: contents that are read over *)
  Definition skipped (name : string) : P unit :=
    kw ("." ++ name)%string >> pstar (pminus (tok (one (fun _ => true))) (kw (".end " ++ name)%string)) >> kw (".end " ++ name)%string.
  Definition nothing (p : P unit) : R := fun db s => match p s with Some (_, r) => (db, Some r) | None => (db, None) end.
  (** 241-251 *)
  Definition board_ : P board :=
    palt (kw "polygon" >> ps <~ polygon ;; pret (BPolygon ps))
    (palt (kw "composite" >> cs <~ composite ;; pret (BComposite cs))
    (palt (kw "shape" >> i <~ int ;; p <~ point_ ;; r <~ real ;; m <~ chr "XYN" ;; pret (BShape i p r m true))
          (kw "shape" >> i <~ int ;; p <~ point_ ;; m <~ chr "XYN" ;; r <~ real ;; pret (BShape i p r m false)))).
  Definition board_section : R := fun db s =>
    match kw ".board_geom" s with
    | None => (db, None)
    | Some (_, r) =>
        let '(db', r') := match board_ r with Some (b, r1) => (db ++ [CBoard b], r1) | None => (db, r) end in
        match kw ".end board_geom" r' with Some (_, r'') => (db', Some r'') | None => (db', None) end
    end.
  (** 287-294 *)
  Definition unknown : P string :=
    sym "." >> pnot (sym "end") >> n <~ textNC ;; pstar (pminus (tok (one (fun _ => true))) (kw ".end")) >> kw ".end" >> sym n >> pret n.
  (** 208-213 *)
  Definition others : R :=
    ralt (act (kw ".version" >> a <~ int ;; b <~ int ;; pret (a, b)) (fun x => CVersion (fst x) (snd x)))
    (ralt (act (kw ".unit" >> text) CUnit)
    (ralt (act (kw ".design_type" >> text) CDesign)
          (act (kw ".scale" >> real) CScale))).
  (** 186-206 *)
  Definition item : R :=
    ralt others
    (ralt (section "material" material_ CMaterial)
    (ralt (nothing (skipped "material_frequency"))
    (ralt (section "layer" layer_ CLayer)
    (ralt (section "shape" shape_ CShape)
    (ralt board_section
    (ralt (section "padstack" padstack_ CPadstack)
    (ralt (section "via" via_ CVia)
    (ralt (section "part" part_ CPart)
    (ralt (nothing (skipped "component"))
    (ralt (nothing (skipped "netattr"))
    (ralt (section "netlist" net_ CNet)
    (ralt (section "route" route_ CRoute)
    (ralt (act unknown CUnknown)
          (act textEOL CLine)))))))))))))).
  (** [operator()] (67-86): true if everything was read *)
  Definition read (s : string) : bool * list call :=
    match rstar item [] s with
    | (db, Some r) => (String.eqb (skip r) "", db)
    | (db, None) => (false, db)
    end.
End Grammar.
