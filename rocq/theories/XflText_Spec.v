(** What the text of an XFL file is, apart from how it is read: words with gaps between them. *)
From Coq Require Import Ascii QArith.
From Verif Require Import Base XflText_Model.
Close Scope Q_scope.
Open Scope string_scope.
Open Scope nat_scope.
Open Scope list_scope.

(** ** Gaps: blanks, tabs, line ends and comments that reach to the end of their line *)
Definition newline (c : ascii) : Prop := c = "010"%char \/ c = "013"%char.
Definition white (c : ascii) : Prop := c = " "%char \/ c = "009"%char \/ c = "011"%char \/ c = "012"%char \/ newline c.
Fixpoint chars (f : ascii -> Prop) (s : string) : Prop := match s with "" => True | String c r => f c /\ chars f r end.
Inductive gap : string -> Prop :=
| gap_end : gap ""
| gap_white c g : white c -> gap g -> gap (String c g)
| gap_comment b c g : chars (fun d => ~ newline d) b -> newline c -> gap g -> gap ("#" ++ b ++ String c g).

(** A word ends where a gap, a bracket or a quote begins, or it is a bracket or a whole line itself. *)
Definition stops (s : string) : Prop :=
  match s with "" => True | String c _ => white c \/ c = "#"%char \/ c = "{"%char \/ c = "}"%char \/ c = "034"%char end.
Definition apart (w s : string) : Prop := w = "{" \/ w = "}" \/ (exists u c, w = (u ++ String c "")%string /\ newline c) \/ stops s.

(** [written ws s t]: [s] is the words [ws], each behind a gap, and then [t]. *)
Inductive written : list string -> string -> string -> Prop :=
| written_nil t : written [] t t
| written_cons g w ws s t : gap g -> apart w s -> written ws s t -> written (w :: ws) (g ++ w ++ s) t.

(** ** Words *)
Definition alike (a b : ascii) : Prop :=
  a = b \/ exists n, 65 <= n <= 90 /\ (a = ascii_of_nat n /\ b = ascii_of_nat (n + 32) \/ a = ascii_of_nat (n + 32) /\ b = ascii_of_nat n).
(** the keyword [k] in any letter case *)
Fixpoint keyword (k w : string) : Prop :=
  match k, w with "", "" => True | String a k', String b w' => alike a b /\ keyword k' w' | _, _ => False end.
Definition range (a b : ascii) (c : ascii) : Prop := nat_of_ascii a <= nat_of_ascii c <= nat_of_ascii b.
Definition is_digit (c : ascii) : Prop := range "0" "9" c.
Definition is_letter (c : ascii) : Prop := range "a" "z" c \/ range "A" "Z" c \/ c = "_"%char.
(** names of pins' directions, units and designs *)
Definition name (w : string) : Prop :=
  match w with "" => False | String c r => is_letter c /\ chars (fun d => is_letter d \/ is_digit d \/ d = "-"%char) r end.
(** names of components, pins and vias *)
Definition free_name (w : string) : Prop := w <> "" /\ chars (fun d => is_letter d \/ is_digit d \/ d = "-"%char \/ d = "."%char) w.
Definition quoted (n w : string) : Prop :=
  w = String "034" (n ++ String "034" "") /\ n <> "" /\ chars (fun d => d <> "034"%char) n.
Definition one_char (cs : string) (c : ascii) (w : string) : Prop :=
  w = String c "" /\ exists a b, cs = (a ++ String c b)%string.

Definition figures (w : string) : Prop := w <> "" /\ chars is_digit w.
Definition plus_minus (w : string) : Prop := w = "" \/ w = "+" \/ w = "-".
Fixpoint decimal (w : string) : Z :=
  match w with "" => 0 | String c r => (Z.of_nat (nat_of_ascii c) - 48) * 10 ^ Z.of_nat (String.length r) + decimal r end%Z.
Definition whole (z : Z) (w : string) : Prop :=
  exists s d, w = (s ++ d)%string /\ plus_minus s /\ figures d /\
  z = (if String.eqb s "-" then - decimal d else decimal d)%Z /\ (-2147483648 <= z <= 2147483647)%Z.
Definition number (w : string) : Prop :=
  exists s m e, w = (s ++ m ++ e)%string /\ plus_minus s /\
  (figures m \/ (exists a b, m = (a ++ "." ++ b)%string /\ (figures a /\ chars is_digit b \/ a = "" /\ figures b))) /\
  (e = "" \/ exists c s' d, e = String c (s' ++ d)%string /\ (c = "e"%char \/ c = "E"%char) /\ plus_minus s' /\ figures d).

Section Words.
  Context (value : string -> Q).
  Definition num (q : Q) (w : string) : Prop := number w /\ value w = q.

  (** ** What the words of each element are *)
  Inductive material_words : material -> list string -> Prop :=
  | mw_metal k n q c w : keyword "C" k -> quoted n q -> num c w -> material_words (mkMat true n c 0 0 0 0) [k; q; w]
  | mw_diel k n q a wa b wb c wc : keyword "D" k -> quoted n q -> num a wa -> num b wb -> num c wc ->
      material_words (mkMat false n a b c 0 0) [k; q; wa; wb; wc]
  | mw_lossy k n q a wa b wb c wc d wd i wi : keyword "D" k -> quoted n q -> num a wa -> num b wb -> num c wc -> num d wd -> whole i wi ->
      material_words (mkMat false n a b c d i) [k; q; wa; wb; wc; wd; wi].
  Inductive layer_words : layer -> list string -> Prop :=
  | lw n wn t wt k wk c wc d wd : quoted n wn -> num t wt -> one_char "SDP" k wk -> quoted c wc -> quoted d wd ->
      layer_words (mkLay n t k c d) [wn; wt; wk; wc; wd].
  Inductive point_words : point -> list string -> Prop :=
  | pw x wx y wy : num x wx -> num y wy -> point_words (x, y) [wx; wy].
  (** elements one after the other *)
  Inductive all_words {A} (f : A -> list string -> Prop) : list A -> list string -> Prop :=
  | aw_nil : all_words f [] []
  | aw_cons a ws l wl : f a ws -> all_words f l wl -> all_words f (a :: l) (ws ++ wl).
  Inductive polygon_words : list point -> list string -> Prop :=
  | gw ps ws : all_words point_words ps ws -> polygon_words ps ("{" :: ws ++ ["}"]).
  Inductive piece_words : piece -> list string -> Prop :=
  | cw_point p ws : point_words p ws -> piece_words (PPoint p) ws
  | cw_arc k e we m wm : keyword "ARC" k -> point_words e we -> point_words m wm -> piece_words (PArc 0 e m) (k :: we ++ wm)
  | cw_rarc k e we m wm : keyword "RARC" k -> point_words e we -> point_words m wm -> piece_words (PArc 1 e m) (k :: we ++ wm).
  Inductive composite_words : list piece -> list string -> Prop :=
  | ow p wp cs ws : point_words p wp -> all_words piece_words cs ws -> composite_words (PPoint p :: cs) ("{" :: wp ++ ws ++ ["}"]).
  Inductive nums : list Q -> list string -> Prop :=
  | nums_nil : nums [] []
  | nums_cons q w qs ws : num q w -> nums qs ws -> nums (q :: qs) (w :: ws).
  Inductive shape_words : shape -> list string -> Prop :=
  | sw_polygon k ps ws : keyword "polygon" k -> polygon_words ps ws -> shape_words (SPolygon ps) (k :: ws)
  | sw_composite k cs ws : keyword "composite" k -> composite_words cs ws -> shape_words (SComposite cs) (k :: ws)
  | sw_rectangle k a b ws : keyword "rectangle" k -> nums [a; b] ws -> shape_words (SRectangle a b) (k :: ws)
  | sw_square k a ws : keyword "square" k -> nums [a] ws -> shape_words (SSquare a) (k :: ws)
  | sw_circle k a ws : keyword "circle" k -> nums [a] ws -> shape_words (SCircle a) (k :: ws)
  | sw_annular k a b ws : keyword "annular" k -> nums [a; b] ws -> shape_words (SAnnular a b) (k :: ws)
  | sw_oblong k a b c ws : keyword "oblong" k -> nums [a; b; c] ws -> shape_words (SOblong a b c) (k :: ws)
  | sw_bullet k a b c ws : keyword "bullet" k -> nums [a; b; c] ws -> shape_words (SBullet a b c) (k :: ws)
  | sw_finger k a b c ws : keyword "finger" k -> nums [a; b; c] ws -> shape_words (SFinger a b c) (k :: ws).
  Inductive template_words : template -> list string -> Prop :=
  | tw i wi s ws : whole i wi -> shape_words s ws -> template_words (mkTmpl i s) (wi :: ws).
  Inductive board_words : board -> list string -> Prop :=
  | bw_polygon k ps ws : keyword "polygon" k -> polygon_words ps ws -> board_words (BPolygon ps) (k :: ws)
  | bw_composite k cs ws : keyword "composite" k -> composite_words cs ws -> board_words (BComposite cs) (k :: ws)
  | bw_rot_mirror k i wi p wp r wr m wm : keyword "shape" k -> whole i wi -> point_words p wp -> num r wr -> one_char "XYN" m wm ->
      board_words (BShape i p r m true) (k :: wi :: wp ++ [wr; wm])
  | bw_mirror_rot k i wi p wp r wr m wm : keyword "shape" k -> whole i wi -> point_words p wp -> num r wr -> one_char "XYN" m wm ->
      board_words (BShape i p r m false) (k :: wi :: wp ++ [wm; wr]).

  (** Pads and vias are lines: fields with blanks between them up to the end of the line. *)
  Definition spaces (s : string) : Prop := chars (fun c => c = " "%char) s.
  Fixpoint line (fields : list string) (w : string) : Prop :=
    match fields with
    | [] => False
    | [f] => exists b e, w = (f ++ b ++ e)%string /\ spaces b /\ (e = String "010" "" \/ e = String "013" (String "010" ""))
    | f :: fs => exists b r, w = (f ++ String " " b ++ r)%string /\ spaces b /\ line fs r
    end.
  Inductive pad_words : pad -> list string -> Prop :=
  | dw_plain l wl s ws r wr w : whole l wl -> whole s ws -> num r wr -> line [wl; ws; wr] w -> pad_words (mkPad l s r (-1) 0) [w]
  | dw_more l wl s ws r wr a wa q wq w : whole l wl -> whole s ws -> num r wr -> whole a wa -> num q wq ->
      line [wl; ws; wr; wa; wq] w -> pad_words (mkPad l s r a q) [w].
  Inductive padstack_words : padstack -> list string -> Prop :=
  | kw_padstack i wi ps ws : whole i wi -> all_words pad_words ps ws -> padstack_words (mkPs i ps) (wi :: "{" :: ws ++ ["}"]).
  Inductive via_words : via -> list string -> Prop :=
  | vw_plain n p wp pr wpr s ws sr wsr w : free_name n -> whole p wp -> num pr wpr -> whole s ws -> num sr wsr ->
      line [n; wp; wpr; ws; wsr] w -> via_words (mkVia n p pr s sr 0 "") [w]
  | vw_more n p wp pr wpr s ws sr wsr t wt m w : free_name n -> whole p wp -> num pr wpr -> whole s ws -> num sr wsr -> num t wt -> free_name m ->
      line [n; wp; wpr; ws; wsr; wt; m] w -> via_words (mkVia n p pr s sr t m) [w].

  Inductive node_words : node -> list string -> Prop :=
  | nw_plain c p io loc wl l wy : free_name c -> free_name p -> name io -> point_words loc wl -> whole l wy ->
      node_words (mkNode c p io None loc l) (c :: p :: io :: "{" :: wl ++ [wy; "}"])
  | nw_npe c p io a wa b wb loc wl l wy : free_name c -> free_name p -> name io -> whole a wa -> whole b wb -> point_words loc wl -> whole l wy ->
      node_words (mkNode c p io (Some (a, b)) loc l) (c :: p :: io :: wa :: wb :: "{" :: wl ++ [wy; "}"]).
  Inductive net_words : net -> list string -> Prop :=
  | ew_plain n wn k wk a wa ns ws : quoted n wn -> one_char "SPG" k wk -> whole a wa -> all_words node_words ns ws ->
      net_words (mkNet n k a None ns) (wn :: wk :: wa :: "{" :: ws ++ ["}"])
  | ew_npe n wn k wk a wa x wx y wy z wz ns ws : quoted n wn -> one_char "SPG" k wk -> whole a wa -> whole x wx -> whole y wy -> whole z wz ->
      all_words node_words ns ws -> net_words (mkNet n k a (Some (x, y, z)) ns) (wn :: wk :: wa :: wx :: wy :: wz :: "{" :: ws ++ ["}"]).

  Definition void_word (k : string) (v : bool) (w : string) : Prop := if v then keyword ("void_" ++ k) w else keyword k w.
  Inductive object_words : inst -> list string -> Prop :=
  | iw_path k l wl q wq cs ws : keyword "path" k -> whole l wl -> num q wq -> composite_words cs ws -> object_words (IPath l q cs) (k :: wl :: wq :: ws)
  | iw_via k s ws e we n p wp r wr : keyword "via" k -> whole s ws -> whole e we -> free_name n -> point_words p wp -> num r wr ->
      object_words (IVia s e n p r "N") (k :: ws :: we :: n :: wp ++ [wr])
  | iw_via_mirror k s ws e we n p wp r wr m wm : keyword "via" k -> whole s ws -> whole e we -> free_name n -> point_words p wp -> num r wr ->
      one_char "NY01" m wm -> object_words (IVia s e n p r m) (k :: ws :: we :: n :: wp ++ [wr; wm])
  | iw_bondwire k s ws e we i wi p wp q wq a b : keyword "bondwire" k -> whole s ws -> whole e we -> whole i wi -> point_words p wp -> point_words q wq ->
      free_name a -> free_name b -> object_words (IBondwire s e i p q) (k :: ws :: we :: wi :: wp ++ wq ++ [a; b])
  | iw_polygon v k l wl ps ws : void_word "polygon" v k -> whole l wl -> polygon_words ps ws -> object_words (IOutline v l (SPolygon ps)) (k :: wl :: ws)
  | iw_composite v k l wl cs ws : void_word "composite" v k -> whole l wl -> composite_words cs ws -> object_words (IOutline v l (SComposite cs)) (k :: wl :: ws)
  | iw_rectangle v k l wl a b ws p wp : void_word "rectangle" v k -> whole l wl -> nums [a; b] ws -> point_words p wp ->
      object_words (IShape v l (SRectangle a b) p) (k :: wl :: ws ++ wp)
  | iw_square v k l wl a ws p wp : void_word "square" v k -> whole l wl -> nums [a] ws -> point_words p wp ->
      object_words (IShape v l (SSquare a) p) (k :: wl :: ws ++ wp)
  | iw_circle v k l wl a ws p wp : void_word "circle" v k -> whole l wl -> nums [a] ws -> point_words p wp ->
      object_words (IShape v l (SCircle a) p) (k :: wl :: ws ++ wp)
  | iw_annular k l wl a b ws p wp : keyword "annular" k -> whole l wl -> nums [a; b] ws -> point_words p wp ->
      object_words (IShape false l (SAnnular a b) p) (k :: wl :: ws ++ wp)
  | iw_shape_rot v k l wl i wi p wp r wr m wm : void_word "shape" v k -> whole l wl -> whole i wi -> point_words p wp -> num r wr -> one_char "NY" m wm ->
      object_words (ITemplate v l i p r m true) (k :: wl :: wi :: wp ++ [wr; wm])
  | iw_shape_mirror v k l wl i wi p wp r wr m wm : void_word "shape" v k -> whole l wl -> whole i wi -> point_words p wp -> num r wr -> one_char "NY" m wm ->
      object_words (ITemplate v l i p r m false) (k :: wl :: wi :: wp ++ [wm; wr]).
  Inductive route_words : route -> list string -> Prop :=
  | rw n wn os ws : quoted n wn -> all_words object_words os ws -> route_words (mkRoute n os) (wn :: "{" :: ws ++ ["}"]).

  (** A pin with its padstacks, or one without them whose successor's name does not look like a number *)
  Inductive pin_words : pin -> list string -> Prop :=
  | qw n p wp io a wa b wb : free_name n -> point_words p wp -> name io -> whole a wa -> whole b wb ->
      pin_words (mkPin n io p (a, b)) (n :: wp ++ [io; wa; wb]).
  Definition no_number (ws : list string) : Prop :=
    match ws with String c _ :: _ => ~ is_digit c /\ c <> "+"%char /\ c <> "-"%char | _ => True end.
  Inductive pins_words : list pin -> list string -> Prop :=
  | qsw_nil : pins_words [] []
  | qsw_full p ws ps wps : pin_words p ws -> pins_words ps wps -> pins_words (p :: ps) (ws ++ wps)
  | qsw_plain n p wp io ps wps : free_name n -> point_words p wp -> name io -> pins_words ps wps -> no_number wps ->
      pins_words (mkPin n io p (0, 0)%Z :: ps) (n :: wp ++ io :: wps).
  Inductive kind_words : ascii * Q * bool * string -> list string -> Prop :=
  | xw k wk v wv : one_char "RLCSDMO" k wk -> num v wv -> kind_words (k, v, false, "") [wk; wv]
  | xw_fixed k wk v wv f : one_char "RLCSDMO" k wk -> num v wv -> keyword "noflip" f -> kind_words (k, v, true, "") [wk; wv; f]
  | xw_fixed_material k wk v wv f m : one_char "RLCSDMO" k wk -> num v wv -> keyword "noflip" f -> free_name m -> kind_words (k, v, true, m) [wk; wv; f; m]
  | xw_material k wk v wv m : one_char "RLCSDMO" k wk -> num v wv -> free_name m ->
      (match m with String c _ => c <> "n"%char /\ c <> "N"%char | "" => False end) -> kind_words (k, v, false, m) [wk; wv; m].
  Inductive extra_words : part_extra -> list string -> Prop :=
  | yw s ws a wa b wb h wh : one_char "RCD" s ws -> point_words a wa -> point_words b wb -> num h wh ->
      extra_words (mkExtra s a b h None) (ws :: wa ++ wb ++ [wh])
  | yw_kind s ws a wa b wb h wh k wk : one_char "RCD" s ws -> point_words a wa -> point_words b wb -> num h wh -> kind_words k wk ->
      extra_words (mkExtra s a b h (Some k)) (ws :: wa ++ wb ++ wh :: wk).
  Inductive part_words : part -> list string -> Prop :=
  | zw n ps ws : free_name n -> pins_words ps ws -> part_words (mkPart n None ps) (n :: "{" :: ws ++ ["}"])
  | zw_extra n x wx ps ws : free_name n -> extra_words x wx -> pins_words ps ws -> part_words (mkPart n (Some x) ps) (n :: wx ++ "{" :: ws ++ ["}"]).

  (** ** Sections and files *)
  Inductive section_words {A} (nm : string) (f : A -> list string -> Prop) : list A -> list string -> Prop :=
  | section_of k l ws e : keyword ("." ++ nm) k -> all_words f l ws -> keyword (".end " ++ nm) e -> section_words nm f l (k :: ws ++ [e]).
  (** a word that is read over: nothing white in it, no comment *)
  Definition plain_word (w : string) : Prop := w <> "" /\ chars (fun c => ~ white c /\ c <> "#"%char) w.
  Definition has (k w : string) : Prop := exists a b c, w = (a ++ b ++ c)%string /\ keyword k b.
  Definition ends_in (k w : string) : Prop := exists a b, w = (a ++ b)%string /\ keyword k b.
  Definition starts_with (k w : string) : Prop := exists a b, w = (a ++ b)%string /\ keyword k a.
  Definition known : list string :=
    ["version"; "unit"; "design_type"; "scale"; "material"; "material_frequency"; "layer"; "shape"; "board_geom"; "padstack"; "via"; "part";
     "component"; "netattr"; "netlist"; "route"].
  Inductive entry_words : list call -> list string -> Prop :=
  | fw_version k a wa b wb : keyword ".version" k -> whole a wa -> whole b wb -> entry_words [CVersion a b] [k; wa; wb]
  | fw_unit k u : keyword ".unit" k -> name u -> entry_words [CUnit u] [k; u]
  | fw_design k u : keyword ".design_type" k -> name u -> entry_words [CDesign u] [k; u]
  | fw_scale k q w : keyword ".scale" k -> num q w -> entry_words [CScale q] [k; w]
  | fw_material l ws : section_words "material" material_words l ws -> entry_words (map CMaterial l) ws
  | fw_layer l ws : section_words "layer" layer_words l ws -> entry_words (map CLayer l) ws
  | fw_shape l ws : section_words "shape" template_words l ws -> entry_words (map CShape l) ws
  | fw_board k b ws e : keyword ".board_geom" k -> board_words b ws -> keyword ".end board_geom" e -> entry_words [CBoard b] (k :: ws ++ [e])
  | fw_no_board k e : keyword ".board_geom" k -> keyword ".end board_geom" e -> entry_words [] [k; e]
  | fw_padstack l ws : section_words "padstack" padstack_words l ws -> entry_words (map CPadstack l) ws
  | fw_via l ws : section_words "via" via_words l ws -> entry_words (map CVia l) ws
  | fw_part l ws : section_words "part" part_words l ws -> entry_words (map CPart l) ws
  | fw_netlist l ws : section_words "netlist" net_words l ws -> entry_words (map CNet l) ws
  | fw_route l ws : section_words "route" route_words l ws -> entry_words (map CRoute l) ws
  (** sections that are read over: the words between do not look like their end *)
  | fw_skipped nm k ws e : In nm ["material_frequency"; "component"; "netattr"] -> keyword ("." ++ nm) k ->
      Forall (fun w => plain_word w /\ ~ ends_in ".end" w) ws -> keyword (".end " ++ nm) e -> entry_words [] (k :: ws ++ [e])
  | fw_unknown n ws e : free_name n -> ~ (exists r, n = ("end" ++ r)%string) -> Forall (fun k => ~ starts_with k n) known ->
      Forall (fun w => plain_word w /\ ~ has ".end" w) ws -> keyword ".end" e -> entry_words [CUnknown n] (("." ++ n)%string :: ws ++ [e; n]).
  Definition file_words (calls : list call) (ws : list string) : Prop :=
    exists entries, calls = List.concat entries /\ all_words entry_words entries ws.
End Words.

(** ** What arrives whatever the text was *)
Definition int32 (z : Z) : Prop := (-2147483648 <= z <= 2147483647)%Z.
Definition quotable (n : string) : Prop := n <> "" /\ chars (fun d => d <> "034"%char) n.
Definition among (cs : string) (c : ascii) : Prop := exists a b, cs = (a ++ String c b)%string.
Definition arc_ok (p : piece) : Prop := match p with PPoint _ => True | PArc k _ _ => k = 0%Z \/ k = 1%Z end.
(** a contour with arcs starts at a point *)
Definition contour_ok (cs : list piece) : Prop := (exists p r, cs = PPoint p :: r) /\ Forall arc_ok cs.
Definition shape_ok (s : shape) : Prop := match s with SComposite cs => contour_ok cs | SDiamond _ => False | _ => True end.
Definition board_ok (b : board) : Prop :=
  match b with BPolygon _ => True | BComposite cs => contour_ok cs | BShape i _ _ m _ => int32 i /\ among "XYN" m end.
Definition node_ok (n : node) : Prop := free_name (n_comp n) /\ free_name (n_pin n) /\ name (n_io n) /\ int32 (n_layer n).
Definition object_ok (o : inst) : Prop :=
  match o with
  | IPath l _ cs => int32 l /\ contour_ok cs
  | IVia s e n _ _ m => int32 s /\ int32 e /\ free_name n /\ among "NY01" m
  | IBondwire s e i _ _ => int32 s /\ int32 e /\ int32 i
  | IShape v l s _ => int32 l /\ shape_ok s /\ (v = true -> match s with SRectangle _ _ | SSquare _ | SCircle _ => True | _ => False end)
  | IOutline _ l s => int32 l /\ match s with SPolygon _ => True | SComposite cs => contour_ok cs | _ => False end
  | ITemplate _ l i _ _ m _ => int32 l /\ int32 i /\ among "NY" m
  end.
Definition pin_ok (p : pin) : Prop := free_name (pn_name p) /\ name (pn_io p) /\ int32 (fst (pn_ps p)) /\ int32 (snd (pn_ps p)).
Definition call_ok (c : call) : Prop :=
  match c with
  | CVersion a b => int32 a /\ int32 b
  | CUnit u => name u
  | CDesign u => name u
  | CScale _ => True
  | CMaterial m => quotable (m_name m) /\ int32 (m_causality m)
  | CLayer l => quotable (ly_name l) /\ quotable (ly_cond l) /\ quotable (ly_diel l) /\ among "SDP" (ly_type l)
  | CShape t => int32 (t_id t) /\ shape_ok (t_shape t)
  | CBoard b => board_ok b
  | CPadstack p => int32 (ps_id p) /\ Forall (fun d => int32 (p_layer d) /\ int32 (p_shape d) /\ int32 (p_ap_shape d)) (ps_pads p)
  | CVia v => free_name (v_name v) /\ int32 (v_padstack v) /\ int32 (v_shape v)
  | CPart p => free_name (pt_name p) /\ Forall pin_ok (pt_pins p)
  | CNet n => quotable (nt_name n) /\ among "SPG" (nt_type n) /\ int32 (nt_attr n) /\ Forall node_ok (nt_nodes n)
  | CRoute r => quotable (r_net r) /\ Forall object_ok (r_objects r)
  | CUnknown n => free_name n
  | CLine l => l <> "" /\ chars (fun c => ~ newline c) l
  end.
