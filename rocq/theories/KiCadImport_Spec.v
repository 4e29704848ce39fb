(** What a KiCad board declares, and what a layout made from it has to contain. *)
From Verif Require Import Base QSum Net_Model Layers_Model Xfl_Model KiCadImport_Model.
Local Open Scope string_scope.
Local Open Scope list_scope.

(** the declarations of a board: layers (id, name, group), stack-up entries (name and its settings) and nets *)
Record kfile := {
  kf_layers : list (string * string * string);
  kf_stack : list (string * list (string * string));
  kf_nets : list (string * string)
}.
Definition leaf (s : string) : ktree := KNode s [].
Definition layer_tree (l : string * string * string) : ktree := KNode (fst (fst l)) [leaf (snd (fst l)); leaf (snd l)].
Definition stack_tree (e : string * list (string * string)) : ktree := KNode "layer" (leaf (fst e) :: map (fun kv => KNode (fst kv) [leaf (snd kv)]) (snd e)).
Definition net_tree (n : string * string) : ktree := KNode "net" [leaf (fst n); leaf (snd n)].
Definition render (f : kfile) : list ktree :=
  KNode "layers" (map layer_tree (kf_layers f)) :: KNode "stackup" (map stack_tree (kf_stack f)) :: map net_tree (kf_nets f).
(** the sections of a board: the set-up stands for the nodes in it, a footprint, which starts with its name, for the
    nodes after the name *)
Fixpoint sections (t : ktree) : list ktree :=
  match t with
  | KNode v bs =>
      if String.eqb v "setup" then flat_map sections bs
      else if String.eqb v "footprint" then match bs with [] => [] | _ :: bs' => flat_map sections bs' end
      else [t]
  end.
(** the sections which say something about layers and nets; drawings may stand anywhere between them *)
Definition relevant (t : ktree) : bool := existsb (String.eqb (kvalue t)) ["layers"; "stackup"; "net"].
Definition declarations (ts : list ktree) : list ktree := filter relevant (flat_map sections ts).

(** ** Well-formed drawings: how many values the entries of a drawing have to have *)
Local Open Scope nat_scope.
Definition needs (kind : string) : list (string * nat) :=
  if existsb (String.eqb kind) ["segment"] then [("start", 2); ("end", 2); ("width", 1); ("net", 1); ("layer", 1)]
  else if existsb (String.eqb kind) ["zone"] then [("net", 1); ("layer", 1)]
  else if existsb (String.eqb kind) ["via"] then [("at", 2); ("size", 1); ("net", 1); ("layers", 2)]
  else if existsb (String.eqb kind) ["fp_line"; "gr_line"] then [("start", 2); ("end", 2)]
  else if existsb (String.eqb kind) ["fp_circle"; "gr_circle"] then [("center", 2); ("end", 2)]
  else if existsb (String.eqb kind) ["pad"] then [("size", 2); ("roundrect_rratio", 1); ("net", 1)]
  else [].
Definition stroke_needs : list (string * nat) := [("width", 1); ("type", 1); ("fill", 1); ("layer", 1)].
Local Close Scope nat_scope.
Definition has (n : nat) (t : ktree) : Prop := (n <= List.length (kbranches t))%nat.
Definition entries_ok (need : list (string * nat)) (ts : list ktree) : Prop :=
  forall s n, In s ts -> In (kvalue s, n) need -> has n s.
(** the nodes of a name *)
Definition all_named (v : string) (P : ktree -> Prop) (ts : list ktree) : Prop := forall s, In s ts -> kvalue s = v -> P s.
(** a closed line has a point, and points have two coordinates *)
Definition points_ok (t : ktree) : Prop := has 1 t /\ forall p, In p (kbranches t) -> has 2 p.
Definition stroke_ok (t : ktree) : Prop := entries_ok stroke_needs (kbranches t).
Definition outline_ok (t : ktree) : Prop := all_named "pts" points_ok (kbranches t).
Definition drawing_ok (v : string) (bs : list ktree) : Prop :=
  entries_ok (needs v) (if String.eqb v "pad" then skipn 3 bs else bs) /\
  (v = "pad" -> (3 <= List.length bs)%nat /\
     all_named "primitives" (fun s => all_named "gr_poly" (fun p => exists q qs, kbranches p = q :: qs /\ points_ok q) (kbranches s)) (skipn 3 bs)) /\
  (v = "zone" -> all_named "polygon" outline_ok bs /\ all_named "filled_polygon" outline_ok bs) /\
  (v = "fp_poly" -> all_named "pts" points_ok bs) /\
  (In v ["fp_poly"; "fp_line"; "gr_line"; "fp_circle"; "gr_circle"] -> all_named "stroke" stroke_ok bs) /\
  (In v ["fp_arc"; "gr_arc"] -> exists s e a w l rest, bs = s :: e :: a :: w :: l :: rest /\ has 2 s /\ has 2 e /\ has 1 a /\ has 1 l).
(** the drawings of a node, of the footprints in it and of its set-up *)
Inductive well_drawn : ktree -> Prop :=
| wd_setup bs : (forall s, In s bs -> well_drawn s) -> well_drawn (KNode "setup" bs)
| wd_footprint n bs : all_named "layer" (has 1) bs -> (forall s, In s bs -> well_drawn s) ->
    well_drawn (KNode "footprint" (n :: bs))
| wd_node v bs : v <> "setup" -> v <> "footprint" -> drawing_ok v bs -> well_drawn (KNode v bs).

Definition last_some {A} (l : list (option A)) (d : A) : A := fold_left (fun a x => match x with Some y => y | None => a end) l d.

Section Board.
  Context (stoi : string -> option Z) (num : string -> option Q) (idx : string -> Z) (word : string -> option string).

  (** all settings of the stack-up entries of a name, in the order of the file *)
  Definition settings_of (f : kfile) (n : string) : list (string * string) :=
    List.concat (map snd (filter (fun e => String.eqb (fst e) n) (kf_stack f))).
  (** the value of a setting: the last readable one *)
  Definition setting {A} (f : kfile) (n key : string) (read : string -> option A) (d : A) : A :=
    last_some (map (fun kv => if String.eqb (fst kv) key then read (snd kv) else None) (settings_of f n)) d.
  (** the words for a layer type, and whether they stand for copper *)
  Definition known_type (s : string) : option bool :=
    if existsb (String.eqb s) ["Top Silk Screen"; "Bottom Silk Screen"; "Top Solder Paste"; "Bottom Solder Paste"; "Top Solder Mask"; "Bottom Solder Mask"; "copper"; "core"; "mixed"]
    then Some (String.eqb s "copper") else None.

  (** a physical layer of the board: declared with an id up to 32 *)
  Definition physical (l : string * string * string) : bool :=
    match stoi (fst (fst l)) with Some i => ((0 <=? i) && (i <=? 32))%Z | None => false end.
  (** its name, type, thickness and materials *)
  Definition expected (f : kfile) (l : string * string * string) : string * layer_type * Q * string * string :=
    let n := snd (fst l) in
    let m := setting f n "material" word "" in
    (n, if setting f n "type" known_type false then LConducting else LDielectric, setting f n "thickness" num 0%Q,
     if String.eqb m "" then "copper" else m, if String.eqb m "" then "silicon" else m).
End Board.

(** layers lying one below the other from elevation [z] down *)
Fixpoint stacked (z : Q) (us : list stackup) : Prop :=
  match us with [] => True | u :: us' => su_elev u == z /\ stacked (su_elev u - su_thick u)%Q us' end.
