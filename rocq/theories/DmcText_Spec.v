(** What the text of a DMC and a DOM file says: lines of words, decimal numbers, figures. *)
From Coq Require Import Ascii.
From Verif Require Import Base QSum Units_Spec Dmc_Model Dmc_Spec XflText_Spec DmcText_Model.
Local Open Scope list_scope.
Local Open Scope string_scope.
Local Open Scope Z_scope.

(** ** Files and lines *)
Definition one_line (l : string) : Prop := l <> "" /\ chars (fun c => c <> "010"%char) l.
(** [text_of ls s]: the lines of [s], each ended by a line feed except perhaps the last, are [ls] and empty ones *)
Inductive text_of : list string -> string -> Prop :=
| text_end : text_of [] ""
| text_last l : one_line l -> text_of [l] l
| text_line l ls s : one_line l -> text_of ls s -> text_of (l :: ls) (l ++ String "010" s)
| text_empty ls s : text_of ls s -> text_of ls (String "010" s).
(** [line_of ws l]: the words [ws] with blanks, tabs or carriage returns between, before and after *)
Definition blanks (s : string) : Prop := chars (fun c => white c /\ c <> "010"%char) s.
Definition word (w : string) : Prop := w <> "" /\ chars (fun c => ~ white c) w.
Inductive line_of : list string -> string -> Prop :=
| line_done b : blanks b -> line_of [] b
| line_word b w ws r : blanks b -> word w -> (r = "" \/ exists c r', r = String c r' /\ white c) -> line_of ws r -> line_of (w :: ws) (b ++ w ++ r).

(** ** Numbers *)
Definition with_sign (s : string) (z : Z) : Z := if String.eqb s "-" then - z else z.
Definition exponent_of (z : Z) (e : string) : Prop :=
  e = "" /\ z = 0 \/
  exists c s d, e = String c (s ++ d) /\ (c = "e"%char \/ c = "E"%char) /\ plus_minus s /\ figures d /\ z = with_sign s (decimal d).
(** sign, figures with a point, exponent *)
Definition number_of (q : Q) (w : string) : Prop :=
  exists s a p b e z, w = s ++ a ++ p ++ b ++ e /\ plus_minus s /\ chars is_digit a /\ chars is_digit b /\
    (p = "." \/ p = "" /\ b = "") /\ a ++ b <> "" /\ exponent_of z e /\
    (q == inject_Z (with_sign s (decimal (a ++ b))) * inject_Z 10 ^ (- Z.of_nat (String.length b)) * inject_Z 10 ^ z)%Q.
(** [c] is the number in thousandths, or the next whole number towards zero; not exact otherwise *)
Definition near (q : Q) (c : Z) : Prop :=
  (- (3 # 2) < inject_Z c - 1000 * q /\ inject_Z c - 1000 * q < 3 # 2)%Q /\
  forall n, (1000 * q == inject_Z n)%Q -> same_or_one_less n c.
Definition near_point (p : Q * Q) (c : Z * Z) : Prop := near (fst p) (fst c) /\ near (snd p) (snd c).
(** lengths below a thousand kilometres *)
Definition moderate (q : Q) : Prop := (- inject_Z (2 ^ 50) <= 1000 * q /\ 1000 * q <= inject_Z (2 ^ 50))%Q.
Definition moderate_point (p : Q * Q) : Prop := moderate (fst p) /\ moderate (snd p).

(** ** Records *)
(** boxes: lower left corner, upper right corner *)
Definition corners (N : Type) : Type := (N * N) * (N * N).
Definition near_box (q : corners Q) (b : corners Z) : Prop := near_point (fst q) (fst b) /\ near_point (snd q) (snd b).
Definition moderate_box (q : corners Q) : Prop := moderate_point (fst q) /\ moderate_point (snd q).
Inductive signal_words (cut : string -> list string) (r : record) : string -> Prop :=
| sw_layer w : r_via r = false -> r_sig2 r = 0 -> whole (r_sig1 r) w -> (exists c w', w = String c w' /\ c <> "V"%char) -> signal_words cut r w
| sw_through : r_via r = true -> r_sig1 r = -1 -> r_sig2 r = -1 -> signal_words cut r "V"
| sw_between a b : r_via r = true -> whole (r_sig1 r) a -> whole (r_sig2 r) b -> figures a -> figures b -> signal_words cut r ("V" ++ a ++ "-" ++ b).
Definition record_words (cut : string -> list string) (r : record) (b : corners Q) (ws : list string) : Prop :=
  exists n dark d layer x1 x2 y1 y2 net sig,
    ws = ([n; dark; layer; x1; x2; y1; y2; net; r_netname r; sig] ++ (if String.eqb (r_lyrname r) "" then [] else [r_lyrname r]))%list /\
    figures n /\ decimal n = Z.of_nat (r_points r) /\ decimal n < 2 ^ 64 /\
    whole d dark /\ (r_hole r = true <-> d = 0) /\ whole (r_layer r) layer /\
    number_of (fst (fst b)) x1 /\ number_of (fst (snd b)) x2 /\ number_of (snd (fst b)) y1 /\ number_of (snd (snd b)) y2 /\
    whole (r_net r) net /\ signal_words cut r sig.
Definition point_words (p : Q * Q) (ws : list string) : Prop :=
  exists x y more, ws = x :: y :: more /\ number_of (fst p) x /\ number_of (snd p) y.

(** ** What arrives *)
Definition arrives {A B} (same : A -> B -> Prop) (f : figure A) (g : figure B) : Prop :=
  f_head g = f_head f /\ Forall2 same (f_outline f) (f_outline g) /\
  Forall2 (fun h k => fst k = fst h /\ Forall2 same (snd h) (snd k)) (f_holes f) (f_holes g).
(** the smallest box around all [bs] *)
Definition hull (bs : list (corners Z)) (b : corners Z) : Prop :=
  Forall (fun x => fst (fst b) <= fst (fst x) /\ snd (fst b) <= snd (fst x) /\ fst (snd x) <= fst (snd b) /\ snd (snd x) <= snd (snd b)) bs /\
  Exists (fun x => fst (fst b) = fst (fst x)) bs /\ Exists (fun x => snd (fst b) = snd (fst x)) bs /\
  Exists (fun x => fst (snd b) = fst (snd x)) bs /\ Exists (fun x => snd (snd b) = snd (snd x)) bs.
(** [str::Split] by "-" of two numbers *)
Definition cuts (cut : string -> list string) : Prop := forall a b, figures a -> figures b -> cut (a ++ "-" ++ b) = [a; b].

(** ** Export *)
Definition int32 (z : Z) : Prop := -2147483648 <= z <= 2147483647.
Definition small_point (p : Z * Z) : Prop := Z.abs (fst p) <= 2 ^ 40 /\ Z.abs (snd p) <= 2 ^ 40.
(** a polygon of a layer and a net: numbers, names, outline, holes *)
Record piece := { e_layer : Z; e_lname : string; e_net : Z; e_nname : string; e_solid : list (Z * Z); e_holes : list (list (Z * Z)) }.
Definition sound_piece (x : piece) : Prop :=
  int32 (e_layer x) /\ int32 (e_net x) /\ word (e_lname x) /\ word (e_nname x) /\
  Forall (fun p => Forall small_point p /\ Z.of_nat (List.length p) < 2 ^ 64) (e_solid x :: e_holes x).
(** the polygons whose layer and net exist *)
Definition kept (net_of layer_of : Z -> option string) (mergers : list (Z * list merged)) : list piece :=
  flat_map (fun m => flat_map (fun g => match layer_of (fst m), net_of (g_net g) with
    | Some l, Some n => [{| e_layer := fst m; e_lname := l; e_net := g_net g; e_nname := n; e_solid := g_solid g; e_holes := g_holes g |}]
    | _, _ => [] end) (snd m)) mergers.
Definition off_by_one (p q : Z * Z) : Prop := same_or_one_less (fst p) (fst q) /\ same_or_one_less (snd p) (snd q).
