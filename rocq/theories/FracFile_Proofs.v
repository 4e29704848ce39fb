(** Lemmas about the metal fraction mapping and its files. *)
From Coq Require Import Ascii.
From Verif Require Import Base QSum Names_Model Text_Spec Text_Proofs Vtk_Model Vtk_Proofs Profile_Proofs Fraction_Model FracFile_Model FracFile_Spec.
Close Scope Q_scope.
Open Scope string_scope.
Open Scope nat_scope.
Open Scope list_scope.

Lemma words_blanks n b : words (blanks n ++ b) = words b.
Proof. induction n as [|n IH]; [reflexivity|]. cbn [blanks append]. now rewrite words_blank. Qed.
Lemma words_pad w s : words (pad w s) = words s.
Proof. apply words_blanks. Qed.
Lemma words_apart a w s : String.length s < w -> words (a ++ pad w s) = words a ++ words s.
Proof.
  intros H. unfold pad. destruct (w - String.length s) as [|n] eqn:E; [lia|]. cbn [blanks append]. change (String " " (blanks n ++ s)) with (" " ++ (blanks n ++ s))%string.
  now rewrite words_sp, words_blanks.
Qed.
Lemma pad_full w s : w <= String.length s -> pad w s = s.
Proof. intros H. unfold pad. replace (w - String.length s) with 0 by lia. reflexivity. Qed.

Section Read.
  Context (show9 show6 : Q -> string) (scale : Q) (real : string -> option Q) (r9 r6 : Q -> Q).
  Context (W9 : forall q, word (show9 q)) (W6 : forall q, word (show6 q)) (R9 : forall q, real (show9 q) = Some (r9 q)) (R6 : forall q, real (show6 q) = Some (r6 q)).

  Lemma words_f12 q : words (f12 show9 scale q) = [show9 (q * scale)%Q].
  Proof. unfold f12. rewrite words_pad. apply words_word, W9. Qed.
  Lemma words_z12 z : words (z12 show9 scale z) = [show9 (inject_Z z * scale)%Q].
  Proof. apply words_f12. Qed.
  Definition w9 (z : Z) : string := show9 (inject_Z z * scale)%Q.
  Definition layer_words (l : linfo) : list string := ["LAYER"; n_name l; to_dec (if n_metal l then 1 else 0); show9 (n_elev l * scale)%Q; show9 (n_thick l * scale)%Q].
  Definition box_words (b : (Z * Z) * (Z * Z)) : list string := map w9 [fst (fst b); snd (fst b); fst (snd b); snd (snd b)].
  Definition line_words (maps : list grid) (t : nat * nat) : list string := to_dec (fst t) :: to_dec (snd t) :: map (fun g : grid => show6 (g (fst t) (snd t))) maps.
  Definition result_words (f : minfo) (maps : list grid) (rs : list string) : list string :=
    "LAYERS" :: to_dec (List.length (i_layers f)) :: flat_map layer_words (i_layers f) ++ "ORIGIN" :: box_words (i_origin f) ++ "EXTENSION" :: box_words (i_ext f) ++
    "TILE" :: to_dec (i_nx f) :: to_dec (i_ny f) :: rs ++ flat_map (line_words maps) (tiles (i_nx f) (i_ny f)).

  Lemma words_box key b rest : word key -> words (box_line show9 scale key b ++ rest) = key :: box_words b ++ words rest.
  Proof.
    intros K. unfold box_line. rewrite !append_assoc. rewrite (words_sp key), !(words_sp (z12 _ _ _)), words_eol, !words_z12, (words_word key K). reflexivity.
  Qed.
  Lemma words_layers ls rest : Forall (fun l => word (n_name l)) ls -> words (cat (map (layer_line show9 scale) ls) ++ rest) = flat_map layer_words ls ++ words rest.
  Proof.
    induction 1 as [|l ls Hl Hls IH]; [reflexivity|]. cbn [map cat flat_map]. unfold layer_line at 1. rewrite !append_assoc, (words_sp "LAYER"), (words_sp (n_name l)), (words_sp (to_dec _)), (words_sp (f12 _ _ _)), words_eol, IH, (words_word _ Hl), !words_f12, words_dec.
    reflexivity.
  Qed.
  Lemma words_result f maps rs : Forall (fun l => word (n_name l)) (i_layers f) ->
    words ("RESOLUTION" ++ z12 show9 scale (fst (i_stride f)) ++ " " ++ z12 show9 scale (snd (i_stride f))) = rs ->
    words (result_text show9 show6 scale f maps) = result_words f maps rs.
  Proof.
    intros HN HR. unfold result_text, result_words. rewrite (words_sp "LAYERS"), (words_eol (to_dec _)), words_eol0, words_layers by exact HN.
    rewrite words_eol0, !words_box by (split; [discriminate|reflexivity]). rewrite (words_sp "TILE"), (words_sp (to_dec _)), (words_eol (to_dec _)).
    rewrite <- (append_assoc " "), <- (append_assoc (z12 _ _ _)), <- (append_assoc "RESOLUTION"), words_eol, HR, words_eol0.
    rewrite (words_rows (value_line show6 maps) (line_words maps) (fun i j => (i, j))).
    - rewrite !words_dec. reflexivity.
    - intros i j. split; [|unfold value_line; rewrite <- !append_assoc; eexists; reflexivity].
      unfold value_line, line_words. cbn [fst snd]. rewrite words_sp, words_dec, <- append_assoc, words_end.
      rewrite (words_list_map (fun g : grid => show6 (g i j))) by auto. now rewrite words_dec.
  Qed.
  Lemma a_reals {A} (s : A -> string) (v : A -> Q) : (forall x, real (s x) = Some (v x)) -> forall l ws, times (List.length l) (a_real real) (map s l ++ ws) = Some (map v l, ws).
  Proof. intros H. induction l as [|x l IH]; intros ws; [reflexivity|]. cbn [List.length times map app a_real]. now rewrite H, IH. Qed.
  Lemma a_layers ls ws : times (List.length ls) (a_layer real) (flat_map layer_words ls ++ ws) =
    Some (map (fun l => mkRl (n_name l) (if n_metal l then 1 else 0) (r9 (n_elev l * scale)%Q) (r9 (n_thick l * scale)%Q)) ls, ws).
  Proof.
    apply times_app. intros l r. unfold layer_words, a_layer. cbn [app]. change (String.eqb "LAYER" "LAYER") with true. cbn [negb]. rewrite number_dec. cbn [a_real]. rewrite R9. cbn [a_real]. rewrite R9. reflexivity.
  Qed.
  Lemma a_box b ws : times 4 (a_real real) (box_words b ++ ws) = Some (map (fun z => r9 (inject_Z z * scale)%Q) [fst (fst b); snd (fst b); fst (snd b); snd (snd b)], ws).
  Proof. unfold box_words. exact (a_reals w9 (fun z => r9 (inject_Z z * scale)%Q) (fun z => R9 _) [fst (fst b); snd (fst b); fst (snd b); snd (snd b)] ws). Qed.
  Lemma a_lines maps nx ny : times (nx * ny) (a_values real (List.length maps)) (flat_map (line_words maps) (tiles nx ny)) =
    Some (map (fun t => mkRv (fst t) (snd t) (map (fun g : grid => r6 (g (fst t) (snd t))) maps)) (tiles nx ny), []).
  Proof.
    rewrite <- (tiles_length (fun i j => (i, j)) nx ny). fold (tiles nx ny). rewrite <- (app_nil_r (flat_map _ _)). apply times_app.
    intros [x y] ws. unfold line_words, a_values. cbn [fst snd app]. rewrite !number_dec, (a_reals (fun g : grid => show6 (g x y)) (fun g : grid => r6 (g x y))) by (intros; apply R6). reflexivity.
  Qed.

  (** A text that can be read, and one in which a number follows the keyword at once *)
  Lemma read_words_ok text f maps : words text = result_words f maps ["RESOLUTION"; w9 (fst (i_stride f)); w9 (snd (i_stride f))] -> List.length maps = List.length (i_layers f) ->
    read_result real text = Some (mkRf
      (map (fun l => mkRl (n_name l) (if n_metal l then 1 else 0) (r9 (n_elev l * scale)%Q) (r9 (n_thick l * scale)%Q)) (i_layers f))
      (map (fun z => r9 (inject_Z z * scale)%Q) [fst (fst (i_origin f)); snd (fst (i_origin f)); fst (snd (i_origin f)); snd (snd (i_origin f))])
      (map (fun z => r9 (inject_Z z * scale)%Q) [fst (fst (i_ext f)); snd (fst (i_ext f)); fst (snd (i_ext f)); snd (snd (i_ext f))])
      (i_nx f) (i_ny f) (map (fun z => r9 (inject_Z z * scale)%Q) [fst (i_stride f); snd (i_stride f)])
      (map (fun t => mkRv (fst t) (snd t) (map (fun g : grid => r6 (g (fst t) (snd t))) maps)) (tiles (i_nx f) (i_ny f)))).
  Proof.
    intros HW HL. unfold read_result. rewrite HW. unfold result_words. rewrite expect_cons, expect_nil, number_dec, a_layers, expect_cons, expect_nil, a_box, expect_cons, expect_nil, a_box, expect_cons, expect_nil, !number_dec.
    cbn [app]. rewrite expect_cons, expect_nil. change (w9 (fst (i_stride f)) :: w9 (snd (i_stride f)) :: ?r) with (map w9 [fst (i_stride f); snd (i_stride f)] ++ r).
    change 2 with (List.length [fst (i_stride f); snd (i_stride f)]). rewrite (a_reals w9 (fun z => r9 (inject_Z z * scale)%Q)) by (intros z; apply R9).
    rewrite <- HL, a_lines. reflexivity.
  Qed.
  Lemma read_words_bad text f maps w rs : words text = result_words f maps (w :: rs) -> w <> "RESOLUTION" -> read_result real text = None.
  Proof.
    intros HW N. unfold read_result. rewrite HW. unfold result_words. rewrite expect_cons, expect_nil, number_dec, a_layers, expect_cons, expect_nil, a_box, expect_cons, expect_nil, a_box, expect_cons, expect_nil, !number_dec.
    cbn [app expect]. destruct (String.eqb_spec "RESOLUTION" w); [congruence|reflexivity].
  Qed.
  Lemma words_resolution (a b : Z) : String.length (w9 a) < 12 -> words ("RESOLUTION" ++ z12 show9 scale a ++ " " ++ z12 show9 scale b) = ["RESOLUTION"; w9 a; w9 b].
  Proof.
    intros H. rewrite <- append_assoc, words_sp, words_z12. unfold z12, f12. rewrite words_apart by exact H. rewrite (words_word _ (W9 _)). reflexivity.
  Qed.
  Lemma words_glued (a b : Z) : 12 <= String.length (w9 a) -> words ("RESOLUTION" ++ z12 show9 scale a ++ " " ++ z12 show9 scale b) = [("RESOLUTION" ++ w9 a)%string; w9 b].
  Proof.
    intros H. rewrite <- append_assoc, words_sp, words_z12. unfold z12, f12. rewrite pad_full by exact H. fold (w9 a).
    rewrite words_word; [reflexivity|]. split; [discriminate|]. destruct (W9 (inject_Z a * scale)%Q) as [_ S]. exact S.
  Qed.
End Read.

(** ** Layers *)
Section Layers.
  Context {polygon : Type} (cover : axis -> axis -> polygon -> list (nat * nat * Q)).
  Lemma map_layers_infos s ax ay ps ls : Forall2 (fun y l => y_stack y = Some (n_elev l, n_thick l) /\ n_metal l = y_cond y /\ n_name l = y_name y)
    (filter (fun y => match y_stack y with Some _ => true | None => false end) ls) (fst (map_layers cover s ax ay ps ls)).
  Proof.
    induction ls as [|y ls IH]; [constructor|]. cbn [map_layers filter]. destruct (map_layers cover s ax ay ps ls) as [fs gs]. destruct (y_stack y) as [[e t]|] eqn:E; [|exact IH].
    constructor; [|exact IH]. cbn [n_elev n_thick n_metal n_name]. auto.
  Qed.
  Lemma map_layers_maps s ax ay ps ls : snd (map_layers cover s ax ay ps ls) =
    map (fun y => layer_fraction (cover ax ay) (s_nx s) (s_ny s) (y_id y) (s_nets s) ps) (filter (fun y => match y_stack y with Some _ => true | None => false end) ls).
  Proof.
    induction ls as [|y ls IH]; [reflexivity|]. cbn [map_layers filter]. destruct (map_layers cover s ax ay ps ls) as [fs gs]. destruct (y_stack y) as [[e t]|]; [|exact IH].
    cbn [snd map] in *. now rewrite IH.
  Qed.
  Lemma map_layers_length s ax ay ps ls : List.length (snd (map_layers cover s ax ay ps ls)) = List.length (fst (map_layers cover s ax ay ps ls)).
  Proof.
    induction ls as [|y ls IH]; [reflexivity|]. cbn [map_layers]. destruct (map_layers cover s ax ay ps ls) as [fs gs]. destruct (y_stack y) as [[e t]|]; [|exact IH].
    cbn [fst snd List.length] in *. now rewrite IH.
  Qed.
End Layers.

(** ** Files *)
Lemma append_cancel_l p a b : (p ++ a = p ++ b)%string -> a = b.
Proof. induction p as [|c p IH]; cbn; [auto|intros [= H]; auto]. Qed.
Lemma append_length a b : String.length (a ++ b) = String.length a + String.length b.
Proof. induction a as [|c a IH]; cbn; [reflexivity|now rewrite IH]. Qed.
Lemma append_cancel_r s a b : (a ++ s = b ++ s)%string -> a = b.
Proof.
  intros H. assert (L : String.length a = String.length b) by (apply (f_equal String.length) in H; rewrite !append_length in H; lia).
  revert b L H. induction a as [|c a IH]; intros [|d b] L H; cbn in L; try discriminate; [reflexivity|]. cbn in H. injection H as -> H. f_equal. apply IH; [lia|exact H].
Qed.
Lemma picture_name_inj p a b : picture_name p a = picture_name p b -> a = b.
Proof. unfold picture_name. intros H. apply append_cancel_l in H. cbn [append] in H. injection H as H. now apply append_cancel_r in H. Qed.
Lemma to_dec_inj a b : to_dec a = to_dec b -> a = b.
Proof. intros H. assert (E := number_dec a []). rewrite H, number_dec in E. congruence. Qed.

Lemma found_from {A} n (l : list (string * A)) : forall o, fold_left (fun o w => if String.eqb (fst w) n then Some (snd w) else o) l o =
  match found n l with Some x => Some x | None => o end.
Proof.
  unfold found. induction l as [|w l IH]; intros o; [reflexivity|]. cbn [fold_left]. rewrite IH, (IH (if String.eqb (fst w) n then _ else _)).
  destruct (fold_left _ l None); [reflexivity|]. destruct (String.eqb (fst w) n); reflexivity.
Qed.
Lemma found_app {A} n (l m : list (string * A)) : found n (l ++ m) = match found n m with Some x => Some x | None => found n l end.
Proof. unfold found at 1. rewrite fold_left_app, found_from. reflexivity. Qed.
Lemma found_cons {A} n (w : string * A) l : found n (w :: l) = match found n l with Some x => Some x | None => if String.eqb (fst w) n then Some (snd w) else None end.
Proof. apply (found_app n [w] l). Qed.
Lemma found_none {A} n (l : list (string * A)) : ~ In n (map fst l) -> found n l = None.
Proof.
  induction l as [|w l IH]; intros H; [reflexivity|]. rewrite found_cons, IH by (intros I; apply H; now right). destruct (String.eqb_spec (fst w) n); [|reflexivity].
  exfalso. apply H. now left.
Qed.
Lemma found_nth {A} (l : list (string * A)) : NoDup (map fst l) -> forall k n x, nth_error l k = Some (n, x) -> found n l = Some x.
Proof.
  induction l as [|w l IH]; intros ND [|k] n x E; cbn in E; try discriminate; cbn [map] in ND; inversion ND as [|? ? N ND']; subst.
  - injection E as ->. rewrite found_cons, found_none by exact N. cbn [fst snd]. now rewrite String.eqb_refl.
  - rewrite found_cons, (IH ND' k n x E). reflexivity.
Qed.
Lemma nth_combine {A B} (l : list A) (m : list B) k a b : nth_error l k = Some a -> nth_error m k = Some b -> nth_error (combine l m) k = Some (a, b).
Proof. revert m k. induction l as [|x l IH]; intros [|y m] [|k] H H'; cbn in *; try discriminate; [congruence|auto]. Qed.
Lemma map_fst_combine {A B C} (f : A -> C) (l : list A) (m : list B) : List.length l = List.length m -> map (fun p => f (fst p)) (combine l m) = map f l.
Proof. revert m. induction l as [|x l IH]; intros [|y m] H; cbn in *; try discriminate; [reflexivity|]. now rewrite IH by lia. Qed.
Lemma nodup_map {A B} (f : A -> B) l : (forall a b, f a = f b -> a = b) -> NoDup l -> NoDup (map f l).
Proof.
  intros I. induction 1 as [|a l N ND IH]; cbn [map]; constructor; [|exact IH]. intros H. apply in_map_iff in H as (b & E & H). apply I in E. congruence.
Qed.
