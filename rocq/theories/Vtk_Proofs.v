(** Lemmas about mesh files. *)
From Coq Require Import QArith Ascii.
From Verif Require Import Base Names_Model Prism_Model Prism_Spec Prism_Proofs Text_Spec Text_Proofs Vtk_Model Vtk_Spec.
Close Scope Q_scope.
Open Scope string_scope.
Open Scope nat_scope.
Open Scope list_scope.
Open Scope res_scope.

Lemma words_sp a b : words (a ++ " " ++ b) = words a ++ words b.
Proof. cbn [append]. apply words_sep. reflexivity. Qed.
Lemma words_eol a b : words (a ++ eol ++ b) = words a ++ words b.
Proof. cbn [append eol]. apply words_sep. reflexivity. Qed.
Lemma words_eol0 b : words (eol ++ b) = words b.
Proof. cbn [append eol]. apply words_blank. reflexivity. Qed.
Lemma words_end a : words (a ++ eol) = words a.
Proof. replace eol with (eol ++ "")%string by reflexivity. rewrite words_eol. cbn [words]. apply app_nil_r. Qed.
Lemma words_lines {A} (f g : A -> string) l b : (forall a, f a = (g a ++ eol)%string) ->
  words (cat (map f l) ++ b) = flat_map (fun a => words (g a)) l ++ words b.
Proof.
  intros H. induction l as [|a l IH]; [reflexivity|]. cbn [map cat flat_map]. rewrite H, !append_assoc, words_eol, IH. apply app_assoc.
Qed.

Section Read.
  Context (show : Q -> string) (color : nat -> Z * Z * Z) (real : string -> option Q) (rnd : Q -> Q).
  Context (show_word : forall q, word (show q)) (real_show : forall q, real (show q) = Some (rnd q)).

  Lemma words_dec n : words (to_dec n) = [to_dec n].
  Proof. apply words_word, dec_word. Qed.
  Lemma words_show q : words (show q) = [show q].
  Proof. apply words_word, show_word. Qed.
  Lemma words_prism vs : words ("6" ++ cat (map (fun v => " " ++ to_dec v)%string vs)) = "6" :: map to_dec vs.
  Proof.
    assert (G : forall vs, words (String "6" (cat (map (fun v => " " ++ to_dec v)%string vs))) = "6" :: map to_dec vs /\
                forall n, words (to_dec n ++ cat (map (fun v => " " ++ to_dec v)%string vs)) = to_dec n :: map to_dec vs).
    { clear. induction vs as [|v vs [_ IH]]; [split; [reflexivity|intros n; cbn [map cat]; rewrite append_empty; apply words_dec]|]. cbn [map cat].
      split; [|intros n]; rewrite append_assoc.
      - change (String "6" (" " ++ to_dec v ++ cat (map (fun v0 => " " ++ to_dec v0) vs)))%string
          with ("6" ++ " " ++ (to_dec v ++ cat (map (fun v0 => " " ++ to_dec v0) vs)))%string. rewrite words_sp, IH. reflexivity.
      - rewrite words_sp, IH, words_dec. reflexivity. }
    apply G.
  Qed.

  Lemma read_real_show q ws : read_real real (show q :: ws) = Some (rnd q, ws).
  Proof. unfold read_real. now rewrite real_show. Qed.
  Definition point_of (p : pt3) : Q * Q * Q := (rnd (px p), rnd (py p), rnd (pz p)).
  Lemma read_points ps ws :
    times (List.length ps) (read_point real) (flat_map (fun p => [show (px p); show (py p); show (pz p)]) ps ++ ws) = Some (map point_of ps, ws).
  Proof.
    apply times_app. intros p r. unfold read_point. cbn [app times]. now rewrite !read_real_show.
  Qed.
  Lemma read_numbers ns ws : times (List.length ns) number (map to_dec ns ++ ws) = Some (ns, ws).
  Proof.
    rewrite <- (map_id ns) at 3. replace (map to_dec ns) with (flat_map (fun n => [to_dec n]) ns) by (induction ns; cbn; congruence).
    apply (times_app number (fun n => [to_dec n]) (fun n => n)). intros n r. cbn [app]. apply number_dec.
  Qed.
  Definition cell_words (vs : list nat) : list string := to_dec (List.length vs) :: map to_dec vs.
  Lemma read_cells cs ws : times (List.length cs) read_cell (flat_map cell_words cs ++ ws) = Some (cs, ws).
  Proof.
    rewrite <- (map_id cs) at 3. apply (times_app read_cell cell_words (fun c => c)). intros c r. unfold read_cell, cell_words. cbn [app]. rewrite number_dec. apply read_numbers.
  Qed.
  Lemma read_reals qs ws : times (List.length qs) (read_real real) (map show qs ++ ws) = Some (map rnd qs, ws).
  Proof.
    replace (map show qs) with (flat_map (fun q => [show q]) qs) by (induction qs; cbn; congruence).
    apply (times_app (read_real real) (fun q => [show q]) rnd). intros n r. cbn [app]. apply read_real_show.
  Qed.
  Lemma read_types n ty ws : times n number (repeat (to_dec ty) n ++ ws) = Some (repeat ty n, ws).
  Proof.
    induction n as [|n IH]; [reflexivity|]. cbn [repeat app times]. now rewrite number_dec, IH.
  Qed.
  Lemma times_split {A} (f : reader A) n k ws a r b r' : times n f ws = Some (a, r) -> times k f r = Some (b, r') -> times (n + k) f ws = Some (a ++ b, r').
  Proof.
    revert ws a. induction n as [|n IH]; cbn [times Nat.add]; intros ws a H K; [injection H as <- <-; exact K|].
    destruct (f ws) as [[x r0]|]; [|discriminate]. destruct (times n f r0) as [[l r1]|] eqn:E; [|discriminate]. injection H as <- <-.
    now rewrite (IH _ _ E K).
  Qed.

  Definition color_words (i : nat) : list string :=
    let '(r, g, b) := color i in [show (inject_Z r / 255); show (inject_Z g / 255); show (inject_Z b / 255); show 1].
  Lemma words_colors l : words (cat (map (color_line show color) l)) = flat_map color_words l.
  Proof.
    rewrite <- (append_empty (cat _)). rewrite (words_lines _ (fun i => let '(r, g, b) := color i in
      show (inject_Z r / 255) ++ " " ++ show (inject_Z g / 255) ++ " " ++ show (inject_Z b / 255) ++ " " ++ show 1)%string).
    - cbn [words]. rewrite app_nil_r. induction l as [|i l IH]; [reflexivity|]. cbn [flat_map]. rewrite IH. f_equal. unfold color_words.
      destruct (color i) as [[r g] b]. now rewrite !words_sp, !words_show.
    - intros i. unfold color_line. destruct (color i) as [[r g] b]. now rewrite !append_assoc.
  Qed.
  Lemma read_colors l : exists c, times (List.length l) (times 4 (read_real real)) (flat_map color_words l) = Some (c, []).
  Proof.
    set (val := fun i => let '(r, g, b) := color i in [rnd (inject_Z r / 255); rnd (inject_Z g / 255); rnd (inject_Z b / 255); rnd 1]).
    exists (map val l). rewrite <- (app_nil_r (flat_map color_words l)). apply times_app. intros i ws. unfold color_words, val. destruct (color i) as [[r g] b].
    cbn [app times]. now rewrite !read_real_show.
  Qed.

  Lemma mapM_seq {A} (l r : list A) : mapM (vat (l ++ r)) (seq 0 (List.length l)) = Ok l.
  Proof.
    assert (G : forall l p r : list A, mapM (vat (p ++ l ++ r)) (seq (List.length p) (List.length l)) = Ok l).
    { clear. induction l as [|a l IH]; intros p r; [reflexivity|]. cbn [List.length seq mapM]. unfold vat at 1.
      rewrite nth_error_app2, Nat.sub_diag by lia. cbn [app nth_error bind]. replace (p ++ a :: l ++ r) with ((p ++ [a]) ++ l ++ r) by (now rewrite <- app_assoc).
      replace (Datatypes.S (List.length p)) with (List.length (p ++ [a])) by (rewrite app_length; cbn; lia). now rewrite IH. }
    apply (G l []).
  Qed.

  (** What is written is what is read. *)
  Lemma read_back m temps rest prisms : total (m_offs m) = Ok (List.length prisms) -> m_prisms m = prisms ++ rest ->
    Forall (fun i => List.length (i_vs i) = 6) prisms ->
    exists text, vtk_text show color m temps = Ok text /\
      read_mesh real text = Some (mkMesh (map point_of (m_points m))
        (map (fun i => (13, i_vs i)) prisms ++ map (fun l => (3, [fst (l_ends l); snd (l_ends l)])) (m_lines m))
        (match temps with
         | Some ts => if List.length ts =? List.length prisms + List.length (m_lines m) then Some (map rnd ts) else None
         | None => None
         end)).
  Proof.
    intros HT HP H6. unfold vtk_text. rewrite HT. cbn [bind]. rewrite HP, mapM_seq. cbn [bind].
    remember (List.length (m_lines m)) as nl eqn:NL. remember (List.length prisms) as np eqn:NP.
    eexists. split; [reflexivity|]. unfold read_mesh.
    set (tail := match temps with
                 | Some ts => if List.length ts =? nl + np then data_text show color (nl + np) ts else ""
                 | None => ""
                 end).
    match goal with |- context [next_line (next_line ?t)] => replace (words (next_line (next_line t))) with
      (["ASCII"; "DATASET"; "UNSTRUCTURED_GRID"; "POINTS"] ++ to_dec (List.length (m_points m)) :: ["FLOAT"] ++
       flat_map (fun p => [show (px p); show (py p); show (pz p)]) (m_points m) ++ ["CELLS"] ++ to_dec (nl + np) :: to_dec (np * 7 + nl * 3) ::
       (flat_map cell_words (map i_vs prisms ++ map (fun l => [fst (l_ends l); snd (l_ends l)]) (m_lines m))) ++
       ["CELL_TYPES"] ++ to_dec (nl + np) :: repeat (to_dec 13) np ++ repeat (to_dec 3) nl ++ words tail) end.
    2:{ match goal with |- _ = words (next_line (next_line (?a ++ ?e ++ ?b ++ ?e ++ ?x)%string)) => change (next_line (next_line (a ++ e ++ b ++ e ++ x)%string)) with x end.
        rewrite (words_eol "ASCII"), (words_eol "DATASET UNSTRUCTURED_GRID"), (words_sp "POINTS"), (words_sp (to_dec _)), (words_eol "FLOAT"), words_dec.
        rewrite (words_lines (point_line show) (fun p => show (px p) ++ " " ++ show (py p) ++ " " ++ show (pz p))%string) by (intros p; unfold point_line; now rewrite !append_assoc).
        rewrite words_eol0, (words_sp "CELLS"), (words_sp (to_dec _)), (words_eol (to_dec _)), !words_dec.
        rewrite (words_lines prism_line (fun i => "6" ++ cat (map (fun v => " " ++ to_dec v) (i_vs i)))%string) by (intros p; unfold prism_line; now rewrite !append_assoc).
        rewrite (words_lines line_line (fun l => "2" ++ " " ++ to_dec (fst (l_ends l)) ++ " " ++ to_dec (snd (l_ends l)))%string) by (intros p; unfold line_line; now rewrite !append_assoc).
        rewrite words_eol0, (words_sp "CELL_TYPES"), (words_eol (to_dec _)), !words_dec.
        assert (R : forall w n b, word w -> words (cat (repeat (w ++ eol) n) ++ b)%string = repeat w n ++ words b).
        { intros w n b W. induction n as [|n IH]; [reflexivity|]. cbn [repeat cat]. rewrite !append_assoc, words_eol, IH, (words_word w W). reflexivity. }
        rewrite !R by (split; [discriminate|reflexivity]).
        change (words "ASCII") with ["ASCII"]. change (words "DATASET UNSTRUCTURED_GRID") with ["DATASET"; "UNSTRUCTURED_GRID"]. change (words "POINTS") with ["POINTS"]. change (words "FLOAT") with ["FLOAT"]. change (words "CELLS") with ["CELLS"]. change (words "CELL_TYPES") with ["CELL_TYPES"]. cbn [app]. do 6 f_equal.
        f_equal; [apply flat_map_ext; intros p; now rewrite !words_sp, !words_show|]. do 3 f_equal. rewrite flat_map_app, <- app_assoc.
        f_equal; [|f_equal].
        - clear - H6. induction H6 as [|i l E _ IH]; [reflexivity|]. cbn [map flat_map]. rewrite IH, words_prism. f_equal. unfold cell_words. now rewrite E.
        - clear. induction (m_lines m) as [|l ls IH]; [reflexivity|]. cbn [map flat_map]. rewrite IH, !words_sp, !words_dec. reflexivity. }
    rewrite expect_app, number_dec, expect_app, read_points, expect_app, !number_dec.
    set (cells := map i_vs prisms ++ map (fun l => [fst (l_ends l); snd (l_ends l)]) (m_lines m)).
    assert (LC : nl + np = List.length cells) by (unfold cells; rewrite app_length, !map_length; lia).
    rewrite LC at 1. rewrite read_cells.
    assert (SZ : np * 7 + nl * 3 = list_sum (map (fun c => 1 + List.length c) cells)).
    { unfold cells. rewrite map_app, list_sum_app, !map_map. rewrite NL, NP. clear - H6. assert (LS : forall a l, list_sum (a :: l) = a + list_sum l) by reflexivity. f_equal.
      - induction H6 as [|i l E _ IH]; [reflexivity|]. cbn [map List.length]. rewrite LS, <- IH, E. lia.
      - induction (m_lines m) as [|l ls IH]; [reflexivity|]. cbn [map List.length] in *. rewrite LS, <- IH. lia. }
    rewrite SZ, Nat.eqb_refl. cbn [negb]. rewrite expect_app, number_dec, Nat.eqb_refl. cbn [negb].
    rewrite (Nat.add_comm nl np) at 1. rewrite (times_split number np nl _ _ _ _ _ (read_types np 13 _) (read_types nl 3 _)).
    assert (D : read_data real (nl + np) (words tail) = Some (match temps with
         | Some ts => if List.length ts =? np + nl then Some (map rnd ts) else None
         | None => None
         end)).
    { unfold tail. destruct temps as [ts|]; [|reflexivity]. rewrite (Nat.add_comm np nl). destruct (Nat.eqb_spec (List.length ts) (nl + np)) as [E|]; [|reflexivity].
      unfold data_text. rewrite words_sp, (words_eol (to_dec _)), (words_eol "SCALARS SCALARS FLOAT 1 "), (words_eol "LOOKUP_TABLE TEMPERATURE"), words_dec.
      rewrite (words_lines (fun t => show t ++ eol)%string show) by reflexivity. rewrite words_eol0, (words_eol "LOOKUP_TABLE TEMPERATURE 100"), words_colors.
      change (words "CELL_DATA") with ["CELL_DATA"]. change (words "SCALARS SCALARS FLOAT 1 ") with ["SCALARS"; "SCALARS"; "FLOAT"; "1"].
      change (words "LOOKUP_TABLE TEMPERATURE") with ["LOOKUP_TABLE"; "TEMPERATURE"]. change (words "LOOKUP_TABLE TEMPERATURE 100") with (["LOOKUP_TABLE"; "TEMPERATURE"] ++ [to_dec 100]).
      cbn [app]. unfold read_data. rewrite !expect_cons, expect_nil, number_dec, Nat.eqb_refl. cbn [negb].
      rewrite !expect_cons, expect_nil.
      rewrite <- E. replace (flat_map (fun a => words (show a)) ts) with (map show ts) by (clear -show_word; induction ts as [|t ts IH]; [reflexivity|]; cbn [map flat_map]; rewrite IH, words_show; reflexivity).
      rewrite read_reals.
      rewrite !expect_cons, expect_nil.
      rewrite number_dec. destruct (read_colors (seq 0 100)) as [c C]. rewrite seq_length in C. rewrite C. reflexivity. }
    rewrite D. do 2 f_equal. unfold cells. rewrite NL, NP. clear.
    transitivity (combine (repeat 13 (List.length prisms)) (map i_vs prisms) ++ combine (repeat 3 (List.length (m_lines m))) (map (fun l => [fst (l_ends l); snd (l_ends l)]) (m_lines m))).
    - induction prisms as [|i l IH]; [reflexivity|]. cbn [List.length repeat map combine app]. now rewrite IH.
    - f_equal; [induction prisms as [|i l IH]|induction (m_lines m) as [|i l IH]]; cbn [List.length repeat map combine app]; congruence.
  Qed.
End Read.
