(** Lemmas about density profiles. *)
From Coq Require Import QArith Ascii.
From Verif Require Import Base Names_Model Text_Spec Text_Proofs Vtk_Model Vtk_Proofs Profile_Model Profile_Spec.
Close Scope Q_scope.
Open Scope string_scope.
Open Scope nat_scope.
Open Scope list_scope.

Lemma words_list ws : forall a, Forall word ws -> words (a ++ cat (map (fun n => " " ++ n)%string ws)) = words a ++ ws.
Proof.
  induction ws as [|w ws IH]; intros a F; [cbn [map cat]; rewrite append_empty, app_nil_r; reflexivity|]. inversion F as [|? ? Hw Hws]; subst.
  cbn [map cat]. rewrite append_assoc, words_sp, (IH w Hws), (words_word w Hw). reflexivity.
Qed.
Lemma words_list_map {A} (f : A -> string) l a : (forall x, word (f x)) -> words (a ++ cat (map (fun x => " " ++ f x)%string l)) = words a ++ map f l.
Proof.
  intros H. rewrite <- (words_list (map f l)); [|apply Forall_forall; intros w Hw; apply in_map_iff in Hw as (x & <- & _); apply H]. now rewrite map_map.
Qed.
Lemma word_names i l : Forall (fun n => solid n = true) l -> Forall word (names_from i l).
Proof.
  revert i. induction l as [|n l IH]; intros i F; inversion F; subst; cbn [names_from]; constructor; [|now apply IH].
  destruct (String.eqb_spec n "") as [->|N]; [|now split]. split; [discriminate|]. cbn [append solid]. destruct (dec_word i) as [_ W]. rewrite W. reflexivity.
Qed.
Lemma names_length i l : List.length (names_from i l) = List.length l.
Proof. revert i. induction l as [|n l IH]; intros i; cbn; [reflexivity|now rewrite IH]. Qed.
Lemma one_words l r : times (List.length l) one_word (l ++ r) = Some (l, r).
Proof. induction l as [|w l IH]; cbn [List.length times app]; [reflexivity|]. cbn [one_word]. now rewrite IH. Qed.
Lemma same_refl l : same_names l l = true.
Proof. unfold same_names. destruct (list_eq_dec string_dec l l); congruence. Qed.

Lemma nth_tiles {A} (f : nat -> nat -> A) nx ny x y : x < nx -> y < ny ->
  nth_error (flat_map (fun i => map (f i) (seq 0 ny)) (seq 0 nx)) (x * ny + y) = Some (f x y).
Proof.
  intros Hx Hy. assert (G : forall n a, x < n -> nth_error (flat_map (fun i => map (f i) (seq 0 ny)) (seq a n)) (x * ny + y) = Some (f (a + x) y)).
  { clear nx Hx. induction x as [|x IH]; intros [|n] a H; try lia; cbn [seq flat_map].
    - rewrite nth_error_app1 by (rewrite map_length, seq_length; lia). cbn [Nat.mul Nat.add].
      rewrite (map_nth_error _ _ _ (nth_error_nth' (seq 0 ny) 0 (eq_ind_r (fun n => y < n) Hy (seq_length ny 0)))). rewrite seq_nth by lia. now rewrite Nat.add_0_r.
    - rewrite nth_error_app2 by (rewrite map_length, seq_length; nia). rewrite map_length, seq_length.
      replace (S x * ny + y - ny) with (x * ny + y) by nia. rewrite IH by lia. do 2 f_equal. lia. }
  now rewrite (G nx 0 Hx).
Qed.
Lemma tiles_length {A} (f : nat -> nat -> A) nx ny : List.length (flat_map (fun i => map (f i) (seq 0 ny)) (seq 0 nx)) = nx * ny.
Proof.
  generalize 0 at 2. induction nx as [|n IH]; intros a; [reflexivity|]. cbn [seq flat_map]. rewrite app_length, map_length, seq_length, IH. lia.
Qed.

Section Read.
  Context (real : string -> option Q) (sd sb sv : Q -> string) (rd rb rv : Q -> Q).
  Context (Wd : forall q, word (sd q)) (Wb : forall q, word (sb q)) (Wv : forall q, word (sv q)).
  Context (Rd : forall q, real (sd q) = Some (rd q)) (Rb : forall q, real (sb q) = Some (rb q)) (Rv : forall q, real (sv q) = Some (rv q)).

  Lemma reals_list (s : Q -> string) (r : Q -> Q) : (forall q, real (s q) = Some (r q)) -> forall l ws, times (List.length l) (one_real real) (map s l ++ ws) = Some (map r l, ws).
  Proof. intros H. induction l as [|q l IH]; intros ws; [reflexivity|]. cbn [List.length times map app one_real]. now rewrite H, IH. Qed.

  (** The words of a profile *)
  Definition row_words (xs ys : nat -> Q) (ny : nat) (mf : list density) (t : nat * nat) : list string :=
    to_dec (fst t * ny + snd t + 1) :: map sb [xs (fst t); ys (snd t); xs (S (fst t)); ys (S (snd t))] ++ map (fun d : density => sv (d (fst t) (snd t))) mf.
  Definition tiles (nx ny : nat) : list (nat * nat) := flat_map (fun i => map (fun j => (i, j)) (seq 0 ny)) (seq 0 nx).
  Definition scale_words (s : option Q) : list string := match s with Some q => ["#"; "SCALE_FACTOR"; sd q] | None => [] end.
  Definition profile_words (xs ys : nat -> Q) (nx ny : nat) (scale : option Q) (names : list string) (mf : list density) : list string :=
    ["#"; "Version"; "3.0"; "#"; "DIE"] ++ map sd [xs 0; ys 0; xs nx; ys ny] ++ ["#"; "TILE"] ++ to_dec nx :: to_dec ny :: scale_words scale ++
    ["#"; "LAYER"] ++ to_dec (List.length names) :: names ++ ["#"; "TileID"; "X1(um)"; "Y1(um)"; "X2(um)"; "Y2(um)"] ++ names ++
    flat_map (row_words xs ys ny mf) (tiles nx ny).

  Lemma read_words text xs ys nx ny scale names mf : words text = profile_words xs ys nx ny scale names mf -> List.length names = List.length mf ->
    exists p, read_profile real text = Some p /\ profile_of rd rb rv xs ys nx ny (option_map rd scale) names mf p.
  Proof.
    intros HW HL. unfold read_profile. rewrite HW. unfold profile_words.
    rewrite expect_app. change 4 with (List.length [xs 0; ys 0; xs nx; ys ny]) at 1. rewrite (reals_list sd rd Rd), expect_app, !number_dec.
    assert (SC : forall ws, read_scale real (scale_words scale ++ ["#"; "LAYER"] ++ ws) = Some (option_map rd scale, ["#"; "LAYER"] ++ ws)).
    { intros ws. unfold read_scale, scale_words. destruct scale as [q|]; [|reflexivity]. cbn [app]. rewrite !expect_cons, expect_nil. cbn [one_real]. rewrite Rd. reflexivity. }
    rewrite SC, expect_app, number_dec, one_words, expect_app, one_words, same_refl. cbn [negb].
    set (val := fun t : nat * nat => mkRow (fst t * ny + snd t + 1) (map rb [xs (fst t); ys (snd t); xs (S (fst t)); ys (S (snd t))]) (map (fun d : density => rv (d (fst t) (snd t))) mf)).
    assert (RT : times (nx * ny) (read_row real (List.length names)) (flat_map (row_words xs ys ny mf) (tiles nx ny)) = Some (map val (tiles nx ny), [])).
    { rewrite <- (tiles_length (fun i j => (i, j)) nx ny). fold (tiles nx ny). rewrite <- (app_nil_r (flat_map _ _)). apply times_app.
      intros [x y] ws. unfold row_words, read_row, val. cbn [fst snd]. rewrite <- app_comm_cons, number_dec, <- app_assoc.
      change 4 with (List.length [xs x; ys y; xs (S x); ys (S y)]). rewrite (reals_list sb rb Rb), HL.
      replace (map (fun d : density => sv (d x y)) mf) with (map sv (map (fun d : density => d x y) mf)) by apply map_map.
      replace (List.length mf) with (List.length (map (fun d : density => d x y) mf)) by apply map_length. rewrite (reals_list sv rv Rv), map_map. reflexivity. }
    rewrite RT. eexists. split; [reflexivity|]. unfold profile_of. cbn [p_die p_nx p_ny p_scale p_names p_rows].
    do 5 (split; [reflexivity|]). split; [rewrite map_length; apply tiles_length|].
    intros x y Hx Hy. exists (val (x, y)). split; [|repeat split]. apply map_nth_error. unfold tiles. exact (nth_tiles (fun i j => (i, j)) nx ny x y Hx Hy).
  Qed.
End Read.

Lemma words_rows {A} (f : nat -> nat -> string) (g : A -> list string) (t : nat -> nat -> A) nx ny : (forall i j, words (f i j) = g (t i j) /\ exists a, f i j = (a ++ eol)%string) ->
  words (cat (flat_map (fun i => map (f i) (seq 0 ny)) (seq 0 nx))) = flat_map g (flat_map (fun i => map (t i) (seq 0 ny)) (seq 0 nx)).
Proof.
  intros H. assert (C : forall l : list string, (forall s, In s l -> exists a, s = (a ++ eol)%string) -> words (cat l) = flat_map words l).
  { induction l as [|s l IH]; intros E; [reflexivity|]. cbn [cat flat_map]. destruct (E s (or_introl eq_refl)) as [a ->].
    rewrite append_assoc, words_eol, words_end, IH by (intros; apply E; now right). reflexivity. }
  rewrite C.
  - generalize (seq 0 nx). induction l as [|i l IH]; [reflexivity|]. cbn [flat_map]. rewrite !flat_map_app, IH. f_equal.
    generalize (seq 0 ny). induction l0 as [|j l' IH']; [reflexivity|]. cbn [map flat_map]. rewrite IH'. f_equal. apply H.
  - intros s Hs. apply in_flat_map in Hs as (i & _ & Hs). apply in_map_iff in Hs as (j & <- & _). apply H.
Qed.
