(** Lemmas about words of a text. *)
From Coq Require Import Ascii DecimalString Decimal DecimalNat.
From Verif Require Import Base Names_Model Text_Spec.
Open Scope string_scope.
Open Scope list_scope.

Lemma append_assoc (a b c : string) : ((a ++ b) ++ c = a ++ (b ++ c))%string.
Proof. induction a as [|x a IH]; cbn; [reflexivity|now rewrite IH]. Qed.
Lemma append_empty (a : string) : (a ++ "" = a)%string.
Proof. induction a as [|x a IH]; cbn; [reflexivity|now rewrite IH]. Qed.

Lemma words_nonempty c r : blank c = false -> words (String c r) <> [].
Proof. cbn [words]. intros ->. destruct r as [|d r]; [discriminate|]. destruct (blank d); [discriminate|]. destruct (words (String d r)); discriminate. Qed.

Lemma words_two x d r : words (String x (String d r)) =
  if blank x then words (String d r)
  else if blank d then String x "" :: words (String d r)
  else match words (String d r) with [] => [String x ""] | w :: t => String x w :: t end.
Proof. reflexivity. Qed.
Lemma words_sep c b : blank c = true -> forall a, words (a ++ String c b) = words a ++ words b.
Proof.
  intros Hc a. induction a as [|x a IH].
  - cbn [append words app]. now rewrite Hc.
  - destruct a as [|d a].
    + cbn [append]. rewrite words_two. cbn [words]. rewrite Hc. destruct (blank x); reflexivity.
    + cbn [append] in *. rewrite !words_two, !IH. destruct (blank x); [reflexivity|].
      destruct (blank d) eqn:D; [reflexivity|].
      assert (N := words_nonempty d a D). destruct (words (String d a)) as [|w t]; [contradiction|reflexivity].
Qed.
Lemma words_blank c s : blank c = true -> words (String c s) = words s.
Proof. intros H. cbn [words]. now rewrite H. Qed.
Lemma words_word w : word w -> words w = [w].
Proof.
  intros [N S]. induction w as [|c w IH]; [contradiction|]. cbn [solid] in S. apply andb_true_iff in S as [B S]. apply negb_true_iff in B.
  destruct w as [|d w]; [cbn [words]; now rewrite B|]. assert (S' := S). cbn [solid] in S'. apply andb_true_iff in S' as [D _]. apply negb_true_iff in D.
  rewrite words_two, B, D, (IH ltac:(discriminate) S). reflexivity.
Qed.

Lemma expect_app ks ws : expect ks (ks ++ ws) = Some ws.
Proof. induction ks as [|k ks IH]; cbn; [reflexivity|now rewrite String.eqb_refl]. Qed.

Lemma expect_cons k ks ws : expect (k :: ks) (k :: ws) = expect ks ws.
Proof. cbn. now rewrite String.eqb_refl. Qed.
Lemma expect_nil ws : expect [] ws = Some ws.
Proof. reflexivity. Qed.

Lemma dec_word n : word (to_dec n).
Proof.
  split; [unfold to_dec; destruct (Nat.to_uint n); discriminate|].
  assert (U : forall u, solid (NilEmpty.string_of_uint u) = true) by (induction u; cbn [NilEmpty.string_of_uint solid]; try rewrite IHu; reflexivity).
  unfold to_dec. destruct (Nat.to_uint n) eqn:E; [reflexivity|..]; apply U.
Qed.
Lemma number_dec n ws : number (to_dec n :: ws) = Some (n, ws).
Proof.
  unfold number, to_dec. rewrite NilZero.usu; [now rewrite DecimalNat.Unsigned.of_to|].
  intros H. generalize (DecimalNat.Unsigned.of_to n). rewrite H. cbn. intros <-. discriminate.
Qed.
Lemma times_app {A B} (f : reader A) (tok : B -> list string) (val : B -> A) : (forall b ws, f (tok b ++ ws) = Some (val b, ws)) ->
  forall l ws, times (List.length l) f (flat_map tok l ++ ws) = Some (map val l, ws).
Proof.
  intros H. induction l as [|b l IH]; intros ws; [reflexivity|]. cbn [flat_map List.length times map]. rewrite <- app_assoc, H, IH. reflexivity.
Qed.
