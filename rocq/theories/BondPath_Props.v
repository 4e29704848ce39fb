(** C87: the path of a bond wire. *)
From Verif Require Import Base QSum Retriever_Model Retriever_Spec BondPath_Model.
From Coq Require Import Lia.

(** ** Specification *)
(** [p] lies at the share k/8 of the way from [s] to [e]: never outside of it, and less than one unit off. *)
Definition at_eighth (k s e p : Z) : Prop :=
  (Z.abs (8 * (p - s) - k * (e - s)) < 8 /\ (Z.min s e <= p <= Z.max s e))%Z.
Definition point_at_eighth (k : Z) (s e p : pt) : Prop := at_eighth k (fst s) (fst e) (fst p) /\ at_eighth k (snd s) (snd e) (snd p).
(** A height [t] at the distance [h] from the face at height [f], on the side the face looks to. *)
Definition off_face (flipped : bool) (f h t : Q) : Prop := if flipped then t == f - h else t == f + h.
(** Points whose coordinates differ by one unit at most. *)
Definition close_pt (a b : pt) : Prop := (Z.abs (fst a - fst b) <= 1 /\ Z.abs (snd a - snd b) <= 1)%Z.

(** ** Proofs *)
Lemma eighth_ok k s e : (0 <= k <= 8)%Z -> at_eighth k s e (s + Z.quot (k * (e - s)) 8).
Proof.
  intros Hk; unfold at_eighth; remember (e - s)%Z as d eqn:Ed.
  pose proof (Z.quot_rem (k * d) 8 ltac:(lia)) as E.
  set (q := Z.quot (k * d) 8) in *; set (r := Z.rem (k * d) 8) in *.
  assert (R : (Z.abs r < 8)%Z) by (unfold r; pose proof (Z.rem_bound_abs (k * d) 8 ltac:(lia)); lia).
  split; [lia|].
  assert (B : (d = 0 \/ 0 < d \/ d < 0)%Z) by lia.
  destruct B as [B|[B|B]].
  - assert (k * d = 0)%Z by (rewrite B; lia); assert (q = 0)%Z by (unfold q; rewrite H; reflexivity); lia.
  - assert (0 <= k * d <= 8 * d)%Z by nia.
    assert (0 <= r)%Z by (unfold r; pose proof (Z.rem_bound_pos (k * d) 8 ltac:(lia) ltac:(lia)); lia); lia.
  - assert (8 * d <= k * d <= 0)%Z by nia.
    assert (r <= 0)%Z by (unfold r; apply Z.rem_nonpos; lia); lia.
Qed.

Lemma point_eighth k s e : (0 <= k <= 8)%Z -> point_at_eighth k s e (padd s (eighth k (psub e s))).
Proof. intros Hk; split; cbn [padd eighth psub fst snd]; apply eighth_ok; exact Hk. Qed.

(** ** Theorems *)
(** A simple wire: it starts and ends at its two points at the heights of what it is bonded to; it rises by the wire
    height from each end, on the side the bonded face looks to, up to the bends one eighth from each end. *)
Theorem C87_simple_path : forall m w p h, w_type w = Simple -> segments m w = Ok (Some (p, h)) ->
  exists a b p1 p2 h1 h2, p = [w_from w; p1; p2; w_to w] /\ h = [a; h1; h2; b] /\
    bond_height m (w_start w) (w_sj0 w) = Some a /\ bond_height m (w_end w) (w_sj1 w) = Some b /\
    point_at_eighth 1 (w_from w) (w_to w) p1 /\ point_at_eighth 7 (w_from w) (w_to w) p2 /\
    off_face (bond_flip (w_start w)) a (w_height w) h1 /\ off_face (bond_flip (w_end w)) b (w_height w) h2.
Proof.
  intros m w p h Ht H; unfold segments in H; rewrite Ht in H; injection H as H.
  unfold wire_heights in H; destruct (bond_height m (w_start w) (w_sj0 w)) as [a|]; [|discriminate].
  destruct (bond_height m (w_end w) (w_sj1 w)) as [b|]; [|discriminate]; cbn [option_map] in H; injection H as <- <-.
  exists a, b; do 4 eexists; split; [reflexivity|]; split; [reflexivity|]; split; [reflexivity|]; split; [reflexivity|].
  split; [apply point_eighth; lia|]; split; [apply point_eighth; lia|].
  split; unfold off_face; [destruct (bond_flip (w_start w))|destruct (bond_flip (w_end w))]; lra.
Qed.
Print Assumptions C87_simple_path.

(** A JEDEC4 wire rises straight over its start, keeps that height for one eighth of the way, and falls to its end. *)
Theorem C87_jedec4_path : forall m w p h, w_type w = Jedec4 -> segments m w = Ok (Some (p, h)) ->
  exists a b p2 h1, p = [w_from w; w_from w; p2; w_to w] /\ h = [a; h1; h1; b] /\
    bond_height m (w_start w) (w_sj0 w) = Some a /\ bond_height m (w_end w) (w_sj1 w) = Some b /\
    point_at_eighth 1 (w_from w) (w_to w) p2 /\ off_face (bond_flip (w_start w)) a (w_height w) h1.
Proof.
  intros m w p h Ht H; unfold segments in H; rewrite Ht in H; injection H as H.
  unfold wire_heights in H; destruct (bond_height m (w_start w) (w_sj0 w)) as [a|]; [|discriminate].
  destruct (bond_height m (w_end w) (w_sj1 w)) as [b|]; [|discriminate]; cbn [option_map] in H; injection H as <- <-.
  exists a, b; do 2 eexists; split; [reflexivity|]; split; [reflexivity|]; split; [reflexivity|]; split; [reflexivity|].
  split; [apply point_eighth; lia|]; unfold off_face; destruct (bond_flip (w_start w)); lra.
Qed.
Print Assumptions C87_jedec4_path.

(** There is a path exactly if both ends have a height; a wire without type ends in a failed assertion. *)
Theorem C87_path_exists : forall m w, w_type w <> InvalidType ->
  ((exists x, segments m w = Ok (Some x)) <-> bond_height m (w_start w) (w_sj0 w) <> None /\ bond_height m (w_end w) (w_sj1 w) <> None) /\
  ((exists x, segments m w = Ok (Some x)) \/ segments m w = Ok None).
Proof.
  intros m w Ht; unfold segments, wire_heights.
  destruct (w_type w); [| |congruence]; destruct (bond_height m (w_start w) (w_sj0 w)), (bond_height m (w_end w) (w_sj1 w)); cbn [option_map];
    (split; [split; [intros (x & H); try discriminate; split; discriminate|intros [H1 H2]; try congruence; eauto]|eauto]).
Qed.
Print Assumptions C87_path_exists.
Theorem C87_no_type_throws : forall m w, w_type w = InvalidType -> segments m w = Throw.
Proof. intros m w H; unfold segments; rewrite H; reflexivity. Qed.
Print Assumptions C87_no_type_throws.

(** Seen from its other end, a simple wire takes the same path up to one unit. *)
Theorem C87_reversed_close : forall m w p h, w_type w = Simple -> segments m w = Ok (Some (p, h)) ->
  exists p' h', segments m (reversed w) = Ok (Some (p', h')) /\ rev h' = h /\ Forall2 close_pt (rev p') p.
Proof.
  intros m w p h Ht H; unfold segments in *; cbn [reversed w_type]; rewrite Ht in *; injection H as H.
  unfold wire_heights in *; cbn [reversed w_start w_end w_sj0 w_sj1 w_from w_to w_height].
  destruct (bond_height m (w_start w) (w_sj0 w)) as [a|]; [|discriminate].
  destruct (bond_height m (w_end w) (w_sj1 w)) as [b|]; [|discriminate]; cbn [option_map] in *; injection H as <- <-.
  do 2 eexists; split; [reflexivity|]; split; [reflexivity|].
  assert (Q1 : forall s e, (Z.abs (e + Z.quot (7 * (s - e)) 8 - (s + Z.quot (1 * (e - s)) 8)) <= 1)%Z).
  { intros s e; destruct (eighth_ok 7 e s ltac:(lia)) as [H1 _]; destruct (eighth_ok 1 s e ltac:(lia)) as [H2 _]; lia. }
  assert (Q2 : forall s e, (Z.abs (e + Z.quot (1 * (s - e)) 8 - (s + Z.quot (7 * (e - s)) 8)) <= 1)%Z).
  { intros s e; destruct (eighth_ok 1 e s ltac:(lia)) as [H1 _]; destruct (eighth_ok 7 s e ltac:(lia)) as [H2 _]; lia. }
  assert (Z0 : forall p, close_pt p p) by (intros; split; lia).
  cbn [rev app]; repeat apply Forall2_cons; try apply Forall2_nil; try apply Z0; split; cbn [padd eighth psub fst snd]; auto.
Qed.
Print Assumptions C87_reversed_close.

Definition ex_map : hmap := [(0%Z, (10, 2)); (1%Z, (8, 3))].
Example C87_simple_ex : segments ex_map (mkBW Simple (0%Z, 0%Z) (100%Z, (-17)%Z) (OnLayer 0 false) (OnComp (mkComp 1 true 4 1)) None (Some 1) 5) =
  Ok (Some ([(0, 0); (12, -2); (87, -14); (100, -17)]%Z, [10; 10 + 5; 8 - 3 - 1 - 4 - 1 - 5; 8 - 3 - 1 - 4 - 1])).
Proof. reflexivity. Qed.
Example C87_jedec4_ex : segments ex_map (mkBW Jedec4 (0%Z, 0%Z) (80%Z, 8%Z) (OnLayer 0 false) (OnLayer 1 true) None None 5) =
  Ok (Some ([(0, 0); (0, 0); (10, 1); (80, 8)]%Z, [10; 10 + 5; 10 + 5; 8 - 3])).
Proof. reflexivity. Qed.
Example C87_none_ex : segments ex_map (mkBW Simple (0%Z, 0%Z) (80%Z, 8%Z) (OnLayer 0 false) (OnLayer 7 true) None None 5) = Ok None.
Proof. reflexivity. Qed.
