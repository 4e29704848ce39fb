From Verif Require Import Base Bondwire_Model Padstack_Model Padstack_Spec.

Section P.
  Context {P : Type} (p_default : P).
  Notation pad := (pad P).

  Definition rel (pads : list pad) (s : astate) : Prop :=
    map pad_lyr pads = fst s /\ forall i, (i < List.length pads)%nat -> option_map pad_par (nth_error pads i) = Some (snd s i).

  Lemma len_rel pads s : rel pads s -> List.length (fst s) = List.length pads.
  Proof. intros [H _]; rewrite <- H; apply map_length. Qed.

  Lemma set_layers_length ls : forall pads, List.length (set_layers p_default pads ls) = List.length ls.
  Proof. induction ls as [|n ls IH]; intros [|p pads]; simpl; auto. Qed.
  Lemma set_layers_names ls : forall pads, map pad_lyr (set_layers p_default pads ls) = ls.
  Proof. induction ls as [|n ls IH]; intros [|p pads]; simpl; rewrite ?IH; auto. Qed.
  Lemma set_layers_nth ls : forall pads i, (i < List.length ls)%nat ->
    option_map pad_par (nth_error (set_layers p_default pads ls) i)
    = Some (match nth_error pads i with Some p => pad_par p | None => p_default end).
  Proof.
    induction ls as [|n ls IH]; intros pads i H; simpl in H; [lia|].
    destruct pads as [|p pads], i as [|i]; simpl; auto.
    - rewrite IH by lia; destruct i; auto.
    - apply IH; lia.
  Qed.

  Lemma upd_length v : forall (pads : list pad) i, List.length (upd pads i v) = List.length pads.
  Proof. induction pads as [|p pads IH]; intros [|i]; simpl; auto. Qed.
  Lemma upd_names v : forall (pads : list pad) i, map pad_lyr (upd pads i v) = map pad_lyr pads.
  Proof. induction pads as [|p pads IH]; intros [|i]; simpl; rewrite ?IH; auto. Qed.
  Lemma upd_nth v : forall (pads : list pad) i j, (j < List.length pads)%nat ->
    option_map pad_par (nth_error (upd pads i v) j)
    = if (j =? i)%nat then Some v else option_map pad_par (nth_error pads j).
  Proof.
    induction pads as [|p pads IH]; intros [|i] [|j] H; simpl in *; auto; try lia.
    apply IH; lia.
  Qed.

  Lemma rel_put pads names f i v : rel pads (names, f) -> (i < List.length pads)%nat ->
    rel (upd pads i v) (names, put f i v).
  Proof.
    intros [H1 H2] Hi; split; simpl in *; [rewrite upd_names; auto|].
    intros j Hj; rewrite upd_length in Hj; rewrite upd_nth by auto; unfold put.
    destruct (j =? i)%nat; auto.
  Qed.

  Lemma layer_id_spec name : forall (pads : list pad) k,
    (exists i, layer_id_from pads name k = Z.of_nat (k + i) /\ first_at (map pad_lyr pads) name i /\ (i < List.length pads)%nat) \/
    (layer_id_from pads name k = noLayer /\ ~ In name (map pad_lyr pads)).
  Proof.
    induction pads as [|p pads IH]; intros k; simpl; auto.
    destruct (String.eqb_spec name (pad_lyr p)) as [->|Hne].
    - left; exists 0; rewrite Nat.add_0_r; split; auto; split; [constructor|lia].
    - destruct (IH (S k)) as [(i & H1 & H2 & H3)|[H1 H2]].
      + left; exists (S i); rewrite Nat.add_succ_r; split; auto; split; [constructor; auto|lia].
      + right; split; auto; intros [H|H]; auto.
  Qed.

  Lemma set_pad_spec pads s id v : rel pads s -> (-1 <= id)%Z ->
    exists pads' b s', set_pad pads id v = Ok (pads', b) /\ spec_op p_default s (SetPad id v) (Some b) s' /\ rel pads' s'.
  Proof.
    destruct s as [names f]; intros Hr Hid; pose proof (len_rel _ _ Hr) as Hl; simpl in Hl; unfold set_pad.
    destruct (Z.eqb_spec id noLayer) as [->|Hn].
    { exists pads, false, (names, f); split; auto; split; auto; constructor; unfold noLayer; lia. }
    destruct (Z.leb_spec (Z.of_nat (List.length pads)) id) as [H|H].
    { exists pads, false, (names, f); split; auto; split; auto; constructor; lia. }
    unfold noLayer in Hn; destruct (Z.ltb_spec id 0) as [H'|H']; [lia|].
    exists (upd pads (Z.to_nat id) v), true, (names, put f (Z.to_nat id) v); split; auto; split.
    - rewrite <- (Z2Nat.id id) at 1 by lia; constructor; lia.
    - apply rel_put; auto; lia.
  Qed.

  Lemma step_spec pads s outs o : rel pads s -> sane o ->
    exists pads' b s', ps_step p_default (Ok (pads, outs)) o = Ok (pads', outs ++ match b with Some b => [b] | None => [] end) /\
      spec_op p_default s o b s' /\ rel pads' s'.
  Proof.
    intros Hr Hs; destruct o as [ls|id v|n v]; simpl in *.
    - destruct s as [names f].
      exists (set_layers p_default pads ls), None,
        (ls, fun i => if (i <? Nat.min (List.length names) (List.length ls))%nat then f i else p_default).
      rewrite app_nil_r; split; auto; split; [constructor|].
      pose proof (len_rel _ _ Hr) as Hl; simpl in Hl.
      split; simpl; [apply set_layers_names|]; intros i Hi; rewrite set_layers_length in Hi.
      rewrite set_layers_nth by auto; destruct Hr as [_ Hr]; simpl in Hr.
      destruct (i <? Nat.min (List.length names) (List.length ls)) eqn:E.
      + apply Nat.ltb_lt in E; specialize (Hr i ltac:(lia)); destruct (nth_error pads i); simpl in Hr; congruence.
      + apply Nat.ltb_ge in E; assert (H : nth_error pads i = None) by (apply nth_error_None; lia).
        rewrite H; auto.
    - destruct (set_pad_spec pads s id v Hr Hs) as (pads' & b & s' & H1 & H2 & H3); rewrite H1; simpl.
      exists pads', (Some b), s'; auto.
    - unfold set_pad_named, pad_layer_id; destruct s as [names f]; pose proof (len_rel _ _ Hr) as Hl; simpl in Hl.
      destruct Hr as [Hn Hf]; simpl in Hn.
      destruct (layer_id_spec n pads 0) as [(i & H1 & H2 & H3)|[H1 H2]]; rewrite H1.
      + rewrite Nat.add_0_l; unfold set_pad, noLayer.
        destruct (Z.eqb_spec (Z.of_nat i) (-1)); [lia|].
        destruct (Z.leb_spec (Z.of_nat (List.length pads)) (Z.of_nat i)); [lia|].
        destruct (Z.ltb_spec (Z.of_nat i) 0); [lia|]; simpl; rewrite Nat2Z.id.
        exists (upd pads i v), (Some true), (names, put f i v); split; auto; split.
        * constructor; rewrite <- Hn; auto.
        * apply rel_put; auto; split; auto.
      + simpl; exists pads, (Some false), (names, f); split; auto; split; [constructor; rewrite <- Hn; auto|split; auto].
  Qed.

  Lemma run_spec ops : forall pads s outs, rel pads s -> Forall sane ops ->
    exists pads' bs s', fold_left (ps_step p_default) ops (Ok (pads, outs)) = Ok (pads', outs ++ bs) /\
      spec_run p_default s ops bs s' /\ rel pads' s'.
  Proof.
    induction ops as [|o ops IH]; intros pads s outs Hr Hs.
    - exists pads, [], s; rewrite app_nil_r; simpl; split; auto; split; auto; constructor.
    - inversion Hs as [|? ? Ho Hs']; subst.
      destruct (step_spec pads s outs o Hr Ho) as (p1 & b & s1 & H1 & H2 & H3).
      destruct (IH p1 s1 (outs ++ match b with Some b => [b] | None => [] end) H3 Hs') as (p2 & bs & s2 & G1 & G2 & G3).
      exists p2, (match b with Some b => b :: bs | None => bs end), s2.
      cbn [fold_left]; rewrite H1, G1; split; [destruct b; rewrite <- app_assoc; reflexivity|split; auto].
      econstructor; eauto.
  Qed.

  Lemma get_spec pads s id : rel pads s -> (-1 <= id)%Z ->
    get_pad pads id = Ok (if ((0 <=? id) && (id <? Z.of_nat (List.length (fst s))))%Z then Some (snd s (Z.to_nat id)) else None).
  Proof.
    intros Hr Hid; rewrite (len_rel _ _ Hr); destruct Hr as [_ Hf]; unfold get_pad, noLayer.
    destruct (Z.eqb_spec id (-1)) as [->|]; auto.
    destruct (Z.leb_spec 0 id); [|lia].
    destruct (Z.leb_spec (Z.of_nat (List.length pads)) id), (Z.ltb_spec id (Z.of_nat (List.length pads))); try lia; auto.
    destruct (Z.ltb_spec id 0); [lia|]; simpl.
    specialize (Hf (Z.to_nat id) ltac:(lia)); destruct (nth_error pads (Z.to_nat id)); simpl in *; congruence.
  Qed.
End P.

(** For every history of SetLayers and SetPadParameters calls (by id or by name) whose ids are at least -1, the answers
    and the final pads are those of the specification, and GetPadParameters reads that state for every id >= -1. *)
Theorem C19_pads_refine_spec_partial :
  forall P (d : P) ops, Forall sane ops ->
    exists pads outs s, ps_run d ops = Ok (pads, outs) /\ spec_run d ([], fun _ => d) ops outs s /\
      forall id, (-1 <= id)%Z ->
        get_pad pads id = Ok (if ((0 <=? id) && (id <? Z.of_nat (List.length (fst s))))%Z
                              then Some (snd s (Z.to_nat id)) else None).
Proof.
  intros P d ops H.
  destruct (run_spec d ops [] ([], fun _ => d) []) as (pads & bs & s & H1 & H2 & H3); auto.
  - split; simpl; auto; intros; lia.
  - exists pads, bs, s; split; [exact H1|split; auto]; intros; apply get_spec; auto.
Qed.
Print Assumptions C19_pads_refine_spec_partial.

(** Get after set, and the frame: read off one call in any reachable state. *)
Theorem C19_get_after_set_partial :
  forall P (d : P) ops id v pads outs pads' b, Forall sane ops -> (-1 <= id)%Z ->
    ps_run d ops = Ok (pads, outs) -> set_pad pads id v = Ok (pads', b) ->
    (b = true -> get_pad pads' id = Ok (Some v)) /\
    (b = false -> pads' = pads) /\
    (forall id', (-1 <= id')%Z -> id' <> id -> get_pad pads' id' = get_pad pads id').
Proof.
  intros P d ops id v pads outs pads' b Hs Hid Hr Hset.
  destruct (run_spec d ops [] ([], fun _ => d) []) as (p0 & bs & s & H1 & _ & H3); auto;
    [split; simpl; auto; intros; lia|].
  unfold ps_run in Hr; rewrite H1 in Hr; injection Hr as -> _.
  destruct (set_pad_spec d pads s id v H3 Hid) as (p1 & b1 & s' & G1 & G2 & G3).
  rewrite Hset in G1; injection G1 as <- <-.
  split; [|split].
  - intros ->; inversion G2; subst.
    rewrite (get_spec _ _ _ G3) by lia; simpl.
    destruct (Z.leb_spec 0 (Z.of_nat i)); [|lia]; destruct (Z.ltb_spec (Z.of_nat i) (Z.of_nat (List.length names))); [|lia].
    simpl; rewrite Nat2Z.id; unfold put; rewrite Nat.eqb_refl; auto.
  - intros ->; revert Hset; unfold set_pad.
    destruct (id =? noLayer)%Z; [congruence|]; destruct (Z.of_nat (List.length pads) <=? id)%Z; [congruence|].
    destruct (id <? 0)%Z; [discriminate|]; intros E; injection E; discriminate.
  - intros id' Hid' Hne; rewrite (get_spec _ _ _ G3), (get_spec _ _ _ H3) by auto.
    inversion G2; subst; auto; simpl.
    destruct ((0 <=? id') && (id' <? Z.of_nat (List.length names)))%Z eqn:E; auto.
    apply andb_prop in E as [E1 E2]; apply Z.leb_le in E1; unfold put.
    destruct (Nat.eqb_spec (Z.to_nat id') i); auto; lia.
Qed.
Print Assumptions C19_get_after_set_partial.

Example C19_case :
  let ops := [SetLayers ["top"; "mid"; "mid"]; SetPad 1 10; SetPad 7 11; SetPadNamed "mid" 12; SetPad 2 13;
              SetLayers ["a"; "b"]; SetPadNamed "mid" 14; SetPad (-1) 15]%string in
  Forall sane ops /\
  ps_run 0 ops = Ok ([mkPad "a" 0; mkPad "b" 12], [true; false; true; true; false; false])%string.
Proof. split; [repeat constructor; simpl; lia|reflexivity]. Qed.

(** Finding: an id below -1 – such as the component layer id – indexes out of the array. *)
Theorem C19_negative_id_refuted :
  forall P (d v : P) ops pads outs id, ps_run d ops = Ok (pads, outs) -> (id < -1)%Z ->
    set_pad pads id v = UB /\ get_pad pads id = UB.
Proof.
  intros P d v ops pads outs id _ H; unfold set_pad, get_pad, noLayer.
  destruct (Z.eqb_spec id (-1)); [lia|]; destruct (Z.leb_spec (Z.of_nat (List.length pads)) id); [lia|].
  destruct (Z.ltb_spec id 0); [auto|lia].
Qed.
Print Assumptions C19_negative_id_refuted.
