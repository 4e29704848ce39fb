(** Lemmas for the power and density files. *)
From Verif Require Import Base CtmTable_Model CtmTable_Spec.
Local Open Scope res_scope.

Lemma set_nth_app {A} (a : list A) x b v : set_nth (List.length a) v (a ++ x :: b) = a ++ v :: b.
Proof. induction a as [|y a IH]; [reflexivity|]. cbn. rewrite IH. reflexivity. Qed.

Lemma read_power_from_app : forall ws a b, (List.length ws <= List.length b)%nat ->
  read_power_from (List.length a) ws (a ++ b) = a ++ ws ++ skipn (List.length ws) b.
Proof.
  induction ws as [|w ws IH]; intros a b L; cbn [read_power_from]; [reflexivity|].
  destruct b as [|x b]; [cbn in L; lia|].
  replace (List.length a <? List.length (a ++ x :: b))%nat with true
    by (symmetry; apply Nat.ltb_lt; rewrite app_length; cbn; lia).
  rewrite set_nth_app. replace (a ++ w :: b) with ((a ++ [w]) ++ b) by (rewrite <- app_assoc; reflexivity).
  replace (S (List.length a)) with (List.length (a ++ [w])) by (rewrite app_length; cbn; lia).
  rewrite IH by (cbn in L; lia). rewrite <- app_assoc. reflexivity.
Qed.

Lemma read_power_full ws i t : (List.length t <= i)%nat -> read_power_from i ws t = t.
Proof.
  intros L. destruct ws as [|w ws]; [reflexivity|]. cbn [read_power_from].
  replace (i <? List.length t)%nat with false by (symmetry; apply Nat.ltb_ge; exact L). reflexivity.
Qed.

Lemma read_power_from_long : forall t ws a, (List.length t <= List.length ws)%nat ->
  read_power_from (List.length a) ws (a ++ t) = a ++ firstn (List.length t) ws.
Proof.
  induction t as [|x t IH]; intros ws a L.
  - cbn [List.length firstn]. rewrite app_nil_r. apply read_power_full. lia.
  - destruct ws as [|w ws]; [cbn in L; lia|]. cbn [read_power_from].
    replace (List.length a <? List.length (a ++ x :: t))%nat with true
      by (symmetry; apply Nat.ltb_lt; rewrite app_length; cbn; lia).
    rewrite set_nth_app. replace (a ++ w :: t) with ((a ++ [w]) ++ t) by (rewrite <- app_assoc; reflexivity).
    replace (S (List.length a)) with (List.length (a ++ [w])) by (rewrite app_length; cbn; lia).
    rewrite IH by (cbn in L; lia). rewrite <- app_assoc. reflexivity.
Qed.

Lemma nth_map_gen {A B} (f : A -> B) l d d' j : (j < List.length l)%nat -> nth j (map f l) d' = f (nth j l d).
Proof. intros H. rewrite (nth_indep _ d' (f d)) by (rewrite map_length; exact H). apply map_nth. Qed.

(** One record. *)
Lemma read_tile_ok i : forall tabs vs ws f0, List.length vs = List.length tabs ->
  exists f1, read_tile i (mkst (vs ++ ws) false f0) tabs =
    Ok (mkst ws false f1, map (fun p => set_nth i (fst p) (snd p)) (combine vs tabs)).
Proof.
  induction tabs as [|t tabs IH]; intros vs ws f0 L.
  - destruct vs; [|discriminate]. exists f0. reflexivity.
  - destruct vs as [|v vs]; [discriminate|]. cbn [app read_tile rd s_words s_f s_eof].
    destruct (IH vs ws (Some v) ltac:(cbn in L; lia)) as [f1 E]. rewrite E. cbn [bind]. exists f1. reflexivity.
Qed.

(** The tables while [done] tiles have been read: a list of pairs of read and remaining values. *)
Lemma read_tiles_ok : forall (recs : list (list Z)) (rest : list Z) (bxs : list (list Z)) f (dn rm : list (list Z)) i,
  List.length bxs = List.length recs ->
  Forall (fun b => List.length b = 5%nat) bxs ->
  Forall (fun r => List.length r = List.length dn) recs ->
  List.length rm = List.length dn ->
  Forall (fun d => List.length d = i) dn ->
  Forall (fun r => List.length r = List.length recs) rm ->
  read_tiles (List.length recs) i (mkst (List.concat (map (fun p => fst p ++ snd p) (combine bxs recs)) ++ rest) false f)
    (map (fun p => fst p ++ snd p) (combine dn rm)) =
  Ok (map (fun j => nth j dn [] ++ map (fun r => nth j r 0%Z) recs) (seq 0 (List.length dn))).
Proof.
  induction recs as [|r recs IH]; intros rest bxs f dn rm i Hb H5 Hr Hl Hd Hm; cbn [List.length read_tiles].
  - f_equal. apply nth_ext with (d := []) (d' := []).
    + rewrite !map_length, combine_length, seq_length. lia.
    + intros j Hj. rewrite map_length, combine_length in Hj.
      rewrite (nth_map_gen _ (combine dn rm) ([], [])) by (rewrite combine_length; lia).
      rewrite combine_nth by lia. cbn [fst snd].
      rewrite (nth_map_gen _ (seq 0 (List.length dn)) 0%nat) by (rewrite seq_length; lia).
      rewrite seq_nth by lia. cbn [map plus]. f_equal.
      assert (E : List.length (nth j rm []) = 0%nat).
      { rewrite Forall_forall in Hm. apply Hm. apply nth_In. lia. }
      destruct (nth j rm []); [reflexivity|discriminate].
  - destruct bxs as [|b bxs]; [discriminate|]. cbn [combine map List.concat fst snd].
    inversion H5 as [|? ? Hb5 H5']; subst. inversion Hr as [|? ? Hrl Hr']; subst.
    destruct b as [|b0 [|b1 [|b2 [|b3 [|b4 [|? ?]]]]]]; try discriminate. cbn [s_eof].
    rewrite <- !app_assoc. cbn [app rd_id rd s_words s_f s_eof].
    assert (Ltabs : List.length (map (fun p => fst p ++ snd p) (combine dn rm)) = List.length dn)
      by (rewrite map_length, combine_length; lia).
    destruct (read_tile_ok i (map (fun p => fst p ++ snd p) (combine dn rm)) r
      (List.concat (map (fun p => fst p ++ snd p) (combine bxs recs)) ++ rest) (Some b4) ltac:(congruence)) as [f1 E].
    rewrite E. cbn [bind]. clear E.
    assert (E : map (fun p => set_nth i (fst p) (snd p)) (combine r (map (fun p => fst p ++ snd p) (combine dn rm))) =
      map (fun p => fst p ++ snd p) (combine (map (fun p => fst p ++ [snd p]) (combine dn r)) (map (@tl Z) rm))).
    { clear - Hrl Hl Hd Hm. revert r rm Hrl Hl Hm. induction Hd as [|d dn Hdl Hd IH]; intros r rm Hrl Hl Hm.
      - destruct r; reflexivity.
      - destruct r as [|v r]; [discriminate|]. destruct rm as [|x rm]; [discriminate|].
        inversion Hm as [|? ? Hx Hm']; subst. cbn [combine map fst snd].
        rewrite IH; [|injection Hrl; auto|injection Hl; auto|exact Hm']. f_equal.
        destruct x as [|x0 x]; [discriminate|]. cbn [tl]. rewrite set_nth_app, <- app_assoc. reflexivity. }
    rewrite E. 
    rewrite (IH rest bxs f1 (map (fun p => fst p ++ [snd p]) (combine dn r)) (map (@tl Z) rm) (S i)).
    + rewrite map_length, combine_length, Hrl, Nat.min_id. f_equal. apply map_ext_in. intros j Hj. apply in_seq in Hj.
      rewrite (nth_map_gen _ (combine dn r) ([], 0%Z)) by (rewrite combine_length; lia).
      rewrite combine_nth by lia. cbn [fst snd map]. rewrite <- app_assoc. reflexivity.
    + injection Hb. auto.
    + exact H5'.
    + rewrite map_length, combine_length, Hrl, Nat.min_id. exact Hr'.
    + rewrite !map_length, combine_length. lia.
    + rewrite Forall_map, Forall_forall. intros [d v] Hp. apply in_combine_l in Hp. rewrite Forall_forall in Hd.
      cbn [fst snd]. rewrite app_length, (Hd d Hp). cbn. lia.
    + rewrite Forall_map. eapply Forall_impl; [|exact Hm]. intros x Hx. destruct x; cbn in *; lia.
Qed.

Lemma flat_map_concat_map {A B} (f : A -> list B) l : flat_map f l = List.concat (map f l).
Proof. induction l as [|x l IH]; [reflexivity|]. cbn. rewrite IH. reflexivity. Qed.

Lemma flat_map_prod {A B C} (f : A -> B -> list C) xs ys :
  flat_map (fun x => flat_map (f x) ys) xs = flat_map (fun p => f (fst p) (snd p)) (list_prod xs ys).
Proof.
  induction xs as [|x xs IH]; [reflexivity|]. cbn [flat_map list_prod]. rewrite flat_map_app, <- IH.
  assert (E : forall zs, flat_map (f x) zs = flat_map (fun p => f (fst p) (snd p)) (map (fun y => (x, y)) zs)).
  { induction zs as [|z zs IHz]; [reflexivity|]. cbn. rewrite IHz. reflexivity. }
  rewrite <- E. reflexivity.
Qed.

Definition tiles_of (nx ny : nat) : list (nat * nat) := list_prod (seq 0 nx) (seq 0 ny).

Lemma tiles_length nx ny : List.length (tiles_of nx ny) = (nx * ny)%nat.
Proof. unfold tiles_of. rewrite prod_length, !seq_length. reflexivity. Qed.

Lemma combine_map2 {A B C} (f : A -> B) (g : A -> C) l : combine (map f l) (map g l) = map (fun x => (f x, g x)) l.
Proof. induction l as [|x l IH]; [reflexivity|]. cbn. rewrite IH. reflexivity. Qed.

Section density.
  Context (pos : nat -> nat -> nat -> nat -> nat).
  Context (boxw : nat -> nat -> list Z) (boxw_len : forall x y, List.length (boxw x y) = 4%nat).

  Lemma density_read nx ny tabs rest tabs0 :
    List.length tabs0 = List.length tabs -> Forall (fun t => List.length t = (nx * ny)%nat) tabs0 ->
    read_density (nx * ny) (write_density pos boxw nx ny tabs ++ rest) tabs0 =
    Ok (map (fun t => map (fun p => at_tile pos nx ny t (fst p) (snd p)) (tiles_of nx ny)) tabs).
  Proof using boxw_len.
    intros Hl H0. unfold read_density, write_density.
    rewrite flat_map_prod. fold (tiles_of nx ny). rewrite flat_map_concat_map.
    set (vals := fun p : nat * nat => map (fun t => at_tile pos nx ny t (fst p) (snd p)) tabs).
    set (bx := fun p : nat * nat => Z.of_nat (fst p * ny + snd p + 1) :: boxw (fst p) (snd p)).
    assert (Ew : map (fun p => tile_record pos boxw nx ny tabs (fst p) (snd p)) (tiles_of nx ny) =
      map (fun p => fst p ++ snd p) (combine (map bx (tiles_of nx ny)) (map vals (tiles_of nx ny)))).
    { rewrite combine_map2, map_map. apply map_ext. intros [x y]. reflexivity. }
    rewrite Ew. clear Ew.
    assert (E0 : tabs0 = map (fun p => fst p ++ snd p) (combine (map (fun _ => []) tabs0) tabs0)).
    { clear. induction tabs0 as [|t l IH]; [reflexivity|]. cbn. rewrite <- IH. reflexivity. }
    rewrite E0 at 1.
    replace (nx * ny)%nat with (List.length (map vals (tiles_of nx ny))) by (rewrite map_length; apply tiles_length).
    rewrite read_tiles_ok.
    - f_equal. rewrite map_length, Hl. clear - tabs.
      rewrite <- (map_id tabs) at 1. apply nth_ext with (d := []) (d' := []).
      + rewrite !map_length, seq_length. reflexivity.
      + rewrite map_id. intros j Hj. rewrite map_length, seq_length in Hj.
        rewrite (nth_map_gen _ (seq 0 (List.length tabs)) 0%nat) by (rewrite seq_length; exact Hj).
        rewrite seq_nth by exact Hj. cbn [plus].
        assert (En : nth j (map (fun _ : list Z => @nil Z) tabs0) [] = []).
        { clear. revert j. induction tabs0 as [|t l IH]; intros [|j]; try reflexivity. apply IH. }
        rewrite En. cbn [app]. rewrite map_map.
        rewrite (nth_map_gen _ tabs []) by exact Hj.
        apply map_ext. intros p. unfold vals. rewrite (nth_map_gen _ tabs []) by exact Hj. reflexivity.
    - rewrite !map_length. reflexivity.
    - rewrite Forall_map. apply Forall_forall. intros p _. cbn. rewrite boxw_len. reflexivity.
    - rewrite Forall_map. apply Forall_forall. intros p _. unfold vals. rewrite !map_length. congruence.
    - rewrite map_length. reflexivity.
    - rewrite Forall_map. apply Forall_forall. intros; reflexivity.
    - rewrite map_length, tiles_length. exact H0.
  Qed.
End density.

(** In column order the tiles are numbered as they are written. *)
Lemma list_prod_nth nx ny k : (k < nx * ny)%nat -> nth k (tiles_of nx ny) (0, 0)%nat = (k / ny, k mod ny)%nat.
Proof.
  unfold tiles_of. intros Hk. assert (Hny : ny <> 0%nat) by lia.
  enough (G : forall a k, (k < nx * ny)%nat -> nth k (list_prod (seq a nx) (seq 0 ny)) (0, 0)%nat = (a + k / ny, k mod ny)%nat)
    by (apply (G 0%nat); exact Hk).
  clear k Hk. induction nx as [|nx IH]; intros a k Hk; [lia|]. cbn [seq list_prod].
  destruct (lt_dec k ny) as [L|L].
  - rewrite app_nth1 by (rewrite map_length, seq_length; exact L).
    rewrite (nth_map_gen _ (seq 0 ny) 0%nat) by (rewrite seq_length; exact L).
    rewrite seq_nth by exact L. rewrite Nat.div_small, Nat.mod_small by exact L. f_equal. lia.
  - rewrite app_nth2 by (rewrite map_length, seq_length; lia). rewrite map_length, seq_length.
    rewrite IH by lia. 
    replace k with ((k - ny) + 1 * ny)%nat at 3 4 by lia. rewrite Nat.div_add, Nat.mod_add by exact Hny. f_equal. lia.
Qed.

Lemma column_order_read nx ny (t : list Z) : List.length t = (nx * ny)%nat ->
  map (fun p => at_tile column_order nx ny t (fst p) (snd p)) (tiles_of nx ny) = t.
Proof.
  intros L. apply nth_ext with (d := 0%Z) (d' := 0%Z); [rewrite map_length, tiles_length; auto|].
  intros k Hk. rewrite map_length, tiles_length in Hk.
  rewrite (nth_map_gen _ (tiles_of nx ny) (0, 0)%nat) by (rewrite tiles_length; exact Hk).
  rewrite list_prod_nth by exact Hk. unfold at_tile, column_order. cbn [fst snd]. f_equal.
  assert (ny <> 0)%nat by lia. pose proof (Nat.div_mod k ny). lia.
Qed.
