(** C69: power and density files of chip thermal models. *)
From Verif Require Import Base CtmTable_Model CtmTable_Spec CtmTable_Proofs.
Local Open Scope res_scope.

(** A power table that is written and read into a table of the same size comes back. *)
Theorem C69_power : forall t t0, List.length t0 = List.length t -> read_power (write_power t) t0 = t.
Proof.
  intros t t0 L. unfold read_power, write_power. pose proof (read_power_from_app t [] t0 ltac:(lia)) as H. cbn in H.
  rewrite H, <- L, skipn_all. apply app_nil_r.
Qed.

(** Reading any file keeps the size of the table; tile i gets the i-th word of the file if there is
    one, and keeps its value otherwise: files that are too short or too long are accepted. *)
Theorem C69_power_any : forall ws t, List.length (read_power ws t) = List.length t /\
  forall i, (i < List.length t)%nat -> nth i (read_power ws t) 0%Z =
    if (i <? List.length ws)%nat then nth i ws 0%Z else nth i t 0%Z.
Proof.
  intros ws t. unfold read_power. destruct (le_lt_dec (List.length t) (List.length ws)) as [L|L].
  - pose proof (read_power_from_long t ws [] L) as H. cbn in H. rewrite H. split; [rewrite firstn_length; lia|].
    intros i Hi. replace (i <? List.length ws)%nat with true by (symmetry; apply Nat.ltb_lt; lia).
    rewrite <- (firstn_skipn (List.length t) ws) at 2. rewrite app_nth1; [reflexivity|rewrite firstn_length; lia].
  - pose proof (read_power_from_app ws [] t ltac:(lia)) as H. cbn in H. rewrite H.
    split; [rewrite app_length, skipn_length; lia|].
    intros i Hi. destruct (Nat.ltb_spec i (List.length ws)) as [M|M]; [rewrite app_nth1 by exact M; reflexivity|].
    rewrite app_nth2 by exact M. rewrite <- (firstn_skipn (List.length ws) t) at 2.
    rewrite app_nth2; rewrite firstn_length, Nat.min_l by lia; [reflexivity|exact M].
Qed.

(** A density file holds the tiles column by column, and the k-th of them becomes the k-th value of
    the table that is read. *)
Theorem C69_density : forall pos boxw, (forall x y, List.length (boxw x y) = 4%nat) ->
  forall nx ny tabs tabs0, List.length tabs0 = List.length tabs -> Forall (fun t => List.length t = (nx * ny)%nat) tabs0 ->
  exists tabs', read_density (nx * ny) (write_density pos boxw nx ny tabs) tabs0 = Ok tabs' /\
    List.length tabs' = List.length tabs /\
    forall j k, (j < List.length tabs)%nat -> (k < nx * ny)%nat ->
      nth k (nth j tabs' []) 0%Z = nth (pos nx ny (k / ny) (k mod ny))%nat (nth j tabs []) 0%Z.
Proof.
  intros pos boxw Hb nx ny tabs tabs0 Hl H0. eexists. split.
  - rewrite <- (app_nil_r (write_density _ _ _ _ _)). apply density_read; assumption.
  - split; [apply map_length|]. intros j k Hj Hk. rewrite (nth_map_gen _ tabs []) by exact Hj.
    rewrite (nth_map_gen _ (tiles_of nx ny) (0, 0)%nat) by (rewrite tiles_length; exact Hk).
    rewrite list_prod_nth by exact Hk. reflexivity.
Qed.

(** So the tables come back if the grid library stores a table column by column.  Missing for the full
    claim: other layouts, see the next theorem; the layout is not part of this repository. *)
Theorem C69_density_partial : forall boxw, (forall x y, List.length (boxw x y) = 4%nat) ->
  forall nx ny tabs tabs0, List.length tabs0 = List.length tabs ->
  Forall (fun t => List.length t = (nx * ny)%nat) tabs -> Forall (fun t => List.length t = (nx * ny)%nat) tabs0 ->
  read_density (nx * ny) (write_density column_order boxw nx ny tabs) tabs0 = Ok tabs.
Proof.
  intros boxw Hb nx ny tabs tabs0 Hl Ht H0. rewrite <- (app_nil_r (write_density _ _ _ _ _)).
  rewrite density_read by assumption. f_equal. rewrite <- (map_id tabs) at 2. apply map_ext_in. intros t Hin.
  apply column_order_read. rewrite Forall_forall in Ht. apply Ht. exact Hin.
Qed.

(** With tables stored row by row the tiles are exchanged. *)
Theorem C69_density_row_order_refuted : exists nx ny tabs tabs',
  Forall (fun t => List.length t = (nx * ny)%nat) tabs /\
  read_density (nx * ny) (write_density row_order (fun _ _ => [0; 0; 0; 0]%Z) nx ny tabs) [repeat 0%Z (nx * ny)] = Ok tabs' /\ tabs' <> tabs.
Proof.
  exists 2%nat, 2%nat, [[1; 2; 3; 4]%Z], [[1; 3; 2; 4]%Z]. split; [repeat constructor|]. split; [vm_compute; reflexivity|discriminate].
Qed.

(** A density file that ends early is accepted: the first missing tile gets the last value of the tile
    before it, for every layer. *)
Theorem C69_density_short_is_silent :
  read_density 3 [1; 0; 0; 0; 0; 7; 8]%Z [[0; 0; 0]; [0; 0; 0]]%Z = Ok [[7; 8; 0]; [8; 8; 0]]%Z.
Proof. vm_compute. reflexivity. Qed.

(** An empty density file makes the reader store an uninitialised number. *)
Theorem C69_density_empty_is_ub : forall size tabs, (0 < size)%nat -> tabs <> [] -> read_density size [] tabs = UB.
Proof. intros [|size] [|t tabs] H N; [lia|lia|congruence|reflexivity]. Qed.

Print Assumptions C69_power.
Print Assumptions C69_power_any.
Print Assumptions C69_density.
Print Assumptions C69_density_partial.
Print Assumptions C69_density_row_order_refuted.
Print Assumptions C69_density_short_is_silent.
Print Assumptions C69_density_empty_is_ub.

(** Two layers of a 2 x 3 table, with the real tile boxes. *)
Example C69_example : read_density 6
  (write_density column_order (fun x y => [Z.of_nat x; Z.of_nat y; Z.of_nat (x + 1); Z.of_nat (y + 1)]) 2 3
     [[1; 2; 3; 4; 5; 6]; [10; 20; 30; 40; 50; 60]]%Z)
  [repeat 0%Z 6; repeat 0%Z 6] = Ok [[1; 2; 3; 4; 5; 6]; [10; 20; 30; 40; 50; 60]]%Z.
Proof. vm_compute. reflexivity. Qed.
