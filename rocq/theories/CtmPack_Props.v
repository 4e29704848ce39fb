From Verif Require Import Base Ctm_Model Ctm_Spec Ctm_Proofs Ctm_Props CtmTable_Model CtmTable_Spec CtmTable_Props CtmPack_Model CtmPack_Spec CtmPack_Proofs.
From Coq Require Import QArith Qminmax Lqa.
Local Close Scope Q_scope.
Local Open Scope res_scope.

Lemma complete_acceptable : forall m, complete m -> acceptable m.
Proof.
  intros m [W L P D]. split; [apply (w_temps _ W)|]. split; [exact L|]. split; [|split].
  - destruct (temps (ch_hdr m)) as [|t ts] eqn:T; [pose proof (w_temps _ W) as X; rewrite T in X; cbn in X; lia|].
    destruct (P t (or_introl eq_refl)) as [tb [[ps [E _]] _]]. eauto.
  - intros t I. destruct (P t I) as [tb [S _]]. eauto.
  - intros l I. destruct (D l I) as [tb [S [Z1 [Z2 Z3]]]]. exists tb. split; [exact S|]. rewrite Z3. f_equal; lia.
Qed.

(** ** C142: writing and reading a package *)

(** A complete chip thermal model is written, whatever was in the folder and in an older package, and reading the package gives
    the power table of every header temperature and the metal density of every header layer, and nothing else.  Missing for the
    full claim: what C49 misses of the header, tables that do not lie in column order (see C69), and what the model holds
    besides the header, which is not written. *)
Theorem C142_round_trip_partial : forall boxw m k, (forall x y, List.length (boxw x y) = 4%nat) ->
  complete m -> (forall n tb, density m n tb -> sized (ch_hdr m) tb) ->
  exists k' m', write_package column_order boxw m k = (true, k') /\ read_package (k_pack k') = Ok (Some m') /\
    ch_hdr m' = read_back (ch_hdr m) /\
    (forall t tb, In t (temps (ch_hdr m)) -> sample m t tb -> sized (ch_hdr m) tb -> sample m' t tb) /\
    (forall l tb, In l (layers (ch_hdr m)) -> density m (l_name l) tb -> density m' (l_name l) tb) /\
    (forall t tb, sample m' t tb -> In t (temps (ch_hdr m))) /\
    (forall n tb, density m' n tb -> exists l, In l (layers (ch_hdr m)) /\ l_name l = n).
Proof.
  intros boxw m k Hb C DS. destruct (read_core boxw m k Hb (c_hdr _ C) (complete_acceptable m C)) as [k' [m' [R1 [R2 [R3 [R4 [R5 [R6 R7]]]]]]]].
  { intros n tb D. destruct (DS n tb D) as [_ [_ L]]. exact L. }
  assert (Sz : forall tb, sized (ch_hdr m) tb ->
    mktab (Z.to_nat (fst (tiles (ch_hdr m)))) (Z.to_nat (snd (tiles (ch_hdr m)))) (tb_vals tb) = tb).
  { intros [w h v] [Z1 [Z2 _]]. cbn in *. f_equal; lia. }
  exists k', m'. repeat (split; [assumption|]). split; [|split; [|split; assumption]].
  - intros t tb I Sa Z. specialize (R4 t tb I Sa). rewrite <- (Sz tb Z).
    pose proof (C69_power (tb_vals tb) (repeat 0%Z (tile_count (ch_hdr m)))) as P. unfold write_power in P. rewrite P in R4; [exact R4|].
    rewrite repeat_length. destruct Z as [Z1 [Z2 ->]]. unfold tile_count. f_equal; lia.
  - intros l tb I D. rewrite <- (Sz tb) by (apply (DS (l_name l)); exact D). apply R6; assumption.
Qed.

Definition five_temps (ts : list Z) (ls : list lay) (w h : Z) : hdr :=
  mkhdr false version_head 10000000 1000000 (mkbox 0 0 5 5) (mkbox 0 0 5 5) (w, h) ts ls [] [] [].
Definition pow_case : list (Z * tab) :=
  map (fun t => (t, mktab 2 1 [t; t + 1]%Z)) [25; 50; 75; 100; 125; 150]%Z.
Definition m_case : chip := mkchip (five_temps [25; 50; 75; 100; 125]%Z [mklay (bytes "M1") 7; mklay (bytes "M2") 9] 2 1) (Some pow_case)
  [(bytes "M2", Some (mktab 2 1 [3; 4]%Z)); (bytes "M1", Some (mktab 2 1 [5; 6]%Z)); (bytes "M9", None)].
Lemma header_case : forall ts ls w h, (5 <= List.length ts)%nat -> (List.length ls <= 9)%nat ->
  Forall (fun l => word (l_name l)) ls -> (0 <= w <= 9)%Z -> (0 <= h <= 9)%Z -> writable (five_temps ts ls w h).
Proof.
  intros ts ls w h L N F Hw Hh. constructor; cbn -[bytes contains_ci]; try (constructor; fail); try lia.
  all: try (exists (bytes " 1.0"); split; [reflexivity|vm_compute; intuition discriminate]).
  all: try (intros _; vm_compute; reflexivity).
  eapply Forall_impl; [|exact F]. intros l Wd. split; [exact Wd|]. split; [intro; discriminate|discriminate].
Qed.
Example C142_round_trip_case : complete m_case /\ (forall n tb, density m_case n tb -> sized (ch_hdr m_case) tb) /\
  rmap (option_map ch_powers) (read_package (k_pack (snd (write_package column_order (fun _ _ => [0; 0; 0; 0]%Z) m_case
    (mkdisk [(FDensity, CText [])] None))))) = Ok (Some (Some (firstn 5 pow_case))) /\
  rmap (option_map ch_dens) (read_package (k_pack (snd (write_package column_order (fun _ _ => [0; 0; 0; 0]%Z) m_case
    (mkdisk [(FPower 1, CText [])] (Some [])))))) =
    Ok (Some [(bytes "M1", Some (mktab 2 1 [5; 6]%Z)); (bytes "M2", Some (mktab 2 1 [3; 4]%Z))]).
Proof.
  assert (DS : forall n tb, density m_case n tb -> sized (ch_hdr m_case) tb).
  { intros n tb D. unfold density in D. apply (alookup_in _ text_eqb_spec) in D.
    cbn in D. destruct D as [D|[D|[D|[]]]]; try discriminate; injection D as _ <-; repeat split. }
  split; [|split; [exact DS|split; vm_compute; reflexivity]]. constructor.
  - apply header_case; cbn; try lia. repeat constructor; cbn; unfold blank; try discriminate; lia.
  - discriminate.
  - intros t I. cbn in I.
    repeat (destruct I as [<-|I]; [eexists; split; [exists pow_case; split; [reflexivity|vm_compute; reflexivity]|repeat split]|]). destruct I.
  - intros l I. cbn in I. repeat (destruct I as [<-|I]; [eexists; split; [vm_compute; reflexivity|repeat split]|]). destruct I.
Qed.

(** ** C143: refusals and interruptions *)

(** A model is accepted exactly if it has five temperatures, at least one layer, a power table for every temperature and a
    density of the right number of tiles for every layer. *)
Theorem C143_accepted : forall pos boxw m k, fst (write_package pos boxw m k) = true <-> acceptable m.
Proof. intros. apply write_accepted. Qed.

(** A refusal leaves the older package alone. *)
Theorem C143_refused_keeps_package : forall pos boxw m k, fst (write_package pos boxw m k) = false ->
  k_pack (snd (write_package pos boxw m k)) = k_pack k.
Proof.
  intros pos boxw m k F. unfold write_package in *. cbn [fst snd] in *. apply puts_pack. unfold write_steps in *.
  destruct (_ <? 5)%nat; [constructor|].
  assert (H0 : put_step (Put FHeader (CText (write_header (ch_hdr m))))) by (red; eauto).
  destruct (ch_powers m) as [ps|]; [|constructor; [exact H0|constructor]].
  pose proof (power_steps_puts ps (temps (ch_hdr m)) 0) as PP.
  destruct (power_steps ps 0 (temps (ch_hdr m))) as [s1 b]. cbn [fst] in PP.
  assert (HP : Forall put_step ([Put FHeader (CText (write_header (ch_hdr m)))] ++ s1)) by (constructor; [exact H0|exact PP]).
  destruct b; [|exact HP]. destruct (layer_tabs _ _) as [tabs|]; [|exact HP].
  destruct (density_words _ _ _ _) as [ws|]; [discriminate|exact HP].
Qed.

(** If the writer is stopped between two of its steps, the package is the older one unless all steps were done. *)
Theorem C143_interrupted : forall pos boxw m k n,
  let k' := do_steps k (firstn n (fst (write_steps pos boxw m))) in
  k_pack k' = k_pack k \/ k' = snd (write_package pos boxw m k) /\ fst (write_package pos boxw m k) = true.
Proof.
  intros pos boxw m k n k'. destruct (fst (write_package pos boxw m k)) eqn:F.
  - pose proof F as A. unfold write_package in A. cbn [fst] in A. apply write_accepted in A.
    destruct (write_shape pos boxw m A) as [ps [tabs [t0 [P [Pw [T [T0 [TL E]]]]]]]].
    subst k'. unfold write_package. rewrite E. cbn [fst snd].
    set (a := Put FHeader _). set (d := Put FDensity _). set (ss := written ps 0 (temps (ch_hdr m))).
    replace ([a] ++ ss ++ [d; Pack]) with (([a] ++ ss ++ [d]) ++ [Pack]) by (now rewrite <- !app_assoc).
    destruct (le_lt_dec n (List.length ([a] ++ ss ++ [d]))) as [L|L].
    + left. rewrite (firstn_app n ([a] ++ ss ++ [d]) [Pack]). rewrite (proj2 (Nat.sub_0_le _ _) L). rewrite firstn_O, app_nil_r. apply puts_pack.
      assert (Q : Forall put_step ([a] ++ ss ++ [d])).
      { apply Forall_app. split; [repeat constructor; red; unfold a; eauto|]. apply Forall_app. split; [|repeat constructor; red; unfold d; eauto].
        pose proof (power_steps_puts ps (temps (ch_hdr m)) 0) as PP. rewrite power_steps_all in PP by exact Pw. exact PP. }
      rewrite <- (firstn_skipn n) in Q. apply Forall_app in Q. apply Q.
    + right. split; [|reflexivity]. rewrite firstn_all2; [reflexivity|]. rewrite (app_length ([a] ++ ss ++ [d]) [Pack]). cbn [List.length]. lia.
  - left. pose proof (C143_refused_keeps_package pos boxw m k F) as R. subst k'.
    unfold write_package in *. cbn [fst snd] in *.
    apply puts_pack. assert (Z : Forall put_step (fst (write_steps pos boxw m))); [|rewrite <- (firstn_skipn n) in Z; apply Forall_app in Z; apply Z].
    clear R. unfold write_steps in *. destruct (_ <? 5)%nat; [constructor|].
    assert (H0 : put_step (Put FHeader (CText (write_header (ch_hdr m))))) by (red; eauto).
    destruct (ch_powers m) as [ps|]; [|constructor; [exact H0|constructor]].
    pose proof (power_steps_puts ps (temps (ch_hdr m)) 0) as PP.
    destruct (power_steps ps 0 (temps (ch_hdr m))) as [s1 b]. cbn [fst] in PP.
    assert (HP : Forall put_step ([Put FHeader (CText (write_header (ch_hdr m)))] ++ s1)) by (constructor; [exact H0|exact PP]).
    destruct b; [|exact HP]. destruct (layer_tabs _ _) as [tabs|]; [|exact HP].
    destruct (density_words _ _ _ _) as [ws|]; [discriminate|exact HP].
Qed.

(** Power tables of another size than the header says are not refused: they come back cut off, or filled up with zeros. *)
Theorem C143_power_size_not_refused : forall boxw m k, (forall x y, List.length (boxw x y) = 4%nat) ->
  writable (ch_hdr m) -> acceptable m -> (forall n tb, density m n tb -> List.length (tb_vals tb) = (tb_w tb * tb_h tb)%nat) ->
  exists k' m', write_package column_order boxw m k = (true, k') /\ read_package (k_pack k') = Ok (Some m') /\
    forall t tb, In t (temps (ch_hdr m)) -> sample m t tb -> exists tb', sample m' t tb' /\ sized (ch_hdr m) tb' /\
      forall i, (i < List.length (tb_vals tb'))%nat -> nth i (tb_vals tb') 0%Z = nth i (tb_vals tb) 0%Z.
Proof.
  intros boxw m k Hb W A WF. destruct (read_core boxw m k Hb W A WF) as [k' [m' [R1 [R2 [R3 [R4 _]]]]]].
  exists k', m'. split; [exact R1|]. split; [exact R2|]. intros t tb I Sa. eexists. split; [apply R4; eassumption|].
  pose proof (C69_power_any (tb_vals tb) (repeat 0%Z (tile_count (ch_hdr m)))) as [L N]. rewrite repeat_length in L, N.
  destruct (w_tiles _ W) as [[? _] [? _]]. split.
  - unfold sized. cbn [tb_w tb_h tb_vals]. repeat split; [lia|lia|exact L].
  - cbn [tb_vals]. intros i Hi. rewrite L in Hi. rewrite N by exact Hi. destruct (Nat.ltb_spec i (List.length (tb_vals tb))); [reflexivity|].
    rewrite (nth_overflow (tb_vals tb)) by lia. apply nth_repeat.
Qed.
Definition m_sizes : chip := mkchip (five_temps [25; 50; 75; 100; 125]%Z [mklay (bytes "M1") 7] 2 1)
  (Some [(25, mktab 3 1 [1; 2; 3]); (50, mktab 1 1 [4]); (75, mktab 2 1 [5; 6]); (100, mktab 2 1 [7; 8]); (125, mktab 2 1 [9; 9])]%Z)
  [(bytes "M1", Some (mktab 2 1 [5; 6]%Z))].
Example C143_power_size_case : acceptable m_sizes /\
  rmap (option_map ch_powers) (read_package (k_pack (snd (write_package column_order (fun _ _ => [0; 0; 0; 0]%Z) m_sizes (mkdisk [] None))))) =
  Ok (Some (Some [(25, mktab 2 1 [1; 2]); (50, mktab 2 1 [4; 0]); (75, mktab 2 1 [5; 6]); (100, mktab 2 1 [7; 8]); (125, mktab 2 1 [9; 9])]%Z)).
Proof. split; [apply (proj1 (write_accepted column_order (fun _ _ => [0; 0; 0; 0]%Z) m_sizes)); vm_compute; reflexivity|vm_compute; reflexivity]. Qed.

(** The folder is not emptied first: power files of temperatures an older model had are packed again. *)
Theorem C143_leftover_files_packed : forall pos boxw m k i c, acceptable m -> (List.length (temps (ch_hdr m)) < i)%nat ->
  get (FPower i) (k_dir k) = Some c ->
  exists d, k_pack (snd (write_package pos boxw m k)) = Some d /\ get (FPower i) d = Some c.
Proof.
  intros pos boxw m k i c A L G. destruct (write_shape pos boxw m A) as [ps [tabs [t0 [P [Pw [T [T0 [TL E]]]]]]]].
  destruct (package_get pos boxw m k A ps tabs t0 E) as [d [D1 [_ [_ [_ G3]]]]]. exists d. split; [exact D1|]. rewrite G3.
  destruct (Nat.leb_spec i (List.length (temps (ch_hdr m)))); [lia|]. rewrite andb_false_r. exact G.
Qed.
(** Reading gives no model when there is no package, when its header is missing or refused, or when a power file of a header
    temperature or the density file is missing. *)
Theorem C143_incomplete_package : forall p,
  (p = None \/ exists d, p = Some d /\
    ((forall t, get FHeader d <> Some (CText t)) \/ exists t, get FHeader d = Some (CText t) /\
      (parse_header default_hdr t = Ok None \/ exists h, parse_header default_hdr t = Ok (Some h) /\
        ((exists i, (1 <= i <= List.length (temps h))%nat /\ forall ws, get (FPower i) d <> Some (CWords ws)) \/
         (forall ws, get FDensity d <> Some (CWords ws)))))) ->
  read_package p = Ok None.
Proof.
  intros p [->|[d [-> H]]]; [reflexivity|]. unfold read_package. destruct H as [H|[t [Ht H]]].
  - destruct (get FHeader d) as [[t|ws]|]; try reflexivity. destruct (H t eq_refl).
  - rewrite Ht. destruct H as [H|[h [Hh H]]].
    + rewrite H. reflexivity.
    + rewrite Hh. cbn [bind]. set (w := Z.to_nat (fst (tiles h))). set (hh := Z.to_nat (snd (tiles h))). destruct H as [[i [Hi H]]|H].
      * assert (R : forall ts k acc, (k < i <= k + List.length ts)%nat -> read_powers d w hh k ts acc = None).
        { induction ts as [|u ts IH]; intros k acc L; cbn [List.length] in L; [lia|]. cbn [read_powers].
          destruct (Nat.eq_dec (k + 1) i) as [->|N].
          - destruct (get (FPower i) d) as [[x|ws]|]; try reflexivity. destruct (H ws eq_refl).
          - destruct (get (FPower (k + 1)) d) as [[x|ws]|]; try reflexivity. apply IH. lia. }
        rewrite R by lia. reflexivity.
      * destruct (read_powers d w hh 0 (temps h) []); [|reflexivity].
        destruct (get FDensity d) as [[x|ws]|]; try reflexivity. destruct (H ws eq_refl).
Qed.
Example C143_incomplete_case : exists d, k_pack (snd (write_package column_order (fun _ _ => [0; 0; 0; 0]%Z) m_case (mkdisk [] None))) = Some d /\
  (exists c, read_package (Some d) = Ok (Some c)) /\
  read_package (Some (filter (fun e => match fst e with FPower 3 => false | _ => true end) d)) = Ok None /\
  read_package (Some (filter (fun e => match fst e with FDensity => false | _ => true end) d)) = Ok None.
Proof. eexists. split; [vm_compute; reflexivity|]. split; [eexists; vm_compute; reflexivity|]. split; vm_compute; reflexivity. Qed.
(** Models that are refused: too few temperatures, a missing power table, a missing density, a density of the wrong size. *)
Example C143_refused_case : forall k, map (fun m => write_package column_order (fun _ _ => [0; 0; 0; 0]%Z) m k)
    [mkchip (five_temps [25; 50; 75; 100]%Z [mklay (bytes "M1") 7] 2 1) (Some pow_case) (ch_dens m_case);
     mkchip (ch_hdr m_case) None (ch_dens m_case)] =
    [(false, k); (false, do_steps k [Put FHeader (CText (write_header (ch_hdr m_case)))])] /\
  map (fun m => fst (write_package column_order (fun _ _ => [0; 0; 0; 0]%Z) m k))
    [mkchip (ch_hdr m_case) (Some (removelast (removelast pow_case))) (ch_dens m_case);
     mkchip (ch_hdr m_case) (Some pow_case) (tl (ch_dens m_case));
     mkchip (ch_hdr m_case) (Some pow_case) [(bytes "M1", Some (mktab 2 1 [3; 4]%Z)); (bytes "M2", Some (mktab 1 1 [3]%Z))];
     m_case] = [false; false; false; true].
Proof. intros k. split; reflexivity. Qed.

(** ** C144: the pictures *)

(** Every metal density that is there gets a picture, and there are no others. *)
Theorem C144_layers : forall m n tb, In (PLayer n tb) (pictures m) <-> In (n, Some tb) (ch_dens m).
Proof.
  intros m n tb. unfold pictures. rewrite in_app_iff. split.
  - intros [H|H].
    + destruct (ch_powers m); [|destruct H]. apply in_flat_map in H as [t [_ H]].
      destruct (alookup _ _ _); [destruct H as [H|[]]; discriminate|destruct H].
    + apply in_flat_map in H as [[n' [tb'|]] [I H]]; cbn in H; [|destruct H]. destruct H as [[= <- <-]|[]]. exact I.
  - intros I. right. apply in_flat_map. exists (n, Some tb). split; [exact I|left; reflexivity].
Qed.

(** A power picture shows the table of a header temperature, on the scale of all tables. *)
Theorem C144_powers_only : forall m t tb r, In (PPower t tb r) (pictures m) ->
  In t (temps (ch_hdr m)) /\ sample m t tb /\ exists ps, ch_powers m = Some ps /\ r = get_range ps.
Proof.
  intros m t tb r H. unfold pictures in H. apply in_app_iff in H as [H|H].
  - destruct (ch_powers m) as [ps|] eqn:P; [|destruct H]. apply in_flat_map in H as [t' [I H]].
    destruct (alookup Z.eqb t' ps) as [tb'|] eqn:E; [|destruct H]. destruct H as [[= <- <- <-]|[]].
    split; [|split; [exists ps; auto|exists ps; auto]]. rewrite <- (firstn_skipn (Nat.min (List.length (temps (ch_hdr m))) (List.length ps))).
    apply in_app_iff. left. exact I.
  - apply in_flat_map in H as [[n' [tb'|]] [I H]]; cbn in H; [|destruct H]. destruct H as [?|[]]. discriminate.
Qed.

(** If every header temperature has a table, every one gets a picture.  Missing for the full claim: headers with a temperature
    that has no table. *)
Theorem C144_powers_partial : forall m, NoDup (temps (ch_hdr m)) -> (forall t, In t (temps (ch_hdr m)) -> exists tb, sample m t tb) ->
  forall t tb, In t (temps (ch_hdr m)) -> sample m t tb -> exists r, In (PPower t tb r) (pictures m).
Proof.
  intros m N All t tb I [ps [P E]]. exists (get_range ps). unfold pictures. rewrite P. apply in_app_iff. left.
  assert (L : (List.length (temps (ch_hdr m)) <= List.length ps)%nat).
  { rewrite <- (map_length fst ps). apply NoDup_incl_length; [exact N|]. intros u U. destruct (All u U) as [tu [ps' [P' E']]].
    apply (alookup_some_key _ Z.eqb_spec u tu). congruence. }
  rewrite Nat.min_l by exact L. rewrite firstn_all. apply in_flat_map. exists t. split; [exact I|]. rewrite E. left. reflexivity.
Qed.
Example C144_powers_case : map (fun p => match p with PPower t _ _ => t | PLayer _ _ => 0%Z end) (pictures m_case) = [25; 50; 75; 100; 125; 0; 0]%Z.
Proof. reflexivity. Qed.

(** A table at a later temperature gets no picture if an earlier temperature has no table. *)
Theorem C144_powers_refuted : exists m t tb, NoDup (temps (ch_hdr m)) /\ In t (temps (ch_hdr m)) /\ sample m t tb /\
  forall r, ~ In (PPower t tb r) (pictures m).
Proof.
  exists (mkchip (five_temps [25; 50]%Z [] 2 1) (Some [(50, mktab 2 1 [1; 2])]%Z) []), 50%Z, (mktab 2 1 [1; 2]%Z).
  split; [repeat constructor; cbn; intuition lia|]. split; [right; left; reflexivity|]. split; [eexists; split; reflexivity|].
  intros r H. destruct H.
Qed.

(** The shade of a value within the scale lies between 0 and 1, the ends are reached, and a larger value has a larger shade. *)
Theorem C144_shade : forall lo hi d, (lo < hi)%Z -> (lo <= d <= hi)%Z -> exists q, shade lo hi d = Some q /\ (0 <= q <= 1)%Q /\
  (d = lo -> q == 0)%Q /\ (d = hi -> q == 1)%Q /\
  forall d' q', shade lo hi d' = Some q' -> ((d < d')%Z <-> (q < q')%Q).
Proof.
  intros lo hi d L D. unfold shade. destruct (Z.ltb_spec hi lo); [lia|]. destruct (Z.eqb_spec hi lo); [lia|].
  assert (P : (0 < inject_Z (hi - lo))%Q) by (change 0%Q with (inject_Z 0); rewrite <- Zlt_Qlt; lia).
  eexists. split; [reflexivity|]. split; [split|split; [|split]].
  - apply Qle_shift_div_l; [exact P|]. rewrite Qmult_0_l. change 0%Q with (inject_Z 0). rewrite <- Zle_Qle. lia.
  - apply Qle_shift_div_r; [exact P|]. rewrite Qmult_1_l. rewrite <- Zle_Qle. lia.
  - intros ->. rewrite Z.sub_diag. unfold Qdiv. apply Qmult_0_l.
  - intros ->. apply Qmult_inv_r. intros E. rewrite E in P. apply (Qlt_irrefl 0). exact P.
  - intros d' q' [= <-]. unfold Qdiv. rewrite Qmult_lt_r by (apply Qinv_lt_0_compat; exact P). rewrite <- Zlt_Qlt. lia.
Qed.
Example C144_shade_case : shade 10 30 15 = Some (5 # 20)%Q.
Proof. reflexivity. Qed.

(** The two ends of the scale may come in either order. *)
Theorem C144_shade_ends : forall lo hi d, shade lo hi d = shade hi lo d.
Proof.
  intros lo hi d. unfold shade. destruct (Z.ltb_spec hi lo), (Z.ltb_spec lo hi); try lia; try reflexivity.
  replace hi with lo by lia. reflexivity.
Qed.
Example C144_shade_ends_case : shade 30 10 15 = Some (5 # 20)%Q.
Proof. reflexivity. Qed.

(** A power picture of a model whose tables all hold one value divides zero by zero. *)
Theorem C144_uniform_fails : forall v d, shade v v d = None.
Proof. intros v d. unfold shade. destruct (v <? v)%Z; rewrite Z.eqb_refl; reflexivity. Qed.

(** ** C145: range of values, need for interpolation *)

(** The range holds every value of every table, and both ends occur. *)
Theorem C145_range : forall ps, match get_range ps with
  | Some (lo, hi) =>
      (forall t tb v, In (t, tb) ps -> In v (tb_vals tb) -> (lo <= v <= hi)%Z) /\
      (exists t tb, In (t, tb) ps /\ In lo (tb_vals tb)) /\ (exists t tb, In (t, tb) ps /\ In hi (tb_vals tb))
  | None => forall t tb, In (t, tb) ps -> tb_vals tb = []
  end.
Proof.
  intros ps. rewrite get_range_flat. pose proof (widen_fold (flat_map (fun s => tb_vals (snd s)) ps) None) as H.
  destruct (fold_left _ _ _) as [[lo hi]|].
  - destruct H as [B [L U]]. split; [|split].
    + intros t tb v I V. destruct (B v) as [X|[a [b [X _]]]]; [left; apply in_flat_map; exists (t, tb); auto|exact X|discriminate].
    + destruct L as [L|[b X]]; [|discriminate]. apply in_flat_map in L as [[t tb] [I V]]. eauto.
    + destruct U as [U|[b X]]; [|discriminate]. apply in_flat_map in U as [[t tb] [I V]]. eauto.
  - destruct H as [H _]. intros t tb I. destruct (tb_vals tb) as [|v vs] eqn:E; [reflexivity|].
    exfalso. apply (@in_nil Z v). rewrite <- H. apply in_flat_map. exists (t, tb). cbn [snd]. rewrite E. split; [exact I|left; reflexivity].
Qed.
Example C145_range_case : get_range pow_case = Some (25, 151)%Z.
Proof. reflexivity. Qed.

(** Interpolation is needed exactly if two tables differ. *)
Theorem C145_interpolation : forall ps, need_interpolation ps = true <->
  exists t tb t' tb', In (t, tb) ps /\ In (t', tb') ps /\ tb <> tb'.
Proof.
  intros [|[t0 tb0] ps]; cbn [need_interpolation]; [split; [discriminate|intros [t [tb [t' [tb' [[] _]]]]]]|].
  cbn [snd]. split.
  - intros H. apply existsb_exists in H as [[t tb] [I H]]. exists t0, tb0, t, tb. split; [left; reflexivity|]. split; [right; exact I|].
    cbn in H. destruct (tab_eqb_spec tb0 tb); [discriminate|assumption].
  - intros [t [tb [t' [tb' [I [I' N]]]]]]. apply existsb_exists.
    destruct (tab_eqb_spec tb0 tb) as [<-|N0].
    + destruct I' as [[= <- <-]|I']; [congruence|]. exists (t', tb'). split; [exact I'|]. cbn. destruct (tab_eqb_spec tb0 tb'); [contradiction|reflexivity].
    + destruct I as [[= <- <-]|I]; [congruence|]. exists (t, tb). split; [exact I|]. cbn. destruct (tab_eqb_spec tb0 tb); [contradiction|reflexivity].
Qed.
Example C145_interpolation_case : need_interpolation pow_case = true /\ need_interpolation [(1, mktab 1 1 [5]); (2, mktab 1 1 [5])]%Z = false.
Proof. split; reflexivity. Qed.

Print Assumptions C142_round_trip_partial.
Print Assumptions C143_accepted.
Print Assumptions C143_refused_keeps_package.
Print Assumptions C143_interrupted.
Print Assumptions C143_power_size_not_refused.
Print Assumptions C143_leftover_files_packed.
Print Assumptions C144_layers.
Print Assumptions C144_powers_only.
Print Assumptions C144_powers_partial.
Print Assumptions C144_powers_refuted.
Print Assumptions C144_shade.
Print Assumptions C143_incomplete_package.
Print Assumptions C144_shade_ends.
Print Assumptions C144_uniform_fails.
Print Assumptions C145_range.
Print Assumptions C145_interpolation.
