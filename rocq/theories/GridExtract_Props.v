(** Theorems C88-C91 about the grid thermal model extracted from a layout. *)
From Verif Require Import Base QSum LookupTable_Model LookupTable_Spec LookupTable_Proofs LookupTable_Props.
From Verif Require Import Fraction_Model Fraction_Spec Fraction_Proofs Fraction_Props GridExtract_Model GridExtract_Spec GridExtract_Proofs.
From Verif Require Import ThermalNetwork_Model Grid_Model Grid_Spec Grid_Proofs Grid_Props.
Open Scope Q_scope.

(** * C89, layers *)
Lemma append_all_good : forall ls m lm, NoDup (map xl_id ls) -> (forall l, In l ls -> alookup Z.eqb (xl_id l) lm = None) ->
  (forall l, In l ls -> 0 <= xl_thick l /\ xl_size l = (g_nx m, g_ny m)) -> consistent m ->
  exists m' lm', append_all m lm ls = Ok (m', lm') /\ consistent m' /\ g_nx m' = g_nx m /\ g_ny m' = g_ny m /\
    List.length (g_layers m') = (List.length (g_layers m) + List.length ls)%nat /\
    (forall i k, alookup Z.eqb i lm = Some k -> alookup Z.eqb i lm' = Some k) /\
    (forall k x, nth_error (g_layers m) k = Some x -> exists x', nth_error (g_layers m') k = Some x' /\ same_but_neighbors x' x) /\
    (forall k l, nth_error ls k = Some l -> alookup Z.eqb (xl_id l) lm' = Some (List.length (g_layers m) + k)%nat /\
       exists g, nth_error (g_layers m') (List.length (g_layers m) + k) = Some g /\ same_but_neighbors g (layer_of l)).
Proof.
  assert (R : forall x, same_but_neighbors x x) by (intros; repeat split).
  induction ls as [|l ls IH]; intros m lm ND Hf Hl Hc; cbn [append_all].
  - exists m, lm; split; [reflexivity|]; split; [exact Hc|]; split; [reflexivity|]; split; [reflexivity|]; split; [cbn [List.length]; lia|]; split; [auto|]; split; [eauto|intros [|k]; discriminate].
  - pose proof (C61_append_result m (layer_of l)) as A; pose proof (append_layer_consistent m (layer_of l) Hc) as Hc'.
    destruct (Hl l (or_introl eq_refl)) as [Ht Hs].
    destruct (append_layer m (layer_of l)) as [m1 [i|]]; cbn [fst] in Hc'; [|cbn in A; destruct A as [_ [A|A]]; [lra|congruence]].
    destruct A as (_ & _ & -> & L1 & X1 & Y1 & (l' & N1 & S1) & O1).
    apply NoDup_cons_iff in ND as [Nl ND].
    assert (El : alookup Z.eqb (xl_id l) lm = None) by (apply Hf; left; reflexivity).
    destruct (IH m1 (aemplace Z.eqb (xl_id l) (List.length (g_layers m)) lm)) as (m2 & lm2 & E & C2 & X2 & Y2 & L2 & K2 & O2 & V2); auto.
    { intros x Hx; rewrite (alookup_emplace _ Z_eqb_reflect); destruct (alookup Z.eqb (xl_id x) lm) eqn:Ex; [rewrite Hf in Ex by (right; auto); discriminate|].
      destruct (Z.eqb_spec (xl_id x) (xl_id l)) as [Exl|]; [|reflexivity].
      exfalso; apply Nl; rewrite <- Exl; apply in_map; auto. }
    { intros x Hx; rewrite X1, Y1; apply Hl; right; auto. }
    exists m2, lm2; split; [exact E|]; split; [exact C2|]; rewrite X2, Y2, X1, Y1, L2, L1; cbn [List.length].
    repeat split; try lia.
    + intros j k Hj; apply K2; rewrite (alookup_emplace _ Z_eqb_reflect), Hj; reflexivity.
    + intros k x Hk; destruct (O1 k x Hk) as (x' & Hk' & Sx & _); destruct (O2 k x' Hk') as (x'' & Hk'' & Sx'); exists x''; split; [exact Hk''|].
      unfold same_but_neighbors in *; intuition congruence.
    + destruct k as [|k]; cbn [nth_error] in H.
      * injection H as <-; rewrite Nat.add_0_r; apply K2; rewrite (alookup_emplace _ Z_eqb_reflect), El, Z.eqb_refl; reflexivity.
      * destruct (V2 k l0 H) as [-> _]; rewrite L1; f_equal; lia.
    + destruct k as [|k]; cbn [nth_error] in H.
      * injection H as <-; rewrite Nat.add_0_r; destruct (O2 _ _ N1) as (x'' & Hx & Sx); exists x''; split; [exact Hx|].
        unfold same_but_neighbors in *; intuition congruence.
      * destruct (V2 k l0 H) as [_ (g & Hg & Sg)]; exists g; split; [|exact Sg]; rewrite L1 in Hg; replace (List.length (g_layers m) + Datatypes.S k)%nat with (Datatypes.S (List.length (g_layers m)) + k)%nat by lia; exact Hg.
Qed.

(** Stack-up layers with different ids, no negative thickness and maps of the size of the grid become the layers of
    the model: as many, in the same order, each with name, thickness and metal map of its own, linked to its
    neighbours; and the id of a layer leads to its position. *)
Theorem C89_layers nx ny rx ry ls : NoDup (map xl_id ls) -> (forall l, In l ls -> 0 <= xl_thick l /\ xl_size l = (nx, ny)) ->
  exists m lm, extract_layers nx ny rx ry ls = Ok (m, lm) /\ consistent m /\ g_nx m = nx /\ g_ny m = ny /\
    List.length (g_layers m) = List.length ls /\
    forall k l, nth_error ls k = Some l -> alookup Z.eqb (xl_id l) lm = Some k /\
      exists g, nth_error (g_layers m) k = Some g /\ l_name g = xl_name l /\ l_thick g = xl_thick l /\ l_mf g = xl_mf l /\ l_power g = [].
Proof.
  intros ND Hl; destruct (append_all_good ls (mkGrid nx ny rx ry 1 [] [] None None [] []) [] ND) as (m & lm & E & C & X & Y & L & _ & _ & V).
  - reflexivity.
  - exact Hl.
  - split; [intros l []|intros [|i]; discriminate].
  - exists m, lm; split; [exact E|]; split; [exact C|]; split; [exact X|]; split; [exact Y|]; split; [exact L|].
    intros k l Hk; destruct (V k l Hk) as [A (g & Hg & S1 & S2 & S3 & S4 & S5)]; split; [exact A|]; exists g; auto.
Qed.
Print Assumptions C89_layers.

(** A layer of negative thickness or with a map of another size stops the extraction. *)
Theorem C89_bad_layer_throws nx ny rx ry ls : (exists l, In l ls /\ (xl_thick l < 0 \/ xl_size l <> (nx, ny))) ->
  extract_layers nx ny rx ry ls = Throw.
Proof.
  intros (l & Hl & Hb); unfold extract_layers.
  assert (G : forall ls m lm, g_nx m = nx -> g_ny m = ny -> In l ls -> append_all m lm ls = Throw).
  { clear - Hb; induction ls as [|a ls IH]; intros m lm X Y; [intros []|]; cbn [append_all In]; intros Hl.
    pose proof (C61_append_result m (layer_of a)) as A; destruct (append_layer m (layer_of a)) as [m1 [i|]]; [|reflexivity].
    destruct A as (A1 & A2 & _ & _ & X1 & Y1 & _); destruct Hl as [<-|Hl].
    - cbn in A1, A2; exfalso; destruct Hb as [Hb|Hb]; [lra|apply Hb; congruence].
    - apply IH; congruence. }
  apply G; auto.
Qed.
Print Assumptions C89_bad_layer_throws.

(** * C89, powers *)

(** With every lossy component placed in the region, extraction succeeds.  At each sample the power of a cell of a
    layer is the sum of the shares of the lossy components of that layer, a share being an equal part of its loss
    for every tile its box meets; a layer gets a power model exactly if it has a lossy component. *)
Theorem C89_cell_powers lm ax ay cs : proper ax -> proper ay -> (forall c, In c cs -> lossy c = true -> placed lm ax ay c) ->
  exists gm, extract_powers lm ax ay [] cs = Ok gm /\
    forall k, (alookup Nat.eqb k gm = None <-> filter (on_layer lm k) cs = []) /\
      forall gs, alookup Nat.eqb k gm = Some gs -> List.length gs = List.length temps /\
        forall n t g, nth_error temps n = Some t -> nth_error gs n = Some g ->
          forall i j, g i j == sumf (share_of ax ay t i j) (filter (on_layer lm k) cs).
Proof.
  intros Px Py Hp; destruct (extract_powers_good lm ax ay Px Py cs [] [] Hp) as (gm & E & G).
  - intros k; split; [split; reflexivity|discriminate].
  - exists gm; split; [exact E|exact G].
Qed.
Print Assumptions C89_cell_powers.

Lemma total_share ax ay ll ur p : proper ax -> proper ay -> (fst ll <= fst ur)%Z -> (snd ll <= snd ur)%Z ->
  inside ax (fst ll) -> inside ay (snd ll) -> inside ax (fst ur) -> inside ay (snd ur) ->
  total (Z.to_nat (a_tiles ax)) (Z.to_nat (a_tiles ay)) (share ax ay (ll, ur) p) == p.
Proof.
  intros Px Py Bx By I1 I2 I3 I4.
  destruct (C57_power ax ay (fun _ _ => 0) {| c_ll := ll; c_ur := ur; c_power := p |} Px Py (conj Bx By) I1 I2 I3 I4) as (g' & E & T & _).
  destruct (spread_share ax ay (fun _ _ => 0) ll ur p Px Py Bx By I1 I2 I3 I4) as (g'' & E' & V); rewrite E in E'; injection E' as <-.
  cbn [c_power] in T.
  assert (Z0 : total (Z.to_nat (a_tiles ax)) (Z.to_nat (a_tiles ay)) (fun _ _ => 0) == 0).
  { unfold total; induction (list_prod _ _) as [|c l IH]; cbn [sumf]; [reflexivity|rewrite IH; ring]. }
  rewrite Z0 in T; rewrite <- (Qplus_0_l p) at 2; rewrite <- T; unfold total; clear - V.
  induction (list_prod _ _) as [|c l IH]; cbn [sumf]; [reflexivity|rewrite IH, V; ring].
Qed.

Lemma sumf_swap {A B} (f : A -> B -> Q) (l1 : list A) (l2 : list B) :
  sumf (fun a => sumf (f a) l2) l1 == sumf (fun b => sumf (fun a => f a b) l1) l2.
Proof.
  induction l1 as [|a l1 IH]; cbn [sumf].
  - induction l2 as [|b l2 IH2]; cbn [sumf]; [reflexivity|rewrite <- IH2; ring].
  - rewrite IH; clear IH; induction l2 as [|b l2 IH2]; cbn [sumf]; [ring|rewrite <- IH2; ring].
Qed.

(** No loss is missing or counted twice: at each sample the cells of a layer add up to the losses of its components. *)
Theorem C89_layer_total lm ax ay cs gm : proper ax -> proper ay -> (forall c, In c cs -> lossy c = true -> placed lm ax ay c) ->
  extract_powers lm ax ay [] cs = Ok gm ->
  forall k gs n t g, alookup Nat.eqb k gm = Some gs -> nth_error temps n = Some t -> nth_error gs n = Some g ->
    total (Z.to_nat (a_tiles ax)) (Z.to_nat (a_tiles ay)) g == sumf (loss_at t) (filter (on_layer lm k) cs).
Proof.
  intros Px Py Hp E k gs n t g Hk Hn Hg.
  destruct (C89_cell_powers lm ax ay cs Px Py Hp) as (gm' & E' & V); rewrite E in E'; injection E' as <-.
  destruct (proj2 (V k) gs Hk) as [_ W]; specialize (W n t g Hn Hg); clear - W Px Py Hp.
  transitivity (sumf (fun c => sumf (share_of ax ay t (fst c) (snd c)) (filter (on_layer lm k) cs)) (list_prod (seq 0 (Z.to_nat (a_tiles ax))) (seq 0 (Z.to_nat (a_tiles ay))))).
  { unfold total; induction (list_prod _ _) as [|c l IH]; cbn [sumf]; [reflexivity|rewrite IH, W; reflexivity]. }
  rewrite sumf_swap; clear W.
  assert (H : forall c, In c (filter (on_layer lm k) cs) -> sumf (fun a => share_of ax ay t (fst a) (snd a) c) (list_prod (seq 0 (Z.to_nat (a_tiles ax))) (seq 0 (Z.to_nat (a_tiles ay)))) == loss_at t c).
  { intros c Hc; apply filter_In in Hc as [Hc Ho]; assert (Hl : lossy c = true) by (unfold on_layer in Ho; apply andb_true_iff in Ho; tauto).
    destruct (Hp c Hc Hl) as (ll & ur & Eb & _ & [Bx By] & I1 & I2 & I3 & I4); unfold share_of; rewrite Eb; apply (total_share ax ay ll ur); auto. }
  induction (filter (on_layer lm k) cs) as [|c l IH]; cbn [sumf]; [reflexivity|].
  rewrite (H c (or_introl eq_refl)), IH; [reflexivity|intros; apply H; right; auto].
Qed.
Print Assumptions C89_layer_total.

Definition outside (a : axis) (p : Z) : Prop := (p < a_lo a \/ a_hi a < p)%Z.
(** A lossy component on a layer the stack-up does not have, without a boundary or with a corner outside the region
    stops the extraction. *)
Theorem C89_unplaced_throws lm ax ay gm c : lossy c = true ->
  alookup Z.eqb (xc_layer c) lm = None \/ xc_box c = None \/
  (a_stride ax <> 0%Z /\ a_stride ay <> 0%Z /\ exists ll ur, xc_box c = Some (ll, ur) /\
     (outside ax (fst ll) \/ outside ay (snd ll) \/ outside ax (fst ur) \/ outside ay (snd ur))) ->
  (forall gs, alookup Nat.eqb (match alookup Z.eqb (xc_layer c) lm with Some k => k | None => 0%nat end) gm = Some gs -> gs <> []) ->
  add_component lm ax ay gm c = Throw.
Proof.
  intros Hl H Hgs; unfold add_component; destruct (table_of (xc_loss c)) as [|s r] eqn:Et.
  { apply (proj1 (table_of_nil _)) in Et; unfold lossy in Hl; rewrite Et in Hl; discriminate. }
  destruct (alookup Z.eqb (xc_layer c) lm) as [k|] eqn:Ek; [|reflexivity].
  destruct H as [H|[H|(Sx & Sy & ll & ur & Eb & H)]]; [discriminate|rewrite H; reflexivity|rewrite Eb].
  set (gs0 := match alookup Nat.eqb k gm with Some gs => gs | None => _ end).
  assert (Hg : exists g gs, gs0 = g :: gs).
  { unfold gs0; destruct (alookup Nat.eqb k gm) as [gs|] eqn:E; [destruct gs; [exfalso; exact (Hgs [] eq_refl eq_refl)|eauto]|cbn [map temps]; eauto]. }
  destruct Hg as (g & gs & ->); unfold temps; cbn [spread_temps].
  destruct (C14_lookup_returns (xc_loss c) 25) as (p & ->); cbn [bind]; unfold spread; cbn [c_ll c_ur].
  assert (E : forall a p0, a_stride a <> 0%Z -> exists i, get_index a p0 = Ok i).
  { intros a p0 Ha; unfold get_index; destruct (_ && _)%bool; [|eauto]; destruct (Z.eqb_spec (a_stride a) 0); [congruence|eauto]. }
  assert (E0 : forall a p0, outside a p0 -> get_index a p0 = Ok None).
  { intros a p0; unfold outside, get_index; destruct (Z.leb_spec (a_lo a) p0), (Z.leb_spec p0 (a_hi a)); cbn [andb]; try reflexivity; lia. }
  destruct (E ax (fst ll) Sx) as (i0 & F0), (E ay (snd ll) Sy) as (i1 & F1), (E ax (fst ur) Sx) as (i2 & F2), (E ay (snd ur) Sy) as (i3 & F3).
  destruct H as [H|[H|[H|H]]]; apply E0 in H;
    [rewrite H, F1, F2, F3|rewrite F0, H, F2, F3; destruct i0|rewrite F0, F1, H, F3; destruct i0, i1|rewrite F0, F1, F2, H; destruct i0, i1, i2]; reflexivity.
Qed.
Print Assumptions C89_unplaced_throws.

Definition ax4 := {| a_lo := 0; a_hi := 40; a_tiles := 4; a_stride := 10 |}.
Definition ay2 := {| a_lo := 0; a_hi := 20; a_tiles := 2; a_stride := 10 |}.
Definition two_layers := [mkXL 7 "top" (1 # 10) (4, 2)%nat (fun _ _ => 1); mkXL 3 "bot" (2 # 10) (4, 2)%nat (fun _ _ => 1 # 2)].
Definition two_comps := [mkXC [(300, 6)] 7 (Some ((5, 5), (25, 15)))%Z; mkXC [] 99 None; mkXC [(300, 4)] 7 (Some ((12, 2), (18, 8)))%Z].
Example C89_ex : match extract_layers 4 2 1 1 two_layers with
  | Ok (m, lm) => map l_name (g_layers m) = ["top"; "bot"]%string /\ lm = [(7%Z, 0%nat); (3%Z, 1%nat)] /\
      match extract_powers lm ax4 ay2 [] two_comps with
      | Ok [(0%nat, [g; _; _; _; _])] => map (fun c => Qred (g (fst c) (snd c))) (list_prod (seq 0 4) (seq 0 2)) = [1; 1; 5; 1; 1; 1; 0; 0]
      | _ => False end
  | _ => False end.
Proof. vm_compute; repeat split. Qed.
Example C89_ex_placed : forall c, In c two_comps -> lossy c = true -> placed [(7%Z, 0%nat); (3%Z, 1%nat)] ax4 ay2 c.
Proof.
  intros c [<-|[<-|[<-|[]]]] H; try discriminate; [exists (5, 5)%Z, (25, 15)%Z|exists (12, 2)%Z, (18, 8)%Z]; cbn; unfold inside; cbn; repeat split; try lia; discriminate.
Qed.

(** * C88 *)
Lemma table_of_in (h : list (Q * Q)) s : In s (table_of h) -> In s h.
Proof.
  unfold table_of; assert (G : forall (h t : list (Q * Q)), In s (fold_left add_sample h t) -> In s t \/ In s h).
  { induction h0 as [|a h0 IH]; intros t; cbn [fold_left In]; [auto|]; intros H; apply IH in H as [H|H]; [|auto].
    assert (T : In s (add_sample t a) -> s = a \/ In s t).
    { unfold add_sample; destruct a as [k v]; cbn [fst snd]; induction t as [|[k' v'] t IHt]; cbn [tbl_emplace In]; [intuition congruence|].
      destruct (qltb k k'); [cbn [In]; intuition congruence|]; destruct (qltb k' k); cbn [In]; intuition. }
    apply T in H as [->|H]; auto. }
  intros H; apply G in H as [[]|H]; auto.
Qed.
Lemma constant_lookup h v : (forall s, In s h -> snd s == v) -> h <> [] -> forall x q, lookup (table_of h) x = Ok q -> q == v.
Proof.
  intros Hc Hn x q Hq; assert (H : forall s, In s (table_of h) -> snd s == v) by (intros s Hs; apply Hc, table_of_in, Hs).
  destruct (C14_cases_cover h x) as [E|[(a & r & E & Hx)|[(a & r & E & Hx)|(a & b & Hn' & Hx)]]].
  - apply (proj1 (table_of_nil _)) in E; congruence.
  - destruct (C14_clamps_below h a r x E Hx) as (q' & E' & V); rewrite Hq in E'; injection E' as <-; rewrite V; apply H; rewrite E; left; auto.
  - destruct (C14_clamps_above h a r x E Hx) as (q' & E' & V); rewrite Hq in E'; injection E' as <-; rewrite V; apply H; rewrite E; apply in_or_app; right; left; auto.
  - assert (Ia : snd a == v) by (destruct Hn' as (p & q0 & Eq); apply H; rewrite Eq; apply in_or_app; right; left; auto).
    assert (Ib : snd b == v) by (destruct Hn' as (p & q0 & Eq); apply H; rewrite Eq; apply in_or_app; right; right; left; auto).
    destruct (C14_between_neighbours h a b x Hn' Hx) as (q' & E' & V1 & _); rewrite Hq in E'; injection E' as <-; lra.
Qed.

(** The power a layer is given for a temperature [K] it is sampled at should be what its components lose at [K].  That
    is so for components whose loss does not depend on the temperature. *)
Theorem C88_power_at_temperature_partial lm ax ay cs gm : proper ax -> proper ay ->
  (forall c, In c cs -> lossy c = true -> placed lm ax ay c) -> (forall c, In c cs -> constant_loss c) ->
  extract_powers lm ax ay [] cs = Ok gm ->
  forall k gs K g, alookup Nat.eqb k gm = Some gs -> In (K, g) (power_samples gs) ->
    forall i j, g i j == sumf (share_of ax ay K i j) (filter (on_layer lm k) cs).
Proof.
  intros Px Py Hp Hc E k gs K g Hk Hin i j.
  destruct (C89_cell_powers lm ax ay cs Px Py Hp) as (gm' & E' & V); rewrite E in E'; injection E' as <-.
  destruct (proj2 (V k) gs Hk) as [L W].
  apply In_nth_error in Hin as (n & Hn); unfold power_samples in Hn.
  assert (N : exists t, nth_error temps n = Some t /\ nth_error gs n = Some g).
  { clear - Hn; revert gs n Hn; generalize temps; intros ts; induction ts as [|t ts IH]; intros gs n; cbn [map combine]; [destruct n; discriminate|].
    destruct gs as [|g0 gs]; [destruct n; discriminate|]; destruct n as [|n]; cbn [nth_error]; [intros [= _ <-]; eauto|apply IH]. }
  destruct N as (t & Ht & Hg); rewrite (W n t g Ht Hg i j).
  assert (Q0 : forall c, In c (filter (on_layer lm k) cs) -> share_of ax ay t i j c == share_of ax ay K i j c).
  { intros c Hf; apply filter_In in Hf as [Hi Ho].
    assert (El : loss_at t c == loss_at K c).
    { unfold loss_at; destruct (C14_lookup_returns (xc_loss c) t) as (q1 & E1), (C14_lookup_returns (xc_loss c) K) as (q2 & E2); rewrite E1, E2.
      destruct (xc_loss c) as [|s r] eqn:El; [unfold on_layer, lossy in Ho; rewrite El in Ho; discriminate|].
      assert (A : forall s', In s' (s :: r) -> snd s' == snd s) by (intros s' Hs'; apply (Hc c Hi); rewrite El; [exact Hs'|left; reflexivity]).
      rewrite (constant_lookup _ _ A ltac:(discriminate) _ _ E1), (constant_lookup _ _ A ltac:(discriminate) _ _ E2); reflexivity. }
    unfold share_of; destruct (xc_box c) as [[[x0 y0] [x1 y1]]|]; [|reflexivity]; unfold share; destruct (_ && _)%bool; [rewrite El|]; reflexivity. }
  clear - Q0; induction (filter (on_layer lm k) cs) as [|c l IH]; cbn [sumf]; [reflexivity|].
  rewrite (Q0 c (or_introl eq_refl)), IH; [reflexivity|intros; apply Q0; right; auto].
Qed.
Print Assumptions C88_power_at_temperature_partial.

(** It is not so in general: SetLossPower takes kelvins, the losses are read at 25, 50, ... 125 - degrees Celsius
    taken as kelvins - and stored under 298.15 K, ... 398.15 K.  A component that loses 1 W at 298.15 K and 2 W at
    398.15 K is given 1 W at 398.15 K. *)
Theorem C88_power_at_temperature_refuted :
  exists lm ax ay cs gm gs K g i j, proper ax /\ proper ay /\ (forall c, In c cs -> lossy c = true -> placed lm ax ay c) /\
    extract_powers lm ax ay [] cs = Ok gm /\ alookup Nat.eqb 0%nat gm = Some gs /\ In (K, g) (power_samples gs) /\
    g i j == 1 /\ sumf (share_of ax ay K i j) (filter (on_layer lm 0) cs) == 2.
Proof.
  set (c := mkXC [(29815 # 100, 1); (39815 # 100, 2)] 7 (Some ((2, 2), (8, 8)))%Z).
  set (lm := [(7%Z, 0%nat)]).
  assert (Px : proper ax4) by (unfold proper; cbn; lia); assert (Py : proper ay2) by (unfold proper; cbn; lia).
  assert (Hp : forall c0, In c0 [c] -> lossy c0 = true -> placed lm ax4 ay2 c0).
  { intros c0 [<-|[]] _; exists (2, 2)%Z, (8, 8)%Z; cbn; unfold inside; cbn; repeat split; try lia; discriminate. }
  destruct (C89_cell_powers lm ax4 ay2 [c] Px Py Hp) as (gm & E & V).
  destruct (alookup Nat.eqb 0%nat gm) as [gs|] eqn:Eg; [|destruct (V 0%nat) as [[V1 _] _]; specialize (V1 Eg); discriminate].
  destruct (proj2 (V 0%nat) gs Eg) as [L W]; destruct gs as [|g0 [|g1 [|g2 [|g3 [|g4 [|]]]]]]; try discriminate.
  exists lm, ax4, ay2, [c], gm, [g0; g1; g2; g3; g4], (celsius2kelvins 125), g4, 0%nat, 0%nat.
  do 5 (split; [assumption|]); split; [cbn; tauto|]; split.
  - rewrite (W 4%nat 125 g4 eq_refl eq_refl 0%nat 0%nat); vm_compute; reflexivity.
  - vm_compute; reflexivity.
Qed.
Print Assumptions C88_power_at_temperature_refuted.

Example C88_ex_constant : forall c, In c two_comps -> constant_loss c.
Proof. intros c [<-|[<-|[<-|[]]]] s s' H H'; cbn in H, H'; intuition (subst; reflexivity). Qed.

(** * C90 *)
(** A block of boundary condition with both corners inside the region: exactly the cells whose tiles it meets get the
    condition. *)
Theorem C90_block_cells_partial ax ay m x0 y0 x1 y1 v z : proper ax -> proper ay -> v <> BadBC -> (x0 <= x1)%Z -> (y0 <= y1)%Z ->
  inside ax x0 -> inside ay y0 -> inside ax x1 -> inside ay y1 ->
  g_nx m = Z.to_nat (a_tiles ax) -> g_ny m = Z.to_nat (a_tiles ay) ->
  exists b blk, extract_block ax ay (((x0, y0), (x1, y1)), v) = Ok (Some b) /\ block_of b = Some blk /\
    forall o, In o (block_bc_ops m [blk] z) <->
      exists i j, (i < g_nx m)%nat /\ (j < g_ny m)%nat /\ meets ax x0 x1 i = true /\ meets ay y0 y1 j = true /\ In o (bc_op m v (flatten m (i, j, z))).
Proof.
  intros Px Py Hv Bx By I1 I2 I3 I4 Nx Ny.
  destruct (get_index_inside _ _ Px I1) as (a0 & F1 & R1 & U1), (get_index_inside _ _ Py I2) as (b0 & F2 & R2 & U2),
           (get_index_inside _ _ Px I3) as (a1 & F3 & R3 & U3), (get_index_inside _ _ Py I4) as (b1 & F4 & R4 & U4).
  pose proof (get_index_mono _ _ _ _ _ Px Bx F1 F3) as Mx; pose proof (get_index_mono _ _ _ _ _ Py By F2 F4) as My.
  exists ((Some a0, Some b0), (Some a1, Some b1), v), (Z.to_nat a0, Z.to_nat b0, (Z.to_nat a1, Z.to_nat b1), v); split.
  { unfold extract_block, index_of; cbn [fst snd]; rewrite F1, F2, F3, F4; cbn [bind]; destruct v; [reflexivity|reflexivity|congruence]. }
  split; [reflexivity|]; intros o; unfold block_bc_ops; cbn [flat_map]; rewrite app_nil_r, in_flat_map; split.
  - intros (i & Hi & H); apply in_flat_map in H as (j & Hj & H); unfold range in Hi, Hj; apply in_seq in Hi, Hj; exists i, j.
    rewrite (meets_range ax x0 x1 a0 a1 i Px U1 U3), (meets_range ay y0 y1 b0 b1 j Py U2 U4), !andb_true_iff, !Z.leb_le; repeat split; try lia; exact H.
  - intros (i & j & Li & Lj & Mi & Mj & H); rewrite (meets_range ax x0 x1 a0 a1 i Px U1 U3) in Mi; rewrite (meets_range ay y0 y1 b0 b1 j Py U2 U4) in Mj.
    rewrite andb_true_iff, !Z.leb_le in Mi, Mj; exists i; split; [unfold range; apply in_seq; lia|]; apply in_flat_map; exists j; split; [unfold range; apply in_seq; lia|exact H].
Qed.
Print Assumptions C90_block_cells_partial.

Definition slab := mkGrid 4 2 1 1 1 [mkLayer "a" 1 "" "" (4, 2)%nat (fun _ _ => 0) []] [] None None [] [].
Example C90_ex : exists b blk, extract_block ax4 ay2 (((5, 5), (15, 8))%Z, HTC 3) = Ok (Some b) /\ block_of b = Some blk /\
  block_bc_ops slab [blk] 0 = [SetHTC (flatten slab (0, 0, 0)%nat) (zarea slab * 3); SetHTC (flatten slab (1, 0, 0)%nat) (zarea slab * 3)].
Proof. eexists; eexists; split; [reflexivity|]; split; reflexivity. Qed.

(** A block that reaches the upper edge of the region - as one over the whole layout does - also sets the condition
    on a cell it does not meet: the index of the edge is one past the last tile and is taken for the first cell of
    the next column. *)
Theorem C90_block_cells_refuted :
  exists ax ay m x0 y0 x1 y1 v b blk i j w,
    proper ax /\ proper ay /\ g_nx m = Z.to_nat (a_tiles ax) /\ g_ny m = Z.to_nat (a_tiles ay) /\
    (a_lo ax <= x0 <= x1 /\ x1 <= a_hi ax /\ a_lo ay <= y0 <= y1 /\ y1 <= a_hi ay)%Z /\
    extract_block ax ay (((x0, y0), (x1, y1)), v) = Ok (Some b) /\ block_of b = Some blk /\
    in_grid m (i, j, 0%nat) /\ meets ax x0 x1 i = false /\ In (SetHTC (flatten m (i, j, 0%nat)) w) (block_bc_ops m [blk] 0).
Proof.
  exists ax4, ay2, slab, 2%Z, 12%Z, 8%Z, 20%Z, (HTC 3); eexists; eexists; exists 1%nat, 0%nat, (zarea slab * 3).
  split; [unfold proper; cbn; lia|]; split; [unfold proper; cbn; lia|]; split; [reflexivity|]; split; [reflexivity|].
  split; [cbn; lia|]; split; [reflexivity|]; split; [reflexivity|]; split; [unfold in_grid; cbn; lia|]; split; [reflexivity|].
  right; left; reflexivity.
Qed.
Print Assumptions C90_block_cells_refuted.

(** A corner outside the region is not rejected: the block is added with the invalid index in its place. *)
Theorem C90_outside_not_rejected ax ay x0 y0 x1 y1 v : a_stride ax <> 0%Z -> a_stride ay <> 0%Z -> v <> BadBC -> (x0 < a_lo ax)%Z ->
  exists j ur, extract_block ax ay (((x0, y0), (x1, y1)), v) = Ok (Some ((None, j), ur, v)).
Proof.
  intros Sx Sy Hv H.
  assert (E : forall a p0, a_stride a <> 0%Z -> exists i, get_index a p0 = Ok i).
  { intros a p0 Ha; unfold get_index; destruct (_ && _)%bool; [|eauto]; destruct (Z.eqb_spec (a_stride a) 0); [congruence|eauto]. }
  assert (E0 : get_index ax x0 = Ok None) by (unfold get_index; destruct (Z.leb_spec (a_lo ax) x0); [lia|reflexivity]).
  destruct (E ay y0 Sy) as (j & Ej), (E ax x1 Sx) as (i2 & E2), (E ay y1 Sy) as (i3 & E3); exists j, (i2, i3).
  unfold extract_block, index_of; cbn [fst snd]; rewrite E0, Ej, E2, E3; cbn [bind]; destruct v; [reflexivity|reflexivity|congruence].
Qed.
Print Assumptions C90_outside_not_rejected.

(** An invalid condition is left out. *)
Theorem C90_invalid_left_out ax ay box : extract_block ax ay (box, BadBC) = Ok None.
Proof. reflexivity. Qed.
Print Assumptions C90_invalid_left_out.

(** * C91 *)
(** A bond wire on the first layer of the stack-up with both ends inside the region joins the cells below its ends. *)
Theorem C91_jump_partial lm ax ay w : proper ax -> proper ay -> alookup Z.eqb (xw_layer w) lm = Some 0%nat ->
  inside ax (fst (xw_from w)) -> inside ay (snd (xw_from w)) -> inside ax (fst (xw_to w)) -> inside ay (snd (xw_to w)) ->
  exists x0 y0 x1 y1, extract_jump ax ay w = Ok (((Some x0, Some y0), 0%nat), ((Some x1, Some y1), 0%nat), xw_alpha w) /\
    (tile_holds ax x0 (fst (xw_from w)) /\ tile_holds ay y0 (snd (xw_from w)) /\ tile_holds ax x1 (fst (xw_to w)) /\ tile_holds ay y1 (snd (xw_to w))) /\
    (0 <= x0 < a_tiles ax /\ 0 <= y0 < a_tiles ay /\ 0 <= x1 < a_tiles ax /\ 0 <= y1 < a_tiles ay)%Z.
Proof.
  intros Px Py _ I1 I2 I3 I4.
  destruct (get_index_inside _ _ Px I1) as (a0 & F1 & R1 & U1), (get_index_inside _ _ Py I2) as (b0 & F2 & R2 & U2),
           (get_index_inside _ _ Px I3) as (a1 & F3 & R3 & U3), (get_index_inside _ _ Py I4) as (b1 & F4 & R4 & U4).
  exists a0, b0, a1, b1; split; [unfold extract_jump, index_of; rewrite F1, F2, F3, F4; reflexivity|]; auto.
Qed.
Print Assumptions C91_jump_partial.

Example C91_ex : extract_jump ax4 ay2 (mkXW (5, 5) (35, 15) 7 2)%Z = Ok (((Some 0%Z, Some 0%Z), 0%nat), ((Some 3%Z, Some 1%Z), 0%nat), 2).
Proof. reflexivity. Qed.

(** A wire bonded on another layer is still joined to the first one. *)
Theorem C91_jump_refuted : exists lm ax ay w k a b alpha, proper ax /\ proper ay /\
  inside ax (fst (xw_from w)) /\ inside ay (snd (xw_from w)) /\ inside ax (fst (xw_to w)) /\ inside ay (snd (xw_to w)) /\
  alookup Z.eqb (xw_layer w) lm = Some k /\ extract_jump ax ay w = Ok ((a, 0%nat), (b, 0%nat), alpha) /\ k <> 0%nat.
Proof.
  exists [(7%Z, 0%nat); (3%Z, 1%nat)], ax4, ay2, (mkXW (5, 5) (35, 15) 3 2)%Z; do 4 eexists.
  split; [unfold proper; cbn; lia|]; split; [unfold proper; cbn; lia|]; unfold inside; cbn [fst snd xw_from xw_to ax4 ay2 a_lo a_hi].
  do 4 (split; [lia|]); split; [reflexivity|]; split; [reflexivity|discriminate].
Qed.
Print Assumptions C91_jump_refuted.

(** A wire that starts outside the region is not rejected: it is added with the invalid index. *)
Theorem C91_outside_not_rejected ax ay w : a_stride ax <> 0%Z -> a_stride ay <> 0%Z -> (fst (xw_from w) < a_lo ax)%Z ->
  exists j b, extract_jump ax ay w = Ok (((None, j), 0%nat), (b, 0%nat), xw_alpha w).
Proof.
  intros Sx Sy H.
  assert (E : forall a p0, a_stride a <> 0%Z -> exists i, get_index a p0 = Ok i).
  { intros a p0 Ha; unfold get_index; destruct (_ && _)%bool; [|eauto]; destruct (Z.eqb_spec (a_stride a) 0); [congruence|eauto]. }
  assert (E0 : get_index ax (fst (xw_from w)) = Ok None) by (unfold get_index; destruct (Z.leb_spec (a_lo ax) (fst (xw_from w))); [lia|reflexivity]).
  destruct (E ay (snd (xw_from w)) Sy) as (j & Ej), (E ax (fst (xw_to w)) Sx) as (i2 & E2), (E ay (snd (xw_to w)) Sy) as (i3 & E3).
  exists j, (i2, i3); unfold extract_jump, index_of; rewrite E0, Ej, E2, E3; reflexivity.
Qed.
Print Assumptions C91_outside_not_rejected.
