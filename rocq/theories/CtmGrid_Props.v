(** C103-C106: conversion between chip thermal models and grid thermal models. *)
From Coq Require Import Permutation.
From Verif Require Import Base QSum.
From Verif Require CtmStack_Model CtmStack_Spec CtmStack_Proofs CtmStack_Props Keyed_Model ThermalNetwork_Model Grid_Model Grid_Props.
From Verif Require Import CtmGrid_Model CtmGrid_Spec CtmGrid_Proofs.
Import CtmStack_Model CtmStack_Spec CtmStack_Proofs.
Import Grid_Model (glayer, mkLayer, l_name, l_thick, l_top, l_bot, l_size, l_mf, l_power,
                   power, PGrid, PBlock, gmodel, g_nx, g_ny, g_resx, g_resy, g_scale, g_layers, append_layer).
Import Keyed_Model (grid, gr_w, gr_h, gr_at, gtable, gt_query).
Local Open Scope res_scope.

(** * C103: the exported chip model *)

(** A grid model is exported exactly when its resolutions in x and y are equal (by the library's
    comparison [ne]) and its layer names are distinct. *)
Theorem C103_export_iff : forall ne enc m,
  (exists c, export ne enc m = Some c) <->
  ne (x_resx m) (x_resy m) = false /\ NoDup (map (fun l => l_name (fst l)) (x_layers m)).
Proof.
  intros ne enc m. split.
  - intros [c H]. destruct (export_some _ _ _ _ H) as [H1 H2]. split; [exact H1|apply H2].
  - intros [H1 H2]. destruct (export ne enc m) as [c|] eqn:E; [eauto|].
    destruct (export_none _ _ _ E) as [F|F]; [congruence|contradiction].
Qed.
Print Assumptions C103_export_iff.

(** The chip model repeats the grid: resolution in micrometres, scale, tiles, and the layers from top
    to bottom, each starting as high as everything below its upper face is thick; metal and via layers
    are told apart by the metal flag, a via layer names its neighbours, and every layer has the metal
    fraction of its grid layer. *)
Theorem C103_export_describes : forall ne enc m c, export ne enc m = Some c ->
  cc_encrypted c = enc /\ cc_res c == x_resx m * 1000000 /\ cc_scale c = x_scale m /\
  fst (cc_size c) == inject_Z (Z.of_nat (x_nx m)) * cc_res c /\ snd (cc_size c) == inject_Z (Z.of_nat (x_ny m)) * cc_res c /\
  (cc_tx c, cc_ty c) = (x_nx m, x_ny m) /\ cc_temps c = [25; 50; 75; 100; 125] /\
  List.length (cc_layers c) = List.length (x_layers m) /\
  (forall k l b, nth_error (x_layers m) k = Some (l, b) ->
     exists cl, nth_error (cc_layers c) k = Some cl /\ cl_name cl = l_name l /\
       cl_elev cl == height_from (x_layers m) k * 1000000 /\ cl_thick cl == l_thick l * 1000000 /\
       (b = true <-> In (mkmetal (cl_name cl) (cl_elev cl) (cl_thick cl)) (h_metal (cc_head c)))) /\
  h_tech (cc_head c) = map (fun l => l_name (fst l)) (x_layers m) /\
  map ml_name (h_metal (cc_head c)) = map (fun l => l_name (fst l)) (filter snd (x_layers m)) /\
  h_via (cc_head c) = map (fun l => mkvia (l_name (fst l)) (l_top (fst l)) (l_bot (fst l))) (filter (fun l => negb (snd l)) (x_layers m)) /\
  (forall l b, In (l, b) (x_layers m) -> exists g, alookup String.eqb (l_name l) (cc_dens c) = Some (Some g) /\
     (gr_w g, gr_h g) = l_size l /\ forall x y, gr_at g x y = l_mf l x y) /\
  (forall n, ~ In n (map (fun l => l_name (fst l)) (x_layers m)) -> alookup String.eqb n (cc_dens c) = None).
Proof.
  intros ne enc m c H. destruct (export_some _ _ _ _ H) as [_ Hex]. pose proof Hex as Hex'.
  destruct Hex' as [Hn (cs & ms & vs & E & ->)].
  cbn [cc_encrypted cc_res cc_scale cc_size cc_tx cc_ty cc_temps cc_layers cc_head cc_dens h_tech h_metal h_via fst snd].
  destruct (export_layers_cs _ _ _ _ _ E) as (L & N & G). destruct (export_layers_ms _ _ _ _ _ E) as [Nm Gm].
  repeat (split; [reflexivity || exact L|]). split.
  - intros k l b Hk. eexists. split; [exact (G k _ Hk)|]. cbn [cl_name cl_elev cl_thick].
    split; [reflexivity|]. split; [|split; [reflexivity|split]].
    + rewrite elev_at_height by (apply Nat.lt_le_incl, nth_error_Some; congruence).
      rewrite total_thickness_sum. unfold height_from. lra.
    + intros ->. apply Gm. exists k, l. auto.
    + intros Hin. apply Gm in Hin as (j & x & Hj & Ex). injection Ex as Ex _ _.
      assert (j = k) as -> by (apply (nodup_index name_of (x_layers m) j k (x, true) (l, b)); auto).
      rewrite Hk in Hj. injection Hj as _ ->. reflexivity.
  - split; [exact N|]. split; [exact Nm|]. split; [exact (export_layers_vs _ _ _ _ _ E)|]. split.
    + intros l b Hin. eexists. split; [exact (dens_from_new _ [] (l, b) Hin Hn eq_refl)|].
      cbn [fst snd gr_w gr_h gr_at]. split; [destruct (l_size l); reflexivity|reflexivity].
    + intros n Hn'. exact (dens_from_none _ [] n Hn' eq_refl).
Qed.
Print Assumptions C103_export_describes.

(** * C104: power *)

(** What is asked of the interpolation: it meets its samples. *)
Definition meets_samples (pchip : list Q -> list Q -> Q -> res Q) : Prop :=
  forall xs ys i x y, (4 <= List.length xs)%nat -> List.length xs = List.length ys ->
    nth_error xs i = Some x -> nth_error ys i = Some y -> exists v, pchip xs ys x = Ok v /\ v == y.

(** At each of its temperatures the exported power table holds, for every tile, what the power models
    of all layers give together. *)
Theorem C104_table_power : forall ne enc m c pchip T x y, meets_samples pchip ->
  export ne enc m = Some c -> In T (cc_temps c) -> (x < x_nx m)%nat -> (y < x_ny m)%nat ->
  exists t v, cc_powers c = Some t /\ snd (gt_query pchip t T x y) = (true, Ok v) /\ v == model_power (x_layers m) T x y.
Proof.
  intros ne enc m c pchip T x y Hp H HT Hx Hy. destruct (export_some _ _ _ _ H) as [_ [_ (cs & ms & vs & E & ->)]].
  cbn [cc_temps cc_powers] in *. exists (power_table m).
  enough (G : exists v, snd (gt_query pchip (power_table m) T x y) = (true, Ok v) /\ v == tile_power (x_layers m) T x y).
  { destruct G as (v & G1 & G2). exists v. split; [reflexivity|]. split; [exact G1|]. rewrite G2. apply tile_power_sum. }
  rewrite power_table_eq. unfold gt_query. cbn [Keyed_Model.gt_w Keyed_Model.gt_h Keyed_Model.gt_data].
  rewrite (proj2 (Nat.leb_gt _ _) Hx), (proj2 (Nat.leb_gt _ _) Hy). cbn [orb].
  unfold temperatures in *. cbn [map sample last].
  assert (Hin : forall i, nth_error [25; 50; 75; 100; 125] i = Some T -> Qle_bool T 25 = false -> Qle_bool 125 T = false ->
    exists v, snd (let (t', i) := Keyed_Model.gt_build (Keyed_Model.mkGT (x_nx m) (x_ny m) [sample m 25; sample m 50; sample m 75; sample m 100; sample m 125] None) in
              (t', (true, pchip (fst i) (snd i x y) T))) = (true, Ok v) /\ v == tile_power (x_layers m) T x y).
  { intros i Hi _ _. unfold Keyed_Model.gt_build. cbn [Keyed_Model.gt_interp fst snd Keyed_Model.gt_data map sample].
    cbn [Keyed_Model.gr_at].
    destruct (Hp [25; 50; 75; 100; 125] (map (fun k => tile_power (x_layers m) k x y) [25; 50; 75; 100; 125]) i T (tile_power (x_layers m) T x y)) as (v & Hv & Ev).
    - cbn. lia.
    - reflexivity.
    - exact Hi.
    - apply (map_nth_error (fun k => tile_power (x_layers m) k x y)). exact Hi.
    - exists v. cbn [map] in Hv. rewrite Hv. split; [reflexivity|exact Ev]. }
  destruct HT as [<-|[<-|[<-|[<-|[<-|[]]]]]].
  - exists (tile_power (x_layers m) 25 x y). split; reflexivity.
  - exact (Hin 1%nat eq_refl eq_refl eq_refl).
  - exact (Hin 2%nat eq_refl eq_refl eq_refl).
  - exact (Hin 3%nat eq_refl eq_refl eq_refl).
  - exists (tile_power (x_layers m) 125 x y). split; reflexivity.
Qed.
Print Assumptions C104_table_power.

(** Nothing is lost of power blocks inside the grid: at each temperature the tiles of the exported
    table add up to the totals of all blocks. *)
Definition block_in (nx ny : nat) (p : power) : Prop :=
  match p with
  | PBlock llx lly urx ury _ => (llx <= urx < nx)%nat /\ (lly <= ury < ny)%nat
  | PGrid _ => False
  end.
Definition block_total (p : power) : Q := match p with PBlock _ _ _ _ total => total | PGrid _ => 0 end.
Theorem C104_block_totals : forall ne enc m c pchip T, meets_samples pchip ->
  export ne enc m = Some c -> In T (cc_temps c) ->
  (forall l p, In l (x_layers m) -> In p (l_power (fst l)) -> block_in (x_nx m) (x_ny m) p) ->
  exists t, cc_powers c = Some t /\
    sumf (fun x => sumf (fun y => match snd (gt_query pchip t T x y) with (true, Ok v) => v | _ => 0 end) (seq 0 (x_ny m))) (seq 0 (x_nx m))
    == sumf (fun l => sumf block_total (l_power (fst l))) (x_layers m).
Proof.
  intros ne enc m c pchip T Hp H HT Hb. pose proof (export_some _ _ _ _ H) as [_ [_ (cs & ms & vs & E & Ec)]].
  exists (power_table m). split; [rewrite Ec; reflexivity|].
  etransitivity.
  { apply sumf_ext. intros x Hx. apply sumf_ext. intros y Hy. apply in_seq in Hx, Hy.
    destruct (C104_table_power ne enc m c pchip T x y Hp H HT) as (t & v & H1 & H2 & H3); [lia|lia|].
    rewrite Ec in H1. injection H1 as <-. rewrite H2. exact H3. }
  unfold model_power. set (ps := flat_map (fun l : glayer * bool => l_power (fst l)) (x_layers m)).
  assert (Hps : forall p, In p ps -> block_in (x_nx m) (x_ny m) p).
  { intros p Hin. apply in_flat_map in Hin as (l & H1 & H2). exact (Hb l p H1 H2). }
  rewrite <- (sumf_flat_map (fun l : glayer * bool => l_power (fst l)) block_total (x_layers m)). fold ps.
  clearbody ps. clear - Hps. induction ps as [|p ps IH]; cbn [sumf].
  - apply sumf_zero. intros. apply sumf_zero. reflexivity.
  - assert (Hr : forall q, In q ps -> block_in (x_nx m) (x_ny m) q) by (intros q Hq; apply Hps; right; exact Hq).
    rewrite <- (IH Hr).
    etransitivity; [apply sumf_ext; intros x _; apply sumf_plus|]. rewrite sumf_plus. apply Qplus_comp; [|reflexivity].
    specialize (Hps p (or_introl eq_refl)). destruct p as [q|llx lly urx ury total]; [destruct Hps|]. destruct Hps as [Hx Hy].
    etransitivity; [|exact (proj1 (Grid_Props.C34_block_power_total llx lly urx ury total (x_nx m) (x_ny m) Hx Hy))].
    apply sumf_ext. intros x _. apply sumf_ext. intros y _. unfold source_power, Grid_Model.block_query.
    rewrite (Nat.mul_comm (urx - llx + 1)). reflexivity.
Qed.
Print Assumptions C104_block_totals.

(** Between and outside these temperatures the table is not the model: a power that grows with the
    temperature stays at its value at 125 degrees. *)
Definition warm_layer : glayer :=
  mkLayer "M1" 1 "" "" (1%nat, 1%nat) (fun _ _ => 1) [PGrid (fun T _ _ => Some T)].
Definition warm_model : xmodel := mkx 1 1 1 1 1 [(warm_layer, true)].
Theorem C104_other_temperatures_refuted :
  exists m c t, export (fun a b => negb (Qeq_bool a b)) false m = Some c /\ cc_powers c = Some t /\
    forall pchip, exists v, snd (gt_query pchip t 200 0 0) = (true, Ok v) /\ ~ v == model_power (x_layers m) 200 0 0.
Proof.
  exists warm_model. eexists. eexists. split; [reflexivity|]. split; [reflexivity|]. intros pchip.
  exists 125. split; [reflexivity|]. vm_compute. discriminate.
Qed.
Print Assumptions C104_other_temperatures_refuted.

(** * C106: the imported grid model *)

(** The grid model has the tiles, scale and resolution of the chip model, and its layers are those of
    the stack-up: each has the stack-up layer's thickness and name, and as metal fraction the density
    of its only layer, or the clipped sum of the densities of the layers merged into it; the chip's
    power table goes to the lowest layer holding a metal layer, and to any other of the same name.
    A layer whose only density is missing or of another size than the tiles is left out without notice.
    [order] is the order in which the names of merged layers are walked. *)
Theorem C106_import_layers : forall pchip order fuel c g, import pchip order fuel c = Ok (Some g) ->
  (g_nx g, g_ny g) = (cc_tx c, cc_ty c) /\
  (0 <= cc_scale c -> g_scale g = cc_scale c) /\
  (0 <= cc_res c -> g_resx g == cc_res c / 1000000 /\ g_resy g == cc_res c / 1000000) /\
  exists st s, build_stackup fuel (cc_head c) = Ok st /\
    (exists st1 st2, st = st1 ++ s :: st2 /\ (exists n mm, In n (sl_names s) /\ In mm (h_metal (cc_head c)) /\ ml_name mm = n) /\
       forall s' n mm, In s' st2 -> In n (sl_names s') -> In mm (h_metal (cc_head c)) -> ml_name mm <> n) /\
    stack_of c order
      (match cc_powers c with
       | Some t => [PGrid (fun T x y => match snd (gt_query pchip t T x y) with (true, Ok v) => Some v | _ => None end)]
       | None => []
       end) (String.concat "_" (order (sl_names s))) st (g_layers g).
Proof.
  intros pchip order fuel c g H. destruct (import_some _ _ _ _ _ H) as (st & m & Hst & Hdev & Hm & ->).
  destruct (import_layers_ok _ _ _ _ _ (new_grid (cc_tx c) (cc_ty c)) _ eq_refl eq_refl Hm) as [R (ls & G1 & G2)].
  unfold rest_of, new_grid in R. cbn in R. injection R as R1 R2 R3 R4 R5 _ _ _ _ _.
  split; [unfold set_resolution, set_scale; destruct (_ || _)%bool, (ThermalNetwork_Model.Qltb (cc_scale c) 0); cbn; congruence|].
  split.
  { intros Hs. apply Qltb_false in Hs. unfold set_resolution, set_scale. rewrite Hs. destruct (_ || _)%bool; reflexivity. }
  split.
  { intros Hr. assert (E : ThermalNetwork_Model.Qltb (cc_res c * (1 # 1000000)) 0 = false) by (apply Qltb_false; lra).
    unfold set_resolution. rewrite E. cbn [orb g_resx g_resy Grid_Model.g_resx Grid_Model.g_resy]. split; field. }
  unfold device_layer in *.
  destruct (find (fun s => existsb (is_metal (cc_head c)) (sl_names s)) (rev st)) as [s|] eqn:Ef; [|congruence].
  exists st, s. split; [exact Hst|].
  assert (Hmet : forall s, existsb (is_metal (cc_head c)) (sl_names s) = true <->
    exists n mm, In n (sl_names s) /\ In mm (h_metal (cc_head c)) /\ ml_name mm = n).
  { intros s'. rewrite existsb_exists. unfold is_metal. split.
    - intros (n & Hn & Hx). apply existsb_exists in Hx as (mm & Hmm & Ex). apply String.eqb_eq in Ex. exists n, mm. auto.
    - intros (n & mm & Hn & Hmm & Ex). exists n. split; [exact Hn|]. apply existsb_exists. exists mm. split; [exact Hmm|].
      apply String.eqb_eq. exact Ex. }
  split.
  - assert (Hsplit : exists a b, rev st = a ++ s :: b /\ forall z, In z a -> existsb (is_metal (cc_head c)) (sl_names z) = false).
    { clear - Ef. revert Ef. generalize (rev st) as l. induction l as [|z l IH]; cbn [find]; [discriminate|].
      destruct (existsb (is_metal (cc_head c)) (sl_names z)) eqn:Ez.
      - intros H. injection H as ->. exists [], l. split; [reflexivity|intros ? []].
      - intros H. destruct (IH H) as (a & b & E & F). exists (z :: a), b. split; [rewrite E; reflexivity|].
        intros w [<-|Hw]; auto. }
    destruct Hsplit as (a & b & E & F). exists (rev b), (rev a). split.
    + rewrite <- (rev_involutive st), E, rev_app_distr. cbn [rev]. rewrite <- app_assoc. reflexivity.
    + apply find_some in Ef as [_ Ef]. split; [apply Hmet, Ef|].
      intros s' n mm Hs' Hn Hmm Ex. apply in_rev in Hs'. specialize (F _ Hs').
      assert (T : existsb (is_metal (cc_head c)) (sl_names s') = true) by (apply Hmet; exists n, mm; auto). congruence.
  - rewrite set_layers. apply (strip_stack _ _ _ _ _ ls).
    + exact G1.
    + rewrite G2. reflexivity.
Qed.
Print Assumptions C106_import_layers.

(** No grid model is made exactly when no metal layer has a place in the stack-up (or the lowest layer
    holding one has an empty name). *)
Theorem C106_no_model : forall pchip order fuel c st, build_stackup fuel (cc_head c) = Ok st ->
  (forall mm, In mm (h_metal (cc_head c)) -> ml_name mm <> ""%string) -> (forall l, Permutation l (order l)) ->
  (import pchip order fuel c = Ok None <->
   forall s n mm, In s st -> In n (sl_names s) -> In mm (h_metal (cc_head c)) -> ml_name mm <> n).
Proof.
  intros pchip order fuel c st Hst Hne Hord. unfold import. rewrite Hst. cbn [bind]. unfold device_layer.
  destruct (find (fun s => existsb (is_metal (cc_head c)) (sl_names s)) (rev st)) as [s|] eqn:Ef.
  - apply find_some in Ef as [Hs Hx]. apply in_rev in Hs. apply existsb_exists in Hx as (n & Hn & Hx).
    apply existsb_exists in Hx as (mm & Hmm & Hx). apply String.eqb_eq in Hx.
    assert (E : String.eqb (layer_name order s) "" = false).
    { apply String.eqb_neq. unfold layer_name, join. intros E.
      assert (Hin : In n (order (sl_names s))) by (apply (Permutation_in _ (Hord _)), Hn).
      assert (Hn' : n <> ""%string) by (rewrite <- Hx; apply Hne, Hmm).
      revert E Hin. clear - Hn'. generalize (order (sl_names s)) as l. destruct l as [|a l]; [intros _ []|].
      destruct l as [|b l].
      - cbn [String.concat]. intros -> [E|[]]. congruence.
      - intros E _. cbn [String.concat] in E. destruct a; cbn in E; discriminate. }
    rewrite E. split.
    + intros H. destruct (import_layers _ _ _ _ _ _); cbn [bind] in H; discriminate.
    + intros H. exfalso. exact (H s n mm Hs Hn Hmm Hx).
  - rewrite String.eqb_refl. split; [|reflexivity]. intros _ s n mm Hs Hn Hmm Hx.
    apply in_rev in Hs. pose proof (find_none _ _ Ef s Hs) as F. cbv beta in F.
    assert (T : existsb (is_metal (cc_head c)) (sl_names s) = true).
    { apply existsb_exists. exists n. split; [exact Hn|]. apply existsb_exists. exists mm. split; [exact Hmm|]. apply String.eqb_eq. exact Hx. }
    congruence.
Qed.
Print Assumptions C106_no_model.

(** Merging layers reads every density over all tiles without looking at its size: one that is smaller,
    or missing, makes the conversion undefined. *)
Theorem C106_small_density_is_ub : forall pchip order c s ps1 n d ps2 dev st g,
  order (sl_names s) = ps1 ++ n :: ps2 -> has_density c n d ->
  (forall a, In a ps1 -> exists x, has_density c a (Some x) /\ (cc_tx c <= gr_w x)%nat /\ (cc_ty c <= gr_h x)%nat) ->
  (exists a x, In a (ps1 ++ ps2) /\ has_density c a x) ->
  (0 < cc_tx c)%nat -> (0 < cc_ty c)%nat ->
  (d = None \/ exists x, d = Some x /\ (gr_w x < cc_tx c \/ gr_h x < cc_ty c)%nat) ->
  import_layers pchip order c dev (s :: st) g = UB.
Proof.
  intros pchip order c s ps1 n d ps2 dev st g Ho Hd Hp1 (a & x & Ha & Hax) Htx Hty Hbad. cbn [import_layers].
  unfold has_density in *.
  assert (Hin : forall b y, In b (order (sl_names s)) -> alookup String.eqb b (cc_dens c) = Some y -> In b (present c (order (sl_names s)))).
  { intros b y Hb Hy. apply filter_In. split; [exact Hb|]. unfold acount. rewrite Hy. reflexivity. }
  assert (Hpres : present c (order (sl_names s)) = present c ps1 ++ n :: present c ps2).
  { rewrite Ho. unfold present. rewrite filter_app. cbn [filter]. unfold acount at 2. rewrite Hd. reflexivity. }
  assert (Hnr : readable (cc_tx c) (cc_ty c) d = false).
  { unfold readable. destruct (Nat.eqb_spec (cc_tx c) 0), (Nat.eqb_spec (cc_ty c) 0); try lia. cbn [orb].
    destruct Hbad as [->|(z & -> & Hz)]; [reflexivity|]. apply andb_false_iff. rewrite !Nat.leb_gt. lia. }
  assert (Hub : forall acc, sum_dens c (present c ps1 ++ n :: present c ps2) acc = UB).
  { assert (Hp : forall b, In b (present c ps1) -> exists x, alookup String.eqb b (cc_dens c) = Some (Some x) /\ (cc_tx c <= gr_w x)%nat /\ (cc_ty c <= gr_h x)%nat).
    { intros b Hb. apply filter_In in Hb as [Hb _]. exact (Hp1 b Hb). }
    revert Hp. generalize (present c ps1) as l. induction l as [|b l IH]; intros Hp acc; cbn [app sum_dens].
    - rewrite Hd, Hnr. reflexivity.
    - destruct (Hp b (or_introl eq_refl)) as (z & Hz & Hw & Hh). rewrite Hz. unfold readable.
      rewrite (proj2 (Nat.leb_le _ _) Hw), (proj2 (Nat.leb_le _ _) Hh), orb_true_r. apply IH. intros b' Hb'. apply Hp. right. exact Hb'. }
  assert (Hlf : layer_fraction c (order (sl_names s)) = UB).
  { unfold layer_fraction. rewrite Hpres.
    assert (Hmore : present c ps1 ++ present c ps2 <> []).
    { intros E. assert (Hia : In a (present c ps1 ++ present c ps2)).
      { unfold present. rewrite <- filter_app. apply filter_In. split; [exact Ha|]. unfold acount. rewrite Hax. reflexivity. }
      rewrite E in Hia. destruct Hia. }
    specialize (Hub (fun _ _ => 0)).
    destruct (present c ps1) as [|p [|q l]]; cbn [app] in *.
    - destruct (present c ps2) as [|q l]; [congruence|]. rewrite Hub. reflexivity.
    - rewrite Hub. reflexivity.
    - rewrite Hub. reflexivity. }
  rewrite Hlf. reflexivity.
Qed.
Print Assumptions C106_small_density_is_ub.

(** The layers can be read, however they are merged, when every density covers all tiles, and also when
    there are no tiles to read. *)
Theorem C106_layers_readable : forall pchip order c dev st g,
  (cc_tx c = 0%nat \/ cc_ty c = 0%nat \/
   forall n d, has_density c n d -> exists x, d = Some x /\ (cc_tx c <= gr_w x)%nat /\ (cc_ty c <= gr_h x)%nat) ->
  exists m, import_layers pchip order c dev st g = Ok m.
Proof.
  intros pchip order c dev st g H. revert g. induction st as [|s st IH]; intros g; cbn [import_layers]; [eauto|].
  assert (Hlf : exists mf, layer_fraction c (order (sl_names s)) = Ok mf).
  { destruct (density_list_ex c (order (sl_names s))) as (ds & _ & HF).
    assert (Hr : forall d, In d ds -> readable (cc_tx c) (cc_ty c) d = true).
    { intros d Hd. unfold readable. destruct H as [H|[H|H]].
      - rewrite H. reflexivity.
      - rewrite H, orb_true_r. reflexivity.
      - assert (Hn : exists n, alookup String.eqb n (cc_dens c) = Some d).
        { clear - HF Hd. revert Hd. induction HF as [|n d' ns ds' E HF IHF]; intros Hd; [destruct Hd|destruct Hd as [<-|Hd]; eauto]. }
        destruct Hn as (n & Hn). destruct (H n d Hn) as (x & -> & Hw & Hh).
        rewrite (proj2 (Nat.leb_le _ _) Hw), (proj2 (Nat.leb_le _ _) Hh), orb_true_r. reflexivity. }
    destruct (sum_dens_ub c _ ds (fun _ _ => 0) HF Hr) as (f & Hf).
    unfold layer_fraction. destruct (present c (order (sl_names s))) as [|p [|q l]] eqn:Ep.
    - rewrite Hf. cbn [bind]. eauto.
    - inversion HF as [|? ? ? ? Hp _]; subst. rewrite Hp. eauto.
    - rewrite Hf. cbn [bind]. eauto. }
  destruct Hlf as (mf & ->). cbn [bind]. apply IH.
Qed.
Print Assumptions C106_layers_readable.

(** * C105: there and back *)

(** A grid model in which every layer that is not metal lies between two metal layers comes back from
    its chip model with the same grid and the same layers.  All power is then on the lowest layer. *)
Theorem C105_round_trip : forall ne enc pchip order fuel m c top low,
  (forall l, Permutation l (order l)) -> meets_samples pchip -> (2 <= fuel)%nat ->
  x_layers m = top ++ [low] -> l_name (fst low) <> ""%string ->
  linked_from ""%string (x_layers m) -> alternating (x_layers m) ->
  (forall l, In l (x_layers m) -> (1 # 1000000000000) < l_thick (fst l) /\ l_size (fst l) = (x_nx m, x_ny m)) ->
  0 <= x_scale m -> 0 <= x_resx m ->
  export ne enc m = Some c ->
  exists g, import pchip order fuel c = Ok (Some g) /\
    (g_nx g, g_ny g) = (x_nx m, x_ny m) /\ g_scale g = x_scale m /\ g_resx g == x_resx m /\ g_resy g == x_resx m /\
    List.length (g_layers g) = List.length (x_layers m) /\
    (forall k l b, nth_error (x_layers m) k = Some (l, b) -> exists l', nth_error (g_layers g) k = Some l' /\
       l_name l' = l_name l /\ l_thick l' == l_thick l /\ l_size l' = l_size l /\ (forall x y, l_mf l' x y = l_mf l x y) /\
       ((S k < List.length (x_layers m))%nat -> l_power l' = [])) /\
    forall T x y, In T [25; 50; 75; 100; 125] -> (x < x_nx m)%nat -> (y < x_ny m)%nat ->
      sumf (fun l => sumf (source_power T x y) (l_power l)) (g_layers g) == model_power (x_layers m) T x y.
Proof.
  intros ne enc pchip order fuel m c top low Ho Hp Hf El Hlow Hl Ha Hlay Hsc Hre H.
  pose proof H as Hexp. destruct (export_some _ _ _ _ H) as [_ Hex]. clear H.
  destruct fuel as [|[|f]]; [lia|lia|]. clear Hf.
  destruct (stackup_alternating m enc c f Hex Hl Ha (fun l Hin => proj1 (Hlay l Hin))) as (st & Est & Lst & Gst).
  pose proof (C103_export_describes _ _ _ _ Hexp) as (_ & Eres & Esc & _ & _ & Etile & Etemp & _ & Glay & _ & _ & _ & Gden & _).
  injection Etile as Etx Ety.
  assert (Hn : NoDup (map name_of (x_layers m))) by apply Hex.
  assert (Hst : forall k s, nth_error st k = Some s -> exists l, nth_error (x_layers m) k = Some l /\ sl_names s = [name_of l] /\ sl_thick s == um l).
  { intros k s Hk. destruct (nth_error (x_layers m) k) as [l|] eqn:E.
    - exists l. split; [reflexivity|]. destruct (Gst k l E) as (s' & Hs' & G). rewrite Hk in Hs'. injection Hs' as <-. exact G.
    - apply nth_error_None in E. assert (k < List.length st)%nat by (apply nth_error_Some; congruence). lia. }
  assert (Hlast : nth_error (x_layers m) (List.length top) = Some low) by (rewrite El, nth_error_app2, Nat.sub_diag by lia; reflexivity).
  assert (Hflag : snd low = true).
  { destruct low as [l [|]]; [reflexivity|]. destruct (Ha _ _ Hlast) as [_ (b & Hb)]. exfalso.
    assert (Hlt : (S (List.length top) < List.length (x_layers m))%nat) by (apply nth_error_Some; congruence).
    rewrite El, app_length in Hlt. cbn [List.length] in Hlt. lia. }
  destruct (Gst _ _ Hlast) as (s & Hs & Ns & Ts).
  assert (Hsplit : exists st', st = st' ++ [s] /\ List.length st' = List.length top).
  { destruct (nth_error_split _ _ Hs) as (a & b & E & La). exists a. split; [|exact La].
    rewrite E in Lst. rewrite app_length in Lst. cbn [List.length] in Lst. rewrite El, app_length in Lst. cbn [List.length] in Lst.
    destruct b as [|z b]; [exact E|]. cbn [List.length] in Lst. lia. }
  destruct Hsplit as (st' & Est' & Lst').
  assert (Hname' : layer_name order s = name_of low).
  { unfold layer_name, join. rewrite Ns, (order_single order _ Ho). reflexivity. }
  assert (Hdev : device_layer order c st = name_of low).
  { unfold device_layer. rewrite Est', rev_app_distr. cbn [rev app find].
    assert (E : existsb (is_metal (cc_head c)) (sl_names s) = true).
    { rewrite Ns. cbn [existsb]. apply orb_true_iff. left. unfold is_metal. apply existsb_exists.
      destruct low as [l b]. cbn [snd] in Hflag. subst b.
      destruct (Glay _ _ _ Hlast) as (cl & _ & Hcn & _ & _ & Hm). eexists. split; [exact (proj1 Hm eq_refl)|].
      cbn [ml_name]. apply String.eqb_eq. exact Hcn. }
    rewrite E. exact Hname'. }
  destruct (import_layers_single pchip order c (name_of low) Ho st (new_grid (cc_tx c) (cc_ty c)) eq_refl eq_refl) as (g' & G1 & G2 & G3).
  { intros z Hz. apply In_nth_error in Hz as (k & Hk). destruct (Hst k z Hk) as ([l b] & Hkl & Nz & Tz).
    pose proof (nth_error_In _ _ Hkl) as Hin. destruct (Gden l b Hin) as (g & Hg & Hgs & _). destruct (Hlay _ Hin) as [Hth Hsz].
    exists (l_name l), g. split; [exact Nz|]. split; [exact Hg|]. split; [rewrite Hgs; cbn [fst] in Hsz; rewrite Hsz, Etx, Ety; reflexivity|].
    rewrite Tz. unfold um. cbn [fst] in Hth. cbn [fst]. lra. }
  cbn [new_grid Grid_Model.g_layers map app] in G3.
  set (r := cc_res c * (1 # 1000000)).
  exists (set_resolution r r (set_scale (cc_scale c) g')).
  split.
  { unfold import. rewrite Est. cbn [bind]. rewrite Hdev.
    assert (E : String.eqb (name_of low) "" = false) by (apply String.eqb_neq; exact Hlow). rewrite E, G1. reflexivity. }
  unfold rest_of, new_grid in G2. cbn in G2. injection G2 as R1 R2 R3 R4 R5 _ _ _ _ _.
  assert (Er : ThermalNetwork_Model.Qltb r 0 = false) by (apply Qltb_false; unfold r; rewrite Eres; lra).
  assert (Es : ThermalNetwork_Model.Qltb (cc_scale c) 0 = false) by (apply Qltb_false; rewrite Esc; exact Hsc).
  split; [unfold set_resolution, set_scale; rewrite Er, Es; cbn; congruence|].
  split; [unfold set_resolution, set_scale; rewrite Er, Es; exact Esc|].
  assert (Err : r == x_resx m) by (unfold r; rewrite Eres; field).
  split; [unfold set_resolution; rewrite Er; exact Err|]. split; [unfold set_resolution; rewrite Er; exact Err|].
  rewrite set_layers. split.
  { rewrite <- Lst, <- (map_length strip), G3, map_length. reflexivity. }
  split.
  - intros k l b Hk. destruct (Gst k _ Hk) as (z & Hz & Nz & Tz). destruct (strip_nth _ _ _ _ _ G3 Hz) as (l' & Hl' & Hst').
    exists l'. split; [exact Hl'|]. unfold strip, grid_layer in Hst'. cbn [l_name l_thick l_size l_mf l_power] in Hst'.
    injection Hst' as S1 S2 S3 S4 S5.
    pose proof (nth_error_In _ _ Hk) as Hin. destruct (Gden l b Hin) as (g & Hg & Hgs & Hgm).
    assert (Eg : grid_at c z = g).
    { unfold grid_at. rewrite Nz. cbn [hd]. change (name_of (l, b)) with (l_name l). rewrite Hg. reflexivity. }
    assert (En : layer_name order z = l_name l) by (unfold layer_name, join; rewrite Nz, (order_single order _ Ho); reflexivity).
    split; [rewrite S1; exact En|]. split; [rewrite S2, Tz; unfold um; cbn [fst]; field|].
    split; [rewrite S3, Eg; exact Hgs|]. split; [rewrite S4, Eg; exact Hgm|].
    intros Hlt. rewrite S5, En. destruct (String.eqb_spec (l_name l) (name_of low)) as [E|E]; [|reflexivity].
    exfalso. assert (k = List.length top) by (apply (nodup_index name_of (x_layers m) _ _ (l, b) low); auto).
    rewrite El, app_length in Hlt. cbn [List.length] in Hlt. lia.
  - intros T x y HT Hx Hy.
    set (G := fun ps => sumf (source_power T x y) ps).
    assert (Em : map l_power (g_layers g') = map (fun z => l_power (grid_layer pchip order c (name_of low) z (grid_at c z))) st).
    { transitivity (map (fun q : string * Q * (nat * nat) * (nat -> nat -> Q) * list power => snd q) (map strip (g_layers g'))).
      - rewrite map_map. reflexivity.
      - rewrite G3, map_map. reflexivity. }
    change (sumf (fun l => G (l_power l)) (g_layers g') == model_power (x_layers m) T x y).
    rewrite <- (sumf_map l_power G), Em, sumf_map, Est', sumf_app. cbn [sumf].
    assert (E0 : sumf (fun z => G (l_power (grid_layer pchip order c (name_of low) z (grid_at c z)))) st' == 0).
    { apply sumf_zero. intros z Hz. apply In_nth_error in Hz as (k & Hk).
      assert (Hlt : (k < List.length st')%nat) by (apply nth_error_Some; congruence).
      destruct (Hst k z) as (l & Hkl & Nz & _). { rewrite Est', nth_error_app1 by exact Hlt. exact Hk. }
      unfold grid_layer. cbn [l_power].
      assert (En : layer_name order z = name_of l) by (unfold layer_name, join; rewrite Nz, (order_single order _ Ho); reflexivity).
      rewrite En. destruct (String.eqb_spec (name_of l) (name_of low)) as [E|E]; [|reflexivity].
      exfalso. assert (k = List.length top) by (apply (nodup_index name_of (x_layers m) _ _ l low); auto). lia. }
    rewrite E0. unfold grid_layer. cbn [l_power]. rewrite Hname', String.eqb_refl.
    destruct (C104_table_power ne enc m c pchip T x y Hp Hexp) as (t & v & H1 & H2 & H3); [rewrite Etemp; exact HT|exact Hx|exact Hy|].
    rewrite H1. unfold G. cbn [sumf table_power source_power]. rewrite H2, H3. lra.
Qed.
Print Assumptions C105_round_trip.

(** Two layers in a row that are not metal, below a metal layer: each is looked up through the other, for ever. *)
Theorem C105_adjacent_vias_diverge : forall ne enc pchip order m c k a v1 v2,
  export ne enc m = Some c -> linked_from ""%string (x_layers m) ->
  nth_error (x_layers m) k = Some (a, true) -> nth_error (x_layers m) (S k) = Some (v1, false) ->
  nth_error (x_layers m) (S (S k)) = Some (v2, false) ->
  forall fuel, import pchip order fuel c = OutOfFuel.
Proof.
  intros ne enc pchip order m c k a v1 v2 H Hl Ha H1 H2 fuel. destruct (export_some _ _ _ _ H) as [_ Hex].
  destruct (linked_nth _ _ _ _ _ Hl H1) as [T1 B1]. destruct (linked_nth _ _ _ _ _ Hl H2) as [T2 _].
  rewrite Ha in T1. rewrite H2 in B1. rewrite H1 in T2. unfold name_of in T1, B1, T2. cbn [fst] in T1, B1, T2.
  assert (G : forall f, height_thickness f (cc_head c) (l_name v1) = OutOfFuel /\ height_thickness f (cc_head c) (l_name v2) = OutOfFuel).
  { induction f as [|f [IH1 IH2]]; [split; reflexivity|]. split.
    - rewrite (height_via m enc c Hex f _ _ H1), T1, B1, IH2. destruct f as [|f]; [reflexivity|].
      rewrite (height_metal m enc c Hex f _ _ Ha). reflexivity.
    - rewrite (height_via m enc c Hex f _ _ H2), T2, IH1. reflexivity. }
  assert (Hall : forall names, In (l_name v1) names -> all_layers fuel (cc_head c) names = OutOfFuel).
  { assert (Hne : forall n, (exists r, height_thickness fuel (cc_head c) n = Ok r) \/ height_thickness fuel (cc_head c) n = OutOfFuel).
    { intros n. destruct (height_thickness fuel (cc_head c) n) as [r| | |] eqn:E; eauto;
        destruct (height_ok (cc_head c) fuel n) as [r Er]; congruence. }
    induction names as [|n names IH]; intros Hin; [destruct Hin|]. cbn [all_layers].
    destruct Hin as [->|Hin]; [rewrite (proj1 (G fuel)); reflexivity|].
    destruct (Hne n) as [[r Er]|Er]; rewrite Er; cbn [bind]; [|reflexivity]. rewrite (IH Hin). reflexivity. }
  unfold import, build_stackup. rewrite (head_tech m enc c Hex), Hall; [reflexivity|].
  apply (in_map name_of (x_layers m) (v1, false)), (nth_error_In _ _ H1).
Qed.
Print Assumptions C105_adjacent_vias_diverge.

(** An outermost layer that is not metal has no place in the stack-up, so it is missing from the grid
    model made of the chip model. *)
Theorem C105_outer_via_dropped : forall ne enc m c k l fuel st,
  export ne enc m = Some c -> linked_from ""%string (x_layers m) ->
  ~ In ""%string (map (fun l => l_name (fst l)) (x_layers m)) ->
  nth_error (x_layers m) k = Some (l, false) ->
  k = 0%nat \/ (S k = List.length (x_layers m) /\ exists j a, k = S j /\ nth_error (x_layers m) j = Some (a, true)) ->
  build_stackup fuel (cc_head c) = Ok st -> forall s, In s st -> ~ In (l_name l) (sl_names s).
Proof.
  intros ne enc m c k l fuel st H Hl Hne Hk Hcase Hst s Hs Hin. destruct (export_some _ _ _ _ H) as [_ Hex].
  destruct (CtmStack_Props.C50_stackup _ _ _ Hst) as (_ & G & _).
  assert (Hpl : In (l_name l) (h_tech (cc_head c)) /\ exists e t, placed (cc_head c) (l_name l) e t).
  { apply G, in_concat. exists (sl_names s). split; [apply in_map, Hs|exact Hin]. }
  destruct Hpl as [_ (e & t & Hpl)]. revert Hpl.
  destruct (linked_nth _ _ _ _ _ Hl Hk) as [T B].
  enough (E : exists f, height_thickness f (cc_head c) (l_name l) = Ok None)
    by (destruct E as [f E]; exact (proj2 (CtmStack_Props.C50_heights f (cc_head c) (l_name l)) E e t)).
  exists 2%nat. rewrite (height_via m enc c Hex 1 _ _ Hk). destruct Hcase as [->|(Hlen & j & a & -> & Ha)].
  - rewrite T. rewrite (height_absent m enc c Hex 0 ""%string Hne). reflexivity.
  - rewrite Ha in T. unfold name_of in T. cbn [fst] in T. rewrite T, (height_metal m enc c Hex 0 _ _ Ha). cbn [bind].
    assert (E : nth_error (x_layers m) (S (S j)) = None) by (apply nth_error_None; lia). rewrite E in B.
    rewrite B, (height_absent m enc c Hex 0 ""%string Hne). reflexivity.
Qed.
Print Assumptions C105_outer_via_dropped.

Lemma linked_snoc (b b' l' : glayer) : forall xs above,
  linked_from above (map (fun l => (l, false)) (xs ++ [b])) ->
  l_name b' = l_name b -> l_top b' = l_top b -> l_bot b' = l_name l' -> l_top l' = l_name b' -> l_bot l' = ""%string ->
  linked_from above (map (fun l => (l, false)) (xs ++ [b'] ++ [l'])).
Proof.
  intros xs above H E1 E2 E3 E4 E5. revert above H. induction xs as [|x xs IH]; intros above; cbn [app map linked_from].
  - intros (H1 & _ & _). rewrite E2, E3, E4, E5. auto.
  - intros (H1 & H2 & H3). split; [exact H1|]. split; [|exact (IH _ H3)].
    rewrite H2. destruct xs as [|x' xs]; cbn [app map]; [symmetry; exact E1|reflexivity].
Qed.

Lemma append_linked g l : linked_from ""%string (map (fun l => (l, false)) (g_layers g)) ->
  l_top l = ""%string -> l_bot l = ""%string ->
  linked_from ""%string (map (fun l => (l, false)) (g_layers (fst (append_layer g l)))).
Proof.
  intros Hg Ht Hb. unfold append_layer. destruct (ThermalNetwork_Model.Qltb (l_thick l) 0); [exact Hg|].
  destruct (negb _); [exact Hg|]. destruct (rev (g_layers g)) as [|b r] eqn:Er; cbn [fst Grid_Model.g_layers].
  - assert (E : g_layers g = []) by (rewrite <- (rev_involutive (g_layers g)), Er; reflexivity).
    rewrite E. cbn. rewrite Ht, Hb. auto.
  - assert (E : g_layers g = rev r ++ [b]) by (rewrite <- (rev_involutive (g_layers g)), Er; reflexivity).
    rewrite E in Hg. eapply linked_snoc; [exact Hg| | | | |]; cbn [l_name l_top l_bot]; auto.
Qed.

Lemma import_linked pchip order c dev st : forall m m', linked_from ""%string (map (fun l => (l, false)) (g_layers m)) ->
  import_layers pchip order c dev st m = Ok m' -> linked_from ""%string (map (fun l => (l, false)) (g_layers m')).
Proof.
  induction st as [|s st IH]; intros m m' Hm H; cbn [import_layers] in H; [injection H as <-; exact Hm|].
  destruct (layer_fraction c (order (sl_names s))) as [[g|]| | |]; cbn [bind] in H; try discriminate.
  - apply (IH _ _ (append_linked m (grid_layer pchip order c dev s g) Hm eq_refl eq_refl) H).
  - exact (IH _ _ Hm H).
Qed.

(** A grid model made of a chip model has no layer marked as metal.  It can be exported again, but no
    grid model can be made of the result. *)
Theorem C105_second_round_trip_fails : forall ne enc pchip order pchip' order' fuel c g c',
  import pchip order fuel c = Ok (Some g) -> export ne enc (as_exportable g) = Some c' ->
  ~ In ""%string (map l_name (g_layers g)) ->
  forall fuel', (S (List.length (g_layers g)) < fuel')%nat -> import pchip' order' fuel' c' = Ok None.
Proof.
  intros ne enc pchip order pchip' order' fuel c g c' Hi He Hne fuel' Hf.
  destruct (import_some _ _ _ _ _ Hi) as (st & m & _ & _ & Hm & ->).
  pose proof (import_linked _ _ _ _ _ (new_grid (cc_tx c) (cc_ty c)) _ I Hm) as Hl.
  set (g := set_resolution _ _ _) in *.
  assert (Eg : g_layers g = g_layers m) by apply set_layers. rewrite <- Eg in Hl. clearbody g. clear Hi Hm Eg m st.
  destruct (export_some _ _ _ _ He) as [_ Hex].
  assert (Hx : x_layers (as_exportable g) = map (fun l => (l, false)) (g_layers g)) by reflexivity.
  rewrite <- Hx in Hl.
  assert (Hno : ~ In ""%string (map name_of (x_layers (as_exportable g)))) by (rewrite Hx, map_map; exact Hne).
  assert (G : forall k l, nth_error (g_layers g) k = Some l -> forall f, (S k < f)%nat -> height_thickness f (cc_head c') (l_name l) = Ok None).
  { induction k as [|k IH]; intros l Hk f Lf; (destruct f as [|f]; [lia|]).
    - assert (Hk' : nth_error (x_layers (as_exportable g)) 0 = Some (l, false)) by (rewrite Hx; exact (map_nth_error (fun l => (l, false)) _ _ Hk)).
      rewrite (height_via _ _ _ Hex f _ _ Hk'). destruct (linked_nth _ _ _ _ _ Hl Hk') as [T _]. rewrite T.
      destruct f as [|f]; [lia|]. rewrite (height_absent _ _ _ Hex f ""%string Hno). reflexivity.
    - assert (Hk' : nth_error (x_layers (as_exportable g)) (S k) = Some (l, false)) by (rewrite Hx; exact (map_nth_error (fun l => (l, false)) _ _ Hk)).
      rewrite (height_via _ _ _ Hex f _ _ Hk'). destruct (linked_nth _ _ _ _ _ Hl Hk') as [T _]. rewrite T.
      destruct (nth_error (g_layers g) k) as [p|] eqn:Ep.
      + assert (Hp : nth_error (x_layers (as_exportable g)) k = Some (p, false)) by (rewrite Hx; exact (map_nth_error (fun l => (l, false)) _ _ Ep)).
        rewrite Hp. unfold name_of. cbn [fst]. rewrite (IH p eq_refl f) by lia. reflexivity.
      + apply nth_error_None in Ep. assert (S k < List.length (g_layers g))%nat by (apply nth_error_Some; congruence). lia. }
  assert (Hall : all_layers fuel' (cc_head c') (h_tech (cc_head c')) = Ok []).
  { rewrite (head_tech _ _ _ Hex), Hx, map_map. change (fun x : glayer => name_of (x, false)) with l_name.
    assert (Hin : forall l, In l (g_layers g) -> height_thickness fuel' (cc_head c') (l_name l) = Ok None).
    { intros l Hl'. apply In_nth_error in Hl' as (k & Hk). apply (G k l Hk).
      assert (k < List.length (g_layers g))%nat by (apply nth_error_Some; congruence). lia. }
    revert Hin. generalize (g_layers g) as xs. induction xs as [|x xs IH]; intros Hin; cbn [map all_layers]; [reflexivity|].
    rewrite (Hin x (or_introl eq_refl)). cbn [bind]. rewrite IH; [reflexivity|]. intros l Hl'. apply Hin. right. exact Hl'. }
  unfold import, build_stackup. rewrite Hall. cbn [bind]. reflexivity.
Qed.
Print Assumptions C105_second_round_trip_fails.

(** ** Examples *)

Definition Qne (a b : Q) : bool := negb (Qeq_bool a b).
(** linear interpolation between neighbouring samples *)
Fixpoint lerp (xs ys : list Q) (x : Q) : res Q :=
  match xs, ys with
  | a :: ((b :: _) as xs'), c :: ((d :: _) as ys') =>
      if Qle_bool x b then Ok (c + (x - a) * (d - c) / (b - a)) else lerp xs' ys' x
  | _, _ => Throw
  end.
Definition ex_l (n t b : string) (th f : Q) (ps : list power) : glayer := mkLayer n th t b (2%nat, 1%nat) (fun x _ => if (x =? 0)%nat then f else 0) ps.
Definition ex_m : xmodel := mkx 2 1 (1 # 10000) (1 # 10000) 1
  [(ex_l "M2" "" "V" (3 # 1000000) (1 # 2) [PBlock 0 0 1 0 4], true);
   (ex_l "V" "M2" "M1" (2 # 1000000) (1 # 4) [PGrid (fun T x _ => if (x =? 0)%nat then Some (T / 100) else None)], false);
   (ex_l "M1" "V" "" (1 # 1000000) 1 [], true)].
Definition ex_show (r : res (option gmodel)) :=
  rmap (option_map (fun g => map (fun l => (l_name l, Qred (l_thick l), (l_top l, l_bot l), Qred (l_mf l 0 0)%nat, Qred (sumf (source_power 75 0 0) (l_power l)))) (g_layers g))) r.

Example C103_example :
  option_map (fun c => (map (fun l => (cl_name l, Qred (cl_elev l), Qred (cl_thick l))) (cc_layers c), h_via (cc_head c),
                        map ml_name (h_metal (cc_head c)), Qred (cc_res c))) (export Qne false ex_m)
  = Some ([("M2"%string, 6, 3); ("V"%string, 3, 2); ("M1"%string, 1, 1)], [mkvia "V" "M2" "M1"], ["M2"; "M1"]%string, 100)
  /\ export Qne false (mkx 2 1 1 2 1 (x_layers ex_m)) = None
  /\ export Qne false (mkx 2 1 1 1 1 (x_layers ex_m ++ x_layers ex_m)) = None.
Proof. repeat split; vm_compute; reflexivity. Qed.

(** Both tiles get half of the block; the first one the table's value at 75 degrees as well. *)
Example C104_example :
  option_map (fun c => match cc_powers c with
     | Some t => map (fun x => match snd (gt_query lerp t 75 x 0) with (true, Ok v) => Some (Qred v) | _ => None end) [0; 1; 2]%nat
     | None => [] end) (export Qne false ex_m) = Some [Some (11 # 4); Some 2; None].
Proof. vm_compute; reflexivity. Qed.

Example C105_example :
  match export Qne true ex_m with Some c => ex_show (import lerp (fun l => l) 2 c) | None => UB end
  = Ok (Some [("M2"%string, 3 # 1000000, (""%string, "V"%string), 1 # 2, 0); ("V"%string, 1 # 500000, ("M2"%string, "M1"%string), 1 # 4, 0);
              ("M1"%string, 1 # 1000000, ("V"%string, ""%string), 1, 11 # 4)]).
Proof. vm_compute; reflexivity. Qed.

(** The hypotheses of the round trip hold of the example. *)
Example C105_example_applies :
  linked_from ""%string (x_layers ex_m) /\ alternating (x_layers ex_m) /\
  forall l, In l (x_layers ex_m) -> (1 # 1000000000000) < l_thick (fst l) /\ l_size (fst l) = (2, 1)%nat.
Proof.
  split; [cbn; auto 10|]. split.
  - intros [|[|[|k]]] l H; try discriminate.
    + split; [exists 0%nat; eexists; split; reflexivity|eexists; reflexivity].
    + destruct k; discriminate.
  - intros l [<-|[<-|[<-|[]]]]; split; reflexivity.
Qed.

Example C105_diverging_example :
  match export Qne true (mkx 2 1 1 1 1 [(ex_l "M" "" "V" 1 1 [], true); (ex_l "V" "M" "W" 1 1 [], false); (ex_l "W" "V" "" 1 1 [], false)]) with
  | Some c => ex_show (import lerp (fun l => l) 200 c) | None => UB end = OutOfFuel.
Proof. vm_compute; reflexivity. Qed.

Example C105_dropped_example :
  match export Qne true (mkx 2 1 1 1 1 [(ex_l "T" "" "M" 1 1 [], false); (ex_l "M" "T" "B" 1 1 [], true); (ex_l "B" "M" "" 1 1 [], false)]) with
  | Some c => ex_show (import lerp (fun l => l) 200 c) | None => UB end = Ok (Some [("M"%string, 1, (""%string, ""%string), 1, 0)]).
Proof. vm_compute; reflexivity. Qed.

(** Two layers at the same height are merged and their densities added, at most 1; the lowest layer has
    no density; the third one has a density of another size and is missing. *)
Definition ex_c : chip :=
  let d w f := Some (Keyed_Model.mkGrid w 1 (fun x _ => if (x =? 0)%nat then f else f / 4)) in
  mkcc false 10 1 (20, 10) 2 1 [25] [] 
    (mkheader ["A"; "B"; "C"; "D"]%string [] [mkmetal "A" 9 2; mkmetal "B" 9 1; mkmetal "C" 7 3; mkmetal "D" 3 2])
    None [("A"%string, d 2%nat (1 # 2)); ("B"%string, d 2%nat (3 # 4)); ("C"%string, d 3%nat 1)].
Example C106_example :
  ex_show (import lerp (@rev string) 2 ex_c)
  = Ok (Some [("B_A"%string, 1 # 500000, (""%string, "D"%string), 1, 0); ("D"%string, 1 # 500000, ("B_A"%string, ""%string), 0, 0)]) /\
  rmap (option_map (fun g => map (fun l => Qred (l_mf l 1 0)%nat) (g_layers g))) (import lerp (@rev string) 2 ex_c) = Ok (Some [5 # 16; 0]).
Proof. split; vm_compute; reflexivity. Qed.

Example C106_readable_example : forall g, exists m,
  import_layers lerp (@rev string) (mkcc false 10 1 (20, 0) 2 0 [25] [] (cc_head ex_c) None [("A"%string, None); ("B"%string, None)])
    ""%string [mkslayer ["A"%string; "B"%string] 3 1; mkslayer ["B"%string] 2 1] g = Ok m.
Proof. intros. apply C106_layers_readable. right. left. reflexivity. Qed.
Example C106_ub_example :
  ex_show (import lerp (@rev string) 2 (mkcc false 10 1 (20, 10) 2 1 [25] [] (cc_head ex_c) None
     [("A"%string, Some (Keyed_Model.mkGrid 1 1 (fun _ _ => 1))); ("B"%string, Some (Keyed_Model.mkGrid 2 1 (fun _ _ => 1)))])) = UB.
Proof. vm_compute; reflexivity. Qed.
