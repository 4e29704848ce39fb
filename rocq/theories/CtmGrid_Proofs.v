(** Lemmas for the conversion between chip and grid thermal models. *)
From Coq Require Import Permutation Qabs.
From Verif Require Import Base QSum.
From Verif Require CtmStack_Model CtmStack_Spec CtmStack_Proofs Keyed_Model ThermalNetwork_Model Grid_Model.
From Verif Require Import CtmGrid_Model CtmGrid_Spec.
Import CtmStack_Model CtmStack_Spec CtmStack_Proofs.
Import Grid_Model (glayer, mkLayer, l_name, l_thick, l_top, l_bot, l_size, l_mf, l_power,
                   power, PGrid, PBlock, gmodel, g_nx, g_ny, g_resx, g_resy, g_scale, g_layers, append_layer).
Import ThermalNetwork_Model (Qltb).
Import Keyed_Model (grid, gr_w, gr_h, gr_at, gtable, gt_new, gt_add, gt_query).
Local Open Scope res_scope.

Definition name_of (l : glayer * bool) : string := l_name (fst l).
Definition um (l : glayer * bool) : Q := l_thick (fst l) * 1000000.

(** ** The layer table of an export *)

Fixpoint elev_at (e : Q) (ls : list (glayer * bool)) (k : nat) {struct k} : Q :=
  match k, ls with
  | O, _ => e
  | S k', l :: ls' => elev_at (e - um l) ls' k'
  | S _, [] => e
  end.

Lemma elev_at_next ls : forall e k l, nth_error ls k = Some l -> elev_at e ls (S k) = elev_at e ls k - um l.
Proof.
  induction ls as [|x ls IH]; intros e [|k] l H; try discriminate.
  - injection H as ->; reflexivity.
  - exact (IH (e - um x) k l H).
Qed.

Lemma elev_at_height ls : forall e k, (k <= List.length ls)%nat ->
  elev_at e ls k == e - sumf (fun l => l_thick (fst l)) ls * 1000000 + sumf (fun l => l_thick (fst l)) (skipn k ls) * 1000000.
Proof.
  induction ls as [|x ls IH]; intros e [|k] L; cbn [elev_at skipn sumf List.length] in *; try lra; try lia.
  rewrite IH by lia. unfold um. lra.
Qed.

Lemma export_layers_cs ls : forall e cs ms vs, export_layers e ls = (cs, ms, vs) ->
  List.length cs = List.length ls /\ map cl_name cs = map name_of ls /\
  forall k l, nth_error ls k = Some l -> nth_error cs k = Some (mkclayer (name_of l) (elev_at e ls k) (um l)).
Proof.
  induction ls as [|[l b] ls IH]; intros e cs ms vs H; cbn [export_layers] in H.
  - injection H as <- <- <-. repeat split; intros [|k]; discriminate.
  - destruct (export_layers (e - l_thick l * 1000000) ls) as [[cs' ms'] vs'] eqn:E. injection H as <- <- <-.
    destruct (IH _ _ _ _ E) as (L & N & G). cbn [List.length map]. split; [congruence|]. split; [rewrite N; reflexivity|].
    intros [|k] x; cbn [nth_error elev_at]; [intros H; injection H as <-; reflexivity|exact (G k x)].
Qed.

Lemma export_layers_ms ls : forall e cs ms vs, export_layers e ls = (cs, ms, vs) ->
  map ml_name ms = map name_of (filter snd ls) /\
  forall mm, In mm ms <-> exists k l, nth_error ls k = Some (l, true) /\ mm = mkmetal (l_name l) (elev_at e ls k) (um (l, true)).
Proof.
  induction ls as [|[l b] ls IH]; intros e cs ms vs H; cbn [export_layers] in H.
  - injection H as <- <- <-. split; [reflexivity|]. intros mm. split; [intros []|intros ([|k] & x & Hk & _); discriminate].
  - destruct (export_layers (e - l_thick l * 1000000) ls) as [[cs' ms'] vs'] eqn:E. injection H as <- <- <-.
    destruct (IH _ _ _ _ E) as [N G]. split.
    + cbn [filter snd]. destruct b; cbn [map]; rewrite N; reflexivity.
    + intros mm. split.
      * intros Hin. assert (Hc : (b = true /\ mm = mkmetal (l_name l) e (l_thick l * 1000000)) \/ In mm ms').
        { destruct b; [destruct Hin as [<-|Hin]; auto|auto]. }
        destruct Hc as [[-> ->]|Hin']; [exists O, l; split; reflexivity|].
        apply G in Hin' as (k & x & Hk & ->). exists (S k), x. split; [exact Hk|reflexivity].
      * intros ([|k] & x & Hk & ->).
        -- cbn [nth_error] in Hk. injection Hk as -> ->. left; reflexivity.
        -- assert (Hin : In (mkmetal (l_name x) (elev_at e ((l, b) :: ls) (S k)) (um (x, true))) ms')
             by (apply G; exists k, x; split; [exact Hk|reflexivity]).
           destruct b; [right|]; exact Hin.
Qed.

Definition via_of (l : glayer * bool) : via := mkvia (l_name (fst l)) (l_top (fst l)) (l_bot (fst l)).
Lemma export_layers_vs ls : forall e cs ms vs, export_layers e ls = (cs, ms, vs) ->
  vs = map via_of (filter (fun l => negb (snd l)) ls).
Proof.
  induction ls as [|[l b] ls IH]; intros e cs ms vs H; cbn [export_layers] in H.
  - injection H as <- <- <-. reflexivity.
  - destruct (export_layers (e - l_thick l * 1000000) ls) as [[cs' ms'] vs'] eqn:E. injection H as <- <- <-.
    rewrite (IH _ _ _ _ E). destruct b; reflexivity.
Qed.

Lemma total_thickness_sum ls : total_thickness ls == sumf (fun l => l_thick (fst l)) ls.
Proof.
  unfold total_thickness. enough (G : forall a, fold_left (fun a l => a + l_thick (fst l)) ls a == a + sumf (fun l : glayer * bool => l_thick (fst l)) ls)
    by (rewrite G; lra).
  induction ls as [|x ls IH]; intros a; cbn [fold_left sumf]; [lra|]. rewrite IH. lra.
Qed.

(** ** Densities *)

Definition dens_entry (l : glayer * bool) : option grid :=
  Some (Keyed_Model.mkGrid (fst (l_size (fst l))) (snd (l_size (fst l))) (l_mf (fst l))).
Definition dens_from (ds : list (string * option grid)) (ls : list (glayer * bool)) : list (string * option grid) :=
  fold_left (fun ds l => aemplace String.eqb (name_of l) (dens_entry l) ds) ls ds.

Lemma dens_from_len ls : forall ds, NoDup (akeys ds) ->
  (List.length (dens_from ds ls) <= List.length ds + List.length ls)%nat /\
  (List.length (dens_from ds ls) = (List.length ds + List.length ls)%nat <->
     NoDup (map name_of ls) /\ forall n, In n (akeys ds) -> ~ In n (map name_of ls)).
Proof.
  induction ls as [|x ls IH]; intros ds Hd; cbn [dens_from fold_left List.length map].
  - split; [lia|]. split; [intros _; split; [constructor|intros n _ []]|lia].
  - pose proof (aemplace_nodup String.eqb string_eqb_reflect (name_of x) (dens_entry x) ds Hd) as Hd'.
    destruct (IH _ Hd') as [L G]. unfold dens_from in L, G. revert L G.
    destruct (acount String.eqb (name_of x) ds) eqn:Ec.
    + assert (Ea : aemplace String.eqb (name_of x) (dens_entry x) ds = ds) by (unfold aemplace; rewrite Ec; reflexivity).
      rewrite Ea. apply (acount_true _ string_eqb_reflect) in Ec. intros L G. split; [lia|]. split; [lia|].
      intros [_ F]. exfalso. exact (F _ Ec (or_introl eq_refl)).
    + assert (Ea : aemplace String.eqb (name_of x) (dens_entry x) ds = ds ++ [(name_of x, dens_entry x)]) by (unfold aemplace; rewrite Ec; reflexivity).
      rewrite Ea. apply (acount_false _ string_eqb_reflect) in Ec. intros L G. rewrite app_length in *. cbn [List.length] in *.
      split; [lia|]. replace (List.length ds + S (List.length ls))%nat with (List.length ds + 1 + List.length ls)%nat by lia.
      rewrite G. unfold akeys. rewrite map_app. cbn [map fst]. split.
      * intros [N F]. split; [constructor; [apply F, in_app_iff; right; left; reflexivity|exact N]|].
        intros n Hn [Hx|Hx]; [apply Ec; rewrite Hx; exact Hn|]. apply (F n); [apply in_app_iff; auto|exact Hx].
      * intros [N F]. inversion N as [|? ? Nx N']; subst. split; [exact N'|].
        intros n Hn Hl. apply in_app_iff in Hn as [Hn|[<-|[]]]; [exact (F n Hn (or_intror Hl))|exact (Nx Hl)].
Qed.

Lemma dens_from_keep ls : forall ds n d, alookup String.eqb n ds = Some d -> alookup String.eqb n (dens_from ds ls) = Some d.
Proof.
  induction ls as [|x ls IH]; intros ds n d H; cbn [dens_from fold_left]; [exact H|].
  apply IH. rewrite (alookup_emplace _ string_eqb_reflect).
  destruct (alookup String.eqb n ds) eqn:E; [exact H|discriminate].
Qed.

Lemma dens_from_new ls : forall ds l, In l ls -> NoDup (map name_of ls) -> alookup String.eqb (name_of l) ds = None ->
  alookup String.eqb (name_of l) (dens_from ds ls) = Some (dens_entry l).
Proof.
  induction ls as [|x ls IH]; intros ds l Hin Hn Hd; [destruct Hin|]. cbn [map] in Hn. inversion Hn as [|? ? Nx Hn']; subst.
  cbn [dens_from fold_left]. destruct Hin as [->|Hin].
  - apply dens_from_keep. rewrite (alookup_emplace _ string_eqb_reflect), Hd, String.eqb_refl. reflexivity.
  - apply IH; auto. rewrite (alookup_emplace _ string_eqb_reflect), Hd.
    destruct (String.eqb_spec (name_of l) (name_of x)) as [E|]; [|reflexivity].
    exfalso. apply Nx. rewrite <- E. apply in_map, Hin.
Qed.

Lemma dens_from_none ls : forall ds n, ~ In n (map name_of ls) -> alookup String.eqb n ds = None ->
  alookup String.eqb n (dens_from ds ls) = None.
Proof.
  induction ls as [|x ls IH]; intros ds n Hn Hd; cbn [dens_from fold_left]; [exact Hd|]. cbn [map In] in Hn.
  apply IH; [tauto|]. rewrite (alookup_emplace _ string_eqb_reflect), Hd.
  destruct (String.eqb_spec n (name_of x)) as [E|]; [|reflexivity]. exfalso. apply Hn. left. auto.
Qed.

Lemma densities_from ls : densities ls = dens_from [] ls.
Proof. reflexivity. Qed.

Lemma densities_full ls : List.length (densities ls) = List.length ls <-> NoDup (map name_of ls).
Proof.
  rewrite densities_from. destruct (dens_from_len ls [] (NoDup_nil _)) as [_ G]. cbn [List.length] in G. rewrite G.
  split; [intros [H _]; exact H|]. intros H. split; [exact H|intros n []].
Qed.

(** ** The export as a whole *)

Record exported (enc : bool) (m : xmodel) (c : chip) : Prop := {
  ex_nodup : NoDup (map name_of (x_layers m));
  ex_eq : exists cs ms vs,
    export_layers (total_thickness (x_layers m) * 1000000) (x_layers m) = (cs, ms, vs) /\
    c = mkcc enc (x_resx m * 1000000) (x_scale m)
          (inject_Z (Z.of_nat (x_nx m)) * (x_resx m * 1000000), inject_Z (Z.of_nat (x_ny m)) * (x_resx m * 1000000))
          (x_nx m) (x_ny m) temperatures cs (mkheader (map cl_name cs) vs ms) (Some (power_table m)) (densities (x_layers m)) }.

Lemma export_some ne enc m c : export ne enc m = Some c -> ne (x_resx m) (x_resy m) = false /\ exported enc m c.
Proof.
  unfold export. destruct (ne (x_resx m) (x_resy m)); [discriminate|].
  destruct (export_layers _ _) as [[cs ms] vs] eqn:E.
  destruct (Nat.eqb_spec (List.length (densities (x_layers m))) (List.length cs)) as [L|L]; [|discriminate].
  intros H. injection H as <-. destruct (export_layers_cs _ _ _ _ _ E) as (L' & _). split; [reflexivity|]. split.
  - apply densities_full. congruence.
  - exists cs, ms, vs. split; [exact E|reflexivity].
Qed.

Lemma export_none ne enc m : export ne enc m = None ->
  ne (x_resx m) (x_resy m) = true \/ ~ NoDup (map name_of (x_layers m)).
Proof.
  unfold export. destruct (ne (x_resx m) (x_resy m)); [auto|].
  destruct (export_layers _ _) as [[cs ms] vs] eqn:E.
  destruct (Nat.eqb_spec (List.length (densities (x_layers m))) (List.length cs)) as [L|L]; [discriminate|].
  intros _. right. intros Hn. apply densities_full in Hn. destruct (export_layers_cs _ _ _ _ _ E) as (L' & _). congruence.
Qed.

(** ** Power *)

Lemma add_powers_sum T x y ps : forall a, add_powers T x y a ps == a + sumf (source_power T x y) ps.
Proof.
  induction ps as [|p ps IH]; intros a; cbn [add_powers fold_left sumf]; [lra|].
  change (add_powers T x y (match power_query p T x y with Some v => a + v | None => a end) ps ==
          a + (source_power T x y p + sumf (source_power T x y) ps)).
  rewrite IH. destruct p as [q|llx lly urx ury total]; cbn [power_query source_power].
  - destruct (q T x y); lra.
  - rewrite (Nat.mul_comm (ury - lly + 1)). destruct (_ && _)%bool; lra.
Qed.

Lemma tile_power_sum ls T x y : tile_power ls T x y == model_power ls T x y.
Proof.
  unfold tile_power, model_power.
  enough (G : forall a, fold_left (fun a l => add_powers T x y a (l_power (fst l))) ls a ==
            a + sumf (source_power T x y) (flat_map (fun l : glayer * bool => l_power (fst l)) ls))
    by (rewrite G; lra).
  induction ls as [|l ls IH]; intros a; cbn [fold_left flat_map sumf]; [lra|].
  rewrite IH, add_powers_sum, sumf_app. lra.
Qed.

Definition sample (m : xmodel) (T : Q) : Q * grid := (T, Keyed_Model.mkGrid (x_nx m) (x_ny m) (tile_power (x_layers m) T)).
Lemma power_table_eq m :
  power_table m = Keyed_Model.mkGT (x_nx m) (x_ny m) (map (sample m) temperatures) None.
Proof.
  unfold power_table, temperatures, gt_new. cbn [fold_left map].
  unfold gt_add at 5. cbn [Keyed_Model.gr_w Keyed_Model.gr_h Keyed_Model.gt_w Keyed_Model.gt_h]. rewrite !Nat.eqb_refl. cbn [negb orb fst].
  unfold gt_add at 4. cbn [Keyed_Model.gr_w Keyed_Model.gr_h Keyed_Model.gt_w Keyed_Model.gt_h]. rewrite !Nat.eqb_refl. cbn [negb orb fst].
  unfold gt_add at 3. cbn [Keyed_Model.gr_w Keyed_Model.gr_h Keyed_Model.gt_w Keyed_Model.gt_h]. rewrite !Nat.eqb_refl. cbn [negb orb fst].
  unfold gt_add at 2. cbn [Keyed_Model.gr_w Keyed_Model.gr_h Keyed_Model.gt_w Keyed_Model.gt_h]. rewrite !Nat.eqb_refl. cbn [negb orb fst].
  unfold gt_add. cbn [Keyed_Model.gr_w Keyed_Model.gr_h Keyed_Model.gt_w Keyed_Model.gt_h Keyed_Model.gt_data]. rewrite !Nat.eqb_refl. cbn [negb orb fst].
  reflexivity.
Qed.

(** ** Heights of the exported layers *)

Lemma find_unique {A} (p : A -> bool) l a : In a l -> p a = true -> (forall b, In b l -> p b = true -> b = a) -> find p l = Some a.
Proof.
  intros Hin Hp Hu. destruct (find p l) as [b|] eqn:E.
  - apply find_some in E as [H1 H2]. f_equal. apply Hu; auto.
  - pose proof (find_none _ _ E a Hin). congruence.
Qed.

Lemma nodup_index {A} (f : A -> string) ls i j a b : NoDup (map f ls) ->
  nth_error ls i = Some a -> nth_error ls j = Some b -> f a = f b -> i = j.
Proof.
  intros Hn Ha Hb E. apply (proj1 (NoDup_nth_error (map f ls)) Hn).
  - rewrite map_length. apply nth_error_Some. congruence.
  - rewrite (map_nth_error f _ _ Ha), (map_nth_error f _ _ Hb), E. reflexivity.
Qed.

Lemma try_via_absent rec name vs : ~ In name (map vl_name vs) -> try_via rec name vs = Ok None.
Proof.
  induction vs as [|v vs IH]; cbn [map In try_via]; [reflexivity|]. intros H.
  destruct (String.eqb_spec name (vl_name v)) as [E|E]; [exfalso; apply H; left; auto|apply IH; tauto].
Qed.

Lemma try_via_unique rec vs v : In v vs -> NoDup (map vl_name vs) ->
  try_via rec (vl_name v) vs =
  (t <- rec (vl_top v) ;;
   match t with
   | None => Ok None
   | Some (topH, topT) =>
       b <- rec (vl_bot v) ;;
       match b with
       | None => Ok None
       | Some (botH, _) => Ok (Some (topH - topT, topH - topT - botH))
       end
   end).
Proof.
  intros Hin Hn. induction vs as [|w vs IH]; [destruct Hin|]. cbn [map] in Hn. inversion Hn as [|? ? Nw Hn']; subst.
  cbn [try_via]. destruct Hin as [->|Hin].
  - rewrite String.eqb_refl. rewrite (try_via_absent rec _ vs Nw). reflexivity.
  - destruct (String.eqb_spec (vl_name v) (vl_name w)) as [E|E]; [|exact (IH Hin Hn')].
    exfalso. apply Nw. rewrite <- E. apply in_map, Hin.
Qed.

Lemma linked_nth ls : forall above k l b, linked_from above ls -> nth_error ls k = Some (l, b) ->
  l_top l = match k with O => above | S j => match nth_error ls j with Some a => name_of a | None => ""%string end end /\
  l_bot l = match nth_error ls (S k) with Some x => name_of x | None => ""%string end.
Proof.
  induction ls as [|[x bx] ls IH]; intros above [|k] l b Hl Hk; try discriminate; cbn [linked_from] in Hl; destruct Hl as (H1 & H2 & H3).
  - injection Hk as -> ->. split; [exact H1|]. rewrite H2. destruct ls as [|[z bz] ls]; reflexivity.
  - destruct (IH _ k l b H3 Hk) as [G1 G2]. split; [|exact G2]. rewrite G1. destruct k as [|k]; reflexivity.
Qed.

Section heights.
  Context (m : xmodel) (enc : bool) (c : chip).
  Context (Hex : exported enc m c).
  Notation ls := (x_layers m).
  Notation h := (cc_head c).
  Notation e0 := (total_thickness ls * 1000000).

  Lemma head_tech : h_tech h = map name_of ls.
  Proof.
    destruct Hex as [_ (cs & ms & vs & E & ->)]. cbn [cc_head h_tech]. apply (export_layers_cs _ _ _ _ _ E).
  Qed.
  Lemma head_metal mm : In mm (h_metal h) <->
    exists k l, nth_error ls k = Some (l, true) /\ mm = mkmetal (l_name l) (elev_at e0 ls k) (um (l, true)).
  Proof. destruct Hex as [_ (cs & ms & vs & E & ->)]. cbn [cc_head h_metal]. apply (export_layers_ms _ _ _ _ _ E). Qed.
  Lemma head_via : h_via h = map via_of (filter (fun l => negb (snd l)) ls).
  Proof. destruct Hex as [_ (cs & ms & vs & E & ->)]. cbn [cc_head h_via]. apply (export_layers_vs _ _ _ _ _ E). Qed.
  Lemma names_nodup : NoDup (map name_of ls).
  Proof. apply Hex. Qed.

  Lemma height_metal f k l : nth_error ls k = Some (l, true) ->
    height_thickness (S f) h (l_name l) = Ok (Some (elev_at e0 ls k, um (l, true))).
  Proof.
    intros Hk. rewrite height_thickness_S.
    rewrite (find_unique _ _ (mkmetal (l_name l) (elev_at e0 ls k) (um (l, true)))); [reflexivity| | |].
    - apply head_metal. exists k, l. auto.
    - apply String.eqb_refl.
    - intros b Hb E. apply String.eqb_eq in E. apply head_metal in Hb as (j & x & Hj & ->). cbn [ml_name] in E.
      assert (j = k) as -> by (apply (nodup_index name_of ls j k (x, true) (l, true)); auto using names_nodup).
      rewrite Hk in Hj. injection Hj as ->. reflexivity.
  Qed.

  Lemma not_metal k l : nth_error ls k = Some (l, false) ->
    find (fun x => String.eqb (l_name l) (ml_name x)) (h_metal h) = None.
  Proof.
    intros Hk. destruct (find _ _) as [b|] eqn:E; [|reflexivity]. exfalso. apply find_some in E as [Hb E].
    apply String.eqb_eq in E. apply head_metal in Hb as (j & x & Hj & ->). cbn [ml_name] in E.
    assert (j = k) as -> by (apply (nodup_index name_of ls j k (x, true) (l, false)); auto using names_nodup).
    rewrite Hk in Hj. discriminate.
  Qed.

  Lemma via_nodup : NoDup (map vl_name (h_via h)).
  Proof.
    rewrite head_via, map_map. pose proof names_nodup as Hn. revert Hn. generalize ls as l. clear.
    induction l as [|x l IH]; cbn [map filter]; [auto|]. intros Hn. inversion Hn as [|? ? Nx Hn']; subst.
    destruct (negb (snd x)); [|auto]. cbn [map]. constructor; [|auto]. intros Hin. apply Nx.
    apply in_map_iff in Hin as (y & E & Hy). apply filter_In in Hy as [Hy _]. apply in_map_iff. exists y. split; [exact E|exact Hy].
  Qed.

  Lemma height_via f k l : nth_error ls k = Some (l, false) ->
    height_thickness (S f) h (l_name l) =
    (t <- height_thickness f h (l_top l) ;;
     match t with
     | None => Ok None
     | Some (topH, topT) =>
         b <- height_thickness f h (l_bot l) ;;
         match b with
         | None => Ok None
         | Some (botH, _) => Ok (Some (topH - topT, topH - topT - botH))
         end
     end).
  Proof.
    intros Hk. rewrite height_thickness_S, (not_metal k l Hk).
    apply (try_via_unique (height_thickness f h) (h_via h) (via_of (l, false))); [|exact via_nodup].
    rewrite head_via. apply in_map, filter_In. split; [exact (nth_error_In _ _ Hk)|reflexivity].
  Qed.

  Lemma height_absent f n : ~ In n (map name_of ls) -> height_thickness (S f) h n = Ok None.
  Proof.
    intros Hn. rewrite height_thickness_S. destruct (find _ _) as [b|] eqn:E.
    - exfalso. apply find_some in E as [Hb E]. apply String.eqb_eq in E. apply head_metal in Hb as (j & x & Hj & ->).
      apply Hn. rewrite E. apply (in_map name_of ls (x, true)), (nth_error_In _ _ Hj).
    - apply try_via_absent. rewrite head_via, map_map. intros Hin. apply in_map_iff in Hin as (y & E' & Hy).
      apply filter_In in Hy as [Hy _]. apply Hn, in_map_iff. exists y. split; [exact E'|exact Hy].
  Qed.

  Context (Hl : linked_from ""%string ls).

  (** a layer between two metal layers *)
  Lemma height_between f k l a b : nth_error ls k = Some (a, true) -> nth_error ls (S k) = Some (l, false) ->
    nth_error ls (S (S k)) = Some (b, true) ->
    exists t, height_thickness (S (S f)) h (l_name l) = Ok (Some (elev_at e0 ls (S k), t)) /\ t == um (l, false).
  Proof.
    intros Ha Hk Hb. rewrite (height_via _ _ _ Hk). destruct (linked_nth _ _ _ _ _ Hl Hk) as [E1 E2].
    rewrite Ha in E1. rewrite Hb in E2. unfold name_of in E1, E2. cbn [fst] in E1, E2. rewrite E1, E2.
    rewrite (height_metal f _ _ Ha). cbn [bind]. rewrite (height_metal f _ _ Hb). cbn [bind].
    rewrite <- (elev_at_next _ _ _ _ Ha). rewrite (elev_at_next _ _ _ _ Hk). eexists. split; [reflexivity|]. lra.
  Qed.

  Context (Halt : alternating ls).

  Lemma height_alternating f k l : nth_error ls k = Some l ->
    exists t, height_thickness (S (S f)) h (name_of l) = Ok (Some (elev_at e0 ls k, t)) /\ t == um l.
  Proof.
    destruct l as [l [|]]; intros Hk.
    - exists (um (l, true)). split; [exact (height_metal (S f) _ _ Hk)|reflexivity].
    - destruct (Halt _ _ Hk) as [(j & a & -> & Ha) (b & Hb)]. exact (height_between f j l a b Ha Hk Hb).
  Qed.

  Definition matches (e : Q) (l : glayer * bool) (x : clayer) : Prop :=
    cl_name x = name_of l /\ cl_elev x = e /\ cl_thick x == um l.

  Lemma all_layers_alternating f : exists cs, all_layers (S (S f)) h (h_tech h) = Ok cs /\
    List.length cs = List.length ls /\
    forall k l, nth_error ls k = Some l -> exists x, nth_error cs k = Some x /\ matches (elev_at e0 ls k) l x.
  Proof.
    rewrite head_tech.
    enough (G : forall pre suf, ls = pre ++ suf -> exists cs, all_layers (S (S f)) h (map name_of suf) = Ok cs /\
      List.length cs = List.length suf /\
      forall k l, nth_error suf k = Some l -> exists x, nth_error cs k = Some x /\ matches (elev_at e0 ls (List.length pre + k)) l x).
    { exact (G [] ls eq_refl). }
    intros pre suf. revert pre. induction suf as [|l suf IH]; intros pre E; cbn [map all_layers].
    - exists []. repeat split. intros [|k]; discriminate.
    - destruct (height_alternating f (List.length pre) l) as (t & Et & Eq).
      { rewrite E, nth_error_app2, Nat.sub_diag by lia. reflexivity. }
      rewrite Et. cbn [bind].
      destruct (IH (pre ++ [l])) as (cs & E1 & L & G). { rewrite <- app_assoc. exact E. }
      rewrite E1. cbn [bind]. eexists. split; [reflexivity|]. cbn [List.length]. split; [congruence|].
      intros [|k] x; cbn [nth_error].
      + intros H. injection H as <-. eexists. split; [reflexivity|]. rewrite Nat.add_0_r. repeat split. exact Eq.
      + intros H. destruct (G k x H) as (y & H1 & H2). exists y. split; [exact H1|].
        rewrite app_length in H2. cbn [List.length] in H2. replace (List.length pre + S k)%nat with (List.length pre + 1 + k)%nat by lia. exact H2.
  Qed.
End heights.

(** ** Stack-ups of well separated layers *)

Fixpoint separated (cs : list clayer) : Prop :=
  match cs with
  | a :: ((b :: _) as cs') => tolerance < cl_elev a - cl_elev b /\ separated cs'
  | _ => True
  end.
Fixpoint singles (cs : list clayer) : list slayer :=
  match cs with
  | [] => []
  | [a] => [mkslayer [cl_name a] (cl_elev a) (cl_thick a)]
  | a :: ((b :: _) as cs') => mkslayer [cl_name a] (cl_elev a) (cl_elev a - cl_elev b) :: singles cs'
  end.

Lemma tolerance_pos : 0 < tolerance.
Proof. reflexivity. Qed.

Lemma sort_separated cs : separated cs -> sort_layers cs = cs.
Proof.
  induction cs as [|a cs IH]; [reflexivity|]. intros H. unfold sort_layers in *. cbn [fold_right].
  destruct cs as [|b cs]; [reflexivity|]. destruct H as [H1 H2]. rewrite (IH H2). cbn [insert_layer].
  assert (E : Qle_bool (cl_elev b) (cl_elev a) = true) by (apply Qle_bool_iff; pose proof tolerance_pos; lra).
  rewrite E. reflexivity.
Qed.

Definition single (a : clayer) : group := mkgroup (cl_elev a) [cl_name a] [cl_thick a].
Lemma groups_separated cs : separated cs -> make_groups tolerance cs = map single cs.
Proof.
  destruct cs as [|a cs]; [reflexivity|]. cbn [make_groups map]. fold (single a). revert a.
  induction cs as [|b cs IH]; intros a H; [reflexivity|]. destruct H as [H1 H2]. cbn [groups_from].
  assert (E : Qeqt tolerance (cl_elev a) (cl_elev b) = false).
  { unfold Qeqt. destruct (Qle_bool _ _) eqn:E; [|reflexivity]. apply Qle_bool_iff in E. apply Qabs_Qle_condition in E.
    destruct E. lra. }
  rewrite E. cbn [map]. f_equal. exact (IH b H2).
Qed.

Lemma stack_singles cs : stack_layers (map single cs) = singles cs.
Proof.
  induction cs as [|a cs IH]; [reflexivity|]. destruct cs as [|b cs]; [reflexivity|].
  cbn [map] in *. rewrite stack_cons, IH. reflexivity.
Qed.

Lemma singles_nth cs : forall k a, nth_error cs k = Some a ->
  exists s, nth_error (singles cs) k = Some s /\ sl_names s = [cl_name a] /\ sl_elev s = cl_elev a /\
    sl_thick s = match nth_error cs (S k) with Some b => cl_elev a - cl_elev b | None => cl_thick a end.
Proof.
  induction cs as [|x cs IH]; intros [|k] a H; try discriminate.
  - injection H as ->. destruct cs as [|b cs]; eexists; (split; [reflexivity|]); repeat split.
  - destruct cs as [|b cs]; [destruct k; discriminate|]. exact (IH k a H).
Qed.
Lemma singles_len cs : List.length (singles cs) = List.length cs.
Proof. induction cs as [|a [|b cs] IH]; [reflexivity|reflexivity|]. cbn [singles List.length] in *. rewrite IH. reflexivity. Qed.

(** ** Appending layers *)

Definition strip (l : glayer) := (l_name l, l_thick l, l_size l, l_mf l, l_power l).

Definition rest_of (m : gmodel) :=
  (g_nx m, g_ny m, (g_resx m, g_resy m, g_scale m), (Grid_Model.g_jumps m, Grid_Model.g_top m, Grid_Model.g_bottom m),
   (Grid_Model.g_topblocks m, Grid_Model.g_botblocks m)).

Lemma Qltb_false a b : Qltb a b = false <-> b <= a.
Proof. unfold Qltb. rewrite negb_false_iff. apply Qle_bool_iff. Qed.
Lemma Qltb_true a b : Qltb a b = true <-> a < b.
Proof.
  unfold Qltb. rewrite negb_true_iff. split.
  - intros H. apply Qnot_le_lt. intros L. apply Qle_bool_iff in L. congruence.
  - intros H. destruct (Qle_bool b a) eqn:E; [|reflexivity]. apply Qle_bool_iff in E. lra.
Qed.

Lemma append_cases m l : (0 <= l_thick l /\ l_size l = (g_nx m, g_ny m) /\
    map strip (g_layers (fst (append_layer m l))) = map strip (g_layers m) ++ [strip l] /\
    rest_of (fst (append_layer m l)) = rest_of m) \/
  ((l_thick l < 0 \/ l_size l <> (g_nx m, g_ny m)) /\ fst (append_layer m l) = m).
Proof.
  unfold append_layer. destruct (Qltb (l_thick l) 0) eqn:Et.
  { right. apply Qltb_true in Et. auto. }
  apply Qltb_false in Et.
  destruct (Nat.eqb_spec (fst (l_size l)) (g_nx m)) as [Ex|Ex];
    [|right; split; [right; intros E; apply Ex; rewrite E; reflexivity|reflexivity]].
  destruct (Nat.eqb_spec (snd (l_size l)) (g_ny m)) as [Ey|Ey];
    [|right; split; [right; intros E; apply Ey; rewrite E; reflexivity|reflexivity]].
  cbn [andb negb]. left. split; [exact Et|]. split; [destruct (l_size l); cbn [fst snd] in *; congruence|].
  destruct (rev (g_layers m)) as [|b r] eqn:Er; cbn [fst Grid_Model.g_layers].
  - split; [|reflexivity]. rewrite map_app. reflexivity.
  - split; [|reflexivity]. rewrite <- (rev_involutive (g_layers m)), Er. cbn [rev]. rewrite !map_app, <- app_assoc. reflexivity.
Qed.

(** ** Fractions *)

Section fractions.
  Context (c : chip).

  Lemma density_list_ex ns : exists ds, density_list c ns ds /\
    Forall2 (fun n d => alookup String.eqb n (cc_dens c) = Some d) (present c ns) ds.
  Proof.
    induction ns as [|n ns (ds & H1 & H2)]; cbn [present filter]; [exists []; split; constructor|].
    unfold acount at 1. destruct (alookup String.eqb n (cc_dens c)) as [d|] eqn:E.
    - exists (d :: ds). split; [apply dl_take; auto|constructor; auto].
    - exists ds. split; [apply dl_skip; auto|exact H2].
  Qed.

  Lemma density_list_fun ns : forall ds ds', density_list c ns ds -> density_list c ns ds' -> ds = ds'.
  Proof.
    unfold no_density, has_density in *.
    induction ns as [|n ns IH]; intros ds ds' H H'; inversion H; inversion H'; subst; try reflexivity;
      unfold no_density, has_density in *; try congruence; [apply IH; auto|].
    f_equal; [congruence|apply IH; auto].
  Qed.

  Lemma sum_dens_ok ps : forall ds acc f, Forall2 (fun n d => alookup String.eqb n (cc_dens c) = Some d) ps ds ->
    sum_dens c ps acc = Ok f ->
    (forall x y, f x y == acc x y + sumf (fraction_at x y) ds) /\
    forall d, In d ds -> readable (cc_tx c) (cc_ty c) d = true.
  Proof.
    induction ps as [|n ps IH]; intros ds acc f HF H; inversion HF as [|? d ? ds' Hd HF']; subst; cbn [sum_dens] in H.
    - injection H as <-. split; [intros; cbn [sumf]; lra|intros d []].
    - rewrite Hd in H. destruct (readable (cc_tx c) (cc_ty c) d) eqn:Er; [|discriminate].
      destruct (IH _ _ _ HF' H) as [G1 G2]. split.
      + intros x y. rewrite G1. cbn [sumf]. unfold fraction_at at 2. lra.
      + intros d' [<-|Hin]; auto.
  Qed.

  Lemma sum_dens_ub ps : forall ds acc, Forall2 (fun n d => alookup String.eqb n (cc_dens c) = Some d) ps ds ->
    (forall d, In d ds -> readable (cc_tx c) (cc_ty c) d = true) -> exists f, sum_dens c ps acc = Ok f.
  Proof.
    induction ps as [|n ps IH]; intros ds acc HF Hr; inversion HF as [|? d ? ds' Hd HF']; subst; cbn [sum_dens]; [eauto|].
    rewrite Hd, (Hr d (or_introl eq_refl)). apply (IH ds'); [exact HF'|]. intros d' Hd'. apply Hr. right. exact Hd'.
  Qed.

  Lemma layer_fraction_ok ns mf : layer_fraction c ns = Ok mf ->
    match mf with
    | None => density_list c ns [None]
    | Some g => fraction_of c ns (gr_w g, gr_h g) (gr_at g) /\ ((gr_w g, gr_h g) <> (cc_tx c, cc_ty c) -> density_list c ns [Some g])
    end.
  Proof.
    destruct (density_list_ex ns) as (ds & H1 & H2). unfold layer_fraction.
    destruct (present c ns) as [|p [|q ps]] eqn:Ep.
    - inversion H2; subst. cbn [sum_dens bind]. intros H. injection H as <-. cbn [gr_w gr_h]. split; [|congruence].
      apply fr_sum with (ds := []); [exact H1|discriminate|]. intros x y. cbn [sumf gr_at]. reflexivity.
    - inversion H2 as [|? d ? ? Hd H2']; subst. inversion H2'; subst. rewrite Hd. intros H. injection H as ->.
      destruct mf as [g|]; [|exact H1]. split; [|auto]. apply fr_one with (g := g); auto.
    - remember (p :: q :: ps) as pp. intros H. destruct (sum_dens c pp (fun _ _ => 0)) as [f| | |] eqn:Es; cbn [bind] in H; try discriminate.
      injection H as <-. destruct (sum_dens_ok _ _ _ _ H2 Es) as [G _]. cbn [gr_w gr_h gr_at]. split; [|congruence].
      apply fr_sum with (ds := ds); [exact H1| |].
      + subst pp. inversion H2 as [|? ? ? ? _ H2']; subst. inversion H2'; subst. cbn [List.length]. lia.
      + intros x y. rewrite G. apply Q.min_compat; [lra|reflexivity].
  Qed.
End fractions.

(** ** Importing *)

Lemma strip_stands c order pw dev s l l' : strip l = strip l' -> stands_for c order pw dev s l -> stands_for c order pw dev s l'.
Proof.
  unfold strip, stands_for. intros E. injection E as E1 E2 E3 E4 E5. rewrite E1, E2, E3, E4, E5. auto.
Qed.
Lemma strip_stack c order pw dev st ls : stack_of c order pw dev st ls -> forall ls', map strip ls' = map strip ls ->
  stack_of c order pw dev st ls'.
Proof.
  induction 1 as [|s l st ls H1 H2 H3 H IH|s st ls H1 H IH|s st ls H1 H IH|s g st ls H1 H2 H IH]; intros ls' E.
  - destruct ls'; [constructor|discriminate].
  - destruct ls' as [|l' ls']; [discriminate|]. cbn [map] in E. injection E as E1 E2 E3 E4 E5 E6.
    assert (Es : strip l = strip l') by (unfold strip; congruence).
    apply so_keep; [exact (strip_stands _ _ _ _ _ _ _ Es H1)|rewrite E2; exact H2|rewrite E3; exact H3|exact (IH _ E6)].
  - apply so_thin; auto.
  - apply so_null; auto.
  - apply so_size with (g := g); auto.
Qed.

Definition chip_power (pchip : list Q -> list Q -> Q -> res Q) (c : chip) : list power :=
  match cc_powers c with Some t => [table_power pchip t] | None => [] end.

Lemma import_layers_ok pchip order c dev st : forall m m',
  g_nx m = cc_tx c -> g_ny m = cc_ty c -> import_layers pchip order c dev st m = Ok m' ->
  rest_of m' = rest_of m /\
  exists ls, stack_of c order (chip_power pchip c) dev st ls /\ map strip (g_layers m') = map strip (g_layers m) ++ map strip ls.
Proof.
  induction st as [|s st IH]; intros m m' Hx Hy H; cbn [import_layers] in H.
  - injection H as <-. split; [reflexivity|]. exists []. split; [constructor|]. rewrite app_nil_r. reflexivity.
  - destruct (layer_fraction c (order (sl_names s))) as [mf| | |] eqn:Ef; cbn [bind] in H; try discriminate.
    pose proof (layer_fraction_ok _ _ _ Ef) as Hf. destruct mf as [g|].
    + set (l := grid_layer pchip order c dev s g) in *.
      assert (Hsf : stands_for c order (chip_power pchip c) dev s l).
      { unfold stands_for, l, grid_layer, layer_name, join. cbn [l_name l_thick l_size l_mf l_power].
        split; [reflexivity|]. split; [field|]. split; [exact (proj1 Hf)|]. unfold chip_power.
        destruct (String.eqb_spec (String.concat "_" (order (sl_names s))) dev), (string_dec (String.concat "_" (order (sl_names s))) dev); congruence. }
      destruct (append_cases m l) as [(A1 & A2 & A3 & A4)|[A1 A2]].
      * assert (Hr : g_nx (fst (append_layer m l)) = cc_tx c /\ g_ny (fst (append_layer m l)) = cc_ty c).
        { unfold rest_of in A4. injection A4 as R1 R2 _ _ _ _ _ _ _ _. split; congruence. }
        destruct (IH _ _ (proj1 Hr) (proj2 Hr) H) as [R (ls & G1 & G2)]. split; [rewrite R; exact A4|].
        exists (l :: ls). split; [apply so_keep; auto; rewrite A2, Hx, Hy; reflexivity|].
        rewrite G2, A3, <- app_assoc. reflexivity.
      * rewrite A2 in H. destruct (IH _ _ Hx Hy H) as [R (ls & G1 & G2)]. split; [exact R|]. exists ls. split; [|exact G2].
        destruct A1 as [A1|A1].
        -- apply so_thin; [|exact G1]. unfold l, grid_layer in A1. cbn [l_thick] in A1. lra.
        -- rewrite Hx, Hy in A1. apply so_size with (g := g); auto. apply (proj2 Hf). exact A1.
    + destruct (IH _ _ Hx Hy H) as [R (ls & G1 & G2)]. split; [exact R|]. exists ls. split; [|exact G2].
      apply so_null; auto.
Qed.

Lemma import_some pchip order fuel c g : import pchip order fuel c = Ok (Some g) ->
  exists st m, build_stackup fuel (cc_head c) = Ok st /\ device_layer order c st <> ""%string /\
    import_layers pchip order c (device_layer order c st) st (new_grid (cc_tx c) (cc_ty c)) = Ok m /\
    g = set_resolution (cc_res c * (1 # 1000000)) (cc_res c * (1 # 1000000)) (set_scale (cc_scale c) m).
Proof.
  unfold import. destruct (build_stackup fuel (cc_head c)) as [st| | |]; cbn [bind]; try discriminate.
  destruct (String.eqb_spec (device_layer order c st) "") as [E|E]; [discriminate|].
  destruct (import_layers _ _ _ _ _ _) as [m| | |] eqn:Em; cbn [bind]; try discriminate.
  intros H. injection H as <-. exists st, m. auto.
Qed.

Lemma set_layers a b v m : g_layers (set_resolution a b (set_scale v m)) = g_layers m.
Proof. unfold set_resolution, set_scale. destruct (Qltb v 0), (_ || _)%bool; reflexivity. Qed.

Lemma order_single (order : list string -> list string) n : (forall l, Permutation l (order l)) -> order [n] = [n].
Proof. intros H. apply Permutation_length_1_inv, H. Qed.

Definition grid_at (c : chip) (s : slayer) : grid :=
  match alookup String.eqb (hd ""%string (sl_names s)) (cc_dens c) with Some (Some g) => g | _ => Keyed_Model.mkGrid 0 0 (fun _ _ => 0) end.

Lemma import_layers_single pchip order c dev : (forall l, Permutation l (order l)) -> forall st m,
  g_nx m = cc_tx c -> g_ny m = cc_ty c ->
  (forall s, In s st -> exists n g, sl_names s = [n] /\ alookup String.eqb n (cc_dens c) = Some (Some g) /\
     (gr_w g, gr_h g) = (cc_tx c, cc_ty c) /\ 0 <= sl_thick s) ->
  exists m', import_layers pchip order c dev st m = Ok m' /\ rest_of m' = rest_of m /\
    map strip (g_layers m') = map strip (g_layers m) ++ map (fun s => strip (grid_layer pchip order c dev s (grid_at c s))) st.
Proof.
  intros Ho st. induction st as [|s st IH]; intros m Hx Hy Hs; cbn [import_layers].
  - exists m. repeat split. rewrite app_nil_r. reflexivity.
  - destruct (Hs s (or_introl eq_refl)) as (n & g & En & Eg & Esz & Et).
    assert (Ef : layer_fraction c (order (sl_names s)) = Ok (Some g)).
    { rewrite En, (order_single order n Ho). unfold layer_fraction, present. cbn [filter]. unfold acount. rewrite Eg, Eg. reflexivity. }
    rewrite Ef. cbn [bind].
    assert (Egr : grid_at c s = g) by (unfold grid_at; rewrite En; cbn [hd]; rewrite Eg; reflexivity).
    set (l := grid_layer pchip order c dev s g).
    destruct (append_cases m l) as [(A1 & A2 & A3 & A4)|[A1 A2]].
    + assert (Hr : g_nx (fst (append_layer m l)) = cc_tx c /\ g_ny (fst (append_layer m l)) = cc_ty c).
      { unfold rest_of in A4. injection A4 as R1 R2 _ _ _ _ _ _ _ _. split; congruence. }
      destruct (IH _ (proj1 Hr) (proj2 Hr)) as (m' & G1 & G2 & G3). { intros s' Hs'. apply Hs. right. exact Hs'. }
      exists m'. split; [exact G1|]. split; [congruence|]. rewrite G3, A3, <- app_assoc. cbn [map]. rewrite Egr. reflexivity.
    + exfalso. destruct A1 as [A1|A1].
      * unfold l, grid_layer in A1. cbn [l_thick] in A1. lra.
      * apply A1. unfold l, grid_layer. cbn [l_size]. rewrite Hx, Hy. exact Esz.
Qed.

Lemma separated_nth cs : (forall k a b, nth_error cs k = Some a -> nth_error cs (S k) = Some b -> tolerance < cl_elev a - cl_elev b) -> separated cs.
Proof.
  induction cs as [|a cs IH]; intros H; [exact I|]. destruct cs as [|b cs]; [exact I|]. split.
  - exact (H O a b eq_refl eq_refl).
  - apply IH. intros k x y Hx Hy. exact (H (S k) x y Hx Hy).
Qed.

(** the stack-up of an exported alternating model *)
Lemma stackup_alternating m enc c f : exported enc m c -> linked_from ""%string (x_layers m) -> alternating (x_layers m) ->
  (forall l, In l (x_layers m) -> (1 # 1000000000000) < l_thick (fst l)) ->
  exists st, build_stackup (S (S f)) (cc_head c) = Ok st /\ List.length st = List.length (x_layers m) /\
    forall k l, nth_error (x_layers m) k = Some l -> exists s, nth_error st k = Some s /\ sl_names s = [name_of l] /\ sl_thick s == um l.
Proof.
  intros Hex Hl Ha Ht. destruct (all_layers_alternating m enc c Hex Hl Ha f) as (cs & E & L & G).
  assert (Hc : forall k a, nth_error cs k = Some a -> exists l, nth_error (x_layers m) k = Some l /\
    matches (elev_at (total_thickness (x_layers m) * 1000000) (x_layers m) k) l a).
  { intros k a Hk. destruct (nth_error (x_layers m) k) as [l|] eqn:El.
    - destruct (G k l El) as (x & Hx & Hm). exists l. split; [reflexivity|]. rewrite Hk in Hx. injection Hx as ->. exact Hm.
    - apply nth_error_None in El. assert (k < List.length cs)%nat by (apply nth_error_Some; congruence). lia. }
  assert (Hs : separated cs).
  { apply separated_nth. intros k a b Hka Hkb. destruct (Hc _ _ Hka) as (l & Hkl & _ & Ea & _).
    destruct (Hc _ _ Hkb) as (l' & _ & _ & Eb & _). rewrite Ea, Eb, (elev_at_next _ _ _ _ Hkl).
    pose proof (Ht _ (nth_error_In _ _ Hkl)). unfold um, tolerance. lra. }
  exists (singles cs). split.
  { unfold build_stackup. rewrite E. cbn [bind]. rewrite (sort_separated _ Hs), (groups_separated _ Hs), stack_singles. reflexivity. }
  split; [rewrite singles_len; exact L|].
  intros k l Hk. destruct (G k l Hk) as (x & Hx & Hn & He & Hth). destruct (singles_nth _ _ _ Hx) as (s & H1 & H2 & _ & H4).
  exists s. split; [exact H1|]. split; [rewrite H2, Hn; reflexivity|]. rewrite H4.
  destruct (nth_error cs (S k)) as [b|] eqn:Eb; [|exact Hth].
  destruct (Hc _ _ Eb) as (l' & _ & _ & Eb' & _). rewrite He, Eb', (elev_at_next _ _ _ _ Hk). lra.
Qed.

Lemma strip_nth gs (xs : list slayer) (F : slayer -> glayer) k s :
  map strip gs = map (fun s => strip (F s)) xs -> nth_error xs k = Some s ->
  exists l, nth_error gs k = Some l /\ strip l = strip (F s).
Proof.
  intros E Hk. assert (H : nth_error (map strip gs) k = Some (strip (F s))).
  { rewrite E. exact (map_nth_error (fun s => strip (F s)) _ _ Hk). }
  destruct (nth_error gs k) as [l|] eqn:El.
  - exists l. split; [reflexivity|]. rewrite (map_nth_error strip _ _ El) in H. congruence.
  - apply nth_error_None in El. assert (k < List.length (map strip gs))%nat by (apply nth_error_Some; congruence).
    rewrite map_length in *. lia.
Qed.
