From Verif Require Import Base QSum Units_Model Bondwire_Model Padstack_Model LayerMap_Model LayerMap_Spec LayerMap_Proofs XflGeom_Model XflGeom_Spec.
From Coq Require Import Qround ListDec.
Open Scope res_scope.
Local Open Scope list_scope.

(** ** Truncation *)
Lemma trunc_about q : about (trunc q) q.
Proof.
  unfold about, trunc; destruct (Qle_bool 0 q).
  - pose proof (Qfloor_le q); pose proof (Qlt_floor q); rewrite inject_Z_plus in *; change (inject_Z 1) with 1%Q in *; split; lra.
  - pose proof (Qle_ceiling q); pose proof (Qceiling_lt q).
    assert (E : (inject_Z (Qceiling q - 1) == inject_Z (Qceiling q) - 1)%Q) by (rewrite <- Z.add_opp_r, inject_Z_plus; reflexivity).
    split; lra.
Qed.
Lemma about_eq z a b : (a == b)%Q -> about z a -> about z b.
Proof. unfold about; lra. Qed.
Lemma about_opp z q : about z q -> about (- z) (- q).
Proof. unfold about; rewrite inject_Z_opp; lra. Qed.

(** halving an integer length once more *)
Lemma half_about c q z : (c == 1#2 \/ c == - (1#2))%Q -> about z q -> about (trunc (c * inject_Z z)) (c * q)%Q.
Proof.
  intros C A; pose proof (trunc_about (c * inject_Z z)) as T; set (b := trunc (c * inject_Z z)) in *.
  assert (H : exists d, (inject_Z b == c * inject_Z z + (1#2) * inject_Z d /\ - (1) <= inject_Z d /\ inject_Z d <= 1)%Q).
  { unfold about in T; destruct C as [C|C].
    - exists (2 * b - z)%Z.
      assert (E : (inject_Z (2 * b - z) == 2 * inject_Z b - inject_Z z)%Q) by (unfold Z.sub; rewrite inject_Z_plus, inject_Z_opp, inject_Z_mult; reflexivity).
      assert (L : (-2 < 2 * b - z < 2)%Z) by (split; rewrite Zlt_Qlt; rewrite E; change (inject_Z (-2)) with (-2#1)%Q; change (inject_Z 2) with (2#1)%Q; rewrite C in T; lra).
      split; [rewrite E, C; ring|]; change (- (1))%Q with (inject_Z (-1)); change 1%Q with (inject_Z 1); rewrite <- !Zle_Qle; lia.
    - exists (2 * b + z)%Z.
      assert (E : (inject_Z (2 * b + z) == 2 * inject_Z b + inject_Z z)%Q) by (rewrite inject_Z_plus, inject_Z_mult; reflexivity).
      assert (L : (-2 < 2 * b + z < 2)%Z) by (split; rewrite Zlt_Qlt; rewrite E; change (inject_Z (-2)) with (-2#1)%Q; change (inject_Z 2) with (2#1)%Q; rewrite C in T; lra).
      split; [rewrite E, C; ring|]; change (- (1))%Q with (inject_Z (-1)); change 1%Q with (inject_Z 1); rewrite <- !Zle_Qle; lia. }
  destruct H as (d & E & D1 & D2); unfold about in *; rewrite E.
  assert (M : (c * inject_Z z + (1#2) * inject_Z d - c * q == c * (inject_Z z - q) + (1#2) * inject_Z d)%Q) by ring.
  rewrite M; destruct C as [C|C]; rewrite C; lra.
Qed.

(** ** Pads *)
Section Pads.
  Context {S : Type} (metal : list (Z * Z)).
  Implicit Types (fps pre post : list (@file_pad S)).

  Lemma upd_nth (pads : list (pad (option S))) i v j : nth_error (upd pads i v) j =
    if (j =? i)%nat then match nth_error pads j with Some p => Some (mkPad (pad_lyr p) v) | None => None end else nth_error pads j.
  Proof.
    revert i j; induction pads as [|p pads IH]; intros i j; simpl.
    - destruct j; destruct (_ =? _)%nat; auto.
    - destruct i, j; simpl; auto.
  Qed.
  Lemma upd_length (pads : list (pad (option S))) i v : List.length (upd pads i v) = List.length pads.
  Proof. revert i; induction pads; intros [|i]; simpl; auto. Qed.
  Lemma set_layers_none (ls : list string) : List.length (set_layers (@None S) [] ls) = List.length ls /\
    forall j p, nth_error (set_layers (@None S) [] ls) j = Some p -> pad_par p = None.
  Proof.
    induction ls as [|n ls [L H]]; simpl; [split; [auto|intros [|j]; discriminate]|split; [congruence|]].
    intros [|j] p E; simpl in E; [injection E as <-; auto|eauto].
  Qed.

  (** state after the pads [pre] *)
  Definition pinv (pre : list (@file_pad S)) (n : nat) (lm : lmap) (pads : list (pad (option S))) : Prop :=
    good lm /\ List.length pads = n /\
    (forall x y, In (x, y) lm <-> (x, y) = (-1, -1)%Z \/ (x, y) = (-10, -10)%Z \/ pad_layer metal pre x = Some y) /\
    (forall j p, nth_error pads j = Some p -> pad_par p = pad_shape pre (Z.of_nat j)).

  Lemma nth_snoc_eq {A} (l : list A) a : nth_error (l ++ [a]) (List.length l) = Some a.
  Proof. rewrite nth_error_app2, Nat.sub_diag; auto. Qed.
  Lemma pad_layer_snoc pre p x : pad_layer metal (pre ++ [p]) x =
    if (x =? Z.of_nat (List.length pre))%Z then match p with (Some _, sig) => alookup Z.eqb sig metal | _ => None end else pad_layer metal pre x.
  Proof.
    unfold pad_layer; destruct (Z.ltb_spec x 0).
    - destruct (Z.eqb_spec x (Z.of_nat (List.length pre))); [lia|auto].
    - destruct (Z.eqb_spec x (Z.of_nat (List.length pre))) as [->|].
      + rewrite Nat2Z.id, nth_snoc_eq; auto.
      + destruct (Nat.lt_ge_cases (Z.to_nat x) (List.length pre)).
        * rewrite nth_error_app1; auto.
        * assert (nth_error pre (Z.to_nat x) = None) as -> by (apply nth_error_None; lia).
          assert (nth_error (pre ++ [p]) (Z.to_nat x) = None) as -> by (apply nth_error_None; rewrite app_length; simpl; lia); auto.
  Qed.
  Lemma pad_shape_snoc pre p x : pad_shape (pre ++ [p]) x = if (x =? Z.of_nat (List.length pre))%Z then fst p else pad_shape pre x.
  Proof.
    unfold pad_shape; destruct (Z.ltb_spec x 0).
    - destruct (Z.eqb_spec x (Z.of_nat (List.length pre))); [lia|auto].
    - destruct (Z.eqb_spec x (Z.of_nat (List.length pre))) as [->|].
      + rewrite Nat2Z.id, nth_snoc_eq; destruct p; auto.
      + destruct (Nat.lt_ge_cases (Z.to_nat x) (List.length pre)).
        * rewrite nth_error_app1; auto.
        * assert (nth_error pre (Z.to_nat x) = None) as -> by (apply nth_error_None; lia).
          assert (nth_error (pre ++ [p]) (Z.to_nat x) = None) as -> by (apply nth_error_None; rewrite app_length; simpl; lia); auto.
  Qed.
  Lemma pad_layer_past pre x : (Z.of_nat (List.length pre) <= x)%Z -> pad_layer metal pre x = None.
  Proof.
    intros H; unfold pad_layer; destruct (x <? 0)%Z; auto.
    assert (nth_error pre (Z.to_nat x) = None) as -> by (apply nth_error_None; lia); auto.
  Qed.
  Lemma pad_layer_pos pre x y : pad_layer metal pre x = Some y -> (0 <= x)%Z.
  Proof. unfold pad_layer; destruct (Z.ltb_spec x 0); [discriminate|auto]. Qed.
  Lemma pad_shape_past pre x : (Z.of_nat (List.length pre) <= x)%Z -> pad_shape pre x = None.
  Proof.
    intros H; unfold pad_shape; destruct (x <? 0)%Z; auto.
    assert (nth_error pre (Z.to_nat x) = None) as -> by (apply nth_error_None; lia); auto.
  Qed.
  Lemma pad_layer_app pre post i l : pad_layer metal pre i = Some l -> pad_layer metal (pre ++ post) i = Some l.
  Proof.
    unfold pad_layer; destruct (i <? 0)%Z; auto; destruct (nth_error pre (Z.to_nat i)) as [p|] eqn:E; [|discriminate].
    rewrite nth_error_app1, E; auto; apply nth_error_Some; congruence.
  Qed.
  Lemma pads_apart_pre pre post : pads_apart metal (pre ++ post) -> pads_apart metal pre.
  Proof. intros A i j l Hi Hj; eapply A; eapply pad_layer_app; eauto. Qed.

  Lemma pinv_none pre n lm pads sig : pinv pre n lm pads -> pinv (pre ++ [(None, sig)]) n lm pads.
  Proof.
    intros (G & L & M & P); split; [auto|split; [auto|split]].
    - intros x y; rewrite M, pad_layer_snoc; destruct (Z.eqb_spec x (Z.of_nat (List.length pre))) as [->|]; [|tauto].
      rewrite pad_layer_past by lia; tauto.
    - intros j p E; rewrite pad_shape_snoc, (P j p E); destruct (Z.eqb_spec (Z.of_nat j) (Z.of_nat (List.length pre))) as [->|]; auto.
      rewrite pad_shape_past by lia; auto.
  Qed.
  Lemma pinv_some pre n lm pads s sig : layers_proper metal -> pads_apart metal (pre ++ [(Some s, sig)]) -> (List.length pre < n)%nat ->
    pinv pre n lm pads ->
    pinv (pre ++ [(Some s, sig)]) n (match alookup Z.eqb sig metal with Some id => set_mapping (Z.of_nat (List.length pre), id) lm | None => lm end)
      (upd pads (List.length pre) (Some s)).
  Proof.
    intros LP A Ln (G & L & M & P); split; [destruct (alookup Z.eqb sig metal); auto; apply good_set; auto|].
    split; [rewrite upd_length; auto|split].
    - intros x y; rewrite pad_layer_snoc; destruct (alookup Z.eqb sig metal) as [id|] eqn:E.
      + pose proof (LP _ _ E).
        assert (F : ~ clash (Z.of_nat (List.length pre), id) lm).
        { intros ([a b] & I & C); apply M in I as [I|[I|I]]; [injection I as -> ->; simpl in C; lia|injection I as -> ->; simpl in C; lia|].
          simpl in C; destruct C as [->|C].
          - rewrite pad_layer_past in I by lia; discriminate.
          - assert (a = Z.of_nat (List.length pre)).
            { apply (A _ _ id); [apply pad_layer_app; congruence|rewrite pad_layer_snoc, Z.eqb_refl; auto]. }
            subst a; rewrite pad_layer_past in I by lia; discriminate. }
        rewrite set_mapping_in, M; destruct (Z.eqb_spec x (Z.of_nat (List.length pre))) as [->|Ne].
        * rewrite pad_layer_past by lia; split.
          -- intros [[?|[?|?]]|[I _]]; [auto|auto|discriminate|injection I as ->; auto].
          -- intros [?|[?|I]]; auto; injection I as ->; auto.
        * split; [intros [?|[I _]]; [auto|injection I as -> _; tauto]|tauto].
      + rewrite M; destruct (Z.eqb_spec x (Z.of_nat (List.length pre))) as [->|]; [|tauto].
        rewrite pad_layer_past by lia; tauto.
    - intros j p E; rewrite upd_nth in E; rewrite pad_shape_snoc; destruct (Nat.eqb_spec j (List.length pre)) as [->|].
      + rewrite Z.eqb_refl; destruct (nth_error pads (List.length pre)); [injection E as <-; auto|discriminate].
      + destruct (Z.eqb_spec (Z.of_nat j) (Z.of_nat (List.length pre))); [lia|auto].
  Qed.

  Lemma import_pads_inv post : layers_proper metal -> forall pre lm pads,
    pads_apart metal (pre ++ post) -> pinv pre (List.length pre + List.length post) lm pads ->
    exists lm' pads', import_pads metal (List.length pre) post lm pads = Ok (lm', pads') /\ pinv (pre ++ post) (List.length pre + List.length post) lm' pads'.
  Proof.
    intros LP; induction post as [|[so sig] post IH]; intros pre lm pads A I.
    - exists lm, pads; rewrite app_nil_r in *; split; auto.
    - assert (A' : pads_apart metal ((pre ++ [(so, sig)]) ++ post)) by (rewrite <- app_assoc; exact A).
      specialize (IH (pre ++ [(so, sig)])); rewrite app_length in IH; cbn [List.length] in *.
      replace (List.length pre + 1 + List.length post)%nat with (List.length pre + Datatypes.S (List.length post))%nat in IH by lia.
      replace (List.length pre + 1)%nat with (Datatypes.S (List.length pre)) in IH by lia.
      specialize (fun lm pads => IH lm pads A'); clear A'; rename IH into IH0.
      assert (IH : forall lm pads, pinv (pre ++ [(so, sig)]) (List.length pre + Datatypes.S (List.length post)) lm pads ->
        exists lm' pads', import_pads metal (Datatypes.S (List.length pre)) post lm pads = Ok (lm', pads') /\
          pinv (pre ++ (so, sig) :: post) (List.length pre + Datatypes.S (List.length post)) lm' pads').
      { intros lm0 pads0 I0; destruct (IH0 lm0 pads0 I0) as (lm' & pads' & E & I'); rewrite <- app_assoc in I'; eauto. }
      clear IH0.
      destruct so as [s|]; simpl.
      + destruct I as (G & L & MP); unfold set_pad; rewrite L.
        destruct (Z.eqb_spec (Z.of_nat (List.length pre)) Bondwire_Model.noLayer) as [E|_]; [unfold Bondwire_Model.noLayer in E; lia|].
        destruct (Z.leb_spec (Z.of_nat (List.length pre + Datatypes.S (List.length post))) (Z.of_nat (List.length pre))); [lia|].
        destruct (Z.ltb_spec (Z.of_nat (List.length pre)) 0); [lia|]; cbn [bind fst]; rewrite Nat2Z.id.
        apply IH; auto; apply pinv_some; auto; [apply (pads_apart_pre _ post); rewrite <- app_assoc; exact A|lia|split; [auto|split; auto]].
      + apply IH; auto; apply pinv_none; auto.
  Qed.

  Lemma import_padstack_inv fps : layers_proper metal -> pads_apart metal fps ->
    exists lm pads, import_padstack metal fps = Ok (lm, pads) /\ pinv fps (List.length fps) lm pads.
  Proof.
    intros LP A; unfold import_padstack; apply (import_pads_inv fps LP []); auto.
    destruct (set_layers_none (map (fun _ => "layer"%string) fps)) as [L H]; rewrite map_length in L.
    split; [apply good_new|split; [auto|split]].
    - intros x y; rewrite new_in; unfold LayerMap_Model.noLayer, ComponentLayer; assert (pad_layer metal (@nil file_pad) x = None) as -> by (unfold pad_layer; destruct (x <? 0)%Z; auto; destruct (Z.to_nat x); auto); intuition discriminate.
    - intros j p E; rewrite (H j p E); unfold pad_shape; destruct (Z.of_nat j <? 0)%Z; auto; destruct (Z.to_nat (Z.of_nat j)); auto.
  Qed.
End Pads.

Lemma get_pad_shape {S : Type} metal fps (lm : lmap) (pads : list (pad (option S))) x :
  pinv metal fps (List.length fps) lm pads -> (-1 <= x)%Z ->
  exists r, get_pad pads x = Ok r /\ (match r with Some (Some s) => Some s | _ => None end) = pad_shape fps x.
Proof.
  intros (_ & L & _ & P) H; unfold get_pad, pad_shape, Bondwire_Model.noLayer; rewrite L.
  destruct (Z.eqb_spec x (-1)) as [->|]; [eexists; split; simpl; eauto|].
  destruct (Z.ltb_spec x 0); [lia|].
  destruct (Z.leb_spec (Z.of_nat (List.length fps)) x).
  - eexists; split; eauto; assert (nth_error fps (Z.to_nat x) = None) as -> by (apply nth_error_None; lia); auto.
  - destruct (nth_error pads (Z.to_nat x)) as [p|] eqn:E; [|apply nth_error_None in E; lia].
    eexists; split; eauto; rewrite (P _ _ E); unfold pad_shape; rewrite Z2Nat.id by lia.
    destruct (Z.ltb_spec x 0); [lia|]; destruct (nth_error fps (Z.to_nat x)) as [[[]]|]; auto.
Qed.

(** what GetLayerShape shows after the import *)
Lemma layer_shape_shown {S : Type} metal fps (via : S) top bot lyr :
  layers_proper metal -> pads_apart metal fps -> (Z.min top bot <= lyr <= Z.max top bot)%Z -> (0 <= Z.min top bot)%Z ->
  exists lm pads, import_padstack metal fps = Ok (lm, pads) /\ layer_shape lm pads via top bot lyr =
      Ok (Some (match pad_layer metal fps lyr with Some l => match pad_shape fps l with Some s => s | None => via end | None => via end)).
Proof.
  intros LP A R N; destruct (import_padstack_inv metal fps LP A) as (lm & pads & E & I); exists lm, pads; split; auto.
  unfold layer_shape; destruct (Z.ltb_spec lyr (Z.min top bot)); [lia|]; destruct (Z.ltb_spec (Z.max top bot) lyr); [lia|]; cbn [orb].
  assert (F : forward lm lyr = match pad_layer metal fps lyr with Some l => l | None => (-1)%Z end).
  { destruct I as (G & _ & M & _); destruct (pad_layer metal fps lyr) as [l|] eqn:PL.
    - apply forward_in; [apply G|apply M; auto].
    - destruct (forward_cases lm lyr) as [J|[-> _]]; auto.
      apply M in J as [J|[J|J]]; [injection J as J _; lia|injection J as J _; lia|congruence]. }
  rewrite F; destruct (get_pad_shape metal fps lm pads (match pad_layer metal fps lyr with Some l => l | None => (-1)%Z end) I) as (r & -> & Hr).
  - destruct (pad_layer metal fps lyr) as [l|] eqn:PL; [|lia].
    unfold pad_layer in PL; destruct (lyr <? 0)%Z; [discriminate|]; destruct (nth_error fps (Z.to_nat lyr)) as [[[]]|]; try discriminate.
    apply LP in PL; lia.
  - cbn [bind]; f_equal; destruct (pad_layer metal fps lyr) as [l|].
    + rewrite <- Hr; destruct r as [[]|]; auto.
    + change (pad_shape fps (-1)) with (@None S) in Hr; destruct r as [[]|]; auto; discriminate.
Qed.

(** ** Composites *)
Section Composite.
  Context (scale : Q) (arc_points : pt -> arc_kind -> pt -> pt -> list pt).
  Definition plain (cs : list piece) : Prop := forall mid fin, ~ In (CArc Arc3 mid fin) cs.
  Lemma composite_ok cs : (forall a k m f, arc_points a k m f <> []) -> plain cs -> forall last,
    composite_loop scale arc_points cs last = Ok (map (to_point scale) (outline arc_points cs last)).
  Proof.
    intros NE; induction cs as [|c cs IH]; intros P last; auto; simpl.
    assert (P' : plain cs) by (intros m f I; apply (P m f); now right).
    destruct c as [p|k mid fin]; [rewrite IH by auto; auto|].
    assert (K : k <> Arc3) by (intros ->; apply (P mid fin); now left).
    assert (T : to_points scale arc_points last k mid fin = map (to_point scale) (arc_points last k mid fin)) by (destruct k; auto; congruence).
    rewrite T; pose proof (NE last k mid fin); destruct (arc_points last k mid fin) as [|a ps]; [congruence|simpl].
    rewrite IH by auto; cbn [bind]; rewrite map_app; auto.
  Qed.
  Lemma composite_ub cs : forall mid fin last, In (CArc Arc3 mid fin) cs -> composite_loop scale arc_points cs last = UB.
  Proof.
    induction cs as [|c cs IH]; intros mid fin last I; [destruct I|destruct I as [->|I]; simpl; auto].
    destruct c as [p|k m f]; [rewrite (IH mid fin) by auto; auto|].
    destruct (to_points scale arc_points last k m f); auto; rewrite (IH mid fin) by auto; auto.
  Qed.
End Composite.

Lemma to_point_about scale p : point_about (to_point scale p) (scaled scale p).
Proof.
  split; simpl; [apply (about_eq _ (fst p * scale))|apply (about_eq _ (snd p * scale))]; try ring; apply trunc_about.
Qed.
Lemma to_points_about scale ps : Forall2 point_about (map (to_point scale) ps) (map (scaled scale) ps).
Proof. induction ps; simpl; constructor; auto; apply to_point_about. Qed.

(** ** Definitions *)
Section Vias.
  Context {S : Type} (metal : list (Z * Z)).
  Lemma import_pads_total (post : list (@file_pad S)) : forall i lm pads, List.length pads = (i + List.length post)%nat ->
    exists r, import_pads metal i post lm pads = Ok r.
  Proof.
    induction post as [|[[s|] sig] post IH]; intros i lm pads L; simpl in *; [eauto| |apply IH; lia].
    unfold set_pad, Bondwire_Model.noLayer; rewrite L.
    destruct (Z.eqb_spec (Z.of_nat i) (-1)); [lia|]; destruct (Z.leb_spec (Z.of_nat (i + Datatypes.S (List.length post))) (Z.of_nat i)); [lia|].
    destruct (Z.ltb_spec (Z.of_nat i) 0); [lia|]; cbn [bind fst]; apply IH; rewrite upd_length; lia.
  Qed.
  Lemma import_padstack_total (fps : list (@file_pad S)) : exists r, import_padstack metal fps = Ok r.
  Proof.
    unfold import_padstack; apply import_pads_total; destruct (set_layers_none (S := S) (map (fun _ => "layer"%string) fps)) as [L _].
    rewrite L, map_length; auto.
  Qed.

  Definition complete (v : file_via S) : bool :=
    match v_pads v, v_shape v, v_mat_known v with Some _, Some _, true => true | _, _, _ => false end.
  Definition def_of (v : file_via S) (d : via_def S) : Prop :=
    d_name d = v_name v /\ v_shape v = Some (d_via d) /\ exists fps, v_pads v = Some fps /\ import_padstack metal fps = Ok (d_map d, d_pads d).
  Lemma name_used (v : file_via S) (ds : list (via_def S)) : existsb (fun d => String.eqb (v_name v) (d_name d)) ds = true <-> In (v_name v) (map d_name ds).
  Proof.
    rewrite existsb_exists, in_map_iff; split.
    - intros (d & I & E); apply String.eqb_eq in E; eauto.
    - intros (d & E & I); exists d; split; auto; apply String.eqb_eq; auto.
  Qed.
  Lemma import_vias_cases vs : forall done,
    (NoDup (map d_name done ++ map v_name (filter complete vs)) /\
       exists ds, import_vias metal vs done = Ok (done ++ ds) /\ Forall2 def_of (filter complete vs) ds) \/
    (~ NoDup (map d_name done ++ map v_name (filter complete vs)) /\ (NoDup (map d_name done) -> import_vias metal vs done = UB \/ import_vias metal vs done = Throw)) \/
    ~ NoDup (map d_name done).
  Proof.
    induction vs as [|v vs IH]; intros done.
    - simpl; rewrite app_nil_r; destruct (ListDec.NoDup_dec string_dec (map d_name done)); [left; split; auto; exists []; rewrite app_nil_r; split; auto; constructor|auto].
    - simpl; assert (C : complete v = match v_pads v, v_shape v, v_mat_known v with Some _, Some _, true => true | _, _, _ => false end) by auto.
      rewrite C; clear C; destruct (v_pads v) as [fps|] eqn:Ep; [|apply IH].
      destruct (v_shape v) as [s|] eqn:Es; [|apply IH]; destruct (v_mat_known v); [|apply IH].
      destruct (existsb _ done) eqn:U.
      + apply name_used in U; right; left; split.
        * simpl; intros N; apply NoDup_remove_2 in N; apply N, in_app_iff; auto.
        * intros _; destruct (existsb (maps_pad metal) fps); auto.
      + destruct (import_padstack_total fps) as [[lm pads] E]; rewrite E; cbn [bind fst snd].
        set (d := {| d_name := v_name v; d_map := lm; d_pads := pads; d_via := s |}).
        assert (Nd : ~ In (v_name v) (map d_name done)) by (intros I; apply name_used in I; congruence).
        specialize (IH (done ++ [d])); rewrite map_app, <- app_assoc in IH; simpl in IH |- *.
        destruct IH as [(N & ds & E1 & F)|[(N & H)|N]].
        * left; split; auto; exists (d :: ds); rewrite E1, <- app_assoc; split; auto; constructor; auto.
          split; auto; split; auto; exists fps; auto.
        * destruct (ListDec.NoDup_dec string_dec (map d_name done)); [|auto].
          right; left; split; auto; intros _; apply H, nodup_snoc; auto.
        * right; right; intros N'; apply N, nodup_snoc; auto.
  Qed.
End Vias.

(** ** Bullets and fingers *)
Lemma trunc_point_about p : point_about (trunc (fst p), trunc (snd p)) p.
Proof. split; apply trunc_about. Qed.
Lemma half_turn_rounded arcs x y : (forall a k m f, arcs a k m f <> []) -> exists es, half_turn arcs x y = Ok es /\ rounded_end arcs (x, y) es.
Proof.
  intros NE. unfold half_turn, rounded_end. cbn [fst snd]. destruct (arcs _ _ _ _) as [|p ps] eqn:E; [destruct (NE _ _ _ _ E)|]. eexists. split; [reflexivity|]. cbn [tl].
  clear E. induction ps as [|q ps IH]; [constructor|]. cbn [map]. constructor; [apply trunc_point_about|exact IH].
Qed.
Lemma bullet_shape : forall scale arcs w l r, (forall a k m f, arcs a k m f <> []) -> exists a b c es,
  get_shape scale arcs (FBullet w l r) = Ok (EPolygon (a :: b :: c :: es)) /\
  point_about a (- (scale * l), scale * w / 2)%Q /\ point_about b (- (scale * l), - (scale * w / 2))%Q /\
  nearly (fst c) (scale * r - scale * w / 2) /\ about (snd c) (- (scale * w / 2)) /\ rounded_end arcs c es.
Proof.
  intros scale arcs w l r NE. set (h := trunc ((1#2) * w * scale)). set (x := trunc (r * scale - inject_Z h)).
  destruct (half_turn_rounded arcs x (- h) NE) as (es & E & R). exists (trunc (- l * scale), h), (trunc (- l * scale), (- h)%Z), (x, (- h)%Z), es.
  assert (H : about h (scale * w / 2)) by (eapply about_eq; [|apply trunc_about]; field).
  assert (L : about (trunc (- l * scale)) (- (scale * l))) by (eapply about_eq; [|apply trunc_about]; ring).
  split; [unfold get_shape; fold h; fold x; now rewrite E|]. split; [now split|]. split; [split; [exact L|now apply about_opp]|].
  split; [|split; [now apply about_opp|exact R]].
  assert (X : about x (r * scale - inject_Z h)) by apply trunc_about. cbn [fst]. unfold nearly, about in *. clearbody x h. clear E R L. split; lra.
Qed.
Lemma finger_shape : forall scale arcs w l r, (forall a k m f, arcs a k m f <> []) -> exists c es d es',
  get_shape scale arcs (FFinger w l r) = Ok (EPolygon (c :: es ++ d :: es')) /\
  nearly (fst c) (scale * r - scale * w / 2) /\ about (snd c) (- (scale * w / 2)) /\ rounded_end arcs c es /\
  nearly (fst d) (- (scale * l) + scale * w / 2) /\ about (snd d) (scale * w / 2) /\ rounded_end arcs d es'.
Proof.
  intros scale arcs w l r NE. set (h := trunc ((1#2) * w * scale)). set (x := trunc (r * scale - inject_Z h)). set (x' := trunc (- l * scale + inject_Z h)).
  destruct (half_turn_rounded arcs x (- h) NE) as (es & E & R). destruct (half_turn_rounded arcs x' h NE) as (es' & E' & R').
  exists (x, (- h)%Z), es, (x', h), es'. assert (H : about h (scale * w / 2)) by (eapply about_eq; [|apply trunc_about]; field).
  assert (X : about x (r * scale - inject_Z h)) by apply trunc_about. assert (X' : about x' (- l * scale + inject_Z h)) by apply trunc_about.
  split; [unfold get_shape; fold h; fold x; fold x'; rewrite E; cbn [bind]; now rewrite E'|].
  split; [|split; [now apply about_opp|split; [exact R|split; [|split; [exact H|exact R']]]]]; cbn [fst]; unfold nearly, about in *; clearbody x x' h; clear E E' R R'; split; lra.
Qed.
