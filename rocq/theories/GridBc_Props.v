(** C96: the boundary conditions of a grid model in the network built from it.
    Model: [bc_op], [uniform_bc_ops], [block_bc_ops], [build] in Grid_Model
    (EGridThermalNetworkBuilder.cpp:103-113, 135-193). *)
From Verif Require Import Base QSum ThermalNetwork_Model ThermalNetwork_Spec ThermalNetwork_Proofs Grid_Model Grid_Spec Grid_Proofs Grid_Props.

(** ** Specification *)
(** The coefficient a condition asks for. *)
Definition coefficient (b : bc) : option Q := match b with HTC v => Some v | _ => None end.
Definition inside (x y : nat) (r : nat * nat * (nat * nat)) : bool :=
  let '(llx, lly, (urx, ury)) := r in ((llx <=? x) && (x <=? urx) && (lly <=? y) && (y <=? ury))%nat%bool.
(** The conditions given for the upper and for the lower face of the column of a cell. *)
Definition on_face (u : option bc) (blocks : list (nat * nat * (nat * nat) * bc)) (x y : nat) : list bc :=
  match u with Some b => [b] | None => [] end ++ map snd (filter (fun e => inside x y (fst e)) blocks).
(** The coefficient in force on a face: a block overrides the uniform one, a later block an earlier one. *)
Definition in_force (bs : list bc) : option Q :=
  fold_left (fun a b => match coefficient b with Some v => Some v | None => a end) bs None.
Definition or_zero (o : option Q) : Q := match o with Some v => v | None => 0 end.
(** What the cell should exchange with the ambient: each exposed face its coefficient times its area. *)
Definition face_exchange (m : gmodel) (c : cell) : Q :=
  let '(x, y, z) := c in
  width_x m * width_y m *
  ((if (z =? 0)%nat then or_zero (in_force (on_face (g_top m) (g_topblocks m) x y)) else 0) +
   (if (z =? g_nz m - 1)%nat then or_zero (in_force (on_face (g_bottom m) (g_botblocks m) x y)) else 0)).
Definition bc_blocks_in_grid (m : gmodel) : Prop :=
  forall llx lly urx ury b, In (llx, lly, (urx, ury), b) (g_topblocks m ++ g_botblocks m) -> box_in_grid m urx ury.

(** ** Proofs *)
(** the coefficient of a node after a list of calls *)
Fixpoint last_h (i : nat) (os : list op) (c : Q) : Q :=
  match os with
  | [] => c
  | SetHTC j v :: os' => last_h i os' (if (j =? i)%nat then v else c)
  | AddHTC j v :: os' => last_h i os' (if (j =? i)%nat then c + v else c)
  | _ :: os' => last_h i os' c
  end.

Lemma upd_get_h i f l j (g : Q -> Q) : (i < List.length l)%nat -> (forall n, n_htc (f n) = g (n_htc n)) ->
  get_htc (upd i f l) j = if (i =? j)%nat then g (get_htc l j) else get_htc l j.
Proof.
  intros Hi Hf; unfold get_htc; destruct (nth_error l j) as [n|] eqn:E.
  - assert (E' : nth_error (upd i f l) j = Some (if (i =? j)%nat then f n else n)) by (rewrite upd_nth, E; destruct (i =? j)%nat; reflexivity).
    rewrite (nth_error_nth _ j node0 E'), (nth_error_nth _ j node0 E); destruct (i =? j)%nat; auto.
  - assert (List.length l <= j)%nat by (apply nth_error_None; auto).
    destruct (Nat.eqb_spec i j); [lia|]; rewrite !nth_overflow; auto; rewrite upd_length; auto.
Qed.

Lemma step_get_h minR l o l' i : step minR l o = Ok l' -> get_htc l' i = last_h i [o] (get_htc l i).
Proof.
  intros H; destruct o as [t|j s|j t|j v|j v|j v|j v|j v|a b r]; cbn [step last_h] in *.
  1:{ injection H as <-; unfold get_htc; destruct (Nat.lt_ge_cases i (List.length l)) as [L|L].
      - rewrite app_nth1 by auto; reflexivity.
      - rewrite app_nth2 by auto; rewrite (nth_overflow l) by auto; destruct (i - List.length l)%nat as [|[|]]; reflexivity. }
  all: try (apply at_node_ok in H as [-> L]).
  8:{ apply set_r_ok in H as [-> L]; rewrite (upd_get_h _ _ _ _ (fun q => q) L) by reflexivity; destruct (_ =? _)%nat; reflexivity. }
  5:{ rewrite (upd_get_h _ _ _ _ (fun _ => v) L) by reflexivity; reflexivity. }
  5:{ rewrite (upd_get_h _ _ _ _ (fun q => q + v) L) by reflexivity; reflexivity. }
  all: rewrite (upd_get_h _ _ _ _ (fun q => q) L) by reflexivity; destruct (_ =? _)%nat; reflexivity.
Qed.

Lemma last_h_app i a b c : last_h i (a ++ b) c = last_h i b (last_h i a c).
Proof. revert c; induction a as [|o a IH]; intros c; [reflexivity|]; destruct o; cbn [last_h app]; apply IH. Qed.

Lemma run_get_h minR os : forall l l' i, run minR l os = Ok l' -> get_htc l' i = last_h i os (get_htc l i).
Proof.
  induction os as [|o os IH]; intros l l' i; cbn [run]; [intros [= <-]; reflexivity|].
  destruct (step minR l o) as [l1| | |] eqn:E; cbn [bind]; try discriminate; intros H.
  rewrite (IH _ _ i H), (step_get_h _ _ _ _ i E); change (o :: os) with ([o] ++ os); rewrite last_h_app; reflexivity.
Qed.

(** calls that leave every coefficient alone *)
Definition no_h (os : list op) : Prop := forall o, In o os -> match o with SetHTC _ _ | AddHTC _ _ => False | _ => True end.
Lemma last_h_none i os c : no_h os -> last_h i os c = c.
Proof.
  induction os as [|o os IH]; intros H; [reflexivity|].
  specialize (IH (fun o' H' => H o' (or_intror H'))); specialize (H o (or_introl eq_refl)); destruct o; cbn [last_h]; tauto.
Qed.
Lemma no_h_flat_map {A} (f : A -> list op) l : (forall a, In a l -> no_h (f a)) -> no_h (flat_map f l).
Proof. intros H o Ho; apply in_flat_map in Ho as (a & Ha & Ho); exact (H a Ha o Ho). Qed.
Lemma no_h_app a b : no_h a -> no_h b -> no_h (a ++ b).
Proof. intros H1 H2 o Ho; apply in_app_or in Ho as [Ho|Ho]; [exact (H1 o Ho)|exact (H2 o Ho)]. Qed.

Lemma cell_no_h m i : no_h (cell_ops m i).
Proof.
  unfold cell_ops; cbv zeta; intros o [<-|Ho]; [exact I|]; rewrite !in_app_iff in Ho.
  destruct Ho as [Ho|[Ho|Ho]]; destruct (neighbor _ _ _); simpl in Ho; intuition (subst; auto).
Qed.
Lemma jump_no_h m : no_h (jump_ops m).
Proof. apply no_h_flat_map; intros [[a b] al] _ o Ho; cbv zeta in Ho; destruct (_ =? _)%nat; simpl in Ho; intuition (subst; auto). Qed.
Lemma layer_power_no_h m T z ps : forall node os n, layer_power_ops m T z node ps = (os, n) -> no_h os.
Proof.
  induction ps as [|[q|llx lly urx ury tot] ps IH]; intros node os n; cbn [layer_power_ops].
  - intros [= <- _]; intros o [].
  - destruct (layer_power_ops m T z node ps) as [os' n'] eqn:E; intros [= <- _].
    apply no_h_app; [|eauto]; apply no_h_flat_map; intros x _; apply no_h_flat_map; intros y _ o Ho; cbv zeta in Ho; destruct (q _ x y); simpl in Ho; intuition (subst; auto).
  - destruct (layer_power_ops m T z (Datatypes.S node) ps) as [os' n'] eqn:E; intros [= <- _].
    intros o [<-|[<-|Ho]]; auto; apply in_app_or in Ho as [Ho|Ho]; [|exact (IH _ _ _ E o Ho)].
    apply in_flat_map in Ho as (x & _ & Ho); apply in_map_iff in Ho as (y & <- & _); auto.
Qed.
Lemma power_no_h m T ls : forall z node, no_h (power_ops m T z node ls).
Proof.
  induction ls as [|l ls IH]; intros z node; cbn [power_ops]; [intros o []|].
  destruct (layer_power_ops m T z node (l_power l)) as [os n] eqn:E; apply no_h_app; [exact (layer_power_no_h _ _ _ _ _ _ _ E)|apply IH].
Qed.

(** a box of cells that all get the same condition *)
Definition hits (i : nat) (o : op) : bool := match o with SetHTC j _ => (j =? i)%nat | _ => false end.
Lemma last_h_same i v os : (forall o, In o os -> match o with AddHTC _ _ => False | SetHTC j w => w = v | _ => True end) ->
  forall c, last_h i os c = if existsb (hits i) os then v else c.
Proof.
  induction os as [|o os IH]; intros H c; [reflexivity|].
  specialize (IH (fun o' H' => H o' (or_intror H'))); specialize (H o (or_introl eq_refl)).
  destruct o; cbn [last_h existsb hits orb]; try (apply IH); [|contradiction].
  subst; rewrite IH; destruct (i0 =? i)%nat, (existsb (hits i) os); reflexivity.
Qed.

Lemma flatten_eqb m a b : in_grid m a -> in_grid m b -> (flatten m a =? flatten m b)%nat = true -> a = b.
Proof. intros Ha Hb E; apply Nat.eqb_eq in E; rewrite <- (unflatten_flatten m a Ha), <- (unflatten_flatten m b Hb), E; reflexivity. Qed.

Lemma box_last m b xs ys z x0 y0 z0 c : in_grid m (x0, y0, z0) -> (z < g_nz m)%nat ->
  (forall x, In x xs -> (x < g_nx m)%nat) -> (forall y, In y ys -> (y < g_ny m)%nat) ->
  last_h (flatten m (x0, y0, z0)) (flat_map (fun x => flat_map (fun y => bc_op m b (flatten m (x, y, z))) ys) xs) c =
  match coefficient b with
  | Some v => if ((z =? z0) && existsb (Nat.eqb x0) xs && existsb (Nat.eqb y0) ys)%nat%bool then zarea m * v else c
  | None => c
  end.
Proof.
  intros Hg Hz Hx Hy; destruct b as [v|v|]; cbn [coefficient].
  2,3: apply last_h_none; apply no_h_flat_map; intros x _; apply no_h_flat_map; intros y _ o Ho; simpl in Ho; intuition (subst; auto).
  rewrite (last_h_same _ (zarea m * v)).
  2:{ intros o Ho; apply in_flat_map in Ho as (x & _ & Ho); apply in_flat_map in Ho as (y & _ & Ho); destruct Ho as [<-|[]]; reflexivity. }
  assert (E : existsb (hits (flatten m (x0, y0, z0))) (flat_map (fun x => flat_map (fun y => bc_op m (HTC v) (flatten m (x, y, z))) ys) xs) = true <->
              ((z =? z0) && existsb (Nat.eqb x0) xs && existsb (Nat.eqb y0) ys)%nat%bool = true).
  { rewrite existsb_exists, !andb_true_iff, !existsb_exists, Nat.eqb_eq; split.
    - intros (o & Ho & Hh); apply in_flat_map in Ho as (x & Ix & Ho); apply in_flat_map in Ho as (y & Iy & Ho); destruct Ho as [<-|[]].
      apply (flatten_eqb m (x, y, z) (x0, y0, z0)) in Hh; [|repeat split; auto|exact Hg]; injection Hh as -> -> ->.
      repeat split; eauto using Nat.eqb_refl.
    - intros [[-> (x & Ix & Ex)] (y & Iy & Ey)]; apply Nat.eqb_eq in Ex, Ey; subst x y.
      eexists; split; [apply in_flat_map; exists x0; split; [exact Ix|apply in_flat_map; exists y0; split; [exact Iy|left; reflexivity]]|apply Nat.eqb_refl]. }
  destruct (existsb (hits _) _), ((z =? z0) && _ && _)%nat%bool; try reflexivity; destruct E as [E1 E2]; [discriminate (E1 eq_refl)|discriminate (E2 eq_refl)].
Qed.

Lemma existsb_seq x a n : existsb (Nat.eqb x) (seq a n) = ((a <=? x) && (x <? a + n))%nat%bool.
Proof.
  apply eq_true_iff_eq; rewrite existsb_exists, andb_true_iff, Nat.leb_le, Nat.ltb_lt; split.
  - intros (y & Hy & E); apply Nat.eqb_eq in E; subst; apply in_seq in Hy; lia.
  - intros H; exists x; split; [apply in_seq; lia|apply Nat.eqb_refl].
Qed.
Lemma existsb_range x a b : existsb (Nat.eqb x) (range a b) = ((a <=? x) && (x <=? b))%nat%bool.
Proof.
  unfold range; rewrite existsb_seq; destruct (Nat.leb_spec a x), (Nat.leb_spec x b), (Nat.ltb_spec x (a + (Datatypes.S b - a))); try reflexivity; lia.
Qed.

(** writing the conditions of one face one after the other *)
Definition over (m : gmodel) (bs : list bc) (c : Q) : Q :=
  fold_left (fun a b => match coefficient b with Some v => zarea m * v | None => a end) bs c.
Lemma over_in_force m bs : forall c, over m bs c = match in_force bs with Some v => zarea m * v | None => c end.
Proof.
  unfold over, in_force; induction bs as [|b bs IH] using rev_ind; intros c; [reflexivity|].
  rewrite !fold_left_app; cbn [fold_left]; rewrite IH; destruct (coefficient b); reflexivity.
Qed.

Lemma uniform_last m u z x y z0 c : in_grid m (x, y, z0) -> (z < g_nz m)%nat ->
  last_h (flatten m (x, y, z0)) (uniform_bc_ops m u z) c = if (z =? z0)%nat then over m (match u with Some b => [b] | None => [] end) c else c.
Proof.
  intros Hg Hz; destruct u as [b|]; cbn [uniform_bc_ops]; [|destruct (z =? z0)%nat; reflexivity].
  rewrite box_last; auto; [|intros k Hk; apply in_seq in Hk; lia|intros k Hk; apply in_seq in Hk; lia].
  destruct Hg as (Hx & Hy & _); rewrite !existsb_seq; cbn [Nat.leb Nat.add andb].
  apply Nat.ltb_lt in Hx, Hy; rewrite Hx, Hy, !andb_true_r; unfold over; cbn [fold_left]; destruct (coefficient b), (z =? z0)%nat; reflexivity.
Qed.
Lemma block_last m bs z x y z0 : in_grid m (x, y, z0) -> (z < g_nz m)%nat ->
  (forall llx lly urx ury b, In (llx, lly, (urx, ury), b) bs -> box_in_grid m urx ury) -> forall c,
  last_h (flatten m (x, y, z0)) (block_bc_ops m bs z) c =
  if (z =? z0)%nat then over m (map snd (filter (fun e => inside x y (fst e)) bs)) c else c.
Proof.
  intros Hg Hz; induction bs as [|[[[llx lly] [urx ury]] b] bs IH]; intros Hb c; [destruct (z =? z0)%nat; reflexivity|].
  unfold block_bc_ops in *; cbn [flat_map]; rewrite last_h_app, IH by (intros; eapply Hb; right; eassumption).
  destruct (Hb llx lly urx ury b (or_introl eq_refl)) as [Bx By].
  rewrite box_last; auto; [|intros k Hk; apply in_seq in Hk; lia|intros k Hk; apply in_seq in Hk; lia].
  rewrite !existsb_range; cbn [filter fst inside]; unfold inside.
  destruct (z =? z0)%nat; cbn [andb]; [|destruct (coefficient b); reflexivity].
  rewrite andb_assoc; destruct ((llx <=? x) && (x <=? urx) && (lly <=? y) && (y <=? ury))%nat%bool; cbn [map snd]; [|destruct (coefficient b); reflexivity].
  unfold over; cbn [fold_left]; destruct (coefficient b); reflexivity.
Qed.

Lemma build_get_h minR m T net x y z : bc_blocks_in_grid m -> build minR m T = Ok (Some net) -> in_grid m (x, y, z) ->
  let top := fun c => if (0 =? z)%nat then c else [] in let bot := fun c => if (g_nz m - 1 =? z)%nat then c else [] in
  get_htc net (flatten m (x, y, z)) =
  over m (top (match g_top m with Some b => [b] | None => [] end) ++ bot (match g_bottom m with Some b => [b] | None => [] end) ++
          top (map snd (filter (fun e => inside x y (fst e)) (g_topblocks m))) ++
          bot (map snd (filter (fun e => inside x y (fst e)) (g_botblocks m)))) 0.
Proof.
  intros Hb H Hg; unfold build in H; destruct (_ =? _)%nat; [|discriminate].
  destruct (run minR _ _) as [l'| | |] eqn:E; cbn [rmap bind] in H; try discriminate; injection H as <-.
  assert (Hz : (z < g_nz m)%nat) by (destruct Hg as (_ & _ & ?); assumption).
  cbv zeta; rewrite (run_get_h _ _ _ _ _ E); unfold build_ops; rewrite !last_h_app.
  rewrite (last_h_none _ (flat_map _ _)) by (apply no_h_flat_map; intros; apply cell_no_h).
  rewrite (last_h_none _ (jump_ops m)) by apply jump_no_h.
  rewrite (last_h_none _ (power_ops _ _ _ _ _)) by apply power_no_h.
  assert (Z : get_htc (net_new (total_grids m)) (flatten m (x, y, z)) = 0).
  { unfold get_htc, net_new; destruct (nth_in_or_default (flatten m (x, y, z)) (repeat node0 (total_grids m)) node0) as [Hn|Hn]; [apply repeat_spec in Hn|]; rewrite Hn; reflexivity. }
  rewrite Z, !uniform_last, !block_last; auto; try lia;
    try (intros; eapply Hb; apply in_or_app; ((left; eassumption) || (right; eassumption))).
  unfold over; rewrite !fold_left_app.
  destruct (0 =? z)%nat, (g_nz m - 1 =? z)%nat; reflexivity.
Qed.

(** ** Theorems *)
(** With two or more layers every cell exchanges with the ambient what its exposed face asks for:
    area times the coefficient in force there; inner cells nothing.  Missing: one layer. *)
Theorem C96_exchange_partial : forall minR m T net c, bc_blocks_in_grid m -> (2 <= g_nz m)%nat ->
  build minR m T = Ok (Some net) -> in_grid m c -> get_htc net (flatten m c) == face_exchange m c.
Proof.
  intros minR m T net [[x y] z] Hb H2 H Hg; rewrite (build_get_h _ _ _ _ _ _ _ Hb H Hg); cbv zeta; rewrite over_in_force.
  unfold face_exchange, on_face; rewrite (Nat.eqb_sym 0), (Nat.eqb_sym _ z); change (width_x m * width_y m) with (zarea m).
  destruct (Nat.eqb_spec z 0), (Nat.eqb_spec z (g_nz m - 1)); try lia; cbn [app]; rewrite ?app_nil_r;
    change (in_force []) with (@None Q); try destruct (in_force _); cbn [or_zero]; ring.
Qed.
Print Assumptions C96_exchange_partial.

(** A model of one layer keeps only one of its two faces: the coefficient of the top is lost. *)
Definition one_layer : gmodel :=
  mkGrid 1 1 2 3 1 [mkLayer "l"%string 1 ""%string ""%string (1%nat, 1%nat) (fun _ _ => 1) []] [] (Some (HTC 5)) (Some (HTC 7)) [] [].
Theorem C96_single_layer_refuted : exists minR m T net c, bc_blocks_in_grid m /\ build minR m T = Ok (Some net) /\ in_grid m c /\
  ~ get_htc net (flatten m c) == face_exchange m c.
Proof.
  exists 1, one_layer, [25]; eexists; exists (0, 0, 0)%nat; split; [intros ? ? ? ? ? []|].
  split; [vm_compute; reflexivity|]; split; [unfold in_grid, g_nz; cbn; lia|]; vm_compute; discriminate.
Qed.
Print Assumptions C96_single_layer_refuted.

(** And so for every model of one layer with coefficients on both sides: the bottom one is left. *)
Theorem C96_single_layer_bottom_wins : forall minR m T net c vt vb, g_nz m = 1%nat -> g_topblocks m = [] -> g_botblocks m = [] ->
  g_top m = Some (HTC vt) -> g_bottom m = Some (HTC vb) -> build minR m T = Ok (Some net) -> in_grid m c ->
  get_htc net (flatten m c) == width_x m * width_y m * vb.
Proof.
  intros minR m T net [[x y] z] vt vb H1 Bt Bb Et Eb H Hg.
  assert (Hb : bc_blocks_in_grid m) by (unfold bc_blocks_in_grid; rewrite Bt, Bb; intros ? ? ? ? ? []).
  rewrite (build_get_h _ _ _ _ _ _ _ Hb H Hg); cbv zeta; rewrite Bt, Bb, Et, Eb, H1.
  assert (z = 0%nat) by (destruct Hg as (_ & _ & Hz); lia); subst z; reflexivity.
Qed.
Print Assumptions C96_single_layer_bottom_wins.

Definition two_layers : gmodel :=
  mkGrid 2 1 2 3 1 [mkLayer "a"%string 1 ""%string ""%string (2%nat, 1%nat) (fun _ _ => 1) []; mkLayer "b"%string 1 ""%string ""%string (2%nat, 1%nat) (fun _ _ => 1) []]
         [] (Some (HTC 5)) (Some (HTC 7)) [(1, 0, (1, 0), HTC 11)]%nat [].
Example C96_case : bc_blocks_in_grid two_layers /\ (2 <= g_nz two_layers)%nat /\
  face_exchange two_layers (0, 0, 0)%nat == 30 /\ face_exchange two_layers (1, 0, 0)%nat == 66 /\ face_exchange two_layers (1, 0, 1)%nat == 42 /\
  exists net, build 1 two_layers [25; 25; 25; 25] = Ok (Some net).
Proof.
  split; [intros ? ? ? ? ? [[= <- <- <- <- <-]|[]]; split; cbn; lia|]; split; [cbn; lia|].
  split; [reflexivity|split; [reflexivity|split; [reflexivity|eexists; vm_compute; reflexivity]]].
Qed.
