(** C146, C147, C148: stack-up prism models. *)
From Verif Require Import Base QSum Prism_Model Prism_Spec Prism_Proofs PrismNet_Model Monitor_Model Monitor_Spec Monitor_Proofs Monitor_Props
  StackBuild_Model StackBuild_Spec StackBuild_Proofs.
From Coq Require Import QArith Qabs Lqa Permutation.
Close Scope Q_scope.
Open Scope nat_scope.
Open Scope res_scope.

Section Build.
  Context {K : Type} (key : template -> nat -> K) (select : K -> list (K * nat) -> list (K * nat)) (meets : K -> K -> bool).
  Context (tarea : template -> nat -> Q) (inter : template -> nat -> template -> nat -> Q).

  (** What a first build gives, with the turns taken in any order. *)
  Lemma build_core scale m w : select_ok meets select -> boxes_ok key meets inter -> stack_wf m -> m_prisms m = [] ->
    exists m1 vs, place scale m = Ok m1 /\ built m1 /\ (forall i, i < List.length (all_prisms (m_layers m)) -> turn key select tarea inter m1 i (vs i)) /\
    (Permutation w (seq 0 (List.length (all_prisms (m_layers m)))) -> exists s, stack_build key select tarea inter scale m [] w = Ok s /\
      b_model s = with_prisms m1 (m_prisms (b_model s)) /\
      (forall j, nth_error (m_prisms (b_model s)) j = option_map (mark (vs j)) (nth_error (m_prisms m1) j)) /\
      (forall j, nth_error (b_contacts s) j = if j <? List.length (all_prisms (m_layers m)) then Some (snd (vs j)) else None)).
  Proof.
    intros SO BO W E. destruct (place_ok scale m W) as (m1 & new & P & H1 & H2 & H3 & H4 & H5 & H6 & H7 & H8 & H9).
    rewrite E in H1. cbn [app] in H1. pose proof (placed_built scale m m1 W E P) as B.
    destruct (choose (turn key select tarea inter m1) (None, None, ([], [])) (List.length (all_prisms (m_layers m)))) as (vs & Hv).
    { intros i Hi. apply (turn_ok key select tarea inter meets m1 B SO BO). rewrite H2. exact Hi. }
    exists m1, vs. split; [exact P|]. split; [exact B|]. split; [exact Hv|]. intros Pm. unfold stack_build. rewrite P. cbn [bind].
    assert (Iw : forall j, In j w <-> j < List.length (all_prisms (m_layers m))).
    { intros j. split; intros H; [apply (Permutation_in _ Pm), in_seq in H; lia|]. apply (Permutation_in _ (Permutation_sym Pm)), in_seq. lia. }
    rewrite H1, H7. cbn [List.length]. rewrite Nat.sub_0_r. cbn [app].
    match goal with |- context [contact_steps _ _ _ _ ?s0 w] => destruct (steps_ok key select tarea inter m1 vs w) with (s := s0) as (s & Es & M & Ps & Cs) end.
    - intros i Hi. apply Hv, Iw, Hi.
    - apply (Permutation_NoDup (Permutation_sym Pm)), seq_NoDup.
    - cbn [b_model]. split; [reflexivity|]. split; [reflexivity|]. split; reflexivity.
    - apply fresh_nil.
    - cbn [b_model b_contacts] in *. exists s. split; [exact Es|]. split; [exact M|]. split; intros j.
      + rewrite Ps, H1. destruct (in_dec Nat.eq_dec j w) as [I|I]; [reflexivity|].
        replace (nth_error new j) with (@None inst); [reflexivity|]. symmetry. apply nth_error_None. rewrite H7.
        destruct (Nat.le_gt_cases (List.length (all_prisms (m_layers m))) j); [assumption|]. destruct I. now apply Iw.
      + rewrite Cs. destruct (in_dec Nat.eq_dec j w) as [I|I]; [apply Iw in I|].
        * rewrite (proj2 (Nat.ltb_lt _ _) I). rewrite (nth_error_repeat _ I). cbn [option_map]. unfold add_contacts. cbn [fst snd app].
          rewrite <- surjective_pairing. reflexivity.
        * assert (L : ~ j < List.length (all_prisms (m_layers m))) by (intros L; apply I, Iw, L).
          rewrite (proj2 (Nat.ltb_nlt _ _) L). apply nth_error_None. rewrite repeat_length. lia.
  Qed.

  (** ** C146 – prisms *)

  (** A first build makes one prism for every element, in the order of layers and elements, with corners, side neighbours and marks of
      its own layer; layers, triangulations and lines stay as they are. *)
  Theorem C146_prisms : forall scale m w, select_ok meets select -> boxes_ok key meets inter -> stack_wf m -> m_prisms m = [] ->
    Permutation w (seq 0 (List.length (all_prisms (m_layers m)))) ->
    exists s, stack_build key select tarea inter scale m [] w = Ok s /\ built (b_model s) /\
      m_layers (b_model s) = m_layers m /\ m_temps (b_model s) = m_temps m /\ m_lines (b_model s) = m_lines m /\ m_scale (b_model s) = scale /\
      List.length (m_prisms (b_model s)) = List.length (all_prisms (m_layers m)) /\
      List.length (m_points (b_model s)) = 6 * List.length (m_prisms (b_model s)) /\
      forall i p, nth_error (m_prisms (b_model s)) i = Some p -> prism_placed m scale (m_points (b_model s)) i p /\ marked m i p.
  Proof.
    intros scale m w SO BO W E Pm. destruct (build_core scale m w SO BO W E) as (m1 & vs & P & B & Hv & H).
    destruct (H Pm) as (s & Es & M & Ps & _). exists s. split; [exact Es|].
    destruct (place_ok scale m W) as (m2 & new & P' & H1 & H2 & H3 & H4 & H5 & H6 & H7 & H8 & H9).
    assert (m2 = m1) by congruence; subst m2. rewrite E in H1. cbn [app] in H1.
    assert (Len : List.length (m_prisms (b_model s)) = List.length new).
    { apply Nat.le_antisymm.
      - destruct (Nat.le_gt_cases (List.length (m_prisms (b_model s))) (List.length new)) as [L|L]; [exact L|]. exfalso.
        apply nth_error_Some in L. apply L. rewrite Ps, H1. rewrite (proj2 (nth_error_None new (List.length new)) (le_n _)). reflexivity.
      - destruct (Nat.le_gt_cases (List.length new) (List.length (m_prisms (b_model s)))) as [L|L]; [exact L|]. exfalso.
        apply nth_error_Some in L. pose proof (Ps (List.length (m_prisms (b_model s)))) as X. rewrite H1 in X.
        rewrite (proj2 (nth_error_None (m_prisms (b_model s)) _) (le_n _)) in X.
        destruct (nth_error new (List.length (m_prisms (b_model s)))); [discriminate X|contradiction]. }
    assert (A : alike m1 (b_model s)).
    { rewrite M. apply with_prisms_alike. apply list_ext. intros j. rewrite !nth_error_map, Ps. destruct (nth_error (m_prisms m1) j); reflexivity. }
    split; [exact (alike_built _ _ A B)|].
    assert (F : m_layers (b_model s) = m_layers m1 /\ m_temps (b_model s) = m_temps m1 /\ m_lines (b_model s) = m_lines m1 /\ m_scale (b_model s) = m_scale m1 /\ m_points (b_model s) = m_points m1).
    { rewrite M. repeat split. }
    destruct F as (-> & -> & -> & -> & ->). split; [exact H2|]. split; [exact H3|]. split; [exact H4|]. split; [exact H5|].
    split; [congruence|]. split; [rewrite Len; exact H8|].
    intros i p Hp. rewrite Ps, H1 in Hp. destruct (nth_error new i) as [q|] eqn:Eq; [|discriminate]. injection Hp as <-.
    destruct (H9 i q Eq) as (Pl & _). split; [exact Pl|].
    assert (Hi : i < List.length (all_prisms (m_layers m))) by (rewrite <- H7; apply nth_error_Some; congruence).
    destruct (Hv i Hi) as (_ & Mk & _). specialize (Mk q). rewrite H1 in Mk. specialize (Mk Eq). unfold marked in *. rewrite H2 in Mk. exact Mk.
  Qed.

  (** Building once more appends the prisms again. *)
  Theorem C146_rebuild_doubles : forall scale m old w s, stack_wf m -> stack_build key select tarea inter scale m old w = Ok s ->
    List.length (m_prisms (b_model s)) = List.length (m_prisms m) + List.length (all_prisms (m_layers m)).
  Proof.
    intros scale m old w s W. unfold stack_build. destruct (place_ok scale m W) as (m1 & new & P & H1 & _ & _ & _ & _ & _ & H7 & _). rewrite P. cbn [bind].
    rewrite <- H7, <- app_length, <- H1. intros E.
    match type of E with contact_steps _ _ _ _ ?s0 _ = _ => change (List.length (m_prisms (b_model s)) = List.length (m_prisms (b_model s0))); revert E; generalize s0 end.
    clear. induction w as [|i w IH]; intros s0; cbn [contact_steps]; [intros [= ->]; reflexivity|].
    destruct (contact_step key select tarea inter s0 i) as [s1| | |] eqn:E; cbn [bind]; try discriminate. intros H. rewrite (IH s1 H). clear IH H.
    unfold contact_step in E. destruct (local_index _ i) as [li| | |]; cbn [bind] in E; try discriminate.
    destruct (tri_of _ i) as [u| | |]; cbn [bind] in E; try discriminate.
    match type of E with bind ?x _ = _ => destruct x as [[[top ct] c1]| | |]; cbn [bind] in E; try discriminate end.
    match type of E with bind ?x _ = _ => destruct x as [[[bot cb] c2]| | |]; cbn [bind] in E; try discriminate end.
    injection E as <-. cbn [b_model with_prisms m_prisms]. apply set_at_length.
  Qed.

  (** ** C147 – contacts *)

  (** The contacts of a prism above and below are the prisms of the adjacent layers it has a common area with, each once, with the part
      of its area; those at the top and bottom of the stack have none there. *)
  Theorem C147_contacts : forall scale m w, select_ok meets select -> boxes_ok key meets inter -> stack_wf m -> m_prisms m = [] ->
    Permutation w (seq 0 (List.length (all_prisms (m_layers m)))) ->
    exists s, stack_build key select tarea inter scale m [] w = Ok s /\ List.length (b_contacts s) = List.length (all_prisms (m_layers m)) /\
      forall i c, nth_error (b_contacts s) i = Some c -> contacts_ok tarea inter m i c.
  Proof.
    intros scale m w SO BO W E Pm. destruct (build_core scale m w SO BO W E) as (m1 & vs & P & B & Hv & H).
    destruct (H Pm) as (s & Es & M & _ & Cs). exists s. split; [exact Es|]. split.
    - apply Nat.le_antisymm.
      + destruct (Nat.le_gt_cases (List.length (b_contacts s)) (List.length (all_prisms (m_layers m)))) as [L|L]; [exact L|]. exfalso.
        apply nth_error_Some in L. apply L. rewrite Cs, Nat.ltb_irrefl. reflexivity.
      + destruct (Nat.le_gt_cases (List.length (all_prisms (m_layers m))) (List.length (b_contacts s))) as [L|L]; [exact L|]. exfalso.
        pose proof (Cs (List.length (b_contacts s))) as X. rewrite (proj2 (Nat.ltb_lt _ _) L) in X.
        rewrite (proj2 (nth_error_None (b_contacts s) _) (le_n _)) in X. discriminate.
    - intros i c Hc. rewrite Cs in Hc. destruct (Nat.ltb_spec i (List.length (all_prisms (m_layers m)))) as [Hi|]; [|discriminate]. injection Hc as <-.
      destruct (Hv i Hi) as (C & _). destruct (place_ok scale m W) as (m2 & new & P' & _ & H2 & H3 & _).
      assert (m2 = m1) by congruence; subst m2. unfold contacts_ok, contacts_with, prism_of in *. rewrite H2, H3 in C. exact C.
  Qed.

  (** However the tasks of the layers are interleaved, the result is that of the sequential build. *)
  Theorem C147_schedules : forall scale m w, select_ok meets select -> boxes_ok key meets inter -> stack_wf m -> m_prisms m = [] ->
    interleaving (layer_tasks (offsets (m_layers m))) w ->
    exists s s0, stack_build key select tarea inter scale m [] w = Ok s /\
      stack_build key select tarea inter scale m [] (seq 0 (List.length (all_prisms (m_layers m)))) = Ok s0 /\
      b_model s = b_model s0 /\ b_contacts s = b_contacts s0.
  Proof.
    intros scale m w SO BO W E I. apply interleaving_perm in I. unfold offsets in I. rewrite tasks_concat in I.
    assert (Ln : list_sum (sizes (m_layers m)) = List.length (all_prisms (m_layers m))) by (unfold all_prisms; now rewrite pairs_len).
    rewrite Ln in I.
    destruct (build_core scale m w SO BO W E) as (m1 & vs & P & B & Hv & H). destruct (H I) as (s & Es & M & Ps & Cs).
    assert (H0 : exists s0, stack_build key select tarea inter scale m [] (seq 0 (List.length (all_prisms (m_layers m)))) = Ok s0 /\ b_model s = b_model s0 /\ b_contacts s = b_contacts s0).
    { destruct (build_core scale m (seq 0 (List.length (all_prisms (m_layers m)))) SO BO W E) as (m2 & vs2 & P2 & _ & Hv2 & H2).
      destruct (H2 (Permutation_refl _)) as (s0 & Es0 & M0 & Ps0 & Cs0). assert (m2 = m1) by congruence; subst m2. exists s0. split; [exact Es0|].
      assert (V : forall j p, j < List.length (all_prisms (m_layers m)) -> mark (vs j) p = mark (vs2 j) p /\ snd (vs j) = snd (vs2 j)).
      { intros j p Hj. destruct (Hv j Hj) as (_ & _ & T), (Hv2 j Hj) as (_ & _ & T2).
        pose (sx := mkB (with_prisms m1 (m_prisms m1)) (repeat (@nil (nat * Q), @nil (nat * Q)) (Datatypes.S j)) (@nil (nat * list (K * nat)))).
        assert (A : alike m1 (b_model sx)) by (split; [reflexivity|]; split; [reflexivity|]; split; reflexivity).
        destruct (T sx A (fresh_nil key m1)) as (c & Ec & _), (T2 sx A (fresh_nil key m1)) as (c2 & Ec2 & _). rewrite Ec in Ec2.
        pose proof (f_equal (fun r => match r with Ok s => m_prisms (b_model s) | _ => [] end) Ec2) as X1.
        pose proof (f_equal (fun r => match r with Ok s => b_contacts s | _ => [] end) Ec2) as X2. cbn [b_model b_contacts with_prisms m_prisms] in X1, X2.
        pose proof (f_equal (fun l => nth_error l j) X1) as Y1. cbv beta in Y1. rewrite !set_at_nth, Nat.eqb_refl in Y1. unfold sx in Y1.
        assert (N0 : nth_error (b_contacts sx) j = Some ([], [])) by (apply nth_error_repeat; lia).
        assert (Y2 : snd (vs j) = snd (vs2 j)).
        { assert (Z1 := set_at_nth (add_contacts (vs j)) (b_contacts sx) j j). assert (Z2 := set_at_nth (add_contacts (vs2 j)) (b_contacts sx) j j).
          rewrite Nat.eqb_refl, N0 in Z1, Z2. cbn [option_map] in Z1, Z2.
          assert (Z : Some (snd (vs j)) = Some (snd (vs2 j))); [|congruence].
          rewrite (surjective_pairing (snd (vs j))), (surjective_pairing (snd (vs2 j))). transitivity (nth_error (set_at j (add_contacts (vs j)) (b_contacts sx)) j); [symmetry; exact Z1|].
          transitivity (nth_error (set_at j (add_contacts (vs2 j)) (b_contacts sx)) j); [|exact Z2].
          f_equal. exact X2. }
        split; [|exact Y2].
        cbn [b_model with_prisms m_prisms] in Y1.
        destruct (nth_error (m_prisms m1) j) as [q|] eqn:Eq.
        2:{ exfalso. destruct B as (_ & BP & _). assert (Z : List.length (m_prisms m1) = List.length (all_prisms (m_layers m1))) by (rewrite <- BP, map_length; reflexivity).
            destruct (place_ok scale m W) as (m3 & new & P3 & _ & L3 & _). assert (m3 = m1) by congruence; subst m3. rewrite L3 in Z.
            apply nth_error_None in Eq. lia. }
        cbn [option_map] in Y1. injection Y1 as Y3 Y4. unfold mark, mark_bot, mark_top. cbn. rewrite Y3, Y4. reflexivity. }
      assert (PP : m_prisms (b_model s) = m_prisms (b_model s0)).
      { apply list_ext. intros j. rewrite Ps, Ps0. destruct (nth_error (m_prisms m1) j) as [p|] eqn:Ep; [|reflexivity]. cbn [option_map]. f_equal. apply V.
        destruct B as (_ & BP & _). assert (Z : List.length (m_prisms m1) = List.length (all_prisms (m_layers m1))) by (rewrite <- BP, map_length; reflexivity).
        destruct (place_ok scale m W) as (m3 & new & P3 & _ & L3 & _). assert (m3 = m1) by congruence; subst m3. rewrite L3 in Z.
        rewrite <- Z. apply nth_error_Some. congruence. }
      split; [rewrite M, M0, PP; reflexivity|]. apply list_ext. intros j. rewrite Cs, Cs0.
      destruct (Nat.ltb_spec j (List.length (all_prisms (m_layers m)))) as [Hj|]; [|reflexivity]. f_equal.
      exact (proj2 (V j {| i_lyr := 0; i_ele := 0; i_vs := []; i_side := []; i_top := None; i_bot := None |} Hj)). }
    destruct H0 as (s0 & Es0 & A1 & A2). exists s, s0. auto.
  Qed.

  (** Contacts are mutual: if prism [i] lies over prism [j], the two see the same common area. *)
  Theorem C147_mutual : forall m i j ci cj l t tid t' tid', (forall a b c d, inter a b c d == inter c d a b)%Q -> (forall a b, ~ tarea a b == 0)%Q ->
    prism_of m l i t tid -> prism_of m (l + 1) j t' tid' -> contacts_ok tarea inter m i ci -> contacts_ok tarea inter m j cj ->
    forall r, In (j, r) (snd ci) -> exists r', In (i, r') (fst cj) /\ (r * tarea t tid == r' * tarea t' tid')%Q.
  Proof.
    intros m i j ci cj l t tid t' tid' Sy Nz Pi Pj Ci Cj r H.
    destruct (Ci l t tid Pi) as (_ & Cd), (Cj (l + 1) t' tid' Pj) as (Cu & _).
    replace (l + 1) with (Datatypes.S l) in Cu by lia.
    destruct (l + 1 =? List.length (m_layers m)); [rewrite Cd in H; destruct H|].
    destruct Cd as (_ & Cd), Cu as (_ & Cu). apply Cd in H as (t2 & tid2 & P2 & Pos & ->).
    destruct (prism_of_fun m _ _ _ _ _ _ P2 Pj) as [-> ->].
    exists (inter t' tid' t tid / tarea t' tid')%Q. split.
    - apply Cu. exists t, tid. split; [exact Pi|]. split; [rewrite Sy; exact Pos|reflexivity].
    - rewrite (Sy t' tid' t tid). field. split; apply Nz.
  Qed.

  (** A prism below another layer is marked as covered although nothing lies on it. *)
  Theorem C147_untouched_marked : forall scale m w, select_ok meets select -> boxes_ok key meets inter -> stack_wf m -> m_prisms m = [] ->
    Permutation w (seq 0 (List.length (all_prisms (m_layers m)))) ->
    exists s, stack_build key select tarea inter scale m [] w = Ok s /\
      forall l i t tid p, prism_of m (Datatypes.S l) i t tid -> nth_error (m_prisms (b_model s)) i = Some p ->
        (forall j t' tid', prism_of m l j t' tid' -> (inter t tid t' tid' <= 0)%Q) ->
        i_top p = Some i /\ exists c, nth_error (b_contacts s) i = Some c /\ fst c = [].
  Proof.
    intros scale m w SO BO W E Pm. destruct (C146_prisms scale m w SO BO W E Pm) as (s & Es & _ & _ & _ & _ & _ & Ln & _ & Hp).
    destruct (C147_contacts scale m w SO BO W E Pm) as (s' & Es' & Lc & Hc). assert (s' = s) by congruence; subst s'.
    exists s. split; [exact Es|]. intros l i t tid p P Ep No. destruct (Hp i p Ep) as ((_ & _ & _ & _ & N & _) & Mt & _). split.
    - destruct P as (_ & k & _ & _ & _ & _ & N' & _). unfold numbered in N, N'. assert (i_lyr p = Datatypes.S l) by congruence. rewrite Mt, H. reflexivity.
    - assert (Hi : i < List.length (b_contacts s)) by (rewrite Lc, <- Ln; apply nth_error_Some; congruence).
      destruct (nth_error (b_contacts s) i) as [c|] eqn:Ec; [|apply nth_error_None in Ec; lia]. exists c. split; [reflexivity|].
      destruct (Hc i c Ec _ _ _ P) as ((_ & C) & _). destruct (fst c) as [|[j r] cs]; [reflexivity|]. exfalso.
      destruct (proj1 (C j r) (or_introl eq_refl)) as (t' & tid' & P' & Pos & _). exact (Qlt_not_le _ _ Pos (No j t' tid' P')).
  Qed.
End Build.
Print Assumptions C146_prisms.
Print Assumptions C146_rebuild_doubles.
Print Assumptions C147_contacts.
Print Assumptions C147_schedules.
Print Assumptions C147_mutual.
Print Assumptions C147_untouched_marked.

(** ** C148 – bond wires *)
Section Wires.
  Context {K : Type} (key : template -> nat -> K) (nearest : list (K * nat) -> Z * Z -> list (K * nat)) (dist : Z * Z -> K -> Q).
  Context (order : list Z) (vscale : Q).

  (** Wires that fit become chains of lines, numbered on after the prisms and the lines before, from point to point of the wire, with the
      ends connected to the nearest prisms of the layers they stand on; the rest of the model is kept. *)
  Theorem C148_wires : forall m ws, nearest_ok dist nearest -> NoDup order -> built m ->
    Forall (fun w => wire_fits m order vscale (w_pts w) (w_heights w)) ws ->
    exists m' c' new, stack_wires key nearest order vscale (m, []) ws = Ok (m', c') /\ m_lines m' = m_lines m ++ new /\
      m_layers m' = m_layers m /\ m_temps m' = m_temps m /\ m_prisms m' = m_prisms m /\ (exists r, m_points m' = m_points m ++ r) /\
      wires_drawn key dist m order vscale (m_points m') (List.length (all_prisms (m_layers m)) + List.length (m_lines m))
        (map (fun w => (w_pts w, w_heights w)) ws) new.
  Proof.
    intros m ws NO ND B H. destruct (stack_wires_ok key nearest dist NO order vscale ND ws m [] B (fresh_nil key m) H) as (m' & c' & new & E & F & L & D).
    exists m', c', new. destruct F as (F1 & F2 & _ & _ & F5 & F6). auto 8.
  Qed.

  (** A wire that does not fit is refused, wherever it comes in the list: the heights do not match the points, there are no points, or an
      end is not on the upper plane of a layer with elements. *)
  Theorem C148_refused : forall m ws w ws', nearest_ok dist nearest -> NoDup order -> built m ->
    Forall (fun w => wire_fits m order vscale (w_pts w) (w_heights w)) ws -> ~ wire_fits m order vscale (w_pts w) (w_heights w) ->
    stack_wires key nearest order vscale (m, []) (ws ++ w :: ws') = Throw.
  Proof.
    intros m ws w ws' NO ND.
    cut (forall c, fresh key m c -> built m -> Forall (fun w => wire_fits m order vscale (w_pts w) (w_heights w)) ws ->
      ~ wire_fits m order vscale (w_pts w) (w_heights w) -> stack_wires key nearest order vscale (m, c) (ws ++ w :: ws') = Throw).
    { intros G. apply G, fresh_nil. }
    intros c. revert c m. induction ws as [|w0 ws IH]; intros c m F B H N; cbn [app stack_wires].
    - rewrite (stack_wire_refused key nearest dist NO order vscale ND m c w B F N). reflexivity.
    - inversion H as [|? ? Hw Hws]; subst. destruct (stack_wire_ok key nearest dist NO order vscale ND m c w0 B F Hw) as (m1 & c1 & g & E1 & Fr1 & F1 & _). rewrite E1. cbn [bind].
      pose proof (frame_alike _ _ Fr1) as A. apply IH.
      + now apply (fresh_alike key _ _ _ A).
      + now apply (alike_built _ _ A).
      + eapply Forall_impl; [|exact Hws]. intros a Ha. cbn in Ha |- *. now apply (fits_frame order vscale m m1).
      + intros N'. apply N. destruct N' as (L & NE & On). split; [exact L|]. split; [exact NE|]. intros L2 h Hh. specialize (On L2 h Hh).
        unfold on_layer in *. destruct Fr1 as (Ly & _). rewrite Ly in On. exact On.
  Qed.
End Wires.
Print Assumptions C148_wires.
Print Assumptions C148_refused.

(** The lowest plane of the stack carries no layer: a wire that ends there is refused. *)
Theorem C148_bottom_plane_refused : forall m order vscale ps hs h, NoDup order ->
  2 <= List.length ps -> nth_error hs (List.length hs - 1) = Some h -> plane_of order vscale h (List.length (m_layers m)) ->
  ~ wire_fits m order vscale ps hs.
Proof.
  intros m order vscale ps hs h ND L E P (_ & _ & F). destruct (F L h (or_intror E)) as (l & y & P' & Hy & _).
  assert (l = List.length (m_layers m)).
  { pose proof (index_plane order vscale h ND) as I. destruct (index_of _ 0 order); [destruct I as [_ U]; rewrite (U _ P), (U _ P'); reflexivity|destruct (I _ P)]. }
  subst l. assert (List.length (m_layers m) < List.length (m_layers m)) by (apply nth_error_Some; congruence). lia.
Qed.
Print Assumptions C148_bottom_plane_refused.

(** ** A stack of two layers with different triangulations: two halves of a square over one larger triangle, and a third element of the
    lower layer that nothing lies on. *)
Definition halves : template :=
  {| t_pts := [(0, 0); (2, 0); (2, 2); (0, 2)]%Z;
     t_tris := [{| t_vs := [0; 1; 2]; t_nb := [None; None; Some 1] |}; {| t_vs := [0; 2; 3]; t_nb := [Some 0; None; None] |}] |}.
Definition wide : template :=
  {| t_pts := [(0, 0); (4, 0); (0, 4); (9, 9); (8, 9)]%Z;
     t_tris := [{| t_vs := [0; 1; 2]; t_nb := [None; None; None] |}; {| t_vs := [3; 4; 4]; t_nb := [None; None; None] |}] |}.
Definition el3 i tid sd := {| e_id := i; e_tid := tid; e_side := sd; e_top := None; e_bot := None |}.
Definition small_stack : pmodel :=
  {| m_layers := [{| y_elev := 3%Q; y_thick := 1%Q; y_elems := [el3 0 0 [None; None; Some 1]; el3 1 1 [Some 0; None; None]] |};
                  {| y_elev := 2%Q; y_thick := 2%Q; y_elems := [el3 0 0 [None; None; None]; el3 1 1 [None; None; None]] |}];
     m_temps := [(0, halves); (1, wide)]; m_scale := 1%Q; m_offs := []; m_points := []; m_prisms := []; m_lines := [] |}.
Definition overlap (a b : (Z * Z) * (Z * Z)) : bool :=
  ((fst (fst a) <=? fst (snd b)) && (fst (fst b) <=? fst (snd a)) && (snd (fst a) <=? snd (snd b)) && (snd (fst b) <=? snd (snd a)))%Z.
Definition half_inter (t : template) (tid : nat) (t' : template) (tid' : nat) : Q := if overlap (bbox t tid) (bbox t' tid') then 2%Q else 0%Q.
Definition half_area (t : template) (tid : nat) : Q := if List.length (t_pts t) =? 4 then 2%Q else 8%Q.
Definition pick_all (a : (Z * Z) * (Z * Z)) (tr : list (((Z * Z) * (Z * Z)) * nat)) := filter (fun v => overlap a (fst v)) tr.

Lemma small_wf : stack_wf small_stack.
Proof.
  intros [|[|l]] y H; cbn in H; [| |destruct l; discriminate]; injection H as <-.
  - exists halves. split; [reflexivity|]. intros e [<-|[<-|[]]]; (split; [|eexists; split; [reflexivity|]; split; [reflexivity|]; repeat constructor]).
    all: repeat constructor; intros k [= <-]; eexists; split; [reflexivity|cbn; lia].
  - exists wide. split; [reflexivity|]. intros e [<-|[<-|[]]]; (split; [|eexists; split; [reflexivity|]; split; [reflexivity|]; cbn; repeat constructor]).
    all: repeat constructor; intros k; discriminate.
Qed.
Lemma small_select : select_ok overlap pick_all.
Proof. intros a tr. apply Permutation_refl. Qed.
Lemma small_boxes : boxes_ok bbox overlap half_inter.
Proof. intros t tid t' tid' H. unfold half_inter in H. destruct (overlap _ _); [reflexivity|discriminate H]. Qed.

(** The tasks of the two layers, interleaved, and what they give. *)
Example C147_case : interleaving (layer_tasks (offsets (m_layers small_stack))) [2; 0; 3; 1] /\
  match stack_build bbox pick_all half_area half_inter 1 small_stack [] [2; 0; 3; 1] with
  | Ok s => map (fun p => (i_lyr p, i_side p, i_top p, i_bot p)) (m_prisms (b_model s)) =
      [(0, [None; None; Some 1], None, Some 0); (0, [Some 0; None; None], None, Some 1);
       (1, [None; None; None], Some 2, None); (1, [None; None; None], Some 3, None)] /\
      b_contacts s = [([], [(2, (2 / 2)%Q)]); ([], [(2, (2 / 2)%Q)]); ([(0, (2 / 8)%Q); (1, (2 / 8)%Q)], []); ([], [])] /\
      nth_error (m_points (b_model s)) 16 = Some {| px := 4 * 1; py := 0 * 1; pz := 2 - 2 |}%Q
  | _ => False
  end.
Proof.
  split; [|vm_compute; repeat split].
  change (layer_tasks (offsets (m_layers small_stack))) with [[0; 1]; [2; 3]].
  apply (il_step [[0; 1]] 2 [3] []), (il_step [] 0 [1] [[3]]), (il_step [[1]] 3 [] []), (il_step [] 1 [] [[]]), il_done. intros t [<-|[<-|[]]]; reflexivity.
Qed.
Example C146_rebuild_case : match stack_build bbox pick_all half_area half_inter 1 small_stack [] (seq 0 4) with
  | Ok s => match stack_build bbox pick_all half_area half_inter 1 (b_model s) (b_contacts s) (seq 0 4) with
            | Ok s' => (List.length (m_prisms (b_model s')), map fst (fst (nth 2 (b_contacts s') ([], [])))) = (8, [0; 1; 0; 1])
            | _ => False end
  | _ => False end.
Proof. vm_compute. reflexivity. Qed.

(** A wire between the layers, from plane 3 to plane 2 at a scale of 10, and wires that are refused. *)
Example C148_case : match stack_build bbox pick_all half_area half_inter 1 small_stack [] (seq 0 4) with
  | Ok s =>
      let order := [30; 20; 0]%Z in
      wire_fits (b_model s) order 10 [(0, 1); (5, 5); (8, 8)]%Z [3; 7 # 2; 204 # 100]%Q /\
      match stack_wires bbox (pick box_dist) order 10 (b_model s, []) [mkwire [(0, 1); (5, 5); (8, 8)]%Z [3; 7 # 2; 204 # 100]%Q; mkwire [(1, 1)]%Z [0%Q]] with
      | Ok (m', _) => map ties (m_lines m') = [(4, [1], [5]); (5, [4], [3])]
      | _ => False end /\
      stack_wires bbox (pick box_dist) order 10 (b_model s, []) [mkwire [(0, 1); (8, 8)]%Z [3; 0]%Q] = Throw /\
      stack_wires bbox (pick box_dist) order 10 (b_model s, []) [mkwire [(0, 1); (8, 8)]%Z [3; 25 # 10]%Q] = Throw
  | _ => False end.
Proof.
  set (r := stack_build _ _ _ _ _ _ _ _). vm_compute in r. subst r. cbv iota beta zeta.
  split; [|vm_compute; auto]. split; [reflexivity|]. split; [discriminate|]. intros _ h [E|E]; cbn in E; injection E as <-.
  - exists 0. eexists. split; [exists 30%Z; split; [reflexivity|left; reflexivity]|]. split; [reflexivity|discriminate].
  - exists 1. eexists. split; [exists 20%Z; split; [reflexivity|left; reflexivity]|]. split; [reflexivity|discriminate].
Qed.
