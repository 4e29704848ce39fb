(** Facts about copies. *)
From Verif Require Import Base Copy_Model Copy_Spec.
Open Scope res_scope.

Section CopyFacts.
  Context {A : Type}.

  Lemma clone_all_f2 {X Y} (f : X -> addr -> Y) (R : X -> Y -> Prop) :
    (forall x a, R x (f x a)) -> forall l n, Forall2 R l (clone_all f n l).
  Proof. intros H l. induction l; intros n; cbn; constructor; auto. Qed.

  Lemma clone_all_map {X Y Z} (f : X -> addr -> Y) (g : Y -> Z) (h : X -> Z) :
    (forall x a, g (f x a) = h x) -> forall l n, map g (clone_all f n l) = map h l.
  Proof. intros H l. induction l; intros n; cbn; [reflexivity|]. rewrite H, IHl. reflexivity. Qed.

  Lemma clone_all_at {X Y} (f : X -> addr -> Y) (g : Y -> addr) :
    (forall x a, g (f x a) = a) -> forall l n, map g (clone_all f n l) = seq n (List.length l).
  Proof. intros H l. induction l; intros n; cbn; [reflexivity|]. rewrite H, IHl. reflexivity. Qed.

  Lemma flat_clone {X Y Z} (f : X -> addr -> Y) (g : Y -> list Z) (h : X -> list Z) :
    (forall x a, g (f x a) = h x) -> forall l n, flat_map g (clone_all f n l) = flat_map h l.
  Proof. intros H l. induction l; intros n; cbn; [reflexivity|]. rewrite H, IHl. reflexivity. Qed.

  Lemma in_clone {X Y} (f : X -> addr -> Y) x : forall l n, In x l -> exists a, In (f x a) (clone_all f n l).
  Proof.
    induction l as [|y l IH]; intros n H; [destruct H|]. destruct H as [H|H].
    - subst. exists n. now left.
    - destruct (IH (S n) H) as [a Ha]. exists a. now right.
  Qed.

  Lemma clone_in {X Y} (f : X -> addr -> Y) y : forall l n, In y (clone_all f n l) -> exists x a, In x l /\ y = f x a /\ n <= a.
  Proof.
    induction l as [|x l IH]; intros n H; [destruct H|]. destruct H as [H|H].
    - exists x, n. repeat split; [now left|now symmetry|auto].
    - destruct (IH (S n) H) as (x' & a & H1 & H2 & H3). exists x', a. repeat split; [now right|assumption|lia].
  Qed.

  Lemma deref_in (heap : list (comp A)) c : NoDup (map c_at heap) -> In c heap -> deref heap (c_at c) = Ok c.
  Proof.
    unfold deref. induction heap as [|d heap IH]; intros ND H; [destruct H|]. destruct H as [H|H]; cbn in *.
    - subst. now rewrite Nat.eqb_refl.
    - inversion ND; subst. destruct (Nat.eqb_spec (c_at d) (c_at c)) as [E|E]; [|auto].
      exfalso. apply H2. rewrite E. now apply in_map.
  Qed.

  Lemma alookup_clone l k n (c : comp A) :
    NoDup (map fst l) -> In (k, c) l ->
    exists c', alookup String.eqb k (clone_all clone_comp n l) = Some c' /\ In (k, c') (clone_all clone_comp n l).
  Proof.
    intros ND H. destruct (in_clone clone_comp _ _ n H) as [a Ha]. cbn in Ha.
    eexists. split; [|exact Ha]. apply (in_alookup _ string_eqb_reflect); [|exact Ha].
    unfold akeys. rewrite (clone_all_map clone_comp fst fst); [exact ND|]. reflexivity.
  Qed.

  Lemma reattach_end_ok heap l n e (l' : layout A) :
    named l -> alive_in heap l -> (forall p, e_comp e = Some p -> exists k c, In (k, c) (l_comps l) /\ c_at c = p) ->
    l_comps l' = clone_all clone_comp n (l_comps l) ->
    exists e', reattach_end heap (clone_all clone_comp n (l_comps l)) e = Ok e' /\ end_copied l l' e e'.
  Proof.
    intros [ND NM] [HN HI] HO HL. unfold reattach_end, end_copied. destruct (e_comp e) as [p|]; [|eauto].
    destruct (HO p eq_refl) as (k & c & Hc & Hp). subst p.
    rewrite (deref_in heap c HN (HI k c Hc)). cbn [bind]. rewrite (NM k c Hc).
    destruct (alookup_clone _ _ n _ ND Hc) as (c' & E & HI'). rewrite E.
    eexists. split; [reflexivity|]. cbn. repeat split. exists k, c, c'. rewrite HL. auto.
  Qed.

  Lemma reattach_ok heap l n (l' : layout A) :
    named l -> alive_in heap l -> l_comps l' = clone_all clone_comp n (l_comps l) ->
    forall ps m,
    (forall e p, In e (flat_map (fun q => match q with PWire w => [w_start w; w_end w] | POther _ _ => [] end) ps) -> e_comp e = Some p ->
       exists k c, In (k, c) (l_comps l) /\ c_at c = p) ->
    exists ps', reattach heap (clone_all clone_comp n (l_comps l)) (clone_all clone_prim m ps) = Ok ps' /\
      Forall2 (prim_copied l l') ps ps' /\ map prim_at ps' = seq m (List.length ps) /\
      flat_map (fun q => match q with PWire w => opt (w_joint w) | POther _ _ => [] end) ps' =
      flat_map (fun q => match q with PWire w => opt (w_joint w) | POther _ _ => [] end) ps.
  Proof.
    intros HN HA HL. induction ps as [|p ps IH]; intros m HO.
    - exists []. cbn. auto.
    - destruct (IH (S m)) as (ps' & E & F & M & J). { intros e q H. apply HO. cbn. apply in_or_app. now right. }
      destruct p as [w|at_ d]; cbn [clone_all clone_prim reattach].
      + destruct (reattach_end_ok heap l n (w_start w) l' HN HA) as (s & Es & Cs); [|exact HL|].
        { intros q. apply HO. cbn. auto. }
        destruct (reattach_end_ok heap l n (w_end w) l' HN HA) as (e & Ee & Ce); [|exact HL|].
        { intros q. apply HO. cbn. auto. }
        cbn [w_start w_end]. rewrite Es, Ee, E. cbn [bind]. eexists. split; [reflexivity|].
        split; [constructor; [|exact F]; cbn; auto|]. cbn. rewrite M, J. auto.
      + rewrite E. cbn [bind]. eexists. split; [reflexivity|]. split; [constructor; [|exact F]; reflexivity|]. cbn. rewrite M, J. auto.
  Qed.

  Lemma copy_layout_ok heap n (l : layout A) :
    named l -> own_ends l -> alive_in heap l ->
    exists l', copy_layout heap n l = Ok l' /\ same_content l l' /\ addrs l' = seq n (layout_size l) /\
      l_cell l' = l_cell l /\ references l' = references l /\ l_at l' = n /\
      Forall2 (fun m m' => m_kind (snd m') = match m_kind (snd m) with MStackup => MPrism | k => k end) (l_mods l) (l_mods l') /\
      Forall2 (fun i i' => i_def i' = i_def i) (l_insts l) (l_insts l').
  Proof.
    intros HN HO HA. unfold copy_layout.
    set (n1 := S n). set (n2 := n1 + _). set (n3 := n2 + _). set (n4 := n3 + _).
    set (l0 := mkLayout n (l_name l) (l_cell l) (clone_all clone_comp n1 (l_comps l)) [] [] [] [] (l_data l)).
    destruct (reattach_ok heap l n1 l0 HN HA eq_refl (l_prims l) n3) as (ps' & E & F & M & J); [exact HO|].
    rewrite E. cbn [bind]. eexists. split; [reflexivity|]. split; [|split; [|split; [|split; [|split; [|split]]]]].
    - constructor; cbn; try reflexivity.
      + apply (clone_all_f2 clone_comp). intros [k c] a. cbn. auto.
      + apply (clone_all_f2 clone_inst). reflexivity.
      + exact F.
      + apply (clone_all_f2 clone_pad). reflexivity.
      + apply (clone_all_f2 clone_mod). intros [k m] a. cbn. auto.
    - unfold addrs, layout_size. cbn [l_at l_comps l_insts l_prims l_pads l_mods]. rewrite M.
      rewrite (clone_all_at clone_comp) by reflexivity.
      rewrite (clone_all_at clone_inst) by reflexivity.
      rewrite (clone_all_at clone_pad) by reflexivity.
      rewrite (clone_all_at clone_mod) by reflexivity.
      cbn [seq]. f_equal. rewrite <- !Nat.add_assoc, !seq_app. subst n4 n3 n2 n1. cbn [plus].
      reflexivity.
    - reflexivity.
    - unfold references. cbn [l_comps l_insts l_prims l_pads l_mods]. rewrite J.
      rewrite (flat_clone clone_comp _ (fun kc => [c_ref (snd kc); c_def (snd kc)])) by reflexivity.
      rewrite (flat_clone clone_inst _ (fun i => i_ref i :: i_def i :: opt (i_map i))) by reflexivity.
      rewrite (flat_clone clone_pad _ (fun p => opt (p_def p) ++ opt (p_map p))) by reflexivity.
      rewrite (flat_clone clone_mod _ (fun km => opt (m_lay (snd km)))) by reflexivity.
      reflexivity.
    - reflexivity.
    - cbn. apply (clone_all_f2 clone_mod). reflexivity.
    - cbn. apply (clone_all_f2 clone_inst). reflexivity.
  Qed.

  (** Databases *)
  Definition defn_copied (d : addr) (kf kf' : string * defn A) : Prop :=
    fst kf' = fst kf /\ f_db (snd kf') = d /\
    match f_body (snd kf), f_body (snd kf') with
    | BCell l, BCell l' =>
        same_content l l' /\ l_cell l' = f_at (snd kf') /\ references l' = references l /\
        Forall2 (fun i i' => i_def i' = i_def i) (l_insts l) (l_insts l')
    | BOther a, BOther a' => a' = a
    | _, _ => False
    end.

  Definition total (fs : list (string * defn A)) : nat := list_sum (map (fun kf => body_size (f_body (snd kf))) fs).

  Lemma copy_defns_ok heap d : forall fs n,
    (forall l, In l (flat_map (fun kf => match f_body (snd kf) with BCell l => [l] | BOther _ => [] end) fs) -> named l /\ own_ends l /\ alive_in heap l) ->
    exists fs', copy_defns heap d n fs = Ok fs' /\ Forall2 (defn_copied d) fs fs' /\
      flat_map (fun kf => defn_addrs (snd kf)) fs' = seq n (total fs).
  Proof.
    induction fs as [|[k f] fs IH]; intros n H.
    - exists []. cbn. auto.
    - cbn [copy_defns]. destruct (IH (n + body_size (f_body f))) as (fs' & E & F & M).
      { intros l Hl. apply H. cbn. apply in_or_app. now right. }
      change (total ((k, f) :: fs)) with (body_size (f_body f) + total fs). rewrite seq_app, <- M.
      unfold copy_defn. destruct (f_body f) as [l|a] eqn:Eb.
      + destruct (H l) as (HN & HO & HA). { cbn. rewrite Eb. now left. }
        destruct (copy_layout_ok heap (S n) l HN HO HA) as (l' & El & SC & AD & _ & RF & AT & _ & ID).
        rewrite El. cbn [bind]. rewrite E. cbn [bind]. eexists. split; [reflexivity|]. split.
        * constructor; [|exact F]. split; [reflexivity|]. split; [reflexivity|]. cbn. rewrite Eb.
          repeat split; try apply SC; try exact RF; try exact ID; try reflexivity.
        * cbn [flat_map snd defn_addrs f_at f_body]. change (body_size (BCell l)) with (S (layout_size l)). cbn [seq app].
          rewrite <- AD. reflexivity.
      + cbn [bind]. rewrite E. cbn [bind]. eexists. split; [reflexivity|]. split.
        * constructor; [|exact F]. split; [reflexivity|]. split; [reflexivity|]. cbn. rewrite Eb. reflexivity.
        * reflexivity.
  Qed.

  Lemma fresh_seq n k : fresh n (seq n k).
  Proof. split; [apply seq_NoDup|]. apply Forall_forall. intros x H. apply in_seq in H. lia. Qed.

  Lemma copy_db_ok heap n (d : db A) :
    ready heap d -> exists d', copy_db heap n d = Ok d' /\ d_at d' = n /\ Forall2 (defn_copied n) (d_defs d) (d_defs d') /\ fresh n (db_addrs d').
  Proof.
    intros H. unfold copy_db. destruct (copy_defns_ok heap n (d_defs d) (S n)) as (fs & E & F & M); [exact H|].
    rewrite E. cbn [bind]. eexists. split; [reflexivity|]. repeat split; [exact F| |]; unfold db_addrs; cbn [d_at d_defs]; rewrite M.
    - exact (proj1 (fresh_seq n (S (total (d_defs d))))).
    - exact (proj2 (fresh_seq n (S (total (d_defs d))))).
  Qed.

  Lemma layout_of_copy d (fs fs' : list (string * defn A)) l' :
    Forall2 (defn_copied d) fs fs' ->
    In l' (flat_map (fun kf => match f_body (snd kf) with BCell l => [l] | BOther _ => [] end) fs') ->
    exists l f', In l (flat_map (fun kf => match f_body (snd kf) with BCell l => [l] | BOther _ => [] end) fs) /\
      In f' (map snd fs') /\ f_body f' = BCell l' /\ same_content l l' /\ l_cell l' = f_at f' /\ references l' = references l /\
      Forall2 (fun i i' => i_def i' = i_def i) (l_insts l) (l_insts l').
  Proof.
    induction 1 as [|[k f] [k' f'] fs fs' H F IH]; intros HI; [destruct HI|].
    cbn [flat_map] in HI. apply in_app_or in HI. destruct HI as [HI|HI].
    - destruct H as (_ & _ & H). cbn [snd] in *. destruct (f_body f') as [m'|a'] eqn:E'; [|destruct HI].
      destruct HI as [HI|[]]. subst m'. destruct (f_body f) as [l|] eqn:E; [|destruct H].
      destruct H as (H1 & H2 & H3 & H4). exists l, f'. repeat split; auto; try apply H1.
      + cbn [flat_map snd]. rewrite E. now left.
      + now left.
    - destruct (IH HI) as (l & g & H1 & H2 & H3). exists l, g. split; [|split; [|exact H3]].
      + cbn [flat_map]. apply in_or_app. now right.
      + now right.
  Qed.

  Lemma layout_addr_in (d : db A) l : In l (layouts d) -> In (l_at l) (db_addrs d).
  Proof.
    unfold layouts, db_addrs. intros H. right. apply in_flat_map in H. destruct H as (kf & H1 & H2).
    apply in_flat_map. exists kf. split; [exact H1|]. unfold defn_addrs. destruct (f_body (snd kf)) as [l0|]; [|destruct H2].
    destruct H2 as [H2|[]]. subst. right. now left.
  Qed.

  (** Collections of models *)
  Lemma mkind_eqb_reflect : forall a b, reflect (a = b) (mkind_eqb a b).
  Proof. intros [] []; constructor; congruence. Qed.

  Definition mods_ok (l : list (mkind * mod_ A)) : Prop :=
    NoDup (akeys l) /\ forall k m, alookup mkind_eqb k l = Some m -> m_kind m = k.

  Lemma mods_ok_step l o : mods_ok l -> mods_ok (mod_step l o).
  Proof.
    intros [ND HK]. destruct o as [[m|]|]; cbn; [|split; assumption|split; [constructor|discriminate]].
    split; [apply (aemplace_nodup _ mkind_eqb_reflect), (aerase_nodup _ mkind_eqb_reflect), ND|].
    intros k m'. rewrite (alookup_emplace _ mkind_eqb_reflect), (alookup_erase _ mkind_eqb_reflect).
    destruct (mkind_eqb_reflect k (m_kind m)) as [E|E].
    - intros [= <-]. congruence.
    - intros H. apply HK. destruct (alookup mkind_eqb k l); [exact H|discriminate].
  Qed.

  Lemma mods_after_ok ops : mods_ok (mods_after ops).
  Proof.
    unfold mods_after. rewrite <- (rev_involutive ops). induction (rev ops) as [|o r IH]; cbn; [split; [constructor|discriminate]|].
    rewrite fold_left_app. cbn. now apply mods_ok_step.
  Qed.

  Lemma in_keys (l : list (mkind * mod_ A)) k : In k (akeys l) <-> alookup mkind_eqb k l <> None.
  Proof. rewrite (alookup_none _ mkind_eqb_reflect). destruct (in_dec (fun a b => reflect_dec _ _ (mkind_eqb_reflect a b)) k (akeys l)); tauto. Qed.

  Lemma add_keys l (m : mod_ A) k : In k (akeys (add_model l (Some m))) <-> k = m_kind m \/ In k (akeys l).
  Proof.
    rewrite !in_keys. cbn.
    rewrite (alookup_emplace _ mkind_eqb_reflect), (alookup_erase _ mkind_eqb_reflect).
    destruct (mkind_eqb_reflect k (m_kind m)) as [E|E]; [split; [auto|discriminate]|].
    destruct (alookup mkind_eqb k l); split; auto; try discriminate. intros [H|H]; [contradiction|exact H].
  Qed.

  Lemma stored_after ops k : In k (akeys (mods_after ops)) <-> stored (A := A) ops k.
  Proof.
    rewrite <- (rev_involutive ops). induction (rev ops) as [|o r IH]; cbn [rev].
    - cbn. split; [tauto|]. intros (pre & x & post & E & _); destruct pre; discriminate.
    - unfold mods_after in *. rewrite fold_left_app. cbn [fold_left mod_step].
      split.
      + destruct o as [[m|]|].
        * intros H. apply add_keys in H. destruct H as [H|H].
          { subst. exists (rev r), m, []. auto. }
          apply IH in H. destruct H as (pre & m' & post & E & K & N). exists pre, m', (post ++ [Add (Some m)]).
          rewrite E, <- app_assoc. repeat split; auto. intros H. apply in_app_or in H. destruct H as [H|[H|[]]]; [contradiction|discriminate].
        * cbn. intros H. apply IH in H. destruct H as (pre & m' & post & E & K & N). exists pre, m', (post ++ [Add None]).
          rewrite E, <- app_assoc. repeat split; auto. intros H. apply in_app_or in H. destruct H as [H|[H|[]]]; [contradiction|discriminate].
        * cbn. tauto.
      + intros (pre & m & post & E & K & N). destruct post as [|x post _] using rev_ind.
        * apply app_inj_tail in E. destruct E as [_ ->]. apply add_keys. auto.
        * rewrite app_comm_cons, app_assoc in E. apply app_inj_tail in E. destruct E as [E ->].
          assert (H : In k (akeys (fold_left mod_step (rev r) []))).
          { apply IH. exists pre, m, post. repeat split; auto. intros H. apply N, in_or_app. now left. }
          destruct x as [[m'|]|]; cbn [mod_step]; [apply add_keys; now right|exact H|].
          exfalso. apply N, in_or_app. right. now left.
  Qed.
End CopyFacts.
