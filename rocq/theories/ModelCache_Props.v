(** C26: the model cache *)
From Verif Require Import Base ModelCache_Model.

Section Props.
  Context {S C : Type} (type_of : S -> nat) (force : S -> bool) (cut_of : S -> option C)
          (eqS : S -> S -> bool) (eqC : C -> C -> bool) (builds : S -> nat -> bool).
  Notation extract := (extract type_of force cut_of eqS eqC builds).
  Notation run := (run type_of force cut_of eqS eqC builds).
  Notation step := (step type_of force cut_of eqS eqC builds).
  Notation generate := (generate cut_of eqC builds).

  Definition wf (st : state (S := S) (C := C)) : Prop :=
    (forall t m, find_model st t = Some m -> type_of (m_set m) = t /\ m_stamp m < s_stamp st /\ m_rev m <= s_rev st) /\
    NoDup (akeys (s_models st)).

  Lemma extract_cut_frame st c : s_models (fst (extract_cut (S := S) eqC st c)) = s_models st /\
    s_stamp st <= s_stamp (fst (extract_cut (S := S) eqC st c)) /\ s_rev (fst (extract_cut (S := S) eqC st c)) = s_rev st.
  Proof.
    unfold extract_cut; destruct (s_cut st) as [k|]; [destruct (eqC (k_set k) c)|]; simpl; auto.
  Qed.

  Lemma generate_spec st s : forall st' m, generate st s = (st', m) ->
    s_models st' = s_models st /\ s_stamp st <= s_stamp st' /\ s_rev st' = s_rev st /\
    (builds s (s_rev st) = true -> exists x, m = Some x /\ m_set x = s /\ m_rev x = s_rev st /\
       s_stamp st <= m_stamp x < s_stamp st') /\
    (builds s (s_rev st) = false -> m = None).
  Proof.
    intros st' m; unfold generate.
    set (p := match cut_of s with Some c => _ | None => _ end).
    assert (Hp : s_models (fst p) = s_models st /\ s_stamp st <= s_stamp (fst p) /\ s_rev (fst p) = s_rev st).
    { unfold p; destruct (cut_of s) as [c|]; [|simpl; auto].
      pose proof (extract_cut_frame st c) as H; destruct (extract_cut eqC st c); exact H. }
    destruct p as [st1 k]; simpl in Hp; destruct Hp as (H1 & H2 & H3).
    destruct (builds s (s_rev st1)) eqn:E; intros [= <- <-]; simpl; repeat (split; auto); rewrite <- H3, E; try discriminate.
    intros _; eexists; repeat split; simpl; auto; lia.
  Qed.

  Lemma add_find (st : state (S := S) (C := C)) (m : model) t : NoDup (akeys (s_models st)) ->
    find_model (add_model type_of st (Some m)) t = (if (t =? type_of (m_set m))%nat then Some m else find_model st t).
  Proof.
    intros Hnd; unfold find_model, add_model; simpl.
    rewrite (alookup_emplace Nat.eqb nat_eqb_reflect), (alookup_erase Nat.eqb nat_eqb_reflect).
    destruct (Nat.eqb_spec t (type_of (m_set m))) as [->|Hne]; auto.
    destruct (alookup Nat.eqb t (s_models st)); auto.
  Qed.

  Lemma wf_step st o : wf st -> wf (fst (step st o)).
  Proof.
    intros [H Hnd]; destruct o as [|c|s]; simpl.
    - split; auto; intros t m Hm; destruct (H t m Hm) as (? & ? & ?); simpl; repeat split; auto with arith.
    - pose proof (extract_cut_frame st c) as (E1 & E2 & E3); destruct (extract_cut eqC st c) as [st' k]; simpl in *.
      split; [|rewrite E1; auto]; intros t m Hm; unfold find_model in Hm; rewrite E1 in Hm.
      destruct (H t m Hm) as (? & ? & ?); repeat split; auto; lia.
    - unfold extract.
      destruct (match find_model st (type_of s) with Some m => _ | None => None end); simpl; [split; auto|].
      destruct (generate st s) as [st' m] eqn:E; destruct (generate_spec _ _ _ _ E) as (G1 & G2 & G3 & G4 & G5).
      assert (Hst' : wf st').
      { split; [|rewrite G1; auto]; intros t x Hx; unfold find_model in Hx; rewrite G1 in Hx.
        destruct (H t x Hx) as (? & ? & ?); repeat split; auto; lia. }
      destruct m as [m|]; simpl; [|auto].
      destruct (builds s (s_rev st)) eqn:Eb; [|specialize (G5 eq_refl); discriminate].
      destruct (G4 eq_refl) as (x & [= <-] & Hx1 & Hx2 & Hx3).
      split.
      + intros t y Hy.
        assert (E2 := add_find st' m t (proj2 Hst')); unfold add_model in E2; simpl in E2.
        rewrite E2 in Hy; destruct (Nat.eqb_spec t (type_of (m_set m))) as [->|].
        * injection Hy as <-; simpl; repeat split; auto; lia.
        * apply Hst' in Hy; simpl; exact Hy.
      + simpl; apply (aemplace_nodup Nat.eqb nat_eqb_reflect), (aerase_nodup Nat.eqb nat_eqb_reflect), Hst'.
  Qed.

  Lemma wf_init : wf init.
  Proof. split; [intros t m [=]|constructor]. Qed.

  Lemma wf_run ops : wf (run init ops).
  Proof.
    assert (G : forall ops st, wf st -> wf (run st ops)).
    { clear ops; induction ops as [|o ops IH]; simpl; auto; intros st H; apply IH, wf_step, H. }
    apply G, wf_init.
  Qed.

  (** After any history, an extraction that can be built returns a model of the requested kind whose settings compare
      equal to the requested ones. *)
  Theorem C26_returned_model_matches_partial ops s : (forall s, eqS s s = true) ->
    let st := run init ops in builds s (s_rev st) = true ->
    exists m, snd (extract st s) = Some m /\ type_of (m_set m) = type_of s /\ eqS (m_set m) s = true.
  Proof.
    intros Hr st Hb; pose proof (wf_run ops) as [H Hnd]; fold st in H, Hnd.
    unfold extract; destruct (find_model st (type_of s)) as [m|] eqn:Ef.
    - destruct (negb (force s) && eqS (m_set m) s) eqn:Er.
      + apply andb_true_iff in Er as [_ Er]; exists m; simpl; split; auto; split; auto; apply (H _ _ Ef).
      + destruct (generate st s) as [st' x] eqn:E; destruct (generate_spec _ _ _ _ E) as (G1 & _ & _ & G4 & _).
        destruct (G4 Hb) as (y & -> & Hy & _); exists y; cbn [snd]; rewrite add_find by (rewrite G1; auto).
        rewrite Hy, Nat.eqb_refl; auto.
    - destruct (generate st s) as [st' x] eqn:E; destruct (generate_spec _ _ _ _ E) as (G1 & _ & _ & G4 & _).
      destruct (G4 Hb) as (y & -> & Hy & _); exists y; cbn [snd]; rewrite add_find by (rewrite G1; auto).
      rewrite Hy, Nat.eqb_refl; auto.
  Qed.

  (** Requesting again without force – with any settings equal to those of the model just returned – changes nothing and
      returns the very same model. *)
  Theorem C26_rerequest_does_not_rebuild ops s s' m : let st := run init ops in
    snd (extract st s) = Some m -> type_of s' = type_of s -> force s' = false -> eqS (m_set m) s' = true ->
    extract (fst (extract st s)) s' = (fst (extract st s), Some m).
  Proof.
    intros st Hm Ht Hf He.
    assert (Hfind : find_model (fst (extract st s)) (type_of s) = Some m).
    { revert Hm; unfold extract.
      destruct (find_model st (type_of s)) as [x|] eqn:Ef.
      - destruct (negb (force s) && eqS (m_set x) s); [simpl; congruence|].
        destruct (generate st s); simpl; auto.
      - destruct (generate st s); simpl; auto. }
    unfold extract at 1; rewrite Ht, Hfind, Hf, He; simpl; auto.
  Qed.

  (** Force always rebuilds: the returned model is newer than every model built before and was extracted from the present
      layout. *)
  Theorem C26_force_rebuilds ops s : let st := run init ops in
    force s = true -> builds s (s_rev st) = true ->
    exists m, snd (extract st s) = Some m /\ m_set m = s /\ m_rev m = s_rev st /\ s_stamp st <= m_stamp m /\
    forall t x, find_model st t = Some x -> m_stamp x < m_stamp m.
  Proof.
    intros st Hf Hb; pose proof (wf_run ops) as [H Hnd]; fold st in H, Hnd.
    assert (E : extract st s = let (st', m) := generate st s in
                (add_model type_of st' m, find_model (add_model type_of st' m) (type_of s))).
    { unfold extract; destruct (find_model st (type_of s)); auto; rewrite Hf; auto. }
    rewrite E; destruct (generate st s) as [st' x] eqn:Eg; destruct (generate_spec _ _ _ _ Eg) as (G1 & _ & _ & G4 & _).
    destruct (G4 Hb) as (y & -> & Hy & Hy2 & Hy3); exists y; cbn [snd]; rewrite add_find by (rewrite G1; auto).
    rewrite Hy, Nat.eqb_refl; split; auto; split; auto; split; auto; split; [lia|].
    intros t x Hx; apply H in Hx; lia.
  Qed.

  (** The stored layer cut model is older than the next build and was extracted from a revision that has been reached. *)
  Definition cut_wf (st : state (S := S) (C := C)) : Prop :=
    forall k, s_cut st = Some k -> k_stamp k < s_stamp st /\ k_rev k <= s_rev st.

  Lemma extract_cut_wf st c : cut_wf st -> cut_wf (fst (extract_cut (S := S) eqC st c)).
  Proof.
    intros H; unfold extract_cut; destruct (s_cut st) as [k|] eqn:E; [destruct (eqC (k_set k) c)|]; cbn [fst]; auto;
      intros k' [= <-]; simpl; lia.
  Qed.

  Lemma cut_wf_step st o : cut_wf st -> cut_wf (fst (step st o)).
  Proof.
    intros H; destruct o as [|c|s]; simpl.
    - intros k Hk; simpl in *; specialize (H k Hk); lia.
    - pose proof (extract_cut_wf st c H) as G; destruct (extract_cut eqC st c); exact G.
    - unfold extract; destruct (match find_model st (type_of s) with Some m => _ | None => None end); [exact H|].
      unfold ModelCache_Model.generate.
      set (p := match cut_of s with Some c => _ | None => _ end).
      assert (Hp : cut_wf (fst p)).
      { unfold p; destruct (cut_of s) as [c|]; [|exact H].
        pose proof (extract_cut_wf st c H) as G; destruct (extract_cut eqC st c); exact G. }
      destruct p as [st1 k]; cbn [fst] in Hp; destruct (builds s (s_rev st1)); cbn [fst add_model]; auto.
      intros k' Hk'; simpl in *; specialize (Hp k' Hk'); lia.
  Qed.

  (** Layer cut models: after any history a request is answered by the stored model if its settings compare equal to the
      requested ones, and nothing changes; otherwise by a new one, made of exactly the requested settings from the present
      layout, newer than the stored one and every model built before, and stored for the next request. *)
  Theorem C26_layer_cut ops c : let st := run init ops in let st' := fst (extract_cut eqC st c) in
    let k := snd (extract_cut eqC st c) in
    (s_cut st = Some k /\ eqC (k_set k) c = true /\ st' = st) \/
    ((forall x, s_cut st = Some x -> eqC (k_set x) c = false /\ k_stamp x < k_stamp k) /\
     k_set k = c /\ k_rev k = s_rev st /\ s_cut st' = Some k /\ s_models st' = s_models st /\
     (forall t m, find_model st t = Some m -> m_stamp m < k_stamp k)).
  Proof.
    intros st; pose proof (wf_run ops) as [W _]; fold st in W.
    assert (Hc : cut_wf st).
    { unfold st; assert (G : forall ops x, cut_wf x -> cut_wf (run x ops)).
      { clear; induction ops as [|o ops IH]; simpl; auto; intros x H; apply IH, cut_wf_step, H. }
      apply G; intros k [=]. }
    assert (Hm : forall t m, find_model st t = Some m -> m_stamp m < s_stamp st) by (intros t m Hf; apply W in Hf; tauto).
    clearbody st; unfold extract_cut; destruct (s_cut st) as [k|] eqn:E; [destruct (eqC (k_set k) c) eqn:Eq|]; cbn [fst snd].
    - left; auto.
    - right; cbn; split; [intros x [= <-]; split; auto; apply Hc; auto|]; repeat split; auto.
    - right; cbn; split; [discriminate|]; repeat split; auto.
  Qed.
End Props.
Print Assumptions C26_returned_model_matches_partial.
Print Assumptions C26_rerequest_does_not_rebuild.
Print Assumptions C26_force_rebuilds.
Print Assumptions C26_layer_cut.

(** Concrete settings: (kind, force, layer cut value, buildable) *)
Definition cs : Type := (nat * bool * option nat * bool)%type.
Definition c_type (s : cs) : nat := fst (fst (fst s)).
Definition c_force (s : cs) : bool := snd (fst (fst s)).
Definition c_cut (s : cs) : option nat := snd (fst s).
Definition c_builds (s : cs) (_ : nat) : bool := snd s.
Definition c_eq (a b : cs) : bool :=
  Nat.eqb (c_type a) (c_type b) &&
  match c_cut a, c_cut b with Some x, Some y => Nat.eqb x y | None, None => true | _, _ => false end &&
  Bool.eqb (snd a) (snd b).
Notation crun := (run c_type c_force c_cut c_eq Nat.eqb c_builds).
Notation cextract := (extract c_type c_force c_cut c_eq Nat.eqb c_builds).

Example c_eq_refl : forall s, c_eq s s = true.
Proof.
  intros [[[t f] c] b]; unfold c_eq, c_type, c_cut; simpl; rewrite Nat.eqb_refl, eqb_reflx.
  destruct c; simpl; auto; rewrite Nat.eqb_refl; auto.
Qed.

Example cache_ex :
  option_map m_stamp (snd (cextract (crun init [Extract (1, false, None, true); Extract (2, false, Some 7, true); Edit])
                                    (2, false, Some 7, true))) = Some 2 /\
  option_map m_stamp (snd (cextract (crun init [Extract (1, false, None, true); Extract (2, false, Some 7, true); Edit])
                                    (2, true, Some 7, true))) = Some 3.
Proof. vm_compute; auto. Qed.

Example layer_cut_ex :
  let st := crun init [Extract (2, false, Some 7, true); Edit] in
  k_stamp (snd (extract_cut Nat.eqb st 7)) = 0 /\ k_rev (snd (extract_cut Nat.eqb st 7)) = 0 /\
  k_stamp (snd (extract_cut Nat.eqb st 8)) = 2 /\ k_rev (snd (extract_cut Nat.eqb st 8)) = 1.
Proof. vm_compute; auto. Qed.

(** A request that cannot be built returns the old model of that kind, whose settings do not match. *)
Theorem C26_failed_build_refuted :
  exists ops s m, snd (cextract (crun init ops) s) = Some m /\ c_eq (m_set m) s = false.
Proof.
  exists [Extract (1, false, None, true)], (1, false, None, false).
  eexists; split; vm_compute; reflexivity.
Qed.
Print Assumptions C26_failed_build_refuted.

(** A forced prism extraction after an edit still uses the layer cut model extracted before the edit. *)
Theorem C26_force_reuses_stale_layer_cut_refuted :
  exists ops s m k, let st := crun init ops in
    c_force s = true /\ snd (cextract st s) = Some m /\ m_cut m = Some k /\ m_rev m = s_rev st /\ k_rev k < s_rev st.
Proof.
  exists [Extract (2, false, Some 7, true); Edit], (2, true, Some 7, true).
  eexists _, _; cbv zeta; split; [reflexivity|]; split; [vm_compute; reflexivity|].
  split; [reflexivity|]; split; [reflexivity|]; vm_compute; lia.
Qed.
Print Assumptions C26_force_reuses_stale_layer_cut_refuted.
