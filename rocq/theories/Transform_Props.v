From Verif Require Import Base Names_Spec Transform_Model Transform_Spec Transform_Proofs.
Local Open Scope Q_scope.

(** One item acts as documented: scale, then rotate, then mirror, then shift (skipping an identity step never
    matters). *)
Theorem C12_item_order :
  forall (cosQ sinQ : Q -> Q) d p,
    cosQ 0 == 1 -> sinQ 0 == 0 -> Proper (Qeq ==> Qeq) cosQ -> Proper (Qeq ==> Qeq) sinQ ->
    peq (moves cosQ sinQ (mkT [d] None) p) (item_pt cosQ sinQ d p).
Proof. intros; unfold moves, get_transform; cbn [t_cache t_seq]; exact (seqt_items cosQ sinQ [d] p H H0 H1 H2). Qed.
Print Assumptions C12_item_order.

(** makeETransform2D *)
Theorem C12_make_transform :
  forall (cosQ sinQ : Q -> Q) s r o m p,
    cosQ 0 == 1 -> sinQ 0 == 0 -> Proper (Qeq ==> Qeq) cosQ -> Proper (Qeq ==> Qeq) sinQ ->
    peq (moves cosQ sinQ (make_transform cosQ sinQ s r o m) p)
        (shift_pt o (mirror_pt m (rotate_pt cosQ sinQ r (scale_pt s p)))).
Proof. intros; exact (C12_item_order cosQ sinQ (mkTD s r m o) p H H0 H1 H2). Qed.
Print Assumptions C12_make_transform.

(** A new transform moves nothing. *)
Theorem C12_new_is_identity : forall (cosQ sinQ : Q -> Q) p, peq (moves cosQ sinQ t_new p) p.
Proof.
  intros cosQ sinQ [x y]; unfold moves.
  assert (get_transform cosQ sinQ t_new = aff_id) as -> by (vm_compute; reflexivity).
  split; unfold aff_apply, aff_id; simpl; ring.
Qed.
Print Assumptions C12_new_is_identity.

(** Append composes: for any t1 built by any history at all (cached or not), and any t2 built by a history in which
    no Append happened on a cached object, applying the appended t1 is applying t1 and then t2. *)
Theorem C12_append_composes_partial :
  forall cosQ sinQ ops1 ops2 p,
    appends_uncached false ops2 = true ->
    let t1 := t_run cosQ sinQ t_new ops1 in
    let t2 := t_run cosQ sinQ t_new ops2 in
    peq (moves cosQ sinQ (append cosQ sinQ t1 t2) p) (moves cosQ sinQ t2 (moves cosQ sinQ t1 p)).
Proof.
  intros; apply append_composes; left.
  apply (run_uncached cosQ sinQ ops2 t_new); [exact I|exact H].
Qed.
Print Assumptions C12_append_composes_partial.

(** when t1 has been read before, t2 may have any history *)
Theorem C12_append_composes_after_read :
  forall cosQ sinQ ops1 ops2 p,
    let t1 := t_run cosQ sinQ t_new (ops1 ++ [TRead]) in
    let t2 := t_run cosQ sinQ t_new ops2 in
    peq (moves cosQ sinQ (append cosQ sinQ t1 t2) p) (moves cosQ sinQ t2 (moves cosQ sinQ t1 p)).
Proof.
  intros; apply append_composes; right; unfold t1, t_run; rewrite fold_left_app; discriminate.
Qed.
Print Assumptions C12_append_composes_after_read.

(** A read does not change what the object does at that moment. *)
Theorem C12_read_is_neutral_now :
  forall cosQ sinQ t, moves cosQ sinQ (read cosQ sinQ t) = moves cosQ sinQ t.
Proof. reflexivity. Qed.
Print Assumptions C12_read_is_neutral_now.

(** Histories without an Append on a cached object: the final point map is that of the plain item list, and the
    reads could have been left out. *)
Theorem C12_reads_invisible_partial :
  forall cosQ sinQ ops p,
    appends_uncached false ops = true ->
    peq (moves cosQ sinQ (t_run cosQ sinQ t_new ops) p)
        (moves cosQ sinQ (t_run cosQ sinQ t_new (without_reads ops)) p).
Proof.
  intros cosQ sinQ ops p H.
  destruct (run_uncached cosQ sinQ ops t_new I H) as [Hs Hq].
  assert (H' : appends_uncached false (without_reads ops) = true) by apply uncached_without_reads.
  destruct (run_uncached cosQ sinQ (without_reads ops) t_new I H') as [Hs' Hq'].
  eapply peq_trans; [apply synced_moves, Hs|].
  eapply peq_trans; [|apply peq_sym, synced_moves, Hs'].
  rewrite Hq, Hq', ref_without_reads; apply peq_refl.
Qed.
Print Assumptions C12_reads_invisible_partial.

Theorem C12_history_is_item_list_partial :
  forall (cosQ sinQ : Q -> Q) ops p,
    cosQ 0 == 1 -> sinQ 0 == 0 -> Proper (Qeq ==> Qeq) cosQ -> Proper (Qeq ==> Qeq) sinQ ->
    appends_uncached false ops = true ->
    peq (moves cosQ sinQ (t_run cosQ sinQ t_new ops) p)
        (items_pt cosQ sinQ (fold_left ref_step ops [td_default]) p).
Proof.
  intros cosQ sinQ ops p Hc Hsn Pc Ps H.
  destruct (run_uncached cosQ sinQ ops t_new I H) as [Hs Hq].
  eapply peq_trans; [apply synced_moves, Hs|]; rewrite Hq; apply seqt_items; auto.
Qed.
Print Assumptions C12_history_is_item_list_partial.

(** Histories that first edit and then only read and append (the way placements are built): reads are invisible,
    cached or not. *)
Theorem C12_reads_invisible_after_edits :
  forall cosQ sinQ edits ops p,
    forallb (fun o => negb (is_append o)) edits = true ->
    forallb (fun o => negb (is_edit o)) ops = true ->
    (forall u, In (TAppend u) ops -> exists h, appends_uncached false h = true /\ u = t_run cosQ sinQ t_new h) ->
    peq (moves cosQ sinQ (t_run cosQ sinQ t_new (edits ++ ops)) p)
        (moves cosQ sinQ (t_run cosQ sinQ t_new (without_reads (edits ++ ops))) p).
Proof.
  intros cosQ sinQ edits ops p He Ho Hu.
  unfold without_reads; rewrite filter_app; unfold t_run; rewrite !fold_left_app.
  apply run_appends; auto.
  - intros q; apply C12_reads_invisible_partial.
    assert (G : forall c, appends_uncached c edits = true).
    { clear - He; induction edits as [|[|f|u] l IH]; simpl in *; auto; discriminate. }
    apply G.
  - intros u Hin; destruct (Hu u Hin) as (h & Hh & ->).
    apply (run_uncached cosQ sinQ h t_new I Hh).
Qed.
Print Assumptions C12_reads_invisible_after_edits.

(** concrete objects used below: a shift by (1,0), and the constant oracles cos = 1, sin = 0 *)
Definition setOff (o : Q * Q) : t_op := TEdit (fun d => mkTD (td_scale d) (td_rot d) (td_mirror d) o).
Definition setScale (s : Q) : t_op := TEdit (fun d => mkTD s (td_rot d) (td_mirror d) (td_off d)).
Notation one := (fun _ : Q => 1).
Notation zero := (fun _ : Q => 0).
Definition shift10 : transform := t_run one zero t_new [setOff (1, 0)].

Example C12_case :
  appends_uncached false [setScale 2; TAppend shift10; TRead; setOff (5, 7); TAppend shift10] = true /\
  moves one zero (t_run one zero t_new [setScale 2; TAppend shift10; TRead; setOff (5, 7); TAppend shift10]) (3, 4)
    = (12, 15).
Proof. split; vm_compute; reflexivity. Qed.

(** Finding: a read does change what the object later does – read, append, edit loses the appended part. *)
Theorem C12_reads_invisible_refuted :
  exists ops, ~ forall p,
    peq (moves one zero (t_run one zero t_new ops) p)
        (moves one zero (t_run one zero t_new (without_reads ops)) p).
Proof.
  exists [TRead; TAppend shift10; setScale 1]; intros H; specialize (H (0, 0)).
  destruct H as [H _]; vm_compute in H; discriminate.
Qed.
Print Assumptions C12_reads_invisible_refuted.

(** Finding: appending an object that itself was read and then appended to loses that part. *)
Theorem C12_append_composes_refuted :
  exists ops2 p,
    let t2 := t_run one zero t_new ops2 in
    ~ peq (moves one zero (append one zero t_new t2) p) (moves one zero t2 (moves one zero t_new p)).
Proof.
  exists [TRead; TAppend shift10], (0, 0); intros t2 [H _]; vm_compute in H; discriminate.
Qed.
Print Assumptions C12_append_composes_refuted.

(** Finding: appending an uncached transform to itself never terminates, unless it is the identity. *)
Theorem C12_self_append_diverges :
  forall t fuel,
    t_cache t = None -> existsb is_transformed (t_seq t) = true -> self_append fuel t = OutOfFuel.
Proof.
  intros t fuel E H; unfold self_append; rewrite E.
  rewrite self_append_diverges_loop; auto.
Qed.
Print Assumptions C12_self_append_diverges.

Example C12_self_append_case :
  t_cache shift10 = None /\ existsb is_transformed (t_seq shift10) = true /\
  forall fuel, self_append fuel shift10 = OutOfFuel.
Proof.
  split; [reflexivity|split; [reflexivity|]].
  intros; apply (C12_self_append_diverges shift10 fuel); reflexivity.
Qed.

(** Save and load: preserved for every history without an Append on a cached object. *)
Theorem C13_save_load_partial :
  forall cosQ sinQ ops p,
    appends_uncached false ops = true ->
    let t := t_run cosQ sinQ t_new ops in
    peq (moves cosQ sinQ (load (save t)) p) (moves cosQ sinQ t p).
Proof.
  intros cosQ sinQ ops p H t.
  destruct (run_uncached cosQ sinQ ops t_new I H) as [Hs _].
  apply peq_sym; exact (synced_moves cosQ sinQ t p Hs).
Qed.
Print Assumptions C13_save_load_partial.

(** The loaded object also behaves the same under every further history with that property. *)
Theorem C13_save_load_then_use_partial :
  forall cosQ sinQ ops more p,
    appends_uncached false (ops ++ more) = true ->
    let t := t_run cosQ sinQ t_new ops in
    peq (moves cosQ sinQ (t_run cosQ sinQ (load (save t)) more) p) (moves cosQ sinQ (t_run cosQ sinQ t more) p).
Proof.
  intros cosQ sinQ ops more p H t.
  assert (G : forall o c, appends_uncached c (o ++ more) = true ->
              appends_uncached c o = true /\ (appends_uncached false more = true \/ appends_uncached true more = true)).
  { clear; induction o as [|[|f|u] o IH]; simpl; intros c H.
    - split; auto; destruct c; auto.
    - apply IH in H; tauto.
    - apply IH in H; tauto.
    - apply andb_prop in H as [H1 H2]; apply IH in H2 as [H2 H3]; rewrite H1, H2; auto. }
  assert (W : forall o, appends_uncached true o = true -> appends_uncached false o = true).
  { induction o as [|[|f|u] o IH]; simpl; auto; discriminate. }
  destruct (G ops false H) as [H1 H2].
  assert (H3 : appends_uncached false more = true) by (destruct H2; auto).
  destruct (run_uncached cosQ sinQ ops t_new I H1) as [Hs Hq].
  destruct (run_uncached cosQ sinQ more (load (save t)) I H3) as [Hs1 Hq1].
  destruct (run_uncached cosQ sinQ (ops ++ more) t_new I H) as [Hs2 Hq2].
  assert (E : t_run cosQ sinQ t_new (ops ++ more) = t_run cosQ sinQ t more)
    by (unfold t_run, t; rewrite fold_left_app; reflexivity).
  rewrite <- E.
  eapply peq_trans; [apply synced_moves, Hs1|].
  eapply peq_trans; [|apply peq_sym, synced_moves, Hs2].
  rewrite Hq1, Hq2, fold_left_app; unfold save, t; cbn [load t_seq]; rewrite Hq; apply peq_refl.
Qed.
Print Assumptions C13_save_load_then_use_partial.

Example C13_case :
  appends_uncached false [setScale 2; TAppend shift10; TRead] = true /\
  moves one zero (load (save (t_run one zero t_new [setScale 2; TAppend shift10; TRead]))) (3, 4) = (7, 8).
Proof. split; vm_compute; reflexivity. Qed.

(** Finding: what was appended after a read is not saved. *)
Theorem C13_save_load_refuted :
  exists ops p,
    let t := t_run one zero t_new ops in
    ~ peq (moves one zero (load (save t)) p) (moves one zero t p).
Proof.
  exists [TRead; TAppend shift10], (0, 0); intros t [H _]; vm_compute in H; discriminate.
Qed.
Print Assumptions C13_save_load_refuted.
