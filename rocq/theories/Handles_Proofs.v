(** The heap of design objects and what the calls do to it. *)
From Verif Require Import Base Handles_Model Handles_Spec.
Open Scope nat_scope.
Open Scope list_scope.
Open Scope res_scope.

Lemma alive_get h i o : alive h i o <-> get h i = Some o.
Proof. unfold alive, get. destruct (nth_error h i) as [[o'|]|]; split; congruence. Qed.
Lemma get_lt h i o : get h i = Some o -> i < List.length h.
Proof. unfold get. intros H. apply nth_error_Some. now destruct (nth_error h i). Qed.
Lemma put_length h : forall i o, List.length (put h i o) = List.length h.
Proof. induction h as [|a h IH]; intros [|i] o; cbn [put List.length]; auto. Qed.
Lemma get_put h : forall i o j, get (put h i o) j = if Nat.eqb j i && Nat.ltb i (List.length h) then o else get h j.
Proof.
  unfold get. induction h as [|a h IH]; intros [|i] o [|j]; cbn [put nth_error List.length Nat.eqb andb]; try reflexivity.
  - now rewrite andb_false_r.
  - rewrite IH. reflexivity.
Qed.
Lemma get_set h i o o0 j : get h i = Some o0 -> get (set h i o) j = if Nat.eqb j i then Some o else get h j.
Proof. intros H. unfold set. rewrite get_put. apply get_lt in H. apply Nat.ltb_lt in H. now rewrite H, andb_true_r. Qed.
Lemma set_length h i o : List.length (set h i o) = List.length h.
Proof. apply put_length. Qed.
Lemma kill_length l : forall h, List.length (kill h l) = List.length h.
Proof. unfold kill. induction l as [|i l IH]; intros h; cbn [fold_left]; [reflexivity|]. now rewrite IH, put_length. Qed.
Lemma get_kill l : forall h j, get (kill h l) j = if existsb (Nat.eqb j) l then None else get h j.
Proof.
  unfold kill. induction l as [|i l IH]; intros h j; cbn [fold_left existsb]; [reflexivity|]. rewrite IH, get_put.
  destruct (existsb (Nat.eqb j) l); [now rewrite orb_true_r|]. rewrite orb_false_r.
  destruct (Nat.eqb_spec j i) as [->|]; [|reflexivity]. cbn [andb]. destruct (Nat.ltb_spec i (List.length h)); [reflexivity|].
  unfold get. assert (E : nth_error h i = None) by now apply nth_error_None. now rewrite E.
Qed.
Lemma existsb_in j l : existsb (Nat.eqb j) l = true <-> In j l.
Proof.
  rewrite existsb_exists. split; [intros [k [I E]]; apply Nat.eqb_eq in E; now subst k|intros I; exists j; split; [exact I|apply Nat.eqb_refl]].
Qed.
Lemma kill_in l h j : In j l -> get (kill h l) j = None.
Proof. intros I. rewrite get_kill. apply existsb_in in I. now rewrite I. Qed.
Lemma kill_out l h j : ~ In j l -> get (kill h l) j = get h j.
Proof. intros I. rewrite get_kill. destruct (existsb (Nat.eqb j) l) eqn:E; [apply existsb_in in E; contradiction|reflexivity]. Qed.
Lemma kill_some l h j o : get (kill h l) j = Some o -> ~ In j l /\ get h j = Some o.
Proof. rewrite get_kill. destruct (existsb (Nat.eqb j) l) eqn:E; [discriminate|]. intros H. split; [|exact H]. rewrite <- existsb_in. congruence. Qed.
Lemma get_snoc h r j : get (h ++ [r]) j = if Nat.eqb j (List.length h) then r else get h j.
Proof.
  unfold get. destruct (Nat.eqb_spec j (List.length h)) as [->|N].
  - now rewrite nth_error_app2, Nat.sub_diag by lia.
  - destruct (Nat.lt_ge_cases j (List.length h)); [now rewrite nth_error_app1|].
    rewrite (proj2 (nth_error_None (h ++ [r]) j)) by (rewrite app_length; cbn; lia).
    now rewrite (proj2 (nth_error_None h j)) by lia.
Qed.
Definition fresh_obj (k : kind) (n : string) (p : nat) (r : option nat) : obj := mkO k n (Some p) [] r None None.
Lemma get_add h p o k n r j : get h p = Some o -> get (add h p k n r) j =
  if Nat.eqb j (List.length h) then Some (fresh_obj k n p r)
  else if Nat.eqb j p then Some (with_kids o (o_kids o ++ [((k, n), List.length h)])) else get h j.
Proof.
  intros H. unfold add. rewrite H, get_snoc, set_length. destruct (Nat.eqb j (List.length h)); [reflexivity|].
  now rewrite (get_set _ _ _ _ _ H).
Qed.
Lemma add_length h p o k n r : get h p = Some o -> List.length (add h p k n r) = S (List.length h).
Proof. intros H. unfold add. rewrite H, app_length, set_length. cbn. lia. Qed.

Lemma kind_eqb_spec a b : reflect (a = b) (kind_eqb a b).
Proof. destruct a, b; constructor; congruence. Qed.
Lemma key_eqb_spec a b : reflect (a = b) (key_eqb a b).
Proof.
  unfold key_eqb. destruct a as [a n], b as [b m]. cbn [fst snd]. destruct (kind_eqb_spec a b) as [->|N]; cbn [andb].
  - destruct (String.eqb_spec n m) as [->|N]; constructor; congruence.
  - constructor; congruence.
Qed.
Lemma in_of_kind k l i : In i (of_kind k l) <-> exists n, In ((k, n), i) l.
Proof.
  unfold of_kind. rewrite in_map_iff. split.
  - intros [[[k' n] i'] [E I]]. apply filter_In in I. destruct I as [I K]. cbn [fst snd] in *.
    destruct (kind_eqb_spec k' k) as [->|]; [|discriminate]. subst i'. now exists n.
  - intros [n I]. exists ((k, n), i). split; [reflexivity|]. apply filter_In. split; [exact I|]. cbn [fst]. now destruct (kind_eqb_spec k k).
Qed.

(** ** The invariant *)
Definition within (k kp : kind) : Prop :=
  match k with KCell | KDef | KMap => kp = KDb | KComp | KInst => kp = KCell | KDb => False end.
Definition ref_kind (k : kind) : kind := match k with KComp => KDef | KInst => KCell | _ => KDb end.
Record inv (h : heap) (reg : list (string * nat)) : Prop := {
  iv_kids : forall p o k n c, get h p = Some o -> In ((k, n), c) (o_kids o) ->
    exists oc, get h c = Some oc /\ o_owner oc = Some p /\ o_kind oc = k /\ o_name oc = n;
  iv_owner : forall c oc p, get h c = Some oc -> o_owner oc = Some p ->
    exists o, get h p = Some o /\ In ((o_kind oc, o_name oc), c) (o_kids o) /\ within (o_kind oc) (o_kind o);
  iv_top : forall c oc, get h c = Some oc -> o_owner oc = None -> o_kind oc = KDb /\ In (o_name oc, c) reg;
  iv_reg : forall n d, In (n, d) reg -> exists o, get h d = Some o /\ o_owner o = None /\ o_name o = n;
  iv_names : NoDup (map fst reg);
  iv_ref : forall i o r or, get h i = Some o -> o_ref o = Some r -> get h r = Some or -> o_kind or = ref_kind (o_kind o);
  iv_ref_lt : forall i o r, get h i = Some o -> o_ref o = Some r -> r < List.length h;
  iv_map : forall i o r or, get h i = Some o -> o_map o = Some r -> get h r = Some or -> o_kind or = KMap;
  iv_map_lt : forall i o r, get h i = Some o -> o_map o = Some r -> r < List.length h }.

Lemma inv_init : inv [] [].
Proof. constructor; intros; try (destruct c; discriminate); try (destruct p; discriminate); try (destruct i; discriminate); try contradiction. constructor. Qed.

(** elementary changes other than making and removing databases *)
Inductive prim : heap -> heap -> Prop :=
| p_add h p o k n r : get h p = Some o -> within k (o_kind o) -> (k <> KInst -> find_kid o k n = None) ->
    (forall x, r = Some x -> x < List.length h /\ forall ox, get h x = Some ox -> o_kind ox = ref_kind k) ->
    prim h (add h p k n r)
| p_attr h i o m b : get h i = Some o ->
    (forall x, m = Some x -> x < List.length h /\ forall ox, get h x = Some ox -> o_kind ox = KMap) ->
    prim h (set h i (mkO (o_kind o) (o_name o) (o_owner o) (o_kids o) (o_ref o) m b))
| p_clear h c o : get h c = Some o -> o_kind o = KCell ->
    prim h (set (kill h (of_kind KInst (o_kids o))) c (with_kids o (filter (fun e => negb (kind_eqb (fst (fst e)) KInst)) (o_kids o)))).
Inductive prims : heap -> heap -> Prop :=
| ps_refl h : prims h h
| ps_step h h1 h2 : prim h h1 -> prims h1 h2 -> prims h h2.
Lemma prims_one h h' : prim h h' -> prims h h'.
Proof. intros P. eapply ps_step; [exact P|constructor]. Qed.
Lemma prims_trans h1 h2 h3 : prims h1 h2 -> prims h2 h3 -> prims h1 h3.
Proof. induction 1; [auto|]. intros Q. eapply ps_step; eauto. Qed.

Lemma insts_not_self h reg c o : inv h reg -> get h c = Some o -> o_kind o = KCell -> ~ In c (of_kind KInst (o_kids o)).
Proof.
  intros I G K N. apply in_of_kind in N. destruct N as [n N]. destruct (iv_kids _ _ I _ _ _ _ _ G N) as [oc [G' [_ [K' _]]]]. congruence.
Qed.
Lemma inst_of h reg c o i : inv h reg -> get h c = Some o -> In i (of_kind KInst (o_kids o)) ->
  exists oi, get h i = Some oi /\ o_kind oi = KInst /\ o_owner oi = Some c.
Proof.
  intros I G N. apply in_of_kind in N. destruct N as [n N]. destruct (iv_kids _ _ I _ _ _ _ _ G N) as [oc [G' [O [K' _]]]]. eauto.
Qed.
Lemma get_clear h reg c o j : inv h reg -> get h c = Some o -> o_kind o = KCell ->
  get (set (kill h (of_kind KInst (o_kids o))) c (with_kids o (filter (fun e => negb (kind_eqb (fst (fst e)) KInst)) (o_kids o)))) j =
  if Nat.eqb j c then Some (with_kids o (filter (fun e => negb (kind_eqb (fst (fst e)) KInst)) (o_kids o)))
  else if existsb (Nat.eqb j) (of_kind KInst (o_kids o)) then None else get h j.
Proof.
  intros I G K. rewrite (get_set _ _ _ o).
  - destruct (Nat.eqb j c); [reflexivity|]. apply get_kill.
  - rewrite kill_out; [exact G|]. eapply insts_not_self; eassumption.
Qed.

(** what an elementary change keeps *)
Definition kept (o o' : obj) : Prop :=
  o_kind o' = o_kind o /\ o_name o' = o_name o /\ o_owner o' = o_owner o /\ o_ref o' = o_ref o /\
  forall k n j, k <> KInst -> find_kid o k n = Some j -> find_kid o' k n = Some j.
Lemma kept_refl o : kept o o.
Proof. repeat split; auto. Qed.
Lemma kept_trans a b c : kept a b -> kept b c -> kept a c.
Proof. intros [K1 [N1 [O1 [R1 F1]]]] [K2 [N2 [O2 [R2 F2]]]]. repeat split; try congruence. intros. apply F2; auto. Qed.
Lemma find_filter k n (l : list ((kind * string) * nat)) j : k <> KInst -> alookup key_eqb (k, n) l = Some j ->
  alookup key_eqb (k, n) (filter (fun e => negb (kind_eqb (fst (fst e)) KInst)) l) = Some j.
Proof.
  intros K. induction l as [|[[k' n'] c] l IH]; cbn [alookup filter]; [auto|]. cbn [fst].
  destruct (key_eqb_spec (k, n) (k', n')) as [E|N].
  - intros [= ->]. injection E as <- <-. destruct (kind_eqb_spec k KInst); [contradiction|]. cbn [negb alookup].
    now destruct (key_eqb_spec (k, n) (k, n)).
  - intros H. destruct (kind_eqb k' KInst); cbn [negb]; [now apply IH|]. cbn [alookup]. destruct (key_eqb_spec (k, n) (k', n')); [contradiction|now apply IH].
Qed.
Lemma prim_keeps h h' reg i o : inv h reg -> prim h h' -> get h i = Some o -> o_kind o <> KInst ->
  exists o', get h' i = Some o' /\ kept o o'.
Proof.
  intros I P G K. destruct P as [h p op k n r Gp W FN R|h j oj m b Gj M|h c oc Gc Kc].
  - rewrite (get_add _ _ _ _ _ _ _ Gp). assert (L := get_lt _ _ _ G). destruct (Nat.eqb_spec i (List.length h)); [lia|].
    destruct (Nat.eqb_spec i p) as [->|]; [|exists o; split; [exact G|apply kept_refl]].
    rewrite G in Gp. injection Gp as ->. eexists. split; [reflexivity|]. repeat split. intros k' n' j' _ F. unfold find_kid, with_kids in *.
    cbn [o_kids]. now rewrite alookup_app, F.
  - rewrite (get_set _ _ _ _ _ Gj). destruct (Nat.eqb_spec i j) as [->|]; [|exists o; split; [exact G|apply kept_refl]].
    rewrite G in Gj. injection Gj as ->. eexists. split; [reflexivity|]. repeat split. auto.
  - rewrite (get_clear _ _ _ _ _ I Gc Kc). destruct (Nat.eqb_spec i c) as [->|].
    + rewrite G in Gc. injection Gc as ->. eexists. split; [reflexivity|]. repeat split. intros k n j Kn F. unfold find_kid, with_kids in *.
      cbn [o_kids]. now apply find_filter.
    + destruct (existsb (Nat.eqb i) _) eqn:E; [|exists o; split; [exact G|apply kept_refl]].
      apply existsb_in in E. destruct (inst_of _ _ _ _ _ I Gc E) as [oi [G' [K' _]]]. congruence.
Qed.
(** objects keep their kind, and there is nothing behind old numbers but the old objects *)
Lemma prim_back h h' reg i o' : inv h reg -> prim h h' -> get h' i = Some o' -> i < List.length h ->
  exists o, get h i = Some o /\ o_kind o' = o_kind o /\ o_name o' = o_name o /\ o_owner o' = o_owner o /\ o_ref o' = o_ref o.
Proof.
  intros I P G L. destruct P as [h p op k n r Gp W FN R|h j oj m b Gj M|h c oc Gc Kc].
  - rewrite (get_add _ _ _ _ _ _ _ Gp) in G. destruct (Nat.eqb_spec i (List.length h)); [lia|].
    destruct (Nat.eqb_spec i p) as [->|]; [injection G as <-; exists op|exists o']; repeat split; auto.
  - rewrite (get_set _ _ _ _ _ Gj) in G. destruct (Nat.eqb_spec i j) as [->|]; [injection G as <-; exists oj|exists o']; repeat split; auto.
  - rewrite (get_clear _ _ _ _ _ I Gc Kc) in G. destruct (Nat.eqb_spec i c) as [->|]; [injection G as <-; exists oc; repeat split; auto|].
    destruct (existsb (Nat.eqb i) _); [discriminate|]. exists o'. repeat split; auto.
Qed.
Lemma prim_length h h' : prim h h' -> List.length h <= List.length h'.
Proof.
  intros [h0 p o k n r G W FN R|h0 i o m b G M|h0 c o G K].
  - rewrite (add_length _ _ _ _ _ _ G). lia.
  - rewrite set_length. lia.
  - rewrite set_length, kill_length. lia.
Qed.

Lemma inv_prim h h' reg : inv h reg -> prim h h' -> inv h' reg.
Proof.
  intros I P. destruct P as [h p op k n r Gp W FN R|h j oj m b Gj M|h c oc Gc Kc].
  - assert (Lp := get_lt _ _ _ Gp). assert (GA := fun x => get_add h p op k n r x Gp). constructor.
    + intros q o k' n' x G K. rewrite GA in G. destruct (Nat.eqb_spec q (List.length h)) as [->|].
      { injection G as <-. contradiction. }
      rewrite GA. assert (X : In ((k', n'), x) (o_kids op) /\ q = p \/ ((k', n'), x) = ((k, n), List.length h) /\ q = p \/ q <> p /\ get h q = Some o).
      { destruct (Nat.eqb_spec q p) as [->|]; [|auto]. injection G as <-. unfold with_kids in K. cbn [o_kids] in K.
        apply in_app_or in K. destruct K as [K|[K|[]]]; auto. }
      destruct X as [[X ->]|[[X ->]|[X Gq]]].
      * destruct (iv_kids _ _ I _ _ _ _ _ Gp X) as [ox [Gx [O [Kx Nx]]]]. assert (Lx := get_lt _ _ _ Gx).
        destruct (Nat.eqb_spec x (List.length h)); [lia|]. destruct (Nat.eqb_spec x p) as [->|]; [|eauto].
        rewrite Gp in Gx. injection Gx as <-. eexists. split; [reflexivity|]. auto.
      * injection X as -> -> ->. rewrite Nat.eqb_refl. eexists. split; [reflexivity|]. auto.
      * destruct (iv_kids _ _ I _ _ _ _ _ Gq K) as [ox [Gx [O [Kx Nx]]]]. assert (Lx := get_lt _ _ _ Gx).
        destruct (Nat.eqb_spec x (List.length h)); [lia|]. destruct (Nat.eqb_spec x p) as [->|]; [|eauto].
        rewrite Gp in Gx. injection Gx as <-. eexists. split; [reflexivity|]. auto.
    + intros x ox q G O. rewrite GA in G. destruct (Nat.eqb_spec x (List.length h)) as [->|].
      { injection G as <-. injection O as <-. rewrite GA, Nat.eqb_refl. destruct (Nat.eqb_spec p (List.length h)); [lia|].
        eexists. split; [reflexivity|]. split; [|exact W]. apply in_or_app. right. left. reflexivity. }
      assert (X : exists ox0, get h x = Some ox0 /\ o_owner ox0 = Some q /\ o_kind ox0 = o_kind ox /\ o_name ox0 = o_name ox).
      { destruct (Nat.eqb_spec x p) as [->|]; [injection G as <-|]; eauto. }
      destruct X as [ox0 [G0 [O0 [K0 N0]]]]. destruct (iv_owner _ _ I _ _ _ G0 O0) as [oq [Gq [Kq Wq]]]. rewrite K0, N0 in Kq. rewrite K0 in Wq.
      rewrite GA. assert (Lq := get_lt _ _ _ Gq). destruct (Nat.eqb_spec q (List.length h)); [lia|].
      destruct (Nat.eqb_spec q p) as [->|]; [|eauto]. rewrite Gp in Gq. injection Gq as <-. eexists. split; [reflexivity|].
      split; [|exact Wq]. apply in_or_app. now left.
    + intros x ox G O. rewrite GA in G. destruct (Nat.eqb_spec x (List.length h)) as [->|].
      { injection G as <-. discriminate. }
      destruct (Nat.eqb_spec x p) as [->|]; [injection G as <-; exact (iv_top _ _ I _ _ Gp O)|exact (iv_top _ _ I _ _ G O)].
    + intros m d D. destruct (iv_reg _ _ I _ _ D) as [o [G [O N]]]. rewrite GA. assert (L := get_lt _ _ _ G).
      destruct (Nat.eqb_spec d (List.length h)); [lia|]. destruct (Nat.eqb_spec d p) as [->|]; [|eauto].
      rewrite Gp in G. injection G as <-. eexists. split; [reflexivity|]. auto.
    + exact (iv_names _ _ I).
    + intros i o x ox G Rf Gx. rewrite GA in G, Gx.
      assert (Lx : x < List.length h).
      { destruct (Nat.eqb_spec i (List.length h)) as [->|]; [injection G as <-; cbn in Rf; now destruct (R _ Rf)|].
        destruct (Nat.eqb_spec i p) as [->|]; [injection G as <-; cbn in Rf|]; eapply (iv_ref_lt _ _ I); eauto. }
      assert (X : exists ox0, get h x = Some ox0 /\ o_kind ox0 = o_kind ox).
      { destruct (Nat.eqb_spec x (List.length h)); [lia|]. destruct (Nat.eqb_spec x p) as [->|]; [injection Gx as <-|]; eauto. }
      destruct X as [ox0 [G0 <-]].
      destruct (Nat.eqb_spec i (List.length h)) as [->|]; [injection G as <-; cbn in Rf |- *; destruct (R _ Rf) as [_ RK]; exact (RK _ G0)|].
      destruct (Nat.eqb_spec i p) as [->|]; [injection G as <-; cbn in Rf |- *|]; eapply (iv_ref _ _ I); eauto.
    + intros i o x G Rf. rewrite (add_length _ _ _ _ _ _ Gp). rewrite GA in G.
      destruct (Nat.eqb_spec i (List.length h)) as [->|]; [injection G as <-; cbn in Rf; destruct (R _ Rf); lia|].
      destruct (Nat.eqb_spec i p) as [->|]; [injection G as <-; cbn in Rf|]; eapply (iv_ref_lt _ _ I) in Rf; eauto.
    + intros i o x ox G Rf Gx. rewrite GA in G, Gx.
      destruct (Nat.eqb_spec i (List.length h)) as [->|]; [injection G as <-; discriminate|].
      assert (X : exists i0 o0, get h i0 = Some o0 /\ o_map o0 = Some x).
      { destruct (Nat.eqb_spec i p) as [->|]; [injection G as <-|]; eauto. }
      destruct X as [i0 [o0 [G0 M0]]]. assert (L := iv_map_lt _ _ I _ _ _ G0 M0). destruct (Nat.eqb_spec x (List.length h)); [lia|].
      destruct (Nat.eqb_spec x p) as [->|]; [injection Gx as <-; cbn|]; eapply (iv_map _ _ I); eauto.
    + intros i o x G Rf. rewrite (add_length _ _ _ _ _ _ Gp). rewrite GA in G.
      destruct (Nat.eqb_spec i (List.length h)) as [->|]; [injection G as <-; discriminate|].
      destruct (Nat.eqb_spec i p) as [->|]; [injection G as <-; cbn in Rf|]; eapply (iv_map_lt _ _ I) in Rf; eauto.
  - set (o' := mkO _ _ _ _ _ _ _). assert (GA := fun x => get_set h j o' oj x Gj).
    assert (BK : forall x ox, get (set h j o') x = Some ox -> exists o0, get h x = Some o0 /\ o_kind ox = o_kind o0 /\
      o_name ox = o_name o0 /\ o_owner ox = o_owner o0 /\ o_kids ox = o_kids o0 /\ o_ref ox = o_ref o0).
    { intros x ox G. rewrite GA in G. destruct (Nat.eqb_spec x j) as [->|]; [injection G as <-; exists oj|exists ox]; repeat split; auto. }
    assert (FW : forall x ox, get h x = Some ox -> exists o0, get (set h j o') x = Some o0 /\ o_kind ox = o_kind o0 /\
      o_name ox = o_name o0 /\ o_owner ox = o_owner o0 /\ o_kids ox = o_kids o0 /\ o_ref ox = o_ref o0).
    { intros x ox G. rewrite GA. destruct (Nat.eqb_spec x j) as [->|]; [rewrite G in Gj; injection Gj as ->; exists o'|exists ox]; repeat split; auto. }
    constructor.
    + intros q o k' n' x G K. destruct (BK _ _ G) as [o0 [G0 [K0 [N0 [O0 [D0 R0]]]]]]. rewrite D0 in K.
      destruct (iv_kids _ _ I _ _ _ _ _ G0 K) as [ox [Gx [O [Kx Nx]]]]. destruct (FW _ _ Gx) as [o1 [G1 [K1 [N1 [O1 [D1 R1]]]]]].
      exists o1. repeat split; congruence.
    + intros x ox q G O. destruct (BK _ _ G) as [o0 [G0 [K0 [N0 [O0 [D0 R0]]]]]]. rewrite O0 in O.
      destruct (iv_owner _ _ I _ _ _ G0 O) as [oq [Gq [Kq Wq]]]. destruct (FW _ _ Gq) as [o1 [G1 [K1 [N1 [O1 [D1 R1]]]]]].
      exists o1. rewrite <- D1, <- K1, K0, N0. auto.
    + intros x ox G O. destruct (BK _ _ G) as [o0 [G0 [K0 [N0 [O0 [D0 R0]]]]]]. rewrite K0, N0. apply (iv_top _ _ I _ _ G0). congruence.
    + intros q d D. destruct (iv_reg _ _ I _ _ D) as [o [G [O N]]]. destruct (FW _ _ G) as [o1 [G1 [K1 [N1 [O1 [D1 R1]]]]]].
      exists o1. repeat split; congruence.
    + exact (iv_names _ _ I).
    + intros i o x ox G Rf Gx. destruct (BK _ _ G) as [o0 [G0 [K0 [N0 [O0 [D0 R0]]]]]]. destruct (BK _ _ Gx) as [o1 [G1 [K1 _]]].
      rewrite K0, K1. eapply (iv_ref _ _ I); [exact G0| |exact G1]. congruence.
    + intros i o x G Rf. rewrite set_length. destruct (BK _ _ G) as [o0 [G0 [K0 [N0 [O0 [D0 R0]]]]]]. eapply (iv_ref_lt _ _ I); [exact G0|congruence].
    + intros i o x ox G Rf Gx. destruct (BK _ _ Gx) as [o1 [G1 [K1 _]]]. rewrite K1. rewrite GA in G.
      destruct (Nat.eqb_spec i j) as [->|]; [injection G as <-; cbn in Rf; destruct (M _ Rf) as [_ MK]; exact (MK _ G1)|exact (iv_map _ _ I _ _ _ _ G Rf G1)].
    + intros i o x G Rf. rewrite set_length. rewrite GA in G.
      destruct (Nat.eqb_spec i j) as [->|]; [injection G as <-; cbn in Rf; now destruct (M _ Rf)|eapply (iv_map_lt _ _ I); eauto].
  - set (hc := set _ c _). assert (GA : forall x, get hc x = _) by (intros x; unfold hc; exact (get_clear _ _ _ _ x I Gc Kc)).
    set (oc' := with_kids oc _) in *. set (dead := of_kind KInst (o_kids oc)) in *.
    assert (BK : forall x ox, get hc x = Some ox -> exists o0, get h x = Some o0 /\ o_kind ox = o_kind o0 /\
      o_name ox = o_name o0 /\ o_owner ox = o_owner o0 /\ o_ref ox = o_ref o0 /\ o_map ox = o_map o0 /\
      (forall e, In e (o_kids ox) -> In e (o_kids o0)) /\ ~ In x dead).
    { intros x ox G. rewrite GA in G. destruct (Nat.eqb_spec x c) as [->|].
      - injection G as <-. exists oc. repeat split; auto; [|eapply insts_not_self; eassumption].
        unfold oc', with_kids. cbn [o_kids]. intros e Ie. apply filter_In in Ie. tauto.
      - destruct (existsb (Nat.eqb x) dead) eqn:E; [discriminate|]. exists ox. repeat split; auto. rewrite <- existsb_in. congruence. }
    assert (FW : forall x ox, get h x = Some ox -> ~ In x dead -> exists o0, get hc x = Some o0 /\ o_kind o0 = o_kind ox /\
      o_name o0 = o_name ox /\ o_owner o0 = o_owner ox /\ o_ref o0 = o_ref ox /\
      (forall e, In e (o_kids ox) -> fst (fst e) <> KInst \/ x <> c -> In e (o_kids o0))).
    { intros x ox G N. rewrite GA. destruct (Nat.eqb_spec x c) as [->|X].
      - rewrite Gc in G. injection G as <-. eexists. split; [reflexivity|]. repeat split. intros e Ie [Ke|Ke]; [|congruence].
        unfold oc', with_kids. cbn [o_kids]. apply filter_In. split; [exact Ie|]. now destruct (kind_eqb_spec (fst (fst e)) KInst).
      - destruct (existsb (Nat.eqb x) dead) eqn:E; [apply existsb_in in E; contradiction|]. exists ox. repeat split; auto. }
    assert (DK : forall x ox, In x dead -> get h x = Some ox -> o_kind ox = KInst /\ o_owner ox = Some c).
    { intros x ox D G. destruct (inst_of _ _ _ _ _ I Gc D) as [oi [Gi [Ki Oi]]]. rewrite G in Gi. injection Gi as <-. auto. }
    constructor.
    + intros q o k' n' x G K. destruct (BK _ _ G) as [o0 [G0 [K0 [N0 [O0 [R0 [M0 [D0 ND]]]]]]]].
      destruct (iv_kids _ _ I _ _ _ _ _ G0 (D0 _ K)) as [ox [Gx [O [Kx Nx]]]].
      assert (NX : ~ In x dead).
      { intros D. destruct (DK _ _ D Gx) as [KI OI]. rewrite O in OI. injection OI as ->.
        rewrite GA, Nat.eqb_refl in G. injection G as <-. unfold oc', with_kids in K. cbn [o_kids] in K. apply filter_In in K.
        destruct K as [_ K]. cbn [fst] in K. rewrite <- Kx, KI in K. discriminate. }
      destruct (FW _ _ Gx NX) as [o1 [G1 [K1 [N1 [O1 _]]]]]. exists o1. repeat split; congruence.
    + intros x ox q G O. destruct (BK _ _ G) as [o0 [G0 [K0 [N0 [O0 [R0 [M0 [D0 ND]]]]]]]]. rewrite O0 in O.
      destruct (iv_owner _ _ I _ _ _ G0 O) as [oq [Gq [Kq Wq]]].
      assert (NQ : ~ In q dead).
      { intros D. destruct (DK _ _ D Gq) as [KI _]. rewrite KI in Wq. destruct (o_kind o0); cbn in Wq; congruence. }
      destruct (FW _ _ Gq NQ) as [o1 [G1 [K1 [N1 [O1 [R1 D1]]]]]]. exists o1. rewrite K0, N0, K1. split; [exact G1|]. split; [|exact Wq].
      apply D1; [exact Kq|]. cbn [fst]. destruct (kind_eqb_spec (o_kind o0) KInst) as [KI|KI]; [|now left]. right. intros ->. apply ND.
      apply in_of_kind. exists (o_name o0). rewrite Gc in Gq. injection Gq as <-. now rewrite <- KI.
    + intros x ox G O. destruct (BK _ _ G) as [o0 [G0 [K0 [N0 [O0 _]]]]]. rewrite K0, N0. apply (iv_top _ _ I _ _ G0). congruence.
    + intros q d D. destruct (iv_reg _ _ I _ _ D) as [o [G [O N]]].
      assert (ND : ~ In d dead) by (intros X; destruct (DK _ _ X G); congruence).
      destruct (FW _ _ G ND) as [o1 [G1 [K1 [N1 [O1 _]]]]]. exists o1. repeat split; congruence.
    + exact (iv_names _ _ I).
    + intros i o x ox G Rf Gx. destruct (BK _ _ G) as [o0 [G0 [K0 [N0 [O0 [R0 _]]]]]]. destruct (BK _ _ Gx) as [o1 [G1 [K1 _]]].
      rewrite K0, K1. eapply (iv_ref _ _ I); [exact G0| |exact G1]. congruence.
    + intros i o x G Rf. destruct (BK _ _ G) as [o0 [G0 [K0 [N0 [O0 [R0 _]]]]]]. unfold hc. rewrite set_length, kill_length.
      eapply (iv_ref_lt _ _ I); [exact G0|congruence].
    + intros i o x ox G Rf Gx. destruct (BK _ _ G) as [o0 [G0 [K0 [N0 [O0 [R0 [M0 _]]]]]]]. destruct (BK _ _ Gx) as [o1 [G1 [K1 _]]].
      rewrite K1. eapply (iv_map _ _ I); [exact G0| |exact G1]. congruence.
    + intros i o x G Rf. destruct (BK _ _ G) as [o0 [G0 [K0 [N0 [O0 [R0 [M0 _]]]]]]]. unfold hc. rewrite set_length, kill_length.
      eapply (iv_map_lt _ _ I); [exact G0|congruence].
Qed.
Lemma inv_prims h h' reg : inv h reg -> prims h h' -> inv h' reg.
Proof. intros I P. revert I. induction P; auto. intros I. apply IHP. eapply inv_prim; eassumption. Qed.
Lemma prims_keep h h' reg i o : inv h reg -> prims h h' -> get h i = Some o -> o_kind o <> KInst ->
  exists o', get h' i = Some o' /\ kept o o'.
Proof.
  intros I P. revert I o. induction P as [h|h h1 h2 P1 P2 IH]; intros I o G K; [exists o; split; [exact G|apply kept_refl]|].
  destruct (prim_keeps _ _ _ _ _ I P1 G K) as [o1 [G1 K1]].
  destruct (IH (inv_prim _ _ _ I P1) o1 G1) as [o2 [G2 K2]]; [destruct K1 as [-> _]; exact K|].
  exists o2. split; [exact G2|eapply kept_trans; eassumption].
Qed.
Lemma prims_length h h' : prims h h' -> List.length h <= List.length h'.
Proof. induction 1 as [|h h1 h2 P1 P2 IH]; [lia|]. apply prim_length in P1. lia. Qed.
Lemma prims_back h h' reg i o' : inv h reg -> prims h h' -> get h' i = Some o' -> i < List.length h ->
  exists o, get h i = Some o /\ o_kind o' = o_kind o /\ o_name o' = o_name o /\ o_owner o' = o_owner o /\ o_ref o' = o_ref o.
Proof.
  intros I P. revert I. induction P as [h|h h1 h2 P1 P2 IH]; intros I G L; [exists o'; repeat split; auto|].
  destruct (IH (inv_prim _ _ _ I P1) G) as [o1 [G1 [K1 [N1 [O1 R1]]]]]; [apply prim_length in P1; lia|].
  destruct (prim_back _ _ _ _ _ I P1 G1 L) as [o [G0 [K0 [N0 [O0 R0]]]]]. exists o. repeat split; congruence.
Qed.

(** ** Belonging to a database *)
Lemma belongs_alive h d i : belongs h d i -> exists o, get h i = Some o.
Proof. intros [o A _|i' o p A _ _]; exists o; now apply alive_get. Qed.
Lemma belongs_fun h d d' i : belongs h d i -> belongs h d' i -> d = d'.
Proof.
  induction 1 as [o A O|i o p A O B IH]; intros B'; destruct B' as [o' A' O'|i' o' p' A' O' B'']; unfold alive in *; try congruence.
  apply IH. congruence.
Qed.
Lemma within_not_inst k kp : within k kp -> kp <> KInst.
Proof. destruct k; cbn; congruence. Qed.
Lemma belongs_keep h h' reg d i : inv h reg -> prims h h' -> belongs h d i -> (exists o, get h' i = Some o) -> belongs h' d i.
Proof.
  intros I P B. induction B as [o A O|i o p A O B IH]; intros [o' G']; apply alive_get in A.
  - destruct (iv_top _ _ I _ _ A O) as [K _]. destruct (prims_keep _ _ _ _ _ I P A) as [o1 [G1 [_ [_ [O1 _]]]]]; [congruence|].
    apply b_database with o1; [now apply alive_get|congruence].
  - destruct (iv_owner _ _ I _ _ _ A O) as [op [Gp [_ W]]]. apply within_not_inst in W.
    destruct (prims_keep _ _ _ _ _ I P Gp W) as [op' [Gp' _]].
    destruct (prims_back _ _ _ _ _ I P G' (get_lt _ _ _ A)) as [o0 [G0 [_ [_ [O0 _]]]]]. rewrite A in G0. injection G0 as <-.
    apply b_owned with o' p; [now apply alive_get|congruence|]. apply IH. eauto.
Qed.
Lemma has_root h reg i o : inv h reg -> get h i = Some o -> exists n d, In (n, d) reg /\ belongs h d i.
Proof.
  intros I G. destruct (o_owner o) as [p|] eqn:O.
  - destruct (iv_owner _ _ I _ _ _ G O) as [op [Gp [_ W]]]. destruct (o_owner op) as [q|] eqn:Op.
    + destruct (iv_owner _ _ I _ _ _ Gp Op) as [oq [Gq [_ Wq]]].
      assert (Oq : o_owner oq = None).
      { destruct (o_owner oq) as [z|] eqn:Oq; [|reflexivity]. destruct (iv_owner _ _ I _ _ _ Gq Oq) as [oz [_ [_ Wz]]].
        destruct (o_kind o), (o_kind op), (o_kind oq); cbn in *; try congruence; contradiction. }
      destruct (iv_top _ _ I _ _ Gq Oq) as [_ R]. exists (o_name oq), q. split; [exact R|].
      apply b_owned with o p; [now apply alive_get|exact O|]. apply b_owned with op q; [now apply alive_get|exact Op|].
      apply b_database with oq; [now apply alive_get|exact Oq].
    + destruct (iv_top _ _ I _ _ Gp Op) as [_ R]. exists (o_name op), p. split; [exact R|].
      apply b_owned with o p; [now apply alive_get|exact O|]. apply b_database with op; [now apply alive_get|exact Op].
  - destruct (iv_top _ _ I _ _ G O) as [_ R]. exists (o_name o), i. split; [exact R|]. apply b_database with o; [now apply alive_get|exact O].
Qed.
Lemma in_kids h i j : In j (kids h i) <-> exists o k n, get h i = Some o /\ In ((k, n), j) (o_kids o).
Proof.
  unfold kids. destruct (get h i) as [o|]; [|split; [intros []|intros [o [k [n [G _]]]]; discriminate]]. rewrite in_map_iff. split.
  - intros [[[k n] j'] [E D]]. cbn in E. subst j'. eauto 6.
  - intros [o' [k [n [G D]]]]. injection G as <-. exists ((k, n), j). auto.
Qed.
Lemma doomed_iff h reg n d i : inv h reg -> In (n, d) reg -> (In i (doomed h d) <-> belongs h d i).
Proof.
  intros I R. destruct (iv_reg _ _ I _ _ R) as [od [Gd [Od _]]].
  assert (Bd : belongs h d d) by (apply b_database with od; [now apply alive_get|exact Od]).
  assert (KID : forall p j, belongs h d p -> In j (kids h p) -> belongs h d j).
  { intros p j B D. apply in_kids in D. destruct D as [o [k [m [G D]]]]. destruct (iv_kids _ _ I _ _ _ _ _ G D) as [oj [Gj [Oj _]]].
    apply b_owned with oj p; [now apply alive_get|exact Oj|exact B]. }
  unfold doomed. split.
  - intros [<-|D]; [exact Bd|]. apply in_flat_map in D. destruct D as [c [C [<-|D]]]; [now apply KID with d|]. apply KID with c; [now apply KID with d|exact D].
  - intros B. destruct B as [o A O|i o p A O B]; [now left|]. right. apply alive_get in A.
    destruct (iv_owner _ _ I _ _ _ A O) as [op [Gp [Dp W]]]. apply in_flat_map.
    destruct B as [o' A' O'|p o' q A' O' B].
    + exists i. split; [|now left]. apply in_kids. eauto 6.
    + apply alive_get in A'. rewrite Gp in A'. injection A' as <-. destruct (iv_owner _ _ I _ _ _ Gp O') as [oq [Gq [Dq Wq]]].
      destruct B as [o2 A2 O2|q o2 z A2 O2 B]; apply alive_get in A2.
      * exists p. split; [apply in_kids; eauto 6|]. right. apply in_kids. eauto 6.
      * rewrite Gq in A2. injection A2 as <-. destruct (iv_owner _ _ I _ _ _ Gq O2) as [oz [Gz [Dz Wz]]].
        destruct (o_kind o), (o_kind op), (o_kind oq); cbn in *; try congruence; contradiction.
Qed.

(** ** Databases made and removed *)
Lemma inv_create h reg n : inv h reg -> alookup String.eqb n reg = None ->
  inv (h ++ [Some (mkO KDb n None [] None None None)]) (reg ++ [(n, List.length h)]).
Proof.
  intros I F. assert (GA := fun x => get_snoc h (Some (mkO KDb n None [] None None None)) x).
  assert (OLD : forall x o, get h x = Some o -> get (h ++ [Some (mkO KDb n None [] None None None)]) x = Some o).
  { intros x o G. rewrite GA. apply get_lt in G as L. destruct (Nat.eqb_spec x (List.length h)); [lia|exact G]. }
  assert (BK : forall x o, get (h ++ [Some (mkO KDb n None [] None None None)]) x = Some o ->
    get h x = Some o \/ x = List.length h /\ o = mkO KDb n None [] None None None).
  { intros x o G. rewrite GA in G. destruct (Nat.eqb_spec x (List.length h)); [right; split; congruence|now left]. }
  constructor.
  - intros p o k m c G D. destruct (BK _ _ G) as [G0|[-> ->]]; [|contradiction].
    destruct (iv_kids _ _ I _ _ _ _ _ G0 D) as [oc [Gc X]]. exists oc. split; [now apply OLD|exact X].
  - intros c oc p G O. destruct (BK _ _ G) as [G0|[-> ->]]; [|discriminate].
    destruct (iv_owner _ _ I _ _ _ G0 O) as [o [Gp X]]. exists o. split; [now apply OLD|exact X].
  - intros c oc G O. destruct (BK _ _ G) as [G0|[-> ->]].
    + destruct (iv_top _ _ I _ _ G0 O). split; [assumption|]. apply in_or_app. now left.
    + split; [reflexivity|]. apply in_or_app. right. now left.
  - intros m d D. apply in_app_or in D. destruct D as [D|[[= <- <-]|[]]].
    + destruct (iv_reg _ _ I _ _ D) as [o [G X]]. exists o. split; [now apply OLD|exact X].
    + eexists. rewrite GA, Nat.eqb_refl. split; [reflexivity|]. auto.
  - rewrite map_app. apply nodup_snoc; [exact (iv_names _ _ I)|]. apply (alookup_none _ (fun a b => String.eqb_spec a b)) in F. exact F.
  - intros i o r orr G R Gr. destruct (BK _ _ G) as [G0|[-> ->]]; [|discriminate]. assert (L := iv_ref_lt _ _ I _ _ _ G0 R).
    destruct (BK _ _ Gr) as [Gr0|[-> _]]; [|lia]. exact (iv_ref _ _ I _ _ _ _ G0 R Gr0).
  - intros i o r G R. destruct (BK _ _ G) as [G0|[-> ->]]; [|discriminate]. rewrite app_length. assert (L := iv_ref_lt _ _ I _ _ _ G0 R). cbn. lia.
  - intros i o r orr G R Gr. destruct (BK _ _ G) as [G0|[-> ->]]; [|discriminate]. assert (L := iv_map_lt _ _ I _ _ _ G0 R).
    destruct (BK _ _ Gr) as [Gr0|[-> _]]; [|lia]. exact (iv_map _ _ I _ _ _ _ G0 R Gr0).
  - intros i o r G R. destruct (BK _ _ G) as [G0|[-> ->]]; [|discriminate]. rewrite app_length. assert (L := iv_map_lt _ _ I _ _ _ G0 R). cbn. lia.
Qed.
Lemma in_erase n m d (reg : list (string * nat)) : In (m, d) (aerase String.eqb n reg) <-> In (m, d) reg /\ m <> n.
Proof.
  unfold aerase. rewrite filter_In. cbn [fst]. destruct (String.eqb_spec n m) as [->|N]; cbn [negb]; intuition congruence.
Qed.
Lemma nodup_value (reg : list (string * nat)) n d d' : NoDup (map fst reg) -> In (n, d) reg -> In (n, d') reg -> d = d'.
Proof.
  intros N A B. apply (in_alookup _ (fun a b => String.eqb_spec a b)) in A; [|exact N].
  apply (in_alookup _ (fun a b => String.eqb_spec a b)) in B; [|exact N]. congruence.
Qed.
Lemma inv_remove h reg n d : inv h reg -> In (n, d) reg -> inv (kill h (doomed h d)) (aerase String.eqb n reg).
Proof.
  intros I R. assert (DI := fun i => doomed_iff h reg n d i I R). constructor.
  - intros p o k m c G D. apply kill_some in G. destruct G as [ND G]. destruct (iv_kids _ _ I _ _ _ _ _ G D) as [oc [Gc [O X]]].
    exists oc. split; [|auto]. rewrite kill_out; [exact Gc|]. rewrite DI in ND |- *. intros B. apply ND.
    destruct B as [o' A O'|i' o' p' A O' B]; apply alive_get in A; congruence.
  - intros c oc p G O. apply kill_some in G. destruct G as [ND G]. destruct (iv_owner _ _ I _ _ _ G O) as [o [Gp X]].
    exists o. split; [|exact X]. rewrite kill_out; [exact Gp|]. rewrite DI in ND |- *. intros B. apply ND.
    apply b_owned with oc p; [now apply alive_get|exact O|exact B].
  - intros c oc G O. apply kill_some in G. destruct G as [ND G]. destruct (iv_top _ _ I _ _ G O) as [K M]. split; [exact K|].
    apply in_erase. split; [exact M|]. intros E. rewrite E in M. assert (c = d) by (eapply nodup_value; [exact (iv_names _ _ I)|exact M|exact R]).
    subst c. apply ND. left. reflexivity.
  - intros m e M. apply in_erase in M. destruct M as [M NE]. destruct (iv_reg _ _ I _ _ M) as [o [G [O N]]]. exists o. split; [|auto].
    rewrite kill_out; [exact G|]. rewrite DI. intros B. destruct B as [o' A O'|i' o' p' A O' B]; apply alive_get in A; [|congruence].
    destruct (iv_reg _ _ I _ _ R) as [od [Gd [_ Nd]]]. congruence.
  - assert (N := iv_names _ _ I). clear -N. unfold aerase. induction reg as [|[m e] reg IH]; cbn [filter map fst]; [constructor|].
    inversion N as [|? ? N1 N2]; subst. destruct (negb (String.eqb n m)); [|auto]. cbn [map fst]. constructor; [|auto].
    intros C. apply N1. apply in_map_iff in C. destruct C as [[m' e'] [E C]]. apply filter_In in C. apply in_map_iff. exists (m', e'). tauto.
  - intros i o r orr G Rf Gr. apply kill_some in G, Gr. destruct G as [_ G], Gr as [_ Gr]. exact (iv_ref _ _ I _ _ _ _ G Rf Gr).
  - intros i o r G Rf. apply kill_some in G. destruct G as [_ G]. rewrite kill_length. exact (iv_ref_lt _ _ I _ _ _ G Rf).
  - intros i o r orr G Rf Gr. apply kill_some in G, Gr. destruct G as [_ G], Gr as [_ Gr]. exact (iv_map _ _ I _ _ _ _ G Rf Gr).
  - intros i o r G Rf. apply kill_some in G. destruct G as [_ G]. rewrite kill_length. exact (iv_map_lt _ _ I _ _ _ G Rf).
Qed.
Lemma shutdown_dead h reg i : inv h reg -> get (kill h (flat_map (fun e => doomed h (snd e)) reg)) i = None.
Proof.
  intros I. destruct (get (kill h _) i) as [o|] eqn:G; [|reflexivity]. apply kill_some in G. destruct G as [ND G].
  destruct (has_root _ _ _ _ I G) as [n [d [R B]]]. exfalso. apply ND. apply in_flat_map. exists (n, d). split; [exact R|]. cbn [snd].
  apply (doomed_iff _ _ _ _ _ I R). exact B.
Qed.
Lemma inv_dead h : (forall i, get h i = None) -> inv h [].
Proof. intros D. constructor; intros; rewrite ?D in *; try discriminate; try contradiction. constructor. Qed.
Lemma belongs_remove h reg n d e i : inv h reg -> In (n, d) reg -> e <> d -> belongs h e i -> belongs (kill h (doomed h d)) e i.
Proof.
  intros I R NE B. assert (DI := fun j => doomed_iff h reg n d j I R).
  assert (NB : forall j, belongs h e j -> get (kill h (doomed h d)) j = get h j).
  { intros j Bj. apply kill_out. rewrite DI. intros Bd. apply NE. eapply belongs_fun; eassumption. }
  induction B as [o A O|i o p A O B IH].
  - apply b_database with o; [|exact O]. apply alive_get. rewrite NB; [now apply alive_get|]. now apply b_database with o.
  - apply b_owned with o p; [|exact O|exact IH]. apply alive_get. rewrite NB; [now apply alive_get|]. now apply b_owned with o p.
Qed.
Lemma belongs_snoc h r d i : belongs h d i -> belongs (h ++ [r]) d i.
Proof.
  intros B. assert (AL : forall j o, alive h j o -> alive (h ++ [r]) j o).
  { intros j o A. unfold alive in *. rewrite nth_error_app1; [exact A|]. apply nth_error_Some. congruence. }
  induction B as [o A O|i o p A O B IH]; [apply b_database with o; auto|apply b_owned with o p; auto].
Qed.

(** ** Flattening *)
Definition if_ok (P : heap -> Prop) (r : res heap) : Prop := match r with Ok h => P h | _ => True end.
Lemma fold_stuck {A} (F : heap -> A -> res heap) l : forall r, (forall h, r <> Ok h) -> fold_left (fun r i => h <- r ;; F h i) l r = r.
Proof.
  induction l as [|i l IH]; intros r N; cbn [fold_left]; [reflexivity|].
  assert (E : (h <- r ;; F h i) = r) by (destruct r; [exfalso; eapply N; reflexivity|reflexivity|reflexivity|reflexivity]).
  rewrite E. now apply IH.
Qed.
Lemma fold_if_ok {A} (F : heap -> A -> res heap) (P : heap -> Prop) l : forall h, P h ->
  (forall h i, P h -> In i l -> if_ok P (F h i)) -> if_ok P (fold_left (fun r i => h <- r ;; F h i) l (Ok h)).
Proof.
  induction l as [|i l IH]; intros h Ph H; cbn [fold_left]; [exact Ph|]. cbn [bind].
  assert (H1 := H h i Ph (or_introl eq_refl)). destruct (F h i) as [h1| | |] eqn:E.
  - apply IH; [exact H1|]. intros h2 j P2 J. apply H; [exact P2|now right].
  - rewrite fold_stuck; [exact Logic.I|congruence].
  - rewrite fold_stuck; [exact Logic.I|congruence].
  - rewrite fold_stuck; [exact Logic.I|congruence].
Qed.

Section Program.
  Context (prefixed : string -> string -> string) (unused : list (kind * string) -> string -> string).
  Notation clone_component := (clone_component prefixed unused).
  Notation flatten := (flatten prefixed unused).

  Definition is_cell (h : heap) (c : nat) : Prop := exists o, get h c = Some o /\ o_kind o = KCell.
  Lemma is_cell_keep h h' reg c : inv h reg -> prims h h' -> is_cell h c -> is_cell h' c.
  Proof.
    intros I P [o [G K]]. destruct (prims_keep _ _ _ _ _ I P G) as [o' [G' [K' _]]]; [congruence|]. exists o'. split; [exact G'|congruence].
  Qed.
  Lemma clone_prims inst c h k reg : inv h reg -> is_cell h c -> (forall o, get h k = Some o -> o_kind o = KComp) ->
    if_ok (prims h) (clone_component inst c h k).
  Proof.
    intros I [cell [Gc Kc]] KC. unfold Handles_Model.clone_component. destruct (get h k) as [comp|] eqn:Gk; [|exact Logic.I]. rewrite Gc.
    destruct (match o_map inst with Some m => _ | None => _ end) as [u| | |]; cbn [bind]; try exact Logic.I. cbn [if_ok].
    destruct (find_kid cell KComp _) eqn:F; [constructor|]. apply prims_one. apply p_add with cell; auto.
    intros x R. split; [exact (iv_ref_lt _ _ I _ _ _ Gk R)|]. intros ox Gx. rewrite (iv_ref _ _ I _ _ _ _ Gk R Gx).
    now rewrite (KC _ eq_refl).
  Qed.
  (** one instance *)
  Definition flatten_one (f c : nat) (h : heap) (i : nat) : res heap :=
    match get h i with
    | None => UB
    | Some inst =>
        match o_ref inst with
        | None => UB
        | Some d =>
            h' <- flatten f h d ;;
            if Nat.eqb c d then Ok h'
            else match get h' d with
                 | None => UB
                 | Some def => fold_left (fun r k => h <- r ;; clone_component inst c h k) (of_kind KComp (o_kids def)) (Ok h')
                 end
        end
    end.
  Lemma flatten_prims reg : forall f h c, inv h reg -> is_cell h c -> if_ok (prims h) (flatten f h c).
  Proof.
    induction f as [|f IH]; intros h c I C; [exact Logic.I|]. cbn [Handles_Model.flatten]. destruct C as [cell [Gc Kc]]. rewrite Gc.
    set (G := flatten_one f c). assert (H : if_ok (prims h) (fold_left (fun r i => h <- r ;; G h i) (of_kind KInst (o_kids cell)) (Ok h))).
    { apply fold_if_ok; [constructor|]. intros h1 i P1 Ii. assert (I1 := inv_prims _ _ _ I P1). unfold G, flatten_one.
      destruct (get h1 i) as [inst|] eqn:Gi; [|exact Logic.I]. destruct (inst_of _ _ _ _ _ I Gc Ii) as [i0 [Gi0 [Ki0 _]]].
      assert (Ki : o_kind inst = KInst).
      { destruct (prims_back _ _ _ _ _ I P1 Gi (get_lt _ _ _ Gi0)) as [o1 [G1 [K1 _]]]. congruence. }
      destruct (o_ref inst) as [d|] eqn:R; [|exact Logic.I].
      destruct (flatten f h1 d) as [h2| | |] eqn:F; cbn [bind]; try exact Logic.I.
      assert (D : is_cell h1 d).
      { destruct f as [|f]; [discriminate|]. cbn [Handles_Model.flatten] in F. destruct (get h1 d) as [od|] eqn:Gd; [|discriminate].
        exists od. split; [exact Gd|]. rewrite (iv_ref _ _ I1 _ _ _ _ Gi R Gd), Ki. reflexivity. }
      assert (P2 := IH h1 d I1 D). rewrite F in P2. cbn [if_ok] in P2. assert (I2 := inv_prims _ _ _ I1 P2).
      destruct (Nat.eqb c d); [cbn [if_ok]; eapply prims_trans; eassumption|].
      destruct (get h2 d) as [def|] eqn:Gd; [|exact Logic.I].
      assert (P02 := prims_trans _ _ _ P1 P2).
      assert (X : if_ok (fun h3 => prims h2 h3) (fold_left (fun r k => h <- r ;; clone_component inst c h k) (of_kind KComp (o_kids def)) (Ok h2))).
      { apply fold_if_ok; [constructor|]. intros h3 k P3 Ik. assert (I3 := inv_prims _ _ _ I2 P3).
        assert (X : if_ok (prims h3) (clone_component inst c h3 k)).
        { apply clone_prims with reg; [exact I3|eapply is_cell_keep; [exact I|eapply prims_trans; eassumption|exists cell; auto]|].
          intros o Go. apply in_of_kind in Ik. destruct Ik as [n Ik]. destruct (iv_kids _ _ I2 _ _ _ _ _ Gd Ik) as [ok [Gk [_ [Kk _]]]].
          destruct (prims_keep _ _ _ _ _ I2 P3 Gk) as [o3 [G3 [K3 _]]]; congruence. }
        destruct (clone_component inst c h3 k); try exact Logic.I. cbn [if_ok] in *. eapply prims_trans; eassumption. }
      destruct (fold_left _ _ _) as [h3| | |]; try exact Logic.I. cbn [if_ok] in *. eapply prims_trans; eassumption. }
    change (if_ok (prims h) (h1 <- fold_left (fun r i => h <- r ;; G h i) (of_kind KInst (o_kids cell)) (Ok h) ;;
      match get h1 c with
      | None => UB
      | Some cell1 =>
          Ok (set (kill h1 (of_kind KInst (o_kids cell1))) c
                  (with_kids cell1 (filter (fun e => negb (kind_eqb (fst (fst e)) KInst)) (o_kids cell1))))
      end)).
    destruct (fold_left _ _ _) as [h1| | |]; cbn [bind]; try exact Logic.I. cbn [if_ok] in H.
    destruct (get h1 c) as [cell1|] eqn:G1; [|exact Logic.I]. cbn [if_ok]. eapply prims_trans; [exact H|]. apply prims_one. apply p_clear; [exact G1|].
    destruct (is_cell_keep _ _ _ c I H) as [o [Go Ko]]; [exists cell; auto|]. congruence.
  Qed.

  (** ** The calls *)
  Definition class_kind (c : pyclass) : kind :=
    match c with PDb => KDb | PCell | PLayout => KCell | PDef => KDef | PMap => KMap | PComp => KComp | PInst => KInst end.
  (** handles are of the class of their object *)
  Definition vinv (h : heap) (vs : list val) : Prop :=
    forall x c i, nth_error vs x = Some (VObj c i) -> i < List.length h /\ forall o, get h i = Some o -> o_kind o = class_kind c.
  Definition good (s : state) : Prop := inv (s_heap s) (s_reg s) /\ vinv (s_heap s) (s_vars s).
  Notation step := (step prefixed unused).
  Notation run := (run prefixed unused).

  Lemma pointer_some s c x i : pointer s c x = Ok (Some i) -> nth_error (s_vars s) x = Some (VObj c i).
  Proof.
    unfold pointer. destruct (nth_error (s_vars s) x) as [[| c' j | | |]|]; try discriminate.
    destruct (pyclass_eqb c c') eqn:E; [|discriminate]. intros [= ->]. destruct c, c'; try discriminate; reflexivity.
  Qed.
  Lemma self_holds s c x i : self s c x = Ok i -> nth_error (s_vars s) x = Some (VObj c i).
  Proof.
    unfold self. destruct (pointer s c x) as [[j|]| | |] eqn:E; cbn [bind]; try discriminate. intros [= <-]. now apply pointer_some.
  Qed.
  Lemma use_ok s i o : use s i = Ok o -> get (s_heap s) i = Some o.
  Proof. unfold use. destruct (get (s_heap s) i); congruence. Qed.
  Lemma vinv_snoc h vs v : vinv h vs -> (forall c i, v = VObj c i -> i < List.length h /\ forall o, get h i = Some o -> o_kind o = class_kind c) ->
    vinv h (vs ++ [v]).
  Proof.
    intros V H x c i N. destruct (Nat.lt_ge_cases x (List.length vs)) as [L|L].
    - rewrite nth_error_app1 in N by exact L. eapply V, N.
    - rewrite nth_error_app2 in N by exact L. destruct (x - List.length vs) as [|m]; [|destruct m; discriminate]. injection N as ->. now apply H.
  Qed.
  Lemma vinv_prims h h' reg vs : inv h reg -> prims h h' -> vinv h vs -> vinv h' vs.
  Proof.
    intros I P V x c i N. destruct (V _ _ _ N) as [L K]. split; [apply prims_length in P; lia|]. intros o G.
    destruct (prims_back _ _ _ _ _ I P G L) as [o1 [G1 [K1 _]]]. rewrite K1. now apply K.
  Qed.

  (** what a call does to the objects *)
  Inductive change (s : state) : heap -> list (string * nat) -> stmt -> Prop :=
  | ch_prims h t : prims (s_heap s) h -> change s h (s_reg s) t
  | ch_create n : alookup String.eqb n (s_reg s) = None ->
      change s (s_heap s ++ [Some (mkO KDb n None [] None None None)]) (s_reg s ++ [(n, List.length (s_heap s))]) (CreateDb n)
  | ch_remove n d : In (n, d) (s_reg s) -> change s (kill (s_heap s) (doomed (s_heap s) d)) (aerase String.eqb n (s_reg s)) (RemoveDb n)
  | ch_shut : change s (kill (s_heap s) (flat_map (fun e => doomed (s_heap s) (snd e)) (s_reg s))) [] ShutDown.
  Lemma acount_none n (reg : list (string * nat)) : acount String.eqb n reg = false -> alookup String.eqb n reg = None.
  Proof. unfold acount. now destruct (alookup String.eqb n reg). Qed.
  Definition sound_val (h : heap) (v : val) : Prop :=
    forall c i, v = VObj c i -> i < List.length h /\ forall o, get h i = Some o -> o_kind o = class_kind c.
  Definition outcome (s : state) (t : stmt) (s' : state) : Prop :=
    exists v, s_vars s' = s_vars s ++ [v] /\ change s (s_heap s') (s_reg s') t /\ sound_val (s_heap s') v.
  Lemma out_ret s t v s' : ret s v = Ok s' -> sound_val (s_heap s) v -> outcome s t s'.
  Proof. intros [= <-] V. exists v. split; [reflexivity|]. cbn [s_heap s_reg]. split; [apply ch_prims; constructor|exact V]. Qed.
  Lemma out_retH s t h v s' : retH s h v = Ok s' -> prims (s_heap s) h -> sound_val h v -> outcome s t s'.
  Proof. intros [= <-] P V. exists v. split; [reflexivity|]. cbn [s_heap s_reg]. split; [now apply ch_prims|exact V]. Qed.
  Lemma sound_none h : sound_val h VNone. Proof. intros c i E. discriminate. Qed.
  Lemma sound_kid h reg p o k n c : inv h reg -> get h p = Some o -> class_kind c = k -> sound_val h (maybe c (find_kid o k n)).
  Proof.
    intros I G K c' i E. destruct (find_kid o k n) as [j|] eqn:F; [|discriminate]. injection E as <- ->.
    apply (alookup_in _ key_eqb_spec) in F. destruct (iv_kids _ _ I _ _ _ _ _ G F) as [oc [Gc [_ [Kc _]]]].
    split; [exact (get_lt _ _ _ Gc)|]. intros o' G'. congruence.
  Qed.
  Lemma sound_new h p o k n r c : get h p = Some o -> class_kind c = k -> sound_val (add h p k n r) (VObj c (List.length h)).
  Proof.
    intros G K c' i [= <- <-]. rewrite (add_length _ _ _ _ _ _ G). split; [lia|]. intros o' G'.
    rewrite (get_add _ _ _ _ _ _ _ G), Nat.eqb_refl in G'. injection G' as <-. cbn. auto.
  Qed.

  Ltac pull H E := match type of H with (bind ?e _) = _ => destruct e eqn:E; cbn [bind] in H; try discriminate H end.
  Lemma step_outcome fuel s t s' : good s -> step fuel s t = Ok s' -> outcome s t s'.
  Proof.
    intros [I V] H. destruct t; cbn [Handles_Model.step] in H.
    - destruct (acount String.eqb n (s_reg s)) eqn:C; [eapply out_ret; [exact H|apply sound_none]|].
      assert (C2 := C). apply acount_none in C. injection H as <-. eexists. split; [reflexivity|]. cbn [s_heap s_reg].
      unfold aemplace. rewrite C2. split; [now apply ch_create|]. intros c i [= <- <-]. rewrite app_length. cbn [List.length]. split; [lia|].
      intros o G. rewrite get_snoc, Nat.eqb_refl in G. injection G as <-. reflexivity.
    - eapply out_ret; [exact H|]. intros c i E. destruct (alookup String.eqb n (s_reg s)) as [d|] eqn:A; [|discriminate]. injection E as <- ->.
      apply (alookup_in _ (fun a b => String.eqb_spec a b)) in A. destruct (iv_reg _ _ I _ _ A) as [o [G [O _]]].
      split; [exact (get_lt _ _ _ G)|]. intros o' G'. rewrite G in G'. injection G' as <-. apply (iv_top _ _ I _ _ G O).
    - destruct (alookup String.eqb n (s_reg s)) as [d|] eqn:A; [|eapply out_ret; [exact H|]; intros c i E; discriminate].
      injection H as <-. eexists. split; [reflexivity|]. cbn [s_heap s_reg]. split; [|intros c i E; discriminate].
      apply ch_remove. now apply (alookup_in _ (fun a b => String.eqb_spec a b)) in A.
    - injection H as <-. eexists. split; [reflexivity|]. cbn [s_heap s_reg]. split; [apply ch_shut|apply sound_none].
    - pull H P. destruct a as [d|], (kind_of c) as [k|] eqn:K; try discriminate H; [|eapply out_ret; [exact H|apply sound_none]].
      apply pointer_some in P. pull H U. apply use_ok in U. destruct (V _ _ _ P) as [_ KD]. specialize (KD _ U).
      destruct (find_kid a k n) eqn:F; [eapply out_ret; [exact H|apply sound_none]|].
      eapply out_retH; [exact H| |].
      + apply prims_one. apply p_add with a; auto; [|discriminate]. destruct c; try discriminate K; injection K as <-; exact KD.
      + eapply sound_new; [exact U|]. destruct c; try discriminate K; now injection K as <-.
    - destruct c; try discriminate H.
      + pull H P. apply self_holds in P. pull H U. apply use_ok in U. eapply out_ret; [exact H|]. eapply sound_kid; [exact I|exact U|reflexivity].
      + pull H P. destruct a as [d|]; [|eapply out_ret; [exact H|apply sound_none]]. pull H U. apply use_ok in U.
        eapply out_ret; [exact H|]. eapply sound_kid; [exact I|exact U|reflexivity].
    - pull H P. apply self_holds in P. pull H U. apply use_ok in U. eapply out_ret; [exact H|]. destruct (V _ _ _ P) as [L K].
      intros c i [= <- <-]. auto.
    - pull H P. apply self_holds in P. pull H U. apply use_ok in U. destruct (V _ _ _ P) as [L K].
      assert (FP := flatten_prims _ fuel _ a I (ex_intro _ _ (conj U (K _ U)))).
      pull H F. cbn [if_ok] in FP. eapply out_retH; [exact H|exact FP|]. intros c i [= <- <-]. split; [apply prims_length in FP; lia|].
      intros o G. destruct (prims_back _ _ _ _ _ I FP G L) as [o1 [G1 [K1 _]]]. rewrite K1. now apply K.
    - pull H P. apply self_holds in P. pull H U. apply use_ok in U. destruct (V _ _ _ P) as [L K].
      assert (FP := flatten_prims _ fuel _ a I (ex_intro _ _ (conj U (K _ U)))).
      pull H F. cbn [if_ok] in FP. eapply out_retH; [exact H|exact FP|apply sound_none].
    - pull H P. apply self_holds in P. pull H U. apply use_ok in U. destruct (V _ _ _ P) as [L K]. eapply out_ret; [exact H|].
      intros c i E. destruct (o_owner a0) as [p|] eqn:O; [|discriminate]. injection E as <- ->.
      destruct (iv_owner _ _ I _ _ _ U O) as [o [G [_ W]]]. split; [exact (get_lt _ _ _ G)|]. intros o' G'. rewrite (K _ U) in W.
      cbn in W. cbn. congruence.
    - destruct (named c); [|discriminate]. pull H P. pull H U. eapply out_ret; [exact H|]. intros c' i E. discriminate.
    - pull H P. apply self_holds in P. pull H U. apply use_ok in U. eapply out_retH; [exact H| |apply sound_none].
      apply prims_one. unfold with_bound. apply p_attr; [exact U|]. intros m M. split; [exact (iv_map_lt _ _ I _ _ _ U M)|].
      intros ox Gx. exact (iv_map _ _ I _ _ _ _ U M Gx).
    - pull H P. pull H Q. destruct a as [c|]; [|eapply out_ret; [exact H|apply sound_none]]. apply pointer_some in P. pull H U. apply use_ok in U.
      destruct (V _ _ _ P) as [L K]. destruct (find_kid a KComp n) eqn:F; [eapply out_ret; [exact H|apply sound_none]|].
      eapply out_retH; [exact H| |eapply sound_new; [exact U|reflexivity]]. apply prims_one. apply p_add with a; auto; [exact (K _ U)|].
      intros r ->. apply pointer_some in Q. destruct (V _ _ _ Q) as [Lr Kr]. split; [exact Lr|]. intros ox Gx. now rewrite (Kr _ Gx).
    - pull H P. pull H U. apply use_ok in U. eapply out_ret; [exact H|]. eapply sound_kid; [exact I|exact U|reflexivity].
    - pull H P. pull H U. destruct (o_ref a0) as [d|]; [|discriminate]. pull H U2. eapply out_ret; [exact H|]. intros c i E.
      destruct (o_bound a1); discriminate.
    - pull H P. pull H Q. destruct a as [c|]; [|eapply out_ret; [exact H|apply sound_none]]. apply pointer_some in P. pull H U. apply use_ok in U.
      destruct (V _ _ _ P) as [L K].
      eapply out_retH; [exact H| |eapply sound_new; [exact U|reflexivity]]. apply prims_one. apply p_add with a; auto; [exact (K _ U)|congruence|].
      intros r ->. apply pointer_some in Q. destruct (V _ _ _ Q) as [Lr Kr]. split; [exact Lr|]. intros ox Gx. now rewrite (Kr _ Gx).
    - pull H P. apply self_holds in P. pull H Q. pull H U. apply use_ok in U. eapply out_retH; [exact H| |apply sound_none].
      apply prims_one. unfold with_map. apply p_attr; [exact U|]. intros m ->. apply pointer_some in Q. destruct (V _ _ _ Q) as [Lr Kr].
      split; [exact Lr|]. intros ox Gx. now rewrite (Kr _ Gx).
  Qed.
  Lemma change_good s h reg t : good s -> change s h reg t -> inv h reg /\ vinv h (s_vars s).
  Proof.
    intros [I V] C. destruct C as [h t P|n F|n d R|].
    - split; [eapply inv_prims|eapply vinv_prims]; eassumption.
    - split; [now apply inv_create|]. intros x c i N. destruct (V _ _ _ N) as [L K]. rewrite app_length. split; [cbn; lia|]. intros o G.
      rewrite get_snoc in G. destruct (Nat.eqb_spec i (List.length (s_heap s))); [lia|]. now apply K.
    - split; [eapply inv_remove; eassumption|]. intros x c i N. destruct (V _ _ _ N) as [L K]. rewrite kill_length. split; [exact L|].
      intros o G. apply kill_some in G. now apply K.
    - split; [apply inv_dead; intros i; now apply shutdown_dead|]. intros x c i N. destruct (V _ _ _ N) as [L K]. rewrite kill_length. split; [exact L|].
      intros o G. apply kill_some in G. now apply K.
  Qed.
  Lemma step_good fuel s t s' : good s -> step fuel s t = Ok s' -> good s'.
  Proof.
    intros Gd H. destruct (step_outcome _ _ _ _ Gd H) as [v [EV [C S]]]. destruct (change_good _ _ _ _ Gd C) as [I V].
    split; [exact I|]. rewrite EV. now apply vinv_snoc.
  Qed.
  Lemma run_good fuel ts : forall s s', good s -> run fuel s ts = Ok s' -> good s'.
  Proof.
    induction ts as [|t ts IH]; cbn [Handles_Model.run]; intros s s' Gd H; [congruence|].
    pull H E. eapply IH; [|exact H]. eapply step_good; eassumption.
  Qed.
  Lemma good_init : good init.
  Proof. split; [apply inv_init|]. intros x c i N. destruct x; discriminate. Qed.

  (** ** References within one database *)
  Record tinv (h : heap) : Prop := {
    t_ref : forall i o, get h i = Some o -> o_kind o = KComp \/ o_kind o = KInst ->
      exists r d, o_ref o = Some r /\ belongs h d i /\ belongs h d r;
    t_map : forall i o m, get h i = Some o -> o_map o = Some m -> exists d, belongs h d i /\ belongs h d m }.
  Lemma belongs_kept_ref h h' reg i o r d : inv h reg -> prims h h' -> get h i = Some o -> o_kind o = KComp \/ o_kind o = KInst ->
    o_ref o = Some r -> belongs h d r -> belongs h' d r.
  Proof.
    intros I P G K R B. eapply belongs_keep; [exact I|exact P|exact B|]. destruct (belongs_alive _ _ _ B) as [or Gr].
    destruct (prims_keep _ _ _ _ _ I P Gr) as [o' [G' _]]; [|eauto]. rewrite (iv_ref _ _ I _ _ _ _ G R Gr). destruct K as [-> | ->]; discriminate.
  Qed.
  Lemma belongs_kept_map h h' reg i o r d : inv h reg -> prims h h' -> get h i = Some o -> o_map o = Some r -> belongs h d r -> belongs h' d r.
  Proof.
    intros I P G R B. eapply belongs_keep; [exact I|exact P|exact B|]. destruct (belongs_alive _ _ _ B) as [or Gr].
    destruct (prims_keep _ _ _ _ _ I P Gr) as [o' [G' _]]; [|eauto]. rewrite (iv_map _ _ I _ _ _ _ G R Gr). discriminate.
  Qed.
  Lemma tinv_prim h h' reg : inv h reg -> tinv h -> prim h h' ->
    (forall i o, get h' i = Some o -> List.length h <= i -> o_kind o = KComp \/ o_kind o = KInst ->
       exists r d, o_ref o = Some r /\ belongs h' d i /\ belongs h' d r) ->
    (forall i o m, get h' i = Some o -> o_map o = Some m ->
       (exists o0, get h i = Some o0 /\ o_map o0 = Some m) \/ exists d, belongs h' d i /\ belongs h' d m) -> tinv h'.
  Proof.
    intros I T P NEW MAP. assert (PS := prims_one _ _ P). constructor.
    - intros i o G K. destruct (Nat.lt_ge_cases i (List.length h)) as [L|L]; [|eauto].
      destruct (prims_back _ _ _ _ _ I PS G L) as [o0 [G0 [K0 [_ [_ R0]]]]]. rewrite K0 in K. destruct (t_ref _ T _ _ G0 K) as [r [d [R [Bi Br]]]].
      exists r, d. split; [congruence|]. split; [eapply belongs_keep; eauto|eapply belongs_kept_ref; eauto].
    - intros i o m G M. destruct (MAP _ _ _ G M) as [[o0 [G0 M0]]|X]; [|exact X]. destruct (t_map _ T _ _ _ G0 M0) as [d [Bi Bm]].
      exists d. split; [eapply belongs_keep; eauto|eapply belongs_kept_map; eauto].
  Qed.
  Lemma belongs_new h reg p o k n r d : inv h reg -> prim h (add h p k n r) -> get h p = Some o -> belongs h d p ->
    belongs (add h p k n r) d (List.length h).
  Proof.
    intros I P G B. apply b_owned with (mkO k n (Some p) [] r None None) p.
    - apply alive_get. now rewrite (get_add _ _ _ _ _ _ _ G), Nat.eqb_refl.
    - reflexivity.
    - eapply belongs_keep; [exact I|apply prims_one; exact P|exact B|]. rewrite (get_add _ _ _ _ _ _ _ G), Nat.eqb_refl.
      destruct (p =? List.length h); eauto.
  Qed.
  Lemma tinv_add h reg p o k n r : inv h reg -> tinv h -> get h p = Some o -> prim h (add h p k n r) ->
    (k = KComp \/ k = KInst -> exists x d, r = Some x /\ belongs h d p /\ belongs h d x /\ forall ox, get h x = Some ox -> o_kind ox <> KInst) ->
    tinv (add h p k n r).
  Proof.
    intros I T G P C. eapply tinv_prim; [exact I|exact T|exact P| |].
    - intros i oi Gi L K. rewrite (get_add _ _ _ _ _ _ _ G) in Gi. assert (Lp := get_lt _ _ _ G). destruct (Nat.eqb_spec i (List.length h)) as [->|].
      + injection Gi as <-. destruct (C K) as [x [d [E [Bp [Bx KX]]]]]. exists x, d. split; [exact E|].
        split; [eapply belongs_new; eauto|]. eapply belongs_keep; [exact I|apply prims_one; exact P|exact Bx|].
        destruct (belongs_alive _ _ _ Bx) as [ox Gx]. destruct (prims_keep _ _ _ _ _ I (prims_one _ _ P) Gx) as [o' [G' _]]; eauto.
      + destruct (Nat.eqb_spec i p) as [->|]; [lia|]. apply get_lt in Gi. lia.
    - intros i oi m Gi M. left. rewrite (get_add _ _ _ _ _ _ _ G) in Gi. destruct (Nat.eqb_spec i (List.length h)) as [->|].
      + injection Gi as <-. discriminate.
      + destruct (Nat.eqb_spec i p) as [->|]; [injection Gi as <-; exists o; auto|eauto].
  Qed.
  Lemma tinv_clear h reg c o : inv h reg -> tinv h -> get h c = Some o -> o_kind o = KCell ->
    tinv (set (kill h (of_kind KInst (o_kids o))) c (with_kids o (filter (fun e => negb (kind_eqb (fst (fst e)) KInst)) (o_kids o)))).
  Proof.
    intros I T G K. eapply tinv_prim; [exact I|exact T|now apply p_clear| |].
    - intros i oi Gi L _. rewrite (get_clear _ _ _ _ _ I G K) in Gi. assert (Lc := get_lt _ _ _ G).
      destruct (Nat.eqb_spec i c) as [->|]; [lia|]. destruct (existsb _ _); [discriminate|]. apply get_lt in Gi. lia.
    - intros i oi m Gi M. left. rewrite (get_clear _ _ _ _ _ I G K) in Gi. destruct (Nat.eqb_spec i c) as [->|].
      + injection Gi as <-. exists o. auto.
      + destruct (existsb _ _); [discriminate|]. eauto.
  Qed.
  Lemma belongs_owner h d i o p : belongs h d i -> get h i = Some o -> o_owner o = Some p -> belongs h d p.
  Proof.
    intros B G O. destruct B as [o' A O'|i o' p' A O' B].
    - apply alive_get in A. congruence.
    - apply alive_get in A. rewrite G in A. injection A as <-. rewrite O in O'. now injection O' as <-.
  Qed.
  Lemma belongs_kid h reg d p o k n i : inv h reg -> belongs h d p -> get h p = Some o -> In ((k, n), i) (o_kids o) -> belongs h d i.
  Proof.
    intros I B G D. destruct (iv_kids _ _ I _ _ _ _ _ G D) as [oi [Gi [O _]]]. apply b_owned with oi p; [now apply alive_get|exact O|exact B].
  Qed.
  Lemma clone_tinv inst c h k reg d : inv h reg -> tinv h -> is_cell h c -> (forall o, get h k = Some o -> o_kind o = KComp) ->
    belongs h d c -> belongs h d k -> if_ok tinv (clone_component inst c h k).
  Proof.
    intros I T C KC Bc Bk. assert (P := clone_prims inst c h k reg I C KC). destruct C as [cell [Gc Kc]]. unfold Handles_Model.clone_component in *.
    destruct (get h k) as [comp|] eqn:Gk; [|exact Logic.I]. rewrite Gc in *.
    destruct (match o_map inst with Some m => _ | None => _ end) as [u| | |]; cbn [bind] in *; try exact Logic.I. cbn [if_ok] in *.
    set (nm := unused _ _) in *.
    destruct (find_kid cell KComp nm) eqn:F; [exact T|]. destruct (t_ref _ T _ _ Gk (or_introl (KC _ eq_refl))) as [r [d' [R [Bk' Br]]]].
    assert (d' = d) by exact (belongs_fun _ _ _ _ Bk' Bk). subst d'.
    assert (KX : forall ox, get h r = Some ox -> o_kind ox = KDef) by (intros ox Gx; rewrite (iv_ref _ _ I _ _ _ _ Gk R Gx), (KC _ eq_refl); reflexivity).
    eapply tinv_add; [exact I|exact T|exact Gc| |].
    - apply p_add with cell; auto. intros x E. rewrite R in E. injection E as <-. split; [exact (iv_ref_lt _ _ I _ _ _ Gk R)|]. exact KX.
    - intros _. exists r, d. repeat (split; [assumption|]). intros ox Gx. rewrite (KX _ Gx). discriminate.
  Qed.
  Lemma kid_comp h h3 reg d def k : inv h reg -> prims h h3 -> get h d = Some def -> In k (of_kind KComp (o_kids def)) ->
    exists o, get h3 k = Some o /\ o_kind o = KComp.
  Proof.
    intros I2 P3 Gd Ik. apply in_of_kind in Ik. destruct Ik as [n Ik]. destruct (iv_kids _ _ I2 _ _ _ _ _ Gd Ik) as [ok [Gk [_ [Kk _]]]].
    destruct (prims_keep _ _ _ _ _ I2 P3 Gk) as [o3 [G3 [K3 _]]]; [congruence|]. exists o3. split; [exact G3|congruence].
  Qed.
  Lemma flatten_tinv reg : forall f h c, inv h reg -> tinv h -> is_cell h c -> if_ok tinv (flatten f h c).
  Proof.
    induction f as [|f IH]; intros h c I T C; [exact Logic.I|].
    cbn [Handles_Model.flatten] in *. destruct C as [cell [Gc Kc]]. rewrite Gc in *.
    assert (H : if_ok (fun h' => prims h h' /\ tinv h') (fold_left (fun r i => h <- r ;; flatten_one f c h i) (of_kind KInst (o_kids cell)) (Ok h))).
    { apply fold_if_ok; [split; [constructor|exact T]|]. intros h1 i [P1 T1] Ii. assert (I1 := inv_prims _ _ _ I P1). unfold flatten_one.
      destruct (get h1 i) as [inst|] eqn:Gi; [|exact Logic.I]. destruct (inst_of _ _ _ _ _ I Gc Ii) as [i0 [Gi0 [Ki0 Oi0]]].
      destruct (prims_back _ _ _ _ _ I P1 Gi (get_lt _ _ _ Gi0)) as [o1 [G1 [K1 [_ [O1 _]]]]]. rewrite Gi0 in G1. injection G1 as <-.
      assert (Ki : o_kind inst = KInst) by congruence. assert (Oi : o_owner inst = Some c) by congruence.
      destruct (t_ref _ T1 _ _ Gi (or_intror Ki)) as [d [D [R [Bi Bd]]]]. rewrite R. assert (Bc := belongs_owner _ _ _ _ _ Bi Gi Oi).
      destruct (belongs_alive _ _ _ Bd) as [od Gd1].
      assert (Dc : is_cell h1 d) by (exists od; split; [exact Gd1|rewrite (iv_ref _ _ I1 _ _ _ _ Gi R Gd1), Ki; reflexivity]).
      assert (P2 := flatten_prims reg f h1 d I1 Dc). assert (T2 := IH h1 d I1 T1 Dc).
      destruct (flatten f h1 d) as [h2| | |] eqn:F; cbn [bind]; try exact Logic.I. cbn [if_ok] in P2, T2.
      assert (I2 := inv_prims _ _ _ I1 P2). assert (P02 := prims_trans _ _ _ P1 P2).
      destruct (Nat.eqb c d); [cbn [if_ok]; auto|].
      destruct (get h2 d) as [def|] eqn:Gd; [|exact Logic.I].
      assert (Bd2 : belongs h2 D d) by (eapply belongs_keep; [exact I1|exact P2|exact Bd|eauto]).
      assert (C2 : is_cell h2 c) by (eapply is_cell_keep; [exact I|exact P02|exists cell; auto]).
      assert (Bc2 : belongs h2 D c) by (eapply belongs_keep; [exact I1|exact P2|exact Bc|destruct C2 as [o2 [G2 _]]; eauto]).
      assert (X : if_ok (fun h3 => prims h2 h3 /\ tinv h3) (fold_left (fun r k => h <- r ;; clone_component inst c h k) (of_kind KComp (o_kids def)) (Ok h2))).
      { apply fold_if_ok; [split; [constructor|exact T2]|]. intros h3 k [P3 T3] Ik. assert (I3 := inv_prims _ _ _ I2 P3).
        destruct (kid_comp _ _ _ _ _ _ I2 P3 Gd Ik) as [o3 [G3 K3]].
        assert (C3 : is_cell h3 c) by exact (is_cell_keep _ _ _ _ I2 P3 C2).
        assert (KC : forall o, get h3 k = Some o -> o_kind o = KComp) by (intros o Go; congruence).
        assert (Bk3 : belongs h3 D k).
        { apply in_of_kind in Ik. destruct Ik as [n Ik]. eapply belongs_keep; [exact I2|exact P3|exact (belongs_kid _ _ _ _ _ _ _ _ I2 Bd2 Gd Ik)|exists o3; exact G3]. }
        assert (Bc3 : belongs h3 D c) by (eapply belongs_keep; [exact I2|exact P3|exact Bc2|destruct C3 as [o4 [G4 _]]; eauto]).
        assert (Q3 := clone_prims inst c h3 k reg I3 C3 KC).
        assert (Q4 := clone_tinv inst c h3 k reg D I3 T3 C3 KC Bc3 Bk3).
        destruct (clone_component inst c h3 k); try exact Logic.I. cbn [if_ok] in *. split; [eapply prims_trans; eassumption|exact Q4]. }
      destruct (fold_left _ _ _) as [h3| | |]; try exact Logic.I. cbn [if_ok] in *. destruct X as [X1 X2]. split; [eapply prims_trans; eassumption|exact X2]. }
    change (if_ok tinv (h1 <- fold_left (fun r i => h <- r ;; flatten_one f c h i) (of_kind KInst (o_kids cell)) (Ok h) ;;
      match get h1 c with
      | None => UB
      | Some cell1 =>
          Ok (set (kill h1 (of_kind KInst (o_kids cell1))) c
                  (with_kids cell1 (filter (fun e => negb (kind_eqb (fst (fst e)) KInst)) (o_kids cell1))))
      end)).
    destruct (fold_left _ _ _) as [h1| | |]; cbn [bind]; try exact Logic.I. cbn [if_ok] in H. destruct H as [P1 T1].
    destruct (get h1 c) as [cell1|] eqn:G1; [|exact Logic.I]. cbn [if_ok]. eapply tinv_clear; [eapply inv_prims; eassumption|exact T1|exact G1|].
    destruct (is_cell_keep _ _ _ c I P1) as [o [Go Ko]]; [exists cell; auto|]. congruence.
  Qed.

  (** ** Flattening without accident *)
  Definition ranked (rank : nat -> nat) (h : heap) : Prop :=
    forall i o c d, get h i = Some o -> o_kind o = KInst -> o_owner o = Some c -> o_ref o = Some d -> rank d < rank c.
  Definition frame (rank : nat -> nat) (c : nat) (h h' : heap) : Prop :=
    (forall i o c', get h i = Some o -> o_kind o = KInst -> o_owner o = Some c' -> rank c < rank c' -> get h' i = Some o) /\
    (forall i o', get h' i = Some o' -> o_kind o' = KInst ->
       exists o, get h i = Some o /\ o_kind o = KInst /\ o_owner o = o_owner o' /\ o_ref o = o_ref o').
  Definition fine_or (Q : Prop) (P : heap -> Prop) (r : res heap) : Prop :=
    match r with Ok h => P h | OutOfFuel => Q | _ => False end.
  Lemma fold_fine_or {A} (F : heap -> A -> res heap) (Q : Prop) (P : heap -> Prop) l : forall h, P h ->
    (forall h i, P h -> In i l -> fine_or Q P (F h i)) -> fine_or Q P (fold_left (fun r i => h <- r ;; F h i) l (Ok h)).
  Proof.
    induction l as [|i l IH]; intros h Ph H; cbn [fold_left]; [exact Ph|]. cbn [bind].
    assert (H1 := H h i Ph (or_introl eq_refl)). destruct (F h i) as [h1| | |] eqn:E; try contradiction.
    - apply IH; [exact H1|]. intros h2 j P2 J. apply H; [exact P2|now right].
    - rewrite fold_stuck; [exact H1|congruence].
  Qed.
  Lemma ranked_keep rank h h' c : frame rank c h h' -> ranked rank h -> ranked rank h'.
  Proof.
    intros [_ FN] R i o c' d G K O Rf. destruct (FN _ _ G K) as [o0 [G0 [K0 [O0 R0]]]]. eapply R; [exact G0| | |]; congruence.
  Qed.
  Lemma frame_refl rank c h : frame rank c h h.
  Proof. split; eauto 8. Qed.
  Lemma frame_trans rank c c1 h h1 h2 : rank c1 <= rank c -> frame rank c h h1 -> frame rank c1 h1 h2 -> frame rank c h h2.
  Proof.
    intros L [A1 B1] [A2 B2]. split.
    - intros i o c' G K O R. eapply A2; [eapply A1; eassumption|exact K|exact O|lia].
    - intros i o G K. destruct (B2 _ _ G K) as [o1 [G1 [K1 [O1 R1]]]]. destruct (B1 _ _ G1 K1) as [o0 [G0 [K0 [O0 R0]]]].
      exists o0. repeat split; congruence.
  Qed.
  Lemma frame_add rank c h p o n r : get h p = Some o -> o_kind o = KCell -> frame rank c h (add h p KComp n r).
  Proof.
    intros Gp Kp. split.
    - intros i oi c' G K O _. rewrite (get_add _ _ _ _ _ _ _ Gp). assert (L := get_lt _ _ _ G). destruct (Nat.eqb_spec i (List.length h)); [lia|].
      destruct (Nat.eqb_spec i p) as [->|]; [congruence|exact G].
    - intros i oi G K. rewrite (get_add _ _ _ _ _ _ _ Gp) in G. destruct (Nat.eqb_spec i (List.length h)); [injection G as <-; discriminate|].
      destruct (Nat.eqb_spec i p) as [->|]; [injection G as <-; cbn in K; congruence|eauto 8].
  Qed.
  Lemma frame_clear rank h reg c o : inv h reg -> get h c = Some o -> o_kind o = KCell ->
    frame rank c h (set (kill h (of_kind KInst (o_kids o))) c (with_kids o (filter (fun e => negb (kind_eqb (fst (fst e)) KInst)) (o_kids o)))).
  Proof.
    intros I Gc Kc. split.
    - intros i oi c' G K O R. rewrite (get_clear _ _ _ _ _ I Gc Kc). destruct (Nat.eqb_spec i c) as [->|]; [congruence|].
      destruct (existsb (Nat.eqb i) _) eqn:E; [|exact G]. apply existsb_in in E. destruct (inst_of _ _ _ _ _ I Gc E) as [oi' [G' [_ O']]].
      assert (c' = c) by congruence. subst c'. lia.
    - intros i oi G K. rewrite (get_clear _ _ _ _ _ I Gc Kc) in G. destruct (Nat.eqb_spec i c) as [->|]; [injection G as <-; cbn in K; congruence|].
      destruct (existsb (Nat.eqb i) _); [discriminate|]. eauto 8.
  Qed.
  Lemma clone_safe Q rank inst c h k : is_cell h c -> (exists o, get h k = Some o) ->
    (forall m, o_map inst = Some m -> exists o, get h m = Some o) -> fine_or Q (frame rank c h) (clone_component inst c h k).
  Proof.
    intros [cell [Gc Kc]] [comp Gk] M. unfold Handles_Model.clone_component. rewrite Gk, Gc. destruct (o_map inst) as [m|].
    - destruct (M m eq_refl) as [om Gm]. rewrite Gm. cbn [bind fine_or]. destruct (find_kid _ _ _); [apply frame_refl|eapply frame_add; eassumption].
    - cbn [bind fine_or]. destruct (find_kid _ _ _); [apply frame_refl|eapply frame_add; eassumption].
  Qed.
  Lemma flatten_safe rank reg : forall f h c, inv h reg -> tinv h -> ranked rank h -> is_cell h c ->
    fine_or (f <= rank c) (frame rank c h) (flatten f h c).
  Proof.
    induction f as [|f IH]; intros h c I T RK C; [cbn; lia|].
    cbn [Handles_Model.flatten] in *. destruct C as [cell [Gc Kc]]. rewrite Gc in *.
    assert (H : fine_or (Datatypes.S f <= rank c) (fun h' => (prims h h' /\ tinv h') /\ frame rank c h h' /\ forall i o, get h i = Some o -> o_kind o = KInst -> o_owner o = Some c -> get h' i = Some o)
      (fold_left (fun r i => h <- r ;; flatten_one f c h i) (of_kind KInst (o_kids cell)) (Ok h))).
    { apply fold_fine_or; [split; [split; [constructor|exact T]|split; [apply frame_refl|auto]]|]. intros h1 i [[P1 T1] [F1 S1]] Ii. assert (I1 := inv_prims _ _ _ I P1).
      assert (RK1 := ranked_keep _ _ _ _ F1 RK). unfold flatten_one.
      destruct (inst_of _ _ _ _ _ I Gc Ii) as [inst [Gi0 [Ki Oi]]]. assert (Gi := S1 _ _ Gi0 Ki Oi). rewrite Gi.
      destruct (t_ref _ T1 _ _ Gi (or_intror Ki)) as [d [D [R [Bi Bd]]]]. rewrite R. assert (Bc := belongs_owner _ _ _ _ _ Bi Gi Oi).
      destruct (belongs_alive _ _ _ Bd) as [od Gd1]. assert (RD := RK1 _ _ _ _ Gi Ki Oi R).
      assert (Dc : is_cell h1 d) by (exists od; split; [exact Gd1|rewrite (iv_ref _ _ I1 _ _ _ _ Gi R Gd1), Ki; reflexivity]).
      assert (P2 := flatten_prims reg f h1 d I1 Dc). assert (T2 := flatten_tinv reg f h1 d I1 T1 Dc). assert (F2 := IH h1 d I1 T1 RK1 Dc).
      destruct (flatten f h1 d) as [h2| | |] eqn:F; cbn [bind fine_or] in *; try contradiction; [|lia]. cbn [if_ok] in P2, T2.
      assert (I2 := inv_prims _ _ _ I1 P2). assert (P02 := prims_trans _ _ _ P1 P2).
      assert (F02 : frame rank c h h2) by (eapply frame_trans; [|exact F1|exact F2]; lia).
      assert (S2 : forall i o, get h i = Some o -> o_kind o = KInst -> o_owner o = Some c -> get h2 i = Some o).
      { intros j oj Gj Kj Oj. destruct F2 as [F2 _]. eapply F2; [now apply S1|exact Kj|exact Oj|lia]. }
      destruct (Nat.eqb_spec c d) as [->|NCD]; [lia|].
      destruct (is_cell_keep _ _ _ _ I1 P2 Dc) as [def [Gd Kd]]. rewrite Gd.
      assert (C2 : is_cell h2 c) by (eapply is_cell_keep; [exact I|exact P02|exists cell; auto]).
      assert (Bd2 : belongs h2 D d) by (eapply belongs_keep; [exact I1|exact P2|exact Bd|eauto]).
      assert (Bc2 : belongs h2 D c) by (eapply belongs_keep; [exact I1|exact P2|exact Bc|destruct C2 as [o2 [G2 _]]; eauto]).
      assert (X : fine_or (Datatypes.S f <= rank c) (fun h3 => (prims h2 h3 /\ tinv h3) /\ frame rank c h2 h3 /\ forall i o, get h2 i = Some o -> o_kind o = KInst -> o_owner o = Some c -> get h3 i = Some o)
        (fold_left (fun r k => h <- r ;; clone_component inst c h k) (of_kind KComp (o_kids def)) (Ok h2))).
      { apply fold_fine_or; [split; [split; [constructor|exact T2]|split; [apply frame_refl|auto]]|]. intros h3 k [[P3 T3] [F3 S3]] Ik. assert (I3 := inv_prims _ _ _ I2 P3).
        destruct (kid_comp _ _ _ _ _ _ I2 P3 Gd Ik) as [o3 [G3 K3]].
        assert (C3 : is_cell h3 c) by exact (is_cell_keep _ _ _ _ I2 P3 C2).
        assert (KC : forall o, get h3 k = Some o -> o_kind o = KComp) by (intros o Go; congruence).
        assert (Bk3 : belongs h3 D k).
        { apply in_of_kind in Ik. destruct Ik as [n Ik]. eapply belongs_keep; [exact I2|exact P3|exact (belongs_kid _ _ _ _ _ _ _ _ I2 Bd2 Gd Ik)|exists o3; exact G3]. }
        assert (Bc3 : belongs h3 D c) by (eapply belongs_keep; [exact I2|exact P3|exact Bc2|destruct C3 as [o4 [G4 _]]; eauto]).
        assert (Q3 := clone_prims inst c h3 k reg I3 C3 KC).
        assert (Q4 := clone_tinv inst c h3 k reg D I3 T3 C3 KC Bc3 Bk3).
        assert (GI3 : get h3 i = Some inst) by (apply S3; auto).
        assert (Q5 : fine_or (Datatypes.S f <= rank c) (fun h' => frame rank c h3 h' /\ forall i o, get h3 i = Some o -> o_kind o = KInst -> o_owner o = Some c -> get h' i = Some o) (clone_component inst c h3 k)).
        { assert (MM : forall m, o_map inst = Some m -> exists o, get h3 m = Some o).
          { intros m M. destruct (t_map _ T3 _ _ _ GI3 M) as [d' [_ Bm]]. eapply belongs_alive. exact Bm. }
          assert (A1 := clone_safe (Datatypes.S f <= rank c) rank inst c h3 k C3 (ex_intro _ _ G3) MM).
          assert (A2 := clone_safe (Datatypes.S f <= rank c) (fun x => if Nat.eqb x c then 1 else 0) inst c h3 k C3 (ex_intro _ _ G3) MM).
          destruct (clone_component inst c h3 k) as [h4| | |] eqn:CE; cbn [fine_or] in *; try contradiction; [|exact A1]. split; [exact A1|].
          intros j oj Gj Kj Oj. unfold Handles_Model.clone_component in CE. rewrite G3 in CE. destruct C3 as [cl [Gcl Kcl]]. rewrite Gcl in CE.
          destruct (match o_map inst with Some m => _ | None => _ end) as [u| | |]; cbn [bind] in CE; try discriminate CE. injection CE as <-.
          destruct (find_kid _ _ _); [exact Gj|]. rewrite (get_add _ _ _ _ _ _ _ Gcl). assert (L := get_lt _ _ _ Gj).
          destruct (Nat.eqb_spec j (List.length h3)); [lia|]. destruct (Nat.eqb_spec j c) as [->|]; [congruence|exact Gj]. }
        destruct (clone_component inst c h3 k); cbn [fine_or if_ok] in *; try contradiction; [|exact Q5]. destruct Q5 as [Q5 Q6].
        split; [split; [eapply prims_trans; eassumption|exact Q4]|]. split; [eapply frame_trans; [|exact F3|exact Q5]; lia|auto]. }
      destruct (fold_left _ _ _) as [h3| | |]; cbn [fine_or] in *; try contradiction; [|exact X]. destruct X as [[X1 X2] [X3 X4]].
      split; [split; [eapply prims_trans; eassumption|exact X2]|]. split; [eapply frame_trans; [|exact F02|exact X3]; lia|auto]. }
    change (fine_or (Datatypes.S f <= rank c) (frame rank c h) (h1 <- fold_left (fun r i => h <- r ;; flatten_one f c h i) (of_kind KInst (o_kids cell)) (Ok h) ;;
      match get h1 c with
      | None => UB
      | Some cell1 =>
          Ok (set (kill h1 (of_kind KInst (o_kids cell1))) c
                  (with_kids cell1 (filter (fun e => negb (kind_eqb (fst (fst e)) KInst)) (o_kids cell1))))
      end)).
    destruct (fold_left _ _ _) as [h1| | |]; cbn [bind fine_or] in *; try contradiction; [|exact H]. destruct H as [[P1 T1] [F1 _]].
    destruct (is_cell_keep _ _ _ c I P1) as [o [Go Ko]]; [exists cell; auto|]. rewrite Go. cbn [fine_or].
    eapply frame_trans; [apply Nat.le_refl|exact F1|]. eapply frame_clear; [eapply inv_prims; eassumption|exact Go|exact Ko].
  Qed.

  Lemma ok_eq (a b : state) : Ok a = Ok b -> b = a.
  Proof. congruence. Qed.
  Ltac got H := apply ok_eq in H; rewrite H; clear H; cbn [s_heap].
  Ltac same H := unfold ret in H; injection H as <-; assumption.
  Lemma step_tinv fuel s t s' : good s -> tinv (s_heap s) -> local s t -> step fuel s t = Ok s' -> tinv (s_heap s').
  Proof.
    intros [I V] T LO H. destruct t; cbn [Handles_Model.step] in H.
    - destruct (acount String.eqb n (s_reg s)) eqn:C; [same H|]. injection H as <-. cbn [s_heap]. constructor.
      + intros i o G K. rewrite get_snoc in G. destruct (Nat.eqb_spec i (List.length (s_heap s))).
        * injection G as <-. destruct K; discriminate.
        * destruct (t_ref _ T _ _ G K) as [r [d [R [A B]]]]. exists r, d. split; [exact R|]. split; now apply belongs_snoc.
      + intros i o m G M. rewrite get_snoc in G. destruct (Nat.eqb_spec i (List.length (s_heap s))).
        * injection G as <-. discriminate.
        * destruct (t_map _ T _ _ _ G M) as [d [A B]]. exists d. split; now apply belongs_snoc.
    - same H.
    - destruct (alookup String.eqb n (s_reg s)) as [d|] eqn:A; [|same H]. got H.
      apply (alookup_in _ (fun a b => String.eqb_spec a b)) in A. assert (DI := fun i => doomed_iff _ _ _ _ i I A). constructor.
      + intros i o G K. apply kill_some in G. destruct G as [ND G]. destruct (t_ref _ T _ _ G K) as [r [e [R [Bi Br]]]]. exists r, e.
        split; [exact R|]. rewrite DI in ND. assert (e <> d) by congruence. split; eapply belongs_remove; eassumption.
      + intros i o m G M. apply kill_some in G. destruct G as [ND G]. destruct (t_map _ T _ _ _ G M) as [e [Bi Br]]. exists e.
        rewrite DI in ND. assert (e <> d) by congruence. split; eapply belongs_remove; eassumption.
    - got H. constructor; [intros i o G|intros i o m G]; rewrite (shutdown_dead _ _ _ I) in G; discriminate.
    - pull H P. destruct a as [d|], (kind_of c) as [k|] eqn:K; try discriminate H; [|same H].
      apply pointer_some in P. pull H U. apply use_ok in U. destruct (V _ _ _ P) as [_ KD]. specialize (KD _ U).
      destruct (find_kid a k n) eqn:F; [same H|]. injection H as <-. cbn [s_heap]. eapply tinv_add; [exact I|exact T|exact U| |].
      + apply p_add with a; auto; [|discriminate]. destruct c; try discriminate K; injection K as <-; exact KD.
      + intros Kk. destruct c; try discriminate K; injection K as <-; destruct Kk; discriminate.
    - destruct c; try discriminate H.
      + pull H P. pull H U. same H.
      + pull H P. destruct a as [d|]; [|same H]. pull H U. same H.
    - pull H P. pull H U. same H.
    - pull H P. apply self_holds in P. pull H U. apply use_ok in U. destruct (V _ _ _ P) as [L K].
      assert (FP := flatten_tinv _ fuel _ a I T (ex_intro _ _ (conj U (K _ U)))).
      pull H F. injection H as <-. exact FP.
    - pull H P. apply self_holds in P. pull H U. apply use_ok in U. destruct (V _ _ _ P) as [L K].
      assert (FP := flatten_tinv _ fuel _ a I T (ex_intro _ _ (conj U (K _ U)))).
      pull H F. injection H as <-. exact FP.
    - pull H P. pull H U. same H.
    - destruct (named c); [|discriminate]. pull H P. pull H U. same H.
    - pull H P. apply self_holds in P. pull H U. apply use_ok in U. injection H as <-. cbn [s_heap]. unfold with_bound.
      eapply tinv_prim; [exact I|exact T|apply p_attr; [exact U|]| |].
      + intros m M. split; [exact (iv_map_lt _ _ I _ _ _ U M)|]. intros ox Gx. exact (iv_map _ _ I _ _ _ _ U M Gx).
      + intros i o G L _. apply get_lt in G. rewrite set_length in G. lia.
      + intros i o m G M. left. rewrite (get_set _ _ _ _ _ U) in G. destruct (Nat.eqb_spec i a) as [->|]; [injection G as <-; exists a0; auto|eauto].
    - pull H P. pull H Q. destruct a as [c|]; [|same H]. apply pointer_some in P. pull H U. apply use_ok in U.
      destruct (V _ _ _ P) as [L K]. destruct (find_kid a KComp n) eqn:F; [same H|]. injection H as <-. cbn [s_heap].
      destruct LO as [c1 [i1 [c2 [j [d [H1 [H2 [B1 B2]]]]]]]]. unfold holds in *. rewrite P in H1. injection H1 as <- <-.
      assert (E : a0 = Some j /\ c2 = PDef).
      { unfold pointer in Q. rewrite H2 in Q. destruct (pyclass_eqb PDef c2) eqn:E; [|discriminate]. split; [congruence|]. now destruct c2. }
      destruct E as [-> ->]. destruct (V _ _ _ H2) as [Lr Kr].
      eapply tinv_add; [exact I|exact T|exact U| |].
      + apply p_add with a; auto; [exact (K _ U)|]. intros r [= <-]. split; [exact Lr|]. intros ox Gx. now rewrite (Kr _ Gx).
      + intros _. exists j, d. repeat (split; [auto; fail|]). intros ox Gx. rewrite (Kr _ Gx). discriminate.
    - pull H P. pull H U. same H.
    - pull H P. pull H U. destruct (o_ref a0) as [d|]; [|discriminate]. pull H U2. same H.
    - pull H P. pull H Q. destruct a as [c|]; [|same H]. apply pointer_some in P. pull H U. apply use_ok in U.
      destruct (V _ _ _ P) as [L K]. injection H as <-. cbn [s_heap].
      destruct LO as [c1 [i1 [c2 [j [d [H1 [H2 [B1 B2]]]]]]]]. unfold holds in *. rewrite P in H1. injection H1 as <- <-.
      assert (E : a0 = Some j /\ c2 = PLayout).
      { unfold pointer in Q. rewrite H2 in Q. destruct (pyclass_eqb PLayout c2) eqn:E; [|discriminate]. split; [congruence|]. now destruct c2. }
      destruct E as [-> ->]. destruct (V _ _ _ H2) as [Lr Kr].
      eapply tinv_add; [exact I|exact T|exact U| |].
      + apply p_add with a; auto; [exact (K _ U)|congruence|]. intros r [= <-]. split; [exact Lr|]. intros ox Gx. now rewrite (Kr _ Gx).
      + intros _. exists j, d. repeat (split; [auto; fail|]). intros ox Gx. rewrite (Kr _ Gx). discriminate.
    - pull H P. apply self_holds in P. pull H Q. pull H U. apply use_ok in U. injection H as <-. cbn [s_heap]. unfold with_map.
      assert (PR : prim (s_heap s) (set (s_heap s) a (mkO (o_kind a1) (o_name a1) (o_owner a1) (o_kids a1) (o_ref a1) a0 (o_bound a1)))).
      { apply p_attr; [exact U|]. intros m ->. apply pointer_some in Q. destruct (V _ _ _ Q) as [Lr Kr].
        split; [exact Lr|]. intros ox Gx. now rewrite (Kr _ Gx). }
      eapply tinv_prim; [exact I|exact T|exact PR| |].
      + intros i o G L _. apply get_lt in G. rewrite set_length in G. lia.
      + intros i o m G M. assert (G' := G). rewrite (get_set _ _ _ _ _ U) in G. destruct (Nat.eqb_spec i a) as [->|]; [|left; eauto]. injection G as <-. cbn in M. subst a0.
        right. apply pointer_some in Q. destruct LO as [N|[c1 [i1 [c2 [j [d [H1 [H2 [B1 B2]]]]]]]]]; [congruence|]. unfold holds in *.
        rewrite P in H1. injection H1 as <- <-. rewrite Q in H2. injection H2 as <- <-. exists d. destruct (V _ _ _ Q) as [_ Kr].
        split; (eapply belongs_keep; [exact I|apply prims_one; exact PR|eassumption|]); [eauto|].
        destruct (belongs_alive _ _ _ B2) as [om Gm]. destruct (prims_keep _ _ _ _ _ I (prims_one _ _ PR) Gm) as [o' [G2 _]]; [|eauto].
        rewrite (Kr _ Gm). discriminate.
  Qed.
  Lemma run_tinv fuel ts : forall s s', good s -> tinv (s_heap s) -> tidy (step fuel) s ts -> run fuel s ts = Ok s' -> tinv (s_heap s').
  Proof.
    induction ts as [|t ts IH]; cbn [Handles_Model.run tidy]; intros s s' Gd T TD H; [congruence|]. destruct TD as [LO TD].
    pull H E. apply (IH a); [eapply step_good; eassumption|eapply step_tinv; eassumption|now apply TD|exact H].
  Qed.
  Lemma tinv_init : tinv (s_heap init).
  Proof. constructor; intros i o; destruct i; discriminate. Qed.

  (** a call on objects that exist *)
  Definition safe_or (Q : Prop) (r : res state) : Prop := match r with UB => False | OutOfFuel => Q | _ => True end.
  Lemma use_alive s i : (exists o, alive (s_heap s) i o) -> exists o, use s i = Ok o /\ get (s_heap s) i = Some o.
  Proof. intros [o A]. apply alive_get in A. exists o. unfold use. now rewrite A. Qed.
  Lemma pointer_safe s c x : pointer s c x <> UB /\ pointer s c x <> OutOfFuel.
  Proof. unfold pointer. destruct (nth_error (s_vars s) x) as [[]|]; try (split; discriminate). destruct (pyclass_eqb c c0); split; discriminate. Qed.
  Lemma self_safe s c x : self s c x <> UB /\ self s c x <> OutOfFuel.
  Proof. unfold self. destruct (pointer_safe s c x). destruct (pointer s c x) as [[]| | |]; cbn [bind]; split; congruence. Qed.
  Ltac grab P := match goal with
    | |- safe_or _ (bind (self ?s ?c ?x) _) => destruct (self_safe s c x); destruct (self s c x) as [?i| | |] eqn:P; cbn [bind]; try exact Logic.I; try contradiction; try (exfalso; congruence)
    | |- safe_or _ (bind (pointer ?s ?c ?x) _) => destruct (pointer_safe s c x); destruct (pointer s c x) as [?i| | |] eqn:P; cbn [bind]; try exact Logic.I; try contradiction; try (exfalso; congruence)
    end.
  Lemma step_safe rank fuel s t : good s -> tinv (s_heap s) -> ranked rank (s_heap s) -> usable s t ->
    safe_or (exists x c i, In x (uses t) /\ holds s x c i /\ fuel <= rank i) (step fuel s t).
  Proof.
    intros [I V] T RK US. unfold usable in US. destruct t; cbn [Handles_Model.step uses] in *.
    - destruct (acount _ _ _); exact Logic.I.
    - exact Logic.I.
    - destruct (alookup _ _ _); exact Logic.I.
    - exact Logic.I.
    - grab P. destruct i as [d|], (kind_of c) as [k|]; try exact Logic.I. apply pointer_some in P.
      destruct (use_alive s d) as [o [-> G]]; [eapply US; [now left|exact P]|]. cbn [bind]. destruct (find_kid o k n); exact Logic.I.
    - destruct c; try exact Logic.I.
      + grab P. apply self_holds in P. destruct (use_alive s i) as [o [-> G]]; [eapply US; [now left|exact P]|]. exact Logic.I.
      + grab P. destruct i as [d|]; [|exact Logic.I]. apply pointer_some in P.
        destruct (use_alive s d) as [o [-> G]]; [eapply US; [now left|exact P]|]. exact Logic.I.
    - grab P. apply self_holds in P. destruct (use_alive s i) as [o [-> G]]; [eapply US; [now left|exact P]|]. exact Logic.I.
    - grab P. apply self_holds in P. destruct (use_alive s i) as [o [-> G]]; [eapply US; [now left|exact P]|]. cbn [bind].
      destruct (V _ _ _ P) as [L K]. assert (F := flatten_safe rank _ fuel _ i I T RK (ex_intro _ _ (conj G (K _ G)))).
      destruct (flatten fuel (s_heap s) i); cbn [bind fine_or safe_or retH] in *; try exact Logic.I; try contradiction. exists x, PCell, i. split; [now left|]. split; [exact P|exact F].
    - grab P. apply self_holds in P. destruct (use_alive s i) as [o [-> G]]; [eapply US; [now left|exact P]|]. cbn [bind].
      destruct (V _ _ _ P) as [L K]. assert (F := flatten_safe rank _ fuel _ i I T RK (ex_intro _ _ (conj G (K _ G)))).
      destruct (flatten fuel (s_heap s) i); cbn [bind fine_or safe_or retH] in *; try exact Logic.I; try contradiction. exists x, PLayout, i. split; [now left|]. split; [exact P|exact F].
    - grab P. apply self_holds in P. destruct (use_alive s i) as [o [-> G]]; [eapply US; [now left|exact P]|]. exact Logic.I.
    - destruct (named c); [|exact Logic.I]. grab P. apply self_holds in P. destruct (use_alive s i) as [o [-> G]]; [eapply US; [now left|exact P]|]. exact Logic.I.
    - grab P. apply self_holds in P. destruct (use_alive s i) as [o [-> G]]; [eapply US; [now left|exact P]|]. exact Logic.I.
    - grab P. grab Q. destruct i as [c|]; [|exact Logic.I]. apply pointer_some in P.
      destruct (use_alive s c) as [o [-> G]]; [eapply US; [now left|exact P]|]. cbn [bind]. destruct (find_kid o KComp n); exact Logic.I.
    - grab P. apply self_holds in P. destruct (use_alive s i) as [o [-> G]]; [eapply US; [now left|exact P]|]. exact Logic.I.
    - grab P. apply self_holds in P. destruct (use_alive s i) as [o [-> G]]; [eapply US; [now left|exact P]|]. cbn [bind].
      destruct (V _ _ _ P) as [L K]. destruct (t_ref _ T _ _ G (or_introl (K _ G))) as [r [d [-> [_ B]]]].
      destruct (belongs_alive _ _ _ B) as [or Gr]. unfold use. rewrite Gr. exact Logic.I.
    - grab P. grab Q. destruct i as [c|]; [|exact Logic.I]. apply pointer_some in P.
      destruct (use_alive s c) as [o [-> G]]; [eapply US; [now left|exact P]|]. exact Logic.I.
    - grab P. apply self_holds in P. grab Q. destruct (use_alive s i) as [o [-> G]]; [eapply US; [now left|exact P]|]. exact Logic.I.
  Qed.

  (** ** Handles over time *)
  Lemma step_vars fuel s t s' x v : good s -> step fuel s t = Ok s' -> nth_error (s_vars s) x = Some v -> nth_error (s_vars s') x = Some v.
  Proof.
    intros Gd H N. destruct (step_outcome _ _ _ _ Gd H) as [w [-> _]]. rewrite nth_error_app1; [exact N|]. apply nth_error_Some. congruence.
  Qed.
  Lemma run_vars fuel ts : forall s s' x v, good s -> run fuel s ts = Ok s' -> nth_error (s_vars s) x = Some v -> nth_error (s_vars s') x = Some v.
  Proof.
    induction ts as [|t ts IH]; cbn [Handles_Model.run]; intros s s' x v Gd H N; [congruence|]. pull H E.
    eapply IH; [eapply step_good; eassumption|exact H|]. eapply step_vars; eassumption.
  Qed.
  (** the database with the name [n] is not removed *)
  Lemma step_kept fuel s t s' n i o : good s -> step fuel s t = Ok s' -> ~ removes n t -> in_database s n i -> get (s_heap s) i = Some o ->
    o_kind o <> KInst -> in_database s' n i /\ exists o', get (s_heap s') i = Some o' /\ kept o o'.
  Proof.
    intros Gd H NR [d [R B]] G K. destruct (step_outcome _ _ _ _ Gd H) as [v [_ [C _]]]. destruct Gd as [I V].
    remember (s_heap s') as h' eqn:Eh. remember (s_reg s') as r' eqn:Er. unfold in_database. rewrite <- Eh, <- Er. clear Eh Er H.
    destruct C as [h t P|m F|m e Re|].
    - destruct (prims_keep _ _ _ _ _ I P G K) as [o' [G' KO]]. split; [|eauto]. exists d. split; [exact R|]. eapply belongs_keep; eauto.
    - split.
      + exists d. split; [apply in_or_app; now left|now apply belongs_snoc].
      + exists o. split; [|apply kept_refl]. rewrite get_snoc. assert (L := get_lt _ _ _ G). destruct (Nat.eqb_spec i (List.length (s_heap s))); [lia|exact G].
    - assert (m <> n) by (intros ->; apply NR; now left). assert (NE : d <> e).
      { intros ->. destruct (iv_reg _ _ I _ _ R) as [o1 [G1 [_ N1]]]. destruct (iv_reg _ _ I _ _ Re) as [o2 [G2 [_ N2]]]. congruence. }
      assert (B' := belongs_remove _ _ _ _ _ _ I Re NE B). split.
      + exists d. split; [apply in_erase; auto|exact B'].
      + destruct (belongs_alive _ _ _ B') as [o' G']. exists o'. split; [exact G'|]. apply kill_some in G'. destruct G' as [_ G'].
        rewrite G in G'. injection G' as <-. apply kept_refl.
    - exfalso. apply NR. now right.
  Qed.
  Lemma run_kept fuel ts : forall s s' n i o, good s -> run fuel s ts = Ok s' -> (forall t, In t ts -> ~ removes n t) -> in_database s n i ->
    get (s_heap s) i = Some o -> o_kind o <> KInst -> in_database s' n i /\ exists o', get (s_heap s') i = Some o' /\ kept o o'.
  Proof.
    induction ts as [|t ts IH]; cbn [Handles_Model.run]; intros s s' n i o Gd H NR D G K.
    - injection H as <-. split; [exact D|]. exists o. split; [exact G|apply kept_refl].
    - pull H E. destruct (step_kept _ _ _ _ _ _ _ Gd E (NR t (or_introl eq_refl)) D G K) as [D1 [o1 [G1 K1]]].
      assert (KK := K1). destruct KK as [KK _].
      destruct (IH a s' n i o1) as [D2 [o2 [G2 K2]]]; auto; [eapply step_good; eassumption|intros u Iu; apply NR; now right|congruence|].
      split; [exact D2|]. exists o2. split; [exact G2|eapply kept_trans; eassumption].
  Qed.
  (** what is gone stays gone *)
  Lemma step_dead fuel s t s' i : good s -> step fuel s t = Ok s' -> i < List.length (s_heap s) -> get (s_heap s) i = None ->
    get (s_heap s') i = None /\ i < List.length (s_heap s').
  Proof.
    intros Gd H L G. destruct (step_outcome _ _ _ _ Gd H) as [v [_ [C _]]]. destruct Gd as [I V].
    remember (s_heap s') as h' eqn:Eh. remember (s_reg s') as r' eqn:Er. clear Eh Er H. destruct C as [h t P|m F|m e Re|].
    - split; [|apply prims_length in P; lia]. destruct (get h i) as [o|] eqn:G'; [|reflexivity].
      destruct (prims_back _ _ _ _ _ I P G' L) as [o1 [G1 _]]. congruence.
    - rewrite app_length. split; [|cbn; lia]. rewrite get_snoc. destruct (Nat.eqb_spec i (List.length (s_heap s))); [lia|exact G].
    - rewrite kill_length. split; [|exact L]. rewrite get_kill, G. now destruct (existsb _ _).
    - rewrite kill_length. split; [|exact L]. rewrite get_kill, G. now destruct (existsb _ _).
  Qed.
  Lemma run_dead fuel ts : forall s s' i, good s -> run fuel s ts = Ok s' -> i < List.length (s_heap s) -> get (s_heap s) i = None ->
    get (s_heap s') i = None.
  Proof.
    induction ts as [|t ts IH]; cbn [Handles_Model.run]; intros s s' i Gd H L G; [congruence|]. pull H E.
    destruct (step_dead _ _ _ _ _ Gd E L G) as [G1 L1]. eapply IH; [eapply step_good; eassumption|exact H|exact L1|exact G1].
  Qed.
  Lemma removed_dead fuel s t s' n i : good s -> removes n t -> step fuel s t = Ok s' -> in_database s n i -> get (s_heap s') i = None.
  Proof.
    intros [I V] [-> | ->] H [d [R B]]; cbn [Handles_Model.step] in H.
    - assert (A := R). apply (in_alookup _ (fun a b => String.eqb_spec a b)) in A; [|exact (iv_names _ _ I)]. rewrite A in H. got H.
      apply kill_in. now apply (doomed_iff _ _ _ _ _ I R).
    - got H. now apply shutdown_dead.
  Qed.
  Lemma dead_use s i : get (s_heap s) i = None -> use s i = UB.
  Proof. unfold use. now intros ->. Qed.
  Lemma self_of s c x i : holds s x c i -> self s c x = Ok i /\ pointer s c x = Ok (Some i).
  Proof. unfold holds, self, pointer. intros ->. destruct c; cbn [pyclass_eqb bind]; auto. Qed.
End Program.
