(** Lifetime of the objects Python programs hold (C162), programs without undefined behaviour (C163), names and handles
    (C164). *)
From Verif Require Import Base Handles_Model Handles_Spec Handles_Proofs.
Open Scope nat_scope.
Open Scope string_scope.
Open Scope list_scope.
Open Scope res_scope.

Section Program.
  Context (prefixed : string -> string -> string) (unused : list (kind * string) -> string -> string).
  Notation step := (step prefixed unused).
  Notation run := (run prefixed unused).

  (** C162: a handle of a database, cell, layout, definition, layer map or component keeps denoting the same object, with the
      same name, in the same database, whatever else the program does, flattening included, as long as this database is not
      removed and the manager is not shut down. *)
  Theorem C162_kept : forall fuel ts s us s' x c i n o,
    run fuel init ts = Ok s -> holds s x c i -> c <> PInst -> in_database s n i -> alive (s_heap s) i o ->
    run fuel s us = Ok s' -> (forall t, In t us -> ~ removes n t) ->
    holds s' x c i /\ in_database s' n i /\
    exists o', alive (s_heap s') i o' /\ o_kind o' = o_kind o /\ o_name o' = o_name o /\ o_owner o' = o_owner o /\ o_ref o' = o_ref o.
  Proof.
    intros fuel ts s us s' x c i n o R0 H C D A R NR. assert (Gd := run_good _ _ _ _ _ _ good_init R0). apply alive_get in A.
    assert (K : o_kind o <> KInst) by (destruct Gd as [_ V]; destruct (V _ _ _ H) as [_ K]; rewrite (K _ A); destruct c; cbn; congruence).
    destruct (run_kept _ _ _ _ _ _ _ _ _ Gd R NR D A K) as [D' [o' [G' [K1 [N1 [O1 [R1 _]]]]]]].
    split; [exact (run_vars _ _ _ _ _ _ _ _ Gd R H)|]. split; [exact D'|]. exists o'. split; [now apply alive_get|auto].
  Qed.

  (** C162: and its name can be asked for all the time. *)
  Theorem C162_name : forall fuel ts s us s' x c i n o,
    run fuel init ts = Ok s -> holds s x c i -> In c [PDb; PCell; PLayout; PComp] -> in_database s n i -> alive (s_heap s) i o ->
    run fuel s us = Ok s' -> (forall t, In t us -> ~ removes n t) ->
    answers s' (step fuel s' (GetName c x)) (VText (o_name o)).
  Proof.
    intros fuel ts s us s' x c i n o R0 H C D A R NR.
    assert (NI : c <> PInst) by (intros ->; cbn in C; intuition discriminate).
    destruct (C162_kept _ _ _ _ _ _ _ _ _ _ R0 H NI D A R NR) as [H' [_ [o' [A' [_ [N' _]]]]]]. unfold answers. cbn [Handles_Model.step].
    assert (E : named c = true) by (cbn in C; decompose [or] C; subst; try reflexivity; contradiction). rewrite E.
    destruct (self_of _ _ _ _ H') as [-> _]. cbn [bind]. unfold use. apply alive_get in A'. rewrite A'. cbn [bind]. unfold ret. now rewrite N'.
  Qed.

  (** C162: once its database has been removed, or the manager shut down, no call on a handle succeeds any more, whatever the
      program does in between: a database made under the old name does not revive it. *)
  Theorem C162_removed : forall fuel ts s t s1 us s2 x c i n u s3,
    run fuel init ts = Ok s -> holds s x c i -> in_database s n i -> removes n t -> step fuel s t = Ok s1 -> run fuel s1 us = Ok s2 ->
    hd_error (uses u) = Some x -> step fuel s2 u <> Ok s3.
  Proof.
    intros fuel ts s t s1 us s2 x c i n u s3 R0 H D RM S1 R U. assert (Gd := run_good _ _ _ _ _ _ good_init R0).
    assert (G1 := step_good _ _ _ _ _ _ Gd S1). assert (DD := removed_dead _ _ _ _ _ _ _ _ Gd RM S1 D).
    assert (H1 := step_vars _ _ _ _ _ _ _ _ Gd S1 H). assert (L : i < List.length (s_heap s1)) by (destruct G1 as [_ V]; apply (V _ _ _ H1)).
    assert (X := run_dead _ _ _ _ _ _ _ G1 R L DD). assert (H2 := run_vars _ _ _ _ _ _ _ _ G1 R H1). fold (holds s2 x c i) in H2.
    assert (US : use s2 i = UB) by now apply dead_use. clear - H2 US U.
    assert (SF : forall c', (exists e, self s2 c' x = e /\ (e = Ok i \/ e = Throw)) /\ (exists e, pointer s2 c' x = e /\ (e = Ok (Some i) \/ e = Throw))).
    { intros c'. unfold holds in H2. unfold self, pointer. rewrite H2. destruct (pyclass_eqb c' c); cbn [bind]; eauto 8. }
    destruct u; cbn [uses hd_error] in U; try discriminate U; injection U as <-; cbn [Handles_Model.step]; intros E.
    - destruct (SF PDb) as [_ [e [P [-> | ->]]]]; rewrite P in E; cbn [bind] in E; [|discriminate]. destruct (kind_of c0); [|discriminate]. rewrite US in E. discriminate.
    - destruct c0; try discriminate E.
      + destruct (SF PDb) as [[e [P [-> | ->]]] _]; rewrite P in E; cbn [bind] in E; [|discriminate]. rewrite US in E. discriminate.
      + destruct (SF PDb) as [_ [e [P [-> | ->]]]]; rewrite P in E; cbn [bind] in E; [|discriminate]. rewrite US in E. discriminate.
    - destruct (SF PCell) as [[e [P [-> | ->]]] _]; rewrite P in E; cbn [bind] in E; [|discriminate]. rewrite US in E. discriminate.
    - destruct (SF PCell) as [[e [P [-> | ->]]] _]; rewrite P in E; cbn [bind] in E; [|discriminate]. rewrite US in E. discriminate.
    - destruct (SF PLayout) as [[e [P [-> | ->]]] _]; rewrite P in E; cbn [bind] in E; [|discriminate]. rewrite US in E. discriminate.
    - destruct (SF PLayout) as [[e [P [-> | ->]]] _]; rewrite P in E; cbn [bind] in E; [|discriminate]. rewrite US in E. discriminate.
    - destruct (named c0); [|discriminate]. destruct (SF c0) as [[e [P [-> | ->]]] _]; rewrite P in E; cbn [bind] in E; [|discriminate]. rewrite US in E. discriminate.
    - destruct (SF PDef) as [[e [P [-> | ->]]] _]; rewrite P in E; cbn [bind] in E; [|discriminate]. rewrite US in E. discriminate.
    - destruct (SF PLayout) as [_ [e [P [-> | ->]]]]; rewrite P in E; cbn [bind] in E; [|discriminate].
      destruct (pointer s2 PDef y); cbn [bind] in E; try discriminate. rewrite US in E. discriminate.
    - destruct (SF PLayout) as [[e [P [-> | ->]]] _]; rewrite P in E; cbn [bind] in E; [|discriminate]. rewrite US in E. discriminate.
    - destruct (SF PComp) as [[e [P [-> | ->]]] _]; rewrite P in E; cbn [bind] in E; [|discriminate]. rewrite US in E. discriminate.
    - destruct (SF PLayout) as [_ [e [P [-> | ->]]]]; rewrite P in E; cbn [bind] in E; [|discriminate].
      destruct (pointer s2 PLayout y); cbn [bind] in E; try discriminate. rewrite US in E. discriminate.
    - destruct (SF PInst) as [[e [P [-> | ->]]] _]; rewrite P in E; cbn [bind] in E; [|discriminate].
      destruct (pointer s2 PMap y); cbn [bind] in E; try discriminate. rewrite US in E. discriminate.
  Qed.

  (** C162: and asking it for its name is undefined behaviour: Python is not told that the object is gone. *)
  Theorem C162_removed_is_ub : forall fuel ts s t s1 us s2 x c i n,
    run fuel init ts = Ok s -> holds s x c i -> In c [PDb; PCell; PLayout; PComp] -> in_database s n i -> removes n t -> step fuel s t = Ok s1 ->
    run fuel s1 us = Ok s2 -> step fuel s2 (GetName c x) = UB.
  Proof.
    intros fuel ts s t s1 us s2 x c i n R0 H C D RM S1 R. assert (Gd := run_good _ _ _ _ _ _ good_init R0).
    assert (G1 := step_good _ _ _ _ _ _ Gd S1). assert (DD := removed_dead _ _ _ _ _ _ _ _ Gd RM S1 D).
    assert (H1 := step_vars _ _ _ _ _ _ _ _ Gd S1 H). assert (L : i < List.length (s_heap s1)) by (destruct G1 as [_ V]; apply (V _ _ _ H1)).
    assert (X := run_dead _ _ _ _ _ _ _ G1 R L DD). assert (H2 := run_vars _ _ _ _ _ _ _ _ G1 R H1). fold (holds s2 x c i) in H2.
    cbn [Handles_Model.step]. assert (E : named c = true) by (cbn in C; decompose [or] C; subst; try reflexivity; contradiction). rewrite E.
    destruct (self_of _ _ _ _ H2) as [-> _]. cbn [bind]. now rewrite (dead_use _ _ X).
  Qed.

  (** C163: in a program whose components, instances and layer maps stay within one database, and whose layouts do not contain
      each other in a circle, a call on objects that exist is never undefined behaviour, flattening included. *)
  Theorem C163_no_ub : forall fuel ts s t,
    tidy (step fuel) init ts -> run fuel init ts = Ok s -> acyclic s -> usable s t -> step fuel s t <> UB.
  Proof.
    intros fuel ts s t TD R [rank RK] US E. assert (Gd := run_good _ _ _ _ _ _ good_init R).
    assert (T := run_tinv _ _ _ _ _ _ good_init tinv_init TD R).
    assert (RK' : ranked rank (s_heap s)) by (intros i o c d G; apply RK with (i := i); now apply alive_get).
    assert (X := step_safe prefixed unused rank fuel s t Gd T RK' US). rewrite E in X. exact X.
  Qed.

  (** C163: and every call comes back. *)
  Theorem C163_returns : forall fuel ts s t,
    tidy (step fuel) init ts -> run fuel init ts = Ok s -> acyclic s -> usable s t ->
    exists enough, forall f, enough <= f -> step f s t <> OutOfFuel.
  Proof.
    intros fuel ts s t TD R [rank RK] US. assert (Gd := run_good _ _ _ _ _ _ good_init R).
    assert (T := run_tinv _ _ _ _ _ _ good_init tinv_init TD R).
    assert (RK' : ranked rank (s_heap s)) by (intros i o c d G; apply RK with (i := i); now apply alive_get).
    exists (Datatypes.S (list_max (map (fun v => match v with VObj _ i => rank i | _ => 0 end) (s_vars s)))). intros f L E.
    assert (X := step_safe prefixed unused rank f s t Gd T RK' US). rewrite E in X. destruct X as [x [c [i [_ [H F]]]]].
    assert (M := proj1 (list_max_le (map (fun v => match v with VObj _ i => rank i | _ => 0 end) (s_vars s)) _) (Nat.le_refl _)).
    rewrite Forall_forall in M. assert (I : In (rank i) (map (fun v => match v with VObj _ i => rank i | _ => 0 end) (s_vars s))).
    { apply in_map_iff. exists (VObj c i). split; [reflexivity|]. eapply nth_error_In. exact H. }
    specialize (M _ I). lia.
  Qed.

  (** C164: a cell or component definition is found under the name it was made with, as the same object, until its database is
      removed. *)
  Theorem C164_find : forall fuel ts s x d m n c i s1 us s2,
    run fuel init ts = Ok s -> holds s x PDb d -> in_database s m d -> In c [PCell; PDef] ->
    step fuel s (CreateIn c x n) = Ok s1 -> holds s1 (List.length (s_vars s)) c i ->
    run fuel s1 us = Ok s2 -> (forall t, In t us -> ~ removes m t) ->
    answers s2 (step fuel s2 (FindIn c x n)) (VObj c i).
  Proof.
    intros fuel ts s x d m n c i s1 us s2 R0 H D C S1 HI R NR. assert (Gd := run_good _ _ _ _ _ _ good_init R0).
    assert (G1 := step_good _ _ _ _ _ _ Gd S1).
    assert (EX : exists k od, kind_of c = Some k /\ get (s_heap s1) d = Some od /\ o_kind od = KDb /\ find_kid od k n = Some i).
    { cbn [Handles_Model.step] in S1. destruct (self_of _ _ _ _ H) as [_ P]. rewrite P in S1. cbn [bind] in S1.
      destruct (kind_of c) as [k|] eqn:K; [|discriminate]. exists k. destruct (use s d) as [o| | |] eqn:U; cbn [bind] in S1; try discriminate.
      apply use_ok in U. destruct (find_kid o k n) as [j|] eqn:F.
      - injection S1 as <-. unfold holds in HI. cbn [s_vars] in HI. rewrite nth_error_app2, Nat.sub_diag in HI by lia. discriminate.
      - injection S1 as <-. unfold holds in HI. cbn [s_vars] in HI. rewrite nth_error_app2, Nat.sub_diag in HI by lia. injection HI as <-.
        cbn [s_heap]. rewrite (get_add _ _ _ _ _ _ _ U). assert (L := get_lt _ _ _ U). destruct (Nat.eqb_spec d (List.length (s_heap s))); [lia|].
        rewrite Nat.eqb_refl. eexists. split; [reflexivity|]. split; [reflexivity|]. destruct Gd as [_ V]. destruct (V _ _ _ H) as [_ KD].
        split; [exact (KD _ U)|]. unfold find_kid in *. cbn [with_kids o_kids]. rewrite alookup_app, F. cbn [alookup].
        now destruct (key_eqb_spec (k, n) (k, n)). }
    destruct EX as [k [od [K [Gd1 [Kd F]]]]].
    assert (NC : ~ removes m (CreateIn c x n)) by (intros [X|X]; discriminate).
    assert (D1 : in_database s1 m d).
    { destruct D as [e [Re Be]]. destruct (belongs_alive _ _ _ Be) as [o Go]. destruct Gd as [I V]. destruct (V _ _ _ H) as [_ KD].
      assert (KO : o_kind o <> KInst) by (rewrite (KD _ Go); discriminate).
      exact (proj1 (step_kept _ _ _ _ _ _ _ _ _ (conj I V) S1 NC (ex_intro _ e (conj Re Be)) Go KO)). }
    assert (KO : o_kind od <> KInst) by congruence.
    destruct (run_kept _ _ _ _ _ _ _ _ _ G1 R NR D1 Gd1 KO) as [_ [o2 [G2 [_ [_ [_ [_ FK]]]]]]].
    assert (KI : k <> KInst) by (destruct c; cbn in K; congruence). specialize (FK _ _ _ KI F).
    assert (H2 := run_vars _ _ _ _ _ _ _ _ G1 R (step_vars _ _ _ _ _ _ _ _ Gd S1 H)). fold (holds s2 x PDb d) in H2.
    destruct (self_of _ _ _ _ H2) as [SE PE]. unfold answers. cbn [Handles_Model.step].
    cbn in C. destruct C as [<- | [<- | []]]; injection K as <-.
    - rewrite SE. cbn [bind]. unfold use. rewrite G2. cbn [bind]. now rewrite FK.
    - rewrite PE. cbn [bind]. unfold use. rewrite G2. cbn [bind]. now rewrite FK.
  Qed.

  (** C164: the name is taken as long as the object exists: making another one of the kind gives None and changes nothing. *)
  Theorem C164_taken : forall fuel ts s x d m n c i s1 us s2,
    run fuel init ts = Ok s -> holds s x PDb d -> in_database s m d -> In c [PCell; PDef; PMap] ->
    step fuel s (CreateIn c x n) = Ok s1 -> holds s1 (List.length (s_vars s)) c i ->
    run fuel s1 us = Ok s2 -> (forall t, In t us -> ~ removes m t) ->
    answers s2 (step fuel s2 (CreateIn c x n)) VNone.
  Proof.
    intros fuel ts s x d m n c i s1 us s2 R0 H D C S1 HI R NR. assert (Gd := run_good _ _ _ _ _ _ good_init R0).
    assert (G1 := step_good _ _ _ _ _ _ Gd S1).
    assert (EX : exists k od, kind_of c = Some k /\ get (s_heap s1) d = Some od /\ o_kind od = KDb /\ find_kid od k n = Some i).
    { cbn [Handles_Model.step] in S1. destruct (self_of _ _ _ _ H) as [_ P]. rewrite P in S1. cbn [bind] in S1.
      destruct (kind_of c) as [k|] eqn:K; [|discriminate]. exists k. destruct (use s d) as [o| | |] eqn:U; cbn [bind] in S1; try discriminate.
      apply use_ok in U. destruct (find_kid o k n) as [j|] eqn:F.
      - injection S1 as <-. unfold holds in HI. cbn [s_vars] in HI. rewrite nth_error_app2, Nat.sub_diag in HI by lia. discriminate.
      - injection S1 as <-. unfold holds in HI. cbn [s_vars] in HI. rewrite nth_error_app2, Nat.sub_diag in HI by lia. injection HI as <-.
        cbn [s_heap]. rewrite (get_add _ _ _ _ _ _ _ U). assert (L := get_lt _ _ _ U). destruct (Nat.eqb_spec d (List.length (s_heap s))); [lia|].
        rewrite Nat.eqb_refl. eexists. split; [reflexivity|]. split; [reflexivity|]. destruct Gd as [_ V]. destruct (V _ _ _ H) as [_ KD].
        split; [exact (KD _ U)|]. unfold find_kid in *. cbn [with_kids o_kids]. rewrite alookup_app, F. cbn [alookup].
        now destruct (key_eqb_spec (k, n) (k, n)). }
    destruct EX as [k [od [K [Gd1 [Kd F]]]]].
    assert (NC : ~ removes m (CreateIn c x n)) by (intros [X|X]; discriminate).
    assert (D1 : in_database s1 m d).
    { destruct D as [e [Re Be]]. destruct (belongs_alive _ _ _ Be) as [o Go]. destruct Gd as [I V]. destruct (V _ _ _ H) as [_ KD].
      assert (KO : o_kind o <> KInst) by (rewrite (KD _ Go); discriminate).
      exact (proj1 (step_kept _ _ _ _ _ _ _ _ _ (conj I V) S1 NC (ex_intro _ e (conj Re Be)) Go KO)). }
    assert (KO : o_kind od <> KInst) by congruence.
    destruct (run_kept _ _ _ _ _ _ _ _ _ G1 R NR D1 Gd1 KO) as [_ [o2 [G2 [_ [_ [_ [_ FK]]]]]]].
    assert (KI : k <> KInst) by (destruct c; cbn in K; congruence). specialize (FK _ _ _ KI F).
    assert (H2 := run_vars _ _ _ _ _ _ _ _ G1 R (step_vars _ _ _ _ _ _ _ _ Gd S1 H)). fold (holds s2 x PDb d) in H2.
    destruct (self_of _ _ _ _ H2) as [SE PE]. unfold answers. cbn [Handles_Model.step].
    rewrite PE. cbn [bind]. rewrite K. unfold use. rewrite G2. cbn [bind]. now rewrite FK.
  Qed.

  (** C164: the same of components: found under their name, through flattening too, and the name is taken. *)
  Theorem C164_component : forall fuel ts s x l m n y i s1 us s2,
    run fuel init ts = Ok s -> holds s x PLayout l -> in_database s m l ->
    step fuel s (CreateComponent x n y) = Ok s1 -> holds s1 (List.length (s_vars s)) PComp i ->
    run fuel s1 us = Ok s2 -> (forall t, In t us -> ~ removes m t) ->
    answers s2 (step fuel s2 (FindComponent x n)) (VObj PComp i) /\
    forall z j, holds s2 z PDef j -> answers s2 (step fuel s2 (CreateComponent x n z)) VNone.
  Proof.
    intros fuel ts s x l m n y i s1 us s2 R0 H D S1 HI R NR. assert (Gd := run_good _ _ _ _ _ _ good_init R0).
    assert (G1 := step_good _ _ _ _ _ _ Gd S1).
    assert (EX : exists od, get (s_heap s1) l = Some od /\ o_kind od = KCell /\ find_kid od KComp n = Some i).
    { cbn [Handles_Model.step] in S1. destruct (self_of _ _ _ _ H) as [_ P]. rewrite P in S1. cbn [bind] in S1.
      destruct (pointer s PDef y) as [q| | |]; cbn [bind] in S1; try discriminate. destruct (use s l) as [o| | |] eqn:U; cbn [bind] in S1; try discriminate.
      apply use_ok in U. destruct (find_kid o KComp n) as [j|] eqn:F.
      - injection S1 as <-. unfold holds in HI. cbn [s_vars] in HI. rewrite nth_error_app2, Nat.sub_diag in HI by lia. discriminate.
      - injection S1 as <-. unfold holds in HI. cbn [s_vars] in HI. rewrite nth_error_app2, Nat.sub_diag in HI by lia. injection HI as <-.
        cbn [s_heap]. rewrite (get_add _ _ _ _ _ _ _ U). assert (L := get_lt _ _ _ U). destruct (Nat.eqb_spec l (List.length (s_heap s))); [lia|].
        rewrite Nat.eqb_refl. eexists. split; [reflexivity|]. destruct Gd as [_ V]. destruct (V _ _ _ H) as [_ KD].
        split; [exact (KD _ U)|]. unfold find_kid in *. cbn [with_kids o_kids]. rewrite alookup_app, F. cbn [alookup].
        now destruct (key_eqb_spec (KComp, n) (KComp, n)). }
    destruct EX as [od [Gd1 [Kd F]]].
    assert (NC : ~ removes m (CreateComponent x n y)) by (intros [X|X]; discriminate).
    assert (D1 : in_database s1 m l).
    { destruct D as [e [Re Be]]. destruct (belongs_alive _ _ _ Be) as [o Go]. destruct Gd as [I V]. destruct (V _ _ _ H) as [_ KD].
      assert (KO : o_kind o <> KInst) by (rewrite (KD _ Go); discriminate).
      exact (proj1 (step_kept _ _ _ _ _ _ _ _ _ (conj I V) S1 NC (ex_intro _ e (conj Re Be)) Go KO)). }
    assert (KO : o_kind od <> KInst) by congruence.
    destruct (run_kept _ _ _ _ _ _ _ _ _ G1 R NR D1 Gd1 KO) as [_ [o2 [G2 [_ [_ [_ [_ FK]]]]]]].
    assert (KI : KComp <> KInst) by discriminate. specialize (FK _ _ _ KI F).
    assert (H2 := run_vars _ _ _ _ _ _ _ _ G1 R (step_vars _ _ _ _ _ _ _ _ Gd S1 H)). fold (holds s2 x PLayout l) in H2.
    destruct (self_of _ _ _ _ H2) as [SE PE]. unfold answers. cbn [Handles_Model.step]. split.
    - rewrite SE. cbn [bind]. unfold use. rewrite G2. cbn [bind]. now rewrite FK.
    - intros z j HZ. destruct (self_of _ _ _ _ HZ) as [_ PZ]. rewrite PE, PZ. cbn [bind]. unfold use. rewrite G2. cbn [bind]. now rewrite FK.
  Qed.

  (** C164: a database is opened by its name as the same object until it is removed, and its name is taken until then. *)
  Theorem C164_database : forall fuel ts s n d s1 us s2,
    run fuel init ts = Ok s -> step fuel s (CreateDb n) = Ok s1 -> holds s1 (List.length (s_vars s)) PDb d ->
    run fuel s1 us = Ok s2 -> (forall t, In t us -> ~ removes n t) ->
    answers s2 (step fuel s2 (OpenDb n)) (VObj PDb d) /\ answers s2 (step fuel s2 (CreateDb n)) VNone.
  Proof.
    intros fuel ts s n d s1 us s2 R0 S1 HI R NR. assert (Gd := run_good _ _ _ _ _ _ good_init R0).
    assert (G1 := step_good _ _ _ _ _ _ Gd S1).
    assert (EX : In (n, d) (s_reg s1)).
    { cbn [Handles_Model.step] in S1. destruct (acount String.eqb n (s_reg s)) eqn:C.
      - injection S1 as <-. unfold holds in HI. cbn [s_vars] in HI. rewrite nth_error_app2, Nat.sub_diag in HI by lia. discriminate.
      - injection S1 as <-. unfold holds in HI. cbn [s_vars] in HI. rewrite nth_error_app2, Nat.sub_diag in HI by lia. injection HI as <-.
        cbn [s_reg]. unfold aemplace. rewrite C. apply in_or_app. right. now left. }
    destruct G1 as [I1 V1]. destruct (iv_reg _ _ I1 _ _ EX) as [o [Go [Oo _]]].
    assert (D1 : in_database s1 n d) by (exists d; split; [exact EX|]; apply b_database with o; [now apply alive_get|exact Oo]).
    assert (KO : o_kind o <> KInst) by (rewrite (proj1 (iv_top _ _ I1 _ _ Go Oo)); discriminate).
    assert (G2 := run_good _ _ _ _ _ _ (conj I1 V1) R). destruct G2 as [I2 V2].
    destruct (run_kept _ _ _ _ _ _ _ _ _ (conj I1 V1) R NR D1 Go KO) as [[d2 [R2 B2]] [o2 [Go2 [_ [_ [O2 _]]]]]].
    assert (E : d2 = d).
    { eapply belongs_fun; [exact B2|]. apply b_database with o2; [now apply alive_get|congruence]. }
    subst d2. apply (in_alookup _ (fun a b => String.eqb_spec a b)) in R2; [|exact (iv_names _ _ I2)].
    unfold answers. cbn [Handles_Model.step]. split.
    - now rewrite R2.
    - unfold acount. now rewrite R2.
  Qed.

  (** C164: a database made again after it was removed is a new object, no old handle denotes it, and it is empty. *)
  Theorem C164_new_empty : forall fuel ts s n s1 d m c,
    run fuel init ts = Ok s -> step fuel s (CreateDb n) = Ok s1 -> holds s1 (List.length (s_vars s)) PDb d -> In c [PCell; PDef] ->
    answers s1 (step fuel s1 (FindIn c (List.length (s_vars s)) m)) VNone /\ forall x c' i, holds s x c' i -> i <> d.
  Proof.
    intros fuel ts s n s1 d m c R0 S1 HI C. assert (Gd := run_good _ _ _ _ _ _ good_init R0).
    assert (X : d = List.length (s_heap s) /\ s_heap s1 = s_heap s ++ [Some (mkO KDb n None [] None None None)]).
    { cbn [Handles_Model.step] in S1. destruct (acount String.eqb n (s_reg s)).
      - injection S1 as <-. unfold holds in HI. cbn [s_vars] in HI. rewrite nth_error_app2, Nat.sub_diag in HI by lia. discriminate.
      - injection S1 as <-. unfold holds in HI. cbn [s_vars] in HI. rewrite nth_error_app2, Nat.sub_diag in HI by lia. injection HI as <-. auto. }
    destruct X as [-> Eh]. split.
    - destruct (self_of _ _ _ _ HI) as [SE PE].
      assert (U : use s1 (List.length (s_heap s)) = Ok (mkO KDb n None [] None None None)) by (unfold use; now rewrite Eh, get_snoc, Nat.eqb_refl).
      unfold answers. cbn [Handles_Model.step]. cbn in C. destruct C as [<- | [<- | []]].
      + rewrite SE. cbn [bind]. now rewrite U.
      + rewrite PE. cbn [bind]. now rewrite U.
    - intros x c' i H ->. destruct Gd as [_ V]. destruct (V _ _ _ H) as [L _]. lia.
  Qed.

  (** C164: a layout leads to the database it is in, the object opened by the name of this database. *)
  Theorem C164_get_database : forall fuel ts s x l n,
    run fuel init ts = Ok s -> holds s x PLayout l -> in_database s n l ->
    exists d, answers s (step fuel s (GetDatabase x)) (VObj PDb d) /\ answers s (step fuel s (OpenDb n)) (VObj PDb d).
  Proof.
    intros fuel ts s x l n R0 H [d [R B]]. destruct (run_good _ _ _ _ _ _ good_init R0) as [I V]. exists d.
    destruct (belongs_alive _ _ _ B) as [o G]. destruct (V _ _ _ H) as [_ K]. specialize (K _ G). cbn in K.
    assert (O : o_owner o = Some d).
    { destruct (o_owner o) as [p|] eqn:O; [|destruct (iv_top _ _ I _ _ G O); congruence]. f_equal.
      destruct (iv_owner _ _ I _ _ _ G O) as [op [Gp [_ W]]]. rewrite K in W. cbn in W.
      assert (Bp := belongs_owner _ _ _ _ _ B G O). destruct (o_owner op) as [q|] eqn:Op.
      - destruct (iv_owner _ _ I _ _ _ Gp Op) as [oq [_ [_ Wq]]]. rewrite W in Wq. contradiction.
      - eapply belongs_fun; [|exact Bp]. apply b_database with op; [now apply alive_get|exact Op]. }
    destruct (self_of _ _ _ _ H) as [SE _]. unfold answers. cbn [Handles_Model.step]. split.
    - rewrite SE. cbn [bind]. unfold use. rewrite G. cbn [bind]. now rewrite O.
    - apply (in_alookup _ (fun a b => String.eqb_spec a b)) in R; [|exact (iv_names _ _ I)]. now rewrite R.
  Qed.

  (** C164: the boundary of a component is the one last given to its definition, also after the definition was used, and of
      components other handles hold. *)
  Theorem C164_boundary : forall fuel ts s x i o y d od z s1,
    run fuel init ts = Ok s -> holds s x PComp i -> alive (s_heap s) i o -> o_ref o = Some d -> holds s y PDef d -> alive (s_heap s) d od ->
    step fuel s (SetBoundary y z) = Ok s1 -> answers s1 (step fuel s1 (GetBoundary x)) (VShape z).
  Proof.
    intros fuel ts s x i o y d od z s1 R0 H A R HY AD S1. assert (Gd := run_good _ _ _ _ _ _ good_init R0). apply alive_get in A, AD.
    destruct Gd as [I V]. destruct (V _ _ _ H) as [_ K]. specialize (K _ A). destruct (V _ _ _ HY) as [_ KD]. specialize (KD _ AD). cbn in K, KD.
    assert (H1 := step_vars _ _ _ _ _ _ _ _ (conj I V) S1 H). fold (holds s1 x PComp i) in H1.
    cbn [Handles_Model.step] in S1. destruct (self_of _ _ _ _ HY) as [SY _]. rewrite SY in S1. cbn [bind] in S1. unfold use in S1. rewrite AD in S1.
    cbn [bind] in S1. unfold retH in S1. destruct (self_of _ _ _ _ H1) as [SE _]. unfold answers. cbn [Handles_Model.step]. rewrite SE. cbn [bind].
    assert (Eh : s_heap s1 = set (s_heap s) d (with_bound od (Some z))) by (injection S1 as <-; reflexivity).
    assert (U1 : use s1 i = Ok o).
    { unfold use. rewrite Eh, (get_set _ _ _ _ _ AD). destruct (Nat.eqb_spec i d) as [->|]; [congruence|]. now rewrite A. }
    assert (U2 : use s1 d = Ok (with_bound od (Some z))) by (unfold use; now rewrite Eh, (get_set _ _ _ _ _ AD), Nat.eqb_refl).
    rewrite U1. cbn [bind]. rewrite R, U2. reflexivity.
  Qed.

  (** C162: a handle of a cell instance is the exception: flattening the layout deletes the instance, and the next call on the
      handle is undefined behaviour although nothing was removed. *)
  Theorem C162_instance_refuted : exists ts s us s' i,
    run 9 init ts = Ok s /\ holds s 5 PInst i /\ in_database s "d" i /\ run 9 s us = Ok s' /\ (forall t, In t us -> ~ removes "d" t) /\
    step 9 s' (SetMap 5 7) = UB.
  Proof.
    exists [CreateDb "d"; CreateIn PCell 0 "top"; CreateIn PCell 0 "sub"; GetLayout 1; GetLayout 2; CreateInst 3 "i" 4].
    eexists. exists [Flatten 3; CreateIn PMap 0 "m"]. eexists. exists 3. split; [vm_compute; reflexivity|]. split; [vm_compute; reflexivity|]. split.
    { exists 0. split; [now left|]. eapply b_owned; [reflexivity|reflexivity|]. eapply b_owned; [reflexivity|reflexivity|].
      eapply b_database; reflexivity. }
    split; [vm_compute; reflexivity|]. split; [|vm_compute; reflexivity]. intros t [<- | [<- | []]] [X|X]; discriminate.
  Qed.

  (** C163: without the restriction to one database it is false: a component whose definition comes from a library database
      dangles when the library is removed, and asking the living component for its boundary is undefined behaviour. *)
  Theorem C163_other_database_refuted : exists ts s t,
    run 9 init ts = Ok s /\ acyclic s /\ usable s t /\ step 9 s t = UB.
  Proof.
    exists [CreateDb "lib"; CreateDb "d"; CreateIn PDef 0 "R"; CreateIn PCell 1 "c"; GetLayout 3; CreateComponent 4 "R1" 2; RemoveDb "lib"].
    eexists. exists (GetBoundary 5). split; [vm_compute; reflexivity|]. split; [|split; [|vm_compute; reflexivity]].
    - exists (fun _ => 0). intros i o c d A K. exfalso. unfold alive in A. cbn [s_heap] in A.
      do 6 (destruct i as [|i]; [cbn in A; try discriminate A; injection A as <-; discriminate K|]). destruct i; discriminate A.
    - intros x c i U H. destruct U as [<- | []]. injection H as <- <-. eexists. reflexivity.
  Qed.

  (** C163: the same happens in flattening a layout with an instance of a layout of a removed library, *)
  Theorem C163_library_layout_is_ub : exists ts s,
    run 9 init ts = Ok s /\ acyclic s /\ usable s (Flatten 5) /\ step 9 s (Flatten 5) = UB.
  Proof.
    exists [CreateDb "lib"; CreateDb "d"; CreateIn PCell 0 "sub"; CreateIn PCell 1 "c"; GetLayout 2; GetLayout 3; CreateInst 5 "i" 4; RemoveDb "lib"].
    eexists. split; [vm_compute; reflexivity|]. split; [|split; [|vm_compute; reflexivity]].
    - exists (fun i => i). intros i o c d A K O R. unfold alive in A. cbn [s_heap] in A.
      do 5 (destruct i as [|i]; [cbn in A; try discriminate A; injection A as <-; try discriminate K; injection O as <-; injection R as <-; lia|]).
      destruct i; discriminate A.
    - intros x c i U H. destruct U as [<- | []]. injection H as <- <-. eexists. reflexivity.
  Qed.
  (** and through a layer map of a removed library. *)
  Theorem C163_library_map_is_ub : exists ts s,
    run 9 init ts = Ok s /\ acyclic s /\ usable s (Flatten 6) /\ step 9 s (Flatten 6) = UB.
  Proof.
    exists [CreateDb "lib"; CreateDb "d"; CreateIn PCell 1 "sub"; CreateIn PCell 1 "c"; CreateIn PMap 0 "m"; GetLayout 2; GetLayout 3;
            CreateIn PDef 1 "R"; CreateComponent 5 "R1" 7; CreateInst 6 "i" 5; SetMap 9 4; RemoveDb "lib"].
    eexists. split; [vm_compute; reflexivity|]. split; [|split; [|vm_compute; reflexivity]].
    - exists (fun i => i). intros i o c d A K O R. unfold alive in A. cbn [s_heap] in A.
      do 8 (destruct i as [|i]; [cbn in A; try discriminate A; injection A as <-; try discriminate K; injection O as <-; injection R as <-; lia|]).
      destruct i; discriminate A.
    - intros x c i U H. destruct U as [<- | []]. injection H as <- <-. eexists. reflexivity.
  Qed.

  (** C163: nor is a component without definition noticed when it is made; its boundary is undefined behaviour. *)
  Theorem C163_no_definition_is_ub : exists ts s,
    run 9 init ts = Ok s /\ usable s (GetBoundary 4) /\ step 9 s (GetBoundary 4) = UB.
  Proof.
    exists [CreateDb "d"; CreateIn PCell 0 "c"; GetLayout 1; OpenDb "x"; CreateComponent 2 "R1" 3].
    eexists. split; [vm_compute; reflexivity|]. split; [|vm_compute; reflexivity]. intros x c i U H. destruct U as [<- | []]. injection H as <- <-. eexists. reflexivity.
  Qed.

  (** C163: a layout with an instance of itself can be made, flattening it does not come back (the program's stack overflows). *)
  Theorem C163_cycle_diverges : exists ts s,
    run 9 init ts = Ok s /\ usable s (Flatten 2) /\ forall fuel, step fuel s (Flatten 2) = OutOfFuel.
  Proof.
    exists [CreateDb "d"; CreateIn PCell 0 "c"; GetLayout 1; CreateInst 2 "i" 2].
    eexists. split; [vm_compute; reflexivity|]. split.
    - intros x c i U H. destruct U as [<- | []]. injection H as <- <-. eexists. reflexivity.
    - intros fuel. cbn [Handles_Model.step]. match goal with |- (i <- self ?s PLayout 2 ;; _) = _ =>
        assert (F : Handles_Model.flatten prefixed unused fuel (s_heap s) 1 = OutOfFuel) end.
      { induction fuel as [|f IH]; [reflexivity|]. cbn [Handles_Model.flatten].
        cbn [get s_heap nth_error o_kids of_kind filter map fst snd kind_eqb fold_left bind o_ref] in *. rewrite IH. reflexivity. }
      cbn [self pointer s_vars nth_error pyclass_eqb bind use get s_heap] in *. rewrite F. reflexivity.
  Qed.
End Program.
Print Assumptions C162_kept.
Print Assumptions C162_name.
Print Assumptions C162_removed.
Print Assumptions C162_removed_is_ub.
Print Assumptions C163_no_ub.
Print Assumptions C163_returns.
Print Assumptions C164_find.
Print Assumptions C164_taken.
Print Assumptions C164_component.
Print Assumptions C164_database.
Print Assumptions C164_new_empty.
Print Assumptions C164_get_database.
Print Assumptions C164_boundary.
Print Assumptions C163_library_layout_is_ub.
Print Assumptions C163_library_map_is_ub.
Print Assumptions C162_instance_refuted.
Print Assumptions C163_other_database_refuted.
Print Assumptions C163_no_definition_is_ub.
Print Assumptions C163_cycle_diverges.

(** ** Examples *)
(** a program with a component in a sub-layout, placed through a layer map *)
Definition ex_prefixed (a b : string) : string := (a ++ "/" ++ b)%string.
Definition ex_unused (used : list (kind * string)) (n : string) : string :=
  if existsb (key_eqb (KComp, n)) used then (n ++ "1")%string else n.
Definition ex_program : list stmt :=
  [ CreateDb "d"; CreateIn PCell 0 "top"; CreateIn PCell 0 "sub"; CreateIn PDef 0 "R"; CreateIn PMap 0 "m"; GetLayout 1; GetLayout 2;
    SetBoundary 3 7; CreateComponent 6 "R1" 3; CreateInst 5 "i" 6; SetMap 9 4 ].
Notation ex_step := (step ex_prefixed ex_unused 9).
Notation ex_run := (run ex_prefixed ex_unused 9).
Ltac owned := repeat (eapply b_owned; [reflexivity|reflexivity|]); eapply b_database; reflexivity.
Ltac both := do 4 eexists; exists 0; split; [vm_compute; reflexivity|]; split; [vm_compute; reflexivity|]; split; owned.
Example C163_example : exists s, ex_run init ex_program = Ok s /\ tidy ex_step init ex_program /\ acyclic s /\ usable s (Flatten 5) /\
  exists s1 s2, ex_step s (Flatten 5) = Ok s1 /\ ex_run s1 [FindComponent 5 "i/R1"; GetBoundary 12] = Ok s2 /\
    nth_error (s_vars s2) 13 = Some (VShape 7).
Proof.
  eexists. split; [vm_compute; reflexivity|]. split; [|split; [|split]].
  - repeat (split; [try exact Logic.I; try both; try (right; both)|intros ? E; injection E as <-]). exact Logic.I.
  - exists (fun i => match i with 1 => 1 | _ => 0 end). intros i o c d A K O R. unfold alive in A. cbn [s_heap] in A.
    do 7 (destruct i as [|i]; [cbn in A; injection A as <-; try discriminate K; injection O as <-; injection R as <-; cbn; lia|]).
    destruct i; discriminate A.
  - intros x c i U H. destruct U as [<- | []]. injection H as <- <-. eexists. reflexivity.
  - eexists. eexists. split; [vm_compute; reflexivity|]. split; vm_compute; reflexivity.
Qed.
(** the component of the sub-layout outlives the flattening of both layouts *)
Example C162_example : exists s s' i o, ex_run init ex_program = Ok s /\ holds s 8 PComp i /\ in_database s "d" i /\ alive (s_heap s) i o /\
  ex_run s [Flatten 5; CreateDb "e"; RemoveDb "e"; GetFlattened 2] = Ok s' /\ answers s' (ex_step s' (GetName PComp 8)) (VText "R1").
Proof.
  do 4 eexists. split; [vm_compute; reflexivity|]. split; [vm_compute; reflexivity|]. split; [exists 0; split; [now left|owned]|].
  split; [vm_compute; reflexivity|]. split; vm_compute; reflexivity.
Qed.
Example C162_removed_example : exists s s1 s2, ex_run init ex_program = Ok s /\ in_database s "d" 1 /\ ex_step s (RemoveDb "d") = Ok s1 /\
  ex_run s1 [CreateDb "d"; CreateIn PCell 12 "top"] = Ok s2 /\ ex_step s2 (GetName PCell 1) = UB /\
  answers s2 (ex_step s2 (GetName PCell 13)) (VText "top").
Proof.
  do 3 eexists. split; [vm_compute; reflexivity|]. split; [exists 0; split; [now left|owned]|]. split; [vm_compute; reflexivity|]. split; [vm_compute; reflexivity|]. split; vm_compute; reflexivity.
Qed.
Example C164_example : exists s s1 s2, ex_run init [CreateDb "d"] = Ok s /\ holds s 0 PDb 0 /\ in_database s "d" 0 /\
  ex_step s (CreateIn PCell 0 "c") = Ok s1 /\ holds s1 1 PCell 1 /\ ex_run s1 [CreateIn PDef 0 "c"; CreateDb "e"; RemoveDb "e"] = Ok s2 /\
  answers s2 (ex_step s2 (FindIn PCell 0 "c")) (VObj PCell 1) /\ answers s2 (ex_step s2 (CreateIn PCell 0 "c")) VNone /\
  answers s2 (ex_step s2 (OpenDb "d")) (VObj PDb 0).
Proof.
  do 3 eexists. split; [vm_compute; reflexivity|]. split; [vm_compute; reflexivity|]. split; [exists 0; split; [now left|owned]|]. repeat (split; [vm_compute; reflexivity|]). vm_compute; reflexivity.
Qed.
Example C164_component_example : exists s s1 s2, ex_run init ex_program = Ok s /\ in_database s "d" 2 /\
  ex_step s (CreateComponent 6 "R2" 3) = Ok s1 /\ holds s1 11 PComp 7 /\ ex_run s1 [Flatten 5; Flatten 6] = Ok s2 /\
  answers s2 (ex_step s2 (FindComponent 6 "R2")) (VObj PComp 7) /\ answers s2 (ex_step s2 (CreateComponent 6 "R2" 3)) VNone.
Proof.
  do 3 eexists. split; [vm_compute; reflexivity|]. split; [exists 0; split; [now left|owned]|]. repeat (split; [vm_compute; reflexivity|]). vm_compute; reflexivity.
Qed.
Example C164_new_empty_example : exists s s1, ex_run init (ex_program ++ [RemoveDb "d"]) = Ok s /\ ex_step s (CreateDb "d") = Ok s1 /\
  holds s1 12 PDb 7 /\ answers s1 (ex_step s1 (FindIn PCell 12 "top")) VNone.
Proof. do 2 eexists. repeat (split; [vm_compute; reflexivity|]). vm_compute; reflexivity. Qed.
Example C164_boundary_example : exists s s1 o, ex_run init ex_program = Ok s /\ holds s 8 PComp 5 /\ alive (s_heap s) 5 o /\ o_ref o = Some 3 /\
  holds s 3 PDef 3 /\ ex_step s (SetBoundary 3 8) = Ok s1 /\ answers s1 (ex_step s1 (GetBoundary 8)) (VShape 8) /\
  answers s1 (ex_step s1 (GetDatabase 6)) (VObj PDb 0).
Proof. do 3 eexists. repeat (split; [vm_compute; reflexivity|]). vm_compute; reflexivity. Qed.
