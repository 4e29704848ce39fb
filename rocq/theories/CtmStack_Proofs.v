(** Lemmas for the chip thermal model stack-up. *)
From Coq Require Import QArith Qabs Lqa Sorted Permutation.
From Verif Require Import Base CtmStack_Model CtmStack_Spec.
Local Open Scope res_scope.

(** ** Heights *)

Fixpoint try_via (rec : string -> res (option (Q * Q))) (name : string) (vs : list via) : res (option (Q * Q)) :=
  match vs with
  | [] => Ok None
  | v :: vs' =>
      if String.eqb name (vl_name v) then
        t <- rec (vl_top v) ;;
        match t with
        | None => try_via rec name vs'
        | Some (topH, topT) =>
            b <- rec (vl_bot v) ;;
            match b with
            | None => try_via rec name vs'
            | Some (botH, _) => Ok (Some (topH - topT, topH - topT - botH)%Q)
            end
        end
      else try_via rec name vs'
  end.

Lemma height_thickness_S f h name :
  height_thickness (S f) h name =
  match find (fun l => String.eqb name (ml_name l)) (h_metal h) with
  | Some l => Ok (Some (ml_elev l, ml_thick l))
  | None => try_via (height_thickness f h) name (h_via h)
  end.
Proof.
  cbn [height_thickness]. destruct (find _ _); [reflexivity|].
  generalize (h_via h) as vs. induction vs as [|v vs IH]; [reflexivity|].
  cbn [try_via]. rewrite IH. reflexivity.
Qed.

Lemma find_metal_some (ls : list metal) name l :
  find (fun l => String.eqb name (ml_name l)) ls = Some l ->
  ml_name l = name /\ exists l1 l2, ls = l1 ++ l :: l2 /\ ~ In (ml_name l) (map ml_name l1).
Proof.
  induction ls as [|x ls IH]; cbn [find]; [discriminate|].
  destruct (String.eqb_spec name (ml_name x)) as [E|E].
  - intros H. injection H as <-. split; [auto|]. exists [], ls. split; [reflexivity|intros []].
  - intros H. destruct (IH H) as [Hn (l1 & l2 & E1 & E2)]. split; [exact Hn|].
    exists (x :: l1), l2. rewrite E1. split; [reflexivity|]. cbn [map In]. intros [F|F]; [congruence|auto].
Qed.

Lemma find_metal_none (ls : list metal) name :
  find (fun l => String.eqb name (ml_name l)) ls = None -> ~ In name (map ml_name ls).
Proof.
  induction ls as [|x ls IH]; cbn [find map In]; [auto|].
  destruct (String.eqb_spec name (ml_name x)) as [E|E]; [discriminate|].
  intros H [F|F]; [congruence|]. exact (IH H F).
Qed.

Lemma try_via_some rec name vs e t :
  try_via rec name vs = Ok (Some (e, t)) ->
  exists v te tt be bt, In v vs /\ vl_name v = name /\ rec (vl_top v) = Ok (Some (te, tt)) /\
    rec (vl_bot v) = Ok (Some (be, bt)) /\ e = (te - tt)%Q /\ t = (te - tt - be)%Q.
Proof.
  induction vs as [|v vs IH]; cbn [try_via]; [discriminate|].
  assert (K : try_via rec name vs = Ok (Some (e, t)) -> exists v0 te tt be bt, In v0 (v :: vs) /\ vl_name v0 = name /\
    rec (vl_top v0) = Ok (Some (te, tt)) /\ rec (vl_bot v0) = Ok (Some (be, bt)) /\ e = (te - tt)%Q /\ t = (te - tt - be)%Q).
  { intros H. destruct (IH H) as (v0 & te & tt & be & bt & Hin & R). exists v0, te, tt, be, bt. split; [right; exact Hin|exact R]. }
  destruct (String.eqb_spec name (vl_name v)) as [E|E]; [|exact K].
  destruct (rec (vl_top v)) as [[[te tt]|]| | |] eqn:Et; cbn [bind]; try discriminate; [|exact K].
  destruct (rec (vl_bot v)) as [[[be bt]|]| | |] eqn:Eb; cbn [bind]; try discriminate; [|exact K].
  intros H. injection H as <- <-. exists v, te, tt, be, bt. split; [left; reflexivity|]. split; [auto|]. auto.
Qed.

Lemma try_via_none rec name vs :
  try_via rec name vs = Ok None ->
  forall v, In v vs -> vl_name v = name -> rec (vl_top v) = Ok None \/ rec (vl_bot v) = Ok None.
Proof.
  induction vs as [|v vs IH]; cbn [try_via]; [intros _ v []|].
  destruct (String.eqb_spec name (vl_name v)) as [E|E].
  - destruct (rec (vl_top v)) as [[[te tt]|]| | |] eqn:Et; cbn [bind]; try discriminate.
    + destruct (rec (vl_bot v)) as [[[be bt]|]| | |] eqn:Eb; cbn [bind]; try discriminate.
      intros H v0 [<-|Hin] Hn; [right; exact Eb|exact (IH H v0 Hin Hn)].
    + intros H v0 [<-|Hin] Hn; [left; exact Et|exact (IH H v0 Hin Hn)].
  - intros H v0 [<-|Hin] Hn; [congruence|exact (IH H v0 Hin Hn)].
Qed.

Lemma height_sound f h : forall name e t,
  height_thickness f h name = Ok (Some (e, t)) -> placed h name e t.
Proof.
  induction f as [|f IH]; intros name e t; [discriminate|]. rewrite height_thickness_S.
  destruct (find _ _) as [l|] eqn:Ef.
  - intros H. injection H as <- <-. destruct (find_metal_some _ _ _ Ef) as [<- (l1 & l2 & E & N)].
    exact (PMetal h l1 l l2 E N).
  - intros H. destruct (try_via_some _ _ _ _ _ H) as (v & te & tt & be & bt & Hin & <- & Ht & Hb & -> & ->).
    apply (PVia h v te tt be bt); [exact (find_metal_none _ _ Ef)|exact Hin|apply IH; exact Ht|apply IH; exact Hb].
Qed.

Lemma height_none f h : forall name,
  height_thickness f h name = Ok None -> forall e t, ~ placed h name e t.
Proof.
  induction f as [|f IH]; intros name; [discriminate|]. rewrite height_thickness_S.
  destruct (find _ _) as [l|] eqn:Ef; [discriminate|].
  pose proof (find_metal_none _ _ Ef) as N.
  intros H e t P. inversion P as [l1 m l2 E N' Hn|v te tt be bt Hnv Hin Pt Pb Hn]; subst.
  - apply N. rewrite E, map_app, in_app_iff. right. left. reflexivity.
  - destruct (try_via_none _ _ _ H v Hin eq_refl) as [F|F]; exact (IH _ F _ _ ltac:(eassumption)).
Qed.

Lemma try_via_mono (r1 r2 : string -> res (option (Q * Q))) name :
  (forall n, r1 n <> OutOfFuel -> r2 n = r1 n) ->
  forall vs, try_via r1 name vs <> OutOfFuel -> try_via r2 name vs = try_via r1 name vs.
Proof.
  intros Hr vs. induction vs as [|v vs IH]; cbn [try_via]; [reflexivity|].
  destruct (String.eqb name (vl_name v)); [|exact IH].
  destruct (r1 (vl_top v)) as [[[te tt]|]| | |] eqn:Et; cbn [bind]; intros H;
    try (exfalso; apply H; reflexivity); (rewrite (Hr (vl_top v)) by congruence); rewrite Et; cbn [bind]; try reflexivity.
  - destruct (r1 (vl_bot v)) as [[[be bt]|]| | |] eqn:Eb; cbn [bind] in *;
      try (exfalso; apply H; reflexivity); (rewrite (Hr (vl_bot v)) by congruence); rewrite Eb; cbn [bind]; try reflexivity.
    apply IH. exact H.
  - apply IH. exact H.
Qed.

Lemma height_mono h f : forall name,
  height_thickness f h name <> OutOfFuel -> height_thickness (S f) h name = height_thickness f h name.
Proof.
  induction f as [|f IH]; intros name H; [exfalso; apply H; reflexivity|].
  rewrite (height_thickness_S (S f)), height_thickness_S. rewrite height_thickness_S in H.
  destruct (find _ _); [reflexivity|]. apply try_via_mono; [exact IH|exact H].
Qed.

Lemma height_mono_le h name f f' : (f <= f')%nat ->
  height_thickness f h name <> OutOfFuel -> height_thickness f' h name = height_thickness f h name.
Proof.
  intros L H. induction L as [|f' L IH]; [reflexivity|]. rewrite height_mono; [exact IH|rewrite IH; exact H].
Qed.

Lemma height_ok h f : forall name, height_thickness f h name <> OutOfFuel ->
  exists r, height_thickness f h name = Ok r.
Proof.
  induction f as [|f IH]; intros name H; [exfalso; apply H; reflexivity|].
  rewrite height_thickness_S in *. destruct (find _ _); [eexists; reflexivity|].
  revert H. generalize (h_via h) as vs. induction vs as [|v vs IHv]; cbn [try_via]; [eexists; reflexivity|].
  destruct (String.eqb name (vl_name v)); [|exact IHv].
  intros H. destruct (IH (vl_top v)) as [t Et].
  { intros E. apply H. rewrite E. reflexivity. }
  rewrite Et in *. cbn [bind] in *. destruct t as [[te tt]|]; [|exact (IHv H)].
  destruct (IH (vl_bot v)) as [b Eb].
  { intros E. apply H. rewrite E. reflexivity. }
  rewrite Eb in *. cbn [bind] in *. destruct b as [[be bt]|]; [eexists; reflexivity|exact (IHv H)].
Qed.

Lemma height_ranked h rank : ranked h rank -> forall f name, (rank name < f)%nat ->
  exists r, height_thickness f h name = Ok r.
Proof.
  intros Hr f. induction f as [|f IH]; intros name L; [lia|]. rewrite height_thickness_S.
  destruct (find _ _) eqn:Ef; [eexists; reflexivity|]. pose proof (find_metal_none _ _ Ef) as N.
  assert (G : forall v, In v (h_via h) -> vl_name v = name -> (rank (vl_top v) < f)%nat /\ (rank (vl_bot v) < f)%nat).
  { intros v Hin E. subst name. destruct (Hr v Hin N). lia. }
  revert G. generalize (h_via h) as vs. induction vs as [|v vs IHv]; intros G; cbn [try_via]; [eexists; reflexivity|].
  assert (G' : forall v, In v vs -> vl_name v = name -> (rank (vl_top v) < f)%nat /\ (rank (vl_bot v) < f)%nat)
    by (intros v' Hin; apply G; right; exact Hin).
  destruct (String.eqb_spec name (vl_name v)) as [E|E]; [|exact (IHv G')].
  destruct (G v (or_introl eq_refl) (eq_sym E)) as [G1 G2].
  destruct (IH _ G1) as [t Et]. rewrite Et. cbn [bind]. destruct t as [[te tt]|]; [|exact (IHv G')].
  destruct (IH _ G2) as [b Eb]. rewrite Eb. cbn [bind]. destruct b as [[be bt]|]; [eexists; reflexivity|exact (IHv G')].
Qed.

(** ** The list of resolved layers *)

Lemma all_layers_spec f h : forall names ls, all_layers f h names = Ok ls ->
  forall c, In c ls <-> In (cl_name c) names /\ height_thickness f h (cl_name c) = Ok (Some (cl_elev c, cl_thick c)).
Proof.
  induction names as [|n ns IH]; cbn [all_layers]; intros ls H c.
  - injection H as <-. cbn [In]. tauto.
  - destruct (height_thickness f h n) as [r| | |] eqn:Er; cbn [bind] in H; try discriminate.
    destruct (all_layers f h ns) as [l| | |] eqn:El; cbn [bind] in H; try discriminate.
    specialize (IH l eq_refl c). injection H as <-. cbn [In]. destruct r as [[e t]|].
    + cbn [In]. split.
      * intros [Hc|Hc]; [subst c; cbn; auto|]. apply IH in Hc. tauto.
      * intros [[Hn|Hn] Hh].
        -- subst n. rewrite Er in Hh. injection Hh as E1 E2. left. destruct c; cbn in *. congruence.
        -- right. apply IH. auto.
    + split.
      * intros Hc. apply IH in Hc. tauto.
      * intros [[Hn|Hn] Hh]; [subst n; congruence|]. apply IH. auto.
Qed.

Lemma all_layers_resolves f h names ls : all_layers f h names = Ok ls ->
  forall n, In n names -> exists r, height_thickness f h n = Ok r.
Proof.
  revert ls. induction names as [|m ns IH]; cbn [all_layers]; intros ls H n Hin; [destruct Hin|].
  destruct (height_thickness f h m) as [r| | |] eqn:Er; cbn [bind] in H; try discriminate.
  destruct (all_layers f h ns) as [l| | |] eqn:El; cbn [bind] in H; try discriminate.
  destruct Hin as [<-|Hin]; [eauto|exact (IH l eq_refl n Hin)].
Qed.

Lemma all_layers_mono f f' h names ls : (f <= f')%nat -> all_layers f h names = Ok ls -> all_layers f' h names = Ok ls.
Proof.
  intros L. revert ls. induction names as [|n ns IH]; cbn [all_layers]; intros ls H; [exact H|].
  destruct (height_thickness f h n) as [r| | |] eqn:Er; cbn [bind] in H; try discriminate.
  rewrite (height_mono_le h n f f' L) by congruence. rewrite Er. cbn [bind].
  destruct (all_layers f h ns) as [l| | |] eqn:El; cbn [bind] in H; try discriminate.
  rewrite (IH l eq_refl). exact H.
Qed.

Lemma all_layers_ranked h rank : ranked h rank -> forall names, exists N ls, all_layers N h names = Ok ls.
Proof.
  intros Hr. induction names as [|n ns [N [ls IH]]]; [exists O, []; reflexivity|].
  exists (Nat.max N (S (rank n))). cbn [all_layers].
  destruct (height_ranked h rank Hr (Nat.max N (S (rank n))) n ltac:(lia)) as [r Er]. rewrite Er. cbn [bind].
  rewrite (all_layers_mono N _ h ns ls (Nat.le_max_l _ _) IH). cbn [bind]. eexists; reflexivity.
Qed.

(** ** Sorting *)

Definition desc (a b : clayer) : Prop := (cl_elev b <= cl_elev a)%Q.

Lemma insert_perm l ls : Permutation (l :: ls) (insert_layer l ls).
Proof.
  induction ls as [|x ls IH]; cbn [insert_layer]; [reflexivity|].
  destruct (Qle_bool _ _); [reflexivity|]. rewrite perm_swap, IH. reflexivity.
Qed.

Lemma sort_perm ls : Permutation ls (sort_layers ls).
Proof.
  induction ls as [|x ls IH]; [constructor|]. cbn [sort_layers fold_right]. rewrite <- insert_perm.
  constructor. exact IH.
Qed.

Lemma insert_sorted l ls : StronglySorted desc ls -> StronglySorted desc (insert_layer l ls).
Proof.
  induction 1 as [|x ls Hs IH Hf]; cbn [insert_layer]; [repeat constructor|].
  destruct (Qle_bool (cl_elev x) (cl_elev l)) eqn:E.
  - apply Qle_bool_iff in E. constructor; [constructor; assumption|]. constructor; [exact E|].
    eapply Forall_impl; [|exact Hf]. intros y Hy. unfold desc in *. lra.
  - constructor; [exact IH|]. rewrite Forall_forall in *. intros y Hy.
    apply (Permutation_in _ (Permutation_sym (insert_perm l ls))) in Hy. destruct Hy as [<-|Hy].
    + unfold desc. destruct (Qlt_le_dec (cl_elev l) (cl_elev x)) as [L|L]; [lra|].
      apply Qle_bool_iff in L. congruence.
    + apply Hf. exact Hy.
Qed.

Lemma sort_sorted ls : StronglySorted desc (sort_layers ls).
Proof. induction ls; cbn; [constructor|]. apply insert_sorted. assumption. Qed.

(** ** Grouping *)

Definition add_layer (g : group) (l : clayer) : group :=
  mkgroup (g_elev g) (uinsert (cl_name l) (g_names g)) (g_thicks g ++ [cl_thick l]).
Definition group_of (p : clayer * list clayer) : group :=
  fold_left add_layer (snd p) (mkgroup (cl_elev (fst p)) [cl_name (fst p)] [cl_thick (fst p)]).
Definition seg_last (p : clayer * list clayer) : clayer := last (snd p) (fst p).

Fixpoint gaps (tol : Q) (segs : list (clayer * list clayer)) : Prop :=
  match segs with
  | a :: ((b :: _) as segs') => Qeqt tol (cl_elev (seg_last a)) (cl_elev (fst b)) = false /\ gaps tol segs'
  | _ => True
  end.

Definition seg_all (p : clayer * list clayer) : list clayer := fst p :: snd p.

Lemma last_snoc {A} (l : list A) x d : last (l ++ [x]) d = x.
Proof. induction l as [|y l IH]; [reflexivity|]. cbn [app]. destruct l; [reflexivity|exact IH]. Qed.

Lemma groups_from_segs tol : forall ls l0 s0, exists segs,
  groups_from tol (group_of (l0, s0)) (cl_elev (seg_last (l0, s0))) ls = map group_of segs /\
  l0 :: s0 ++ ls = List.concat (map seg_all segs) /\ gaps tol segs /\
  exists s1 segs', segs = (l0, s1) :: segs'.
Proof.
  induction ls as [|l ls IH]; intros l0 s0; cbn [groups_from].
  - exists [(l0, s0)]. split; [reflexivity|]. split; [cbn; rewrite !app_nil_r; reflexivity|].
    split; [exact I|]. eexists _, _; reflexivity.
  - destruct (Qeqt tol _ _) eqn:E.
    + destruct (IH l0 (s0 ++ [l])) as (segs & E1 & E2 & G & W). exists segs.
      split; [|split; [|split; assumption]].
      * rewrite <- E1. unfold seg_last, group_of. cbn [fst snd]. rewrite last_snoc, fold_left_app. reflexivity.
      * rewrite <- E2, <- app_assoc. reflexivity.
    + destruct (IH l []) as (segs & E1 & E2 & G & (s1 & segs' & W)). subst segs.
      exists ((l0, s0) :: (l, s1) :: segs'). split; [|split; [|split]].
      * cbn [map]. f_equal. exact E1.
      * cbn [map List.concat seg_all fst snd app]. cbn [map List.concat seg_all fst snd app] in E2. rewrite <- E2. reflexivity.
      * cbn [gaps]. split; [exact E|exact G].
      * eexists _, _; reflexivity.
Qed.

Lemma make_groups_segs tol ls : exists segs,
  make_groups tol ls = map group_of segs /\ ls = List.concat (map seg_all segs) /\ gaps tol segs.
Proof.
  destruct ls as [|l ls]; [exists []; repeat split|].
  destruct (groups_from_segs tol ls l []) as (segs & E1 & E2 & G & _). exists segs. auto.
Qed.

Lemma uinsert_in n s x : In x (uinsert n s) <-> x = n \/ In x s.
Proof.
  unfold uinsert. destruct (existsb (String.eqb n) s) eqn:E.
  - apply existsb_exists in E. destruct E as (y & Hy & Ey). apply String.eqb_eq in Ey. subst y.
    split; [auto|]. intros [->|H]; assumption.
  - rewrite in_app_iff. cbn [In]. split; [intros [H|[H|[]]]; auto|intros [H|H]; auto].
Qed.

Lemma uinsert_nodup n s : NoDup s -> NoDup (uinsert n s).
Proof.
  intros H. unfold uinsert. destruct (existsb (String.eqb n) s) eqn:E; [exact H|].
  apply (Permutation_NoDup (Permutation_cons_append s n)). constructor; [|exact H].
  intros Hin. assert (existsb (String.eqb n) s = true); [|congruence].
  apply existsb_exists. exists n. split; [exact Hin|apply String.eqb_refl].
Qed.

Lemma fold_add_elev s : forall g, g_elev (fold_left add_layer s g) = g_elev g.
Proof. induction s as [|l s IH]; intros g; [reflexivity|]. cbn [fold_left]. rewrite IH. reflexivity. Qed.

Lemma fold_add_names s : forall g x, In x (g_names (fold_left add_layer s g)) <-> In x (g_names g) \/ In x (map cl_name s).
Proof.
  induction s as [|l s IH]; intros g x; cbn [fold_left map In]; [tauto|].
  rewrite IH. cbn [add_layer g_names]. rewrite uinsert_in. intuition congruence.
Qed.

Lemma fold_add_nodup s : forall g, NoDup (g_names g) -> NoDup (g_names (fold_left add_layer s g)).
Proof. induction s as [|l s IH]; intros g H; [exact H|]. cbn [fold_left]. apply IH. apply uinsert_nodup. exact H. Qed.

Lemma fold_add_thicks s : forall g, g_thicks (fold_left add_layer s g) = g_thicks g ++ map cl_thick s.
Proof.
  induction s as [|l s IH]; intros g; cbn [fold_left map]; [rewrite app_nil_r; reflexivity|].
  rewrite IH. cbn [add_layer g_thicks]. rewrite <- app_assoc. reflexivity.
Qed.

Lemma group_of_elev p : g_elev (group_of p) = cl_elev (fst p).
Proof. unfold group_of. rewrite fold_add_elev. reflexivity. Qed.
Lemma group_of_names p x : In x (g_names (group_of p)) <-> exists c, In c (seg_all p) /\ cl_name c = x.
Proof.
  unfold group_of. rewrite fold_add_names. cbn [g_names In seg_all]. unfold seg_all. split.
  - intros [[H|[]]|H]; [exists (fst p); split; [left; reflexivity|exact H]|].
    apply in_map_iff in H. destruct H as (c & <- & Hc). exists c. split; [right; exact Hc|reflexivity].
  - intros (c & [<-|Hc] & <-); [left; left; reflexivity|right; apply in_map; exact Hc].
Qed.
Lemma group_of_nodup p : NoDup (g_names (group_of p)).
Proof. apply fold_add_nodup. cbn. constructor; [intros []|constructor]. Qed.
Lemma group_of_thicks p : g_thicks (group_of p) = map cl_thick (seg_all p).
Proof. unfold group_of. rewrite fold_add_thicks. reflexivity. Qed.

(** Members of a segment of a sorted list lie between its first layer and the next segment. *)
Lemma sorted_app_l (a b : list clayer) : StronglySorted desc (a ++ b) -> StronglySorted desc a.
Proof.
  induction a as [|x a IH]; intros H; [constructor|]. inversion H; subst. constructor; [apply IH; assumption|].
  match goal with F : Forall _ (a ++ b) |- _ => apply Forall_app in F; tauto end.
Qed.
Lemma sorted_app_r (a b : list clayer) : StronglySorted desc (a ++ b) -> StronglySorted desc b.
Proof. induction a as [|x a IH]; intros H; [exact H|]. inversion H; subst. apply IH. assumption. Qed.
Lemma sorted_last_min : forall s l, StronglySorted desc (l :: s) ->
  forall c, In c (l :: s) -> (cl_elev (last s l) <= cl_elev c)%Q.
Proof.
  induction s as [|x s IH]; intros l H c Hc.
  - destruct Hc as [<-|[]]. apply Qle_refl.
  - assert (E : last (x :: s) l = last s x).
    { clear. revert x l. induction s as [|y s IH]; intros x l; [reflexivity|].
      change (last (x :: y :: s) l) with (last (y :: s) l). rewrite IH. rewrite IH. reflexivity. }
    rewrite E. inversion H as [|? ? H1 H2]; subst. destruct Hc as [<-|Hc].
    + apply Qle_trans with (cl_elev x); [apply (IH x H1 x); left; reflexivity|].
      inversion H2; subst. assumption.
    + exact (IH x H1 c Hc).
Qed.

Lemma last_in {A} (s : list A) : forall l, In (last s l) (l :: s).
Proof.
  induction s as [|x s IH]; intros l; [left; reflexivity|]. destruct s as [|y s]; [right; left; reflexivity|].
  change (last (x :: y :: s) l) with (last (y :: s) l). destruct (IH l) as [E|E]; [left; exact E|right; right; exact E].
Qed.

Definition bands (tol : Q) (segs : list (clayer * list clayer)) : Prop :=
  Forall (fun p => forall c, In c (seg_all p) -> (cl_elev c <= cl_elev (fst p))%Q) segs /\
  (forall p1 a b p2, segs = p1 ++ a :: b :: p2 -> forall c, In c (seg_all a) -> (cl_elev (fst b) + tol < cl_elev c)%Q).

Lemma sorted_bands tol : (0 <= tol)%Q -> forall segs,
  StronglySorted desc (List.concat (map seg_all segs)) -> gaps tol segs -> bands tol segs.
Proof.
  intros Ht. induction segs as [|a segs IH]; intros Hs Hg.
  - split; [constructor|]. intros [|? ?]; discriminate.
  - cbn [map List.concat] in Hs. assert (Hg' : gaps tol segs) by (destruct segs; [exact I|apply Hg]).
    destruct (IH (sorted_app_r _ _ Hs) Hg') as [B1 B2]. split.
    + constructor; [|exact B1]. intros c Hc. pose proof (sorted_app_l _ _ Hs) as Hl. unfold seg_all in *.
      inversion Hl as [|? ? H1 H2]; subst. destruct Hc as [<-|Hc]; [apply Qle_refl|].
      rewrite Forall_forall in H2. exact (H2 c Hc).
    + intros [|q p1] x b p2 E c Hc; cbn [app] in E; injection E as <- E.
      * subst segs. destruct Hg as [Hg _]. unfold Qeqt in Hg.
        assert (K : (cl_elev (fst b) <= cl_elev (seg_last a))%Q).
        { cbn [map List.concat] in Hs. unfold seg_last.
          assert (Hl : In (last (snd a) (fst a)) (seg_all a)).
          { apply last_in. }
          assert (D : desc (last (snd a) (fst a)) (fst b)); [|exact D].
          clear - Hs Hl. revert Hs Hl. generalize (seg_all a) as u, (last (snd a) (fst a)) as y.
          induction u as [|z u IH]; intros y Hs Hl; [destruct Hl|].
          cbn [app] in Hs; inversion Hs as [|? ? H1 H2]; subst. destruct Hl as [<-|Hl].
          - apply Forall_app in H2. destruct H2 as [_ H2]. cbn [app seg_all] in H2. inversion H2; subst. assumption.
          - apply IH; assumption. }
        assert (K2 : (cl_elev (seg_last a) <= cl_elev c)%Q).
        { apply sorted_last_min; [|exact Hc]. exact (sorted_app_l _ _ Hs). }
        destruct (Qlt_le_dec tol (Qabs (cl_elev (seg_last a) - cl_elev (fst b)))) as [L|L].
        -- rewrite Qabs_pos in L by lra. lra.
        -- apply Qle_bool_iff in L. congruence.
      * exact (B2 p1 x b p2 E c Hc).
Qed.

(** ** The finished stack *)

Lemma stack_names gs : map sl_names (stack_layers gs) = map g_names gs.
Proof. induction gs as [|g [|g' gs] IH]; [reflexivity|reflexivity|]. cbn [stack_layers map sl_names]. f_equal. exact IH. Qed.
Lemma stack_elevs gs : map sl_elev (stack_layers gs) = map g_elev gs.
Proof. induction gs as [|g [|g' gs] IH]; [reflexivity|reflexivity|]. cbn [stack_layers map sl_elev]. f_equal. exact IH. Qed.

Lemma stack_cons g g' gs : stack_layers (g :: g' :: gs) =
  mkslayer (g_names g) (g_elev g) (g_elev g - g_elev g') :: stack_layers (g' :: gs).
Proof. reflexivity. Qed.

Lemma stack_contiguous tol segs : (0 <= tol)%Q -> bands tol segs -> contiguous (stack_layers (map group_of segs)).
Proof.
  intros Ht. induction segs as [|a [|b segs] IH]; intros B; [exact I|exact I|].
  cbn [map]. rewrite stack_cons. assert (B' : bands tol (b :: segs)).
  { destruct B as [B1 B2]. split; [inversion B1; assumption|]. intros p1 x y p2 E. apply (B2 (a :: p1) x y p2). rewrite E. reflexivity. }
  specialize (IH B'). cbn [map] in IH.
  assert (HD : exists s st, stack_layers (group_of b :: map group_of segs) = s :: st /\ sl_elev s = g_elev (group_of b)).
  { destruct segs; cbn [map stack_layers]; eexists _, _; split; reflexivity. }
  destruct HD as (s & st & E1 & E2). rewrite E1 in *. cbn [contiguous sl_elev sl_thick].
  split; [|split; [rewrite E2; apply Qeq_refl|exact IH]].
  rewrite E2, !group_of_elev. destruct B as [_ B2]. pose proof (B2 [] a b segs eq_refl (fst a) (or_introl eq_refl)) as H. cbn in H. lra.
Qed.

Lemma bands_decreasing tol : (0 <= tol)%Q -> forall segs a, bands tol (a :: segs) ->
  forall b, In b segs -> forall c, In c (seg_all a) -> (cl_elev (fst b) < cl_elev c)%Q.
Proof.
  intros Ht segs. induction segs as [|x segs IH]; intros a B b Hb c Hc; [destruct Hb|].
  assert (B' : bands tol (x :: segs)).
  { destruct B as [B1 B2]. split; [inversion B1; assumption|]. intros p1 u v p2 E. apply (B2 (a :: p1) u v p2). rewrite E. reflexivity. }
  destruct B as [_ B2]. pose proof (B2 [] a x segs eq_refl c Hc) as H.
  destruct Hb as [<-|Hb]; [lra|].
  pose proof (IH x B' b Hb (fst x) (or_introl eq_refl)). lra.
Qed.

(** The names of different groups are disjoint when a name determines an elevation. *)
Lemma bands_nodup tol : (0 <= tol)%Q -> forall segs, bands tol segs ->
  (forall c1 c2, In c1 (List.concat (map seg_all segs)) -> In c2 (List.concat (map seg_all segs)) ->
     cl_name c1 = cl_name c2 -> cl_elev c1 = cl_elev c2) ->
  NoDup (List.concat (map g_names (map group_of segs))).
Proof.
  intros Ht. induction segs as [|a segs IH]; intros B F; cbn [map List.concat]; [constructor|].
  assert (B' : bands tol segs).
  { destruct B as [B1 B2]. split; [inversion B1; assumption|]. intros p1 x y p2 E. apply (B2 (a :: p1) x y p2). rewrite E. reflexivity. }
  assert (D : NoDup (List.concat (map g_names (map group_of segs)))).
  { apply IH; [exact B'|]. intros c1 c2 H1 H2. apply F; cbn [map List.concat]; rewrite in_app_iff; right; assumption. }
  pose proof (group_of_nodup a) as Da.
  assert (X : forall n, In n (g_names (group_of a)) -> ~ In n (List.concat (map g_names (map group_of segs)))).
  { intros n Hn Hm. apply group_of_names in Hn. destruct Hn as (c1 & Hc1 & E1).
    apply in_concat in Hm. destruct Hm as (l & Hl & Hm). apply in_map_iff in Hl. destruct Hl as (g & <- & Hg).
    apply in_map_iff in Hg. destruct Hg as (b & <- & Hb). apply group_of_names in Hm. destruct Hm as (c2 & Hc2 & E2).
    assert (E : cl_elev c1 = cl_elev c2).
    { apply F; cbn [map List.concat]; rewrite ?in_app_iff; [left; exact Hc1|right|congruence].
      apply in_concat. exists (seg_all b). split; [apply in_map; exact Hb|exact Hc2]. }
    pose proof (bands_decreasing tol Ht segs a B b Hb c1 Hc1) as L.
    destruct B' as [B1 _]. rewrite Forall_forall in B1. pose proof (B1 b Hb c2 Hc2) as L2. rewrite E in L. lra. }
  clear - D Da X. induction (g_names (group_of a)) as [|n l IH]; [exact D|]. inversion Da; subst. cbn [app]. constructor.
  - rewrite in_app_iff. intros [H|H]; [contradiction|]. apply (X n); [left; reflexivity|exact H].
  - apply IH; [assumption|]. intros m Hm. apply X. right. exact Hm.
Qed.

Lemma fold_max_ge l : forall x, (x <= fold_left (fun a b => if Qle_bool b a then a else b) l x)%Q /\
  (forall y, In y l -> (y <= fold_left (fun a b => if Qle_bool b a then a else b) l x)%Q) /\
  In (fold_left (fun a b => if Qle_bool b a then a else b) l x) (x :: l).
Proof.
  induction l as [|z l IH]; intros x; cbn [fold_left]; [split; [apply Qle_refl|split; [intros y []|left; reflexivity]]|].
  destruct (IH (if Qle_bool z x then x else z)) as (H1 & H2 & H3).
  assert (L : (x <= (if Qle_bool z x then x else z))%Q /\ (z <= (if Qle_bool z x then x else z))%Q).
  { destruct (Qle_bool z x) eqn:E; [apply Qle_bool_iff in E; lra|]. split; [|lra].
    destruct (Qlt_le_dec x z) as [L|L]; [lra|]. apply Qle_bool_iff in L. congruence. }
  split; [lra|]. split.
  - intros y [<-|Hy]; [lra|auto].
  - destruct H3 as [H3|H3]; [|right; right; exact H3]. rewrite <- H3. destruct (Qle_bool z x); [left; reflexivity|right; left; reflexivity].
Qed.

Lemma stack_last_thick gs g : stack_layers (gs ++ [g]) =
  firstn (List.length gs) (stack_layers (gs ++ [g])) ++ [mkslayer (g_names g) (g_elev g) (qmax_list (g_thicks g))].
Proof.
  induction gs as [|x gs IH]; [reflexivity|]. cbn [app].
  destruct gs as [|y gs]; [reflexivity|]. cbn [app] in *.
  rewrite stack_cons. cbn [List.length firstn] in *. cbn [app]. f_equal. exact IH.
Qed.
