(** Lemmas about the GDSII import. *)
From Coq Require Import QArith.
From Verif Require Import Base Gds_Model GdsReader_Model Names_Model GdsImport_Model GdsImport_Spec.
Local Open Scope Z_scope.
Local Open Scope res_scope.

Lemma gstr_eqb_eq : forall a b, gstr_eqb a b = true <-> a = b.
Proof. intros a b. unfold gstr_eqb. destruct (list_eq_dec Z.eq_dec a b); split; congruence. Qed.
Lemma gstr_eqb_refl : forall a, gstr_eqb a a = true.
Proof. intros a. now apply gstr_eqb_eq. Qed.
Lemma gstr_eqb_neq : forall a b, a <> b -> gstr_eqb a b = false.
Proof. intros a b H. destruct (gstr_eqb a b) eqn:E; [|reflexivity]. apply gstr_eqb_eq in E. contradiction. Qed.

(** Positions of [g] in [gs], counted from [k]. *)
Fixpoint positions (g : Z) (gs : list Z) (k : nat) : list nat :=
  match gs with
  | [] => []
  | x :: gs' => if x =? g then k :: positions g gs' (S k) else positions g gs' (S k)
  end.

Fixpoint add_all (gs : list Z) (k : nat) (m : lidmap) : lidmap :=
  match gs with
  | [] => m
  | g :: gs' => add_all gs' (S k) (lid_add g k m)
  end.

Lemma file_layers_map : forall ls k e m, snd (file_layers ls k e m) = add_all (map gl_id ls) k m.
Proof.
  induction ls as [|l ls IH]; intros; cbn [file_layers add_all map]; [reflexivity|].
  specialize (IH (S k) (e - gl_thick l)%Q (lid_add (gl_id l) k m)).
  destruct (file_layers ls (S k) _ _). exact IH.
Qed.
Lemma default_layers_map : forall ls k m, snd (default_layers ls k m) = add_all ls k m.
Proof.
  induction ls as [|l ls IH]; intros; cbn [default_layers add_all]; [reflexivity|].
  specialize (IH (S k) (lid_add l k m)). destruct (default_layers ls (S k) _). exact IH.
Qed.

Lemma default_layers_names : forall ls k m,
  map il_name (fst (default_layers ls k m)) = map (fun l => codes "layer_" ++ int_codes l) ls.
Proof.
  induction ls as [|l ls IH]; intros; cbn [default_layers map]; [reflexivity|].
  specialize (IH (S k) (lid_add l k m)). destruct (default_layers ls (S k) _).
  cbn [fst] in *. cbn [map il_name]. f_equal. exact IH.
Qed.

Definition below (k : nat) (m : lidmap) : Prop := Forall (fun e => Forall (fun i => (i < k)%nat) (snd e)) m.

Lemma set_insert_last : forall s k, Forall (fun i => (i < k)%nat) s -> set_insert k s = s ++ [k].
Proof.
  induction s as [|y s IH]; intros k H; [reflexivity|].
  inversion H; subst. cbn [set_insert app].
  destruct (Nat.ltb_spec k y); [lia|]. destruct (Nat.eqb_spec k y); [lia|]. now rewrite IH.
Qed.

Lemma lid_find_add : forall g k m g', below k m ->
  lid_find g' (lid_add g k m) =
  if g =? g' then Some (match lid_find g m with Some s => s ++ [k] | None => [k] end) else lid_find g' m.
Proof.
  induction m as [|[k0 s] m IH]; intros g' Hb.
  - cbn [lid_add lid_find]. destruct (Z.eqb_spec g g'); reflexivity.
  - inversion Hb as [|? ? H1 H2]; subst. cbn [snd] in H1.
    cbn [lid_add]. destruct (Z.eqb_spec k0 g) as [->|Hn].
    + cbn [lid_find]. rewrite Z.eqb_refl. destruct (Z.eqb_spec g g') as [->|]; [|reflexivity].
      f_equal. now apply set_insert_last.
    + cbn [lid_find]. rewrite (proj2 (Z.eqb_neq k0 g) Hn).
      destruct (Z.eqb_spec k0 g') as [->|Hn'].
      * destruct (Z.eqb_spec g g'); [congruence|reflexivity].
      * apply IH. exact H2.
Qed.

Lemma below_add : forall g k m, below k m -> below (S k) (lid_add g k m).
Proof.
  induction m as [|[k0 s] m IH]; intros Hb; cbn [lid_add].
  - repeat constructor.
  - inversion Hb as [|? ? H1 H2]; subst. cbn [snd] in H1.
    assert (H1' : Forall (fun i => (i < S k)%nat) s) by (eapply Forall_impl; [|exact H1]; cbn; lia).
    destruct (k0 =? g).
    + constructor.
      * cbn [snd]. rewrite set_insert_last by exact H1. apply Forall_app. split; [exact H1'|repeat constructor].
      * eapply Forall_impl; [|exact H2]. intros e He. eapply Forall_impl; [|exact He]. cbn. lia.
    + constructor; [exact H1'|now apply IH].
Qed.

Lemma lid_find_add_all : forall gs k m g, below k m ->
  lid_find g (add_all gs k m) =
  match lid_find g m with
  | Some s => Some (s ++ positions g gs k)
  | None => match positions g gs k with [] => None | ps => Some ps end
  end.
Proof.
  induction gs as [|x gs IH]; intros k m g Hb; cbn [add_all positions].
  - destruct (lid_find g m); [now rewrite app_nil_r|reflexivity].
  - rewrite IH by now apply below_add. rewrite lid_find_add by exact Hb.
    destruct (Z.eqb_spec x g) as [->|Hn]; [|reflexivity].
    destruct (lid_find g m); [now rewrite <- app_assoc|reflexivity].
Qed.

Definition ids_of (gs : list Z) (g : Z) : list nat :=
  match lid_find g (add_all gs 0 []) with Some s => s | None => [] end.

Lemma ids_of_positions : forall gs g, ids_of gs g = positions g gs 0.
Proof.
  intros. unfold ids_of. rewrite lid_find_add_all by constructor. cbn [lid_find].
  destruct (positions g gs 0); reflexivity.
Qed.

Lemma positions_range : forall gs g k i, In i (positions g gs k) -> (k <= i < k + List.length gs)%nat.
Proof.
  induction gs as [|x gs IH]; intros g k i; cbn [positions]; [intros []|].
  destruct (x =? g); cbn [In List.length]; intros H.
  - destruct H as [->|H]; [lia|]. apply IH in H. lia.
  - apply IH in H. lia.
Qed.

Lemma positions_filter : forall gs g k i,
  filter (fun j => (j =? k + i)%nat) (positions g gs k) =
  match nth_error gs i with Some x => if x =? g then [(k + i)%nat] else [] | None => [] end.
Proof.
  induction gs as [|x gs IH]; intros g k i; cbn [positions].
  - destruct i; reflexivity.
  - destruct i as [|i]; cbn [nth_error].
    + assert (E : filter (fun j => (j =? k + 0)%nat) (positions g gs (S k)) = []).
      { destruct (filter _ _) as [|j l] eqn:E; [reflexivity|].
        assert (Hin : In j (filter (fun j => (j =? k + 0)%nat) (positions g gs (S k)))) by (rewrite E; now left).
        apply filter_In in Hin as [Hin Hj]. apply positions_range in Hin. apply Nat.eqb_eq in Hj. lia. }
      destruct (x =? g); cbn [filter]; rewrite ?E; [|reflexivity].
      rewrite Nat.add_0_r, Nat.eqb_refl. reflexivity.
    + replace (k + S i)%nat with (S k + i)%nat by lia. rewrite <- IH.
      destruct (x =? g); [|reflexivity]. cbn [filter].
      destruct (Nat.eqb_spec k (S k + i)); [lia|reflexivity].
Qed.

(** The primitives made of one object. *)
Lemma import_object_ids : forall gs o,
  import_object (add_all gs 0 []) o =
  match gds_layer o with
  | Some l => flat_map (fun i => match drawing i o with Some p => [p] | None => [] end) (positions l gs 0)
  | None => []
  end.
Proof.
  intros gs o.
  assert (F : forall (f : nat -> prim) l, flat_map (fun i => [f i]) l = map f l).
  { intros f l. induction l; cbn; [reflexivity|now f_equal]. }
  destruct o; cbn [import_object gds_layer drawing]; try reflexivity;
    rewrite F, <- ids_of_positions; unfold ids_of; destruct (lid_find layer _); reflexivity.
Qed.

Lemma drawing_layer : forall i o p, drawing i o = Some p -> prim_layer p = i.
Proof. intros i o p. destruct o; cbn; intros H; inversion H; reflexivity. Qed.

Lemma drawing_some : forall o l, gds_layer o = Some l -> forall i, exists p, drawing i o = Some p.
Proof. intros o l H i. destruct o; cbn in *; try discriminate; eauto. Qed.

Lemma filter_object : forall gs o i g, nth_error gs i = Some g ->
  filter (fun p => (prim_layer p =? i)%nat) (import_object (add_all gs 0 []) o) =
  match gds_layer o, drawing i o with
  | Some l, Some p => if l =? g then [p] else []
  | _, _ => []
  end.
Proof.
  intros gs o i g Hg. rewrite import_object_ids.
  destruct (gds_layer o) as [l|] eqn:El; [|reflexivity].
  destruct (drawing_some o l El i) as [p Ep]. rewrite Ep.
  assert (F : forall js,
    filter (fun p => (prim_layer p =? i)%nat) (flat_map (fun j => match drawing j o with Some p => [p] | None => [] end) js) =
    flat_map (fun j => match drawing j o with Some p => [p] | None => [] end) (filter (fun j => (j =? i)%nat) js)).
  { induction js as [|j js IH]; [reflexivity|]. cbn [flat_map].
    destruct (drawing_some o l El j) as [q Eq]. rewrite Eq. cbn [app filter].
    rewrite (drawing_layer _ _ _ Eq). destruct (Nat.eqb_spec j i) as [->|Hn].
    - cbn [flat_map]. rewrite Eq. cbn [app]. now f_equal.
    - exact IH. }
  rewrite F. pose proof (positions_filter gs l 0 i) as P. cbn [Nat.add] in P. rewrite P, Hg, (Z.eqb_sym g l).
  destruct (l =? g); [|reflexivity]. cbn [flat_map]. rewrite Ep. reflexivity.
Qed.

Lemma filter_flat_map : forall {A B} (f : A -> list B) (p : B -> bool) l,
  filter p (flat_map f l) = flat_map (fun x => filter p (f x)) l.
Proof.
  intros. induction l as [|x l IH]; cbn [flat_map filter]; [reflexivity|].
  rewrite filter_app. now f_equal.
Qed.

Lemma filter_cell : forall gs objs i g, nth_error gs i = Some g ->
  filter (fun p => (prim_layer p =? i)%nat) (flat_map (import_object (add_all gs 0 [])) objs) = drawings i g objs.
Proof.
  intros. rewrite filter_flat_map. unfold drawings. apply flat_map_ext. intros o. now apply filter_object.
Qed.

Lemma prims_range : forall gs objs,
  Forall (fun p => (prim_layer p < List.length gs)%nat) (flat_map (import_object (add_all gs 0 [])) objs).
Proof.
  intros. apply Forall_forall. intros p Hp. apply in_flat_map in Hp as (o & _ & Hp).
  rewrite import_object_ids in Hp. destruct (gds_layer o); [|destruct Hp].
  apply in_flat_map in Hp as (i & Hi & Hp). apply positions_range in Hi.
  destruct (drawing i o) as [q|] eqn:E; [|destruct Hp]. destruct Hp as [->|[]].
  rewrite (drawing_layer _ _ _ E). lia.
Qed.

(** *** Cells *)

Lemma find_cell_none : forall n cells, find_cell n cells = None <-> ~ In n (map ic_name cells).
Proof.
  intros n cells. unfold find_cell. induction cells as [|c cells IH]; cbn [find map In].
  - split; [intros _ []|reflexivity].
  - destruct (gstr_eqb (ic_name c) n) eqn:E.
    + apply gstr_eqb_eq in E. split; [discriminate|]. intros H. exfalso. apply H. now left.
    + rewrite IH. split; intros H.
      * intros [Heq|Hin]; [rewrite Heq, gstr_eqb_refl in E; discriminate|contradiction].
      * intros Hin. apply H. now right.
Qed.

Lemma import_cells_ok : forall layers m cs done,
  NoDup (map ic_name done ++ map c_name cs) ->
  import_cells layers m cs done = Ok (done ++ map (import_cell layers m) cs).
Proof.
  induction cs as [|c cs IH]; intros done Hnd; cbn [import_cells map].
  - now rewrite app_nil_r.
  - assert (Hn : find_cell (c_name c) done = None).
    { apply find_cell_none. cbn [map] in Hnd. apply NoDup_remove_2 in Hnd.
      intros Hin. apply Hnd. apply in_or_app. now left. }
    rewrite Hn, IH.
    + now rewrite <- app_assoc.
    + rewrite map_app. cbn [map]. rewrite <- app_assoc. exact Hnd.
Qed.

Lemma map_same : forall {A} (f : A -> A) l, (forall x, In x l -> f x = x) -> map f l = l.
Proof.
  intros A f l H. induction l as [|x l IH]; [reflexivity|]. cbn [map]. rewrite H by now left.
  f_equal. apply IH. intros y Hy. apply H. now right.
Qed.

Lemma import_reference_names : forall cells names o,
  map ic_name cells = names ->
  map placed (import_reference cells o) = placements names o.
Proof.
  intros cells names o <-.
  assert (E : forall c, match find_cell c cells with None => false | Some _ => true end =
                        existsb (gstr_eqb c) (map ic_name cells)).
  { intros c. unfold find_cell. induction cells as [|x cells IH]; [reflexivity|]. cbn [find map existsb].
    assert (S : gstr_eqb c (ic_name x) = gstr_eqb (ic_name x) c).
    { destruct (gstr_eqb (ic_name x) c) eqn:E.
      - apply gstr_eqb_eq in E. subst. apply gstr_eqb_refl.
      - apply gstr_eqb_neq. intros ->. rewrite gstr_eqb_refl in E. discriminate. }
    rewrite S. destruct (gstr_eqb (ic_name x) c); [reflexivity|exact IH]. }
  assert (A : forall c sc rot i ps, map placed (array_insts c sc rot i ps) = map (fun p => (c, sc, rot, p)) ps).
  { intros c sc rot i ps. revert i. induction ps as [|p ps IH]; intros i; [reflexivity|].
    cbn [array_insts map]. f_equal. apply IH. }
  destruct o; cbn [import_reference placements]; try reflexivity;
    rewrite <- E; destruct (find_cell cell cells); try reflexivity. apply A.
Qed.

Lemma import_reference_ext : forall a b o, map ic_name a = map ic_name b ->
  import_reference a o = import_reference b o.
Proof.
  intros a b o H.
  assert (E : forall c, match find_cell c a with None => false | Some _ => true end =
                        match find_cell c b with None => false | Some _ => true end).
  { intros c. destruct (find_cell c a) eqn:Ea, (find_cell c b) eqn:Eb; try reflexivity.
    - exfalso. apply find_cell_none in Eb. rewrite <- H in Eb. apply find_cell_none in Eb. congruence.
    - exfalso. apply find_cell_none in Ea. rewrite H in Ea. apply find_cell_none in Ea. congruence. }
  destruct o; cbn [import_reference]; try reflexivity;
    specialize (E cell); destruct (find_cell cell a), (find_cell cell b); congruence.
Qed.

Lemma add_insts_names : forall n is_ cells, map ic_name (add_insts n is_ cells) = map ic_name cells.
Proof.
  intros. unfold add_insts. rewrite map_map. apply map_ext. intros c.
  destruct (gstr_eqb (ic_name c) n); reflexivity.
Qed.

(** The cell made of [c] when all cells of the library have the names of [all]. *)
Definition final_cell (layers : list ilayer) (m : lidmap) (all : list icell) (c : gcell) : icell :=
  mkicell (c_name c) layers (flat_map (import_object m) (c_objs c)) (flat_map (import_reference all) (c_objs c)).

Lemma import_references_ok : forall layers m all cs done,
  NoDup (map c_name (done ++ cs)) ->
  map ic_name all = map c_name (done ++ cs) ->
  import_references cs (map (final_cell layers m all) done ++ map (import_cell layers m) cs) =
  Ok (map (final_cell layers m all) (done ++ cs)).
Proof.
  induction cs as [|c cs IH]; intros done Hnd Hall; cbn [import_references map].
  - now rewrite !app_nil_r.
  - set (cells := map (final_cell layers m all) done ++ import_cell layers m c :: map (import_cell layers m) cs).
    assert (Hnames : map ic_name cells = map ic_name all).
    { rewrite Hall. unfold cells. rewrite !map_app. cbn [map]. rewrite !map_map.
      reflexivity. }
    destruct (find_cell (c_name c) cells) as [x|] eqn:Ef.
    + assert (E : add_insts (c_name c) (flat_map (import_reference cells) (c_objs c)) cells =
        map (final_cell layers m all) (done ++ [c]) ++ map (import_cell layers m) cs).
      { rewrite map_app in Hnd. cbn [map] in Hnd. apply NoDup_remove_2 in Hnd.
        rewrite in_app_iff in Hnd.
        unfold add_insts, cells. rewrite map_app. cbn [map].
        rewrite map_app. cbn [map]. rewrite <- app_assoc. cbn [app].
        f_equal; [|f_equal].
        - apply map_same. intros y Hy. apply in_map_iff in Hy as (c' & <- & Hc').
          cbn [final_cell ic_name]. rewrite gstr_eqb_neq; [reflexivity|].
          intros Heq. apply Hnd. left. rewrite <- Heq. now apply in_map.
        - cbn [import_cell ic_name]. rewrite gstr_eqb_refl. cbn [ic_layers ic_prims ic_insts app].
          unfold final_cell. f_equal. apply flat_map_ext. intros o. apply import_reference_ext. exact Hnames.
        - apply map_same. intros y Hy. apply in_map_iff in Hy as (c' & <- & Hc').
          cbn [import_cell ic_name]. rewrite gstr_eqb_neq; [reflexivity|].
          intros Heq. apply Hnd. right. rewrite <- Heq. now apply in_map. }
      rewrite E, IH.
      * now rewrite <- app_assoc.
      * rewrite <- app_assoc. exact Hnd.
      * rewrite <- app_assoc. exact Hall.
    + exfalso. apply find_cell_none in Ef. apply Ef. rewrite Hnames, Hall, map_app. cbn [map].
      apply in_or_app. right. now left.
Qed.

Definition source_layers (src : layer_source) : list ilayer :=
  match src with
  | FromFile (Some ls) => fst (file_layers ls 0 0%Q [])
  | FromFile None => []
  | FromGds order => fst (default_layers order 0 [])
  end.

Lemma source_layers_length : forall src, List.length (source_layers src) = List.length (numbers src).
Proof.
  intros [[ls|]|order]; cbn [source_layers numbers]; [|reflexivity|].
  - rewrite map_length. generalize 0%nat, 0%Q, (@nil (Z * list nat)).
    induction ls as [|l ls IH]; intros k e m; cbn [file_layers]; [reflexivity|].
    specialize (IH (S k) (e - gl_thick l)%Q (lid_add (gl_id l) k m)).
    destruct (file_layers ls _ _ _). cbn [fst List.length] in *. now rewrite IH.
  - rewrite <- (map_length il_name), default_layers_names. apply map_length.
Qed.

Lemma reg_set_fresh : forall n cells r, ~ In n (map fst r) -> reg_set n cells (r ++ [(n, [])]) = r ++ [(n, cells)].
Proof.
  intros n cells r H. unfold reg_set. rewrite map_app. cbn [map fst]. rewrite gstr_eqb_refl. f_equal.
  apply map_same. intros [k v] Hin. cbn [fst]. rewrite gstr_eqb_neq; [reflexivity|].
  intros ->. apply H. apply in_map_iff. exists (n, v). auto.
Qed.

Lemma create_ok : forall r name src db,
  ~ In name (map fst r) -> src <> FromFile None -> NoDup (map c_name (db_cells db)) ->
  let m := add_all (numbers src) 0 [] in
  let all := map (import_cell (source_layers src) m) (db_cells db) in
  create_database r name src db =
  Ok (r ++ [(name, map (final_cell (source_layers src) m all) (db_cells db))], true).
Proof.
  intros r name src db Hfresh Hsrc Hnd m all. unfold create_database.
  assert (E : existsb (fun e => gstr_eqb (fst e) name) r = false).
  { destruct (existsb _ r) eqn:E; [|reflexivity]. apply existsb_exists in E as ([k v] & Hin & Hk).
    apply gstr_eqb_eq in Hk. cbn [fst] in Hk. subst. exfalso. apply Hfresh. apply in_map_iff. exists (name, v). auto. }
  rewrite E.
  assert (L : match src with
              | FromFile None => None
              | FromFile (Some ls) => Some (file_layers ls 0 0%Q [])
              | FromGds order => Some (default_layers order 0 [])
              end = Some (source_layers src, m)).
  { unfold m. destruct src as [[ls|]|order]; [|congruence|]; cbn [source_layers numbers].
    - rewrite <- (file_layers_map ls 0 0%Q []). now destruct (file_layers _ _ _ _).
    - rewrite <- (default_layers_map order 0 []). now destruct (default_layers _ _ _). }
  rewrite L, import_cells_ok by exact Hnd. cbn [bind app].
  pose proof (import_references_ok (source_layers src) m all (db_cells db) []) as R.
  cbn [map app] in R. rewrite R; [|exact Hnd|unfold all; rewrite map_map; reflexivity].
  cbn [bind]. now rewrite reg_set_fresh.
Qed.

(** *** Invariants of the reader *)

Definition known_layers (db : gdb) : Prop :=
  forall c o l, In c (db_cells db) -> In o (c_objs c) -> gds_layer o = Some l -> In l (db_layers db).
Definition reader_inv (db : gdb) : Prop := NoDup (map c_name (db_cells db)) /\ NoDup (db_layers db) /\ known_layers db.

Lemma NoDup_app_comm_one : forall {A} (l : list A) x, NoDup l -> ~ In x l -> NoDup (l ++ [x]).
Proof.
  intros A l x H Hx. apply (NoDup_Add (a := x) (l := l)); [|split; assumption].
  pose proof (Add_app x l []) as P. now rewrite app_nil_r in P.
Qed.

Lemma add_cell_inv : forall n db, reader_inv db -> reader_inv (add_cell n db).
Proof.
  intros n db (Hn & Hl & Hk). unfold add_cell.
  destruct (existsb _ (db_cells db)) eqn:E; [repeat split; assumption|].
  split; [|split]; cbn [db_cells db_layers].
  - rewrite map_app. cbn [map c_name]. apply NoDup_app_comm_one; [exact Hn|].
    intros Hin. apply in_map_iff in Hin as (c & Hc & Hin).
    assert (X : existsb (fun c => gstr_eqb (c_name c) n) (db_cells db) = true); [|congruence].
    apply existsb_exists. exists c. split; [exact Hin|]. now apply gstr_eqb_eq.
  - exact Hl.
  - intros c o l Hc Ho Hol. cbn [db_cells db_layers] in *. apply in_app_or in Hc as [Hc|[<-|[]]]; [eauto|destruct Ho].
Qed.

Lemma add_layer_inv : forall l db, reader_inv db ->
  reader_inv (add_layer l db) /\ In (to_int16 l) (db_layers (add_layer l db)).
Proof.
  intros l db (Hn & Hl & Hk). unfold add_layer. cbv zeta.
  destruct (existsb (Z.eqb (to_int16 l)) (db_layers db)) eqn:E.
  - split; [repeat split; assumption|]. apply existsb_exists in E as (x & Hx & Ex).
    apply Z.eqb_eq in Ex. now subst.
  - split; [|cbn [db_layers]; apply in_or_app; right; now left].
    split; [exact Hn|split]; cbn [db_layers].
    + apply NoDup_app_comm_one; [exact Hl|]. intros Hin.
      assert (X : existsb (Z.eqb (to_int16 l)) (db_layers db) = true); [|congruence].
      apply existsb_exists. exists (to_int16 l). split; [exact Hin|apply Z.eqb_refl].
    + intros c o x Hc Ho Hx. cbn [db_layers db_cells] in *. apply in_or_app. left. eauto.
Qed.

Lemma push_back_inv : forall o db db', reader_inv db ->
  (forall l, gds_layer o = Some l -> In l (db_layers db)) ->
  push_back_obj o db = Ok db' -> reader_inv db'.
Proof.
  intros o db db' (Hn & Hl & Hk) Ho H. unfold push_back_obj in H.
  destruct (rev (db_cells db)) as [|c rc] eqn:E; [discriminate|]. inversion H; subst db'; clear H.
  assert (Ec : db_cells db = rev rc ++ [c]) by (rewrite <- (rev_involutive (db_cells db)), E; reflexivity).
  split; [|split]; cbn [db_cells db_layers].
  - rewrite Ec, map_app in Hn. rewrite map_app. exact Hn.
  - exact Hl.
  - intros x p l Hx Hp Hpl. cbn [db_cells db_layers] in *.
    apply in_app_or in Hx as [Hx|[<-|[]]].
    + apply (Hk x p l); try assumption. rewrite Ec. apply in_or_app. now left.
    + cbn [c_objs] in Hp. apply in_app_or in Hp as [Hp|[<-|[]]]; [|now apply Ho].
      apply (Hk c p l); try assumption. rewrite Ec. apply in_or_app. right. now left.
Qed.

Lemma make_obj_layer : forall st t o l, make_obj st t = Ok (Some o) -> gds_layer o = Some l -> l = to_int16 (t_layer t).
Proof.
  intros st t o l H Hl. unfold make_obj in H. cbv zeta in H.
  destruct ((st =? BOX) || (st =? BOUNDARY)); [inversion H; subst; inversion Hl; reflexivity|].
  destruct (st =? PATH); [inversion H; subst; inversion Hl; reflexivity|].
  destruct (st =? TEXT).
  { destruct (front (t_points t)); try discriminate. cbn [bind] in H. inversion H; subst; inversion Hl; reflexivity. }
  destruct (st =? SREF).
  { destruct (front (t_points t)); try discriminate. cbn [bind] in H. inversion H; subst; inversion Hl. }
  destruct (st =? AREF); inversion H; subst; inversion Hl.
Qed.

Ltac split_rec H :=
  repeat (let b := fresh "b" in
    match type of H with
    | (if ?c then _ else _) = Ok _ => destruct c
    | bind ?r _ = Ok _ => destruct r; cbn [bind] in H; try discriminate H
    end).

Lemma read_event_inv : forall s e s', reader_inv (s_db s) -> read_event s e = Ok s' -> reader_inv (s_db s').
Proof.
  intros s e s' I H.
  assert (RI : forall rt d, read_integer s rt d = Ok s' -> reader_inv (s_db s')).
  { intros rt d R. unfold read_integer in R. cbv zeta in R. split_rec R; inversion R; subst;
      cbn [s_db upd_temp upd_db upd_status]; exact I. }
  assert (RF : forall rt d, read_float s rt d = Ok s' -> reader_inv (s_db s')).
  { intros rt d R. unfold read_float in R. cbv zeta in R. split_rec R; inversion R; subst;
      cbn [s_db upd_temp upd_db upd_status]; exact I. }
  destruct e; cbn [read_event] in H; eauto.
  - unfold read_string in H. cbv zeta in H. split_rec H; inversion H; subst;
      cbn [s_db upd_temp upd_db upd_status]; try exact I.
    now apply add_cell_inv.
  - unfold read_begin_end in H.
    destruct (_ || _); [inversion H; subst; exact I|].
    destruct (rt =? ENDEL).
    + destruct (add_layer_inv (t_layer (s_temp s)) (s_db s) I) as [I' L].
      destruct (make_obj (s_status s) (s_temp s)) as [o| | |] eqn:Eo; cbn [bind] in H; try discriminate.
      destruct o as [o|].
      * destruct (push_back_obj o _) as [db'| | |] eqn:Ep; cbn [bind] in H; try discriminate.
        inversion H; subst. cbn [s_db]. eapply push_back_inv; [exact I'| |exact Ep].
        intros l Hl. rewrite (make_obj_layer _ _ _ _ Eo Hl). exact L.
      * cbn [bind] in H. inversion H; subst. exact I'.
    + destruct (rt =? ENDLIB); [inversion H; subst; exact I|].
      destruct (rt =? ENDSTR); inversion H; subst; exact I.
Qed.

Lemma read_events_inv : forall es s s', reader_inv (s_db s) -> read_events s es = Ok s' -> reader_inv (s_db s').
Proof.
  induction es as [|e es IH]; intros s s' I H; cbn [read_events] in H.
  - inversion H; now subst.
  - destruct (read_event s e) as [s1| | |] eqn:E; cbn [bind] in H; try discriminate.
    apply (IH s1); [|exact H]. eapply read_event_inv; eassumption.
Qed.

Lemma read_file_inv : forall fuel cap input db ok, read_file fuel cap input = Ok (db, ok) -> reader_inv db.
Proof.
  intros fuel cap input db ok H. unfold read_file in H.
  destruct (parse_stream fuel cap input) as [[evs b]| | |]; cbn [bind] in H; try discriminate.
  destruct (read_events rinit evs) as [s| | |] eqn:E; cbn [bind] in H; try discriminate.
  inversion H; subst. eapply read_events_inv; [|exact E].
  split; [constructor|split; [constructor|]]. intros c o l [].
Qed.

(** With distinct layer numbers each object is drawn at most once. *)
Lemma positions_NoDup : forall gs g k, NoDup gs ->
  positions g gs k = match positions g gs k with [] => [] | x :: _ => [x] end.
Proof.
  induction gs as [|x gs IH]; intros g k H; [reflexivity|]. inversion H; subst. cbn [positions].
  destruct (Z.eqb_spec x g) as [->|]; [|now apply IH].
  f_equal. destruct (positions g gs (S k)) as [|y l] eqn:E; [reflexivity|]. exfalso. apply H2.
  assert (Hy : In y (positions g gs (S k))) by (rewrite E; now left).
  clear - Hy. revert Hy. generalize (S k). induction gs as [|z gs IH]; intros k0; cbn [positions]; [intros []|].
  destruct (Z.eqb_spec z g) as [->|]; [intros _; now left|]. intros Hy. right. eapply IH, Hy.
Qed.

Lemma positions_In : forall gs g k, In g gs -> positions g gs k <> [].
Proof.
  induction gs as [|x gs IH]; intros g k; [intros []|]. cbn [positions].
  destruct (Z.eqb_spec x g); [discriminate|]. intros [|Hin]; [congruence|now apply IH].
Qed.

Lemma import_object_count : forall gs o, NoDup gs ->
  (forall l, gds_layer o = Some l -> In l gs) ->
  List.length (import_object (add_all gs 0 []) o) = match gds_layer o with Some _ => 1%nat | None => 0%nat end.
Proof.
  intros gs o Hnd Hin. rewrite import_object_ids.
  destruct (gds_layer o) as [l|] eqn:El; [|reflexivity].
  rewrite (positions_NoDup gs l 0 Hnd). pose proof (positions_In gs l 0 (Hin l eq_refl)) as Hne.
  destruct (positions l gs 0) as [|x ?]; [congruence|]. cbn [flat_map].
  destruct (drawing_some o l El x) as [p ->]. reflexivity.
Qed.
