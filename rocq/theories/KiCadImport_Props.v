From Coq Require Import Permutation.
From Verif Require Import Base QSum Net_Model Layers_Model Layers_Proofs Xfl_Model KiCadImport_Model KiCadImport_Spec KiCadImport_Proofs.
Local Open Scope string_scope.
Local Open Scope list_scope.

(** the board of the examples: a declared four-layer board with a dielectric in its stack-up *)
Definition ex_stoi (s : string) : option Z :=
  if String.eqb s "0" then Some 0%Z else if String.eqb s "1" then Some 1%Z else if String.eqb s "31" then Some 31%Z else if String.eqb s "44" then Some 44%Z else None.
Definition ex_idx (s : string) : Z := match ex_stoi s with Some z => z | None => 0%Z end.
Definition ex_num (s : string) : option Q := if String.eqb s "0.035" then Some (35 # 1000) else if String.eqb s "1.51" then Some (151 # 100) else None.
Definition ex_board : kfile :=
  {| kf_layers := [("0", "F.Cu", "signal"); ("1", "In1.Cu", "power"); ("31", "B.Cu", "signal"); ("44", "Edge.Cuts", "user")];
     kf_stack := [("F.Cu", [("type", "copper"); ("thickness", "0.035")]);
                  ("dielectric 1", [("type", "core"); ("thickness", "1.51"); ("material", "FR4")]);
                  ("B.Cu", [("type", "copper"); ("thickness", "0.035"); ("material", "gold")])];
     kf_nets := [("0", ""); ("1", "GND"); ("31", "VCC"); ("44", "LOCAL")] |}.
(** with a footprint that has a pad and declares the last net *)
Definition ex_file : list ktree :=
  leaf "version" :: firstn 1 (render ex_board) ++ [KNode "setup" (KNode "pad_to_mask_clearance" [leaf "0"] :: firstn 1 (skipn 1 (render ex_board)))] ++ firstn 3 (skipn 2 (render ex_board)) ++
  [KNode "footprint" [leaf "R1"; KNode "layer" [leaf "F.Cu"]; KNode "pad" [leaf "1"; leaf "smd"; leaf "rect"; KNode "at" []; KNode "size" [leaf "1"; leaf "2"]; KNode "net" [leaf "1"; leaf "HIDDEN"]]; net_tree ("44", "LOCAL")];
   KNode "segment" [KNode "net" [leaf "1"]]].

(** Whatever else the file contains and however the hash maps are walked, the layout of an imported board has
    exactly the declared nets, one for each name. *)
Theorem C68_nets : forall stoi num idx word open_dbs name f ts walk_layers walk_nets,
  ~ In name open_dbs -> declarations ts = render f -> (forall t, In t ts -> well_drawn t) ->
  (forall l, In l (kf_layers f) -> exists i, stoi (fst (fst l)) = Some i) ->
  NoDup (map (fun l => snd (fst l)) (kf_layers f)) -> NoDup (map (fun n => idx (fst n)) (kf_nets f)) ->
  (forall m, Permutation (walk_nets m) m) ->
  exists ly us nc,
    import_board stoi num idx word open_dbs name (Some ts) walk_layers walk_nets = (open_dbs ++ [name], Ok (Some (ly, us, nc))) /\
    NoDup (map fst (nc_map nc)) /\
    (forall n, (exists x, nc_find nc n = Some x) <-> In n (map snd (kf_nets f))).
Proof.
  intros stoi num idx word open_dbs name f ts wl wn Hf Hr Hd Hs Hn Hi Hw.
  unfold import_board; destruct (existsb (String.eqb name) open_dbs) eqn:E.
  { exfalso; apply existsb_exists in E as (x & Hx & Ex); apply String.eqb_eq in Ex; subst; auto. }
  rewrite extract_declarations, Hr, extract_render by auto; cbn [bind k_layers k_nets].
  rewrite nets_of_nodup by exact Hi; cbn [app].
  do 3 eexists; split; [reflexivity|].
  set (ns := map (fun n => (idx (fst n), snd n)) (kf_nets f)).
  destruct (create_nets_keys (wn ns) nc_init (NoDup_nil _)) as [H1 H2]; split; [exact H1|].
  intros n; unfold nc_find.
  assert (Hp : In n (map snd (wn ns)) <-> In n (map snd (kf_nets f))).
  { assert (P : Permutation (map snd (wn ns)) (map snd (kf_nets f))).
    { replace (map snd (kf_nets f)) with (map snd ns) by (unfold ns; rewrite map_map; reflexivity). apply Permutation_map, Hw. }
    split; apply Permutation_in; [exact P|apply Permutation_sym, P]. }
  rewrite <- Hp; specialize (H2 n); cbn [nc_init nc_map map In] in H2.
  unfold create_nets; split.
  - intros [x Hx]; apply (alookup_some_key _ String.eqb_spec) in Hx; apply H2 in Hx; tauto.
  - intros Hin; destruct (alookup String.eqb n (nc_map (fold_left (fun c (x : Z * string) => fst (nc_create c (snd x))) (wn ns) nc_init))) eqn:E2; [eauto|].
    apply (alookup_none _ String.eqb_spec) in E2; exfalso; apply E2, H2; auto.
Qed.
Print Assumptions C68_nets.
Example C68_nets_ex : exists ly us nc,
  import_board ex_stoi ex_num ex_idx Some ["a"] "b" (Some ex_file) (@rev _) (@rev _) = (["a"; "b"], Ok (Some (ly, us, nc))) /\
  map fst (nc_map nc) = ["LOCAL"; "VCC"; "GND"; ""].
Proof. do 3 eexists; split; vm_compute; reflexivity. Qed.
Example ex_file_drawn : forall t, In t ex_file -> well_drawn t.
Proof.
  intros t; apply (extract_all_well_drawn ex_stoi ex_num ex_idx Some ex_file kdb_init) with (d' := match extract ex_stoi ex_num ex_idx Some kdb_init ex_file with Ok d => d | _ => kdb_init end).
  vm_compute; reflexivity.
Qed.
Example C68_nets_hyp : declarations ex_file = render ex_board /\ NoDup (map (fun l => snd (fst l)) (kf_layers ex_board)) /\
  NoDup (map (fun n => ex_idx (fst n)) (kf_nets ex_board)) /\ forall l, In l (kf_layers ex_board) -> exists i, ex_stoi (fst (fst l)) = Some i.
Proof.
  repeat split; try reflexivity; try (repeat constructor; cbn; intuition discriminate).
  cbn; intros l H; decompose [or] H; subst; cbn; eauto; contradiction.
Qed.

(** The layers are the declared ones with ids up to 32, each once, with the type, thickness and material their
    stack-up entries say; they get the ids 0, 1, ... and lie one below the other from height 0 down. *)
Theorem C68_layers : forall stoi num idx word open_dbs name f ts walk_layers walk_nets,
  (forall s i, stoi s = Some i -> (- 2 ^ 31 <= i < 2 ^ 31)%Z) ->
  ~ In name open_dbs -> declarations ts = render f -> (forall t, In t ts -> well_drawn t) ->
  (forall l, In l (kf_layers f) -> exists i, stoi (fst (fst l)) = Some i) ->
  NoDup (map (fun l => snd (fst l)) (kf_layers f)) ->
  (forall m, Permutation (walk_layers m) m) ->
  exists ly us nc,
    import_board stoi num idx word open_dbs name (Some ts) walk_layers walk_nets = (open_dbs ++ [name], Ok (Some (ly, us, nc))) /\
    Permutation (map (fun u => (su_name u, su_type u, su_thick u, su_cond u, su_diel u)) us) (map (expected num word f) (filter (physical stoi) (kf_layers f))) /\
    stacked 0 us /\
    map (fun l => (l_name l, l_type l)) (ly_list ly) = map (fun u => (su_name u, su_type u)) us /\
    (forall i l, nth_error (ly_list ly) i = Some l -> l_id l = Z.of_nat i).
Proof.
  intros stoi num idx word open_dbs name f ts wl wn Hint Hf Hr Hd Hs Hn Hw.
  unfold import_board; destruct (existsb (String.eqb name) open_dbs) eqn:E.
  { exfalso; apply existsb_exists in E as (x & Hx & Ex); apply String.eqb_eq in Ex; subst; auto. }
  rewrite extract_declarations, Hr, extract_render by auto; cbn [bind k_layers k_nets].
  set (m := map (settle num word (kf_stack f)) (map (declared stoi) (kf_layers f))).
  do 3 eexists; split; [reflexivity|]; split; [|split].
  - rewrite <- (layers_of_board stoi num word Hint f 0%Q Hs); apply (create_layers_perm m), Hw.
  - apply create_layers_stacked.
  - match goal with |- context [append_layers ly_init ?x] => destruct (append_layers ly_init x) as [c is] eqn:Ea end.
    destruct (append_layers_spec _ _ _ _ Ea inv_init) as (I & new & El & En & _); cbn [fst].
    split; [rewrite El; exact En|]; intros i l Hl; destruct I as [Hp _]; exact (Hp _ _ Hl).
Qed.
Print Assumptions C68_layers.
Example C68_layers_ex : exists ly us nc,
  import_board ex_stoi ex_num ex_idx Some ["a"] "b" (Some ex_file) (fun m => m) (@rev _) = (["a"; "b"], Ok (Some (ly, us, nc))) /\
  map (fun u => (su_name u, su_type u, su_cond u)) us = [("F.Cu", LConducting, "copper"); ("In1.Cu", LDielectric, "copper"); ("B.Cu", LConducting, "gold")].
Proof. do 3 eexists; split; vm_compute; reflexivity. Qed.
Example C68_layers_hyp : forall s i, ex_stoi s = Some i -> (- 2 ^ 31 <= i < 2 ^ 31)%Z.
Proof. unfold ex_stoi; intros s i; repeat (destruct (String.eqb s _); [intros [= <-]; lia|]); discriminate. Qed.

(** The order of the layers is not that of the board: the hash order decides, so the bottom copper may lie on top. *)
Theorem C77_layer_order_refuted : exists walk, (forall m, Permutation (walk m) m) /\
  exists ly us nc, import_board ex_stoi ex_num ex_idx Some [] "b" (Some ex_file) walk (fun m => m) = (["b"], Ok (Some (ly, us, nc))) /\
    map (fun l => (l_id l, l_name l)) (ly_list ly) = [(0, "B.Cu"); (1, "In1.Cu"); (2, "F.Cu")]%Z.
Proof. exists (@rev _); split; [intros; apply Permutation_sym, Permutation_rev|]; do 3 eexists; split; vm_compute; reflexivity. Qed.
Print Assumptions C77_layer_order_refuted.

(** A stack-up entry which is no declared layer, such as every dielectric of a KiCad board, never reaches the layout. *)
Theorem C77_dielectrics_dropped : forall stoi num idx word open_dbs name f ts walk_layers walk_nets n ly us nc,
  (forall s i, stoi s = Some i -> (- 2 ^ 31 <= i < 2 ^ 31)%Z) ->
  ~ In name open_dbs -> declarations ts = render f -> (forall t, In t ts -> well_drawn t) ->
  (forall l, In l (kf_layers f) -> exists i, stoi (fst (fst l)) = Some i) ->
  NoDup (map (fun l => snd (fst l)) (kf_layers f)) ->
  (forall m, Permutation (walk_layers m) m) ->
  ~ In n (map (fun l => snd (fst l)) (kf_layers f)) ->
  import_board stoi num idx word open_dbs name (Some ts) walk_layers walk_nets = (open_dbs ++ [name], Ok (Some (ly, us, nc))) ->
  ~ In n (map l_name (ly_list ly)).
Proof.
  intros stoi num idx word open_dbs name f ts wl wn n ly us nc Hint Hf Hr Hd Hs Hn Hw Hni E Hin.
  destruct (C68_layers stoi num idx word open_dbs name f ts wl wn Hint Hf Hr Hd Hs Hn Hw) as (ly' & us' & nc' & E' & Hp & _ & Hm & _).
  rewrite E in E'; injection E' as -> -> ->.
  assert (H : In n (map fst (map (fun l => (l_name l, l_type l)) (ly_list ly')))) by (rewrite map_map; exact Hin).
  rewrite Hm, map_map in H; apply in_map_iff in H as (u & Hu & H1).
  apply (in_map (fun u => (su_name u, su_type u, su_thick u, su_cond u, su_diel u))) in H1.
  apply (Permutation_in _ Hp) in H1; apply in_map_iff in H1 as (l & Hl & H1); apply filter_In in H1 as [H1 _].
  apply Hni; apply in_map_iff; exists l; split; auto; subst n; unfold expected in Hl; injection Hl as Hl _ _ _ _; exact Hl.
Qed.
Print Assumptions C77_dielectrics_dropped.
Theorem C77_stackup_complete_refuted : exists e, In e (kf_stack ex_board) /\
  forall walk, (forall m, Permutation (walk m) m) -> forall ly us nc,
    import_board ex_stoi ex_num ex_idx Some [] "b" (Some ex_file) walk (fun m => m) = (["b"], Ok (Some (ly, us, nc))) -> ~ In (fst e) (map l_name (ly_list ly)).
Proof.
  eexists; split; [right; left; reflexivity|]; intros walk Hw ly us nc E.
  destruct C68_nets_hyp as (H1 & H2 & _ & H3); pose proof ex_file_drawn.
  eapply (C77_dielectrics_dropped _ _ _ _ [] "b" ex_board ex_file walk _ _ ly us nc C68_layers_hyp); eauto.
  cbn; intuition discriminate.
Qed.
Print Assumptions C77_stackup_complete_refuted.

(** A file which cannot be read leaves its database registered, so that importing under the same name again
    gives nothing, whatever the file then contains. *)
Theorem C77_failed_import_blocks_name : forall stoi num idx word open_dbs name parsed wl wn wl' wn',
  ~ In name open_dbs ->
  exists open', import_board stoi num idx word open_dbs name None wl wn = (open', Ok None) /\
    import_board stoi num idx word open' name parsed wl' wn' = (open', Ok None).
Proof.
  intros stoi num idx word open_dbs name parsed wl wn wl' wn' H; unfold import_board.
  destruct (existsb (String.eqb name) open_dbs) eqn:E.
  { exfalso; apply existsb_exists in E as (x & Hx & Ex); apply String.eqb_eq in Ex; subst; auto. }
  eexists; split; [reflexivity|].
  rewrite existsb_app; cbn [existsb]; rewrite String.eqb_refl, orb_true_r; reflexivity.
Qed.
Print Assumptions C77_failed_import_blocks_name.
Theorem C77_failed_import_refuted : exists open_dbs name,
  ~ In name open_dbs /\
  fst (import_board ex_stoi ex_num ex_idx Some open_dbs name None (fun m => m) (fun m => m)) <> open_dbs.
Proof. exists [], "b"; split; [auto|discriminate]. Qed.
Print Assumptions C77_failed_import_refuted.

(** A layer whose id is no number ends the import in an exception, again after the database was registered. *)
Theorem C77_bad_layer_throws : forall stoi num idx word open_dbs name ls l ls' ts wl wn,
  ~ In name open_dbs -> stoi (kvalue l) = None ->
  (forall x, In x ls -> exists i, stoi (fst (fst x)) = Some i) -> NoDup (map (fun x => snd (fst x)) ls) ->
  import_board stoi num idx word open_dbs name (Some (KNode "layers" (map layer_tree ls ++ l :: ls') :: ts)) wl wn = (open_dbs ++ [name], Throw).
Proof.
  intros stoi num idx word open_dbs name ls l ls' ts wl wn H Hl Hs Hn; unfold import_board.
  destruct (existsb (String.eqb name) open_dbs) eqn:E.
  { exfalso; apply existsb_exists in E as (x & Hx & Ex); apply String.eqb_eq in Ex; subst; auto. }
  f_equal; cbn [extract].
  change (extract_node stoi num idx word kdb_init (KNode "layers" (map layer_tree ls ++ l :: ls'))) with (extract_layers stoi kdb_init (map layer_tree ls ++ l :: ls')).
  assert (A : forall xs ys d d', extract_layers stoi d xs = Ok d' -> extract_layers stoi d (xs ++ ys) = extract_layers stoi d' ys).
  { induction xs as [|x xs IH]; intros ys d d' Hx; cbn [extract_layers app] in *; [congruence|].
    destruct (extract_layer stoi d x); cbn [bind] in *; try discriminate; auto. }
  erewrite A by (apply extract_layers_ok; [exact Hs|exact Hn]).
  cbn [extract_layers]; unfold extract_layer; rewrite Hl; reflexivity.
Qed.
Print Assumptions C77_bad_layer_throws.
Example C77_bad_layer_ex : snd (import_board ex_stoi ex_num ex_idx Some [] "b" (Some [KNode "layers" [KNode "x" [leaf "F.Cu"; leaf "signal"]]]) (fun m => m) (fun m => m)) = Throw.
Proof. reflexivity. Qed.

(** So does a layer without a name or a group, and a net without a name, wherever they stand. *)
Lemma extract_layers_app stoi xs : forall ys d d', extract_layers stoi d xs = Ok d' -> extract_layers stoi d (xs ++ ys) = extract_layers stoi d' ys.
Proof.
  induction xs as [|x xs IH]; intros ys d d' Hx; cbn [extract_layers app] in *; [congruence|].
  destruct (extract_layer stoi d x); cbn [bind] in *; try discriminate; auto.
Qed.
Theorem C77_short_layer_throws : forall stoi num idx word open_dbs name ls l ls' ts wl wn,
  ~ In name open_dbs -> (List.length (kbranches l) < 2)%nat ->
  (forall x, In x ls -> exists i, stoi (fst (fst x)) = Some i) -> NoDup (map (fun x => snd (fst x)) ls) ->
  import_board stoi num idx word open_dbs name (Some (KNode "layers" (map layer_tree ls ++ l :: ls') :: ts)) wl wn = (open_dbs ++ [name], Throw).
Proof.
  intros stoi num idx word open_dbs name ls l ls' ts wl wn H Hl Hs Hn; unfold import_board.
  destruct (existsb (String.eqb name) open_dbs) eqn:E.
  { exfalso; apply existsb_exists in E as (x & Hx & Ex); apply String.eqb_eq in Ex; subst; auto. }
  f_equal; cbn [extract].
  change (extract_node stoi num idx word kdb_init (KNode "layers" (map layer_tree ls ++ l :: ls'))) with (extract_layers stoi kdb_init (map layer_tree ls ++ l :: ls')).
  erewrite extract_layers_app by (apply extract_layers_ok; [exact Hs|exact Hn]).
  cbn [extract_layers]; unfold extract_layer.
  destruct (stoi (kvalue l)), (kbranches l) as [|? [|? ?]]; cbn [List.length] in Hl; try lia; reflexivity.
Qed.
Print Assumptions C77_short_layer_throws.

Theorem C77_short_net_throws : forall stoi num idx word open_dbs name f ts bs ts' wl wn,
  ~ In name open_dbs -> declarations ts = render f -> (forall t, In t ts -> well_drawn t) ->
  (forall l, In l (kf_layers f) -> exists i, stoi (fst (fst l)) = Some i) ->
  NoDup (map (fun l => snd (fst l)) (kf_layers f)) -> (List.length bs < 2)%nat ->
  import_board stoi num idx word open_dbs name (Some (ts ++ KNode "net" bs :: ts')) wl wn = (open_dbs ++ [name], Throw).
Proof.
  intros stoi num idx word open_dbs name f ts bs ts' wl wn H Hr Hd Hs Hn Hl; unfold import_board.
  destruct (existsb (String.eqb name) open_dbs) eqn:E.
  { exfalso; apply existsb_exists in E as (x & Hx & Ex); apply String.eqb_eq in Ex; subst; auto. }
  f_equal; rewrite extract_app, extract_declarations, Hr, extract_render by auto; cbn [bind extract].
  match goal with |- context [extract_node stoi num idx word ?d (KNode "net" bs)] =>
    change (extract_node stoi num idx word d (KNode "net" bs)) with (extract_net idx d (KNode "net" bs)) end.
  unfold extract_net; cbn [kbranches]; destruct bs as [|? [|? ?]]; cbn [List.length] in Hl; try lia; reflexivity.
Qed.
Print Assumptions C77_short_net_throws.

(** A setting of a declared layer without a value reads past the end of an empty list. *)
Theorem C77_empty_setting_is_ub : forall stoi num idx word open_dbs name ls n kvs key es rest ts wl wn,
  ~ In name open_dbs -> In n (map (fun l => snd (fst l)) ls) ->
  (forall x, In x ls -> exists i, stoi (fst (fst x)) = Some i) -> NoDup (map (fun x => snd (fst x)) ls) ->
  In key ["type"; "thickness"; "material"; "epsilon_r"; "loss_tangent"] ->
  import_board stoi num idx word open_dbs name
    (Some (KNode "layers" (map layer_tree ls) ::
           KNode "setup" [KNode "stackup" (KNode "layer" (leaf n :: map (fun kv => KNode (fst kv) [leaf (snd kv)]) kvs ++ KNode key [] :: es) :: rest)] :: ts)) wl wn
  = (open_dbs ++ [name], UB).
Proof.
  intros stoi num idx word open_dbs name ls n kvs key es rest ts wl wn H Hin Hs Hn Hk; unfold import_board.
  destruct (existsb (String.eqb name) open_dbs) eqn:E.
  { exfalso; apply existsb_exists in E as (x & Hx & Ex); apply String.eqb_eq in Ex; subst; auto. }
  f_equal; cbn [extract].
  change (extract_node stoi num idx word kdb_init (KNode "layers" (map layer_tree ls))) with (extract_layers stoi kdb_init (map layer_tree ls)).
  rewrite (extract_layers_ok stoi ls kdb_init Hs Hn); cbn [bind app k_layers k_nets kdb_init].
  set (d := {| k_layers := map (declared stoi) ls; k_nets := [] |}).
  assert (A : forall l, stack_entries num word l (map (fun kv => KNode (fst kv) [leaf (snd kv)]) kvs ++ KNode key [] :: es) = UB).
  { clear - Hk; induction kvs as [|kv kvs IH]; intros l; cbn [map app stack_entries].
    - unfold stack_entry; cbn [kvalue kbranches]; cbn [In] in Hk; decompose [or] Hk; subst; try reflexivity; contradiction.
    - unfold stack_entry at 1; cbn [kvalue kbranches leaf bind]; apply IH. }
  destruct (alookup String.eqb n (k_layers d)) as [l|] eqn:El.
  2:{ exfalso; apply (alookup_none _ String.eqb_spec) in El; apply El; unfold d; cbn [k_layers]; unfold akeys; rewrite map_map; exact Hin. }
  cbn [extract_node]; change (String.eqb "setup" "layers") with false; change (String.eqb "setup" "setup") with true; cbv iota.
  cbn [andb extract_node]; change (String.eqb "stackup" "layers") with false; change (String.eqb "stackup" "setup") with false; change (String.eqb "stackup" "stackup") with true; cbv iota.
  cbn [extract_stackup kvalue kbranches leaf]; change (String.eqb "layer" "layer") with true; cbv iota; rewrite El, A; reflexivity.
Qed.
Print Assumptions C77_empty_setting_is_ub.
(** A stackup layer, or a footprint, without a name is undefined too; whatever follows it in the file. *)
Theorem C77_unnamed_layer_is_ub : forall stoi num idx word open_dbs name ls us rest ts wl wn,
  ~ In name open_dbs -> (forall x, In x ls -> exists i, stoi (fst (fst x)) = Some i) -> NoDup (map (fun x => snd (fst x)) ls) ->
  (forall u, In u us -> exists n, u = KNode "layer" [leaf n]) ->
  snd (import_board stoi num idx word open_dbs name
    (Some (KNode "layers" (map layer_tree ls) :: KNode "setup" [KNode "stackup" (us ++ KNode "layer" [] :: rest)] :: ts)) wl wn) = UB /\
  snd (import_board stoi num idx word open_dbs name (Some (KNode "layers" (map layer_tree ls) :: KNode "footprint" [] :: ts)) wl wn) = UB.
Proof.
  intros stoi num idx word open_dbs name ls us rest ts wl wn H Hs Hn Hu; unfold import_board.
  destruct (existsb (String.eqb name) open_dbs) eqn:E.
  { exfalso; apply existsb_exists in E as (x & Hx & Ex); apply String.eqb_eq in Ex; subst; auto. }
  cbn [extract snd].
  change (extract_node stoi num idx word kdb_init (KNode "layers" (map layer_tree ls))) with (extract_layers stoi kdb_init (map layer_tree ls)).
  rewrite (extract_layers_ok stoi ls kdb_init Hs Hn); cbn [bind app k_layers k_nets kdb_init]; split; [|reflexivity].
  assert (A : forall us d, (forall u, In u us -> exists n, u = KNode "layer" [leaf n]) -> extract_stackup num word d (us ++ KNode "layer" [] :: rest) = UB).
  { clear; induction us as [|u us IH]; intros d Hu; cbn [app extract_stackup kvalue kbranches]; [reflexivity|].
    destruct (Hu u (or_introl eq_refl)) as [n ->]; cbn [kvalue kbranches leaf]; change (String.eqb "layer" "layer") with true; cbv iota.
    destruct (alookup String.eqb n (k_layers d)); cbn [stack_entries bind]; apply IH; intros v Hv; apply Hu; right; exact Hv. }
  cbn [extract_node]; change (String.eqb "setup" "layers") with false; change (String.eqb "setup" "setup") with true; cbv iota.
  cbn [andb extract_node]; change (String.eqb "stackup" "layers") with false; change (String.eqb "stackup" "setup") with false; change (String.eqb "stackup" "stackup") with true; cbv iota.
  rewrite (A us _ Hu); reflexivity.
Qed.
Print Assumptions C77_unnamed_layer_is_ub.
Example C77_short_ex :
  snd (import_board ex_stoi ex_num ex_idx Some [] "b" (Some (ex_file ++ [KNode "net" [leaf "1"]])) (fun m => m) (fun m => m)) = Throw /\
  snd (import_board ex_stoi ex_num ex_idx Some [] "b" (Some [KNode "layers" [KNode "0" [leaf "F.Cu"; leaf "signal"]]; KNode "setup" [KNode "stackup" [KNode "layer" [leaf "F.Cu"; KNode "epsilon_r" []]]]]) (fun m => m) (fun m => m)) = UB.
Proof. split; vm_compute; reflexivity. Qed.

(** ** Drawings *)

Lemma import_ok stoi num idx word open_dbs name ts wl wn : ~ In name open_dbs ->
  (exists x, snd (import_board stoi num idx word open_dbs name (Some ts) wl wn) = Ok x) <-> exists d, extract stoi num idx word kdb_init ts = Ok d.
Proof.
  intros H; unfold import_board; destruct (existsb (String.eqb name) open_dbs) eqn:E.
  { exfalso; apply existsb_exists in E as (x & Hx & Ex); apply String.eqb_eq in Ex; subst; auto. }
  cbn [snd]; destruct (extract stoi num idx word kdb_init ts) as [d| | |]; cbn [bind]; split; intros [x Hx]; try discriminate; eauto.
Qed.

(** A board with sound declarations is imported exactly if every entry of its segments, zones, vias, pads, arcs, lines,
    polygons and circles, on the board or in a footprint, has the values read from it. *)
Theorem C97_imported_iff_well_drawn : forall stoi num idx word open_dbs name f ts walk_layers walk_nets,
  ~ In name open_dbs -> declarations ts = render f ->
  (forall l, In l (kf_layers f) -> exists i, stoi (fst (fst l)) = Some i) ->
  NoDup (map (fun l => snd (fst l)) (kf_layers f)) ->
  (exists layout, snd (import_board stoi num idx word open_dbs name (Some ts) walk_layers walk_nets) = Ok (Some layout)) <->
  (forall t, In t ts -> well_drawn t).
Proof.
  intros stoi num idx word open_dbs name f ts wl wn H Hr Hs Hn; split.
  - intros [x Hx]; destruct (proj1 (import_ok stoi num idx word open_dbs name ts wl wn H) (ex_intro _ _ Hx)) as [d Hd].
    exact (extract_all_well_drawn _ _ _ _ _ _ _ Hd).
  - intros W; unfold import_board; destruct (existsb (String.eqb name) open_dbs) eqn:E.
    { exfalso; apply existsb_exists in E as (x & Hx & Ex); apply String.eqb_eq in Ex; subst; auto. }
    rewrite extract_declarations, Hr, extract_render by auto; cbn [bind snd]; eauto.
Qed.
Print Assumptions C97_imported_iff_well_drawn.

(** Otherwise nothing is returned, not even the null pointer that stands for a failed import. *)
Theorem C97_malformed_drawing_not_reported : forall stoi num idx word open_dbs name ts walk_layers walk_nets x,
  ~ In name open_dbs -> (exists t, In t ts /\ ~ well_drawn t) ->
  snd (import_board stoi num idx word open_dbs name (Some ts) walk_layers walk_nets) <> Ok x.
Proof.
  intros stoi num idx word open_dbs name ts wl wn x H (t & Ht & Hw) Hx.
  destruct (proj1 (import_ok stoi num idx word open_dbs name ts wl wn H) (ex_intro _ _ Hx)) as [d Hd].
  exact (Hw (extract_all_well_drawn _ _ _ _ _ _ _ Hd t Ht)).
Qed.
Print Assumptions C97_malformed_drawing_not_reported.

(** What is drawn has no influence: two boards with the same declarations give the same layers and nets, whatever they
    show, and nothing of it is in the layout. *)
Theorem C97_drawings_make_no_difference : forall stoi num idx word open_dbs name ts ts' walk_layers walk_nets,
  declarations ts = declarations ts' -> (forall t, In t ts -> well_drawn t) -> (forall t, In t ts' -> well_drawn t) ->
  import_board stoi num idx word open_dbs name (Some ts) walk_layers walk_nets = import_board stoi num idx word open_dbs name (Some ts') walk_layers walk_nets.
Proof.
  intros stoi num idx word open_dbs name ts ts' wl wn E W W'; unfold import_board.
  rewrite (extract_declarations _ _ _ _ ts W), (extract_declarations _ _ _ _ ts' W'), E; reflexivity.
Qed.
Print Assumptions C97_drawings_make_no_difference.

(** A malformed drawing may crash the import: a polygon without points, a via with a single layer. *)
Theorem C97_malformed_drawing_is_ub : exists ts ts', declarations ts = render ex_board /\ declarations ts' = render ex_board /\
  (forall wl wn, snd (import_board ex_stoi ex_num ex_idx Some [] "b" (Some ts) wl wn) = UB) /\
  (forall wl wn, snd (import_board ex_stoi ex_num ex_idx Some [] "b" (Some ts') wl wn) = Throw).
Proof.
  exists (ex_file ++ [KNode "zone" [KNode "net" [leaf "1"]; KNode "polygon" [KNode "pts" []]]]), (ex_file ++ [KNode "via" [KNode "layers" [leaf "F.Cu"]]]).
  repeat split; vm_compute; reflexivity.
Qed.
Print Assumptions C97_malformed_drawing_is_ub.
Example C97_ex : (forall t, In t ex_file -> well_drawn t) /\ declarations ex_file = render ex_board /\
  ~ well_drawn (KNode "fp_arc" [KNode "start" [leaf "0"; leaf "0"]; KNode "end" [leaf "1"; leaf "0"]; KNode "angle" [leaf "90"]]).
Proof.
  split; [exact ex_file_drawn|]; split; [reflexivity|]; intros W; inversion W as [| |v bs ? ? H]; subst.
  destruct H as (_ & _ & _ & _ & _ & H); specialize (H (or_introl eq_refl)); destruct H as (s & e & a & w & l & rest & E & _); discriminate.
Qed.
