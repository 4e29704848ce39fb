From Verif Require Import Base QSum Names_Model Net_Model LayerMap_Model Layers_Model Layers_Spec Xfl_Model Xfl_Spec Xfl_Proofs.

(** ** C63 – holes of a route *)
Section C63.
  Context {S : Type} (valid : S -> bool) (contour : S -> S) (holes_valid : S -> list S -> bool).
  Context (metal : list (Z * Z)) (via_defs : list string) (nets : netcoll).

  (** For every list of routes the import ends; if every void shape has a known template and no void follows an
      annular ring, each shape becomes one primitive with the maximal run of voids after it as its holes. *)
  Theorem C63_holes_partial : forall rs used,
    (forall r, In r rs -> voids_known (snd r) /\ no_void_after_annular (snd r)) ->
    exists items used', import_routes valid contour holes_valid metal via_defs nets rs used = Ok (items, used') /\
      map nameless items = routes_things valid contour holes_valid metal via_defs nets wanted_holes rs.
  Proof.
    intros rs used H; destruct (import_routes_good valid contour holes_valid metal via_defs nets rs used) as (items & E & M & _).
    exists items, (rev (via_names items) ++ used); split; auto; rewrite M; unfold routes_things.
    clear E M; induction rs as [|r rs IH]; auto; simpl.
    rewrite IH by (intros; apply H; now right); f_equal.
    destruct (nc_find nets (fst r)); auto; apply things_wanted; apply H; now left.
  Qed.

  (** Without those conditions: exactly the voids of the run before the first unknown template. *)
  Theorem C63_holes_taken : forall rs used,
    exists items used', import_routes valid contour holes_valid metal via_defs nets rs used = Ok (items, used') /\
      map nameless items = routes_things valid contour holes_valid metal via_defs nets taken_holes rs.
  Proof.
    intros rs used; destruct (import_routes_good valid contour holes_valid metal via_defs nets rs used) as (items & E & M & _).
    eexists _, _; eauto.
  Qed.

  (** Via instances get names that are new and pairwise different over all routes. *)
  Theorem C63_via_names : forall rs used items used',
    import_routes valid contour holes_valid metal via_defs nets rs used = Ok (items, used') ->
    NoDup (via_names items) /\ (forall n, In n (via_names items) -> ~ In n used) /\
    (forall n, In n used' <-> In n (via_names items) \/ In n used).
  Proof.
    intros rs used items used' E; destruct (import_routes_good valid contour holes_valid metal via_defs nets rs used) as (i & E' & _ & N & F).
    rewrite E in E'; injection E' as -> ->; split; [auto|split; [auto|]].
    intros n; rewrite in_app_iff, <- in_rev; tauto.
  Qed.

  (** No primitive of a route comes from a void shape: a route of void shapes only gives nothing. *)
  Theorem C63_voids_alone : forall n os used,
    (forall o, In o os -> exists l s, o = OShape true l s) ->
    import_routes valid contour holes_valid metal via_defs nets [(n, os)] used = Ok ([], used).
  Proof.
    intros n os used H; destruct (import_routes_good valid contour holes_valid metal via_defs nets [(n, os)] used) as (i & E & M & _).
    assert (T : forall net, route_things valid contour holes_valid metal via_defs net taken_holes os = []).
    { intros net; clear E M; induction os as [|o os IH]; auto.
      unfold route_things in *; simpl; destruct (H o (or_introl eq_refl)) as (l & s & ->); simpl; apply IH; intros; apply H; now right. }
    assert (R : routes_things valid contour holes_valid metal via_defs nets taken_holes [(n, os)] = []).
    { unfold routes_things; simpl; destruct (nc_find nets n); rewrite ?T; auto. }
    rewrite R in M; destruct i; [|discriminate]; auto.
  Qed.
End C63.
Print Assumptions C63_holes_partial.
Print Assumptions C63_holes_taken.
Print Assumptions C63_via_names.
Print Assumptions C63_voids_alone.

Local Open Scope string_scope.
Local Open Scope list_scope.
(** Shapes named by strings, all valid. *)
Definition ex_valid (s : string) : bool := negb (String.eqb s "").
Definition ex_holes (o : string) (hs : list string) : bool := negb (String.eqb o "").
Definition ex_nets : netcoll := import_nets ["gnd"; "vdd"; "gnd"].
Definition ex_run := import_routes ex_valid (fun s => s) ex_holes [(1, 0); (2, 2)]%Z ["via"] ex_nets.

Example C63_case :
  ex_run [("vdd", [OShape false 1 (Some "a"); OShape true 1 (Some "h"); OShape true 1 (Some "g"); OShape true 2 (Some "k");
                   OVia 1 2 "via"; OPath 2 (Some "p"); OVia 1 2 "via"; OVia 1 3 "via"; OAnnular 2 "r"; OShape false 2 (Some "")]);
          ("nc", [OShape false 1 (Some "z")]); ("gnd", [OVia 2 1 "via"; OShape true 1 (Some "q"); OShape false 2 (Some "b")])]%Z [] =
  Ok ([IHoles 0 1 "a" ["h"; "g"]; IVia "via_inst_1" "via" 1 0 2; IPath 2 1 "p"; IVia "via_inst_2" "via" 1 0 2; IShape 2 1 "r";
       IVia "via_inst_3" "via" 0 2 0; IShape 2 0 "b"]%Z, ["via_inst_3"; "via_inst_2"; "via_inst_1"]).
Proof. vm_compute; auto. Qed.
Example C63_case_ok : let os := [OShape false 1 (Some "a"); OShape true 1 (Some "h"); OShape true 1 (Some "g"); OAnnular 2 "r"; OShape true 1 (Some "k")]%Z in
  voids_known os /\ no_void_after_annular os.
Proof.
  intros os; split.
  - intros l H; simpl in H; intuition discriminate.
  - intros a l s s' b E.
    assert (E1 : nth_error os (List.length a) = Some (OAnnular l s)) by (rewrite E, nth_error_app2, Nat.sub_diag; auto).
    assert (E2 : nth_error os (Datatypes.S (List.length a)) = Some (OShape true l s')).
    { rewrite E, nth_error_app2 by lia; replace (Datatypes.S (List.length a) - List.length a)%nat with 1%nat by lia; auto. }
    clear E; subst os; destruct (List.length a) as [|[|[|[|[|n]]]]]; simpl in *; congruence.
Qed.

(** A void with an unknown template ends the run: the voids after it are lost and the primitive is solid there. *)
Theorem C63_unknown_template_refuted : exists os : list (obj string),
  let rs := [("gnd", os)] in
  match ex_run rs [] with
  | Ok (items, _) => map nameless items <> routes_things ex_valid (fun s => s) ex_holes [(1, 0); (2, 2)]%Z ["via"] ex_nets wanted_holes rs
                     /\ items = [IHoles 0 0 "a" ["h"]]%Z
  | _ => False
  end.
Proof.
  exists [OShape false 1 (Some "a"); OShape true 1 (Some "h"); OShape true 1 None; OShape true 1 (Some "g")]%Z.
  vm_compute; split; [discriminate|auto].
Qed.
Print Assumptions C63_unknown_template_refuted.

(** Voids after an annular ring are dropped. *)
Theorem C63_annular_refuted : exists os : list (obj string),
  let rs := [("gnd", os)] in
  match ex_run rs [] with
  | Ok (items, _) => map nameless items <> routes_things ex_valid (fun s => s) ex_holes [(1, 0); (2, 2)]%Z ["via"] ex_nets wanted_holes rs
                     /\ items = [IShape 0 0 "r"]%Z
  | _ => False
  end.
Proof.
  exists [OAnnular 1 "r"; OShape true 1 (Some "h")]%Z; vm_compute; split; [discriminate|auto].
Qed.
Print Assumptions C63_annular_refuted.

(** ** C64 – layers *)
(** The layout has one layer per layer of the file, in order, with its name and type, and the id is the position. *)
Theorem C64_ids : forall mats scale xs ly s i x,
  import_layers mats scale xs = (ly, s) -> nth_error xs i = Some x ->
  exists l, nth_error (ly_list ly) i = Some l /\ l_id l = Z.of_nat i /\ l_name l = fl_name x /\
    (l_type l = LDielectric <-> fl_kind x = Dielectric) /\ (l_type l = LConducting <-> fl_kind x <> Dielectric).
Proof.
  intros mats scale xs ly s i x E H; apply import_layers_layout in E as [M P].
  assert (G : nth_error (map (fun l => (l_name l, l_type l)) (ly_list ly)) i = Some (fl_name x, kind_type (fl_kind x))).
  { rewrite M; erewrite map_nth_error; eauto. }
  rewrite nth_error_map in G; destruct (nth_error (ly_list ly) i) as [l|] eqn:L; simpl in G; [injection G as G1 G2|discriminate].
  exists l; split; [auto|split; [apply P; auto|split; [auto|]]].
  rewrite G2; destruct (fl_kind x); simpl; split; split; congruence.
Qed.
Print Assumptions C64_ids.

Theorem C64_count : forall mats scale xs ly s, import_layers mats scale xs = (ly, s) -> List.length (ly_list ly) = List.length xs.
Proof.
  intros mats scale xs ly s E; apply import_layers_layout in E as [M _]; apply (f_equal (@List.length _)) in M; rewrite !map_length in M; auto.
Qed.
Print Assumptions C64_count.

(** Each layer's top is at minus the scaled thickness of the layers above it; its materials are those of the
    file, or the default material. *)
Theorem C64_elevation : forall mats scale xs ly s i x,
  import_layers mats scale xs = (ly, s) -> nth_error xs i = Some x ->
  exists u, nth_error (ls_layers s) i = Some u /\ su_name u = fl_name x /\
    (su_elev u == - (scale * sumf fl_thickness (firstn i xs)))%Q /\ (su_thick u == scale * fl_thickness x)%Q /\
    (alookup String.eqb (fl_cond x) mats = Some (su_cond u) \/ alookup String.eqb (fl_cond x) mats = None /\ su_cond u = "copper"%string) /\
    (alookup String.eqb (fl_diel x) mats = Some (su_diel u) \/ alookup String.eqb (fl_diel x) mats = None /\ su_diel u = "silicon"%string).
Proof.
  intros mats scale xs ly s i x E H; unfold import_layers in E; pose proof (linv_loop mats scale xs) as (_ & _ & _ & _ & N & F & _).
  remember (import_layers_loop mats scale xs) as s0; injection E as _ <-.
  destruct (nth_error (ls_layers s0) i) as [u|] eqn:U.
  - destruct (F i x u H U) as (A & _ & B & C & D1 & D2); exists u; split; auto; split; auto; split; auto; split; auto.
    rewrite D1, D2; unfold material; split.
    + destruct (alookup String.eqb (fl_cond x) mats); auto.
    + destruct (alookup String.eqb (fl_diel x) mats); auto.
  - apply nth_error_None in U; assert (i < List.length xs)%nat by (apply nth_error_Some; congruence); lia.
Qed.
Print Assumptions C64_elevation.

(** Neighbouring layers touch: the lower one starts where the upper one ends; the first one starts at zero. *)
Theorem C64_contiguous : forall mats scale xs ly s,
  import_layers mats scale xs = (ly, s) ->
  (forall u, nth_error (ls_layers s) 0 = Some u -> su_elev u == 0)%Q /\
  (forall i u v, nth_error (ls_layers s) i = Some u -> nth_error (ls_layers s) (Datatypes.S i) = Some v -> su_elev v == su_elev u - su_thick u)%Q.
Proof.
  intros mats scale xs ly s E; unfold import_layers in E; pose proof (linv_loop mats scale xs) as (_ & _ & _ & _ & N & F & _).
  remember (import_layers_loop mats scale xs) as s0; injection E as _ <-.
  assert (G : forall i u, nth_error (ls_layers s0) i = Some u -> exists x, nth_error xs i = Some x).
  { intros i u H; destruct (nth_error xs i) as [x|] eqn:X; [eauto|apply nth_error_None in X].
    assert (i < List.length (ls_layers s0))%nat by (apply nth_error_Some; congruence); lia. }
  split.
  - intros u H; destruct (G _ _ H) as [x X]; destruct (F _ _ _ X H) as (_ & _ & B & _); simpl in B; lra.
  - intros i u v Hu Hv; destruct (G _ _ Hu) as [x X], (G _ _ Hv) as [y Y].
    destruct (F _ _ _ X Hu) as (_ & _ & B1 & C1 & _), (F _ _ _ Y Hv) as (_ & _ & B2 & _).
    assert (FS : firstn (Datatypes.S i) xs = firstn i xs ++ [x]).
    { clear - X; revert i X; induction xs as [|z xs IH]; intros [|i] X; simpl in *; try discriminate; [injection X as ->; auto|f_equal; auto]. }
    rewrite FS, sumf_app in B2; simpl in B2; rewrite B2, B1, C1; ring.
Qed.
Print Assumptions C64_contiguous.

(** Metal number k is the k-th layer that is not dielectric, and nothing else is a metal number. *)
Theorem C64_metal_numbers : forall mats scale xs ly s k id,
  import_layers mats scale xs = (ly, s) ->
  (alookup Z.eqb k (ls_metal_map s) = Some id <->
   exists i x, nth_error xs i = Some x /\ fl_kind x <> Dielectric /\ id = Z.of_nat i /\ k = Z.of_nat (metals_before xs i + 1)).
Proof.
  intros mats scale xs ly s k id E; unfold import_layers in E; pose proof (linv_loop mats scale xs) as (_ & _ & _ & _ & _ & _ & MM & _).
  remember (import_layers_loop mats scale xs) as s0; injection E as _ <-; rewrite MM.
  assert (M : forall x, is_metal x = true <-> fl_kind x <> Dielectric) by (intros x; unfold is_metal; destruct (fl_kind x); split; congruence).
  split; intros (i & x & A & B & C & D); exists i, x; rewrite M in *; repeat split; auto; rewrite D; f_equal; lia.
Qed.
Print Assumptions C64_metal_numbers.

(** Layer number k of the file is layer k-1 of the layout. *)
Theorem C64_layer_numbers : forall mats scale xs ly s k id,
  import_layers mats scale xs = (ly, s) ->
  (alookup Z.eqb k (ls_layer_map s) = Some id <-> (1 <= k <= Z.of_nat (List.length xs) /\ id = k - 1)%Z).
Proof.
  intros mats scale xs ly s k id E; unfold import_layers in E; pose proof (linv_loop mats scale xs) as (_ & _ & _ & _ & _ & _ & _ & LM).
  remember (import_layers_loop mats scale xs) as s0; injection E as _ <-; rewrite LM; lia.
Qed.
Print Assumptions C64_layer_numbers.

Definition ex_layers : list file_layer :=
  [ {| fl_name := "top"; fl_thickness := 2; fl_kind := Signal; fl_cond := "cu"; fl_diel := "air" |};
    {| fl_name := "core"; fl_thickness := 5#2; fl_kind := Dielectric; fl_cond := "cu"; fl_diel := "fr4" |};
    {| fl_name := "gnd"; fl_thickness := 1; fl_kind := Power; fl_cond := "au"; fl_diel := "fr4" |} ]%Q.
Example C64_case : let '(ly, s) := import_layers [("cu", "cu1"); ("fr4", "fr4")]%string 10 ex_layers in
  map (fun l => (l_id l, l_name l, l_type l)) (ly_list ly) = [(0, "top", LConducting); (1, "core", LDielectric); (2, "gnd", LConducting)]%Z%string /\
  map (fun u => (Qred (su_elev u), su_cond u, su_diel u)) (ls_layers s) = [(0, "cu1", "silicon"); (-20#1, "cu1", "fr4"); (-45#1, "copper", "fr4")]%Q%string /\
  ls_metal_map s = [(1, 0); (2, 2)]%Z.
Proof. vm_compute; auto. Qed.
