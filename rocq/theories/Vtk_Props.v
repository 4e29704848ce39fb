(** C123: the mesh file holds the mesh of the model. *)
From Coq Require Import QArith Ascii.
From Verif Require Import Base Names_Model Prism_Model Prism_Spec Prism_Proofs Prism_Props Text_Spec Text_Proofs Vtk_Model Vtk_Spec Vtk_Proofs.
Close Scope Q_scope.
Open Scope string_scope.
Open Scope nat_scope.
Open Scope list_scope.
Open Scope res_scope.

(** ** models with lines *)
Definition ends_in (m : pmodel) (l : line) : Prop := fst (l_ends l) < List.length (m_points m) /\ snd (l_ends l) < List.length (m_points m).
Definition lines_in (m : pmodel) : Prop := Forall (ends_in m) (m_lines m).

Lemma link_prev_ends ls : map l_ends (link_prev ls) = map l_ends ls.
Proof.
  induction ls as [|p ls IH]; [reflexivity|]. destruct ls as [|q [|r ls]]; [reflexivity|reflexivity|]. cbn [map] in *. 
  change (link_prev (p :: q :: r :: ls)) with (p :: link_prev (q :: r :: ls)). cbn [map]. now rewrite IH.
Qed.
Lemma link_last_ends n ls : map l_ends (link_last n ls) = map l_ends ls.
Proof.
  induction ls as [|p ls IH]; [reflexivity|]. destruct ls as [|q ls]; [reflexivity|].
  change (link_last n (p :: q :: ls)) with (p :: link_last n (q :: ls)). cbn [map] in *. now rewrite IH.
Qed.
Lemma lines_in_map m ls : map l_ends ls = map l_ends (m_lines m) -> lines_in m -> Forall (ends_in m) ls.
Proof.
  unfold lines_in. generalize (m_lines m). induction ls as [|x ls IH]; intros [|y l] E F; try discriminate; constructor; inversion F; subst; cbn in E; injection E as E1 E2.
  - unfold ends_in in *. now rewrite E1.
  - now apply (IH l).
Qed.
Lemma with_lines_in f m : (forall ls, map l_ends (f ls) = map l_ends ls) -> lines_in m -> lines_in (with_lines f m).
Proof. intros H L. unfold lines_in, with_lines. cbn [m_lines]. apply (lines_in_map m); auto. Qed.
Lemma add_line_in a b fr bk m m' : add_line a b fr bk m = Ok m' -> lines_in m ->
  lines_in m' /\ m_prisms m' = m_prisms m /\ m_offs m' = m_offs m /\ exists r, m_points m' = m_points m ++ r.
Proof.
  unfold add_line. destruct (total (m_offs m)) as [t| | |]; cbn [bind]; try discriminate. destruct (0 <? t); [|discriminate]. intros [= <-] L.
  split; [|cbn; eauto]. unfold lines_in. cbn [m_lines]. apply Forall_app. split.
  - eapply Forall_impl; [|exact L]. unfold ends_in. cbn [m_points]. intros l. rewrite app_length. cbn. lia.
  - constructor; [|constructor]. unfold ends_in. cbn [l_ends fst snd m_points]. rewrite app_length. cbn. lia.
Qed.
Lemma wire_from_two start first fin a b pts m : wire_from start first fin (a :: b :: pts) m =
  (m1 <- add_line a b (if start then [first] else []) [] m ;;
   wire_from false first fin (b :: pts)
     (match pts with [] => with_lines (link_last fin) (if start then m1 else with_lines link_prev m1) | _ => if start then m1 else with_lines link_prev m1 end)).
Proof. reflexivity. Qed.
Lemma wire_from_in first fin : forall pts start m m', wire_from start first fin pts m = Ok m' -> lines_in m ->
  lines_in m' /\ m_prisms m' = m_prisms m /\ m_offs m' = m_offs m /\ exists r, m_points m' = m_points m ++ r.
Proof.
  induction pts as [|a pts IH]; intros start m m' H L; [injection H as <-; repeat split; auto; exists []; now rewrite app_nil_r|].
  destruct pts as [|b pts]; [injection H as <-; repeat split; auto; exists []; now rewrite app_nil_r|].
  rewrite wire_from_two in H. destruct (add_line a b _ [] m) as [m1| | |] eqn:E; cbn [bind] in H; cbv zeta in H; try discriminate.
  destruct (add_line_in _ _ _ _ _ _ E L) as (L1 & P1 & O1 & r1 & R1).
  match type of H with wire_from false _ _ _ ?x = _ => assert (G : lines_in x /\ m_prisms x = m_prisms m1 /\ m_offs x = m_offs m1 /\ m_points x = m_points m1) end.
  { destruct pts; [destruct start|destruct start]; repeat split; auto; repeat apply with_lines_in; auto using link_prev_ends, link_last_ends. }
  destruct G as (L2 & P2 & O2 & R2). destruct (IH _ _ _ H L2) as (L3 & P3 & O3 & r3 & R3).
  repeat split; [exact L3|congruence|congruence|]. exists (r1 ++ r3). rewrite R3, R2, R1. now rewrite app_assoc.
Qed.
Lemma add_wires_in ws : forall m m', add_wires ws m = Ok m' -> lines_in m ->
  lines_in m' /\ m_prisms m' = m_prisms m /\ m_offs m' = m_offs m /\ exists r, m_points m' = m_points m ++ r.
Proof.
  induction ws as [|w ws IH]; intros m m' H L; [injection H as <-; repeat split; auto; exists []; now rewrite app_nil_r|].
  cbn [add_wires] in H. destruct (add_wire w m) as [m1| | |] eqn:E; cbn [bind] in H; try discriminate.
  unfold add_wire in E. destruct w as [[first fin] [|p pts]]; cbn [fst snd] in E; [discriminate|].
  destruct (wire_from_in _ _ _ _ _ _ E L) as (L1 & P1 & O1 & r1 & R1). destruct (IH _ _ H L1) as (L3 & P3 & O3 & r3 & R3).
  repeat split; [exact L3|congruence|congruence|]. exists (r1 ++ r3). rewrite R3, R1. now rewrite app_assoc.
Qed.

(** The file of a model that was built and got its bond wires can be read.  It has the points of the model in their order,
    one cell of type 13 (a wedge) with its six corners per prism and one cell of type 3 (a line) with its two ends per line
    element, so that the number of a cell is the number of the element; every corner is one of the points of the file; and if
    there is one temperature per element the i-th value is that of element i.  Missing: coordinates and temperatures are
    those the printed numbers stand for ([rnd]), see [C123_digits_refuted]. *)
Theorem C123_mesh_file_partial : forall show color real rnd, (forall q, word (show q)) -> (forall q, real (show q) = Some (rnd q)) ->
  forall m t scale ws m1 m2 temps, wf_model m t -> m_prisms m = [] -> m_lines m = [] -> build scale m = Ok m1 -> add_wires ws m1 = Ok m2 ->
  exists text mesh, generate show color true true m2 temps = Ok (true, Some text) /\ read_mesh real text = Some mesh /\
    v_points mesh = map (fun p => (rnd (px p), rnd (py p), rnd (pz p))) (m_points m2) /\
    List.length (m_prisms m2) = list_sum (sizes (m_layers m)) /\
    v_cells mesh = map (fun i => (13, i_vs i)) (m_prisms m2) ++ map (fun l => (3, [fst (l_ends l); snd (l_ends l)])) (m_lines m2) /\
    (forall ty vs v, In (ty, vs) (v_cells mesh) -> In v vs -> v < List.length (v_points mesh)) /\
    (forall ts, temps = Some ts -> List.length ts = List.length (v_cells mesh) -> v_data mesh = Some (map rnd ts)) /\
    (temps = None -> v_data mesh = None).
Proof.
  intros show color real rnd Hs Hr m t scale ws m1 m2 temps W P0 L0 B A.
  destruct (build_ok m t scale W) as (m' & ks & E & N & E1 & E2 & E3 & E4 & insts & E5 & F).
  assert (m' = m1) by congruence. subst m'. rewrite P0 in E5. cbn [app] in E5.
  assert (LI : lines_in m1) by (unfold lines_in; rewrite E3, L0; constructor).
  destruct (add_wires_in ws m1 m2 A LI) as (L2 & P2 & O2 & r & R2).
  assert (LEN : List.length insts = List.length (all_prisms (m_layers m))) by (symmetry; apply (F2_length _ _ _ F)).
  assert (T : total (m_offs m2) = Ok (List.length (m_prisms m2))) by (rewrite O2, E2, P2, E5, LEN; apply total_pairs).
  assert (V : forall i v, In i (m_prisms m2) -> In v (i_vs i) -> v < List.length (m_points m2)).
  { intros i v Hi Hv. rewrite P2, E5 in Hi. apply In_nth_error in Hi as [k Hk].
    destruct (nth_error (all_prisms (m_layers m)) k) as [p|] eqn:Ep.
    2:{ apply nth_error_None in Ep. assert (k < List.length insts) by (apply nth_error_Some; congruence). lia. }
    destruct (Forall2_nth _ _ _ k p F Ep) as (i' & Hi' & O). assert (i' = i) by congruence. subst i'.
    destruct O as (_ & _ & y & e & tri & _ & _ & Ht & H6 & HV & _).
    destruct W as (_ & _ & W2 & _). rewrite Forall_forall in W2. destruct (W2 tri (nth_error_In _ _ Ht)) as (L3 & _).
    assert (K : forall j, j < 6 -> exists a, nth_error (i_vs i) j = Some a /\ a < List.length ks).
    { intros j J. destruct (nth_error (t_vs tri) (if j <? 3 then j else j - 3)) as [x|] eqn:X.
      2:{ apply nth_error_None in X. destruct (Nat.ltb_spec j 3); lia. }
      destruct (HV _ x X) as (a & b & A1 & B1 & A2 & B2). destruct (Nat.ltb_spec j 3).
      - exists a. split; [exact A1|]. apply nth_error_Some. congruence.
      - exists b. split; [replace j with (j - 3 + 3) by lia; exact B1|]. apply nth_error_Some. congruence. }
    apply In_nth_error in Hv as [j Hj]. assert (J : j < 6) by (rewrite <- H6; apply nth_error_Some; congruence).
    destruct (K j J) as (a & Ha & La). assert (a = v) by congruence. subst a. rewrite R2, app_length, E4, map_length. lia. }
  assert (H6 : Forall (fun i => List.length (i_vs i) = 6) (m_prisms m2)).
  { rewrite P2, E5. clear - F. induction F as [|p i ps is O _ IH]; constructor; [|exact IH]. destruct O as (_ & _ & y & e & tri & _ & _ & _ & H & _). exact H. }
  destruct (read_back show color real rnd Hs Hr m2 temps [] (m_prisms m2) T (eq_sym (app_nil_r _)) H6) as (text & X & RD).
  exists text. eexists. split; [unfold generate; rewrite X; reflexivity|]. split; [exact RD|]. cbn [v_points v_cells v_data].
  split; [reflexivity|]. split; [rewrite P2, E5, LEN; unfold all_prisms; apply pairs_len|]. split; [reflexivity|]. split; [|split].
  - intros ty vs v Hin Hv. rewrite map_length. apply in_app_or in Hin as [Hin|Hin]; apply in_map_iff in Hin as (x & [= <- <-] & Hx).
    + apply (V x v Hx Hv).
    + unfold lines_in in L2. rewrite Forall_forall in L2. destruct (L2 x Hx) as [A1 A2]. destruct Hv as [<-|[<-|[]]]; assumption.
  - intros ts -> HL. rewrite app_length, !map_length in HL. rewrite HL, Nat.eqb_refl. reflexivity.
  - intros ->. reflexivity.
Qed.
Print Assumptions C123_mesh_file_partial.

(** The cell with the number of an element is where the element is: for the prism [e] of layer [l] over the triangle [tri] the
    corners [v] and [v + 3] are at vertex [v] of the triangle, on the top and the bottom level of the layer. *)
Theorem C123_cells_placed : forall show color real rnd, (forall q, word (show q)) -> (forall q, real (show q) = Some (rnd q)) ->
  forall m t scale ws m1 m2 temps text mesh, wf_model m t -> m_prisms m = [] -> m_lines m = [] -> build scale m = Ok m1 -> add_wires ws m1 = Ok m2 ->
  generate show color true true m2 temps = Ok (true, Some text) -> read_mesh real text = Some mesh ->
  forall l e i y el tri, numbered (m_layers m) l e i -> nth_error (m_layers m) l = Some y -> nth_error (y_elems y) e = Some el ->
    nth_error (t_tris t) (e_tid el) = Some tri ->
    exists vs, nth_error (v_cells mesh) i = Some (13, vs) /\ List.length vs = 6 /\
      forall v x, nth_error (t_vs tri) v = Some x -> exists a b p q,
        nth_error vs v = Some a /\ nth_error vs (v + 3) = Some b /\
        nth_error (v_points mesh) a = Some (rnd (px p), rnd (py p), rnd (pz p)) /\ corner_at (m_layers m) t scale l x p /\
        nth_error (v_points mesh) b = Some (rnd (px q), rnd (py q), rnd (pz q)) /\ corner_at (m_layers m) t scale (l + 1) x q.
Proof.
  intros show color real rnd Hs Hr m t scale ws m1 m2 temps text mesh W P0 L0 B A G RM l e i y el tri HN Hy He Ht.
  destruct (C123_mesh_file_partial show color real rnd Hs Hr m t scale ws m1 m2 temps W P0 L0 B A) as (text' & mesh' & G' & R' & VP & _ & VC & _).
  assert (text' = text) by congruence. subst text'. assert (mesh' = mesh) by congruence. subst mesh'.
  destruct (build_ok m t scale W) as (m' & ks & E & N & E1 & E2 & E3 & E4 & insts & E5 & F).
  assert (m' = m1) by congruence. subst m'. rewrite P0 in E5. cbn [app] in E5.
  destruct (add_wires_in ws m1 m2 A) as (L2 & P2 & O2 & r & R2); [unfold lines_in; rewrite E3, L0; constructor|].
  destruct (Forall2_nth _ _ _ i (l, e) F HN) as (ins & Hi & O). destruct O as (O1 & O2' & y' & e' & tri' & Hy' & He' & Ht' & H6 & HV & _). cbn [fst snd] in *.
  assert (y' = y) by congruence. subst y'. assert (e' = el) by congruence. subst e'. assert (tri' = tri) by congruence. subst tri'.
  exists (i_vs ins). split; [|split; [exact H6|]].
  - rewrite VC, P2, E5. apply nth_app_some. now rewrite (map_nth_error _ _ _ Hi).
  - intros v x Hx. destruct (HV v x Hx) as (a & b & A1 & B1 & A2 & B2).
    destruct W as (_ & _ & W2 & _). rewrite Forall_forall in W2. destruct (W2 tri (nth_error_In _ _ Ht)) as (_ & FV). rewrite Forall_forall in FV.
    specialize (FV x (nth_error_In _ _ Hx)).
    assert (PT : forall n k, nth_error ks n = Some (k, x) -> exists p, nth_error (v_points mesh) n = Some (rnd (px p), rnd (py p), rnd (pz p)) /\ corner_at (m_layers m) t scale k x p).
    { intros n k Hn. exists (pos_of (m_layers m) t scale (k, x)). split.
      - rewrite VP, R2, E4. rewrite map_app. apply nth_app_some. now rewrite (map_nth_error _ _ _ (map_nth_error _ _ _ Hn)).
      - exists (nth x (t_pts t) (0%Z, 0%Z)). split; [now apply nth_error_nth'|reflexivity]. }
    destruct (PT a l A2) as (p & Hp & Cp). destruct (PT b (l + 1) B2) as (q & Hq & Cq). exists a, b, p, q. auto 10.
Qed.
Print Assumptions C123_cells_placed.

(** The case of a small model with a bond wire of three pieces; [show] here prints whole numbers. *)
Definition ex_show (q : Q) : string := to_dec (Z.to_nat (Qnum (Qred q))).
Definition ex_real (w : string) : option Q := match number [w] with Some (n, _) => Some (inject_Z (Z.of_nat n)) | None => None end.
Example C123_ex :
  exists m2, add_wires [(0, 2, [Build_pt3 0%Q 0%Q 9%Q; Build_pt3 1%Q 0%Q 9%Q; Build_pt3 2%Q 0%Q 9%Q])] ex_built = Ok m2 /\
    rmap (fun r => match snd r with Some t => read_mesh ex_real t | None => None end) (generate ex_show (fun _ => (0, 0, 255)%Z) true true m2 (Some [1; 2; 3; 4; 5]%Q)) =
    Ok (Some (mkMesh [(0, 0, 3); (0, 0, 2); (10, 0, 3); (10, 0, 2); (10, 10, 3); (10, 10, 2); (0, 10, 3); (0, 10, 2); (0, 0, 1); (0, 0, 0); (10, 10, 1); (10, 10, 0); (0, 10, 1); (0, 10, 0);
                     (0, 0, 9); (1, 0, 9); (1, 0, 9); (2, 0, 9)]%Q
                [(13, [0; 2; 4; 1; 3; 5]); (13, [0; 4; 6; 1; 5; 7]); (13, [8; 10; 12; 9; 11; 13]); (3, [14; 15]); (3, [16; 17])] (Some [1; 2; 3; 4; 5]%Q))).
Proof. eexists. split; [vm_compute; reflexivity|vm_compute; reflexivity]. Qed.

(** A list of temperatures of another size is left out without a word: the call still succeeds. *)
Theorem C123_wrong_size_dropped : forall show color m ts text, total (m_offs m) = Ok (List.length (m_prisms m)) ->
  List.length ts <> List.length (m_prisms m) + List.length (m_lines m) ->
  generate show color true true m (Some ts) = Ok (true, Some text) <-> generate show color true true m None = Ok (true, Some text).
Proof.
  intros show color m ts text T N. unfold generate, vtk_text. rewrite T. cbn [bind].
  destruct (Nat.eqb_spec (List.length ts) (List.length (m_lines m) + List.length (m_prisms m))) as [E|_]; [lia|]. reflexivity.
Qed.
Print Assumptions C123_wrong_size_dropped.
Example C123_wrong_size_ex : total (m_offs ex_built) = Ok (List.length (m_prisms ex_built)) /\ List.length [1; 2]%Q <> List.length (m_prisms ex_built) + List.length (m_lines ex_built).
Proof. split; vm_compute; [reflexivity|discriminate]. Qed.

(** Without a folder or a file nothing is written and the call fails; a model that was never built is undefined. *)
Theorem C123_no_file : forall show color dir opened m temps, dir && opened = false -> generate show color dir opened m temps = Ok (false, None).
Proof. intros show color [] [] m temps H; try discriminate; reflexivity. Qed.
Print Assumptions C123_no_file.
Theorem C123_unbuilt_is_ub : forall show color m temps, m_offs m = [] -> generate show color true true m temps = UB.
Proof. intros show color m temps H. unfold generate, vtk_text. now rewrite H. Qed.
Print Assumptions C123_unbuilt_is_ub.

(** Numbers are printed with six significant digits, so points that differ by less become one: here the corners of a prism
    1.234567 mm and 1.234568 mm from the origin.  [six_digits] is what [operator<<] is documented to do. *)
Definition six_digits (show : Q -> string) : Prop :=
  forall a k u x y, (100000 <= a < 1000000)%Z -> (u == 10 ^ k)%Q -> (inject_Z a * u - u / 2 < x < inject_Z a * u + u / 2)%Q ->
    (inject_Z a * u - u / 2 < y < inject_Z a * u + u / 2)%Q -> show x = show y.
Theorem C123_digits_refuted : exists m1, build (1 # 1000000)%Q (Build_pmodel
    [{| y_elev := 1%Q; y_thick := 1%Q; y_elems := [ex_elem 0 0 [None; None; None]] |}]
    [(0, {| t_pts := [(1234567, 0); (1234568, 0); (1234567, 9)]%Z; t_tris := [{| t_vs := [0; 1; 2]; t_nb := [None; None; None] |}] |})] 0 [] [] [] []) = Ok m1 /\
  exists a b, nth_error (m_points m1) 0 = Some a /\ nth_error (m_points m1) 2 = Some b /\ ~ (px a == px b)%Q /\
  forall show, six_digits show -> point_line show a = point_line show b.
Proof.
  eexists. split; [vm_compute; reflexivity|]. eexists. eexists. split; [reflexivity|]. split; [reflexivity|]. split; [cbn; discriminate|].
  intros show H. unfold point_line. cbn [px py pz].
  match goal with |- (show ?x ++ _)%string = (show ?y ++ _)%string => rewrite (H 123457%Z (-5)%Z (1 # 100000)%Q x y); [reflexivity|split; [discriminate|reflexivity]|reflexivity|split; reflexivity|split; reflexivity] end.
Qed.
Print Assumptions C123_digits_refuted.
