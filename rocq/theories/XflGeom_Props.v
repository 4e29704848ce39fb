From Verif Require Import Base QSum Units_Model Bondwire_Model Padstack_Model LayerMap_Model Xfl_Model Xfl_Spec Xfl_Proofs Layers_Model XflGeom_Model XflGeom_Spec XflGeom_Proofs.
Local Open Scope list_scope.

(** ** C74 – pads of imported vias *)
(** Every via whose padstack, shape and material are known gives a definition of its own, as long as their
    names differ. *)
Theorem C74_definitions_partial : forall S metal (vs : list (file_via S)),
  NoDup (map v_name (filter complete vs)) ->
  exists ds, import_vias metal vs [] = Ok ds /\ Forall2 (def_of metal) (filter complete vs) ds.
Proof.
  intros S metal vs N; destruct (import_vias_cases metal vs []) as [(_ & ds & E & F)|[(H & _)|H]]; [eauto|contradiction|].
  exfalso; apply H; constructor.
Qed.
Print Assumptions C74_definitions_partial.

(** Two vias of the same name: the import is undefined or throws, whatever else the file holds. *)
Theorem C74_same_name_refuted : forall S metal (vs : list (file_via S)),
  ~ NoDup (map v_name (filter complete vs)) -> import_vias metal vs [] = UB \/ import_vias metal vs [] = Throw.
Proof.
  intros S metal vs N; destruct (import_vias_cases metal vs []) as [(H & _)|[(_ & H)|H]]; [contradiction|apply H; constructor|].
  exfalso; apply H; constructor.
Qed.
Print Assumptions C74_same_name_refuted.

(** Which of the two: the layer map of the second via of a name was not created, so placing a pad on it is
    undefined; with no pad to place, the missing definition stops the import with an assertion.  The vias before
    have all different names. *)
Theorem C74_same_name_is_ub : forall S metal (vs : list (file_via S)) v vs' fps,
  NoDup (map v_name (filter complete vs)) -> complete v = true -> In (v_name v) (map v_name (filter complete vs)) -> v_pads v = Some fps ->
  import_vias metal (vs ++ v :: vs') [] =
    if existsb (fun q => match fst q with Some _ => existsb (fun m => (fst m =? snd q)%Z) metal | None => false end) fps then UB else Throw.
Proof.
  intros S metal vs v vs' fps N C I Hp.
  assert (A : forall us done ds, import_vias metal us done = Ok ds -> import_vias metal (us ++ v :: vs') done = import_vias metal (v :: vs') ds).
  { clear; induction us as [|u us IH]; intros done ds; cbn [import_vias app]; [intros [= ->]; reflexivity|].
    destruct (v_pads u) as [p|]; [|apply IH]; destruct (v_shape u); [|apply IH]; destruct (v_mat_known u); [|apply IH].
    destruct (existsb _ done); [destruct (existsb _ p); discriminate|].
    destruct (import_padstack metal p); cbn [bind]; try discriminate; apply IH. }
  destruct (C74_definitions_partial S metal vs N) as (ds & E & F); rewrite (A _ _ _ E); clear A E.
  cbn [import_vias]; unfold complete in C; rewrite Hp in C |- *; destruct (v_shape v) as [s|]; [|discriminate]; destruct (v_mat_known v); [|discriminate].
  assert (U : existsb (fun d => String.eqb (v_name v) (d_name d)) ds = true).
  { apply existsb_exists; apply in_map_iff in I as (u & Hu & I); clear - F I Hu; induction F as [|u' d us ds H F IH]; [destruct I|].
    destruct I as [->|I]; [exists d; split; [left; reflexivity|]; destruct H as (H & _); rewrite H, Hu; apply String.eqb_refl|].
    destruct (IH I) as (d' & Hd & E); exists d'; split; [right; exact Hd|exact E]. }
  rewrite U; clear.
  assert (M : forall q : option S * Z, maps_pad metal q = match fst q with Some _ => existsb (fun m => (fst m =? snd q)%Z) metal | None => false end).
  { intros [[x|] k]; unfold maps_pad; cbn [fst snd]; [|reflexivity].
    induction metal as [|[i j] metal IH]; cbn [alookup existsb fst]; [reflexivity|]; rewrite (Z.eqb_sym k i); destruct (i =? k)%Z; [reflexivity|exact IH]. }
  replace (existsb (maps_pad metal) fps) with (existsb (fun q : option S * Z => match fst q with Some _ => existsb (fun m => (fst m =? snd q)%Z) metal | None => false end) fps); [reflexivity|].
  induction fps as [|q fps IH]; cbn [existsb]; [reflexivity|]; rewrite M, IH; reflexivity.
Qed.
Print Assumptions C74_same_name_is_ub.
Example C74_same_name_is_ub_case : let v pads := {| v_name := "v"; v_pads := Some pads; v_shape := Some tt; v_mat_known := true |}%string in
  let run pads := import_vias [(1, 0)]%Z [v []; v pads; v []] [] in
  run [(Some tt, 1)]%Z = UB /\ run [(Some tt, 2); (None, 1)]%Z = Throw /\ import_vias [(1, 0)]%Z [v []] [] <> UB.
Proof. vm_compute; repeat split; discriminate. Qed.

(** What an instance shows on layout layer [lyr]: the pad whose number is the layout layer of pad number [lyr]. *)
Theorem C74_shown : forall S metal fps (via : S) top bot lyr,
  layers_proper metal -> pads_apart metal fps -> (0 <= Z.min top bot <= lyr)%Z -> (lyr <= Z.max top bot)%Z ->
  exists lm pads, import_padstack metal fps = Ok (lm, pads) /\
    layer_shape lm pads via top bot lyr =
      Ok (Some (match pad_layer metal fps lyr with Some l => match pad_shape fps l with Some s => s | None => via end | None => via end)).
Proof. intros; apply layer_shape_shown; auto; lia. Qed.
Print Assumptions C74_shown.

(** Outside its range of layers an instance shows nothing. *)
Theorem C74_outside_range : forall S (lm : lmap) pads (via : S) top bot lyr,
  (lyr < Z.min top bot \/ Z.max top bot < lyr)%Z -> layer_shape lm pads via top bot lyr = Ok None.
Proof.
  intros S lm pads via top bot lyr H; unfold layer_shape.
  destruct (Z.ltb_spec lyr (Z.min top bot)); [reflexivity|]; destruct (Z.ltb_spec (Z.max top bot) lyr); [reflexivity|lia].
Qed.
Print Assumptions C74_outside_range.

(** Right if every pad's number is its layer: all layers metal and one pad per layer from the top. *)
Theorem C74_pads_partial : forall S metal fps (via : S) top bot lyr,
  layers_proper metal -> (forall i l, pad_layer metal fps i = Some l -> l = i) -> (0 <= Z.min top bot <= lyr)%Z -> (lyr <= Z.max top bot)%Z ->
  exists lm pads s, import_padstack metal fps = Ok (lm, pads) /\ layer_shape lm pads via top bot lyr = Ok (Some s) /\ wanted metal fps via lyr s.
Proof.
  intros S metal fps via top bot lyr LP O R1 R2.
  destruct (layer_shape_shown metal fps via top bot lyr LP) as (lm & pads & E & H); try lia.
  { intros i j l Hi Hj; apply O in Hi, Hj; congruence. }
  exists lm, pads; eexists; split; [eauto|split; [eauto|]].
  destruct (pad_layer metal fps lyr) as [l|] eqn:P.
  - pose proof (O _ _ P); subst l; unfold pad_layer in P; unfold pad_shape; destruct (lyr <? 0)%Z eqn:L0; [discriminate|].
    destruct (nth_error fps (Z.to_nat lyr)) as [[[s|] sig]|] eqn:N; try discriminate.
    apply (w_pad _ _ _ _ lyr); unfold pad_layer, pad_shape; rewrite L0, N; auto.
  - apply w_via; intros i Hi; pose proof (O _ _ Hi); congruence.
Qed.
Print Assumptions C74_pads_partial.

(** A signal, a dielectric and a signal layer, and a via with one pad on each signal layer: the pad of the lower
    layer is not shown. *)
Definition ex_pads : list (@file_pad string) := [(Some "upper"%string, 1%Z); (Some "lower"%string, 2%Z)].
Definition sds : list file_layer :=
  [ {| fl_name := "a"; fl_thickness := 1%Q; fl_kind := Signal; fl_cond := "c"; fl_diel := "d" |};
    {| fl_name := "b"; fl_thickness := 1%Q; fl_kind := Dielectric; fl_cond := "c"; fl_diel := "d" |};
    {| fl_name := "c"; fl_thickness := 1%Q; fl_kind := Signal; fl_cond := "c"; fl_diel := "d" |} ].
Definition sds_metal : list (Z * Z) := ls_metal_map (snd (import_layers [] 1%Q sds)).
Theorem C74_pads_refuted : exists lm pads s, import_padstack sds_metal ex_pads = Ok (lm, pads) /\
  layer_shape lm pads "via"%string 0 2 2 = Ok (Some s) /\ ~ wanted sds_metal ex_pads "via"%string 2 s.
Proof.
  eexists _, _, "via"%string; split; [vm_compute; reflexivity|split; [vm_compute; reflexivity|]].
  intros H; inversion H as [i s H1 H2|H1]; subst.
  - unfold pad_shape in H2; destruct (i <? 0)%Z; [discriminate|]; destruct (Z.to_nat i) as [|[|[|n]]]; discriminate.
  - apply (H1 1%Z); vm_compute; auto.
Qed.
Print Assumptions C74_pads_refuted.

Example C74_hypotheses : layers_proper sds_metal /\ pads_apart sds_metal ex_pads.
Proof.
  split.
  - intros k l; change sds_metal with [(1, 0); (2, 2)]%Z; simpl.
    destruct (k =? 1)%Z; [intros H; injection H as <-; lia|]; destruct (k =? 2)%Z; intros H; [injection H as <-; lia|discriminate].
  - assert (P : forall i l, pad_layer sds_metal ex_pads i = Some l -> (i = 0 /\ l = 0 \/ i = 1 /\ l = 2)%Z).
    { intros i l; unfold pad_layer; destruct (Z.ltb_spec i 0); [discriminate|].
      destruct (Z.to_nat i) as [|[|n]] eqn:E; simpl; intros P; [injection P as <-; lia|injection P as <-; lia|destruct n; discriminate]. }
    intros i j l Hi Hj; apply P in Hi, Hj; lia.
Qed.
Example C74_in_order : forall i l, pad_layer [(1, 0); (2, 1)]%Z ex_pads i = Some l -> l = i.
Proof.
  intros i l; unfold pad_layer; destruct (Z.ltb_spec i 0); [discriminate|].
  destruct (Z.to_nat i) as [|[|n]] eqn:E; simpl; intros P; [injection P as <-; lia|injection P as <-; lia|destruct n; discriminate].
Qed.
Example C74_same_name_case : let v := {| v_name := "v"; v_pads := Some ex_pads; v_shape := Some "s"%string; v_mat_known := true |} in
  import_vias sds_metal [v; v] [] = UB /\ match import_vias sds_metal [v] [] with Ok [d] => d_name d = "v"%string | _ => False end.
Proof. vm_compute; auto. Qed.

(** ** C75 – sizes of imported shapes *)
Definition keeps_size (f : file_shape) : Prop := match f with FPolygon _ | FAnnular _ _ | FOblong _ _ _ => True | _ => False end.
Theorem C75_size_partial : forall scale arcs f, keeps_size f -> exists e, get_shape scale arcs f = Ok e /\ sized scale f e.
Proof.
  intros scale arcs f K; destruct f; try contradiction K; eexists; split; try reflexivity; cbn [sized box_about].
  - apply to_points_about.
  - split; eapply about_eq; try apply trunc_about; field.
  - split; [|split; [|split]]; [| |eapply about_eq; try apply trunc_about; ring|].
    + eapply about_eq; try apply trunc_about; ring.
    + apply about_opp; eapply about_eq; try apply trunc_about; field.
    + eapply about_eq; try apply trunc_about; field.
Qed.
Print Assumptions C75_size_partial.

(** A rectangle has half the width and height of the file. *)
Theorem C75_rectangle_half : forall scale arcs w h, exists e, get_shape scale arcs (FRectangle w h) = Ok e /\
  box_about e (- (scale * w / 4)) (- (scale * h / 4)) (scale * w / 4) (scale * h / 4).
Proof.
  intros scale arcs w h; eexists; split; [reflexivity|]; cbn [box_about].
  assert (H : forall c q z, (c == 1#2 \/ c == - (1#2))%Q -> about z q -> about (trunc (c * inject_Z z)) (c * q)%Q) by (intros; apply half_about; auto).
  assert (HW : about (trunc ((1#2) * w * scale)) ((1#2) * w * scale)) by apply trunc_about.
  assert (HH : about (trunc ((1#2) * h * scale)) ((1#2) * h * scale)) by apply trunc_about.
  split; [|split; [|split]]; (eapply about_eq; [|apply H; [|eassumption]; lra]); field.
Qed.
Print Assumptions C75_rectangle_half.

(** so it is never of the right size, unless it is smaller than eight steps *)
Theorem C75_rectangle_refuted : forall scale arcs w h e, (8 <= scale * w)%Q \/ (8 <= scale * h)%Q ->
  get_shape scale arcs (FRectangle w h) = Ok e -> ~ sized scale (FRectangle w h) e.
Proof.
  intros scale arcs w h e B E H; destruct (C75_rectangle_half scale arcs w h) as (e' & E' & Q); rewrite E in E'; injection E' as <-.
  destruct e as [|lx ly hx hy| |]; try contradiction H; cbn [sized box_about] in H, Q; unfold about in *.
  assert (Dw : (scale * w / 2 == (scale * w) * (1#2))%Q) by field; assert (Dw' : (scale * w / 4 == (scale * w) * (1#4))%Q) by field.
  assert (Dh : (scale * h / 2 == (scale * h) * (1#2))%Q) by field; assert (Dh' : (scale * h / 4 == (scale * h) * (1#4))%Q) by field.
  lra.
Qed.
Print Assumptions C75_rectangle_refuted.

(** Squares, diamonds and circles keep the numbers of the file: right without scaling only. *)
Definition ignores_scale (f : file_shape) (size : Q) : Prop :=
  match f with FSquare w | FDiamond w | FCircle w => w = size | _ => False end.
Theorem C75_unscaled_partial : forall scale arcs f size, ignores_scale f size -> (scale == 1)%Q ->
  exists e, get_shape scale arcs f = Ok e /\ sized scale f e.
Proof.
  intros scale arcs f size K S1; destruct f; try contradiction K; simpl in K; subst; eexists; (split; [reflexivity|]); cbn [sized box_about].
  all: assert (A : about (trunc ((1#2) * size)) (scale * size / 2)) by (eapply about_eq; [|apply trunc_about]; rewrite S1; field).
  all: assert (A' : about (- trunc ((1#2) * size)) (- (scale * size / 2))) by (apply about_opp; auto).
  - auto.
  - assert (Z0 : about 0 0) by (unfold about; simpl; split; reflexivity).
    do 4 (constructor; [split; auto|]); constructor.
  - auto.
Qed.
Print Assumptions C75_unscaled_partial.

Theorem C75_unscaled_refuted : forall scale arcs f size e, ignores_scale f size -> (4 <= (scale - 1) * size \/ (scale - 1) * size <= - (4))%Q ->
  get_shape scale arcs f = Ok e -> ~ sized scale f e.
Proof.
  intros scale arcs f size e K B E H.
  assert (A : about (trunc ((1#2) * size)) ((1#2) * size)) by apply trunc_about.
  assert (N : ~ about (trunc ((1#2) * size)) (scale * size / 2)).
  { intros A'; assert (D : (scale * size / 2 == (1#2) * ((scale - 1) * size) + (1#2) * size)%Q) by field; unfold about in *; lra. }
  destruct f; try contradiction K; simpl in K; subst; cbn [get_shape] in E; injection E as <-; cbn [sized box_about] in H; apply N; try tauto.
  inversion H; subst; match goal with H : point_about _ _ |- _ => destruct H; auto end.
Qed.
Print Assumptions C75_unscaled_refuted.

(** Composite outlines: the points of the file and of its arcs, in order. *)
Theorem C75_composite_partial : forall scale arcs p cs,
  (forall a k m f, arcs a k m f <> []) -> (forall mid fin, ~ In (CArc Arc3 mid fin) cs) ->
  exists es, get_shape scale arcs (FComposite (CPoint p :: cs)) = Ok (EPolygon es) /\
    Forall2 point_about es (map (scaled scale) (p :: outline arcs cs p)).
Proof.
  intros scale arcs p cs NE P; exists (map (to_point scale) (p :: outline arcs cs p)); split; [|apply to_points_about].
  cbn [get_shape]; rewrite composite_ok; auto.
Qed.
Print Assumptions C75_composite_partial.

(** A composite with a three point arc is undefined, an empty one too, one that starts with an arc throws. *)
Theorem C75_arc3_refuted : forall scale arcs p cs mid fin, In (CArc Arc3 mid fin) cs -> get_shape scale arcs (FComposite (CPoint p :: cs)) = UB.
Proof. intros; cbn [get_shape]; rewrite (composite_ub scale arcs cs mid fin); auto. Qed.
Print Assumptions C75_arc3_refuted.

Example C75_case : let arcs := fun a k m f => [a; (5, 5); f]%Q in
  get_shape 10 arcs (FRectangle 40 20) = Ok (EBox (-100) (-50) 100 50) /\ get_shape 10 arcs (FSquare 40) = Ok (EBox (-20) (-20) 20 20) /\
  get_shape 10 arcs (FOblong 40 (5#2) 30) = Ok (EBox (-25) (-200) 300 200) /\
  get_shape 10 arcs (FComposite [CPoint (0, 0); CArc Arc (1, 1) (2, 0); CPoint (3, 3#4)]%Q) = Ok (EPolygon [(0, 0); (50, 50); (20, 0); (30, 7)]%Z) /\
  get_shape 10 arcs (FComposite [CPoint (0, 0); CArc Arc3 (1, 1) (2, 0)]%Q) = UB.
Proof. vm_compute; auto. Qed.

(** A composite with nothing in it has no first point to read; one that starts with an arc is refused. *)
Theorem C75_empty_composite_is_ub : forall scale arcs, get_shape scale arcs (FComposite []) = UB.
Proof. reflexivity. Qed.
Print Assumptions C75_empty_composite_is_ub.
Theorem C75_arc_first_throws : forall scale arcs k mid fin cs, get_shape scale arcs (FComposite (CArc k mid fin :: cs)) = Throw.
Proof. reflexivity. Qed.
Print Assumptions C75_arc_first_throws.

(** ** C76 – board outline and units *)
(** An outline given by points or by a composite becomes the boundary of the layout. *)
Theorem C76_outline_partial : forall scale arcs ps boundary, exists es,
  import_board scale arcs (Some (BPolygon ps)) boundary = Ok (Some (EPolygon es)) /\ Forall2 point_about es (map (scaled scale) ps).
Proof. intros; eexists; split; [reflexivity|apply to_points_about]. Qed.
Print Assumptions C76_outline_partial.
Theorem C76_composite_partial : forall scale arcs p cs boundary,
  (forall a k m f, arcs a k m f <> []) -> (forall mid fin, ~ In (CArc Arc3 mid fin) cs) -> exists es,
  import_board scale arcs (Some (BComposite (CPoint p :: cs))) boundary = Ok (Some (EPolygon es)) /\
  Forall2 point_about es (map (scaled scale) (p :: outline arcs cs p)).
Proof.
  intros scale arcs p cs boundary NE P; destruct (C75_composite_partial scale arcs p cs NE P) as (es & E & F).
  exists es; split; auto; cbn [import_board]; rewrite E; auto.
Qed.
Print Assumptions C76_composite_partial.

(** ** C75 – bullets and fingers *)
(** A bullet is a box with a rounded right end, in the scale of the file. *)
Theorem C75_bullet : forall scale arcs w l r, (forall a k m f, arcs a k m f <> []) -> exists a b c es,
  get_shape scale arcs (FBullet w l r) = Ok (EPolygon (a :: b :: c :: es)) /\
  point_about a (- (scale * l), scale * w / 2)%Q /\ point_about b (- (scale * l), - (scale * w / 2))%Q /\
  nearly (fst c) (scale * r - scale * w / 2) /\ about (snd c) (- (scale * w / 2)) /\ rounded_end arcs c es.
Proof. exact bullet_shape. Qed.
Print Assumptions C75_bullet.
(** A finger has both ends rounded. *)
Theorem C75_finger : forall scale arcs w l r, (forall a k m f, arcs a k m f <> []) -> exists c es d es',
  get_shape scale arcs (FFinger w l r) = Ok (EPolygon (c :: es ++ d :: es')) /\
  nearly (fst c) (scale * r - scale * w / 2) /\ about (snd c) (- (scale * w / 2)) /\ rounded_end arcs c es /\
  nearly (fst d) (- (scale * l) + scale * w / 2) /\ about (snd d) (scale * w / 2) /\ rounded_end arcs d es'.
Proof. exact finger_shape. Qed.
Print Assumptions C75_finger.
Example C75_bullet_case : let arcs := fun a k m f => [a; (5, 0); f]%Q in
  get_shape 10 arcs (FBullet 2 1 3) = Ok (EPolygon [(-10, 10); (-10, -10); (20, -10); (5, 0); (20, 10)]%Z) /\
  get_shape 10 arcs (FFinger 2 1 3) = Ok (EPolygon [(20, -10); (5, 0); (20, 10); (0, 10); (5, 0); (0, -10)]%Z).
Proof. split; vm_compute; reflexivity. Qed.
