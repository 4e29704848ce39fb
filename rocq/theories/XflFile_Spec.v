From Verif Require Import Base QSum Units_Model Names_Model Net_Model Bondwire_Model Padstack_Model LayerMap_Model Layers_Model Xfl_Model XflGeom_Model XflGeom_Spec XflFile_Model.

(** a composite starts with a point and has no three point arc *)
Definition good_pieces (cs : list piece) : Prop :=
  exists p rest, cs = CPoint p :: rest /\ forall mid fin, ~ In (CArc Arc3 mid fin) rest.
Definition good_shape (f : file_shape) : Prop := match f with FComposite cs => good_pieces cs | _ => True end.

Section Spec.
  Context {P : Type}.
  Definition good_obj (o : file_obj P) : Prop :=
    match o with RPath _ _ cs => good_pieces cs | RShape _ _ _ f _ => good_shape f | _ => True end.
  Definition template_known (f : xfl_file P) (id : Z) : Prop := In id (map fst (x_templates f)).
  (** a via whose padstack, shape and material are all in the file *)
  Definition via_known (f : xfl_file P) (v : string * Z * Z * bool) : bool :=
    let '(_, ps, sh, mat) := v in
    existsb (fun q => (fst q =? ps)%Z) (x_padstacks f) && existsb (fun t => (fst t =? sh)%Z) (x_templates f) && mat.
  Definition via_id (v : string * Z * Z * bool) : string := fst (fst (fst v)).

  Record importable (f : xfl_file P) : Prop := {
    im_scale : x_scale f <> None;
    im_unit : x_unit f <> None;
    im_templates : forall id t, In (id, t) (x_templates f) -> good_shape t;
    im_routes : forall n os o, In (n, os) (x_routes f) -> In o os -> good_obj o;
    im_vias : NoDup (map via_id (filter (via_known f) (x_vias f)));
    im_board : match x_board f with
               | Some (inl (inr cs)) => good_pieces cs
               | Some (inr id) => ~ template_known f id
               | _ => True
               end
  }.
End Spec.
