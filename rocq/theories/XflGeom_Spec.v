From Verif Require Import Base QSum Units_Model Bondwire_Model Padstack_Model LayerMap_Model XflGeom_Model.

(** ** Padstacks *)
Section Pads.
  Context {S : Type} (metal : list (Z * Z)).
  (** the layout layer of pad [i], if its template and its metal number are known *)
  Definition pad_layer (fps : list (@file_pad S)) (i : Z) : option Z :=
    if (i <? 0)%Z then None else
    match nth_error fps (Z.to_nat i) with
    | Some (Some _, sig) => alookup Z.eqb sig metal
    | _ => None
    end.
  Definition pad_shape (fps : list (@file_pad S)) (i : Z) : option S :=
    if (i <? 0)%Z then None else
    match nth_error fps (Z.to_nat i) with Some (s, _) => s | None => None end.

  (** wanted on a layout layer of the via: the pad the file puts on that layer, otherwise the via shape *)
  Inductive wanted (fps : list (@file_pad S)) (via : S) (lyr : Z) : S -> Prop :=
  | w_pad i s : pad_layer fps i = Some lyr -> pad_shape fps i = Some s -> wanted fps via lyr s
  | w_via : (forall i, pad_layer fps i <> Some lyr) -> wanted fps via lyr via.

  (** the pads of a padstack are on different layers *)
  Definition pads_apart (fps : list (@file_pad S)) : Prop :=
    forall i j l, pad_layer fps i = Some l -> pad_layer fps j = Some l -> i = j.
  (** metal numbers stand for layers of the layout *)
  Definition layers_proper : Prop := forall k l, alookup Z.eqb k metal = Some l -> (0 <= l)%Z.
End Pads.

(** ** Shapes *)
(** [z] is the length [q] up to less than one coordinate step *)
Definition about (z : Z) (q : Q) : Prop := (- (1) < inject_Z z - q /\ inject_Z z - q < 1)%Q.
Definition box_about (e : eshape) (lx ly hx hy : Q) : Prop :=
  match e with EBox a b c d => about a lx /\ about b ly /\ about c hx /\ about d hy | _ => False end.
Definition point_about (p : Z * Z) (q : pt) : Prop := about (fst p) (fst q) /\ about (snd p) (snd q).
Definition scaled (scale : Q) (p : pt) : pt := ((scale * fst p)%Q, (scale * snd p)%Q).

(** what a shape of the file should become, in coordinates; shapes with arcs apart *)
Definition sized (scale : Q) (f : file_shape) (e : eshape) : Prop :=
  match f with
  | FPolygon ps => match e with EPolygon es => Forall2 point_about es (map (scaled scale) ps) | _ => False end
  | FComposite _ => True
  | FRectangle w h => box_about e (- (scale * w / 2)) (- (scale * h / 2)) (scale * w / 2) (scale * h / 2)
  | FSquare w => box_about e (- (scale * w / 2)) (- (scale * w / 2)) (scale * w / 2) (scale * w / 2)
  | FDiamond w => match e with
                  | EPolygon es => Forall2 point_about es [((scale * w / 2)%Q, 0%Q); (0%Q, (scale * w / 2)%Q); ((- (scale * w / 2))%Q, 0%Q); (0%Q, (- (scale * w / 2))%Q)]
                  | _ => False end
  | FCircle d => match e with ECircle r => about r (scale * d / 2) | _ => False end
  | FAnnular i o => match e with ERing a b => about a (scale * i / 2) /\ about b (scale * o / 2) | _ => False end
  | FOblong w l r => box_about e (- (scale * l)) (- (scale * w / 2)) (scale * r) (scale * w / 2)
  | FBullet _ _ _ => True
  | FFinger _ _ _ => True
  end.

(** the outline a composite describes: its points and the points of its arcs without their first *)
Fixpoint outline (arc_points : pt -> arc_kind -> pt -> pt -> list pt) (cs : list piece) (last : pt) : list pt :=
  match cs with
  | [] => []
  | CPoint p :: cs' => p :: outline arc_points cs' p
  | CArc k mid fin :: cs' => tl (arc_points last k mid fin) ++ outline arc_points cs' fin
  end.

(** [z] is the length [q] up to less than two coordinate steps *)
Definition nearly (z : Z) (q : Q) : Prop := (- (2) < inject_Z z - q /\ inject_Z z - q < 2)%Q.
(** [es] are the points behind the first of the half circle that starts at [c], has its centre on the x axis and ends
    opposite to [c], each within one coordinate step *)
Definition rounded_end (arc_points : pt -> arc_kind -> pt -> pt -> list pt) (c : Z * Z) (es : list (Z * Z)) : Prop :=
  Forall2 point_about es (tl (arc_points (inject_Z (fst c), inject_Z (snd c)) Half (inject_Z (fst c), 0) (inject_Z (fst c), inject_Z (- snd c)))).
