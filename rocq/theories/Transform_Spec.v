From Verif Require Import Base Transform_Model.
Local Open Scope Q_scope.

Definition peq (p q : pt) : Prop := fst p == fst q /\ snd p == snd q.

(** what one item does to a point, in the documented order: scale, rotate, mirror, shift *)
Definition mirror_pt (m : mirror2d) (p : pt) : pt :=
  match m with
  | MNo => p
  | MX => (fst p, - snd p)
  | MY => (- fst p, snd p)
  | MXY => (- fst p, - snd p)
  end.

Section S.
  Context (cosQ sinQ : Q -> Q).
  Definition scale_pt (s : Q) (p : pt) : pt := (s * fst p, s * snd p).
  Definition rotate_pt (r : Q) (p : pt) : pt :=
    (cosQ r * fst p - sinQ r * snd p, sinQ r * fst p + cosQ r * snd p).
  Definition shift_pt (o p : pt) : pt := (fst p + fst o, snd p + snd o).
  Definition item_pt (d : tdata) (p : pt) : pt :=
    shift_pt (td_off d) (mirror_pt (td_mirror d) (rotate_pt (td_rot d) (scale_pt (td_scale d) p))).

  (** a list of items moves a point item by item *)
  Definition items_pt (l : list tdata) (p : pt) : pt := fold_left (fun q d => item_pt d q) l p.

  (** the point map of a transform object, as a caller sees it *)
  Definition moves (t : transform) (p : pt) : pt := aff_apply (get_transform cosQ sinQ t) p.
End S.

(** no Append is executed while a matrix is cached: [c] says whether one is *)
Fixpoint appends_uncached (c : bool) (ops : list t_op) : bool :=
  match ops with
  | [] => true
  | TRead :: ops' => appends_uncached true ops'
  | TEdit _ :: ops' => appends_uncached false ops'
  | TAppend _ :: ops' => negb c && appends_uncached c ops'
  end.

Definition is_read (o : t_op) : bool := match o with TRead => true | _ => false end.
Definition is_edit (o : t_op) : bool := match o with TEdit _ => true | _ => false end.
Definition is_append (o : t_op) : bool := match o with TAppend _ => true | _ => false end.

(** the history without its reads *)
Definition without_reads (ops : list t_op) : list t_op := filter (fun o => negb (is_read o)) ops.

(** the reference behaviour: a list of items, edits change the last one, appends add the other's items *)
Definition ref_step (l : list tdata) (o : t_op) : list tdata :=
  match o with
  | TRead => l
  | TEdit f => edit_last f l
  | TAppend u => l ++ filter is_transformed (t_seq u)
  end.
