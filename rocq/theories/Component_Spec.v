From Verif Require Import Base Transform_Model Transform_Spec PadInst_Model Component_Model.

(** [l] is the place of the pin called [n] that was created first *)
Inductive first_pin : list (string * pt) -> string -> pt -> Prop :=
| fp_here n l ps : first_pin ((n, l) :: ps) n l
| fp_later n m k l ps : m <> n -> first_pin ps n l -> first_pin ((m, k) :: ps) n l.

(** the transforms in force after a history: SetTransform starts afresh, AddTransform adds one *)
Definition placed_step (l : list transform) (o : c_op) : list transform :=
  match o with CSet u => [u] | CAdd u => l ++ [u] | _ => l end.
Definition placement (ops : list c_op) : list transform := fold_left placed_step ops [].
Definition flip_of (ops : list c_op) : bool :=
  fold_left (fun b o => match o with CFlip b' => b' | _ => b end) ops false.

(** where a point of the definition belongs: flipped about the origin of the definition, then placed *)
Definition flip_pt (b : bool) (p : pt) : pt := if b then mirror_pt MXY p else p.
Definition placed_pt (cosQ sinQ : Q -> Q) (ts : list transform) (p : pt) : pt :=
  fold_left (fun q u => moves cosQ sinQ u q) ts p.

(** the supplied transform objects have not been read yet *)
Definition plain (o : c_op) : Prop := match o with CSet u | CAdd u => t_cache u = None | _ => True end.

(** no AddTransform on a placement whose matrix has been read since it was set *)
Fixpoint adds_unread (c : bool) (ops : list c_op) : bool :=
  match ops with
  | [] => true
  | CRead :: ops' => adds_unread true ops'
  | CSet _ :: ops' => adds_unread false ops'
  | CAdd _ :: ops' => negb c && adds_unread c ops'
  | CFlip _ :: ops' => adds_unread c ops'
  end.

(** twice the signed area of a triangle *)
Definition turn (a b c : pt) : Q :=
  (fst b - fst a) * (snd c - snd a) - (snd b - snd a) * (fst c - fst a).
