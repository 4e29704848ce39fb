From Verif Require Import Base QSum LayerCut_Model.
Local Open Scope Z_scope.

(** consecutive ranges touch *)
Fixpoint contiguous (l : list lrange) : Prop :=
  match l with
  | a :: ((b :: _) as r) => lo a = hi b /\ contiguous r
  | _ => True
  end.
Definition all_positive (l : list lrange) : Prop := Forall (fun r => lo r < hi r) l.
(** from the top of the first to the bottom of the last *)
Definition spans (l : list lrange) (top bot : Z) : Prop :=
  exists a b, hd_error l = Some a /\ hd_error (rev l) = Some b /\ hi a = top /\ lo b = bot.
(** the heights at which the stack is cut *)
Definition cuts (l : list lrange) (h : Z) : Prop := exists r, In r l /\ (hi r = h \/ lo r = h).

(** neighbouring layers differ in thickness by at most the ratio *)
Fixpoint graded (ratio : Q) (l : list lrange) : Prop :=
  match l with
  | a :: ((b :: _) as r) =>
    (inject_Z (thick a) <= ratio * inject_Z (thick b))%Q /\ (inject_Z (thick b) <= ratio * inject_Z (thick a))%Q /\ graded ratio r
  | _ => True
  end.

Fixpoint decreasing (l : list Z) : Prop :=
  match l with
  | a :: ((b :: _) as r) => b < a /\ decreasing r
  | _ => True
  end.

(** the range of a shape covers the layer between [top] and [bot] *)
Definition covers_layer (r : lrange) (top bot : Z) : Prop := lo r <= bot /\ top <= hi r.

(** the shapes of layer [top]..[bot]: those with a valid range that covers it, each once, in
    the order in which they were added *)
Definition shapes_in_layer (ss : list shape) (top bot : Z) : list nat :=
  filter (fun i => match nth_error ss i with
                   | Some s => r_valid (s_range s) && ((lo (s_range s) <=? bot) && (top <=? hi (s_range s)))
                   | None => false end) (seq 0 (List.length ss)).

(** the heights at which shapes cut the model: top and bottom of every shape with a material and of its power block *)
Definition cut_height (ss : list shape) (h : Z) : Prop :=
  exists s, In s ss /\ s_mat s = true /\ lo (s_range s) < hi (s_range s) /\
    (h = hi (s_range s) \/ h = lo (s_range s) \/ exists r, s_power s = Some r /\ (h = hi r \/ h = lo r)).
