From Verif Require Import Base Flatten_Model.

Section S.
  Context {Ob T : Type} (place : T -> Ob -> Ob).
  Notation db := (db Ob T).

  (** c instantiates d *)
  Definition child (H : db) (c d : nat) : Prop := exists i, In i (l_insts (H c)) /\ i_def i = d.

  Inductive reach (H : db) : nat -> nat -> Prop :=
  | reach_refl c : reach H c c
  | reach_step c d e : child H c d -> reach H d e -> reach H c e.

  (** at least one step *)
  Definition below (H : db) (c e : nat) : Prop := exists d, child H c d /\ reach H d e.

  (** no infinite chain of instances starts at c *)
  Definition well_founded_at (H : db) (c : nat) : Prop := Acc (fun d c => child H c d) c.

  (** The object at position j of the cell reached from c by following the instances at positions p, moved up along
      the path: every instance on the way places it. *)
  Fixpoint resolve (H : db) (c : nat) (p : list nat) (j : nat) : option Ob :=
    match p with
    | [] => nth_error (l_objs (H c)) j
    | i :: p' =>
        match nth_error (l_insts (H c)) i with
        | None => None
        | Some t => option_map (place (i_tag t)) (resolve H (i_def t) p' j)
        end
    end.

  (** [os] lists the objects of c, once per instantiation path and object position *)
  Definition once_per_path (H : db) (c : nat) (os : list Ob) : Prop :=
    exists keys : list (list nat * nat),
      NoDup keys /\
      (forall p j, In (p, j) keys <-> resolve H c p j <> None) /\
      map Some os = map (fun k => resolve H c (fst k) (snd k)) keys.
End S.
