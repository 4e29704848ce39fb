(** ELookupTable1D: a std::map<EFloat, EFloat>, modelled as an association list sorted by key.
    Floats are idealised as rationals. *)
From Verif Require Import Base.
From Coq Require Export QArith.
Local Open Scope Q_scope.

Definition qltb (a b : Q) : bool := negb (Qle_bool b a).

Definition table : Type := list (Q * Q).

(** std::map::emplace: an existing key keeps its value *)
Fixpoint tbl_emplace {V} (k : Q) (v : V) (l : list (Q * V)) : list (Q * V) :=
  match l with
  | [] => [(k, v)]
  | (k', v') :: r =>
      if qltb k k' then (k, v) :: l
      else if qltb k' k then (k', v') :: tbl_emplace k v r
      else l
  end.

(** src/basic/ELookupTable.h:93-96 *)
Definition add_sample {V} (t : list (Q * V)) (s : Q * V) : list (Q * V) := tbl_emplace (fst s) (snd s) t.
Definition table_of {V} (hist : list (Q * V)) : list (Q * V) := fold_left add_sample hist [].

(** ELookupTable.h:106 *)
Definition lin (l h : Q * Q) (x : Q) : Q := snd l + (x - fst l) * (snd h - snd l) / (fst h - fst l).

(** ELookupTable.h:104-106: lower_bound (first sample whose key is not below x), then its predecessor.  Reaching the
    end would dereference end(). *)
Fixpoint lb_from (p : Q * Q) (l : table) (x : Q) : res Q :=
  match l with
  | [] => UB
  | h :: r => if qltb (fst h) x then lb_from h r x else Ok (lin p h x)
  end.

(** ELookupTable.h:98-107 *)
Definition lookup (t : table) (x : Q) : res Q :=
  match t with
  | [] => Ok 0
  | [(_, v)] => Ok v
  | (k0, v0) :: r =>
      let (kn, vn) := last t (0, 0) in
      if qltb x k0 then Ok v0
      else if qltb kn x then Ok vn
      else if qltb k0 x then lb_from (k0, v0) r x else Ok v0
  end.
