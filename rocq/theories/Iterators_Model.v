(** Collection iterators.  An iterator over a container is represented by the elements from [m_curr] to
    [m_end]; an unordered map contributes its elements in its (arbitrary) iteration order.  Element pointers
    are taken to be non-null, so [None] is the null result. *)
From Verif Require Import Base.

Section Iter.
  Context {A : Type}.

  (** src/basic/ECollection.h:144-150 (map) and 308-314 (vector) – Next *)
  Definition it_next (it : list A) : option A * list A :=
    match it with [] => (None, []) | x :: r => (Some x, r) end.

  (** ECollection.h:152-156, 316-320 – Current *)
  Definition it_current (it : list A) : option A :=
    match it with [] => None | x :: _ => Some x end.

  (** ECollection.h:183-188, 220-232 – the iterator over a map of containers: [cx_outer] are the containers
      from [m_curr1] on, [cx_inner] the elements from [m_curr2] to [m_end2]. *)
  Record complex := mkCx { cx_outer : list (list A); cx_inner : list A }.

  (** ECollection.h:220-226 – UpdateIterator2 (the inner iterators are left alone at the end) *)
  Definition cx_update (outer : list (list A)) (inner : list A) : complex :=
    match outer with [] => mkCx [] inner | l :: _ => mkCx outer l end.

  Definition cx_begin (c : list (list A)) : complex := cx_update c [].

  (** ECollection.h:192-203 – Next *)
  Definition cx_next (it : complex) : option A * complex :=
    match cx_outer it with
    | [] => (None, it)
    | _ :: outer' =>
        match cx_inner it with
        | [] => (None, it)
        | x :: [] => (Some x, cx_update outer' [])
        | x :: r => (Some x, mkCx (cx_outer it) r)
        end
    end.

  (** ECollection.h:205-210 – Current *)
  Definition cx_current (it : complex) : option A :=
    match cx_outer it with
    | [] => None
    | _ => match cx_inner it with [] => None | x :: _ => Some x end
    end.

  (** src/collection/EConnObjCollection.cpp:103-108 and EHierarchyObjCollection.cpp:102-107 – the first
      collection's elements, then the second's (the casts to the common interface always succeed). *)
  Definition pair_next (it : list A * list A) : option A * (list A * list A) :=
    match it_next (fst it) with
    | (Some x, r) => (Some x, (r, snd it))
    | (None, r) =>
        match it_next (snd it) with (o, r') => (o, (r, r')) end
    end.

  (** EConnObjCollection.cpp:110-115 – Current *)
  Definition conn_current (it : list A * list A) : option A :=
    match it_current (fst it) with Some x => Some x | None => it_current (snd it) end.

  (** EHierarchyObjCollection.cpp:109-114 – Current: only looks at the cell instances *)
  Definition hier_current (it : list A * list A) : option A := it_current (fst it).

End Iter.

(** the results of [n] calls of Next *)
Fixpoint calls {A St} (next : St -> option A * St) (n : nat) (s : St) : list (option A) :=
  match n with O => [] | S n' => let (o, s') := next s in o :: calls next n' s' end.

(** the iterator after [n] calls *)
Fixpoint after {A St} (next : St -> option A * St) (n : nat) (s : St) : St :=
  match n with O => s | S n' => after next n' (snd (next s)) end.
