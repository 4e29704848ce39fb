(** C11 – iterators. *)
From Verif Require Import Base Iterators_Model Iterators_Spec Iterators_Proofs.

(** Iterators over maps and vectors (nets, layers, primitives, definitions, instances, components, ...). *)
Theorem C11_simple_iterator_enumerates :
  forall A (l : list A), enumerates it_next l l.
Proof. exact @simple_enumerates. Qed.
Print Assumptions C11_simple_iterator_enumerates.

Theorem C11_simple_iterator_current :
  forall A (l : list A), current_agrees it_next it_current l.
Proof. exact @simple_current. Qed.
Print Assumptions C11_simple_iterator_current.

Example C11_simple_case : calls it_next 5 [7; 8; 9] = [Some 7; Some 8; Some 9; None; None].
Proof. reflexivity. Qed.

(** Connection-object and hierarchy-object iterators: all of the first collection, then all of the second. *)
Theorem C11_pair_iterator_enumerates :
  forall A (a b : list A), enumerates pair_next (a, b) (a ++ b).
Proof. exact @pair_enumerates. Qed.
Print Assumptions C11_pair_iterator_enumerates.

Theorem C11_conn_obj_current :
  forall A (a b : list A), current_agrees pair_next conn_current (a, b).
Proof. exact @conn_current_agrees. Qed.
Print Assumptions C11_conn_obj_current.

Example C11_pair_case : calls pair_next 5 ([], [1; 2]) = [Some 1; Some 2; None; None; None] /\
  calls pair_next 4 ([1; 2], [3]) = [Some 1; Some 2; Some 3; None].
Proof. split; reflexivity. Qed.

(** Finding: the hierarchy-object iterator's Current() returns nothing while components are left. *)
Theorem C11_hierarchy_current_refuted :
  exists a b : list nat, ~ current_agrees pair_next hier_current (a, b).
Proof. exists [], [1]; intros H; specialize (H 0); discriminate. Qed.
Print Assumptions C11_hierarchy_current_refuted.

(** The nested iterator delivers exactly the containers before the first empty one. *)
Theorem C11_nested_iterator_exact :
  forall A (c : list (list A)), enumerates cx_next (cx_begin c) (List.concat (before_empty c)).
Proof. exact @complex_enumerates. Qed.
Print Assumptions C11_nested_iterator_exact.

Theorem C11_nested_iterator_enumerates_partial :
  forall A (c : list (list A)), ~ In [] c -> enumerates cx_next (cx_begin c) (List.concat c).
Proof.
  intros A c H; rewrite <- (before_empty_all c H) at 2; exact (complex_enumerates c).
Qed.
Print Assumptions C11_nested_iterator_enumerates_partial.

Theorem C11_nested_iterator_current :
  forall A (c : list (list A)), current_agrees cx_next cx_current (cx_begin c).
Proof. exact @complex_current. Qed.
Print Assumptions C11_nested_iterator_current.

Example C11_nested_case : ~ In [] [[1; 2]; [3]; [4]] /\
  calls cx_next 6 (cx_begin [[1; 2]; [3]; [4]]) = [Some 1; Some 2; Some 3; Some 4; None; None].
Proof. split; [intros [H|[H|[H|[]]]]; discriminate|reflexivity]. Qed.

(** Finding: an empty inner container hides everything behind it. *)
Theorem C11_nested_iterator_refuted :
  exists c : list (list nat), ~ enumerates cx_next (cx_begin c) (List.concat c).
Proof. exists [[1]; []; [2]]; intros H; specialize (H 2); discriminate. Qed.
Print Assumptions C11_nested_iterator_refuted.
