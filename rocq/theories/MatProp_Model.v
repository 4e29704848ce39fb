(** Material property values and polynomials.  Floats idealised as rationals. *)
From Verif Require Import Base.
From Coq Require Export QArith.
Local Open Scope Q_scope.

(** std::vector::at: out of range throws *)
Definition vat {A} (l : list A) (i : nat) : res A :=
  match nth_error l i with Some a => Ok a | None => Throw end.
(** std::vector::front: undefined on an empty vector *)
Definition vfront {A} (l : list A) : res A := match l with a :: _ => Ok a | [] => UB end.

(** a getter: the returned flag and the output parameter afterwards *)
Definition getter := res (bool * Q).
Definition ok_val (r : res Q) : getter := bind r (fun v => Ok (true, v)).

(** src/design/EMaterialProp.cpp:56-69 – constructors and 81-98 – setters; the arrays have fixed lengths 3 and 9 *)
Inductive mp_set := SetSimple (v : Q) | SetAniso (a b c : Q) | SetTensor (a b c d e f g h i : Q).
Definition mp_values (s : mp_set) : list Q :=
  match s with
  | SetSimple v => [v]
  | SetAniso a b c => [a; b; c]
  | SetTensor a b c d e f g h i => [a; b; c; d; e; f; g; h; i]
  end.
(** assign(1, value) / resize(n) followed by n assignments: the vector is replaced *)
Definition mp_step (_ : list Q) (s : mp_set) : list Q := mp_values s.
Definition mp_run (ctor : mp_set) (sets : list mp_set) : list Q := fold_left mp_step sets (mp_values ctor).

(** EMaterialProp.cpp:100-104; [old] is the output parameter on entry *)
Definition v_simple (vs : list Q) (old : Q) : getter := ok_val (vat vs 0).
(** EMaterialProp.cpp:106-119 *)
Definition v_aniso (vs : list Q) (row : nat) (old : Q) : getter :=
  if (3 <=? row)%nat then Ok (false, old)
  else if (List.length vs =? 1)%nat then v_simple vs old
  else if (List.length vs =? 3)%nat then ok_val (vat vs row)
  else ok_val (vat vs (row * 3 + 0)).
(** EMaterialProp.cpp:121-132 *)
Definition v_tensor (vs : list Q) (row col : nat) (old : Q) : getter :=
  if ((3 <=? row) || (3 <=? col))%nat then Ok (false, old)
  else if (List.length vs =? 1)%nat then v_simple vs old
  else if (List.length vs =? 3)%nat then v_aniso vs row old
  else ok_val (vat vs (row * 3 + col)).
(** EMaterialProp.cpp:149-160 *)
Definition v_dims (vs : list Q) : nat * nat :=
  if (List.length vs =? 1)%nat then (1, 1)%nat else if (List.length vs =? 3)%nat then (3, 1)%nat else (3, 3)%nat.

(** EMaterialProp.cpp:206-213; ECAD_ASSERT is taken as compiled out, front() of an empty vector is undefined *)
Fixpoint calc_from (cs : list Q) (t : Q) (i : nat) (acc : Q) : Q :=
  match cs with
  | [] => acc
  | c :: cs' => calc_from cs' t (S i) (acc + t ^ (Z.of_nat i) * c)
  end.
Definition calculate (cs : list Q) (t : Q) : res Q :=
  match cs with [] => UB | c :: cs' => Ok (calc_from cs' t 1 c) end.

(** EMaterialProp.cpp:215-220 *)
Definition p_simple (cs : list (list Q)) (t old : Q) : getter :=
  ok_val (bind (vfront cs) (fun c => calculate c t)).
(** EMaterialProp.cpp:222-227 *)
Definition p_aniso (cs : list (list Q)) (t : Q) (row : nat) (old : Q) : getter :=
  ok_val (bind (if (List.length cs =? 3)%nat then vat cs row else vfront cs) (fun c => calculate c t)).
(** EMaterialProp.cpp:229-235 *)
Definition p_tensor (cs : list (list Q)) (t : Q) (row col : nat) (old : Q) : getter :=
  ok_val (bind (if (List.length cs =? 9)%nat then vat cs (row * 3 + col)
                else if (List.length cs =? 3)%nat then vat cs row else vfront cs) (fun c => calculate c t)).
(** EMaterialProp.cpp:238-252; other sizes fail the assertion *)
Definition p_dims (cs : list (list Q)) : res (nat * nat) :=
  if (List.length cs =? 1)%nat then Ok (1, 1)%nat
  else if (List.length cs =? 3)%nat then Ok (3, 1)%nat
  else if (List.length cs =? 9)%nat then Ok (3, 3)%nat else Throw.
