(** The RC thermal network and the assembly of the MNA system from it.
    src/solver/thermal/network/ThermalNetwork.h
    src/solver/thermal/network/utils/BoundaryNodeReduction.h

    Scalars are idealised as exact rationals.  [minR] (numeric_limits::epsilon, line 18) is a
    parameter known to be positive. *)
From Verif Require Import Base QSum.

Definition Qeqb (a b : Q) : bool := Qeq_bool a b.
Definition Qltb (a b : Q) : bool := negb (Qle_bool b a).

(** ThermalNetwork.h:20-41 [struct Node]; [t] is [None] for [unknownT]; [ns] is the
    [std::unordered_map<size_t, num_type>] from neighbour to resistance. *)
Record node := mkNode {
  n_scen : option nat;
  n_t : option Q;
  n_c : Q;
  n_hf : Q;
  n_htc : Q;
  n_ns : list (nat * Q) }.

Definition node0 : node := mkNode None None 0 0 0 [].
Definition network := list node.

(** ThermalNetwork.h:49-52 constructor: n default nodes *)
Definition net_new (n : nat) : network := repeat node0 n.

(** [m_nodes[i]] used as an lvalue *)
Fixpoint upd (i : nat) (f : node -> node) (l : network) : network :=
  match l, i with
  | [], _ => []
  | x :: l', 0%nat => f x :: l'
  | x :: l', Datatypes.S j => x :: upd j f l'
  end.

(** indexing [m_nodes] with operator[] out of range is undefined *)
Definition at_node (i : nat) (f : node -> node) (l : network) : res network :=
  if (i <? List.length l)%nat then Ok (upd i f l) else UB.

Definition with_scen v n := mkNode v (n_t n) (n_c n) (n_hf n) (n_htc n) (n_ns n).
Definition with_t v n := mkNode (n_scen n) v (n_c n) (n_hf n) (n_htc n) (n_ns n).
Definition with_c v n := mkNode (n_scen n) (n_t n) v (n_hf n) (n_htc n) (n_ns n).
Definition with_hf v n := mkNode (n_scen n) (n_t n) (n_c n) v (n_htc n) (n_ns n).
Definition with_htc v n := mkNode (n_scen n) (n_t n) (n_c n) (n_hf n) v (n_ns n).
Definition with_ns v n := mkNode (n_scen n) (n_t n) (n_c n) (n_hf n) (n_htc n) v.

(** Assignment through an [unordered_map] iterator to the value of an existing key. *)
Definition aset (k : nat) (v : Q) (m : list (nat * Q)) : list (nat * Q) :=
  map (fun e => if (fst e =? k)%nat then (k, v) else e) m.

Section Net.
  Context (minR : Q).

  (** the body of SetR on the first node's neighbour map, ThermalNetwork.h:143-149 *)
  Definition add_neighbor (k : nat) (r : Q) (m : list (nat * Q)) : list (nat * Q) :=
    match alookup Nat.eqb k m with
    | Some r0 => aset k (1 / (1 / r + 1 / r0)) m
    | None => m ++ [(k, r)]
    end.

  (** ThermalNetwork.h:139-150 *)
  Definition set_r (a b : nat) (r : Q) (l : network) : res network :=
    let r := Qmax r minR in
    let '(a, b) := if (b <? a)%nat then (b, a) else (a, b) in
    at_node a (fun n => with_ns (add_neighbor b r (n_ns n)) n) l.

  (** The public mutators, ThermalNetwork.h:81-150 *)
  Inductive op :=
  | AppendNode (t : option Q)          (* 81-87 *)
  | SetScenario (i : nat) (s : nat)    (* 89-92 *)
  | SetT (i : nat) (t : option Q)      (* 94-97 *)
  | SetHF (i : nat) (v : Q)            (* 104-107 *)
  | AddHF (i : nat) (v : Q)            (* 109-112 *)
  | SetHTC (i : nat) (v : Q)           (* 119-122 *)
  | AddHTC (i : nat) (v : Q)           (* 124-127 *)
  | SetC (i : nat) (v : Q)             (* 134-137 *)
  | SetR (a b : nat) (r : Q).          (* 139-150 *)

  Definition step (l : network) (o : op) : res network :=
    match o with
    | AppendNode t => Ok (l ++ [with_t t node0])
    | SetScenario i s => at_node i (with_scen (Some s)) l
    | SetT i t => at_node i (with_t t) l
    | SetHF i v => at_node i (with_hf v) l
    | AddHF i v => at_node i (fun n => with_hf (n_hf n + v) n) l
    | SetHTC i v => at_node i (with_htc v) l
    | AddHTC i v => at_node i (fun n => with_htc (n_htc n + v) n) l
    | SetC i v => at_node i (with_c v) l
    | SetR a b r => set_r a b r l
    end.

  Fixpoint run (l : network) (os : list op) : res network :=
    match os with
    | [] => Ok l
    | o :: os' => bind (step l o) (fun l' => run l' os')
    end.
End Net.

(** ThermalNetwork.h:65 and 204, 302: the node is a column of B *)
Definition selected (bonds : bool) (n : node) : bool :=
  negb (Qeqb (n_hf n) 0) || (bonds && negb (Qeqb (n_htc n) 0)).

(** ThermalNetwork.h:61-69 *)
Definition source_count (bonds : bool) (l : network) : nat := List.length (filter (selected bonds) l).

(** ThermalNetwork.h:162-168 *)
Definition total_hf (l : network) : Q := fold_left (fun a n => a + n_hf n) l 0.

(** Eigen triplets; [setFromTriplets] sums duplicates *)
Definition triplet := (nat * nat * Q)%type.
Definition entry (ts : list triplet) (i j : nat) : Q :=
  sumf (fun '(a, b, v) => if ((a =? i) && (b =? j))%nat%bool then v else 0) ts.

(** generic::ckt::mna::Stamp, in the third-party library (not in the repository): the textbook
    two-terminal and one-terminal stamps. *)
Definition stamp2 (i n : nat) (g : Q) : list triplet := [(i, i, g); (n, n, g); (i, n, - g); (n, i, - g)].
Definition stamp1 (i : nat) (g : Q) : list triplet := [(i, i, g)].

(** ThermalNetwork.h:296-304, the triplets of G contributed by node [i] *)
Definition tG_node (i : nat) (n : node) : list triplet :=
  flat_map (fun e => stamp2 i (fst e) (1 / snd e)) (n_ns n) ++
  (if negb (Qeqb (n_htc n) 0) then stamp1 i (n_htc n) else []).

Fixpoint tG_from (i : nat) (l : network) : list triplet :=
  match l with
  | [] => []
  | n :: l' => tG_node i n ++ tG_from (Datatypes.S i) l'
  end.

(** the triplets of C *)
Fixpoint tC_from (i : nat) (l : network) : list triplet :=
  match l with
  | [] => []
  | n :: l' => (if Qltb 0 (n_c n) then stamp1 i (n_c n) else []) ++ tC_from (Datatypes.S i) l'
  end.

(** the triplets of B, lines 302-303, [s] counts the columns *)
Fixpoint tB_from (bonds : bool) (i s : nat) (l : network) : list triplet :=
  match l with
  | [] => []
  | n :: l' => if selected bonds n then (i, s, 1) :: tB_from bonds (Datatypes.S i) (Datatypes.S s) l'
               else tB_from bonds (Datatypes.S i) s l'
  end.

(** the triplets of L, lines 309-322; the identity when no probes are given *)
Fixpoint tL_from (j : nat) (ps : list nat) : list triplet :=
  match ps with
  | [] => []
  | p :: ps' => (p, j, 1) :: tL_from (Datatypes.S j) ps'
  end.
Definition tL (n : nat) (ps : list nat) : list triplet :=
  match ps with
  | [] => map (fun i => (i, i, 1)) (seq 0 n)
  | _ => tL_from 0 ps
  end.

(** setFromTriplets writes out of bounds for an index outside the matrix *)
Definition in_bounds (r c : nat) (ts : list triplet) : bool :=
  forallb (fun '(a, b, _) => (a <? r)%nat && (b <? c)%nat) ts.

Record mna := mkMna { m_G : list triplet; m_C : list triplet; m_B : list triplet; m_L : list triplet }.

(** ThermalNetwork.h:283-324; the failing ECAD_ASSERT of line 317 throws *)
Definition make_mna (l : network) (bonds : bool) (ps : list nat) : res mna :=
  let n := List.length l in
  let s := source_count bonds l in
  let m := mkMna (tG_from 0 l) (tC_from 0 l) (tB_from bonds 0 0 l) (tL n ps) in
  if negb (in_bounds n n (m_G m) && in_bounds n n (m_C m) && in_bounds n s (m_B m)) then UB
  else if negb (forallb (fun p => (p <? n)%nat) ps) then Throw
  else Ok m.

(** ThermalNetwork.h:196-208; [rhs[s++] = ...] fills the vector in order *)
Fixpoint rhs_values (bonds : bool) (refT : Q) (l : network) : list Q :=
  match l with
  | [] => []
  | n :: l' => if selected bonds n then (n_hf n + n_htc n * refT) :: rhs_values bonds refT l'
               else rhs_values bonds refT l'
  end.
(** writing beyond [source] elements would be out of bounds *)
Definition make_rhs (l : network) (bonds : bool) (refT : Q) : res (list Q) :=
  let v := rhs_values bonds refT l in
  if (List.length v <=? source_count bonds l)%nat then Ok v else UB.

(** ThermalNetwork.h:210-220 *)
Definition make_full_rhs (l : network) (refT : Q) : list Q := map (fun n => n_hf n + n_htc n * refT) l.

(** ThermalNetwork.h:222-238, a sparse column *)
Fixpoint bonds_from (refT : Q) (i : nat) (l : network) : list triplet :=
  match l with
  | [] => []
  | n :: l' => (if negb (Qeqb (n_htc n) 0) then [(i, 0%nat, n_htc n * refT)] else []) ++ bonds_from refT (Datatypes.S i) l'
  end.
Definition make_bonds_rhs (l : network) (refT : Q) : list triplet := bonds_from refT 0 l.

(** ThermalNetwork.h:240-259: the matrix and the map from source to node *)
Fixpoint proj_from (i s : nat) (l : network) : list triplet * list (nat * nat) :=
  match l with
  | [] => ([], [])
  | n :: l' =>
    if negb (Qeqb (n_hf n) 0) then
      let '(ts, m) := proj_from (Datatypes.S i) (Datatypes.S s) l' in ((i, s, 1) :: ts, (s, i) :: m)
    else proj_from (Datatypes.S i) s l'
  end.
Definition make_source_proj (l : network) : list triplet * list (nat * nat) := proj_from 0 0 l.

(** ThermalNetworkSolver.h:199-204: the heat flow vector of the transient solver *)
Definition source_hf (l : network) (m : list (nat * nat)) (s : nat) : Q :=
  match alookup Nat.eqb s m with
  | Some i => match nth_error l i with Some n => n_hf n | None => 0 end
  | None => 0
  end.

(** ThermalNetwork.h:261-281 *)
Definition tNegG_node (i : nat) (n : node) : list triplet :=
  flat_map (fun e => stamp2 i (fst e) (- (1 / snd e))) (n_ns n) ++
  (if negb (Qeqb (n_htc n) 0) then stamp1 i (- n_htc n) else []).
Fixpoint tNegG_from (i : nat) (l : network) : list triplet :=
  match l with
  | [] => []
  | n :: l' => tNegG_node i n ++ tNegG_from (Datatypes.S i) l'
  end.
Fixpoint tInvC_from (i : nat) (l : network) : list triplet :=
  match l with
  | [] => []
  | n :: l' => (if Qltb 0 (n_c n) then stamp1 i (1 / n_c n) else []) ++ tInvC_from (Datatypes.S i) l'
  end.

(** ThermalNetworkSolver.h:404-409: the input vector of the reduced transient solver, [exc] the
    excitation of the node's scenario at the current time *)
Fixpoint reduced_input (bonds : bool) (refT : Q) (exc : option nat -> Q) (l : network) : list Q :=
  match l with
  | [] => []
  | n :: l' => if selected bonds n
               then (n_hf n * exc (n_scen n) + n_htc n * refT) :: reduced_input bonds refT exc l'
               else reduced_input bonds refT exc l'
  end.

(** * BoundaryNodeReduction.h:18-37

    [cap] is the capacity of the node vector: appending to a full vector moves the nodes and leaves
    the reference [node] of line 24 dangling, and line 33 reads [node.htc] through it. *)
Section Reduce.
  Context (minR fakeR fakeC : Q).

  (** [static_cast<size_t>((node.t - minT) / range)]: truncation of a value known non-negative *)
  Definition bucket (minT range t : Q) : nat := Z.to_nat (Qnum ((t - minT) / range) / Zpos (Qden ((t - minT) / range))).

  Definition reduce_step (cap : nat) (minT maxT range : Q) (i : nat) (st : network * list (nat * nat))
    : res (network * list (nat * nat)) :=
    let '(l, m) := st in
    match nth_error l i with
    | None => UB
    | Some n =>
      match n_t n with
      | None => Ok st   (* unknownT is larger than maxT *)
      | Some t =>
        if Qltb t minT || Qltb maxT t then Ok st
        else
          let id := bucket minT range t in
          match alookup Nat.eqb id m with
          | Some nid =>
            bind (run minR l [SetC nid fakeC; SetR nid i fakeR; AddHTC nid (n_htc n); SetHTC i 0])
                 (fun l' => Ok (l', m))
          | None =>
            let nid := List.length l in
            if (List.length l <? cap)%nat then
              bind (run minR l [AppendNode None; SetC nid fakeC; SetR nid i fakeR; AddHTC nid (n_htc n); SetHTC i 0])
                   (fun l' => Ok (l', m ++ [(id, nid)]))
            else UB
          end
      end
    end.

  Fixpoint reduce_loop (cap : nat) (minT maxT range : Q) (is : list nat) (st : network * list (nat * nat))
    : res (network * list (nat * nat)) :=
    match is with
    | [] => Ok st
    | i :: is' => bind (reduce_step cap minT maxT range i st) (reduce_loop cap minT maxT range is')
    end.

  (** a zero range divides by zero and converts a non-finite value, which is undefined; it only
      matters when some node reaches the division, so the guard is conservative *)
  Definition reduce (cap : nat) (minT maxT : Q) (discretization : nat) (l : network) : res network :=
    let range := (maxT - minT) / inject_Z (Z.of_nat discretization) in
    if Qeqb range 0 then UB
    else rmap fst (reduce_loop cap minT maxT range (seq 0 (List.length l)) (l, [])).
End Reduce.
