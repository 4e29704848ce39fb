(** C01 – generated names are fresh and minimal. *)
From Verif Require Import Base Names_Model Names_Spec Names_Proofs.
Local Open Scope string_scope.

(** GetNextDefName / NextNetName / NextKey: for every used set and base the call returns, with the first
    free name of base, base1, base2, ...  [count] is the collection's membership test. *)
Theorem C01_next_key_first_free :
  forall (used : list string) (count : string -> bool),
    (forall n, count n = true <-> In n used) ->
    forall base, exists r,
      returns (fun fuel => next_key fuel count base) r /\ first_free used base r.
Proof. exact next_key_returns. Qed.
Print Assumptions C01_next_key_first_free.

Example C01_next_key_case :
  let used := ["a"; "a1"; "b"; "a3"] in
  next_key 5 (fun n => existsb (String.eqb n) used) "a" = Ok "a2" /\
  next_key 5 (fun n => existsb (String.eqb n) used) "c" = Ok "c".
Proof. vm_compute; auto. Qed.

(** GetNextLayerName *)
Theorem C01_next_layer_name_first_free :
  forall (names : list string) (base : string), exists r,
    returns (fun fuel => get_next_layer_name fuel names base) r /\ first_free names base r.
Proof. exact next_layer_name_returns. Qed.
Print Assumptions C01_next_layer_name_first_free.

Example C01_layer_name_case :
  get_next_layer_name 5 ["Dielectric"; "M1"; "Dielectric1"] "Dielectric" = Ok "Dielectric2".
Proof. vm_compute; auto. Qed.

(** NextKey on integral keys returns the least free key not below the request. *)
Theorem C01_next_int_key_least_free :
  forall (used : list Z) (count : Z -> bool),
    (forall n, count n = true <-> In n used) ->
    forall key, exists r,
      returns (fun fuel => next_int_key fuel count key) r /\
      ~ In r used /\ (key <= r)%Z /\ forall j, (key <= j < r)%Z -> In j used.
Proof. exact (fun used count H key => next_int_key_returns used count key H). Qed.
Print Assumptions C01_next_int_key_least_free.

Example C01_next_int_key_case :
  next_int_key 9 (fun n => existsb (Z.eqb n) [3; 4; 6]%Z) 3%Z = Ok 5%Z.
Proof. vm_compute; auto. Qed.

(** Padstack instance names handed out while importing: one call per via instance; the names of a whole
    import are pairwise different and avoid the names in use before. *)
Theorem C01_padstack_instance_names_distinct :
  forall (defs used : list string), exists ns,
    returns (fun fuel => padstack_inst_names fuel used defs) (ns, rev ns ++ used)%list /\
    List.length ns = List.length defs /\ NoDup ns /\ (forall n, In n ns -> ~ In n used).
Proof. exact inst_names_returns. Qed.
Print Assumptions C01_padstack_instance_names_distinct.

Theorem C01_padstack_instance_name_least :
  forall (used : list string) (d : string),
  exists n, returns (fun fuel => next_padstack_inst_name fuel used d) (n, n :: used) /\
    ~ In n used /\
    exists k, 1 <= k /\ n = (d ++ "_inst_") ++ decimal k /\
      forall j, 1 <= j < k -> In ((d ++ "_inst_") ++ decimal j) used.
Proof. exact inst_name_returns. Qed.
Print Assumptions C01_padstack_instance_name_least.

Example C01_padstack_instance_names_case :
  padstack_inst_names 9 [] ["v"; "w"; "v"; "v"] =
  Ok (["v_inst_1"; "w_inst_1"; "v_inst_2"; "v_inst_3"],
      ["v_inst_3"; "v_inst_2"; "w_inst_1"; "v_inst_1"]).
Proof. vm_compute; auto. Qed.
