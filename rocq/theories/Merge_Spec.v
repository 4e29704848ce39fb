From Verif Require Import Base Names_Spec Net_Model Bondwire_Model Merge_Model.
Local Open Scope Z_scope.

(** A net collection in a state its own operations lead to: keys are the nets' names, ids are unique, non-negative and
    below the next id. *)
Record proper (c : netcoll) : Prop := {
  pr_nodup : NoDup (akeys (nc_map c));
  pr_name : forall n x, In (n, x) (nc_map c) -> net_name x = n;
  pr_range : forall n x, In (n, x) (nc_map c) -> 0 <= net_id x < nc_uid c;
  pr_inj : forall n m x y, In (n, x) (nc_map c) -> In (m, y) (nc_map c) -> net_id x = net_id y -> n = m;
  pr_uid : 0 <= nc_uid c
}.

(** net id i belongs to a net of the collection named n *)
Definition net_named (c : netcoll) (i : Z) (n : string) : Prop := nc_find c n = Some (mkNet n i).
Definition has_net (c : netcoll) (i : Z) : Prop := exists n, net_named c i n.

(** r is the given name, possibly with a number appended *)
Definition named_after (full r : string) : Prop := r = full \/ exists k, r = (full ++ decimal k)%string.

Section S.
  Context {G D : Type} (mv_geo : G -> G) (mv_pt : Z * Z -> Z * Z) (mv_data : D -> D) (forward : Z -> Z).
  Notation layout := (layout G D).

  (** no dangling net ids *)
  Definition nets_valid (B : layout) : Prop :=
    (forall p, In p (y_prims B) -> p_net p = noNet \/ has_net (y_nets B) (p_net p)) /\
    (forall s, In s (y_ps B) -> ps_net s = noNet \/ has_net (y_nets B) (ps_net s)).

  (** a bondwire that ends on a component has that component *)
  Definition bw_valid (B : layout) : Prop :=
    forall p b, In p (y_prims B) -> p_body p = Bw b -> e_layer (b_end b) = ComponentLayer -> e_comp (b_end b) <> None.

  (** component [c'] of the target is the copy of [c] *)
  Definition comp_copy (prefix sep : string) (c c' : comp D) : Prop :=
    named_after (prefix ++ sep ++ c_name c)%string (c_name c') /\
    c_layer c' = forward (c_layer c) /\ c_data c' = mv_data (c_data c).

  (** where a component pointer of B leads in the merged layout *)
  Definition ptr_copy (prefix sep : string) (A B A' : layout) (p p' : option cptr) : Prop :=
    match p with
    | None => p' = None
    | Some (o, k) =>
        match (if (o =? y_id B)%nat then alookup String.eqb k (y_comps B) else None) with
        | None => p' = p
        | Some c => exists k' c', p' = Some (y_id A, k') /\ ~ In k' (akeys (y_comps A)) /\ alookup String.eqb k' (y_comps A') = Some c' /\
                    comp_copy prefix sep c c'
        end
    end.
End S.
