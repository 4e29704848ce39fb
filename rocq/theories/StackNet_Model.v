(** The thermal network of a whole stack-up prism model.
    src/solver/thermal/utils/EStackupPrismThermalNetworkBuilder.cpp, EPrismThermalNetworkBuilder.cpp

    What one prism contributes is PrismNet_Model, what the wires contribute WireNet_Model. *)
From Verif Require Import Base QSum ThermalNetwork_Model PrismNet_Model WireNet_Model.
Open Scope nat_scope.
Open Scope res_scope.

Section Stack.
  (** [local]: the number of a prism in its layer, which the extraction stores as neighbour above and below;
      [barea]: the area of a block *)
  Context (k : lookups) (local : nat -> nat) (barea : wblock -> Q) (m : pmodel).

  (** The wires are built by the function inherited from the prism builder, which only asks for the number of
      prisms (EPrismThermalNetworkBuilder.cpp 156-193). *)
  Definition sides_only (p : prism) : prism :=
    {| p_side := p_side p; p_top := None; p_bot := None; p_ctop := []; p_cbot := [] |}.
  Definition line_view : pmodel := mkModel (map sides_only (m_prisms m)) (m_lines m) None None [].

  (** EStackupPrismThermalNetworkBuilder.cpp 20-170 *)
  Definition stack_calls (T : list Q) : res (list op) :=
    concat_res (fun ip => stack_prism_ops (k_power k T) (k_cap k T) (k_xy k T) (k_z k T) (k_height k) (k_harea k)
                            (k_side k) (k_edge k) (k_dist k) (m_top m) (m_bot m) (fst ip) (snd ip))
      (combine (seq 0 (prism_count m)) (m_prisms m)).

  (** 172-224 *)
  Definition stack_blocks : list op :=
    flat_map (fun b => stack_block_ops (k_harea k) (stack_elem_nb local) (b_found b) (barea b) (b_bc b)) (m_blocks m).

  (** [Build] inherited from EPrismThermalNetworkBuilder.cpp 20-51 *)
  Definition stack_build (minR : Q) (T : list Q) : res (option network) :=
    if List.length T =? element_count m then
      ps <- stack_calls T ;;
      ls <- concat_res (line_ops k line_view T) (m_lines m) ;;
      rmap Some (run minR (net_new (element_count m)) (ps ++ ls ++ stack_blocks))
    else Ok None.
End Stack.
