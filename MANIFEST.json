{
 "claims": [
  {
   "property": "C01",
   "status": "proved",
   "theorems": [
    "C01_next_key_first_free",
    "C01_next_layer_name_first_free",
    "C01_next_int_key_least_free",
    "C01_padstack_instance_names_distinct",
    "C01_padstack_instance_name_least"
   ],
   "note": ""
  },
  {
   "property": "C02",
   "status": "partial",
   "theorems": [
    "C02_net_collection_is_a_map",
    "C02_rename_refuted"
   ],
   "note": "Refinement to an abstract table for all histories of the collection's interface; fails when a net is renamed through INet::SetName (refuted)."
  },
  {
   "property": "C03",
   "status": "partial",
   "theorems": [
    "C03_net_ids_unique_partial",
    "C03_net_ids_unique_refuted"
   ],
   "note": "Unique for all histories without clone; refuted with clone (uid counter restarts). Agreement of FindNetByNetId is part of C02_net_collection_is_a_map."
  },
  {
   "property": "C04",
   "status": "partial",
   "theorems": [
    "C04_material_ids_dense",
    "C04_find_material_by_id_partial",
    "C04_clone_lookup_refuted"
   ],
   "note": "Ids are dense and lookup by id agrees with lookup by name for all add histories; a cloned database loses the id index (refuted)."
  },
  {
   "property": "C05",
   "status": "proved",
   "theorems": [
    "C05_layer_id_is_position",
    "C05_find_layer_by_id",
    "C05_append_returns_its_id",
    "C05_append_layers",
    "C05_layers_never_reordered",
    "C05_histories_run",
    "C05_default_layer_map_identity"
   ],
   "note": ""
  },
  {
   "property": "C06",
   "status": "proved",
   "theorems": [
    "C06_dielectric_insertion",
    "C06_empty_stackup_is_ub"
   ],
   "note": ""
  },
  {
   "property": "C07",
   "status": "proved",
   "theorems": [
    "C07_lookups_inverse",
    "C07_reserved_ids_fixed",
    "C07_mapping_stable",
    "C07_fresh_mapping_effective",
    "C07_conflicting_mapping_ignored",
    "C07_only_requested_mappings"
   ],
   "note": ""
  },
  {
   "property": "C08",
   "status": "partial",
   "theorems": [
    "C08_mapping_right_composes_partial",
    "C08_mapping_left_composes_partial",
    "C08_mapping_right_refuted",
    "C08_mapping_left_refuted"
   ],
   "note": "Composition law proved for source layers with valid ids; refuted for negative ids, which forward and backward mapping treat as mapped to themselves."
  },
  {
   "property": "C09",
   "status": "proved",
   "theorems": [
    "C09_registry_is_a_map"
   ],
   "note": ""
  },
  {
   "property": "C10",
   "status": "proved",
   "theorems": [
    "C10_definition_collections_refine",
    "C10_add_definition_duplicate_material_is_ub",
    "C10_clone_keeps_definitions"
   ],
   "note": ""
  },
  {
   "property": "C11",
   "status": "partial",
   "theorems": [
    "C11_simple_iterator_enumerates",
    "C11_simple_iterator_current",
    "C11_pair_iterator_enumerates",
    "C11_conn_obj_current",
    "C11_hierarchy_current_refuted",
    "C11_nested_iterator_exact",
    "C11_nested_iterator_enumerates_partial",
    "C11_nested_iterator_current",
    "C11_nested_iterator_refuted"
   ],
   "note": "Simple, pair and connection-object iterators are exact; nested iterator proved for collections without an empty member and characterised exactly otherwise; refuted with an empty member; hierarchy iterator's Current() refuted."
  },
  {
   "property": "C12",
   "status": "partial",
   "theorems": [
    "C12_item_order",
    "C12_make_transform",
    "C12_new_is_identity",
    "C12_append_composes_partial",
    "C12_append_composes_after_read",
    "C12_read_is_neutral_now",
    "C12_reads_invisible_partial",
    "C12_history_is_item_list_partial",
    "C12_reads_invisible_after_edits",
    "C12_reads_invisible_refuted",
    "C12_append_composes_refuted",
    "C12_self_append_diverges"
   ],
   "note": "Append composes for all t1 and every t2 without an append on a cached object; refuted when t2 was appended to after a read, or when an edit follows an append made after a read; self-append of an uncached transform never returns."
  },
  {
   "property": "C13",
   "status": "partial",
   "theorems": [
    "C13_save_load_partial",
    "C13_save_load_then_use_partial",
    "C13_save_load_refuted"
   ],
   "note": "Proved for all histories without an append on a cached object; refuted otherwise (only the item list is saved)."
  },
  {
   "property": "C14",
   "status": "proved",
   "theorems": [
    "C14_lookup_returns",
    "C14_lookup_empty",
    "C14_samples_sorted",
    "C14_exact_at_samples",
    "C14_clamps_below",
    "C14_clamps_above",
    "C14_linear_between",
    "C14_between_neighbours",
    "C14_cases_cover",
    "C14_monotone"
   ],
   "note": ""
  },
  {
   "property": "C15",
   "status": "partial",
   "theorems": [
    "C15_lookup_table_first_write_wins",
    "C15_lookup_table_last_write_refuted",
    "C15_material_property_first_set_wins",
    "C15_uniform_bc_first_set_wins",
    "C15_set_once_reads_back_partial",
    "C15_material_property_last_set_refuted",
    "C15_invalid_bc_sticks_refuted",
    "C15_grid_table_first_sample_wins",
    "C15_grid_table_last_sample_refuted"
   ],
   "note": "The value read back is always that of the first write (proved for lookup tables, material properties, boundary conditions and grid tables), so the claim that the second write wins is refuted; it holds for keys written once."
  },
  {
   "property": "C16",
   "status": "partial",
   "theorems": [
    "C16_value_dimensions",
    "C16_value_simple",
    "C16_value_out_of_range",
    "C16_value_anisotropic_partial",
    "C16_value_tensor_partial",
    "C16_value_tensor_off_diagonal_refuted",
    "C16_value_anisotropic_of_tensor_refuted",
    "C16_polynomial_simple",
    "C16_polynomial_anisotropic",
    "C16_polynomial_tensor",
    "C16_polynomial_dimensions",
    "C16_polynomial_tensor_of_others",
    "C16_polynomial_range_refuted",
    "C16_polynomial_simple_range_refuted",
    "C16_polynomial_empty_is_ub"
   ],
   "note": "Exact for declared dimensionality and in-range indices, and polynomials evaluate sum c_i T^i; refuted for off-diagonal tensor queries of lower-dimensional properties, anisotropic queries of tensors, and out-of-range rows of polynomial properties."
  },
  {
   "property": "C17",
   "status": "partial",
   "theorems": [
    "C17_round_trip",
    "C17_int_round_trip",
    "C17_order",
    "C17_strict_order",
    "C17_total_partial",
    "C17_total_refuted",
    "C17_order_refuted"
   ],
   "note": "Round trip and order proved below 100; totality refuted from 100 on."
  },
  {
   "property": "C18",
   "status": "partial",
   "theorems": [
    "C18_endpoints_resolve_partial",
    "C18_one_placement_partial",
    "C18_ends_independent",
    "C18_null_deref_refuted",
    "C18_one_placement_refuted"
   ],
   "note": "Refinement for all histories of proper placements; refuted for null components, the component-layer id used as an explicit layer, and the plain primitive layer setter used by layer mapping."
  },
  {
   "property": "C19",
   "status": "partial",
   "theorems": [
    "C19_pads_refine_spec_partial",
    "C19_get_after_set_partial",
    "C19_negative_id_refuted"
   ],
   "note": "Refinement for all histories with ids >= -1; ids below -1 are an out-of-bounds access."
  },
  {
   "property": "C20",
   "status": "proved",
   "theorems": [
    "C20_flatten_conserves",
    "C20_flatten_frame"
   ],
   "note": ""
  },
  {
   "property": "C21",
   "status": "proved",
   "theorems": [
    "C21_flatten_terminates_iff",
    "C21_schedule_terminates_iff",
    "C21_flatten_terminates_acyclic",
    "C21_cycle_diverges"
   ],
   "note": ""
  },
  {
   "property": "C22",
   "status": "proved",
   "theorems": [
    "C22_schedule_independent",
    "C22_tasks_cover",
    "C22_schedule_runs"
   ],
   "note": ""
  },
  {
   "property": "C23",
   "status": "proved",
   "theorems": [
    "C23_top_cells",
    "C23_throws_iff",
    "C23_acyclic_has_top"
   ],
   "note": ""
  },
  {
   "property": "C24",
   "status": "partial",
   "theorems": [
    "C24_merge_succeeds",
    "C24_merge_keeps_target",
    "C24_merge_net_identity",
    "C24_merge_padstack_nets",
    "C24_merge_shapes",
    "C24_padstack_layers_not_mapped",
    "C24_merge_into_clone_refuted"
   ],
   "note": "Proved for target and source layouts whose net collections were not cloned or renamed behind their back; refuted for a cloned target, whose id counter restarts (C24_merge_into_clone_refuted). Padstack layer ranges are not mapped (C24_padstack_layers_not_mapped)."
  },
  {
   "property": "C25",
   "status": "partial",
   "theorems": [
    "C25_prism_settings_equal",
    "C25_layer_cut_settings_equal",
    "C25_kinds_differ",
    "C25_grid_settings_equal_partial",
    "C25_add_block_bc",
    "C25_blocks_kept",
    "C25_grid_settings_equal_refuted"
   ],
   "note": "Prism and layer-cut settings: equality is exactly agreement on every influencing field. Grid settings: the selected nets are compared with themselves (C25_grid_settings_equal_refuted), so only agreement on the other fields is proved."
  },
  {
   "property": "C26",
   "status": "partial",
   "theorems": [
    "C26_returned_model_matches_partial",
    "C26_rerequest_does_not_rebuild",
    "C26_force_rebuilds",
    "C26_layer_cut",
    "C26_failed_build_refuted",
    "C26_force_reuses_stale_layer_cut_refuted"
   ],
   "note": "Holds whenever the build succeeds; a failed build returns the old, non-matching model (C26_failed_build_refuted), and a forced prism extraction after an edit reuses the old layer-cut model (C26_force_reuses_stale_layer_cut_refuted)."
  },
  {
   "property": "C27",
   "status": "proved",
   "theorems": [
    "C27_g_symmetric",
    "C27_g_offdiagonal_nonpositive",
    "C27_g_row_sum_is_htc",
    "C27_g_diagonally_dominant",
    "C27_energy_balance",
    "C27_steady_state_unique",
    "C27_no_node_below_ambient",
    "C27_assembly_defined",
    "C27_transient_matrices",
    "C27_outputs_are_the_probes"
   ],
   "note": "Also: uniqueness of the steady state and no node below ambient when every node reaches the ambient, and the transient matrices."
  },
  {
   "property": "C28",
   "status": "proved",
   "theorems": [
    "C28_pair_conductance",
    "C28_resistor_order_irrelevant"
   ],
   "note": ""
  },
  {
   "property": "C29",
   "status": "proved",
   "theorems": [
    "C29_sources_scatter_to_full_rhs",
    "C29_source_count_is_columns",
    "C29_transient_inputs_agree",
    "C29_projection_plus_boundary_is_full_rhs",
    "C29_without_bonds_counts_boundary_twice"
   ],
   "note": ""
  },
  {
   "property": "C30",
   "status": "proved",
   "theorems": [
    "C30_flat_index_bijection",
    "C30_neighbors",
    "C30_valid_is_in_grid"
   ],
   "note": ""
  },
  {
   "property": "C31",
   "status": "proved",
   "theorems": [
    "C31_faces_exactly_once",
    "C31_matrix_couples_exactly_faces",
    "C31_build_defined"
   ],
   "note": "Models without bond wire jumps; the jump resistors are separate SetR calls. Includes that Build never touches a node out of range when blocks and jumps lie inside the grid."
  },
  {
   "property": "C32",
   "status": "partial",
   "theorems": [
    "C32_y_and_z_follow_the_law_partial",
    "C32_x_resistance_is_half_too_large",
    "C32_isotropy_refuted",
    "C32_bondwire_resistance_inverted",
    "C32_thicker_bondwire_conducts_less"
   ],
   "note": "y and z directions follow pitch/(k*area). Refuted along x: the builder passes the full x pitch for the far half cell, so the resistance is 3/2 of the law. Bond wire jumps pass k*alpha as a resistance."
  },
  {
   "property": "C33",
   "status": "partial",
   "theorems": [
    "C33_power_reaches_network_partial",
    "C33_disjoint_sources_partial",
    "C33_second_power_model_overwrites_refuted",
    "C33_heat_flux_boundary_erases_power_refuted"
   ],
   "note": "Grid builder, proved when no node receives heat twice (no heat-flux boundary and at most one table per layer, or more generally disjoint targets). Refuted otherwise: SetHF overwrites. Prism builder: see Prism files."
  },
  {
   "property": "C34",
   "status": "proved",
   "theorems": [
    "C34_block_power_total"
   ],
   "note": ""
  },
  {
   "property": "C35",
   "status": "partial",
   "theorems": [
    "C35_accumulation_preserves_total",
    "C35_average_between",
    "C35_average_is_mean",
    "C35_maximum_of_nonnegative_partial",
    "C35_minimum_of_nonpositive_partial",
    "C35_minimum_refuted",
    "C35_maximum_refuted",
    "C35_table_total",
    "C35_reduction_terminates",
    "C35_chip_power_preserved",
    "C35_block_index_partial",
    "C35_block_leaves_grid_refuted",
    "C35_grid_model_sides",
    "C35_grid_model_powers_refuted",
    "C35_grid_model_reduction_is_ub"
   ],
   "note": "Accumulation and averaging proved for every size; chip models keep their power for every order and reduction of any order returns. Partial: maximum/minimum start from 0 (exact for data of one sign, refuted otherwise); a block touching the last line of an even grid leaves the reduced grid; reducing a grid model with power models appends to the vector it iterates (undefined, or fine models kept)."
  },
  {
   "property": "C36",
   "status": "partial",
   "theorems": [
    "C36_slicing_result",
    "C36_graded_is_unchanged",
    "C36_slicing_terminates_partial",
    "C36_zero_layer_diverges",
    "C36_termination_refuted"
   ],
   "note": "Slicing keeps the stack and ends graded, but it need not end: refuted for ratio 3/2 and for the default ratio 2 below height 0. Termination is proved for ratio >= 3, or >= 2 at non-negative heights."
  },
  {
   "property": "C37",
   "status": "partial",
   "theorems": [
    "C37_cut_heights",
    "C37_layer_shapes",
    "C37_shape_layers",
    "C37_layer_by_height",
    "C37_inner_height_refuted",
    "C37_build_succeeds",
    "C37_gap_throws",
    "C37_shape_without_material_throws",
    "C37_empty_model_throws",
    "C37_power_block_inside",
    "C37_thin_power_block_vanishes"
   ],
   "note": "Layer contents are exact for every outcome that succeeds. A height inside a layer is not found by layer lookup (refuted)."
  },
  {
   "property": "C38",
   "status": "proved",
   "theorems": [
    "C38_component_sits_on_layer",
    "C38_known_layer_suffices",
    "C38_wire_on_outer_face",
    "C38_joint_between_face_and_wire"
   ],
   "note": ""
  },
  {
   "property": "C39",
   "status": "proved",
   "theorems": [
    "C39_refinement_keeps_wire",
    "C39_refinement_terminates",
    "C39_refinement_is_tight",
    "C39_added_points_are_midpoints",
    "C39_segments_one_short",
    "C39_single_point_diverges",
    "C39_no_points_is_ub"
   ],
   "note": ""
  },
  {
   "property": "C40",
   "status": "partial",
   "theorems": [
    "C40_refinement_result",
    "C40_short_wire_throws",
    "C40_refinement_terminates_partial",
    "C40_termination_refuted",
    "C40_last_segment_zero_refuted"
   ],
   "note": "Result shape is proved for every outcome. Non-zero segments are refuted for every wire (last point written twice), termination is refuted for a limit of one unit and proved from two units up."
  },
  {
   "property": "C41",
   "status": "partial",
   "theorems": [
    "C41_descending_order_partial",
    "C41_any_order_partial",
    "C41_count",
    "C41_new_primitives",
    "C41_objects_selected",
    "C41_order_refuted",
    "C41_which_primitives",
    "C41_objects_complete",
    "C41_padstack_objects"
   ],
   "note": "True for descending visiting orders and when merging yields at least as many polygons as it removes; refuted for other orders of the unordered set."
  },
  {
   "property": "C42",
   "status": "proved",
   "theorems": [
    "C42_int2_round_trip",
    "C42_int4_round_trip"
   ],
   "note": ""
  },
  {
   "property": "C43",
   "status": "partial",
   "theorems": [
    "C43_real8_nearest",
    "C43_real8_exact",
    "C43_real8_exact_refuted"
   ],
   "note": "Nearest-double decoding proved for every 8-byte real; exact decoding holds when the 56-bit fraction fits 53 bits and is refuted otherwise."
  },
  {
   "property": "C44",
   "status": "proved",
   "theorems": [
    "C44_stream_delivered",
    "C44_buffer_size_irrelevant",
    "C44_zero_padding_in_one_buffer",
    "C44_long_padding_changes_records"
   ],
   "note": ""
  },
  {
   "property": "C45",
   "status": "partial",
   "theorems": [
    "C45_truncation_is_silent",
    "C45_prefixes_are_incomplete",
    "C45_truncation_reported_refuted",
    "C45_never_returns_false",
    "C45_unknown_never_delivered",
    "C45_terminates_partial",
    "C45_length_one_diverges",
    "C45_terminates_refuted",
    "C45_reads_inside_record_refuted",
    "C45_short_record_throws",
    "C45_leading_zeros_is_ub"
   ],
   "note": "Truncation and malformed lengths are never reported: silent truncation, divergence on length 1 and reads outside the record are proved of the model."
  },
  {
   "property": "C46",
   "status": "partial",
   "theorems": [
    "C46_elements_are_independent",
    "C46_library_round_trip",
    "C46_duplicate_structure_refuted",
    "C46_stray_attribute_leaks",
    "C46_reference_adds_layer",
    "C46_long_padding_is_ub",
    "C46_element_outside_structure_is_ub",
    "C46_short_pair_throws"
   ],
   "note": "Round trip proved for libraries with distinct structure names; duplicate names refuted."
  },
  {
   "property": "C47",
   "status": "partial",
   "theorems": [
    "C47_round_trip_partial",
    "C47_items_kept",
    "C47_adjacent_list_refuted",
    "C47_trailing_backslash_refuted",
    "C47_escapes_decoded_refuted"
   ],
   "note": "Round trip proved for every S-expression and layout with separators between a name or atom and a following list; adjacency, trailing escaped backslash and escape decoding refuted."
  },
  {
   "property": "C48",
   "status": "partial",
   "theorems": [
    "C48_terminates_partial",
    "C48_well_formed_terminates",
    "C48_name_at_end_diverges",
    "C48_open_quote_diverges",
    "C48_terminates_refuted",
    "C48_missing_parenthesis_is_silent"
   ],
   "note": "Termination proved for well-formed files and for quote-free files ending in a parenthesis; divergence proved for files ending inside a name or quoted string."
  },
  {
   "property": "C49",
   "status": "partial",
   "theorems": [
    "C49_cipher",
    "C49_number",
    "C49_header_partial",
    "C49_recognised_partial",
    "C49_recognised_refuted",
    "C49_origin_refuted",
    "C49_long_name_refuted",
    "C49_cipher_blank_refuted",
    "C49_head_grows",
    "C49_none_refuted",
    "C49_layer_count_is_ub",
    "C49_other_text_not_rejected",
    "C49_bad_count_throws"
   ],
   "note": "Cipher and numbers round-trip for all texts; whole header round-trips for writable headers (partial). Refuted in general: default version line lacks '#', so an encrypted file is not recognised and reading throws; 21-character names, name lengths that encipher to blanks, origin overwritten by size, None neighbours."
  },
  {
   "property": "C50",
   "status": "partial",
   "theorems": [
    "C50_heights",
    "C50_terminates_partial",
    "C50_terminates_refuted",
    "C50_stackup",
    "C50_bottom",
    "C50_last_metal",
    "C50_cache_partial",
    "C50_cache_refuted"
   ],
   "note": "Stack-up order, contiguity, membership and disjointness proved for every header; termination needs acyclic vias (cycle refuted); cached stack-up becomes stale (refuted)."
  },
  {
   "property": "C51",
   "status": "partial",
   "theorems": [
    "C51_index_bijection",
    "C51_line_number_is_ub",
    "C51_first_build_partial",
    "C51_lines",
    "C51_line_ids",
    "C51_rebuild_refuted"
   ],
   "note": "Numbering, first build, neighbours and bond wire lines proved; a second build keeps stale prisms (refuted)."
  },
  {
   "property": "C52",
   "status": "partial",
   "theorems": [
    "C52_marker_refuted",
    "C52_contacts",
    "C52_exchange_partial",
    "C52_contact_symmetric"
   ],
   "note": "The marker claim is refuted (array of two lists never empty); exchanged area is proved to be the uncovered part."
  },
  {
   "property": "C53",
   "status": "partial",
   "theorems": [
    "C53_every_prism_once",
    "C53_same_network",
    "C53_same_stack_network",
    "C53_summary_refuted",
    "C53_summary_of_one_task"
   ],
   "note": "Same network under every interleaving proved; the shared heat summary can lose additions (refuted)."
  },
  {
   "property": "C54",
   "status": "partial",
   "theorems": [
    "C54_stops_partial",
    "C54_count_partial",
    "C54_zero_iterations_refuted"
   ],
   "note": "Proved for every builder/solver behaviour and every iteration count of at least one; refuted for a count of zero, where the size_t decrement wraps and the loop runs 2^64 times."
  },
  {
   "property": "C55",
   "status": "proved",
   "theorems": [
    "C55_permutation",
    "C55_report",
    "C55_bad_probe_throws",
    "C55_empty_field_is_ub"
   ],
   "note": "Probe reordering (any request list, repeats included) and the final report of a static run."
  },
  {
   "property": "C56",
   "status": "proved",
   "theorems": [
    "C56_samples",
    "C56_extremes",
    "C56_ends",
    "C56_starts",
    "C56_bad_step_diverges",
    "C56_no_probes_is_ub",
    "C56_no_window_throws",
    "C56_no_interval_is_ub",
    "C56_reduced_restart_is_ub",
    "C56_completes"
   ],
   "note": "For any integrator: recorded samples are characterised exactly, spacing exceeds the minimal interval, the loop ends after ceil(duration/step) integrations. Findings: step<=0 never completes, no probes / zero interval / reduced temperature-dependent runs are undefined behaviour."
  },
  {
   "property": "C57",
   "status": "partial",
   "theorems": [
    "C57_value",
    "C57_fraction",
    "C57_index_partial",
    "C57_outside",
    "C57_upper_bound_refuted",
    "C57_region",
    "C57_region_short_refuted",
    "C57_flat_tiles_is_ub",
    "C57_power",
    "C57_total_power",
    "C57_power_edge_is_ub"
   ],
   "note": "Value at a tile equals the fraction of the tile covered, indices inside the region are in range and the component power spread conserves power; refuted at the upper boundary (index equals grid size) and when stride rounding leaves part of the layout outside; tiny tiles divide by zero. The polygon coverage (Map2Grid) is an oracle."
  },
  {
   "property": "C58",
   "status": "proved",
   "theorems": [
    "C58_elevations_contiguous",
    "C58_modify_thickness",
    "C58_modify_failure_changes_nothing",
    "C58_total_thickness",
    "C58_search_finds_the_layer",
    "C58_retriever_keeps_old_heights",
    "C58_empty_stack_is_ub"
   ],
   "note": ""
  },
  {
   "property": "C59",
   "status": "partial",
   "theorems": [
    "C59_total_htc_and_frame_partial",
    "C59_full_vector_is_ub",
    "C59_per_node_conductance_refuted",
    "C59_shared_by_slot"
   ],
   "note": "Total coefficient conserved and everything else untouched for every defined call; the per-node conductance claim is refuted (the added 0.01 resistor is in series), and a full node vector makes the call undefined (C59_full_vector_is_ub)."
  },
  {
   "property": "C60",
   "status": "partial",
   "theorems": [
    "C60_rounding",
    "C60_integers_kept",
    "C60_unit_factors",
    "C60_roundtrip_partial",
    "C60_roundtrip_unit_partial",
    "C60_roundtrip_in_partial",
    "C60_same_unit",
    "C60_nearest_would_do",
    "C60_drift_bound",
    "C60_default_refuted",
    "C60_metre_refuted",
    "C60_named_unit_refuted",
    "C60_drift_refuted",
    "C60_large_refuted",
    "C60_maximum_is_ub"
   ],
   "note": "Doubles modelled with exact round-to-nearest-even at 53 bits (exponent unbounded). The full claim is refuted: truncation in toCoord loses one for e.g. 4007 in default units. Proved: result is c or one nearer to zero, exact when units agree, rounding to nearest would be exact, repeated trips lose at most one each."
  },
  {
   "property": "C61",
   "status": "proved",
   "theorems": [
    "C61_layers_stay_consistent",
    "C61_append_result"
   ],
   "note": ""
  },
  {
   "property": "C62",
   "status": "partial",
   "theorems": [
    "C62_import_partial",
    "C62_covers",
    "C62_layers_separate",
    "C62_ends",
    "C62_leading_holes_shift",
    "C62_leading_hole_refuted",
    "C62_missing_points_is_ub",
    "C62_shared_net_name_is_ub",
    "C62_open_via_throws",
    "C62_empty_is_ub",
    "C62_layer_field"
   ],
   "note": "For every file that starts with an outline record, has enough points, one name per net number and resolvable vias, each shape gets exactly its own points, holes, layer and net. Refuted for leading hole records, which are skipped without their points. Missing points, shared net names and files without shapes are undefined behaviour; vias between layers without shapes throw."
  },
  {
   "property": "C63",
   "status": "partial",
   "theorems": [
    "C63_holes_partial",
    "C63_holes_taken",
    "C63_via_names",
    "C63_voids_alone",
    "C63_unknown_template_refuted",
    "C63_annular_refuted"
   ],
   "note": "C63_holes_taken gives what the importer does for every route list; the wanted grouping holds when all void templates are known and no void follows an annular ring (partial), both exceptions are refuted with witnesses. Shapes, validity and contours are oracles; the grammar is not modelled."
  },
  {
   "property": "C64",
   "status": "proved",
   "theorems": [
    "C64_ids",
    "C64_count",
    "C64_elevation",
    "C64_contiguous",
    "C64_metal_numbers",
    "C64_layer_numbers"
   ],
   "note": "Lengths are rationals instead of doubles; the layout layers use the layer collection model of C05."
  },
  {
   "property": "C65",
   "status": "proved",
   "theorems": [
    "C65_grid_queries_use_current_samples",
    "C65_grid_samples_sorted"
   ],
   "note": ""
  },
  {
   "property": "C66",
   "status": "partial",
   "theorems": [
    "C66_dielectric_settings_refuted",
    "C66_layers_ignore_settings",
    "C66_layer_choice"
   ],
   "note": "Refuted: the layers are chosen in the constructor with default settings, so the exclusion settings have no effect."
  },
  {
   "property": "C67",
   "status": "partial",
   "theorems": [
    "C67_cells",
    "C67_layers_hold_their_shapes",
    "C67_references",
    "C67_nothing_lost_without_layer_map",
    "C67_layer_map_stack",
    "C67_aref_one_per_point",
    "C67_layer_numbers",
    "C67_default_layers",
    "C67_aref_names",
    "C67_array_lattice_refuted",
    "C67_orientation_refuted",
    "C67_orientation_ignored",
    "C67_failed_import_leaves_no_trace_refuted",
    "C67_layer_map_lines",
    "C67_layer_map_bad_number_throws",
    "C67_layer_map_bad_line_rejected",
    "C67_duplicate_cell_is_ub"
   ],
   "note": "Cells, layers, shapes and reference placement proved; array lattices, degrees versus radians, reflection and cleanup after a failed import refuted."
  },
  {
   "property": "C69",
   "status": "partial",
   "theorems": [
    "C69_power",
    "C69_power_any",
    "C69_density",
    "C69_density_partial",
    "C69_density_row_order_refuted",
    "C69_density_short_is_silent",
    "C69_density_empty_is_ub"
   ],
   "note": "Power tables proved; density tables proved for a column-order grid, refuted for row order (layout is 3rd-party); truncation is accepted silently."
  },
  {
   "property": "C70",
   "status": "proved",
   "theorems": [
    "C70_corners",
    "C70_different_templates_is_wrong"
   ],
   "note": "Proved for a common template; with different templates per layer corners are wrong (shown)."
  },
  {
   "property": "C71",
   "status": "proved",
   "theorems": [
    "C71_mesh",
    "C71_contact_mutual"
   ],
   "note": ""
  },
  {
   "property": "C72",
   "status": "partial",
   "theorems": [
    "C72_boundary_partial",
    "C72_flux_erases_power_refuted",
    "C72_two_faces_refuted",
    "C72_stack_bottom_flux_refuted",
    "C72_stack_marker_throws",
    "C72_stack_blocks_are_silent",
    "C72_blocks",
    "C72_couplings",
    "C72_coupling_values"
   ],
   "note": "Proved when power, fluxes and coefficients do not meet on one prism; four refutations otherwise; couplings proved."
  },
  {
   "property": "C73",
   "status": "partial",
   "theorems": [
    "C73_nearest_layer_partial",
    "C73_top_surface_refuted",
    "C73_top_surface_is_bottom_layer"
   ],
   "note": "Proved for the stack-up query and away from the top surface; refuted for the prism query on the top surface."
  },
  {
   "property": "C74",
   "status": "partial",
   "theorems": [
    "C74_definitions_partial",
    "C74_same_name_refuted",
    "C74_same_name_is_ub",
    "C74_shown",
    "C74_outside_range",
    "C74_pads_partial",
    "C74_pads_refuted"
   ],
   "note": "Right for stacks whose pads are numbered like their layers; refuted for a signal/dielectric/signal stack (the layer map is set in the wrong direction) and for two vias of one name. C74_shown says exactly what is shown."
  },
  {
   "property": "C75",
   "status": "partial",
   "theorems": [
    "C75_size_partial",
    "C75_rectangle_half",
    "C75_rectangle_refuted",
    "C75_unscaled_partial",
    "C75_unscaled_refuted",
    "C75_composite_partial",
    "C75_arc3_refuted",
    "C75_empty_composite_is_ub",
    "C75_arc_first_throws",
    "C75_bullet",
    "C75_finger"
   ],
   "note": "Polygons, annular rings, oblongs and composites of points and arcs keep their size; rectangles come out with half the extents, squares, diamonds and circles ignore the scale, three point arcs are undefined. Bullet and finger shapes are not modelled; arc polylines are an oracle."
  },
  {
   "property": "C76",
   "status": "partial",
   "theorems": [
    "C76_import_partial",
    "C76_via_definitions",
    "C76_import_refuted",
    "C76_no_scale_is_ub",
    "C76_template_outline_is_ub",
    "C76_lone_shape",
    "C76_outline_partial",
    "C76_composite_partial"
   ],
   "note": "Missing scale or unit, an outline from a known template, a three point arc in a template and equal via names each spoil the import (refuted); without them it always completes. The grammar is not modelled; shapes of objects that end up unused are evaluated in the model."
  },
  {
   "property": "C68",
   "status": "proved",
   "theorems": [
    "C68_nets",
    "C68_layers"
   ],
   "note": ""
  },
  {
   "property": "C77",
   "status": "partial",
   "theorems": [
    "C77_layer_order_refuted",
    "C77_dielectrics_dropped",
    "C77_stackup_complete_refuted",
    "C77_failed_import_blocks_name",
    "C77_failed_import_refuted",
    "C77_bad_layer_throws",
    "C77_short_layer_throws",
    "C77_short_net_throws",
    "C77_empty_setting_is_ub",
    "C77_unnamed_layer_is_ub"
   ],
   "note": ""
  },
  {
   "property": "C78",
   "status": "proved",
   "theorems": [
    "C78_same_net",
    "C78_net_name",
    "C78_net_count"
   ],
   "note": ""
  },
  {
   "property": "C79",
   "status": "partial",
   "theorems": [
    "C79_via_joins_partial",
    "C79_gap_refuted",
    "C79_other_objects_keep_their_number",
    "C79_bondwire_refuted",
    "C79_no_layers_is_ub"
   ],
   "note": ""
  },
  {
   "property": "C80",
   "status": "proved",
   "theorems": [
    "C80_nothing_shown",
    "C80_shape_selected",
    "C80_selection_unique",
    "C80_always_answers",
    "C80_component_layer_is_ub"
   ],
   "note": ""
  },
  {
   "property": "C81",
   "status": "partial",
   "theorems": [
    "C81_centred_pad_partial",
    "C81_shifted_instance_partial",
    "C81_turned_instance_partial",
    "C81_mirrored_instance_refuted",
    "C81_rotated_instance_refuted"
   ],
   "note": ""
  },
  {
   "property": "C82",
   "status": "proved",
   "theorems": [
    "C82_collection_mapped",
    "C82_shapes_follow"
   ],
   "note": ""
  },
  {
   "property": "C83",
   "status": "partial",
   "theorems": [
    "C83_unmapped_end_refuted",
    "C83_image_layers_partial",
    "C83_no_layer_map_is_ub"
   ],
   "note": ""
  },
  {
   "property": "C84",
   "status": "proved",
   "theorems": [
    "C84_pins_and_boundary_together",
    "C84_first_pin_stays",
    "C84_new_pin_found",
    "C84_no_definition_is_ub"
   ],
   "note": ""
  },
  {
   "property": "C85",
   "status": "partial",
   "theorems": [
    "C85_pin_placement_partial",
    "C85_added_transform_refuted",
    "C85_flip_mirror_image_refuted"
   ],
   "note": ""
  },
  {
   "property": "C86",
   "status": "partial",
   "theorems": [
    "C86_capacity_of_cell",
    "C86_other_nodes",
    "C86_metal_capacity_partial",
    "C86_dielectric_capacity_refuted"
   ],
   "note": ""
  },
  {
   "property": "C87",
   "status": "proved",
   "theorems": [
    "C87_simple_path",
    "C87_jedec4_path",
    "C87_path_exists",
    "C87_no_type_throws",
    "C87_reversed_close"
   ],
   "note": ""
  },
  {
   "property": "C88",
   "status": "partial",
   "theorems": [
    "C88_power_at_temperature_partial",
    "C88_power_at_temperature_refuted"
   ],
   "note": ""
  },
  {
   "property": "C89",
   "status": "proved",
   "theorems": [
    "C89_layers",
    "C89_bad_layer_throws",
    "C89_cell_powers",
    "C89_layer_total",
    "C89_unplaced_throws"
   ],
   "note": ""
  },
  {
   "property": "C90",
   "status": "partial",
   "theorems": [
    "C90_block_cells_partial",
    "C90_block_cells_refuted",
    "C90_outside_not_rejected",
    "C90_invalid_left_out"
   ],
   "note": ""
  },
  {
   "property": "C91",
   "status": "partial",
   "theorems": [
    "C91_jump_partial",
    "C91_jump_refuted",
    "C91_outside_not_rejected"
   ],
   "note": ""
  },
  {
   "property": "C92",
   "status": "proved",
   "theorems": [
    "C92_in_layer",
    "C92_search",
    "C92_search_strict",
    "C92_gap_throws"
   ],
   "note": ""
  },
  {
   "property": "C93",
   "status": "proved",
   "theorems": [
    "C93_elements"
   ],
   "note": ""
  },
  {
   "property": "C94",
   "status": "partial",
   "theorems": [
    "C94_power_partial",
    "C94_power_refuted",
    "C94_thin_block_refuted",
    "C94_end_joint_refuted",
    "C94_start_joint_once"
   ],
   "note": ""
  },
  {
   "property": "C95",
   "status": "proved",
   "theorems": [
    "C95_meshes"
   ],
   "note": ""
  },
  {
   "property": "C96",
   "status": "partial",
   "theorems": [
    "C96_exchange_partial",
    "C96_single_layer_refuted",
    "C96_single_layer_bottom_wins"
   ],
   "note": ""
  },
  {
   "property": "C97",
   "status": "proved",
   "theorems": [
    "C97_imported_iff_well_drawn",
    "C97_malformed_drawing_not_reported",
    "C97_drawings_make_no_difference",
    "C97_malformed_drawing_is_ub"
   ],
   "note": ""
  },
  {
   "property": "C98",
   "status": "proved",
   "theorems": [
    "C98_extracted_iff",
    "C98_contents",
    "C98_orientation",
    "C98_missing_pad_is_ub",
    "C98_missing_definition_is_ub"
   ],
   "note": ""
  },
  {
   "property": "C99",
   "status": "proved",
   "theorems": [
    "C99_block_inside"
   ],
   "note": ""
  },
  {
   "property": "C100",
   "status": "proved",
   "theorems": [
    "C100_boxes_in_no_layer",
    "C100_table_built"
   ],
   "note": ""
  },
  {
   "property": "C101",
   "status": "partial",
   "theorems": [
    "C101_boundary",
    "C101_boundary_refuted",
    "C101_no_polygon_is_ub"
   ],
   "note": ""
  },
  {
   "property": "C102",
   "status": "partial",
   "theorems": [
    "C102_joint_on_net",
    "C102_joints_refuted"
   ],
   "note": ""
  },
  {
   "property": "C103",
   "status": "proved",
   "theorems": [
    "C103_export_iff",
    "C103_export_describes"
   ],
   "note": ""
  },
  {
   "property": "C104",
   "status": "partial",
   "theorems": [
    "C104_table_power",
    "C104_block_totals",
    "C104_other_temperatures_refuted"
   ],
   "note": ""
  },
  {
   "property": "C105",
   "status": "proved",
   "theorems": [
    "C105_round_trip",
    "C105_adjacent_vias_diverge",
    "C105_outer_via_dropped",
    "C105_second_round_trip_fails"
   ],
   "note": ""
  },
  {
   "property": "C106",
   "status": "proved",
   "theorems": [
    "C106_import_layers",
    "C106_no_model",
    "C106_small_density_is_ub",
    "C106_layers_readable"
   ],
   "note": ""
  },
  {
   "property": "C107",
   "status": "partial",
   "theorems": [
    "C107_attached_partial",
    "C107_empty_layer_is_ub",
    "C107_box_contains",
    "C107_index_is_ub",
    "C107_containing_prism_refuted",
    "C107_top_surface_refuted"
   ],
   "note": ""
  },
  {
   "property": "C108",
   "status": "partial",
   "theorems": [
    "C108_schedule",
    "C108_layer_area",
    "C108_model_area_partial",
    "C108_own_triangulation_refuted"
   ],
   "note": ""
  },
  {
   "property": "C109",
   "status": "partial",
   "theorems": [
    "C109_static_prism",
    "C109_grid_monitors_refuted",
    "C109_invalid",
    "C109_refused",
    "C109_transient_invalid",
    "C109_transient_prism",
    "C109_grid_transient_refuted",
    "C109_monitored"
   ],
   "note": ""
  },
  {
   "property": "C110",
   "status": "partial",
   "theorems": [
    "C110_layout_copy",
    "C110_wire_sides",
    "C110_rename_only",
    "C110_renamed_refuted",
    "C110_exchanged_names_refuted",
    "C110_dead_component_is_ub"
   ],
   "note": ""
  },
  {
   "property": "C111",
   "status": "partial",
   "theorems": [
    "C111_back_pointers_partial",
    "C111_references_not_copied",
    "C111_removed_original_is_ub",
    "C111_self_contained_refuted"
   ],
   "note": ""
  },
  {
   "property": "C112",
   "status": "partial",
   "theorems": [
    "C112_models_partial",
    "C112_stackup_sliced",
    "C112_stackup_refuted"
   ],
   "note": ""
  },
  {
   "property": "C113",
   "status": "partial",
   "theorems": [
    "C113_save_partial",
    "C113_saved_refuted"
   ],
   "note": ""
  },
  {
   "property": "C114",
   "status": "partial",
   "theorems": [
    "C114_members_restored_partial",
    "C114_only_members",
    "C114_layout_name_dropped",
    "C114_layout_name_refuted",
    "C114_cut_off_archive_throws"
   ],
   "note": ""
  },
  {
   "property": "C115",
   "status": "partial",
   "theorems": [
    "C115_identity_partial",
    "C115_copy_is_ub",
    "C115_copied_identity_refuted",
    "C115_moved_name_dropped",
    "C115_assigned"
   ],
   "note": ""
  },
  {
   "property": "C116",
   "status": "partial",
   "theorems": [
    "C116_points_follow",
    "C116_outline_and_holes",
    "C116_rectangle_holds",
    "C116_rectangle_right_angles",
    "C116_circle_centre",
    "C116_circle_unscaled",
    "C116_path_points",
    "C116_rectangle_refuted",
    "C116_scaled_refuted",
    "C116_template_refuted"
   ],
   "note": ""
  },
  {
   "property": "C117",
   "status": "partial",
   "theorems": [
    "C117_box_holds_contour",
    "C117_box_is_least",
    "C117_no_template",
    "C117_box_refuted"
   ],
   "note": ""
  },
  {
   "property": "C118",
   "status": "partial",
   "theorems": [
    "C118_archived_partial",
    "C118_archived_plain",
    "C118_archived_refuted"
   ],
   "note": ""
  },
  {
   "property": "C119",
   "status": "partial",
   "theorems": [
    "C119_boundary_is",
    "C119_boundary_holds_partial",
    "C119_objects_refuted",
    "C119_stale_refuted",
    "C119_recursive_diverges",
    "C119_edited",
    "C119_no_layout_is_ub",
    "C119_no_definition_is_ub"
   ],
   "note": ""
  },
  {
   "property": "C120",
   "status": "proved",
   "theorems": [
    "C120_boundary_kept",
    "C120_boundary_set"
   ],
   "note": ""
  },
  {
   "property": "C121",
   "status": "partial",
   "theorems": [
    "C121_picture",
    "C121_selection_refuted",
    "C121_no_shape_is_ub"
   ],
   "note": ""
  },
  {
   "property": "C122",
   "status": "partial",
   "theorems": [
    "C122_netlist_partial",
    "C122_names_distinct",
    "C122_ends",
    "C122_heated_fails",
    "C122_heated_refuted",
    "C122_unheated",
    "C122_temperature_offset",
    "C122_temperature_refuted"
   ],
   "note": ""
  },
  {
   "property": "C123",
   "status": "partial",
   "theorems": [
    "C123_mesh_file_partial",
    "C123_cells_placed",
    "C123_wrong_size_dropped",
    "C123_no_file",
    "C123_unbuilt_is_ub",
    "C123_digits_refuted"
   ],
   "note": ""
  },
  {
   "property": "C124",
   "status": "partial",
   "theorems": [
    "C124_thermal_profile_partial",
    "C124_txt_profile_partial",
    "C124_blank_name_refuted",
    "C124_thermal_refused",
    "C124_missing_fraction_fails"
   ],
   "note": ""
  },
  {
   "property": "C125",
   "status": "partial",
   "theorems": [
    "C125_exported_partial",
    "C125_tile_refuted",
    "C125_tile_mismatch",
    "C125_refused"
   ],
   "note": ""
  },
  {
   "property": "C126",
   "status": "partial",
   "theorems": [
    "C126_layout_kept_partial",
    "C126_layout_refuted"
   ],
   "note": ""
  },
  {
   "property": "C127",
   "status": "partial",
   "theorems": [
    "C127_read_back_partial",
    "C127_outer_dielectric_refuted"
   ],
   "note": "Read-back is proved for regions of whole tiles and dielectrics between conductors; refuted for a stack-up with a dielectric outside its conductors (the layer is missing from the imported model)."
  },
  {
   "property": "C128",
   "status": "proved",
   "theorems": [
    "C128_read_as_written",
    "C128_one_meaning",
    "C128_layout_free"
   ],
   "note": ""
  },
  {
   "property": "C129",
   "status": "proved",
   "theorems": [
    "C129_progress",
    "C129_repeats",
    "C129_items"
   ],
   "note": ""
  },
  {
   "property": "C130",
   "status": "proved",
   "theorems": [
    "C130_well_formed"
   ],
   "note": ""
  },
  {
   "property": "C131",
   "status": "partial",
   "theorems": [
    "C131_arc3_refuted",
    "C131_never_arc3_or_diamond",
    "C131_diamond_refuted",
    "C131_route_diamond_refuted",
    "C131_bondwire_refuted",
    "C131_pin_names_refuted",
    "C131_empty_name_refuted"
   ],
   "note": ""
  },
  {
   "property": "C132",
   "status": "partial",
   "theorems": [
    "C132_half_section_refuted",
    "C132_half_material_refuted",
    "C132_stray_end_refuted",
    "C132_cut_file_refuted",
    "C132_open_comment_fails"
   ],
   "note": ""
  },
  {
   "property": "C133",
   "status": "proved",
   "theorems": [
    "C133_imported_iff",
    "C133_written_is_imported",
    "C133_no_scale_is_ub",
    "C133_open_comment_refused"
   ],
   "note": ""
  },
  {
   "property": "C134",
   "status": "proved",
   "theorems": [
    "C134_layers",
    "C134_materials",
    "C134_rest",
    "C134_objects"
   ],
   "note": "Objects of routes are followed from the text to the database: placed shapes, holes, paths, vias and the pads of via definitions."
  },
  {
   "property": "C135",
   "status": "partial",
   "theorems": [
    "C135_inch_partial",
    "C135_coordinates",
    "C135_unit_refuted"
   ],
   "note": ""
  },
  {
   "property": "C136",
   "status": "partial",
   "theorems": [
    "C136_import_partial",
    "C136_exact_refuted"
   ],
   "note": "whole nanometres may lose one (C136_exact_refuted)"
  },
  {
   "property": "C137",
   "status": "partial",
   "theorems": [
    "C137_refused_unchanged",
    "C137_name_in_use",
    "C137_truncated",
    "C137_via_layers",
    "C137_nine_words_refuted",
    "C137_dom_not_rejected",
    "C137_net_name_throws",
    "C137_negative_points_is_ub"
   ],
   "note": "nine words can be a record (C137_nine_words_refuted); DOM lines are never refused"
  },
  {
   "property": "C138",
   "status": "partial",
   "theorems": [
    "C138_round_trip_partial",
    "C138_exact_refuted",
    "C138_units_refuted",
    "C138_no_net_dropped"
   ],
   "note": "coordinates may lose one nanometre; units of the layout are ignored by the reader; the writer has no caller"
  },
  {
   "property": "C139",
   "status": "proved",
   "theorems": [
    "C139_order",
    "C139_symmetric",
    "C139_rectangle",
    "C139_rectangle_valid",
    "C139_circle",
    "C139_path",
    "C139_polygon",
    "C139_round_corners",
    "C139_coordinate_list",
    "C139_odd_coordinate_dropped",
    "C139_transform",
    "C139_too_long_is_ub"
   ],
   "note": "Lengths up to 2^48 data units; corner rounding is the geometry library's."
  },
  {
   "property": "C140",
   "status": "partial",
   "theorems": [
    "C140_pin_location_partial",
    "C140_no_pin_untouched",
    "C140_exact_refuted"
   ],
   "note": "Proved up to four data units for every mirror and flip without rotation and scale; equality is refuted."
  },
  {
   "property": "C141",
   "status": "partial",
   "theorems": [
    "C141_size_partial",
    "C141_circle_partial",
    "C141_path_partial",
    "C141_same_size_refuted",
    "C141_whole_size_refuted",
    "C141_small_refuted"
   ],
   "note": "Proved up to three data units and for sizes of two data units and more; equal sizes and positive sizes are refuted."
  },
  {
   "property": "C142",
   "status": "partial",
   "theorems": [
    "C142_round_trip_partial"
   ],
   "note": "Everything but what C49 leaves open about headers and column order of tables (C69)."
  },
  {
   "property": "C143",
   "status": "proved",
   "theorems": [
    "C143_accepted",
    "C143_refused_keeps_package",
    "C143_interrupted",
    "C143_power_size_not_refused",
    "C143_leftover_files_packed",
    "C143_incomplete_package"
   ],
   "note": ""
  },
  {
   "property": "C144",
   "status": "partial",
   "theorems": [
    "C144_layers",
    "C144_powers_only",
    "C144_powers_partial",
    "C144_powers_refuted",
    "C144_shade",
    "C144_shade_ends",
    "C144_uniform_fails"
   ],
   "note": "A table at a later temperature gets no picture when an earlier header temperature has no table; uniform power divides zero by zero."
  },
  {
   "property": "C145",
   "status": "proved",
   "theorems": [
    "C145_range",
    "C145_interpolation"
   ],
   "note": ""
  },
  {
   "property": "C146",
   "status": "proved",
   "theorems": [
    "C146_prisms",
    "C146_rebuild_doubles"
   ],
   "note": "A second build appends all prisms again (C146_rebuild_doubles)."
  },
  {
   "property": "C147",
   "status": "proved",
   "theorems": [
    "C147_contacts",
    "C147_schedules",
    "C147_mutual",
    "C147_untouched_marked"
   ],
   "note": "A prism below another layer is marked as covered although nothing lies on it (C147_untouched_marked): the test asks the array of the two contact lists, which is never empty."
  },
  {
   "property": "C148",
   "status": "proved",
   "theorems": [
    "C148_wires",
    "C148_refused",
    "C148_bottom_plane_refused"
   ],
   "note": "A wire that ends on the lowest plane of the stack is refused (C148_bottom_plane_refused)."
  },
  {
   "property": "C149",
   "status": "proved",
   "theorems": [
    "C149_region",
    "C149_layers",
    "C149_values",
    "C149_no_tiles_is_ub",
    "C149_reported"
   ],
   "note": ""
  },
  {
   "property": "C150",
   "status": "partial",
   "theorems": [
    "C150_result_file_partial",
    "C150_wide_tiles_refuted",
    "C150_blank_name_refuted"
   ],
   "note": "Units: the comment in the code says metres, the numbers are in the user unit of the layout. A width of 10 units or more leaves no blank after RESOLUTION."
  },
  {
   "property": "C151",
   "status": "partial",
   "theorems": [
    "C151_numbered_pictures",
    "C151_named_pictures_partial",
    "C151_picture_lost_refuted"
   ],
   "note": ""
  },
  {
   "property": "C152",
   "status": "proved",
   "theorems": [
    "C152_board_text",
    "C152_writing_irrelevant",
    "C152_imported_iff"
   ],
   "note": ""
  },
  {
   "property": "C153",
   "status": "partial",
   "theorems": [
    "C153_cut_off_not_refused",
    "C153_never_returns_refuted",
    "C153_name_taken",
    "C153_other_lists_not_refused",
    "C153_cut_off_refuted"
   ],
   "note": ""
  },
  {
   "property": "C154",
   "status": "partial",
   "theorems": [
    "C154_with_layer_map",
    "C154_without_layer_map",
    "C154_cut_off_not_refused",
    "C154_refused",
    "C154_bad_layer_map",
    "C154_others_untouched",
    "C154_cut_off_refuted"
   ],
   "note": ""
  },
  {
   "property": "C155",
   "status": "partial",
   "theorems": [
    "C155_scale_partial",
    "C155_named_units",
    "C155_models_agree",
    "C155_areas",
    "C155_joint_resistance",
    "C155_fine_user_unit_refuted",
    "C155_inch_refuted",
    "C155_whole_ratio_refuted"
   ],
   "note": ""
  },
  {
   "property": "C156",
   "status": "partial",
   "theorems": [
    "C156_assign_partial",
    "C156_bottom_blocks_refuted",
    "C156_add_block"
   ],
   "note": ""
  },
  {
   "property": "C157",
   "status": "partial",
   "theorems": [
    "C157_reference",
    "C157_untouched",
    "C157_read",
    "C157_change_of_copy_refuted"
   ],
   "note": ""
  },
  {
   "property": "C158",
   "status": "proved",
   "theorems": [
    "C158_prism_only",
    "C158_copied",
    "C158_none_is_ub",
    "C158_own_settings",
    "C158_stale_is_ub"
   ],
   "note": ""
  },
  {
   "property": "C159",
   "status": "proved",
   "theorems": [
    "C159_points"
   ],
   "note": ""
  },
  {
   "property": "C160",
   "status": "partial",
   "theorems": [
    "C160_class_call_partial",
    "C160_instance_call_refuted",
    "C160_save_refuted",
    "C160_no_shape_is_ub"
   ],
   "note": ""
  },
  {
   "property": "C161",
   "status": "proved",
   "theorems": [
    "C161_new",
    "C161_new_simulation",
    "C161_new_blocks"
   ],
   "note": ""
  },
  {
   "property": "C162",
   "status": "partial",
   "theorems": [
    "C162_kept",
    "C162_name",
    "C162_removed",
    "C162_removed_is_ub",
    "C162_instance_refuted"
   ],
   "note": ""
  },
  {
   "property": "C163",
   "status": "partial",
   "theorems": [
    "C163_no_ub",
    "C163_returns",
    "C163_other_database_refuted",
    "C163_library_layout_is_ub",
    "C163_library_map_is_ub",
    "C163_no_definition_is_ub",
    "C163_cycle_diverges"
   ],
   "note": ""
  },
  {
   "property": "C164",
   "status": "proved",
   "theorems": [
    "C164_find",
    "C164_taken",
    "C164_component",
    "C164_database",
    "C164_new_empty",
    "C164_get_database",
    "C164_boundary"
   ],
   "note": ""
  },
  {
   "property": "C165",
   "status": "proved",
   "theorems": [
    "C165_exactly_one",
    "C165_island"
   ],
   "note": ""
  },
  {
   "property": "C166",
   "status": "proved",
   "theorems": [
    "C166_ambient",
    "C166_superposition",
    "C166_more_power",
    "C166_reciprocity",
    "C166_more_cooling",
    "C166_hottest_is_powered",
    "C166_mean_rise"
   ],
   "note": ""
  },
  {
   "property": "C167",
   "status": "partial",
   "theorems": [
    "C167_exactly_one",
    "C167_heat_out_partial",
    "C167_uncooled_has_none",
    "C167_swapped_corners_refuted"
   ],
   "note": ""
  },
  {
   "property": "C168",
   "status": "proved",
   "theorems": [
    "C168_self_consistent",
    "C168_constant_power",
    "C168_unknown_solver_refused"
   ],
   "note": ""
  },
  {
   "property": "C169",
   "status": "partial",
   "theorems": [
    "C169_block_power_refuted"
   ],
   "note": ""
  },
  {
   "property": "C170",
   "status": "proved",
   "theorems": [
    "C170_results_and_files"
   ],
   "note": ""
  },
  {
   "property": "C171",
   "status": "proved",
   "theorems": [
    "C171_segment_node",
    "C171_segment_to_prism"
   ],
   "note": ""
  },
  {
   "property": "C172",
   "status": "partial",
   "theorems": [
    "C172_segment_to_segment_partial",
    "C172_neighbour_temperature_refuted"
   ],
   "note": ""
  },
  {
   "property": "C173",
   "status": "proved",
   "theorems": [
    "C173_exactly_one",
    "C173_heat_balance"
   ],
   "note": ""
  },
  {
   "property": "C174",
   "status": "proved",
   "theorems": [
    "C174_self_consistent",
    "C174_constant_laws",
    "C174_heat_out",
    "C174_unknown_solver_refused"
   ],
   "note": ""
  },
  {
   "property": "C175",
   "status": "proved",
   "theorems": [
    "C175_results_and_files"
   ],
   "note": ""
  },
  {
   "property": "C176",
   "status": "proved",
   "theorems": [
    "C176_exactly_one",
    "C176_heat_balance",
    "C176_blocks_dropped",
    "C176_blocks_do_not_cool"
   ],
   "note": ""
  },
  {
   "property": "C177",
   "status": "proved",
   "theorems": [
    "C177_self_consistent",
    "C177_constant_laws",
    "C177_heat_out",
    "C177_foreign_marker_throws"
   ],
   "note": ""
  },
  {
   "property": "C178",
   "status": "proved",
   "theorems": [
    "C178_results_and_files"
   ],
   "note": ""
  },
  {
   "property": "C179",
   "status": "proved",
   "theorems": [
    "C179_top_area",
    "C179_center_to_side",
    "C179_shared_side",
    "C179_volume_of_parts",
    "C179_area_in_space",
    "C179_side_area",
    "C179_volume"
   ],
   "note": ""
  },
  {
   "property": "C180",
   "status": "partial",
   "theorems": [
    "C180_resistance",
    "C180_same_material",
    "C180_order_refuted"
   ],
   "note": "positivity, the lower bound, equality at right angles and independence of the order for one material are proved; for different materials the order matters (C180_order_refuted)"
  },
  {
   "property": "C181",
   "status": "proved",
   "theorems": [
    "C181_rate",
    "C181_heat_balance",
    "C181_rest_is_equilibrium",
    "C181_extremes",
    "C181_order",
    "C181_contraction"
   ],
   "note": ""
  },
  {
   "property": "C182",
   "status": "partial",
   "theorems": [
    "C182_reduced_same",
    "C182_scenario_refuted",
    "C182_missing_scenario_is_ub",
    "C182_heated_grid_is_ub",
    "C182_id_nearest_float"
   ],
   "note": "False of the code in two ways: ids pass through a vector of 32 bit floats, so scenario 16777217 is evaluated as 16777216; and a source without scenario, which is every source of a grid model, has the id 2^64-1, whose float 2^64 cannot be converted back to size_t (undefined). Exact for ids up to 2^24 (C181_rate)."
  },
  {
   "property": "C183",
   "status": "partial",
   "theorems": [
    "C183_tables_integrated",
    "C183_block_power_refuted"
   ],
   "note": "Holds for models whose powers are tables; with a power given as a block the network has more nodes than the initial state, the solver takes no step and the simulation returns no result."
  },
  {
   "property": "C184",
   "status": "proved",
   "theorems": [
    "C184_elements",
    "C184_heat_balance",
    "C184_flux_is_ub"
   ],
   "note": "Models with a heat flux boundary are excluded: a prism without power table that only receives a heat flux has no scenario and the full solver converts the missing id out of range (C184_flux_is_ub)."
  },
  {
   "property": "C185",
   "status": "proved",
   "theorems": [
    "C185_integrated",
    "C185_range"
   ],
   "note": ""
  },
  {
   "property": "C186",
   "status": "proved",
   "theorems": [
    "C186_elements",
    "C186_heat_balance",
    "C186_integrated",
    "C186_range"
   ],
   "note": ""
  },
  {
   "property": "C187",
   "status": "proved",
   "theorems": [
    "C187_rest",
    "C187_approach",
    "C187_stack_rest",
    "C187_stack_approach"
   ],
   "note": "Proved for the networks of prism and stack-up prism models at the temperature field they were built at; the convergence of odeint's discrete steps is not claimed."
  },
  {
   "property": "C188",
   "status": "partial",
   "theorems": [
    "C188_every_schedule",
    "C188_threads_irrelevant",
    "C188_no_deadlock",
    "C188_terminates",
    "C188_completes",
    "C188_threads_partial",
    "C188_threads_refuted"
   ],
   "note": "Proved for every schedule. The bound on the threads at work holds with one thread per layer only; otherwise the square of the number asked for can be at work (C188_threads_refuted)."
  }
 ]
}