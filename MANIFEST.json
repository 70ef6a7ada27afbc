{
 "claims": [
  {
   "property": "C01",
   "status": "partial",
   "theorems": [
    "C01_code_roundtrip_partial",
    "C01_code_roundtrip_refuted"
   ],
   "note": "Round-trip proved for every non-empty set; the empty set encodes to 0, which the decoder rejects (refuted witness)."
  },
  {
   "property": "C02",
   "status": "partial",
   "theorems": [
    "C02_decode_digits",
    "C02_bad_digit_not_accepted",
    "C02_clean_error_refuted"
   ],
   "note": "Acceptance and meaning proved for all codes; a bad digit is never silently accepted, but one class of bad codes ends in undefined behaviour instead of a clean error (refuted witness)."
  },
  {
   "property": "C03",
   "status": "proved",
   "theorems": [
    "C03_set_algebra",
    "C03_iteration",
    "C03_from_flags"
   ],
   "note": "All 64x64 pairs via bit reasoning; iteration proved sorted, complete and duplicate free."
  },
  {
   "property": "C04",
   "status": "proved",
   "theorems": [
    "C04_read_last_write",
    "C04_diagonal_off",
    "C04_writes_accepted"
   ],
   "note": "For every history of writes and every matrix kind, abstract value type."
  },
  {
   "property": "C05",
   "status": "partial",
   "theorems": [
    "C05_columns_vector",
    "C05_upper_triangular_vector",
    "C05_diagonal_vector",
    "C05_omitted_rotations_are_zero",
    "C05_transposed",
    "C05_comparison_total_refuted",
    "C05_zero_asked",
    "C05_diagonal_asked",
    "C05_symmetric_asked",
    "C05_comparison_sound",
    "C05_max_diagonal_asked",
    "C05_max_diagonal_refuted"
   ],
   "note": "Export layouts, transposition, and the questions isZero/isDiagonal/isSymmetric/comparison proved in full for every written matrix; the comparison dereferences a missing component (C05_comparison_total_refuted) and a stored zero changes the rigid-diagonal answer (C05_max_diagonal_refuted)."
  },
  {
   "property": "C06",
   "status": "partial",
   "theorems": [
    "C06_coefs_sum_partial",
    "C06_coefs_sum_refuted",
    "C06_present_dofs",
    "C06_scaled",
    "C06_set_and_empty",
    "C06_equality_refuted",
    "C06_order_exact"
   ],
   "note": "Holds when the left entry is present or both are absent; refuted when the left entry is absent and the right one present."
  },
  {
   "property": "C07",
   "status": "proved",
   "theorems": [
    "C07_reference_order",
    "C07_equality_congruence",
    "C07_equality_meaning"
   ],
   "note": "Strict total order compatible with equality."
  },
  {
   "property": "C08",
   "status": "partial",
   "theorems": [
    "C08_hash_partial",
    "C08_hash_refuted"
   ],
   "note": "Equal hash proved when both identifiers coincide; refuted for references equal by original id with different internal ids."
  },
  {
   "property": "C09",
   "status": "proved",
   "theorems": [
    "C09_find_live",
    "C09_get_and_iterate",
    "C09_add_refused_iff",
    "C09_validate_removes_invalid",
    "C09_validate_strict",
    "C09_erase_by_user_number_refuted",
    "C09_find_by_number_refuted"
   ],
   "note": "Finite-map behaviour for every history of add/erase/validate under the stated id discipline; two look-up paths that break it are exhibited as refutations."
  },
  {
   "property": "C10",
   "status": "proved",
   "theorems": [
    "C10_never_fails",
    "C10_bijection",
    "C10_position_stable",
    "C10_iteration"
   ],
   "note": "For every history of definitions, uses and DOF grants; positions are stable and the id/position maps are inverse bijections."
  },
  {
   "property": "C11",
   "status": "proved",
   "theorems": [
    "C11_last_definition_wins",
    "C11_granted_dofs_survive"
   ],
   "note": "Last definition wins for coordinates and frames; DOFs granted earlier survive."
  },
  {
   "property": "C12",
   "status": "proved",
   "theorems": [
    "C12_auto_fresh"
   ],
   "note": "Automatic node numbers are never in use, for every history."
  },
  {
   "property": "C13",
   "status": "partial",
   "theorems": [
    "C13_validate_ignores_undefined",
    "C13_undefined_reported_refuted"
   ],
   "note": "Refuted: mesh validation returns true for every history, even when a used node was never defined."
  },
  {
   "property": "C14",
   "status": "partial",
   "theorems": [
    "C14_read_back",
    "C14_lookup_by_number",
    "C14_iteration",
    "C14_virtual_flag_refuted",
    "C14_cell_count_refuted",
    "C14_update_cell_refuted"
   ],
   "note": "Read-back, look-up and iteration proved for every history of accepted calls; virtual flag, cell count with reused numbers and updateCell on bars are refuted with witnesses."
  },
  {
   "property": "C15",
   "status": "partial",
   "theorems": [
    "C15_checked_mesh_partial",
    "C15_malformed_cell_refuted"
   ],
   "note": "With connectivity checks on (trace log level) malformed cells are rejected and all cells read back; with checks off one short cell corrupts later ones (witness)."
  },
  {
   "property": "C16",
   "status": "partial",
   "theorems": [
    "C16_lookup_sound",
    "C16_create",
    "C16_rename_partial",
    "C16_rename_refuted",
    "C16_remove_by_name",
    "C16_remove_by_number_refuted",
    "C16_number_reachable_partial",
    "C16_find_or_create"
   ],
   "note": "Look-up soundness, creation, find-or-create, removal by name proved for every history; renaming onto a name in use and removal from the by-number index are refuted with witnesses."
  },
  {
   "property": "C17",
   "status": "partial",
   "theorems": [
    "C17_faces_closed_partial",
    "C17_hexa20_refuted"
   ],
   "note": "Closed surface proved for TETRA4/10, PYRA5/13, PENTA6/15, HEXA8 with arbitrary distinct nodes; refuted for every HEXA20 (repeated node, misoriented face)."
  },
  {
   "property": "C18",
   "status": "partial",
   "theorems": [
    "C18_round_trip",
    "C18_wedge_partial",
    "C18_wedge_refuted",
    "C18_pyramid_refuted",
    "C18_tetra10_refuted",
    "C18_no_common_face_refuted"
   ],
   "note": "Proved for every face of TETRA4, HEXA8, HEXA20 and three faces of wedges; refuted with witnesses for wedge face 4, pyramid face 3, TETRA10, and nodes sharing no face."
  },
  {
   "property": "C19",
   "status": "partial",
   "theorems": [
    "C19_fixed_split",
    "C19_tabulation",
    "C19_short_line_plus_refuted"
   ],
   "note": "Every card with any number of lines, short and long format, explicit and automatic continuation (C19_fixed_split), tabs (C19_tabulation). False for a '+' continuation of a line shorter than its eight fields: missing fields are not filled (C19_short_line_plus_refuted)."
  },
  {
   "property": "C20",
   "status": "partial",
   "theorems": [
    "C20_free_split_partial",
    "C20_data_field_lost_refuted",
    "C20_next_card_swallowed_refuted",
    "C20_marks_removed"
   ],
   "note": "Proved when no field in position 1, 9, 17... begins with '+' (C20_free_split_partial); otherwise a data field is lost and the next card may be swallowed (refutations with witnesses)."
  },
  {
   "property": "C21",
   "status": "partial",
   "theorems": [
    "C21_zrange",
    "C21_lists_and_ranges",
    "C21_by_refuted",
    "C21_by_zero_diverges_refuted",
    "C21_leading_thru_refuted"
   ],
   "note": "Lists and THRU ranges proved for all integers; BY is wrong for every range with step above one (C21_by_refuted), BY 0 does not end, THRU first is undefined behaviour."
  },
  {
   "property": "C22",
   "status": "proved",
   "theorems": [
    "C22_real_fields",
    "C22_abbreviation",
    "C22_no_digit_rejected"
   ],
   "note": "Reals are exact decimals; the final rounding to a double is not modelled. Every form (plain, lettered e/E/d/D, abbreviated) with blanks anywhere."
  },
  {
   "property": "C23",
   "status": "partial",
   "theorems": [
    "C23_card_roundtrip",
    "C23_cards_roundtrip",
    "C23_integers",
    "C23_negative_integers_refuted",
    "C23_counter_refuted",
    "C23_long_format_refuted"
   ],
   "note": "Proved for texts, any number of fields and cards, while the global continuation counter stays below 10^7, and for non-negative integers. Refuted beyond (C23_counter_refuted), for negative integers of up to six digits (C23_negative_integers_refuted) and for long-format cards (C23_long_format_refuted)."
  },
  {
   "property": "C24",
   "status": "partial",
   "theorems": [
    "C24_written_real",
    "C24_small_values_lost_refuted"
   ],
   "note": "Proved for every decimal the writer does not take for zero, with the additional half unit of the twelfth digit due to the first rounding; the mantissa's double is taken as the nearest to the twelve printed digits, with both resolutions of an exact tie. Refuted for values below 5*2^-52, written as zero (C24_small_values_lost_refuted)."
  },
  {
   "property": "C25",
   "status": "proved",
   "theorems": [
    "C25_read_then_write",
    "C25_write_then_read",
    "C25_wrong_count_rejected"
   ],
   "note": "both directions, every solid card; wrong node counts rejected"
  },
  {
   "property": "C26",
   "status": "partial",
   "theorems": [
    "C26_shell_reversed_refuted",
    "C26_shell_twice_partial"
   ],
   "note": "False of the code: shells are read unchanged but written in reverse order, for every shell with distinct nodes (C26_shell_reversed_refuted). What remains true (same nodes, same first node, involution) is C26_shell_twice_partial."
  },
  {
   "property": "C27",
   "status": "partial",
   "theorems": [
    "C27_manual_layout_read",
    "C27_roundtrip_partial",
    "C27_longer_equations_refuted"
   ],
   "note": "Reading an equation laid out as in the manual is proved for any number of terms; writing then reading is proved up to four terms. For every equation of five or more terms the written card is read back with only its first four terms (C27_longer_equations_refuted): the writer counts fields without the blank ones."
  },
  {
   "property": "C28",
   "status": "partial",
   "theorems": [
    "C28_entries_read_partial",
    "C28_last_row_refuted",
    "C28_blank_entry_refuted",
    "C28_written_diagonal_refuted"
   ],
   "note": "Entries between DOFs other than RZ are read correctly when no blank precedes them. Refuted: the last row is never read, a blank entry discards everything after it, the writer omits the diagonal and the last row."
  },
  {
   "property": "C29",
   "status": "partial",
   "theorems": [
    "C29_coefficients_partial",
    "C29_second_coefficient_refuted"
   ],
   "note": "Proved for any number of coefficients: exactly the coefficients of even rank (from 0) are attached, each to the right subcase. Refuted for two coefficients or more: the second subcase never gets its coefficient."
  },
  {
   "property": "C30",
   "status": "proved",
   "theorems": [
    "C30_set_denotes_items",
    "C30_unfinished_set_refuted"
   ],
   "note": "For all items, separators, blanks and continuation lines, numbers from 0 to 2^31-2. Also shown: a SET ending with a comma at the end of the file makes the reader loop for ever (C30_unfinished_set_refuted)."
  },
  {
   "property": "C31",
   "status": "partial",
   "theorems": [
    "C31_unrecognised_refuted",
    "C31_plain_command_refuted",
    "C31_displacement_partial"
   ],
   "note": "Refuted for all contexts: contact, frequency output and stress output commands have no effect. Proved: displacement output with its options. By the standard's rules every command without options is undefined behaviour (erase at end())."
  },
  {
   "property": "C32",
   "status": "partial",
   "theorems": [
    "C32_weighted_sum_partial",
    "C32_applied_factor",
    "C32_card",
    "C32_accepted",
    "C32_twice_refuted",
    "C32_nested_refuted",
    "C32_shared_value_refuted"
   ],
   "note": "Missing: combinations of combinations (refuted by C32_nested_refuted), a load counted twice with the factor one (refuted by C32_twice_refuted); line forces and excitations share their value with their copies (C32_shared_value_refuted). The factor is the given one, or one within the tolerance of the code."
  },
  {
   "property": "C33",
   "status": "proved",
   "theorems": [
    "C33_split_partitions",
    "C33_too_small"
   ],
   "note": "For every list of element sets whose matrices were filled through addComponent, every size limit >= 2: the split exists, each resulting matrix touches at most the limit of nodes, and the coefficients are partitioned (permutation of terms). Limits < 2 are refused."
  },
  {
   "property": "C34",
   "status": "proved",
   "theorems": [
    "C34_link_relations",
    "C34_link_accepted",
    "C34_terms_add_up"
   ],
   "note": "Field with no rotation at the master where the master carries none; placement of the relations in constraint sets not modelled."
  },
  {
   "property": "C35",
   "status": "partial",
   "theorems": [
    "C35_local_support_partial",
    "C35_group_node_refuted"
   ],
   "note": "Proved for supports on own nodes in nested Cartesian or global cylindrical frames; a node reached through a group is undefined behaviour (C35_group_node_refuted). Prescribed functions and spherical frames not covered."
  },
  {
   "property": "C36",
   "status": "proved",
   "theorems": [
    "C36_vectors_convert",
    "C36_card_points_placed"
   ],
   "note": "Over the reals, for CORD1R and CORD2R systems nested at any depth. Exact inversion stands for the LU inversion of the external library."
  },
  {
   "property": "C37",
   "status": "partial",
   "theorems": [
    "C37_cylindrical_partial",
    "C37_spherical_partial",
    "C37_cylindrical_reference_refuted"
   ],
   "note": "Proved when the chain of reference systems is Cartesian. Refuted when the reference system is cylindrical: the axes are computed from differences of cylindrical coordinates."
  },
  {
   "property": "C38",
   "status": "partial",
   "theorems": [
    "C38_triangle",
    "C38_quad_partial",
    "C38_flat_corner_refuted"
   ],
   "note": "Triangles of non-zero area and quadrangles without three aligned corners, warped or not; with three aligned corners the forces are not numbers (C38_flat_corner_refuted). Reals for doubles."
  },
  {
   "property": "C39",
   "status": "partial",
   "theorems": [
    "C39_nodal_forces",
    "C39_intensities_partial",
    "C39_displacements_refuted",
    "C39_rotation_refuted"
   ],
   "note": "Nodal forces and moments in every system, and the intensities of all other loads; rotations and displacements imposed on several degrees of freedom are refuted."
  },
  {
   "property": "C40",
   "status": "partial",
   "theorems": [
    "C40_ineffective_partial",
    "C40_nodal_force_bound",
    "C40_kept_partial",
    "C40_two_nodes_refuted",
    "C40_gravity_refuted"
   ],
   "note": "With an exact zero test every class but the force directed by two nodes; with a tolerance, nodal forces. Two-node forces and gravity with a tolerance are refuted."
  },
  {
   "property": "C41",
   "status": "proved",
   "theorems": [
    "C41_union",
    "C41_order",
    "C41_nodes"
   ],
   "note": "Over all histories of declarations."
  },
  {
   "property": "C42",
   "status": "proved",
   "theorems": [
    "C42_precedence"
   ],
   "note": "Over all histories of settings of the analysis and of the model."
  },
  {
   "property": "C43",
   "status": "partial",
   "theorems": [
    "C43_members_partial",
    "C43_depth_refuted"
   ],
   "note": "Missing: combinations of combinations, which are not followed (refuted by C43_depth_refuted)."
  },
  {
   "property": "C44",
   "status": "partial",
   "theorems": [
    "C44_removal_partial",
    "C44_accepted",
    "C44_included_refuted"
   ],
   "note": "Missing: supports of sets included through SPCADD are not removed (refuted by C44_included_refuted); supports on node groups are undefined behaviour in the code and left out."
  },
  {
   "property": "C45",
   "status": "proved",
   "theorems": [
    "C45_consistent",
    "C45_material",
    "C45_others"
   ],
   "note": "Exact real arithmetic; a division by zero (G = 0, or nu = -1) is outside the statement."
  },
  {
   "property": "C46",
   "status": "partial",
   "theorems": [
    "C46_circular",
    "C46_rectangular",
    "C46_i_section",
    "C46_tube_partial",
    "C46_tube_refuted",
    "C46_torsion_partial",
    "C46_torsion_refuted",
    "C46_i_torsion"
   ],
   "note": "Circle, rectangle and I section (second moment about Z only for equal flanges: otherwise the code throws) are proved against integrals. Refuted: the TUBE card (inner radius and thickness are passed as outer and inner radius) and the torsion constant of a rectangle higher than wide. The torsion constant itself is only bounded (no warping function is modelled)."
  },
  {
   "property": "C47",
   "status": "partial",
   "theorems": [
    "C47_redundant_partial",
    "C47_no_contradiction_partial",
    "C47_shared_refuted"
   ],
   "note": "Missing: SPCADD inclusions, and supports an analysis reaches through two of its sets (refuted by C47_shared_refuted)."
  },
  {
   "property": "C48",
   "status": "proved",
   "theorems": [
    "C48_solver_names",
    "C48_unknown"
   ],
   "note": "Both directions: the accepted texts are exactly the printed name in any letter case with blanks around it."
  },
  {
   "property": "C49",
   "status": "partial",
   "theorems": [
    "C49_csv_rows_partial",
    "C49_header_refuted",
    "C49_result_refuted"
   ],
   "note": "Proved from the text of the file for headers of known names or names that begin with no known one, plain unquoted cells, result names RESU followed by a number. Refuted: a column name that begins with a known one (INSTALLATION) makes the whole file unread, and a row with another result name is dropped. Quoted columns are not modelled; atof is any function."
  },
  {
   "property": "C50",
   "status": "partial",
   "theorems": [
    "C50_constraint_sets",
    "C50_active_load_sets",
    "C50_sets_of_analysis",
    "C50_load_sets_refuted",
    "C50_unknown_set_refuted"
   ],
   "note": "Proved for constraint sets whose references are known and listed once, and for active load sets. Missing: common and uncommon load sets (refuted by C50_load_sets_refuted) and unknown constraint sets (C50_unknown_set_refuted)."
  },
  {
   "property": "C51",
   "status": "proved",
   "theorems": [
    "C51_node_part_is_set_of_users"
   ],
   "note": "Invariant over every history: same part iff same set of users."
  },
  {
   "property": "C52",
   "status": "partial",
   "theorems": [
    "C52_used_not_listed_partial",
    "C52_used_not_listed_refuted"
   ],
   "note": "Holds when the first mention of the node is a definition, or when the node is reserved and later used by an element set; refuted in general with a witness history."
  },
  {
   "property": "C53",
   "status": "partial",
   "theorems": [
    "C53_contents",
    "C53_accepts",
    "C53_has_cells_partial",
    "C53_has_cells_refuted",
    "C53_rename_refuted",
    "C53_unknown_cell_refuted",
    "C53_readable_partial"
   ],
   "note": "Contents characterised for every history; emptiness and reading proved under the condition that named groups exist and cells are known, refuted without it; renaming a group empties containers (witness)."
  },
  {
   "property": "C54",
   "status": "proved",
   "theorems": [
    "C54_midside_on_edge",
    "C54_shell_corners",
    "C54_solid_corners"
   ],
   "note": "All four quadratic solid types, all documented edges, all node lists of the right length."
  },
  {
   "property": "C55",
   "status": "partial",
   "theorems": [
    "C55_comments_transparent_partial",
    "C55_free_format_refuted",
    "C55_indented_comment_refuted"
   ],
   "note": "Fixed format proved; refuted for free format and for comments preceded by blanks."
  },
  {
   "property": "C56",
   "status": "partial",
   "theorems": [
    "C56_rbe2_roundtrip_partial",
    "C56_no_dofs_refuted"
   ],
   "note": "Proved for every non-empty DOF set; the empty set is written 0 and read as DX (refuted). RBAR written for links without master is not covered here."
  },
  {
   "property": "C57",
   "status": "partial",
   "theorems": [
    "C57_rbe3_roundtrip_partial",
    "C57_reference_node_refuted",
    "C57_reference_outside_refuted"
   ],
   "note": "Everything after the reference node is proved for all slave lists whose weight text contains a point. Refuted: the printed reference node is right iff its identifier equals its position."
  },
  {
   "property": "C58",
   "status": "partial",
   "theorems": [
    "C58_spc_read",
    "C58_spc1_roundtrip_partial",
    "C58_imposed_value_refuted"
   ],
   "note": "Reading SPC cards proved for any number of groups; SPC1 written and read back proved for set, DOFs and node. Refuted: the imposed value is not written."
  },
  {
   "property": "C59",
   "status": "partial",
   "theorems": [
    "C59_subcase_inherits",
    "C59_selected_sets_partial",
    "C59_spcforces_refuted",
    "C59_options_not_superseded_refuted"
   ],
   "note": "Inheritance proved for all keys. Sets selected proved when no other key begins with the command's name; refuted otherwise: SPCFORCES=n selects constraint set n, and DISP does not supersede DISP(PLOT). The libstdc++ behaviour of vector::erase(end()) is assumed for keys without options."
  },
  {
   "property": "C60",
   "status": "partial",
   "theorems": [
    "C60_modes_partial",
    "C60_complex_method_refuted",
    "C60_missing_method_refuted",
    "C60_lower_case_refuted",
    "C60_tabulation_refuted",
    "C60_static",
    "C60_nonlinear",
    "C60_frequency",
    "C60_modal_frequency",
    "C60_buckling",
    "C60_guessed"
   ],
   "note": "Proved for normal modes. Refuted: complex modes use CMETHOD for both methods and do not report a missing METHOD; lower-case solution names are rejected; a tabulation after SOL is undefined behaviour."
  },
  {
   "property": "C61",
   "status": "partial",
   "theorems": [
    "C61_terms_last_value",
    "C61_block_read_refuted",
    "C61_announced_components_partial",
    "C61_announced_components_refuted"
   ],
   "note": "Terms seen by writers proved equal to last values. Refuted: block read of an off-diagonal block through findComponent; announced components include those of other nodes (only the lower bound is proved)."
  },
  {
   "property": "C62",
   "status": "partial",
   "theorems": [
    "C62_table_partial",
    "C62_component_refused",
    "C62_twelve_nodes_refuted"
   ],
   "note": "Proved for at most nine nodes (the default limit); refuted for twelve."
  },
  {
   "property": "C63",
   "status": "proved",
   "theorems": [
    "C63_matrix_file"
   ],
   "note": "Integers are unbounded in the model."
  },
  {
   "property": "C64",
   "status": "partial",
   "theorems": [
    "C64_replacement_partial",
    "C64_replacement_refuted"
   ],
   "note": "Proved when every node is coupled to at most one other node; refuted when a node is coupled to two."
  },
  {
   "property": "C65",
   "status": "partial",
   "theorems": [
    "C65_angles_rebuild_partial",
    "C65_nested_refuted"
   ],
   "note": "Proved for systems defined in the global system, exactly away from the vertical and within twice the tolerance near it. Refuted for nested systems, whose axes are converted twice. Angles relative to another system are not covered."
  },
  {
   "property": "C66",
   "status": "partial",
   "theorems": [
    "C66_local_base_partial"
   ],
   "note": "Proved for points off the axis, for systems defined in the global system. For a point on the axis but away from the origin the code divides by zero, outside of the model."
  },
  {
   "property": "C67",
   "status": "partial",
   "theorems": [
    "C67_triangle_moment_partial",
    "C67_quad_moment_refuted"
   ],
   "note": "Proved for triangles, refuted for quadrangles."
  },
  {
   "property": "C68",
   "status": "partial",
   "theorems": [
    "C68_imposed_partial",
    "C68_two_loads_refuted"
   ],
   "note": "Missing: SPCADD inclusions; several imposed displacements on one node, where only the last counts (refuted by C68_two_loads_refuted)."
  },
  {
   "property": "C69",
   "status": "proved",
   "theorems": [
    "C69_decision",
    "C69_previous",
    "C69_kept"
   ],
   "note": "The modes are described by the search, the method and the sets of supports, as analyses record them."
  },
  {
   "property": "C70",
   "status": "proved",
   "theorems": [
    "C70_density",
    "C70_mass_added_once",
    "C70_own_material"
   ],
   "note": "Cells are their node lists; the element set of a cell is the last one that lists it. Element sets are assumed to have no common cell before."
  },
  {
   "property": "C71",
   "status": "partial",
   "theorems": [
    "C71_nodes_placed_partial",
    "C71_accepted",
    "C71_permanent_supports",
    "C71_grdset_refuted",
    "C71_grdset_other_system_refuted",
    "C71_order_refuted",
    "C71_grid_read",
    "C71_system_read"
   ],
   "note": "Placement proved for any card list for nodes naming a system in their card or decks without GRDSET systems (C71_nodes_placed_partial), acceptance and supports in full; a GRDSET default system is stored under the wrong kind of number and changing card order changes the outcome (C71_grdset_refuted, C71_grdset_other_system_refuted, C71_order_refuted)."
  },
  {
   "property": "C72",
   "status": "partial",
   "theorems": [
    "C72_written_nodes_partial",
    "C72_local_nodes_refuted",
    "C72_texts"
   ],
   "note": "Ids and positions from the written texts with the accuracy of C24 (C72_texts, C72_written_nodes_partial); displacement systems are lost (C72_local_nodes_refuted)."
  },
  {
   "property": "C73",
   "status": "partial",
   "theorems": [
    "C73_written_systems_refuted"
   ],
   "note": "False of the code for every coordinate system: the origin is written where the reference number is read, so the card is refused (C73_written_systems_refuted)."
  },
  {
   "property": "C74",
   "status": "partial",
   "theorems": [
    "C74_force_read",
    "C74_moment_read_partial",
    "C74_moment_blank",
    "C74_moment_blank_refuted",
    "C74_directed_forces_read",
    "C74_gravity_read_partial",
    "C74_gravity_system_refuted",
    "C74_combination_read",
    "C74_rotation_read_partial",
    "C74_rotation_refuted",
    "C74_force_written_partial",
    "C74_gravity_written",
    "C74_moment_written_refuted"
   ],
   "note": "Proved: reading of FORCE, FORCE1, FORCE2, LOAD and, for the fields the reader uses, MOMENT, GRAV and RFORCE; forces without moment and gravity read back. Refuted: a blank factor of MOMENT, the system of GRAV (ignored), the unit, system and acceleration of RFORCE, moments (not written). The writer has no card for rotations."
  },
  {
   "property": "C75",
   "status": "partial",
   "theorems": [
    "C75_pressure_read_partial",
    "C75_corner_pressures_refuted",
    "C75_direction_system_refuted",
    "C75_nodes_pressure_read",
    "C75_nodes_pressure_written",
    "C75_shell_pressure_read",
    "C75_shell_pressure_written",
    "C75_shell_written",
    "C75_face_written",
    "C75_directed_face_written",
    "C75_shell_direction_refuted",
    "C75_directed_written"
   ],
   "note": "Proved: PLOAD, PLOAD2 and uniform PLOAD4 read and written, for shells, faces of solids and directed pressures given by nodes; norm times direction of a written force. Refuted: corner pressures (replaced by the first), the system of a direction (ignored), directed pressures on shells (not written)."
  },
  {
   "property": "C76",
   "status": "partial",
   "theorems": [
    "C76_line_load_read",
    "C76_concentrated_refused",
    "C76_line_load_written_partial",
    "C76_partway_refuted",
    "C76_length_refuted"
   ],
   "note": "Proved: the distribution read, refusal of concentrated loads, loads from the origin in fractions read back. Refuted: loads that start away from the origin and loads by length, when written."
  },
  {
   "property": "C77",
   "status": "partial",
   "theorems": [
    "C77_bar_read_partial",
    "C77_bar_shear_refuted",
    "C77_bar_product_refuted",
    "C77_shape_read",
    "C77_shape_refused",
    "C77_beam_read_partial",
    "C77_beam_shear_refuted",
    "C77_rod_read",
    "C77_conrod_read",
    "C77_beam_written_partial",
    "C77_bar_rewritten_refuted",
    "C77_cosmic_bar_refuted",
    "C77_rod_written_refuted",
    "C77_rod_inertia"
   ],
   "note": "For every card: PBAR and PBEAM values (shear factors only when both axes have the same one; first section only), PBARL/PBEAML dimensions, refused shapes, rods with the disc inertia, CONROD, and the section values of a written PBAR read back. False of the code, with witness: the shear factors of PBAR and PBEAM are exchanged between the two axes, I12 is ignored, a rewritten bar loses shear factors and mass per length, the COSMIC layout is read back with J as mass, what is printed for a rod starts with an address and is not a card."
  },
  {
   "property": "C78",
   "status": "partial",
   "theorems": [
    "C78_shell_read_partial",
    "C78_bending_plate_refused",
    "C78_membrane_refuted",
    "C78_shell_written_partial",
    "C78_shell_mass_refuted",
    "C78_solid_read",
    "C78_large_strain_read",
    "C78_solid_written",
    "C78_cosmic_solid_refuted",
    "C78_composite_read_partial",
    "C78_symmetric_laminate",
    "C78_laminate_refused",
    "C78_composite_end_refuted",
    "C78_ply_default_refuted",
    "C78_offset_refuted"
   ],
   "note": "For every card: shell, solid, large-strain solid, laminate with any number of plies, mirrored laminate, refused laminates; shell and solid written and read back. False of the code, with witness: a membrane (no bending material) is read as a shell that bends, a rewritten shell loses its mass, COSMIC solids are read back as shells, a laminate whose last ply omits its last field is read past the end of the card, blank thickness and angle are those of the first ply, the default offset has the wrong sign."
  },
  {
   "property": "C79",
   "status": "partial",
   "theorems": [
    "C79_bush_read",
    "C79_bush_short_refuted",
    "C79_bush_written",
    "C79_bush_layout_refuted",
    "C79_mass_read_partial",
    "C79_mass_products_refuted",
    "C79_mass_system_refuted",
    "C79_mass_written_partial",
    "C79_mass_rewritten_refuted"
   ],
   "note": "For every sequence of rows: bushes read, written bushes read back; masses read and written. False of the code, with witness: a row of stiffnesses that stops before the sixth field is refused, the written bush is not laid out as the format says, I31 and I32 are exchanged, the coordinate system of the offset is ignored, offset and inertias are lost when rewritten."
  },
  {
   "property": "C80",
   "status": "partial",
   "theorems": [
    "C80_celas1_read",
    "C80_cdamp1_read",
    "C80_blank_ground_refuted",
    "C80_direction_refused",
    "C80_direction_refuted",
    "C80_celas2_read",
    "C80_celas2_ground_refuted",
    "C80_celas4_read",
    "C80_pelas_read",
    "C80_pdamp_read",
    "C80_springs_read",
    "C80_shared_number_refuted",
    "C80_element_number_refuted",
    "C80_ground_refuted",
    "C80_split_partial",
    "C80_split_refuted",
    "C80_scalar_mass_partial",
    "C80_scalar_mass_refuted",
    "C80_viscous_read_partial",
    "C80_viscous_refuted"
   ],
   "note": "Proved for every order of cards with distinct numbers (C80_springs_read) and for each card. Refuted: a ground node is never blocked (constraint in no set), blank ground of CDAMP1 refused, direction 258 read as DY, null second node of CELAS2 kept as node 0, PELAS/PDAMP sharing a number are mixed, CELAS2 and PELAS sharing a number clash, two properties with several directions cannot be split (group names clash), CMASS2 has no diagonal terms and the wrong sign, PVISC damps the transverse directions. Not modelled: names of groups, S stress coefficient."
  },
  {
   "property": "C81",
   "status": "partial",
   "theorems": [
    "C81_segment_written_partial",
    "C81_full_segment_written",
    "C81_structural_written",
    "C81_spring_written_partial",
    "C81_point_written",
    "C81_uncoupled_segment_refuted",
    "C81_unsymmetric_segment_refuted",
    "C81_structural_coupling_refuted",
    "C81_structural_sign_refuted",
    "C81_structural_mass_stopped",
    "C81_spring_refuted",
    "C81_crossed_spring_refuted",
    "C81_damper_refuted"
   ],
   "note": "Proved: points (all types), segments of symmetric type with a coupling term, full segments found symmetric, diagonal structural segments, the own direction of a scalar spring. Refuted: segments without coupling (21 values under a diagonal keyword), segments not symmetric (triangle under SYME='NON'), structural segments not of diagonal type (coupling dropped, or same sign in the four blocks), springs stiff in all directions or between different directions, damper property read first (largest double as stiffness); a structural segment with a mass stops the writer. Layout of diagonal mass cards not specified. The meaning of the keywords is taken from the Code_Aster documentation."
  },
  {
   "property": "C82",
   "status": "partial",
   "theorems": [
    "C82_eigrl_read",
    "C82_eigr_read",
    "C82_method_refused",
    "C82_eigb_read",
    "C82_eigb_norm_refuted",
    "C82_unknown_norm_refuted",
    "C82_eigc_read",
    "C82_eigc_refused",
    "C82_bounded",
    "C82_no_sentinel",
    "C82_modes_partial",
    "C82_cutoff",
    "C82_modes_refuted",
    "C82_norm_written",
    "C82_systus_window",
    "C82_systus_count"
   ],
   "note": "Proved: reading of the four cards, refusals, every search read is bounded and no sentinel is written, Systus window; for Code_Aster the computed modes are the designated ones when a number is given without bounds or bounds without a number (C82_modes_partial). Refuted: with both a number and a bound, or a lower bound alone, the bound is not written; NORM of EIGB read from the wrong field; an unknown NORM gives MAX though MASS is announced. Printing of the digits not modelled."
  },
  {
   "property": "C83",
   "status": "partial",
   "theorems": [
    "C83_freq_read",
    "C83_freq1_read",
    "C83_freq1_written",
    "C83_freq1_systus",
    "C83_range_reaches_end",
    "C83_freq3_read",
    "C83_freq3_refused",
    "C83_freq4_read",
    "C83_interpolated_refuted",
    "C83_interpolated_near"
   ],
   "note": "Proved: reading, refusals, frequencies of FREQ and FREQ1 for both solvers, ranges given by their ends. Refuted: frequencies interpolated between modes (all within 1 Hz above a mode). The refinement around modes (FREQ4) is only read."
  },
  {
   "property": "C84",
   "status": "partial",
   "theorems": [
    "C84_tabled1_read",
    "C84_tables1_read",
    "C84_tabdmp1_read",
    "C84_open_refused",
    "C84_endt",
    "C84_scaled",
    "C84_zero",
    "C84_written",
    "C84_keywords",
    "C84_beyond_written",
    "C84_critical_written",
    "C84_structural_refuted",
    "C84_amplification_refuted",
    "C84_aster_structural_refuted",
    "C84_aster_critical"
   ],
   "note": "Proved: reading of the three cards for every layout of rows, refusal of open tables, scaling, writing, critical damping. Refuted: dampings G and Q written for Systus (doubled instead of halved; 1/Q instead of 1/(2Q)) and announced as not constant; for Code_Aster G is doubled and applied to a function that does not exist."
  },
  {
   "property": "C85",
   "status": "partial",
   "theorems": [
    "C85_members",
    "C85_loadings",
    "C85_constraints",
    "C85_sets_of_constraint",
    "C85_no_dangling",
    "C85_set_registered",
    "C85_unnumbered_set_refuted",
    "C85_remove_from_refuted",
    "C85_take_from_number_refuted",
    "C85_objectives_partial",
    "C85_objectives_refuted"
   ],
   "note": "Proved for all histories in which an object removed through one of its sets is in no other set, and sets are taken from by their own reference. Refuted otherwise: removal through one set leaves a null pointer in the others (undefined behaviour on reading a numbered one); removal under the user number leaves the member under the set's own reference; objectives test their own numbers instead of the set's; an unregistered set without user number is registered as another set."
  },
  {
   "property": "C86",
   "status": "partial",
   "theorems": [
    "C86_relations_partial",
    "C86_seven_relations_refuted",
    "C86_imposed_value_refuted",
    "C86_wide_relation_refuted",
    "C86_rotations_three_refuted"
   ],
   "note": "C86_relations_partial: at most six relations between the same nodes, one to twenty nodes, and coefficients equal within the comparison of the code. Refuted: seven relations between the same nodes are refused although the code cuts them in slices of six (each element set receives all the rows); the imposed value is lost; a relation between 21 nodes is refused; with three degrees of freedom per node the rotation coefficients are not written."
  },
  {
   "property": "C87",
   "status": "partial",
   "theorems": [
    "C87_links_partial",
    "C87_partial_body_dofs_refuted",
    "C87_same_number_refuted"
   ],
   "note": "C87_links_partial: averages with different numbers, bodies without reference node having at least one node. Refuted: the degrees of freedom of a partially rigid body are not in its elements; two averages with the same number are refused (group name already used)."
  },
  {
   "property": "C89",
   "status": "partial",
   "theorems": [
    "C89_script_partial",
    "C89_supports_partial",
    "C89_loads_partial",
    "C89_refused",
    "C89_reused_modes_refuted",
    "C89_complex_modes_refuted",
    "C89_assembled_refuted",
    "C89_frequencies_refuted",
    "C89_damping_refuted",
    "C89_excitation_refuted",
    "C89_static_loads_refuted",
    "C89_gaps_refuted",
    "C89_composites_refuted",
    "C89_combination_refuted",
    "C89_mixed_supports_refuted",
    "C89_foreign_contact_refuted"
   ],
   "note": "Proved for every model meeting the conditions of `ready` (AsterScriptReady.v). Without them the statement is false of the code, with a witness for each: reuse of the modes of a dynamic analysis (MOD), complex modes, modal analyses on empty, contact-only or function-dependent sets, spread and interpolated frequencies, structural modal damping, excitations on function-dependent loads, static loads that are temperatures or dynamic, gaps along z or several gaps, two composites with criteria, combinations without materials, supports sharing a set with a contact, contacts of other sets."
  },
  {
   "property": "C90",
   "status": "partial",
   "theorems": [
    "C90_distinct",
    "C90_defined",
    "C90_short",
    "C90_long_refuted"
   ],
   "note": "Distinctness proved for all non-negative numbers. Eight characters proved under explicit bounds on the numbers, false beyond (C90_long_refuted)."
  },
  {
   "property": "C88",
   "status": "partial",
   "theorems": [
    "C88_area_read",
    "C88_combination_read",
    "C88_response_read",
    "C88_type_refused",
    "C88_point_read_partial",
    "C88_point_refuted",
    "C88_forces",
    "C88_values",
    "C88_same_number_refuted",
    "C88_two_points_refuted",
    "C88_excitations",
    "C88_load_partial",
    "C88_order_refuted",
    "C88_static_refuted",
    "C88_both_refuted",
    "C88_sequences_refuted",
    "C88_request_refuted",
    "C88_valid",
    "C88_aster_partial",
    "C88_delay_refuted",
    "C88_nature_refuted",
    "C88_kind_refuted",
    "C88_systus_partial",
    "C88_systus_static_refuted",
    "C88_systus_phase_refuted",
    "C88_systus_direct_refuted"
   ],
   "note": "Proved for all cards and decks: DAREA rows, DLOAD products, RLOADi fields, the types refused, the forces whatever the order, the values of DELAY/DPHASE cards, one excitation per RLOADi card, its load set without sequences of loads, what Code_Aster and Systus get. Refuted by witnesses: the point of DELAY/DPHASE is ignored; DELAY and DPHASE of the same number, or two points of a DELAY set, stop the reading; the load of RLOAD2 depends on the order of the cards; RLOAD1 does not see static loads; DAREA forces lost when static loads have the same number; every RLOAD2 takes the first LSEQ; a requested LOADSET whose LSEQ comes later is undefined behaviour; delay, table of phases and (direct response) nature not written to Code_Aster; a delay taken as a phase; Systus drops static excitations, phases, and tables in direct responses."
  },
  {
   "property": "C91",
   "status": "partial",
   "theorems": [
    "C91_rbar_read",
    "C91_rbar_both",
    "C91_rbar_meaning_partial",
    "C91_solid_refuted",
    "C91_dependent_refuted",
    "C91_rbar1_refuted",
    "C91_rbar1_default_refuted",
    "C91_crigd1_read",
    "C91_thru_refuted",
    "C91_written_partial",
    "C91_numbers_refuted"
   ],
   "note": "Reading (RBAR, RBAR1, CRIGD1 with any number of slaves), the equivalence with rigid motion for bars whose six independent components are at one end and whose first node has six components, and the written card are proved. Refuted by witnesses: a bar on nodes of solids forbids rotation; CMA and CMB are ignored, so hinges are lost; every RBAR1 aborts the translation; a blank code of RBAR1 means one component; THRU in CRIGD1 keeps one node; all RBE2 written from one constraint set carry the same number, so the second is refused on reading."
  },
  {
   "property": "C92",
   "status": "partial",
   "theorems": [
    "C92_targets",
    "C92_targets_written",
    "C92_relation_partial",
    "C92_relation_close",
    "C92_small_refuted",
    "C92_average_read",
    "C92_set_partial",
    "C92_function_refuted",
    "C92_conflict_refuted"
   ],
   "note": "Proved for sets without functions whose supports agree and whose coefficients are zero or above the comparison tolerance; the deviation in general is bounded by the tolerance. Refuted: coefficients below the tolerance give an empty relation; one support with a function makes the command unreadable; disagreeing supports are replaced by the last one. LIAISON_MAIL, contact and the digits of numbers are not modelled."
  },
  {
   "property": "C93",
   "status": "partial",
   "theorems": [
    "C93_nodal_close",
    "C93_nodal_partial",
    "C93_pressure_partial",
    "C93_pressures_refuted",
    "C93_surface_partial",
    "C93_beams",
    "C93_geometry_refuted",
    "C93_gravity_partial",
    "C93_rotation",
    "C93_imposed",
    "C93_no_command",
    "C93_accepted_partial",
    "C93_lines_accepted",
    "C93_mixed_refuted",
    "C93_temperature_refuted"
   ],
   "note": "Nodal forces are proved for every list of loadings within the tolerance, exactly when sums are zero or above it. Pressures, surface forces, gravities and rotations are exact when at most one of them covers a place, or if occurrences add. Refuted: two pressures on one cell (the last one replaces the first), line loads on cells that are not beams (dropped), a line load with any load of numbers (not readable), initial temperatures (no effect). Digits of numbers and the functions themselves are not modelled."
  },
  {
   "property": "C94",
   "status": "partial",
   "theorems": [
    "C94_numbers",
    "C94_forces_partial",
    "C94_resultant",
    "C94_cells_partial",
    "C94_weight_partial",
    "C94_axes",
    "C94_displacements_partial",
    "C94_codes_partial",
    "C94_moment_refuted",
    "C94_line_refuted",
    "C94_weights_refuted",
    "C94_other_set_refuted",
    "C94_codes_refuted",
    "C94_amplitude_refuted",
    "C94_rotations_refuted",
    "C94_repeat_refuted"
   ],
   "note": "Proved for all subcases without a repeated analysis: numbers and counts, nodal forces, resultant within the tolerance, loads on cells, first acceleration, local axes; displacements when no support or imposed displacement is on two masters of rigid bars; codes when the analyses have the same supports. Refuted, with witnesses: moments of nodes without rotation node are lost, varying line loads are uniform, only the first acceleration of a set is kept, an imposed displacement leaks into the other cases of its analysis, the second rotation node gets a vector that is not in the file, codes are those of the first analysis, the amplitude of an excitation is not used, an analysis listed twice has doubled loads. Euler angles are inputs (C65, C66)."
  },
  {
   "property": "C95",
   "status": "partial",
   "theorems": [
    "C95_bar_read_partial",
    "C95_beam_read_partial",
    "C95_bush_read_partial",
    "C95_bush_bare",
    "C95_deck_partial",
    "C95_groups",
    "C95_accepted",
    "C95_aster_partial",
    "C95_axes",
    "C95_length",
    "C95_rewritten_partial",
    "C95_rewritten_axes",
    "C95_uninitialised_refuted",
    "C95_blank_component_refuted",
    "C95_blank_property_refuted",
    "C95_free_format_refuted",
    "C95_bush_location_refuted",
    "C95_bush_system_refuted",
    "C95_undefined_system_refuted",
    "C95_displacement_axes_refuted",
    "C95_bush_rewritten_refuted"
   ],
   "note": "Proved for every deck that is read; refuted: a vector after a third node on the same two nodes reads memory never set, blank vector components and property are refused, a third node in free format with blanks is refused, the place of a bush without orientation is refused, axes of a bush named by a system are not written for Code_Aster, a system never defined is a null pointer there, the displacement axes of the first node are ignored, a bush loses its orientation in the Nastran writer. Texts of the vector written by the Nastran writer: any text that reads as its components (their accuracy is C24)."
  },
  {
   "property": "C96",
   "status": "partial",
   "theorems": [
    "C96_bar",
    "C96_bar_axes_unique",
    "C96_spatial_partial",
    "C96_triangle_partial",
    "C96_triangle_axes_unique",
    "C96_flat_triangle",
    "C96_form",
    "C96_accepted",
    "C96_cylindrical_refuted",
    "C96_quadrangle_refuted"
   ],
   "note": "Bars oriented between their nodes (C96_bar, with the axes of Systus shown unique), solids, springs and points (C96_spatial_partial: exact away from the vertical, within 2e-8 otherwise), triangles (C96_triangle_partial: the projected angle, all axes when the third is the normal; C96_flat_triangle), count and messages (C96_form), no element is lost (C96_accepted). Missing: systems that refer to another one (see C65), near-vertical bars within the tolerance. Refuted: a cylindrical system is never refused and the axes of its origin are written everywhere; the angle of a quadrangle is measured in the global axes and differs from that of its halves. The angles are in radians in the model as in the code; the unit Systus expects is not modelled."
  },
  {
   "property": "C97",
   "status": "partial",
   "theorems": [
    "C97_solids_partial",
    "C97_shells",
    "C97_segments",
    "C97_pyramids_refuted",
    "C97_lines",
    "C97_accepted",
    "C97_announced_partial",
    "C97_header_partial",
    "C97_useful",
    "C97_groups",
    "C97_parts",
    "C97_header_refuted",
    "C97_pyramid_line_refuted",
    "C97_volumes_refuted",
    "C97_dropped_refuted",
    "C97_same_name_refuted"
   ],
   "note": "Node orders proved for tetrahedra, pentahedra, hexahedra and shells read from cards; lines, acceptance, groups and part numbers in full. Refuted: pyramids of five nodes list eight nodes under the count 05, those of thirteen are lost; point masses make the header count too large; tubes and composites are written as volumes; a group named by a later set that is not written disappears; names that differ by a blank collide. Comments of the groups and the text layout of the lines are not modelled."
  },
  {
   "property": "C98",
   "status": "partial",
   "theorems": [
    "C98_materials",
    "C98_accepted",
    "C98_beam_partial",
    "C98_elastic_partial",
    "C98_stiffness",
    "C98_block",
    "C98_poisson_refuted",
    "C98_rectangular_bar_refuted",
    "C98_card",
    "C98_web",
    "C98_shear_refuted",
    "C98_no_shear_refuted",
    "C98_damper_refuted",
    "C98_reduction_partial",
    "C98_reduction_refuted",
    "C98_masses_partial",
    "C98_inertia_refuted",
    "C98_masses_refuted"
   ],
   "note": "One material per set, its fields for every kind of set, the counts and the order of fields, the stiffness of bushes and springs, and the reduction number of springs with one value are proved. Refuted: a negative Poisson ratio is lost, a rectangular bar without bending has no area, the shear areas exceed the area (the factor is used upside down), a factor of 0 gives a huge negative shear area, a damper between equal components gets the stiffness -DBL_MAX, a spring with stiffness and damping uses the matrix number of its damping for both, inertias are not converted with the masses, products of inertia are lost when errors do not stop, the count of masses includes those not written."
  },
  {
   "property": "C99",
   "status": "partial",
   "theorems": [
    "C99_static",
    "C99_subcase_sets",
    "C99_same_partial",
    "C99_other_kinds_refuted",
    "C99_later_kinds_refuted",
    "C99_two_loads_refuted",
    "C99_lost_refuted",
    "C99_equations_refuted"
   ],
   "note": "Groups: proved for all. Static models: proved that each analysis is read back with its number and uses, of each type, the last of its sets; this is exactly what it has when there is at most one set of each type, no contact set and at most one displacement output on one group. Refuted in general: models whose first analysis is not static are read back without analyses, later analyses of other kinds become static, earlier sets of a type, contact sets and outputs on several groups are lost, and MPC cards carry another number than the one selected."
  },
  {
   "property": "C100",
   "status": "partial",
   "theorems": [
    "C100_solid_read",
    "C100_shell_read",
    "C100_written_partial",
    "C100_keyword",
    "C100_offset8_refuted",
    "C100_cosmic_tetra_refuted",
    "C100_bare_beam_refuted",
    "C100_blank_node_refuted",
    "C100_lost_nodes_refuted",
    "C100_anonymous_refuted",
    "C100_swallowed_refuted"
   ],
   "note": "Reading is proved for every card of solids and shells; the round trip for solids, shells but CQUAD8, plane elements and beams with a vector, any number of sets, through the lines of the file. False otherwise: CQUAD8 loses its offset (written in the place of a thickness), COSMIC tetrahedra come back with the number of the material as property, beams without orientation and shells with blank mid-side nodes are refused on reading, solids lose their mid-side nodes when the first one is blank, rods and masses are written without keyword and swallow the card before them; plane elements are turned over (C26)."
  },
  {
   "property": "C101",
   "status": "partial",
   "theorems": [
    "C101_deck",
    "C101_twice",
    "C101_ratio_refuted",
    "C101_shear_refuted",
    "C101_empty_refuted",
    "C101_terms_refuted"
   ],
   "note": "Decks whose cards are of the described forms: exactly the natures said, or a stop when one is repeated. Refuted: nu alone on MAT1 stops the translation; MAT8 without G12 is dismissed; a refused MATS1 leaves a material without nature; the term A11 of MATHP is lost."
  },
  {
   "property": "C102",
   "status": "partial",
   "theorems": [
    "C102_isotropic",
    "C102_ply_partial",
    "C102_rubber_partial",
    "C102_hardening_partial",
    "C102_perfect",
    "C102_slope_refuted",
    "C102_blank_refuted",
    "C102_volume_refuted",
    "C102_rubber_density_refuted",
    "C102_shear",
    "C102_shear_refuted",
    "C102_expansion_refuted",
    "C102_tension_refuted",
    "C102_nonlinear_refuted",
    "C102_relation"
   ],
   "note": "Isotropic, ply (all but YT), rubber, hardening numbers from the deck to the command file; same law without hardening and at constant volume. Refuted: slope with hardening, blank slope, volumetric energy, density of rubbers under WTMASS, shear modulus when three constants disagree, expansion of MAT1, YT, nonlinear curve."
  },
  {
   "property": "C103",
   "status": "partial",
   "theorems": [
    "C103_layers_partial",
    "C103_density_refuted",
    "C103_expansion_refuted",
    "C103_rubber_refuted",
    "C103_assigned_refuted"
   ],
   "note": "Layers, laws, sharing and assignment for plies and isotropic materials. Refuted: density with WTMASS (squared), expansion and damping lost, a layer with neither nature is undefined behaviour, the replaced material stays assigned to later composites."
  },
  {
   "property": "C104",
   "status": "partial",
   "theorems": [
    "C104_written",
    "C104_stiffness_refuted"
   ],
   "note": "Materials with elastic constants: all come back. Refuted: a material without them comes back as isotropic with no stiffness."
  },
  {
   "property": "C105",
   "status": "partial",
   "theorems": [
    "C105_nodes",
    "C105_cells",
    "C105_file",
    "C105_names_partial",
    "C105_names_refuted",
    "C105_long_names_refuted",
    "C105_empty_refuted"
   ],
   "note": "Proved for every mesh and groups: content of the file, groups read back, partition into families, numbers. Refuted: family names may collide (groups A, B_C against A_B, C), groups agreeing on 80 characters are merged, a group without member is lost. Names are proved distinct when group names have no underscore and are short. The MED library is outside the model."
  },
  {
   "property": "C106",
   "status": "partial",
   "theorems": [
    "C106_stops",
    "C106_sets",
    "C106_cells",
    "C106_right_partial",
    "C106_small_class",
    "C106_opposite_class",
    "C106_offset_refuted",
    "C106_side_refuted",
    "C106_thickness_refuted",
    "C106_two_offsets_refuted"
   ],
   "note": "Proved: exactly when the pass throws (C106_stops), exactly which sets it gives otherwise (C106_sets), no cell is lost (C106_cells), right when each set has one offset and no two sets of a type share a class (C106_right_partial). Refuted of the code: cells of different offsets below 0.89 get the offset of the first, opposite offsets are put on the same side, shells of different thickness and near offsets are merged, and a shell with cells of two classes stops the conversion."
  },
  {
   "property": "C107",
   "status": "partial",
   "theorems": [
    "C107_same_load",
    "C107_others_kept",
    "C107_ends",
    "C107_order",
    "C107_length_refuted",
    "C107_vertical_refuted",
    "C107_named_refuted",
    "C107_group_refuted"
   ],
   "note": "Proved: when the pass ends every load of the fraction is the same function of the point (C107_same_load), others are kept, exactly when it ends (C107_ends), the order of the points. Refuted of the code: abscissas in lengths are taken as X, bars perpendicular to X stop the conversion, as do tables with a number and loads on several cells."
  },
  {
   "property": "C108",
   "status": "partial",
   "theorems": [
    "C108_kept",
    "C108_one_partial",
    "C108_two_stops",
    "C108_total",
    "C108_two_refuted",
    "C108_mass_refuted",
    "C108_model_name_refuted"
   ],
   "note": "Proved: sets with one pair are kept (C108_kept), one set with several pairs is split with its cells, stiffness and damping and the groups kept (C108_one_partial), the pass ends or throws (C108_total). Refuted of the code: with two sets to split it always throws (C108_two_stops, for all inputs), the mass is lost, and a group with the name of the model is removed."
  },
  {
   "property": "C109",
   "status": "partial",
   "theorems": [
    "C109_others",
    "C109_last",
    "C109_complex",
    "C109_last_partial",
    "C109_default",
    "C109_mass",
    "C109_no_mass",
    "C109_lower",
    "C109_rayleigh",
    "C109_damping",
    "C109_large_partial",
    "C109_no_large",
    "C109_check",
    "C109_damping_missing",
    "C109_patver",
    "C109_unknown",
    "C109_reset_refuted",
    "C109_large_refuted",
    "C109_check_refuted",
    "C109_small_refuted",
    "C109_extrema_always",
    "C109_extrema_refuted"
   ],
   "note": "Proved for all decks: the last card counts for K6ROT, WTMASS, ALPHA1, ALPHA2 (to 15 decimals, exactly if it has no more), and for G, W3, LFREQ, HFREQ, LGDISP the last card that does not say the default; factor of masses, Rayleigh factors, damping coefficient, lower bound, large displacements, mesh check; other names change nothing. Refuted of the code: a later card saying the default does not take back an earlier one (G, LGDISP, CHECKEL), a WTMASS below 5e-16 becomes 0, and extrema are always printed (C109_extrema_always, for all decks)."
  },
  {
   "property": "C110",
   "status": "partial",
   "theorems": [
    "C110_points",
    "C110_lost_refuted",
    "C110_slides",
    "C110_clash_refuted",
    "C110_line_refuted",
    "C110_trace_refuted"
   ],
   "note": "proved: the matrices, the groups and their segments, and that everything else is kept (C110_points, C110_slides). Refuted: the segments made are never attached to their elements, so the matrices are lost (C110_lost_refuted); two points of the same best number make the conversion throw (C110_clash_refuted); at the TRACE level no point can be converted (C110_trace_refuted); a slide contact with a missing or empty line is undefined behaviour (C110_line_refuted)."
  },
  {
   "property": "C111",
   "status": "partial",
   "theorems": [
    "C111_grid",
    "C111_elem_partial",
    "C111_elem_refuted",
    "C111_gap_refuted",
    "C111_freq",
    "C111_word_refuted",
    "C111_unsupported",
    "C111_surf",
    "C111_contact_partial",
    "C111_contact_refuted"
   ],
   "note": "Proved for GRID lists, FREQ sets, refused types, SURF faces, and the surfaces of CONTACT. Refuted: the cell group of an ELEM set is always empty, because the list is read twice (C111_elem_refuted); numbers after a blank field of a GRID list are dropped silently (C111_gap_refuted); a word among frequencies makes the reading loop for ever (C111_word_refuted); a contact never goes to the set the card names (C111_contact_refuted)."
  },
  {
   "property": "C112",
   "status": "partial",
   "theorems": [
    "C112_cgap",
    "C112_cid_refuted",
    "C112_pgap",
    "C112_cards",
    "C112_shared_refuted",
    "C112_written_partial",
    "C112_meaning_partial",
    "C112_second_node_refuted",
    "C112_z_refuted",
    "C112_openings_refuted"
   ],
   "note": "Proved: the cards, the registry whatever the order, the unit vector, and the relation of each pair for a set with one gap whose direction has a y component whenever it has a z one; its meaning if the second node does not move. Refuted: a gap oriented by a coordinate system only is refused (C112_cid_refuted); two elements sharing property and first node, the first is lost (C112_shared_refuted); the motion of the second node is ignored (C112_second_node_refuted); along z the coefficient is never defined (C112_z_refuted); with two gaps the first takes the opening of the second (C112_openings_refuted)."
  },
  {
   "property": "C113",
   "status": "partial",
   "theorems": [
    "C113_pages_partial",
    "C113_sound",
    "C113_bare_subcase",
    "C113_second_section_refuted",
    "C113_step_refuted",
    "C113_unknown_subcase_refuted",
    "C113_header_refuted",
    "C113_complex_refuted"
   ],
   "note": "Proved: the pages of a file, with displacements, modes and complex displacements, whatever the blank lines and the mode (C113_pages_partial); for every file, termination and that each result told is that of a line (C113_sound). Missing: stresses of solids. Refuted: the second section under one subcase goes to the common set (C113_second_section_refuted); a load step passes to the next subcase (C113_step_refuted); a subcase unknown to the model is undefined behaviour (C113_unknown_subcase_refuted); a page header of nine words hides the subcase (C113_header_refuted); complex displacements are not taken to the global system (C113_complex_refuted)."
  },
  {
   "property": "C114",
   "status": "partial",
   "theorems": [
    "C114_surface_card",
    "C114_contact_card",
    "C114_body_card",
    "C114_table_partial",
    "C114_zones_refuted",
    "C114_surfaces",
    "C114_fours_refuted",
    "C114_missing",
    "C114_missing_master",
    "C114_nodes_partial",
    "C114_nodes_refuted",
    "C114_skin",
    "C114_skin_unknown",
    "C114_normal_refuted"
   ],
   "note": "Contacts between node surfaces and the skins of faces are proved for every mesh. Refuted: contact zones of BCTABLE (references to surfaces where bodies are expected), lists not made of fours, the zero of triangles among the nodes of a contact, the side of a face. Missing: what a BCTABLE card in error leaves behind, BSURF, BFRIC, the Skin element set, the solids made for OptiStruct contacts (makeCellsFromSurfaceSlide)."
  },
  {
   "property": "C115",
   "status": "partial",
   "theorems": [
    "C115_nodes",
    "C115_required",
    "C115_points",
    "C115_blocked",
    "C115_never_blocked",
    "C115_settled_partial",
    "C115_elements",
    "C115_ready",
    "C115_free_refuted"
   ],
   "note": "C115_nodes, C115_required, C115_points, C115_blocked and C115_never_blocked hold for every mesh and every list of analyses: who gets which element, what the nodes have afterwards and exactly what is blocked. The last sentence of the statement holds for an analysis that lacks something at the node while no other analysis acts there on more (C115_settled_partial), so for models with one analysis; C115_free_refuted: with several analyses, a degree of freedom lacked by another analysis, and every one of them in an analysis that lacked nothing, is left free on an element of zero stiffness. How boundary degrees of freedom are collected is C41; the virtual material is not modelled."
  },
  {
   "property": "C116",
   "status": "partial",
   "theorems": [
    "C116_matrices",
    "C116_coefficients",
    "C116_header_refused",
    "C116_first_component",
    "C116_lists_refused",
    "C116_blank_name_refused",
    "C116_names_refuted",
    "C116_shared_name_refuted",
    "C116_scalar_loads",
    "C116_temperatures",
    "C116_temperature_gap_refuted",
    "C116_imposed",
    "C116_lists",
    "C116_labelled_set",
    "C116_spcadd",
    "C116_friction",
    "C116_slide",
    "C116_increments"
   ],
   "note": "Proved for commands with one plain name each and decks of header and column cards in any order and number: each matrix that is the first of its name has exactly the terms of its cards (C116_matrices), and the coefficients a writer sees are the last values given (C116_coefficients, through C61). Errors: C116_header_refused, C116_lists_refused, C116_blank_name_refused. False of the code: names separated by blanks become one name and their cards are skipped silently (C116_names_refuted); the second command that gives a name gets an empty matrix (C116_shared_name_refuted); a temperature after a blank pair is lost (C116_temperature_gap_refuted). The other cards are proved for all field values. Missing: imaginary parts (skipped), CID of scalar loads."
  },
  {
   "property": "C117",
   "status": "partial",
   "theorems": [
    "C117_assertions",
    "C117_assertion_refuted",
    "C117_analyses",
    "C117_no_analysis",
    "C117_no_analysis_refuted",
    "C117_rigid_segments",
    "C117_no_stiffness",
    "C117_damper_refuted",
    "C117_matrix_cells",
    "C117_matrix_too_big",
    "C117_set_groups",
    "C117_set_name_taken"
   ],
   "note": "Proved: which assertions are left; the analyses of the finished model, with and without detection; every set of segments is replaced or left, infinite ones replaced, finite ones left; the group and the cell of each direct matrix up to 20 nodes, more being an error; the node group of each original set. Refuted: a segment without stiffness (a PVISC damper) becomes a rigid link and loses its damping (C117_damper_refuted, for all such sets C117_no_stiffness); an assertion one analysis can check is removed when another cannot (C117_assertion_refuted); without detection a model with loads and constraints has no analysis (C117_no_analysis_refuted). Not modelled: beams that display rigid links, the groups of displacement outputs, the skin pass (C114)."
  },
  {
   "property": "C118",
   "status": "partial",
   "theorems": [
    "C118_aster",
    "C118_small_refuted",
    "C118_zero_mode_refuted",
    "C118_systus",
    "C118_search",
    "C118_systus_harmonic_partial",
    "C118_systus_harmonic_refuted",
    "C118_other_frequency_refuted",
    "C118_instant",
    "C118_agree",
    "C118_agree_refuted"
   ],
   "note": "Proved for expectations large enough to be compared relatively, with the meaning of TEST_RESU and of the Systus language stated in the specification; refuted for small references, modes of frequency zero, harmonic displacements whose two errors add up, missing frequencies, and for the agreement of both solvers between 1e-9 and 1e-7. The layout and digits of the text are not modelled."
  },
  {
   "property": "C119",
   "status": "partial",
   "theorems": [
    "C119_automatic",
    "C119_tube_refuted",
    "C119_option",
    "C119_option_words",
    "C119_merged",
    "C119_single",
    "C119_lists",
    "C119_unknown",
    "C119_list_refused",
    "C119_mesh_only"
   ],
   "note": "Proved for the grouping of analyses, the lists and words of the command line, and the automatic option without tube beams and composites; C119_tube_refuted shows that tube beams are overlooked. The type of an analysis in a list is that of its first one, which is not part of the claim."
  },
  {
   "property": "C120",
   "status": "partial",
   "theorems": [
    "C120_kept",
    "C120_bars",
    "C120_averages",
    "C120_relations",
    "C120_apart",
    "C120_rotation_map_partial",
    "C120_no_rotation",
    "C120_missing_master",
    "C120_malformed",
    "C120_shared_master_refuted",
    "C120_single_node_refuted",
    "C120_twenty_nodes"
   ],
   "note": "Proved for meshes built by the mesh's own calls and sets as the readers make them (cells from the master to one slave, relations of 2 to 19 nodes); the rotation map is proved for a master of one set only, and C120_shared_master_refuted and C120_single_node_refuted show what happens otherwise. The stiffness of the rigid material and groups of cells are not modelled."
  },
  {
   "property": "C121",
   "status": "partial",
   "theorems": [
    "C121_numbers",
    "C121_reference",
    "C121_roles_partial",
    "C121_relation",
    "C121_only",
    "C121_apart",
    "C121_count",
    "C121_succeeds",
    "C121_undirected_spring",
    "C121_excitation_partial",
    "C121_hundred_tables_refuted",
    "C121_two_excitations_refuted",
    "C121_function_line",
    "C121_no_function_line",
    "C121_function_line_refuted"
   ],
   "note": "Proved for all inputs that numbering, contents, ownership and count are right, and the reading of the references below one hundred tables. Refuted: the hundredth table of stiffness is read as a table of mass; two excitations in one load case leave one table that nothing refers to; the line FUNCTION names table 0 when only another load case than the first is excited. The contents of a direct matrix's table are those of C62."
  },
  {
   "property": "C122",
   "status": "partial",
   "theorems": [
    "C122_longest",
    "C122_shortest",
    "C122_mean",
    "C122_no_mean",
    "C122_computed",
    "C122_coincident_refuted",
    "C122_min_length_refuted",
    "C122_first_call",
    "C122_stale_refuted",
    "C122_stiffness",
    "C122_points_refuted",
    "C122_second_model_refuted",
    "C122_value"
   ],
   "note": "Proved for all meshes: greatest length, smallest non null length, mean and its bounds, the stiffness. Refuted: the smallest length is always 0 (each node is compared with itself); when all the cells of a type are reduced to points, or a type has no cell, the program reads past the end of an array; so a null length is never raised to 1; without cells of two nodes the stiffness is not a number; the statistics and the greatest modulus are computed once and not refreshed."
  },
  {
   "property": "C123",
   "status": "partial",
   "theorems": [
    "C123_words",
    "C123_accepted",
    "C123_subcases",
    "C123_subcases_text",
    "C123_single_mark",
    "C123_malformed_refuted",
    "C123_dropped_refuted",
    "C123_mode",
    "C123_exclusive_refuted",
    "C123_exit",
    "C123_strict",
    "C123_exit_refuted",
    "C123_level",
    "C123_unknown_level_refuted",
    "C123_graph",
    "C123_graph_refuted",
    "C123_size",
    "C123_table_size_refuted",
    "C123_lagrangian",
    "C123_penalty",
    "C123_rigidity",
    "C123_rigidity_ignored",
    "C123_lagrangian_in_penalty_refuted",
    "C123_path",
    "C123_plain_path",
    "C123_path_refuted"
   ],
   "note": "Acceptance, words, lists, modes, levels, sizes, rigid values and exit codes are proved for all inputs. Refuted parts: --mesh-at-least and --strict together are accepted; malformed texts after 'single' or 'auto' are accepted and lists before them dropped; an unknown verbosity word is accepted as INFO; --graph is dropped below TRACE; sizes above 9 are accepted for tables; the deprecated lagrangian coefficient replaces the automatic penalty stiffness; a leading quote removes the last character whatever it is; without --strict exit code 0 promises nothing."
  },
  {
   "property": "C124",
   "status": "partial",
   "theorems": [
    "C124_cells",
    "C124_count",
    "C124_bound",
    "C124_nearest_partial",
    "C124_succeeds",
    "C124_distinct",
    "C124_nearest_refuted",
    "C124_no_master_refuted",
    "C124_once_refuted",
    "C124_distinct_refuted",
    "C124_quadratic_refuted"
   ],
   "note": "Cells, counts, choice of the box and success are proved for all inputs and all tie-breaking. Refuted: the face joined is not always the nearest face (boxes of tilted faces); a master surface with no face found is undefined behaviour; a node shared by two slave faces gets two identical cells; a slave node on the master face makes a cell with a repeated node; quadratic master faces stop the conversion. Groups and identifiers of the new cells are not modelled."
  },
  {
   "property": "C125",
   "status": "partial",
   "theorems": [
    "C125_strict",
    "C125_kept",
    "C125_coherent",
    "C125_again",
    "C125_answer",
    "C125_invalid_loading",
    "C125_best_effort_refuted",
    "C125_search_refuted",
    "C125_written",
    "C125_all_written",
    "C125_unused_refuted",
    "C125_strict_exit"
   ],
   "note": "Proved for the model of validate and checkWritten where the answer of each object's own validate, and its mark, are inputs. Three parts are refuted with witnesses: best effort with an invalid loading in a load set, a missing search, an unused unwritten loading. Not modelled: Mesh::validate, the own validate of materials, element sets and loadings, the messages."
  },
  {
   "property": "C126",
   "status": "partial",
   "theorems": [
    "C126_paste",
    "C126_one",
    "C126_inline",
    "C126_cycle",
    "C126_ends",
    "C126_name",
    "C126_double_quotes_refuted"
   ],
   "note": "Proved for the model of parseInclude in the loop of the bulk section, where the other commands are only recorded and file names are texts. The part on double quotes is refuted with a witness. Not modelled: errors in the other commands, INCLUDE lines continued on the next line, comments within the line, absolute names in a directory, files that exist but cannot be read."
  },
  {
   "property": "C127",
   "status": "partial",
   "theorems": [
    "C127_left",
    "C127_sets",
    "C127_same",
    "C127_closed",
    "C127_validates",
    "C127_lost_refuted"
   ],
   "note": "Proved for the model of removeIneffectives and of the removal of loadings, constraints and their sets; which objects are ineffective is an input. The defect is C127_lost_refuted. Not modelled: removing unused nodes from node groups, messages."
  },
  {
   "property": "C128",
   "status": "partial",
   "theorems": [
    "C128_files",
    "C128_solved",
    "C128_single_marks",
    "C128_marked_refuted",
    "C128_unmarked_refuted"
   ],
   "note": "Proved for the model of the command files as lists of blocks. The claim that an analysis passes for written exactly when it is solved is false: C128_marked_refuted, C128_unmarked_refuted. Not modelled: the text of the blocks, the ASC files, the files of matrices."
  },
  {
   "property": "C129",
   "status": "partial",
   "theorems": [
    "C129_verdict",
    "C129_strict",
    "C129_map",
    "C129_complex",
    "C129_case_refuted",
    "C129_missing_frequency_refuted"
   ],
   "note": "Proved on real numbers written exactly, for the meaning the command language gives to the checks. The claims that a check looks at the load case of its analysis and at a map at the frequency are false: C129_case_refuted, C129_missing_frequency_refuted. Not modelled: rounding, the tables printed beside the verdicts."
  },
  {
   "property": "C130",
   "status": "partial",
   "theorems": [
    "C130_status",
    "C130_aster",
    "C130_syntax_refuted",
    "C130_syntax_never",
    "C130_nastran",
    "C130_systus",
    "C130_systus_failures",
    "C130_topaze",
    "C130_no_command_refuted",
    "C130_lost_error_refuted",
    "C130_other_study_refuted",
    "C130_number",
    "C130_no_runner_refuted"
   ],
   "note": "Proved for every solver function and directory. The defects are the five C130_..._refuted theorems. Not modelled: the text of the commands, files that cannot be removed, the directory repe_out."
  },
  {
   "property": "C131",
   "status": "partial",
   "theorems": [
    "C131_zero",
    "C131_errors",
    "C131_failures",
    "C131_effects",
    "C131_options_refuted",
    "C131_options_crash",
    "C131_debug_refuted",
    "C131_aster_run",
    "C131_systus_run",
    "C131_reasons",
    "C131_reasons_apart"
   ],
   "note": "Proved for every call, the steps being inputs; put together with C130 for Code_Aster and Systus, where code 0 of a translation that runs the solver says that the run left results without a failed check. Every failure that is not a crash is printed with a reason of its own. The defects are C131_options_refuted and C131_debug_refuted. Not modelled: the other messages, the build without fork."
  }
 ]
}