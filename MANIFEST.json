{
 "claims": [
  {
   "property": "C01",
   "status": "proved",
   "theorems": [
    "C01_add_node_exact"
   ],
   "note": ""
  },
  {
   "property": "C02",
   "status": "proved",
   "theorems": [
    "C02_add_flow_exact"
   ],
   "note": ""
  },
  {
   "property": "C03",
   "status": "proved",
   "theorems": [
    "C03_bookkeeping_invariant",
    "C03_nodes_complete"
   ],
   "note": ""
  },
  {
   "property": "C04",
   "status": "partial",
   "theorems": [
    "C04_live_flow_found",
    "C04_other_ids_not_found",
    "C04_retrieval_distinct_pairs",
    "C04_retrieval_refuted",
    "C04_orientation_refuted"
   ],
   "note": "Holds for every history in which no two flows connect the same unordered pair (C04_retrieval_distinct_pairs), and C04_live_flow_found/C04_other_ids_not_found say exactly which ids are found in all histories; the unrestricted claim is false of the code (C04_retrieval_refuted, C04_orientation_refuted)."
  },
  {
   "property": "C05",
   "status": "proved",
   "theorems": [
    "C05_get_all_nodes",
    "C05_get_nodes_by_type",
    "C05_id_list",
    "C05_get_node_by_id",
    "C05_untyped_raises"
   ],
   "note": ""
  },
  {
   "property": "C06",
   "status": "proved",
   "theorems": [
    "C06_nodes_by_process",
    "C06_flows_exactly_once",
    "C06_flows_by_process"
   ],
   "note": ""
  },
  {
   "property": "C07",
   "status": "partial",
   "theorems": [
    "C07_bad_direction_raises",
    "C07_bad_direction_frame",
    "C07_atomic_refuted"
   ],
   "note": "The raise is proved for all states; the claim that the diagram is unchanged is false of the code (C07_atomic_refuted: the node stays); C07_bad_direction_frame says exactly what remains."
  },
  {
   "property": "C08",
   "status": "proved",
   "theorems": [
    "C08_start_definitions",
    "C08_end_definitions"
   ],
   "note": ""
  },
  {
   "property": "C09",
   "status": "partial",
   "theorems": [
    "C09_unknown_end_raises",
    "C09_atomic_refuted"
   ],
   "note": "The raise is proved for all states; the claim that the diagram is unchanged is false of the code (C09_atomic_refuted)."
  },
  {
   "property": "C10",
   "status": "proved",
   "theorems": [
    "C10_create_discards"
   ],
   "note": ""
  },
  {
   "property": "C11",
   "status": "proved",
   "theorems": [
    "C11_add_process"
   ],
   "note": ""
  },
  {
   "property": "C12",
   "status": "proved",
   "theorems": [
    "C12_positions"
   ],
   "note": ""
  },
  {
   "property": "C13",
   "status": "proved",
   "theorems": [
    "C13_count_metrics",
    "C13_type_count",
    "C13_number_unique",
    "C13_untyped_raises"
   ],
   "note": ""
  },
  {
   "property": "C14",
   "status": "partial",
   "theorems": [
    "C14_default_count_zero",
    "C14_default_count_refuted"
   ],
   "note": "False of the code: C14_default_count_zero shows that the default count is 0 on every diagram whose nodes all have a type; C14_default_count_refuted is the counterexample to the English claim."
  },
  {
   "property": "C15",
   "status": "proved",
   "theorems": [
    "C15_gateway_heterogeneity"
   ],
   "note": ""
  },
  {
   "property": "C16",
   "status": "proved",
   "theorems": [
    "C16_durfee",
    "C16_durfee_others"
   ],
   "note": ""
  },
  {
   "property": "C17",
   "status": "proved",
   "theorems": [
    "C17_perfect"
   ],
   "note": ""
  },
  {
   "property": "C18",
   "status": "proved",
   "theorems": [
    "C18_network_complexity",
    "C18_histories_wellformed"
   ],
   "note": ""
  },
  {
   "property": "C19",
   "status": "proved",
   "theorems": [
    "C19_average_gateway_degree",
    "C19_handshake"
   ],
   "note": ""
  },
  {
   "property": "C20",
   "status": "proved",
   "theorems": [
    "C20_count_segments",
    "C20_no_waypoints_raises"
   ],
   "note": "Coordinates are exact rationals; the float parser is an arbitrary partial function."
  },
  {
   "property": "C21",
   "status": "proved",
   "theorems": [
    "C21_intersection"
   ],
   "note": ""
  },
  {
   "property": "C22",
   "status": "proved",
   "theorems": [
    "C22_crossing_count",
    "C22_count_determined",
    "C22_order_irrelevant"
   ],
   "note": "The number of crossings is specified by counting index pairs; C22_count_determined says the count is unique."
  },
  {
   "property": "C23",
   "status": "proved",
   "theorems": [
    "C23_terminates",
    "C23_longest_path",
    "C23_api_diagrams_consistent",
    "C23_self_loop_refuted",
    "C23_parallel_flows_refuted"
   ],
   "note": "Proved without self-loops, as claimed. C23_self_loop_refuted shows the restriction is needed, C23_parallel_flows_refuted that API diagrams with two flows over one pair make it raise TypeError."
  },
  {
   "property": "C24",
   "status": "proved",
   "theorems": [
    "C24_terminates",
    "C24_most_activities",
    "C24_bounds_full_paths",
    "C24_full_path_refuted"
   ],
   "note": "Exact maximum over all simple paths from a source; C24_full_path_refuted shows that the maximum may be reached only by a path that stops inside a loop."
  },
  {
   "property": "C25",
   "status": "proved",
   "theorems": [
    "C25_classification"
   ],
   "note": ""
  },
  {
   "property": "C26",
   "status": "proved",
   "theorems": [
    "C26_api_diagrams_coherent",
    "C26_topological_order",
    "C26_acyclic_no_backward"
   ],
   "note": "Stated for coherent diagrams of laid out types; C26_api_diagrams_coherent shows that every API history whose flows join distinct pairs gives one."
  },
  {
   "property": "C27",
   "status": "partial",
   "theorems": [
    "C27_terminates_iff",
    "C27_no_other_failure",
    "C27_termination_refuted"
   ],
   "note": "C27_terminates_iff: on coherent diagrams the sort returns iff no cycle avoids the Joins; the unrestricted claim is false of the code (C27_termination_refuted)."
  },
  {
   "property": "C28",
   "status": "proved",
   "theorems": [
    "C28_no_overlap"
   ],
   "note": ""
  },
  {
   "property": "C29",
   "status": "proved",
   "theorems": [
    "C29_exactly_one_position",
    "C29_only_drawing",
    "C29_only_classified_types"
   ],
   "note": ""
  },
  {
   "property": "C30",
   "status": "partial",
   "theorems": [
    "C30_exact_route",
    "C30_waypoints",
    "C30_every_gateway_refuted"
   ],
   "note": "C30_exact_route gives every waypoint. The rest is proved for the three gateway types the code routes; for the other two the axis-parallel part is false of the code (C30_every_gateway_refuted)."
  },
  {
   "property": "C31",
   "status": "partial",
   "theorems": [
    "C31_single_predecessor",
    "C31_placed_before",
    "C31_no_splits",
    "C31_all_flows_refuted"
   ],
   "note": "Proved for every flow whose source is placed before its target, exactly one column for targets that are not Joins, and for all flows of acyclic diagrams without splits; false of the code for all flows of acyclic diagrams (C31_all_flows_refuted)."
  },
  {
   "property": "C32",
   "status": "partial",
   "theorems": [
    "C32_occupied_raises",
    "C32_free_appends",
    "C32_makes_room_refuted"
   ],
   "note": "False of the code: C32_occupied_raises for every grid; C32_free_appends is the part that holds."
  },
  {
   "property": "C33",
   "status": "proved",
   "theorems": [
    "C33_linear_layout"
   ],
   "note": ""
  },
  {
   "property": "C34",
   "status": "proved",
   "theorems": [
    "C34_nodes",
    "C34_flow_lists",
    "C34_subprocess",
    "C34_same_nodes"
   ],
   "note": "C34_nodes, C34_flow_lists, C34_subprocess and C34_same_nodes, for every diagram that satisfies storable (the well-formedness named in the quantifier)."
  },
  {
   "property": "C35",
   "status": "proved",
   "theorems": [
    "C35_flows",
    "C35_same_connections"
   ],
   "note": "C35_flows and C35_same_connections."
  },
  {
   "property": "C36",
   "status": "partial",
   "theorems": [
    "C36_processes",
    "C36_same_processes",
    "C36_name_refuted"
   ],
   "note": "Everything but the name is kept (C36_processes, C36_same_processes); the name is false of the code: it is always read back as the empty string (C36_processes, C36_name_refuted)."
  },
  {
   "property": "C37",
   "status": "partial",
   "theorems": [
    "C37_lanes",
    "C37_flat_lanes",
    "C37_no_lanes",
    "C37_nested_refuted"
   ],
   "note": "C37_lanes, C37_flat_lanes and C37_no_lanes for lanes that share their id with nothing else that is drawn; lanes inside lanes are false of the code (C37_nested_refuted)."
  },
  {
   "property": "C38",
   "status": "proved",
   "theorems": [
    "C38_exported",
    "C38_written",
    "C38_exported_refuted",
    "C38_structure",
    "C38_loading",
    "C38_writing"
   ],
   "note": "C38_structure for every tree; C38_exported for every export of a diagram without nodes of the four types whose elements are read as text (C38_exported_refuted shows why)."
  },
  {
   "property": "C39",
   "status": "proved",
   "theorems": [
    "C39_nodes",
    "C39_flows",
    "C39_messages"
   ],
   "note": "C39_nodes, C39_flows, C39_messages; pools and lanes are in C73 and C37."
  },
  {
   "property": "C40",
   "status": "partial",
   "theorems": [
    "C40_written",
    "C40_nodes_once",
    "C40_flows_once",
    "C40_single_process",
    "C40_two_processes_refuted",
    "C40_nested_refuted"
   ],
   "note": "C40_written says what every process of the file contains; C40_nodes_once and C40_flows_once say exactly which nodes and flows are written once (one process, not in a subprocess), C40_single_process gives the order; the unrestricted claim is false of the code (C40_two_processes_refuted, C40_nested_refuted)."
  },
  {
   "property": "C41",
   "status": "proved",
   "theorems": [
    "C41_registered_at_both_ends",
    "C41_outgoing_lists",
    "C41_incoming_lists",
    "C41_any_declared_ends_refuted"
   ],
   "note": "C41_registered_at_both_ends and the two list theorems. The document's own listing may repeat an id; the import never adds a second copy. The endpoints must be declared in the scope of the flow, as stated; C41_any_declared_ends_refuted shows why."
  },
  {
   "property": "C42",
   "status": "proved",
   "theorems": [
    "C42_nodes",
    "C42_declared"
   ],
   "note": "C42_nodes says exactly which ids are nodes; C42_declared that each declared id has the type and attributes of one of its elements."
  },
  {
   "property": "C43",
   "status": "partial",
   "theorems": [
    "C43_comments_fail",
    "C43_comments_below_root",
    "C43_comments_ignored_refuted"
   ],
   "note": "The claim is false of the code (C43_comments_ignored_refuted). C43_comments_fail: a comment in any of the walked elements makes loading fail; C43_comments_below_root: comments directly below the root are ignored."
  },
  {
   "property": "C44",
   "status": "proved",
   "theorems": [
    "C44_attributes"
   ],
   "note": "C44_attributes, for every kind of element."
  },
  {
   "property": "C45",
   "status": "partial",
   "theorems": [
    "C45_name_kept",
    "C45_name_overwritten",
    "C45_name_refuted"
   ],
   "note": "C45_name_kept for flows without a condition; false of the code for the others (C45_name_overwritten, C45_name_refuted)."
  },
  {
   "property": "C46",
   "status": "proved",
   "theorems": [
    "C46_sequence_successor",
    "C46_one_reading"
   ],
   "note": ""
  },
  {
   "property": "C47",
   "status": "proved",
   "theorems": [
    "C47_split_successors",
    "C47_other_orders"
   ],
   "note": "Stated for orders without characters that are special in patterns: the code puts the order into a pattern unescaped."
  },
  {
   "property": "C48",
   "status": "proved",
   "theorems": [
    "C48_gateway_type"
   ],
   "note": "Stated for the type chosen from the rows of the branches and their stripped conditions."
  },
  {
   "property": "C49",
   "status": "proved",
   "theorems": [
    "C49_linear_table"
   ],
   "note": ""
  },
  {
   "property": "C50",
   "status": "partial",
   "theorems": [
    "C50_flows_consistent",
    "C50_every_table_refuted"
   ],
   "note": "Proved for every table without goto rows; false of the code for goto rows with two incoming flows (C50_every_table_refuted)."
  },
  {
   "property": "C51",
   "status": "proved",
   "theorems": [
    "C51_dead_row",
    "C51_names_the_first_dead_row",
    "C51_success"
   ],
   "note": "Stated for distinct orders of the documented form; C51_success is the exact converse for tables without goto rows."
  },
  {
   "property": "C52",
   "status": "partial",
   "theorems": [
    "C52_merge_candidates",
    "C52_keeps_prefix_refuted",
    "C52_nested_merge_refuted"
   ],
   "note": "C52_merge_candidates gives the candidates of every branch label; keeping the outer prefix is false of the code (C52_keeps_prefix_refuted) and makes rows unreachable (C52_nested_merge_refuted)."
  },
  {
   "property": "C53",
   "status": "proved",
   "theorems": [
    "C53_no_pass_through_gateways"
   ],
   "note": "Every table, including goto rows, whenever loading succeeds."
  },
  {
   "property": "C54",
   "status": "partial",
   "theorems": [
    "C54_process_lists_rows",
    "C54_lists_its_nodes_refuted"
   ],
   "note": "False of the code (C54_lists_its_nodes_refuted); C54_process_lists_rows says what is listed instead."
  },
  {
   "property": "C55",
   "status": "partial",
   "theorems": [
    "C55_export_without_di",
    "C55_export_with_di",
    "C55_export_refuted"
   ],
   "note": "C55_export_without_di: every table that loads gives a diagram that export_xml_file_no_di writes. The part about export_xml_file is false: C55_export_with_di shows it raises KeyError waypoints exactly when there is a flow; C55_export_refuted is the counterexample."
  },
  {
   "property": "C56",
   "status": "proved",
   "theorems": [
    "C56_rows_kept",
    "C56_clean_orders",
    "C56_trimmed_unique",
    "C56_every_row_kept_refuted"
   ],
   "note": "C56_every_row_kept_refuted shows that the stripped orders have to be distinct."
  },
  {
   "property": "C57",
   "status": "proved",
   "theorems": [
    "C57_one_entry",
    "C57_nothing_written"
   ],
   "note": "Every diagram; C57_nothing_written says that no file is written in the failing case."
  },
  {
   "property": "C58",
   "status": "proved",
   "theorems": [
    "C58_chain"
   ],
   "note": "Chains of every length."
  },
  {
   "property": "C59",
   "status": "partial",
   "theorems": [
    "C59_chain_round_trip",
    "C59_identity_refuted"
   ],
   "note": "Proved for names that pandas reads back verbatim and that do not start with goto; the identity is false of the code because the name of the end event is lost (C59_identity_refuted)."
  },
  {
   "property": "C60",
   "status": "proved",
   "theorems": [
    "C60_never_exported",
    "C60_index_error"
   ],
   "note": "C60_never_exported for every straight way to the split; C60_index_error is exact for branches that are end events."
  },
  {
   "property": "C61",
   "status": "partial",
   "theorems": [
    "C61_file",
    "C61_six_fields",
    "C61_every_name_refuted"
   ],
   "note": "C61_file for every diagram, C61_six_fields for names without commas and line breaks; false of the code otherwise (C61_every_name_refuted)."
  },
  {
   "property": "C62",
   "status": "partial",
   "theorems": [
    "C62_accepted",
    "C62_every_setter_has_a_getter",
    "C62_refused_partial",
    "C62_none_is_stored",
    "C62_refused_refuted"
   ],
   "note": "C62_accepted and C62_refused_partial give the claim for all classes, worlds and values, except None given to set_id, set_message_ref and set_condition_expression, where the code stores None and then raises (C62_none_is_stored, C62_refused_refuted)."
  },
  {
   "property": "C63",
   "status": "proved",
   "theorems": [
    "C63_always_valid",
    "C63_enumerations"
   ],
   "note": "C63_always_valid covers every getter of every class after any program, not only the two enumerations."
  },
  {
   "property": "C64",
   "status": "partial",
   "theorems": [
    "C64_constructed_iff",
    "C64_refused_unchanged",
    "C64_ends_returned",
    "C64_strings_refuted"
   ],
   "note": "C64_constructed_iff says exactly which arguments are accepted; the claim about the target is false of the code (C64_strings_refuted)."
  },
  {
   "property": "C65",
   "status": "partial",
   "theorems": [
    "C65_acyclic_success_refuted",
    "C65_only_the_grid_fails"
   ],
   "note": "False of the code (C65_acyclic_success_refuted); C65_only_the_grid_fails is the part that holds; C95 says which diagrams the grid accepts."
  },
  {
   "property": "C66",
   "status": "proved",
   "theorems": [
    "C66_nodes_and_flows",
    "C66_row_elements",
    "C66_split_type"
   ],
   "note": "Stated against the specification in SpecFlow.v."
  },
  {
   "property": "C67",
   "status": "partial",
   "theorems": [
    "C67_edges_of_flows",
    "C67_flow_of_edge",
    "C67_every_flow_has_its_edge_refuted"
   ],
   "note": "Proved for every table without goto rows; false of the code for goto loops to the previous row (C67_every_flow_has_its_edge_refuted)."
  },
  {
   "property": "C68",
   "status": "proved",
   "theorems": [
    "C68_orders"
   ],
   "note": "Every diagram whose export succeeds."
  },
  {
   "property": "C69",
   "status": "partial",
   "theorems": [
    "C69_documented",
    "C69_loads_iff",
    "C69_every_export_loads_refuted"
   ],
   "note": "C69_loads_iff says exactly which exported files load when there are no goto rows; the unrestricted claim is false of the code (C69_every_export_loads_refuted)."
  },
  {
   "property": "C70",
   "status": "proved",
   "theorems": [
    "C70_process_lists",
    "C70_subprocess_lists"
   ],
   "note": "C70_process_lists, C70_subprocess_lists."
  },
  {
   "property": "C71",
   "status": "proved",
   "theorems": [
    "C71_flows",
    "C71_any_flow_refuted"
   ],
   "note": "C71_flows; the version without the condition on the pair is C71_any_flow_refuted."
  },
  {
   "property": "C72",
   "status": "proved",
   "theorems": [
    "C72_loads_iff"
   ],
   "note": "C72_loads_iff, both directions."
  },
  {
   "property": "C73",
   "status": "partial",
   "theorems": [
    "C73_collaboration",
    "C73_no_collaboration",
    "C73_messages",
    "C73_diagram_attributes",
    "C73_black_box",
    "C73_orientation_refuted"
   ],
   "note": "C73_collaboration, C73_no_collaboration, C73_messages, C73_diagram_attributes; the orientation of a pool without a process is false of the code (C73_black_box, C73_orientation_refuted)."
  },
  {
   "property": "C75",
   "status": "partial",
   "theorems": [
    "C75_never_loads",
    "C75_loads_refuted"
   ],
   "note": "False of the code: C75_never_loads shows that loading raises IndexError for every such file and changes nothing; C75_loads_refuted is the counterexample to the English claim."
  },
  {
   "property": "C74",
   "status": "proved",
   "theorems": [
    "C74_saved_and_loaded",
    "C74_same_diagram",
    "C74_empty_condition_refuted"
   ],
   "note": "C74_saved_and_loaded and C74_same_diagram for every diagram that satisfies storable, complete, writable and rereadable; C74_empty_condition_refuted shows why conditions must not be empty."
  },
  {
   "property": "C76",
   "status": "proved",
   "theorems": [
    "C76_can_be_saved",
    "C76_everything_kept",
    "C76_process_name_lost",
    "C76_not_created_refuted",
    "C76_no_process_refuted",
    "C76_unknown_process_refuted"
   ],
   "note": "C76_can_be_saved and C76_everything_kept for all proper call histories; C76_process_name_lost for the name of a process. C76_not_created_refuted, C76_no_process_refuted and C76_unknown_process_refuted show that no hypothesis can be dropped."
  },
  {
   "property": "C77",
   "status": "partial",
   "theorems": [
    "C77_lists_partial",
    "C77_lists_refuted"
   ],
   "note": "C77_lists_partial for all programs that append to no list; false with aliasing (C77_lists_refuted)."
  },
  {
   "property": "C78",
   "status": "partial",
   "theorems": [
    "C78_flow_nodes_refused",
    "C78_sequence_flows_accepted",
    "C78_process_holds_task_refuted"
   ],
   "note": "False of the code: C78_flow_nodes_refused shows that every list with a flow node is refused (C78_process_holds_task_refuted is the witness); C78_sequence_flows_accepted is the half that holds."
  },
  {
   "property": "C79",
   "status": "partial",
   "theorems": [
    "C79_can_be_drawn",
    "C79_shapes",
    "C79_labels",
    "C79_lines",
    "C79_histories",
    "C79_every_node_refuted"
   ],
   "note": "C79_can_be_drawn, C79_shapes, C79_labels, C79_lines for all diagrams, C79_histories for all proper call histories; that every node gets a shape is false of the code for five node types (C79_every_node_refuted)."
  },
  {
   "property": "C80",
   "status": "partial",
   "theorems": [
    "C80_nodes",
    "C80_arrows",
    "C80_direction",
    "C80_arrows_refuted"
   ],
   "note": "C80_nodes and C80_arrows say exactly what is in the picture; the direction is false of the code: C80_direction says exactly which arrows point the wrong way, C80_arrows_refuted is the counterexample."
  },
  {
   "property": "C81",
   "status": "partial",
   "theorems": [
    "C81_lines",
    "C81_one_line_each_refuted",
    "C81_conditions_kept_refuted"
   ],
   "note": "C81_lines gives the exact lines for every structure whose meeting branches are empty or end with an activity; one line per activity is false without that (C81_one_line_each_refuted), and the condition of a branch that starts with a block is lost (C81_conditions_kept_refuted)."
  },
  {
   "property": "C82",
   "status": "partial",
   "theorems": [
    "C82_round_trip",
    "C82_conditions",
    "C82_gateways",
    "C82_parallel",
    "C82_kinds_kept_refuted",
    "C82_adjacent_blocks_refuted",
    "C82_nested_blocks_refuted",
    "C82_long_branch_refuted",
    "C82_meeting"
   ],
   "note": "C82_round_trip, C82_conditions, C82_gateways, C82_parallel and C82_meeting hold for flat structures; nested blocks, adjacent blocks and branches of more than ten rows do not come back (C82_nested_blocks_refuted, C82_adjacent_blocks_refuted, C82_long_branch_refuted), nor do the kinds of gateways (C82_kinds_kept_refuted)."
  },
  {
   "property": "C83",
   "status": "proved",
   "theorems": [
    "C83_laid_out_and_saved",
    "C83_ready_for_layout",
    "C83_table_saved",
    "C83_linear_table",
    "C83_api_saved"
   ],
   "note": "C83_laid_out_and_saved is for every diagram; C83_table_saved and C83_linear_table are for tables without goto rows; C83_api_saved is for diagrams built with the API."
  },
  {
   "property": "C84",
   "status": "partial",
   "theorems": [
    "C84_no_loops",
    "C84_layout_order",
    "C84_no_nesting",
    "C84_no_loops_refuted"
   ],
   "note": "C84_no_loops and C84_layout_order need that a block with a block inside is followed by a row (C84_no_nesting needs nothing); without it a loop is possible (C84_no_loops_refuted)."
  },
  {
   "property": "C85",
   "status": "partial",
   "theorems": [
    "C85_csv",
    "C85_picture",
    "C85_api",
    "C85_on_canvas",
    "C85_off_canvas",
    "C85_always_on_canvas_refuted",
    "C85_nested_refuted",
    "C85_stopping_refuted"
   ],
   "note": "C85_picture, C85_api, C85_csv and C85_on_canvas hold for blocks that are not nested and whose branches are non-empty and all meet; with nested blocks or stopping branches the layout may raise (C85_nested_refuted, C85_stopping_refuted), and four branches never fit on the canvas (C85_off_canvas, C85_always_on_canvas_refuted)."
  },
  {
   "property": "C86",
   "status": "partial",
   "theorems": [
    "C86_nodes_and_flows",
    "C86_row_elements",
    "C86_edges",
    "C86_loads",
    "C86_condition_refuted",
    "C86_every_edge_refuted",
    "C86_gotos_load_refuted",
    "C86_same_goal_refuted"
   ],
   "note": "C86_nodes_and_flows, C86_row_elements, C86_edges and C86_loads hold for goto rows that can be followed one by one (neat_jumps in SpecGoto.v); C86_condition_refuted, C86_every_edge_refuted, C86_gotos_load_refuted and C86_same_goal_refuted are the counterexamples to the full claim."
  },
  {
   "property": "C87",
   "status": "proved",
   "theorems": [
    "C87_metrics",
    "C87_lines",
    "C87_longest_paths",
    "C87_call_order",
    "C87_path_refuted",
    "C87_saved",
    "C87_saved_api",
    "C87_laid_out"
   ],
   "note": "Longest paths: for consistent diagrams without self-loops (for saved diagrams also: all nodes in processes, message flows with their target). C87_path_refuted shows that only the length, not the path, is independent of the order of calls."
  },
  {
   "property": "C88",
   "status": "partial",
   "theorems": [
    "C88_like_its_split",
    "C88_kind",
    "C88_otherwise",
    "C88_any_order_refuted"
   ],
   "note": "C88_like_its_split, C88_kind and C88_otherwise determine the kind in all cases; that it does not depend on the order of the rows is false (C88_any_order_refuted)."
  },
  {
   "property": "C89",
   "status": "proved",
   "theorems": [
    "C89_left_to_right",
    "C89_one_split",
    "C89_fan",
    "C89_nested",
    "C89_sibling_splits_fail"
   ],
   "note": "C89_fan gives the picture, C89_nested what happens behind another Split; C89_one_split and C89_sibling_splits_fail say which diagrams are never laid out."
  },
  {
   "property": "C90",
   "status": "partial",
   "theorems": [
    "C90_loop_closed_by",
    "C90_order_found",
    "C90_only_the_grid_fails",
    "C90_split_loops_fail",
    "C90_loops_refuted"
   ],
   "note": "C90_order_found and C90_only_the_grid_fails are the positive part, C90_split_loops_fail the negative one; that every loop can be laid out is false (C90_loops_refuted). Which of the remaining diagrams the grid accepts is answered by C95."
  },
  {
   "property": "C91",
   "status": "partial",
   "theorems": [
    "C91_ready_for_layout",
    "C91_layout_order",
    "C91_table_saved",
    "C91_jump_from_branch_fails",
    "C91_layout_order_refuted"
   ],
   "note": "C91_ready_for_layout, C91_layout_order and C91_table_saved are the positive part. C91_layout_order_refuted: back to the start, the layouter runs forever; C91_jump_from_branch_fails: straight back from the first row of a branch, it always raises."
  },
  {
   "property": "C92",
   "status": "proved",
   "theorems": [
    "C92_same_picture",
    "C92_again",
    "C92_call_order",
    "C92_node_order_refuted"
   ],
   "note": "Outcome, positions and waypoints; C92_again is exact equality of the diagrams. C92_node_order_refuted shows that the order within a type matters, which is why the statement asks for it."
  },
  {
   "property": "C93",
   "status": "proved",
   "theorems": [
    "C93_document_order",
    "C93_saved_order",
    "C93_saved_picture",
    "C93_picture_kept",
    "C93_saved_api",
    "C93_two_processes_refuted"
   ],
   "note": "C93_document_order for every document; the statements about saving ask for one process without nested nodes and no message flows, and C93_two_processes_refuted shows why."
  },
  {
   "property": "C94",
   "status": "proved",
   "theorems": [
    "C94_branch_order",
    "C94_structure",
    "C94_second_export",
    "C94_stable",
    "C94_decisions_lost",
    "C94_file_kept_refuted"
   ],
   "note": "The order of branches holds for every documented table without jumps; the statements about the second and third file are for flat processes as in C82."
  },
  {
   "property": "C95",
   "status": "partial",
   "theorems": [
    "C95_outcome",
    "C95_sequences",
    "C95_equal_depth_fails",
    "C95_side_by_side_refuted"
   ],
   "note": "C95_outcome decides every diagram in its class, C95_sequences and C95_equal_depth_fails are consequences. Joins directly after splits (empty branches) are covered by C96. That diagrams laid out alone can be laid out together is false (C95_side_by_side_refuted)."
  },
  {
   "property": "C96",
   "status": "proved",
   "theorems": [
    "C96_outcome",
    "C96_acyclic",
    "C96_skipping_branch"
   ],
   "note": "C96_outcome is an equivalence for every diagram whose loops contain a join (the others never terminate, C27). C96_acyclic replaces the existence of the sequence by a condition on the flows alone for diagrams without loops. C96_skipping_branch generalises the counterexample C31_all_flows_refuted to all diagrams with such a branch."
  },
  {
   "property": "C97",
   "status": "proved",
   "theorems": [
    "C97_picture",
    "C97_api",
    "C97_drift",
    "C97_off_canvas",
    "C97_on_canvas"
   ],
   "note": "C97_picture contains C85_picture (blocks without direct flows) as a special case. A direct flow beside a branch of two or more activities is excluded here and treated by C96_skipping_branch."
  },
  {
   "property": "C98",
   "status": "proved",
   "theorems": [
    "C98_metrics",
    "C98_api",
    "C98_free_of_crossings"
   ],
   "note": "The expected reading of the metric, no crossings for a process drawn without any, is false of the code for every process with a block: C98_free_of_crossings. Blocks with a direct flow are not covered."
  },
  {
   "property": "C99",
   "status": "proved",
   "theorems": [
    "C99_longest_path",
    "C99_most_activities",
    "C99_counts",
    "C99_network_complexity",
    "C99_gateway_degree"
   ],
   "note": "The recursion limit of Python is fuel."
  },
  {
   "property": "C100",
   "status": "proved",
   "theorems": [
    "C100_orientation",
    "C100_symmetry",
    "C100_determinant",
    "C100_no_number"
   ],
   "note": "Floats are exact rationals."
  },
  {
   "property": "C101",
   "status": "proved",
   "theorems": [
    "C101_same_file",
    "C101_layout",
    "C101_saved",
    "C101_api",
    "C101_laid_out_and_saved",
    "C101_condition_refuted",
    "C101_two_definitions_refuted"
   ],
   "note": "C101_saved needs no messages, types that the exporter knows, at most one definition per event and names equal to conditions; API diagrams satisfy this. The two _refuted theorems show that the last two conditions are needed."
  },
  {
   "property": "C102",
   "status": "partial",
   "theorems": [
    "C102_same_file",
    "C102_settled",
    "C102_api",
    "C102_api_laid_out",
    "C102_table",
    "C102_goto_table",
    "C102_two_definitions_refuted",
    "C102_divided_lanes_refuted",
    "C102_two_processes_refuted",
    "C102_subprocess_refuted",
    "C102_messages_refuted"
   ],
   "note": "Proved for diagrams with one process, no subprocess contents, no message flows, undivided lanes and at most one definition per event (simple). Refuted for everything outside: two definitions, divided lanes, two processes, contents of subprocesses (C102_subprocess_refuted) and message flows (C102_messages_refuted). For the last three C103 proves that only the order changes."
  },
  {
   "property": "C103",
   "status": "partial",
   "theorems": [
    "C103_second_file",
    "C103_third_file",
    "C103_settled",
    "C103_scopes",
    "C103_api",
    "C103_api_laid_out",
    "C103_crossing_flow_refuted",
    "C103_empty_pool_refuted"
   ],
   "note": "Proved for diagrams, also with message flows, whose sequence flows stay inside their process or subprocess and whose pools all have a process (tidy). Refuted when a flow leaves its process (C103_crossing_flow_refuted) and for pools without a process (C103_empty_pool_refuted); divided lanes and events with several definitions are excluded too (refuted in C102)."
  },
  {
   "property": "C104",
   "status": "partial",
   "theorems": [
    "C104_counts",
    "C104_flow_records",
    "C104_complexity",
    "C104_gateway_degree",
    "C104_complexity_refuted"
   ],
   "note": "Proved for every documented table with neat goto rows; the coefficient and the degree also need one_way. Refuted without (C104_complexity_refuted): of two flows back and forth only one is an edge."
  },
  {
   "property": "C105",
   "status": "partial",
   "theorems": [
    "C105_loaded_numbers",
    "C105_numbers_kept",
    "C105_gateway_kinds_refuted"
   ],
   "note": "Proved for flat blocks (C82 is false for nested and adjacent blocks). Refuted for the number of kinds of gateways (C105_gateway_kinds_refuted)."
  },
  {
   "property": "C106",
   "status": "proved",
   "theorems": [
    "C106_loaded_picture",
    "C106_same_picture_numbers"
   ],
   "note": "For structures without nested or adjacent blocks, whose branches all meet again (the domain of C82 and C98)."
  },
  {
   "property": "C107",
   "status": "proved",
   "theorems": [
    "C107_segments",
    "C107_bounds",
    "C107_sequences",
    "C107_wide_split",
    "C107_from_below",
    "C107_api"
   ],
   "note": "The numbers are read back exactly (reads_integers); segments and the lower bound hold for every diagram for which generate_layout returns."
  },
  {
   "property": "C108",
   "status": "partial",
   "theorems": [
    "C108_without_loops",
    "C108_written",
    "C108_file_or_endless",
    "C108_loop_never_written",
    "C108_endless",
    "C108_cut",
    "C108_api",
    "C108_every_diagram_refuted",
    "C108_every_activity_refuted"
   ],
   "note": "Proved for all diagrams without loops (C108_without_loops, C108_written, C108_api); with loops C108_file_or_endless leaves an endless recursion, C108_endless shows loops for which it happens (C108_every_diagram_refuted) and C108_cut those whose activities are lost (C108_every_activity_refuted)."
  },
  {
   "property": "C109",
   "status": "proved",
   "theorems": [
    "C109_lines",
    "C109_first",
    "C109_api",
    "C109_every_activity_refuted"
   ],
   "note": "Soundness of the file for all diagrams that are exported, with and without loops; the converse is refuted in C109_every_activity_refuted (and proved for structured processes in C81)."
  },
  {
   "property": "C110",
   "status": "proved",
   "theorems": [
    "C110_round_trip",
    "C110_conditions",
    "C110_gateway_gone",
    "C110_condition_refuted"
   ],
   "note": "Nodes, flows, names, kinds and conditions after the round trip are stated exactly; that the meeting gateway disappears (C110_gateway_gone) and that the condition of a direct flow is lost (C110_conditions, C110_condition_refuted) are part of the claim. Restrictions on nesting, neighbouring blocks and length are those of C82, where they are shown to be needed."
  },
  {
   "property": "C111",
   "status": "proved",
   "theorems": [
    "C111_csv",
    "C111_off_canvas"
   ],
   "note": "Optional steps have one activity, as in C97, and are followed by an activity; a step at the very end is not covered because two flows then enter the end event."
  },
  {
   "property": "C112",
   "status": "proved",
   "theorems": [
    "C112_loaded_numbers",
    "C112_numbers_compared"
   ],
   "note": "The gateways counted by `lost` do not come back (C110_gateway_gone); the number of gateway kinds is not covered (C105_gateway_kinds_refuted)."
  },
  {
   "property": "C113",
   "status": "partial",
   "theorems": [
    "C113_lines",
    "C113_covers",
    "C113_shared_end",
    "C113_one_end_event_refuted",
    "C113_readable_again_refuted",
    "C113_gateway_told_refuted"
   ],
   "note": "C113_lines and C113_covers hold for all such processes, C113_shared_end gives the exact lines for shared end events. False of the code: the file does not tell whether there was a gateway (C113_gateway_told_refuted), a shared end event has a line for each branch with activities and comes back as several events (C113_one_end_event_refuted), and with a branch straight to the shared end event the file has a jump to a missing line and cannot be loaded (C113_readable_again_refuted)."
  },
  {
   "property": "C114",
   "status": "partial",
   "theorems": [
    "C114_branch_order",
    "C114_structure",
    "C114_second_export",
    "C114_lines_kept",
    "C114_letters_kept_refuted"
   ],
   "note": "C114_branch_order gives the exact order of the outgoing flows for all documented tables with jumps: the branches with an element in the order of their rows, then the goals of the jumps. C114_structure and C114_second_export give the exact second file for all such processes, and C114_lines_kept the claim when every direct flow is the last branch. In general the claim is false of the code: a direct flow that is not last moves to the end of its block and the letters of the other branches change (C114_letters_kept_refuted)."
  },
  {
   "property": "C115",
   "status": "partial",
   "theorems": [
    "C115_stable",
    "C115_later_shape",
    "C115_numbers_kept_refuted"
   ],
   "note": "C115_stable: all trips succeed and give one and the same second file, for all such processes and any number of trips. C115_later_shape: the nodes and flows of all diagrams loaded from the second file on. The first and the second loaded diagram may differ in their numbers: false of the code if a direct flow is not the last branch (C115_numbers_kept_refuted)."
  },
  {
   "property": "C116",
   "status": "partial",
   "theorems": [
    "C116_split_type",
    "C116_gateways",
    "C116_parallel_kept",
    "C116_exclusive_kept",
    "C116_decisions_lost",
    "C116_default_kept_refuted"
   ],
   "note": "C116_split_type holds for all documented tables with jumps, C116_gateways for all processes with optional steps; C116_parallel_kept and C116_exclusive_kept give the kept kinds. False of the code: a decision whose default is the direct flow comes back as an inclusive gateway (C116_default_kept_refuted), and from the second file on every gateway is parallel (C116_decisions_lost)."
  },
  {
   "property": "C117",
   "status": "proved",
   "theorems": [
    "C117_meeting",
    "C117_numbers",
    "C117_one_kind"
   ],
   "note": "C117_numbers: the numbers of every diagram in the series are those of the first loaded one (C112 compares that one with the original). C117_meeting: a meeting point is there exactly if two branches with activities meet, and is of the kind of the gateway that opens the block. C117_one_kind: from the second file on all gateways are parallel, the gateway heterogeneity is 1 (0 without blocks)."
  },
  {
   "property": "C118",
   "status": "proved",
   "theorems": [
    "C118_jumps",
    "C118_unknown_goal",
    "C118_circle",
    "C118_left",
    "C118_chains_followed_refuted"
   ],
   "note": "C118_jumps, C118_unknown_goal, C118_circle and C118_left need no shape of the jumps, unlike C86. C118_chains_followed_refuted: that a jump to a later goto row is followed to its end is false when the later row is also reached on its own: the first flow ends at the removed row, and the row behind it has no way in."
  },
  {
   "property": "C119",
   "status": "proved",
   "theorems": [
    "C119_picture",
    "C119_places"
   ],
   "note": "C119_picture: the picture of every later diagram, also after XML. C119_places: equal cells for all nodes outside the branches and for the activities of optional steps. The branches of a block in which every branch has activities may be drawn in any order (C97), so nothing is claimed for them."
  },
  {
   "property": "C120",
   "status": "proved",
   "theorems": [
    "C120_flows_consistent",
    "C120_ways",
    "C120_two_entries_refuted"
   ],
   "note": "C120_flows_consistent and C120_ways go beyond C86, which excludes jumps to goto rows and to gateways and two jumps from one place to the same goal. C120_two_entries_refuted: with two ways into a goto row a node can list a flow that is gone, see also C50_every_table_refuted and C118_chains_followed_refuted."
  },
  {
   "property": "C121",
   "status": "proved",
   "theorems": [
    "C121_no_loops",
    "C121_loops_pass_jumps",
    "C121_jump_back_refuted"
   ],
   "note": "Extends C84_no_loops to tables with jumps and chains of jumps. C121_loops_pass_jumps: every loop passes the end of a jump that does not lead forward. C121_jump_back_refuted: a jump back makes a loop; C84_no_loops_refuted: so can nested blocks with no row after them."
  },
  {
   "property": "C122",
   "status": "proved",
   "theorems": [
    "C122_ready_for_layout",
    "C122_coherent_exactly",
    "C122_layout_order",
    "C122_every_chain_refuted"
   ],
   "note": "Extends C91_ready_for_layout to chains of jumps and jumps to gateways. C122_every_chain_refuted: two branches that jump to the same row make the gateway list a flow twice, and the layout fails."
  },
  {
   "property": "C123",
   "status": "proved",
   "theorems": [
    "C123_conditions",
    "C123_table_saved",
    "C123_both_directions_refuted"
   ],
   "note": "Extends C91_table_saved to chains of jumps and jumps to gateways. C123_both_directions_refuted: where a branch jumps back to the row before the branching, the two flows share an edge, and the flow to the gateway has the condition of the row."
  }
 ]
}