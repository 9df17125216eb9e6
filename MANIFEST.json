{
 "claims": [
  {
   "property": "C01",
   "status": "proved",
   "theorems": [
    "C01_constructors",
    "C01_meaning_exists"
   ],
   "note": "All 17 creation calls, for every call history; operands must be signals of the network."
  },
  {
   "property": "C02",
   "status": "proved",
   "theorems": [
    "C02_hashing_canonical",
    "C02_no_duplicate_gates",
    "C02_num_gates"
   ],
   "note": ""
  },
  {
   "property": "C03",
   "status": "proved",
   "theorems": [
    "C03_creation_frame"
   ],
   "note": ""
  },
  {
   "property": "C04",
   "status": "proved",
   "theorems": [
    "C04_trivial_and",
    "C04_find_and_exact"
   ],
   "note": ""
  },
  {
   "property": "C05",
   "status": "proved",
   "theorems": [
    "C05_find_exact",
    "C05_operations_succeed",
    "C05_count"
   ],
   "note": "Table operations over any history; keys in the table pairwise distinct (as in the network)."
  },
  {
   "property": "C06",
   "status": "proved",
   "theorems": [
    "C06_fanout_exact",
    "C06_never_dead"
   ],
   "note": ""
  },
  {
   "property": "C07",
   "status": "proved",
   "theorems": [
    "C07_phase_exact",
    "C07_phase_defined"
   ],
   "note": ""
  },
  {
   "property": "C08",
   "status": "proved",
   "theorems": [
    "C08_topological"
   ],
   "note": ""
  },
  {
   "property": "C09",
   "status": "proved",
   "theorems": [
    "C09_io_lists",
    "C09_ci_index_inverse",
    "C09_pi_numbering",
    "C09_po_numbering",
    "C09_pi_after_ro_refuted",
    "C09_constant_is_pi_refuted"
   ],
   "note": "Numbering holds when PIs are created before ROs and POs before RIs; refuted otherwise (C09_pi_after_ro_refuted)."
  },
  {
   "property": "C10",
   "status": "proved",
   "theorems": [
    "C10_substitute_values",
    "C10_substitute_preserves",
    "C10_substitute_once",
    "C10_cycle_refuted",
    "C10_dead_output_refuted",
    "C10_dead_hit_refuted",
    "C10_dependent_refuted"
   ],
   "note": "The unconditional claim (functions preserved, result well-formed) is refuted: reachable witnesses end in a cyclic network, an output on a deleted gate, and a deleted gate in the hash table."
  },
  {
   "property": "C11",
   "status": "proved",
   "theorems": [
    "C11_counters_exact",
    "C11_table_exact",
    "C11_create_alive",
    "C11_take_out_exact",
    "C11_survivors"
   ],
   "note": "For networks made by creation calls and take_out_node. With substitute_node in the mix the table claim is false, see C10_dead_hit_refuted."
  },
  {
   "property": "C12",
   "status": "proved",
   "theorems": [
    "C12_constructors",
    "C12_meaning_exists",
    "C12_compute_tt",
    "C12_compute_bool_reversed",
    "C12_compute_overloads_refuted",
    "C12_substitute",
    "C12_clear_values_refuted"
   ],
   "note": "All creation calls for every history with fewer than 2^31 cached functions. The claim that the two compute overloads agree is refuted (C12_compute_overloads_refuted): the Boolean overload reads operands reversed, which C12_compute_bool_reversed states exactly."
  },
  {
   "property": "C13",
   "status": "proved",
   "theorems": [
    "C13_reads_back",
    "C13_canonical",
    "C13_bounded",
    "C13_tables_extensional"
   ],
   "note": "For histories with at most 2^31 distinct stored tables (32-bit literals)."
  },
  {
   "property": "C14",
   "status": "proved",
   "theorems": [
    "C14_dominates",
    "C14_merge"
   ],
   "note": "merge is stated for unions that fit the leaf array of the result; see C47 for the others."
  },
  {
   "property": "C15",
   "status": "proved",
   "theorems": [
    "C15_irredundant",
    "C15_ordered",
    "C15_only_offered",
    "C15_dominated_not_added",
    "C15_complete",
    "C15_calls_defined",
    "C15_raw_insert_refuted"
   ],
   "note": "Holds for sets built as the enumeration builds them (is_dominated before insert). insert on its own does not check, which C15_raw_insert_refuted shows."
  },
  {
   "property": "C16",
   "status": "proved",
   "theorems": [
    "C16_cuts_sound",
    "C16_leaves",
    "C16_cut_count",
    "C16_defined",
    "C16_minimized_paths_refuted",
    "C16_minimized_defined_refuted",
    "C16_gates_have_cuts"
   ],
   "note": "Combinational networks. With minimize_truth_table the path claim and totality are false (refuted by witnesses); the function claim holds in both modes."
  },
  {
   "property": "C17",
   "status": "proved",
   "theorems": [
    "C17_limit",
    "C17_limit_refuted"
   ],
   "note": "The property as stated is false: limit(k) keeps k-1 cuts when it truncates, and limit(0) of a non-empty set is undefined. C17_limit gives the exact behaviour."
  },
  {
   "property": "C18",
   "status": "proved",
   "theorems": [
    "C18_mapping_view",
    "C18_unmapped_fanin_refuted",
    "C18_clear_keeps_functions"
   ],
   "note": "Refinement of the packed vector to a finite map, by induction over the operations; sizes bounded only by the 32-bit words of the code."
  },
  {
   "property": "C19",
   "status": "proved",
   "theorems": [
    "C19_network_to_klut",
    "C19_choice_to_klut",
    "C19_unmapped",
    "C19_sequential_refuted",
    "C19_choice_order_refuted"
   ],
   "note": "Both node orders; the statement for registers and for unordered choice networks is false and refuted."
  },
  {
   "property": "C20",
   "status": "proved",
   "theorems": [
    "C20_cleanup_preserves",
    "C20_cleanup_flags",
    "C20_no_dangling",
    "C20_api_networks",
    "C20_sequential_refuted",
    "C20_trivial_and_dangles_refuted"
   ],
   "note": "Both flags covered. Refuted as originally stated for sequential networks (register outputs become constant 0) and for networks with in-place rewired trivial ANDs (a copied cone can dangle); the property statement is worded accordingly."
  },
  {
   "property": "C21",
   "status": "proved",
   "theorems": [
    "C21_topo_view"
   ],
   "note": "Holds for arbitrary stale visited marks."
  },
  {
   "property": "C22",
   "status": "proved",
   "theorems": [
    "C22_levels",
    "C22_incremental",
    "C22_create_po_complement_refuted",
    "C22_dangling_level_refuted",
    "C22_register_level_refuted"
   ],
   "note": "Any node cost and both settings of count_complements. Refutations: nodes below no primary output get level 0; register outputs get level 1; create_po through the view ignores the output complement."
  },
  {
   "property": "C23",
   "status": "proved",
   "theorems": [
    "C23_balance_preserves",
    "C23_balance_reachable",
    "C23_sequential_refuted",
    "C23_constant_gate_refuted"
   ],
   "note": "every acyclic combinational network, every order std::sort may choose; registers and gates over constants in input-free networks fail an assertion"
  },
  {
   "property": "C24",
   "status": "proved",
   "theorems": [
    "C24_unify",
    "C24_supergate",
    "C24_push_unique"
   ],
   "note": "all literal lists; the supergate of every gate of every acyclic combinational network"
  },
  {
   "property": "C25",
   "status": "proved",
   "theorems": [
    "C25_division_exact",
    "C25_remainder_ordered",
    "C25_quotient_complete",
    "C25_cube_division",
    "C25_literal_division",
    "C25_cube_free",
    "C25_repeated_divisor_refuted",
    "C25_marked_dividend_refuted"
   ],
   "note": ""
  },
  {
   "property": "C26",
   "status": "proved",
   "theorems": [
    "C26_factoring_computes",
    "C26_sop_factoring",
    "C26_containment_refuted"
   ],
   "note": "Costs and counters are unbounded numbers in the model (uint32_t in the code)."
  },
  {
   "property": "C27",
   "status": "proved",
   "theorems": [
    "C27_isop",
    "C27_characteristic"
   ],
   "note": "Exact, irredundant and prime cover for every table; the clauses of cnf_characteristic describe the function."
  },
  {
   "property": "C28",
   "status": "proved",
   "theorems": [
    "C28_miter"
   ],
   "note": ""
  },
  {
   "property": "C29",
   "status": "proved",
   "theorems": [
    "C29_gates",
    "C29_function",
    "C29_default",
    "C29_lut_default",
    "C29_any_literals",
    "C29_sequential_refuted"
   ],
   "note": "AIG and LUT networks, every literal map. For networks with registers the encoding loses assignments (refuted)."
  },
  {
   "property": "C30",
   "status": "proved",
   "theorems": [
    "C30_verdict",
    "C30_outputs",
    "C30_completes",
    "C30_miter",
    "C30_gateless_refuted"
   ],
   "note": "For any correct solver. On a gateless network with inputs whose output is not constant 0 the checker trips a solver assertion (exact characterisation and refutation)."
  },
  {
   "property": "C31",
   "status": "proved",
   "theorems": [
    "C31_delta_code",
    "C31_delta_unsigned"
   ],
   "note": ""
  },
  {
   "property": "C32",
   "status": "proved",
   "theorems": [
    "C32_round_trip",
    "C32_same_network",
    "C32_reachable_clean",
    "C32_cleanup_clean",
    "C32_late_input_refuted",
    "C32_dead_node_refuted"
   ],
   "note": "Original statement is false for networks with late inputs or dead nodes (refuted with witnesses); proved for the clean networks defined in Aiger.v."
  },
  {
   "property": "C33",
   "status": "proved",
   "theorems": [
    "C33_lut",
    "C33_lut_default",
    "C33_verilog",
    "C33_verilog_default",
    "C33_constant_fanin_refuted",
    "C33_no_inputs_refuted",
    "C33_clash_refuted",
    "C33_names_refuted",
    "C33_registers_refuted"
   ],
   "note": "The statement without the hypotheses on inputs, names, constants and registers is refuted by witnesses."
  },
  {
   "property": "C34",
   "status": "proved",
   "theorems": [
    "C34_replacement",
    "C34_unused",
    "C34_recorded",
    "C34_phase",
    "C34_collision_refuted",
    "C34_dependent_refuted",
    "C34_pair_refuted",
    "C34_incomplete_refuted"
   ],
   "note": ""
  },
  {
   "property": "C35",
   "status": "proved",
   "theorems": [
    "C35_cut_deref_ref",
    "C35_cut_ref_deref",
    "C35_sizes",
    "C35_cone_size",
    "C35_cone_unique",
    "C35_evaluation",
    "C35_contained_refuted"
   ],
   "note": ""
  },
  {
   "property": "C36",
   "status": "proved",
   "theorems": [
    "C36_configuration",
    "C36_canonical",
    "C36_least",
    "C36_decodes",
    "C36_database",
    "C36_structures",
    "C36_all"
   ],
   "note": "That the database of the source contains all 222 classes is not stated (when a class is missing nothing is handed to the callback). Canonization tables for 5 and 6 variables are not modelled."
  },
  {
   "property": "C37",
   "status": "proved",
   "theorems": [
    "C37_mux_defined",
    "C37_mux_sound"
   ],
   "note": ""
  },
  {
   "property": "C38",
   "status": "proved",
   "theorems": [
    "C38_acyclic",
    "C38_representative",
    "C38_set_choice_exact",
    "C38_one_class",
    "C38_two_classes_refuted",
    "C38_input_cycle_refuted"
   ],
   "note": "Traversal number unbounded. As stated originally (at most one class; all links) the property is false: see the two refutations."
  },
  {
   "property": "C39",
   "status": "proved",
   "theorems": [
    "C39_clauses_satisfied",
    "C39_clauses_exact",
    "C39_unsat_sound",
    "C39_sat_counterexample",
    "C39_defined",
    "C39_unknown_variable_refuted"
   ],
   "note": "The solver is an oracle whose SAT and UNSAT answers are correct (timeouts allowed at any time)."
  },
  {
   "property": "C40",
   "status": "proved",
   "theorems": [
    "C40_sweep",
    "C40_sweep_defined",
    "C40_derive",
    "C40_sound",
    "C40_defined",
    "C40_built",
    "C40_miter",
    "C40_assertion_refuted"
   ],
   "note": "Candidate classes (simulation and resimulation) are an arbitrary oracle."
  },
  {
   "property": "C41",
   "status": "proved",
   "theorems": [
    "C41_merge",
    "C41_single",
    "C41_late_input_refuted",
    "C41_reuse_refuted",
    "C41_many_refuted",
    "C41_no_inputs_refuted"
   ],
   "note": "The std::maps are functions, the erasing loop over the outputs is read as keeping every n-th output; uint8_t overflow appears as None."
  },
  {
   "property": "C42",
   "status": "proved",
   "theorems": [
    "C42_created_in_order",
    "C42_bool",
    "C42_word",
    "C42_static_tt",
    "C42_dynamic_tt",
    "C42_tt_agrees",
    "C42_klut_tt",
    "C42_klut_bool_reversed",
    "C42_klut_bool_refuted",
    "C42_patterns",
    "C42_patterns_node",
    "C42_patterns_all",
    "C42_patterns_total",
    "C42_add_pattern_total",
    "C42_add_pattern_refuted",
    "C42_dynamic_registers_refuted",
    "C42_order_refuted",
    "C42_stale_refuted"
   ],
   "note": "The original claim fails for networks out of order, for dynamic tables with registers and for Boolean simulation of LUT networks (refuted with witnesses); the statement was corrected."
  },
  {
   "property": "C43",
   "status": "proved",
   "theorems": [
    "C43_tree_reduce",
    "C43_ternary_tree_reduce"
   ],
   "note": "tree_reduce and ternary_tree_reduce, any length."
  },
  {
   "property": "C44",
   "status": "proved",
   "theorems": [
    "C44_store",
    "C44_add",
    "C44_snapshot",
    "C44_shared",
    "C44_choice",
    "C44_full",
    "C44_full_refuted",
    "C44_edited_refuted",
    "C44_clear_refuted",
    "C44_read_refuted",
    "C44_sticky_refuted"
   ],
   "note": "the optimization commands are arbitrary functions of the current network"
  },
  {
   "property": "C45",
   "status": "proved",
   "theorems": [
    "C45_depths",
    "C45_cut",
    "C45_table",
    "C45_all",
    "C45_dangling_refuted",
    "C45_small_limit_refuted"
   ],
   "note": "the loop over all gates and the replacement of the cone are not part of this property"
  },
  {
   "property": "C46",
   "status": "proved",
   "theorems": [
    "C46_convert_klut",
    "C46_convert_mapped",
    "C46_roundtrip"
   ],
   "note": "Gates of at most 32 fanins, the width of the code's cubes."
  },
  {
   "property": "C47",
   "status": "proved",
   "theorems": [
    "C47_in_bounds",
    "C47_in_bounds_refuted",
    "C47_enumeration_refuted"
   ],
   "note": "False as stated; a reachable 19-node network overflows the 7-leaf array with cut size 6. C47_in_bounds gives the safe condition."
  },
  {
   "property": "C48",
   "status": "proved",
   "theorems": [
    "C48_decode_refuted",
    "C48_decode_returns",
    "C48_long_code_undefined"
   ],
   "note": "Termination on truncated streams is refuted; the exact set of streams on which the decoder returns is proved."
  },
  {
   "property": "C49",
   "status": "proved",
   "theorems": [
    "C49_port_names",
    "C49_unnamed_output_refuted",
    "C49_extra_name_refuted"
   ],
   "note": ""
  },
  {
   "property": "C50",
   "status": "proved",
   "theorems": [
    "C50_prime",
    "C50_classes",
    "C50_sweep",
    "C50_sound",
    "C50_fixed",
    "C50_assertion_refuted"
   ],
   "note": "C50_assertion_refuted: a run in which four equal nodes are split into two classes and the derivation aborts; C50_fixed: with the second recursive call made for child1 it cannot."
  },
  {
   "property": "C51",
   "status": "proved",
   "theorems": [
    "C51_cover",
    "C51_equivalent",
    "C51_with_choices",
    "C51_iterations_ignored",
    "C51_trivial_cut_refuted",
    "C51_priority_refuted",
    "C51_unmapped_refuted"
   ],
   "note": "C51_trivial_cut_refuted: x&y with the choice x&!(x&!y) gets the cell {itself}, the assertion in derive_final_mapping fails (release builds would go on with it). C51_priority_refuted: priority size 20 on an 8-input tree. C51_unmapped_refuted: gates but no gate output."
  },
  {
   "property": "C52",
   "status": "proved",
   "theorems": [
    "C52_selection",
    "C52_counts",
    "C52_gain",
    "C52_rewrite",
    "C52_overflow_refuted",
    "C52_function_refuted",
    "C52_depth_refuted"
   ],
   "note": "C52_counts and C52_gain for less than 2^30 nodes. C52_function_refuted and C52_depth_refuted use a valid one-structure database (evaluation with the shipped database gives the same wrong output, but takes too long for the proof checker)."
  },
  {
   "property": "C53",
   "status": "proved",
   "theorems": [
    "C53_reverse_depths",
    "C53_fanouts",
    "C53_loop",
    "C53_refactor",
    "C53_dangling_refuted"
   ],
   "note": "C53_loop and C53_refactor are about runs that return: undefined behaviour and endless loops are not excluded (C53_dangling_refuted is a case)."
  },
  {
   "property": "C54",
   "status": "proved",
   "theorems": [
    "C54_rebalance",
    "C54_balancing",
    "C54_usable",
    "C54_sop_balancing",
    "C54_default_refuted",
    "C54_limit_refuted",
    "C54_minimize_refuted",
    "C54_constant_refuted"
   ],
   "note": "C54_balancing holds for completed runs (T = True) or, with a rebalancing function that never fails (T = False), states that the run completes."
  },
  {
   "property": "C55",
   "status": "proved",
   "theorems": [
    "C55_rewriting",
    "C55_mapped",
    "C55_flow",
    "C55_check",
    "C55_verified",
    "C55_check_refuted"
   ],
   "note": "Runs that return; the merged network has no removed gates and the mapped network fits the index range."
  },
  {
   "property": "C56",
   "status": "proved",
   "theorems": [
    "C56_cell",
    "C56_run",
    "C56_collapse",
    "C56_no_alarm",
    "C56_accepts",
    "C56_output_refuted",
    "C56_timeout_refuted"
   ],
   "note": "Runs that return. The functions stored for the cells have as many inputs as the cells have leaves."
  },
  {
   "property": "C57",
   "status": "proved",
   "theorems": [
    "C57_compare",
    "C57_converted",
    "C57_check",
    "C57_right",
    "C57_collapsed",
    "C57_verdict",
    "C57_agrees",
    "C57_converse_refuted"
   ],
   "note": "Checks that return; the miter fits the index range."
  }
 ]
}
