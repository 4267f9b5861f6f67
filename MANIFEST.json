{
 "claims": [
  {
   "property": "C01",
   "status": "proved",
   "theorems": [
    "C01_array_revert_exact",
    "C01_scalar_revert_exact"
   ],
   "note": "All mutators of ArrayNodeStateData, arbitrary interleavings."
  },
  {
   "property": "C02",
   "status": "proved",
   "theorems": [
    "C02_array_history_refines",
    "C02_array_history_total",
    "C02_array_change_flags",
    "C02_scalar_history_refines"
   ],
   "note": "Replay rules transcribed independently from ArrayValidationNode."
  },
  {
   "property": "C03",
   "status": "proved",
   "theorems": [
    "C03_dedup_net_effect",
    "C03_dedup_defined",
    "C03_dedup_drops_noops_refuted",
    "C03_dedup_defined_refuted",
    "C03_dedup_replayable_refuted"
   ],
   "note": "The net-effect part is proved for every replayable list; that no-ops are always dropped, that the function is always defined (diff[-1]) and that its result is replayable are refuted with witnesses."
  },
  {
   "property": "C04",
   "status": "proved",
   "theorems": [
    "C04_number_domain",
    "C04_number_change_flag"
   ],
   "note": "Refinement of IntegerNode/BinaryNode histories to a plain integer array."
  },
  {
   "property": "C05",
   "status": "proved",
   "theorems": [
    "C05_number_init_exact",
    "C05_number_init_default"
   ],
   "note": "Exact acceptance condition, and default/random initialisation always valid."
  },
  {
   "property": "C06",
   "status": "proved",
   "theorems": [
    "C06_collection_valid",
    "C06_default_views"
   ],
   "note": "Refinement to a plain sequence with a visible prefix; includes all mutators (grow/shrink/exchange/rotate/commit/revert) and all three ways of initialising."
  },
  {
   "property": "C07",
   "status": "proved",
   "theorems": [
    "C07_collection_revert"
   ],
   "note": "Revert, commit, replay and size_diff after any legal history."
  },
  {
   "property": "C08",
   "status": "proved",
   "theorems": [
    "C08_collection_init_exact"
   ],
   "note": "Acceptance is exact."
  },
  {
   "property": "C09",
   "status": "proved",
   "theorems": [
    "C09_bitsets_partition",
    "C09_bitsets_init_accepts",
    "C09_bitsets_init_refuted"
   ],
   "note": "Refinement of the flat bit matrix to one owner per item. That acceptance of explicit contents implies a partition is false of the code (only the total is checked) and refuted."
  },
  {
   "property": "C10",
   "status": "proved",
   "theorems": [
    "C10_lists_partition"
   ],
   "note": "All list moves incl. pop_to_list within one list; set_state is unchecked by design and only covered by the refinement part."
  },
  {
   "property": "C11",
   "status": "proved",
   "theorems": [
    "C11_bitsets_revert",
    "C11_lists_revert"
   ],
   "note": ""
  },
  {
   "property": "C12",
   "status": "proved",
   "theorems": [
    "C12_lists_init_exact"
   ],
   "note": "Acceptance is exact."
  },
  {
   "property": "C13",
   "status": "proved",
   "theorems": [
    "C13_sort_topological",
    "C13_creation_order",
    "C13_add_node_cycle_refuted"
   ],
   "note": "Deep recursion (stack overflow) of visit is not modelled."
  },
  {
   "property": "C14",
   "status": "proved",
   "theorems": [
    "C14_locked_refuses",
    "C14_sort_reset_sort",
    "C14_indices",
    "C14_locked_add_node_refuted"
   ],
   "note": "add_node on a sorted graph has only a debug assertion in add_predecessor; modelled as in release builds."
  },
  {
   "property": "C15",
   "status": "proved",
   "theorems": [
    "C15_descendants_exact",
    "C15_descendants",
    "C15_descendants_duplicate_refuted"
   ],
   "note": ""
  },
  {
   "property": "C16",
   "status": "proved",
   "theorems": [
    "C16_remove_unused_exact"
   ],
   "note": ""
  },
  {
   "property": "C17",
   "status": "proved",
   "theorems": [
    "C17_propose",
    "C17_every_history",
    "C17_initialise",
    "C17_one_evaluation",
    "C17_as_from_scratch",
    "C17_classes",
    "C17_permutation",
    "C17_number",
    "C17_collection"
   ],
   "note": "Composes the per-class contracts of the other properties (node_ok, vnode_ok, permutations with guarantees of the decisions) over every graph the Graph model can build. Disjoint lists and bit-sets meet the same contracts in C65. Not covered: acceptance functions that modify the state."
  },
  {
   "property": "C18",
   "status": "proved",
   "theorems": [
    "C18_lazy_init"
   ],
   "note": "A node's initialize_state is abstract: any function of the states of its predecessors."
  },
  {
   "property": "C19",
   "status": "proved",
   "theorems": [
    "C19_reset_exact"
   ],
   "note": ""
  },
  {
   "property": "C20",
   "status": "proved",
   "theorems": [
    "C20_slice_python",
    "C20_slice_checks",
    "C20_unfitted_size",
    "C20_fit_idempotent",
    "C20_size_overflow_refuted",
    "C20_fit_idempotent_refuted"
   ],
   "note": "64-bit overflow is modelled; step > SSIZE_MIN is required because size() negates the step"
  },
  {
   "property": "C21",
   "status": "proved",
   "theorems": [
    "C21_broadcast_numpy",
    "C21_incompatible_throws",
    "C21_commutative",
    "C21_idempotent",
    "C21_associative"
   ],
   "note": "shapes are arbitrary lists of integers, including the dynamic marker -1"
  },
  {
   "property": "C22",
   "status": "proved",
   "theorems": [
    "C22_ravel_unravel",
    "C22_unravel_ravel",
    "C22_size",
    "C22_size_int_refuted",
    "C22_negative_stride_refuted"
   ],
   "note": "unsigned and 64-bit arithmetic modelled; hypothesis: the array's byte size fits ssize_t"
  },
  {
   "property": "C23",
   "status": "proved",
   "theorems": [
    "C23_contiguous_sound",
    "C23_contiguous_exact",
    "C23_contiguous_dynamic",
    "C23_default_strides",
    "C23_empty_refuted"
   ],
   "note": "overflow of the running product not modelled"
  },
  {
   "property": "C24",
   "status": "proved",
   "theorems": [
    "C24_forward",
    "C24_jumps",
    "C24_element",
    "C24_distance",
    "C24_distance_mutates_refuted"
   ],
   "note": "inner dimensions positive, strides multiples of 8; masked iterators are not modelled"
  },
  {
   "property": "C25",
   "status": "proved",
   "theorems": [
    "C25_binary_node",
    "C25_numpy_broadcasting",
    "C25_state_size",
    "C25_state_shape",
    "C25_state_shape_refuted",
    "C25_clash_refuted",
    "C25_shape_malformed_refuted"
   ],
   "note": "The operation is an arbitrary total function on non-NaN numbers. The contract node_ok (NodeSpec.v) covers initialise, propagate, commit and revert; the exceptional cases are excluded by bin_fun (clash) and wf_shape and refuted separately."
  },
  {
   "property": "C26",
   "status": "proved",
   "theorems": [
    "C26_unary_node"
   ],
   "note": "Any total function on non-NaN numbers; fixed and state-dependent sizes."
  },
  {
   "property": "C27",
   "status": "proved",
   "theorems": [
    "C27_nary_node",
    "C27_nary_value",
    "C27_nary_accepts",
    "C27_nary_total"
   ],
   "note": "Exact arithmetic; repeated operands allowed (each occurrence is an operand with its own update list)."
  },
  {
   "property": "C28",
   "status": "proved",
   "theorems": [
    "C28_reduce_node",
    "C28_reduce_value",
    "C28_reduce_accepts",
    "C28_reduce_total"
   ],
   "note": "Exact arithmetic; the six instantiated operations; failing assertions count as undefined behaviour."
  },
  {
   "property": "C29",
   "status": "proved",
   "theorems": [
    "C29_accepts",
    "C29_axis_sum_node",
    "C29_axis_sum_value",
    "C29_index_map",
    "C29_contiguous_layout",
    "C29_bad_axis_refuted",
    "C29_assertion_refuted"
   ],
   "note": "Any operand layout. The refuted theorems record that an axis out of range is erased from the shape before it is checked, and that with assertions compiled in a valid axis sum over few elements aborts."
  },
  {
   "property": "C30",
   "status": "proved",
   "theorems": [
    "C30_where_node",
    "C30_where_refuses"
   ],
   "note": "Scalar condition (fixed or state-dependent branches, also of different current sizes) and array condition."
  },
  {
   "property": "C31",
   "status": "proved",
   "theorems": [
    "C31_accepts",
    "C31_initial",
    "C31_unique",
    "C31_moves",
    "C31_replay_refuted"
   ],
   "note": "propagate records *view_it (the first element of the operand) as every old value, so the diff contract and revert fail in general; the refuted theorem gives the witness, C31_moves what does hold."
  },
  {
   "property": "C32",
   "status": "proved",
   "theorems": [
    "C32_reshape_node",
    "C32_reshape_accepts",
    "C32_size_node"
   ],
   "note": "This version of the code has no inferred (-1) dimension for reshape."
  },
  {
   "property": "C33",
   "status": "proved",
   "theorems": [
    "C33_value",
    "C33_accepts"
   ],
   "note": "node_ok for every model reached by in-range building operations; exact rationals."
  },
  {
   "property": "C34",
   "status": "proved",
   "theorems": [
    "C34_reads",
    "C34_last_write",
    "C34_export"
   ],
   "note": "Reads against an independent symmetric table; export/import round trip; interaction count."
  },
  {
   "property": "C35",
   "status": "proved",
   "theorems": [
    "C35_accepts",
    "C35_shape",
    "C35_in_range",
    "C35_node",
    "C35_separated_refuted",
    "C35_rows_refuted",
    "C35_scalar_refuted",
    "C35_shrink_refuted",
    "C35_no_axes_refuted"
   ],
   "note": "C35_node is the incremental contract (initialise, propagate, commit, revert) for the supported index tuples; the refuted theorems show that the remaining ones fail. With strict = true the operations that are undefined in C++ but discarded are errors, and then index arrays and sliced rows must be of fixed size."
  },
  {
   "property": "C36",
   "status": "proved",
   "theorems": [
    "C36_selects",
    "C36_accepts",
    "C36_view_of_view",
    "C36_fixed",
    "C36_every",
    "C36_cached",
    "C36_rows",
    "C36_every_lost",
    "C36_two_axes_refuted",
    "C36_later_start_refuted",
    "C36_dynamic_start_refuted",
    "C36_dynamic_step_refuted",
    "C36_bounded_rows_refuted",
    "C36_negative_stop_refuted",
    "C36_empty_corner_refuted",
    "C36_cached_rows_refuted"
   ],
   "note": "Node contract (vnode_ok) proved for the classes of views where the code is right; witnesses where it is not. Reads outside the array and failed assertions (dbg = true) are UB."
  },
  {
   "property": "C37",
   "status": "proved",
   "theorems": [
    "C37_element",
    "C37_initial",
    "C37_moves",
    "C37_accepts",
    "C37_bounds_refuted",
    "C37_vector_refuted",
    "C37_cube_refuted",
    "C37_empty_refuted"
   ],
   "note": "Arrays under 2^31 bytes (the offset is accumulated in an int). Moves: array constant, order integral in range, no removed/placed entries (perm_moves)."
  },
  {
   "property": "C38",
   "status": "proved",
   "theorems": [
    "C38_binary",
    "C38_binary_total",
    "C38_attained",
    "C38_divide_assert_refuted",
    "C38_unary",
    "C38_unary_total",
    "C38_unary_attained",
    "C38_square_refuted",
    "C38_nary"
   ],
   "note": "Exact arithmetic; std::sqrt is any order-preserving function. Squares need a non-negative operand; C38_square_refuted gives the counterexample otherwise."
  },
  {
   "property": "C39",
   "status": "proved",
   "theorems": [
    "C39_reductions",
    "C39_sum_of_slices",
    "C39_sum_of_slices_refuted",
    "C39_empty_maximum_refuted",
    "C39_axis_sums"
   ],
   "note": "Exact arithmetic. C39_sum_of_slices composes with the declared sizes of C42; the refuted cases are the empty extremum and the wrongly declared slice size."
  },
  {
   "property": "C40",
   "status": "proved",
   "theorems": [
    "C40_floored",
    "C40_floor",
    "C40_unique",
    "C40_integers",
    "C40_zero_divisor"
   ],
   "note": "Exact arithmetic; a zero divisor gives zero as the code intends."
  },
  {
   "property": "C41",
   "status": "proved",
   "theorems": [
    "C41_new",
    "C41_mul",
    "C41_mul_int",
    "C41_div_int",
    "C41_equal",
    "C41_equal_int",
    "C41_truncate"
   ],
   "note": "64-bit overflow is undefined behaviour in the model; results exist whenever the intermediate products fit."
  },
  {
   "property": "C42",
   "status": "proved",
   "theorems": [
    "C42_exact",
    "C42_bounds",
    "C42_same_shape",
    "C42_minimum_refuted",
    "C42_maximum_refuted",
    "C42_two_sided_refuted",
    "C42_strided_refuted",
    "C42_rows_refuted",
    "C42_empty_slice_refuted"
   ],
   "note": "Positive part for the two classes of chains stated; the refuted theorems give witnesses (with realisable sizes) for what fails outside them. Arithmetic on sizes: sums unbounded, products of fractions overflow-checked."
  },
  {
   "property": "C43",
   "status": "proved",
   "theorems": [
    "C43_held",
    "C43_locked_refuses",
    "C43_unlocked_accepts",
    "C43_unlock",
    "C43_coherent",
    "C43_read",
    "C43_set",
    "C43_iadd_refuted",
    "C43_foreign_states_refuted"
   ],
   "note": "Python layer (_model.pyx, model.py, states.pyx) over the Graph model of C13-C19. Node state initialisation is a parameter; futures and reference counting not modelled."
  },
  {
   "property": "C44",
   "status": "proved",
   "theorems": [
    "C44_header",
    "C44_adjacency",
    "C44_roundtrip",
    "C44_again",
    "C44_into_file",
    "C44_ids_refuted",
    "C44_negative_states"
   ],
   "note": "The contents of each symbol's directory (constructor arguments) are abstract: a class and its predecessors. only_decision is covered too."
  },
  {
   "property": "C45",
   "status": "proved",
   "theorems": [
    "C45_rebuilds",
    "C45_dynamic",
    "C45_past_end_refuted",
    "C45_empty_refuted",
    "C45_zero_refuted",
    "C45_large_refuted"
   ],
   "note": "Parser of the indices and infer_indices modelled; arrays have packed row-major strides (axes of size one may have wider ones), and C36_view_of_view shows that contiguous views keep that form. The _refuted theorems show the four cases excluded by the hypotheses."
  },
  {
   "property": "C46",
   "status": "proved",
   "theorems": [
    "C46_statistics"
   ],
   "note": "For every history of queries, including the cache. Empty arrays report 0, 0 and integral, as documented."
  },
  {
   "property": "C47",
   "status": "proved",
   "theorems": [
    "C47_number_default_move",
    "C47_number_default_move_refuted",
    "C47_collection_default_move",
    "C47_list_default_move_refuted",
    "C47_disjoint_default_move",
    "C47_disjoint_default_move_refuted"
   ],
   "note": "Proved for non-empty decisions with the stated ranges; refuted for empty lists, empty disjoint decisions and integers with a negative lower bound."
  },
  {
   "property": "C48",
   "status": "proved",
   "theorems": [
    "C48_set_default_moves_reach_all_refuted"
   ],
   "note": "Refuted by SetNode(3,0,1): default moves only ever reach {} and {0}."
  },
  {
   "property": "C49",
   "status": "proved",
   "theorems": [
    "C49_links_consistent",
    "C49_refused_node_refuted"
   ],
   "note": "The positive part covers constructors that check before registering."
  },
  {
   "property": "C50",
   "status": "proved",
   "theorems": [
    "C50_tsp",
    "C50_refuses",
    "C50_one_value"
   ],
   "note": "Sizes below 2^31 elements; the list decision is any permutation."
  },
  {
   "property": "C51",
   "status": "proved",
   "theorems": [
    "C51_qap",
    "C51_refuses"
   ],
   "note": "Includes the rewriting of nested indexing to a PermutationNode."
  },
  {
   "property": "C52",
   "status": "proved",
   "theorems": [
    "C52_knapsack",
    "C52_refuses"
   ],
   "note": ""
  },
  {
   "property": "C53",
   "status": "proved",
   "theorems": [
    "C53_bin_packing",
    "C53_refuses"
   ],
   "note": ""
  },
  {
   "property": "C54",
   "status": "proved",
   "theorems": [
    "C54_cvrp",
    "C54_refuses",
    "C54_locations",
    "C54_locations_refuses"
   ],
   "note": "From a matrix of distances (C54_cvrp, C54_refuses) and from locations (C54_locations, C54_locations_refuses), for any non-negative function in place of the square root; arithmetic before the root is exact."
  },
  {
   "property": "C55",
   "status": "proved",
   "theorems": [
    "C55_accepts",
    "C55_vehicles",
    "C55_time_windows",
    "C55_accepts_refuted",
    "C55_cost_refuted"
   ],
   "note": "Full characterisation of acceptance, feasibility and objective; the two natural expectations are refuted with witnesses."
  },
  {
   "property": "C56",
   "status": "proved",
   "theorems": [
    "C56_flow_shop",
    "C56_upper_bound",
    "C56_two_machines",
    "C56_makespan_refuted",
    "C56_refuses"
   ],
   "note": "Exact characterisation of the objective; the makespan claim itself is refuted."
  },
  {
   "property": "C57",
   "status": "proved",
   "theorems": [
    "C57_job_shop",
    "C57_long_refuted"
   ],
   "note": ""
  },
  {
   "property": "C58",
   "status": "proved",
   "theorems": [
    "C58_graph",
    "C58_run",
    "C58_tsp",
    "C58_qap",
    "C58_knapsack"
   ],
   "note": "Covered classes: RunSpec.sound (constants, integers, binaries, lists, sets, disjoint lists and bit-sets and their parts, contiguous views of arrays of fixed size and ranges of arrays of one axis that change size, advanced indexing, permutation, unary, binary, n-ary, reductions, sums along an axis, reshaping of contiguous arrays of fixed size, quadratic models, where, size; not divisions, remainders and roots). Symbols must have values (total), which the instances establish. Knapsack: operations whose undefined result is discarded are not counted (strict = false)."
  },
  {
   "property": "C59",
   "status": "proved",
   "theorems": [
    "C59_value",
    "C59_adjacent",
    "C59_permutation",
    "C59_order_refuted",
    "C59_permutation_refuted"
   ],
   "note": "NumPy's rule is GetSpec.npy, written from its documentation: each axis of the result reads its own position. C59_value is about accepted indices. Index arrays have one axis; index arrays of several axes and broadcasting among them are C07/C32. The value is that of the meaning of the symbols (C50-C58); that the nodes compute it is C58."
  },
  {
   "property": "C60",
   "status": "proved",
   "theorems": [
    "C60_alike",
    "C60_different",
    "C60_sound",
    "C60_reflexive",
    "C60_symmetric",
    "C60_transitive",
    "C60_returns",
    "C60_cost",
    "C60_decisions_refuted",
    "C60_lists_refuted",
    "C60_elements_refuted",
    "C60_axes_refuted",
    "C60_certainty_refuted",
    "C60_limit_refuted"
   ],
   "note": "Over the classes of PyModel (partial reductions, reshapes, quadratic models and the other remaining classes are not among them). Constants hold no NaN. Symbols have not expired."
  },
  {
   "property": "C61",
   "status": "proved",
   "theorems": [
    "C61_power",
    "C61_power_domain",
    "C61_first",
    "C61_again",
    "C61_alias_refuted",
    "C61_self_refuted",
    "C61_product_refuted"
   ],
   "note": "On models that are not sorted yet (add_node on a sorted model is C13/C14). The exponent is an integer: anything else is not converted to Py_ssize_t and the operator declines."
  },
  {
   "property": "C62",
   "status": "proved",
   "theorems": [
    "C62_limited",
    "C62_estimate",
    "C62_header",
    "C62_unary_refuted",
    "C62_estimate_refuted"
   ],
   "note": "Parents of declared sizes precede (models without in-place operators: their operands have fixed sizes anyway), row sizes and steps are not 0, decisions hold fewer than 2^63-1 elements. Products of fractions are overflow-checked (UB), sums unbounded."
  },
  {
   "property": "C63",
   "status": "proved",
   "theorems": [
    "C63_read",
    "C63_decisions",
    "C63_value",
    "C63_order",
    "C63_unreadable_refuted",
    "C63_shape_refuted",
    "C63_empty_refuted",
    "C63_decision_nodes"
   ],
   "note": "Written entries of every symbol of PyModel but QuadraticModel, and their reconstruction; JSON and .npy contents are taken to survive (C44 has the frame of the file), states are not stored, sets have the sizes Model.set gives them. C63_order discharges the hypothesis `legal` for the order of a sorted graph. The refuted theorems are C45's views inside whole models."
  },
  {
   "property": "C64",
   "status": "proved",
   "theorems": [
    "C64_sum",
    "C64_partial_sums",
    "C64_product",
    "C64_undo_sum",
    "C64_undo_product",
    "C64_undo_partial_sums",
    "C64_index",
    "C64_sum_refuted",
    "C64_product_refuted",
    "C64_overflow_refuted",
    "C64_nan_refuted",
    "C64_order_refuted"
   ],
   "note": "Doubles are the axiom-free SpecFloat of the standard library at 53 bits. Positive for whole numbers within bounds; the refuted parts are in the statement. The long doubles of QuadraticModelNode and the other operators are not covered."
  },
  {
   "property": "C65",
   "status": "proved",
   "theorems": [
    "C65_lists",
    "C65_bits",
    "C65_list_part",
    "C65_bit_part",
    "C65_lists_run",
    "C65_bits_run"
   ],
   "note": "The parent is no array in C++; in the model it is given one that spells out contents and logs (GroupModel.wire, group_pin), from which the parts read what they read from the parent's state. Not covered: set_state of lists, which may lose items (C12), and bit-sets started from something that is no partition (C09)."
  },
  {
   "property": "C66",
   "status": "proved",
   "theorems": [
    "C66_graph",
    "C66_total",
    "C66_run",
    "C66_bin_packing",
    "C66_job_shop",
    "C66_flow_shop",
    "C66_cvrp",
    "C66_time_windows",
    "C66_locations"
   ],
   "note": "Covered classes as in C58. Job shop: with assertions compiled in, at least two machines (otherwise the views of rows are empty, and an assertion of the view fails). Edges added to sums are added in the model of the graph when all nodes are made; C58_run and faithful hold for every sorted graph with the same nodes and predecessors. Vehicle routing: from a matrix of distances and from locations (C66_locations); operations whose undefined result is discarded are not counted (strict = false). So is the case with time windows, for the instances that C55_accepts accepts."
  },
  {
   "property": "C67",
   "status": "proved",
   "theorems": [
    "C67_cqm",
    "C67_run",
    "C67_refuses",
    "C67_no_variables",
    "C67_no_variables_refuted"
   ],
   "note": "dimod is not modelled: a quadratic model is what the generator reads of it (variables, biases, interactions, offset). That the gathered binary variables are logical, which decides how an interaction of a variable with itself is stored, is built in."
  },
  {
   "property": "C68",
   "status": "proved",
   "theorems": [
    "C68_value",
    "C68_biases",
    "C68_refuses",
    "C68_shape",
    "C68_low_bits",
    "C68_file",
    "C68_range_refuted"
   ],
   "note": "C68_value gives the value, C68_biases the reported biases, C68_refuses and C68_shape what is refused, C68_low_bits and C68_range_refuted that only 32 bits of a key count, C68_file storing and reading back."
  },
  {
   "property": "C69",
   "status": "proved",
   "theorems": [
    "C69_read",
    "C69_loop",
    "C69_distance",
    "C69_never_both",
    "C69_moves",
    "C69_write",
    "C69_write_refuted"
   ],
   "note": "C69_write_refuted is about writing where the mask is true: the other elements under the mask change as well. The comment at MaskInfo says the fill value is substituted when the mask is false; the code and the other comment say true, and so does the model."
  },
  {
   "property": "C70",
   "status": "proved",
   "theorems": [
    "C70_export",
    "C70_num_edges",
    "C70_names",
    "C70_refused_node_refuted"
   ],
   "note": "C70_refused_node_refuted is the exception named in the statement; see C49_refused_node_refuted."
  },
  {
   "property": "C71",
   "status": "proved",
   "theorems": [
    "C71_deferred",
    "C71_once",
    "C71_failing",
    "C71_lost_refuted"
   ],
   "note": "C71_lost_refuted is the last clause: a new future is dropped when the failure of an earlier one surfaces in from_future. The attached states do not depend on the model at the time of the call."
  },
  {
   "property": "C72",
   "status": "proved",
   "theorems": [
    "C72_feasible",
    "C72_again",
    "C72_unlocked",
    "C72_index",
    "C72_no_state_refuted"
   ],
   "note": "The truth value of a one-element state is a parameter. C72_no_state_refuted: without constraints an index outside the states is not refused."
  },
  {
   "property": "C73",
   "status": "proved",
   "theorems": [
    "C73_own",
    "C73_fixed",
    "C73_rows",
    "C73_step_refuted"
   ],
   "note": "C73_step_refuted: x[1::2] of four elements of an array that changes size reads past the end; the statement excludes such views. Arrays below 2^31 elements."
  }
 ]
}