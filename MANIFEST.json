{
 "claims": [
  {
   "property": "C01",
   "status": "proved",
   "theorems": [
    "C01_min_id_queue",
    "C01_size_and_empty"
   ],
   "note": ""
  },
  {
   "property": "C02",
   "status": "proved",
   "theorems": [
    "C02_timestamp_flags"
   ],
   "note": ""
  },
  {
   "property": "C03",
   "status": "proved",
   "theorems": [
    "C03_id_set_queue",
    "C03_pop_of_empty_refuted"
   ],
   "note": "Proved for all histories, with and without assertions. The documented behaviour of pop on an empty queue (returns invalid_id) holds only without assertions and for >= 2 ids; refuted otherwise."
  },
  {
   "property": "C04",
   "status": "proved",
   "theorems": [
    "C04_new",
    "C04_operations",
    "C04_is_set",
    "C04_make_bit_vector",
    "C04_no_other_bits"
   ],
   "note": "Any sequence of set, set_if, set(x,v), reset, toggle with indices in range acts on exactly one element of the represented list; is_set reads it; make_bit_vector is independent of the uninitialised memory; equal lists have equal words, so padding bits are never visible."
  },
  {
   "property": "C05",
   "status": "partial",
   "theorems": [
    "C05_whole_vector",
    "C05_combine",
    "C05_population_count",
    "C05_is_any_set",
    "C05_are_all_set",
    "C05_are_all_set_refuted",
    "C05_equal",
    "C05_less",
    "C05_less_is_strict_total_order",
    "C05_copy",
    "C05_resize_uninitialized",
    "C05_resize_false",
    "C05_resize_true",
    "C05_resize_true_overwrites_refuted",
    "C05_resize_true_unset_refuted",
    "C05_resize_true_cleared_refuted",
    "C05_resize_true_undefined_refuted",
    "C05_resize_true_empty_copy_refuted",
    "C05_make_large_enough",
    "C05_make_large_enough_refuted"
   ],
   "note": "All bulk operations agree with the list operation except are_all_set at positive multiples of 512 and resize(n, true) / make_large_enough_for(x, true) at multiples of 512 or on an empty copy, where the code is wrong; those cases are refuted by witnesses, the guarded statements are proved."
  },
  {
   "property": "C06",
   "status": "proved",
   "theorems": [
    "C06_id_mapper",
    "C06_order_preserving",
    "C06_empty"
   ],
   "note": "Mapper built from any bit vector: rank and select tables (with the 32-bit counters of the constructor), to_local with and without default, to_global with the galloping bit_select, uint512_bit_select and uint64_bit_select."
  },
  {
   "property": "C07",
   "status": "proved",
   "theorems": [
    "C07_is_permutation",
    "C07_apply_permutation",
    "C07_apply_inverse_permutation",
    "C07_apply_then_inverse",
    "C07_inverse_then_apply",
    "C07_chain",
    "C07_apply_chain",
    "C07_invert",
    "C07_apply_inverted",
    "C07_identity",
    "C07_identity_neutral",
    "C07_elements"
   ],
   "note": ""
  },
  {
   "property": "C08",
   "status": "partial",
   "theorems": [
    "C08_inplace",
    "C08_copy_refuted",
    "C08_copy_partial"
   ],
   "note": "Refuted for the copying variant (reads p[invalid_id]); proved for the in-place variant, and for the copying variant on vectors without invalid_id."
  },
  {
   "property": "C09",
   "status": "proved",
   "theorems": [
    "C09_stable_sort_permutation",
    "C09_branch_independent",
    "C09_stable_sort_permutation_unique",
    "C09_sort_permutation",
    "C09_inverse_sort_permutation",
    "C09_stable_sort",
    "C09_is_sorted",
    "C09_assert_too_weak_refuted"
   ],
   "note": "Also: the debug assertion of compute_key_pos admits a key equal to key_count (refuted)."
  },
  {
   "property": "C10",
   "status": "proved",
   "theorems": [
    "C10_sort_permutation",
    "C10_inverse_sort_permutation",
    "C10_sort_permutation_and_apply",
    "C10_inverse_sort_permutation_and_apply",
    "C10_with_assertions_refuted"
   ],
   "note": "Proved for builds without assertions (the Makefile's -DNDEBUG); with assertions the two non-applying variants abort on unsorted tails (refuted). The applying variants are proved for both."
  },
  {
   "property": "C11",
   "status": "proved",
   "theorems": [
    "C11_invert_vector",
    "C11_invert_inverse_vector",
    "C11_round_trip",
    "C11_round_trip_back"
   ],
   "note": ""
  },
  {
   "property": "C12",
   "status": "proved",
   "theorems": [
    "C12_keep",
    "C12_remove"
   ],
   "note": ""
  },
  {
   "property": "C13",
   "status": "proved",
   "theorems": [
    "C13_find_arc",
    "C13_find_arc_sorted"
   ],
   "note": ""
  },
  {
   "property": "C14",
   "status": "partial",
   "theorems": [
    "C14_node_path_to_arc_path",
    "C14_arc_path_to_node_path_refuted",
    "C14_arc_path_to_node_path_empty_refuted",
    "C14_arc_path_to_node_path_partial"
   ],
   "note": "Node path to arc path proved. Arc path to node path refuted (index 1 never written, empty path returns empty); all other indices proved."
  },
  {
   "property": "C15",
   "status": "proved",
   "theorems": [
    "C15_every_prefix",
    "C15_distances"
   ],
   "note": ""
  },
  {
   "property": "C16",
   "status": "proved",
   "theorems": [
    "C16_paths"
   ],
   "note": ""
  },
  {
   "property": "C17",
   "status": "proved",
   "theorems": [
    "C17_reset",
    "C17_reset_to_graph"
   ],
   "note": ""
  },
  {
   "property": "C18",
   "status": "proved",
   "theorems": [
    "C18_components",
    "C18_largest"
   ],
   "note": "Both functions, for every graph in adjacency-array form; termination, absence of out-of-bounds accesses and the assertion on the empty stack included."
  },
  {
   "property": "C19",
   "status": "proved",
   "theorems": [
    "C19_lookup",
    "C19_entries",
    "C19_clear_refuted",
    "C19_large_refuted"
   ],
   "note": "For all histories of builds and clears with at most 65536 pairs per build; the bound is needed (C19_large_refuted). After clear() iteration and size() still show the old entries (C19_clear_refuted)."
  },
  {
   "property": "C20",
   "status": "proved",
   "theorems": [
    "C20_customize",
    "C20_equations"
   ],
   "note": ""
  },
  {
   "property": "C21",
   "status": "proved",
   "theorems": [
    "C21_chordal"
   ],
   "note": ""
  },
  {
   "property": "C22",
   "status": "proved",
   "theorems": [
    "C22_query"
   ],
   "note": ""
  },
  {
   "property": "C23",
   "status": "proved",
   "theorems": [
    "C23_path"
   ],
   "note": ""
  },
  {
   "property": "C24",
   "status": "proved",
   "theorems": [
    "C24_pinned_targets",
    "C24_pinned_sources",
    "C24_pin_after_target_refuted"
   ],
   "note": "Proved for every history in which no target (source) is added before pin_targets (pin_sources). The code does not check for that: C24_pin_after_target_refuted shows wrong distances with no assertion failing."
  },
  {
   "property": "C25",
   "status": "proved",
   "theorems": [
    "C25_partial_customization"
   ],
   "note": ""
  },
  {
   "property": "C26",
   "status": "proved",
   "theorems": [
    "C26_parallel_customization"
   ],
   "note": "Interleaving semantics with atomic loads, stores and compare-and-swap (sequential consistency); any number of threads, any assignment of iterations to threads; also no error, no dead end and no infinite execution."
  },
  {
   "property": "C27",
   "status": "proved",
   "theorems": [
    "C27_reset",
    "C27_pin_after_target_refuted"
   ],
   "note": "Proved for every allowed history. Adding a target before pin_targets, which no assertion forbids, leaves marks behind that survive reset(): C27_pin_after_target_refuted."
  },
  {
   "property": "C28",
   "status": "proved",
   "theorems": [
    "C28_exact",
    "C28_hierarchy",
    "C28_same_distances",
    "C28_filtered_refuted"
   ],
   "note": "For CCHs that keep all arcs, the default of the constructor: all weights become distances (C28_exact), building the hierarchy fails no assertion, throws nothing and yields a correct hierarchy (C28_hierarchy) that answers queries like the CCH (C28_same_distances). False if the CCH was filtered (filter_always_inf_arcs): weights stay above distances, a kept arc loses its lower halves and the function throws or fails an assertion (C28_filtered_refuted)."
  },
  {
   "property": "C29",
   "status": "proved",
   "theorems": [
    "C29_query"
   ],
   "note": "Proved for every history of calls on one query object (normal and pinned queries, resets, changes of the hierarchy) and every hierarchy made by build, build_given_rank or build_given_order with any max_pop_count. Overflow is excluded by the hypothesis that the weights of the hierarchy arcs are at most inf_weight (weights_below in ch_of); the construction itself is modelled with unbounded numbers. run() needs a source and a target, as the code asserts."
  },
  {
   "property": "C30",
   "status": "proved",
   "theorems": [
    "C30_path"
   ],
   "note": "Under the same hypotheses as C29: the arc path is a walk from the used source to the used target of the reported length, the node path lists its nodes."
  },
  {
   "property": "C31",
   "status": "proved",
   "theorems": [
    "C31_pinned_targets",
    "C31_pinned_sources",
    "C31_individual",
    "C31_long_pin_refuted"
   ],
   "note": "Proved for every history in which at most node_count nodes are pinned and none were added before; also the used sources, and equality with individual queries. The lists are kept in arrays with one entry per node, so longer lists are written past the end: C31_long_pin_refuted."
  },
  {
   "property": "C32",
   "status": "proved",
   "theorems": [
    "C32_clean",
    "C32_distances"
   ],
   "note": "C32_clean: full statement (one arc per ordered pair of different nodes, minimum weight, id of the first lightest parallel input arc, arcs sorted). C32_distances: capped shortest distances are unchanged."
  },
  {
   "property": "C33",
   "status": "partial",
   "theorems": [
    "C33_stream",
    "C33_file",
    "C33_large",
    "C33_constructed",
    "C33_size_refuted",
    "C33_default_refuted",
    "C33_loaded",
    "C33_exact",
    "C33_corrupt_refuted"
   ],
   "note": "True with the bound that the file has less than 2^32 numbers: streams and files are read back (C33_stream, C33_file; C33_constructed: holds for all constructed hierarchies whose sizes fit), loading accepts exactly the files of the right size (C33_exact) and what is loaded is saved to the same bytes (C33_loaded). False without it: the expected size is computed with 32 bits, so larger files are refused (C33_large, C33_size_refuted). A default constructed object cannot be read back (C33_default_refuted), and ranks that are no permutation are undefined behaviour (C33_corrupt_refuted)."
  },
  {
   "property": "C34",
   "status": "partial",
   "theorems": [
    "C34_nearest",
    "C34_find_all",
    "C34_nearest_refuted"
   ],
   "note": "For every metric with values in an ordered group-like structure and every valid std::nth_element: find_all_nodes_within_radius proved exact; the nearest query proved to return a minimum whenever it returns a point, and to miss nothing strictly inside the radius. Refuted as stated: a point at exactly the radius can be missed (C34_nearest_refuted), because subtrees are pruned at equality while leaves accept equality. Floating-point rounding is not modelled."
  },
  {
   "property": "C35",
   "status": "partial",
   "theorems": [
    "C35_encode",
    "C35_decode",
    "C35_any_bytes",
    "C35_rejects",
    "C35_too_large_refuted",
    "C35_undefined_refuted",
    "C35_zigzag",
    "C35_zigzag_no_overflow"
   ],
   "note": "As stated refuted: the tenth byte is shifted without checking that its value fits (C35_too_large_refuted) and an eleven-byte encoding shifts by 70 (C35_undefined_refuted). Proved: every encoding of a 64-bit value is read back, only the encoding is consumed, what happens on all byte strings, and that zigzag is inverted."
  },
  {
   "property": "C36",
   "status": "partial",
   "theorems": [
    "C36_complete",
    "C36_any_bytes",
    "C36_undefined_refuted",
    "C36_byte"
   ],
   "note": "Proved: every message is reported completely, and the exact behaviour on all byte strings; refuted only through the undefined shift of overlong varints (C36_undefined_refuted)."
  },
  {
   "property": "C37",
   "status": "partial",
   "theorems": [
    "C37_prefix",
    "C37_block_stays",
    "C37_block_not_written",
    "C37_writes",
    "C37_null",
    "C37_throw",
    "C37_progress_partial",
    "C37_bounded",
    "C37_lost_exception_refuted"
   ],
   "note": "Model: two threads with mutex, condition variables, spurious wake-ups, any byte source that returns at most what it is asked for. Proved for all executions: what is returned is a prefix of what the source delivered (C37_prefix), a block stays unchanged and is not written to until the next one is returned (C37_block_stays, C37_block_not_written, C37_writes), null only at the end of the source with too few bytes left (C37_null), exceptions only from the source (C37_throw), no call gets stuck or takes unboundedly many steps (C37_progress_partial, C37_bounded) as long as the source has not thrown; the destructor always ends. Refuted as stated: an exception of the source can be lost, so that read waits forever (C37_lost_exception_refuted)."
  },
  {
   "property": "C38",
   "status": "partial",
   "theorems": [
    "C38_make_graph_fragment",
    "C38_connected_components",
    "C38_derive_separator",
    "C38_remove_separator",
    "C38_refuted",
    "C38_decomposition_partial",
    "C38_order_partial",
    "C38_ranges"
   ],
   "note": "Refuted for the graph without nodes: the code then reads one node from behind the end of global_node_id. For every graph with a node and every separator function (with any state) that marks a node of each connected graph with two nodes or more: the recursion ends, the order is a permutation, the tree array is the preorder layout of a forest whose ranges partition the order, and nodes below different children are not adjacent in the input graph. make_graph_fragment, the components, separator removal and derive_separator_from_cut have their own theorems."
  },
  {
   "property": "C39",
   "status": "proved",
   "theorems": [
    "C39_advance",
    "C39_source_cut",
    "C39_target_cut",
    "C39_balanced_cut",
    "C39_smaller_side"
   ],
   "note": "For all fragments with paired arcs and disjoint source and target sets: any sequence of advance calls is defined and ends within arc_count + 1 calls; the flow never exceeds a cut; source, target and balanced cuts separate, their size is the number of crossing arcs and minimal over all separating sets."
  },
  {
   "property": "C40",
   "status": "partial",
   "theorems": [
    "C40_vector",
    "C40_value",
    "C40_stream",
    "C40_stream_value",
    "C40_vector_rejects",
    "C40_vector_complete",
    "C40_unsigned",
    "C40_strings",
    "C40_embedded_zero_refuted",
    "C40_tail_refuted",
    "C40_bits",
    "C40_bits_stream",
    "C40_bits_rejects",
    "C40_bits_wrap_refuted",
    "C40_bits_padding_refuted"
   ],
   "note": "All round trips proved (element vectors, values, streams, strings without NUL, bit vectors). Rejection of inconsistent files proved for element vectors and, below 2^64-511 bits, for bit vectors; refuted for strings (C40_tail_refuted) and for bit counts near 2^64 (C40_bits_wrap_refuted). Bits behind the end of a bit vector are not cleared on loading (C40_bits_padding_refuted)."
  },
  {
   "property": "C41",
   "status": "proved",
   "theorems": [
    "C41_unsigned",
    "C41_large_refuted",
    "C41_signed",
    "C41_closed",
    "C41_comm",
    "C41_assoc",
    "C41_monotone",
    "C41_signed_assoc_refuted",
    "C41_signed_comm"
   ],
   "note": "Signed variant also proved; it is not associative (C41_signed_assoc_refuted)."
  },
  {
   "property": "C42",
   "status": "proved",
   "theorems": [
    "C42_arc_weights",
    "C42_distance",
    "C42_targets",
    "C42_sources",
    "C42_allocating",
    "C42_saturated",
    "C42_signed_refuted"
   ],
   "note": "For every link function that is closed and associative on the weights used: the weight of every CH arc, of a path, and of all pinned targets or sources, after any history of calls (which may itself contain such calls). The default SaturatedWeightAddition qualifies for unsigned weights (C42_saturated); for signed weights it is not associative and the result is not that of the path (C42_signed_refuted)."
  },
  {
   "property": "C43",
   "status": "partial",
   "theorems": [
    "C43_block",
    "C43_node",
    "C43_dense_as_coded",
    "C43_tag_string",
    "C43_string_id_refuted",
    "C43_dense_offset_refuted",
    "C43_node_fields_refuted"
   ],
   "note": "As stated refuted: a tag string id equal to the table size is read out of bounds, dense nodes add the latitude offset once per node to both axes, node messages are read with the wrong field numbers. Proved: a well-formed block with zero offsets is reported exactly (nodes, ways, relations, tags), what is computed for other offsets, and the exact behaviour of the string check."
  },
  {
   "property": "C44",
   "status": "proved",
   "theorems": [
    "C44_constructor_refuted",
    "C44_constructor"
   ],
   "note": "Refuted as stated (default arguments divide by zero on the empty graph; an empty log function without filtering is called); C44_constructor gives the exact condition under which the constructor succeeds."
  },
  {
   "property": "C45",
   "status": "proved",
   "theorems": [
    "C45_check",
    "C45_constructed",
    "C45_order_refuted"
   ],
   "note": "C45_check for all values with a permutation as order, C45_constructed for all constructed hierarchies (including perfect customization) with valid arc ids. Orders that are no permutation are accepted or lead to undefined behaviour (C45_order_refuted), since that is only asserted."
  },
  {
   "property": "C46",
   "status": "proved",
   "theorems": [
    "C46_build",
    "C46_build_given_rank",
    "C46_build_given_order"
   ],
   "note": "Shortcut weights are unbounded numbers in the model: the code adds them with 32 bits, so the theorem describes it as long as the lengths of shortcuts fit."
  },
  {
   "property": "C47",
   "status": "partial",
   "theorems": [
    "C47_sets",
    "C47_flow",
    "C47_side_size",
    "C47_side_size_refuted",
    "C47_best_of_three",
    "C47_progress",
    "C47_order_partial",
    "C47_decomposition_partial"
   ],
   "note": "Refuted in two places: for 2^28 nodes the 32-bit product node_count*min_balance overflows and the sides may be smaller than asked for, and the empty graph is that of C38. Proved for all fragments with two nodes or more, all orders that nth_element can leave and all contents of fresh memory: inertial flow ends, its cut is a minimum cut of one of the four directions and not larger than any cut of the others, both sides have at least side_size nodes (the given part of the nodes while the product has 32 bits), the cut that is used has the fewest arcs per node of three, and for all graphs with a node the order is a permutation and the decomposition that of C38."
  },
  {
   "property": "C48",
   "status": "partial",
   "theorems": [
    "C48_scan_partial",
    "C48_routing_nodes",
    "C48_order_irrelevant",
    "C48_negative_id_refuted",
    "C48_growth"
   ],
   "note": "Refuted for ids that are negative in the file (2^63 and more as uint64_t): the doubling loop of make_large_enough_for never ends. For all other ids the loop ends with a large enough size; for all files, predicates and both modes the scan is defined and finds exactly the sets of the specification, independent of the order of the elements. Ids in the model of the scan are natural numbers."
  },
  {
   "property": "C49",
   "status": "partial",
   "theorems": [
    "C49_graph_partial",
    "C49_graph_of_sets",
    "C49_segments",
    "C49_first_assertion_refuted",
    "C49_duplicate_way_refuted"
   ],
   "note": "Refuted in two places: in a build with assertions the first assertion unites bit vectors of different sizes and fails for ordinary files; if a way id occurs twice and the second way has no nodes, the first node of an empty list is read. Proved for every file with distinct way ids (in the build with assertions: if the first assertion holds) and for any sets that fit to the ways. Floating point operations are arbitrary functions. Local ids are natural numbers."
  },
  {
   "property": "C50",
   "status": "partial",
   "theorems": [
    "C50_forbidden_turns_partial",
    "C50_turns_meet",
    "C50_one_turn",
    "C50_load_partial",
    "C50_straight_oneway",
    "C50_straight_on_refuted",
    "C50_missing_via_refuted"
   ],
   "note": "Proved with the rule of the code for missing via nodes: the list is exactly what the specification OsmTurnSpec derives from the restrictions (sorted, no duplicates, both arcs meet, one turn per prohibitive restriction). Refuted in two places: a straight-on order along a way that is open in both directions forbids every turn from one of its arcs, also straight on (proved right for ways with one arc into and out of the node); a restriction without via node is dropped although the ways meet at one node only. The angle test is an arbitrary function; std::sort is any function that sorts. Depends on the restrictions of C49 on the file."
  },
  {
   "property": "C51",
   "status": "partial",
   "theorems": [
    "C51_speed_range",
    "C51_never_faster_partial",
    "C51_smallest_partial",
    "C51_no_limit",
    "C51_never_faster_refuted",
    "C51_smallest_refuted",
    "C51_wildcard_refuted"
   ],
   "note": "Range and the speed without a limit: for all tags. That no posted number is exceeded is proved for tags of at most 1022 bytes and refuted beyond (the buffer truncates the tag). The exact value is proved for numbers below 1000000; larger numbers wrap around (refuted), and question marks in the data act as wildcards (refuted)."
  },
  {
   "property": "C52",
   "status": "partial",
   "theorems": [
    "C52_only_values",
    "C52_car_access_partial",
    "C52_car_roads",
    "C52_car_direction_partial",
    "C52_bicycle_direction_partial",
    "C52_bicycle_access_partial",
    "C52_pedestrian_access_partial",
    "C52_comfort_range",
    "C52_car_access_refuted",
    "C52_car_direction_refuted",
    "C52_bicycle_direction_refuted",
    "C52_known_speed_refuted"
   ],
   "note": "Proved for ways that are neither a junction nor a ferry, for which the access tags are ignored (refuted). An unknown value of oneway leaves the way open for cars although the message says closed (refuted). Bicycles may ride against roundabouts without the tag oneway (refuted). Two kinds of roads used by cars have no speed in the table (refuted). Independence of the order of tags is proved for all functions of the file."
  },
  {
   "property": "C53",
   "status": "proved",
   "theorems": [
    "C53_restrictions",
    "C53_mandatory_one",
    "C53_largest_id_refuted",
    "C53_defined"
   ],
   "note": "For all relations whose members have ids below 2^64-1; this id as a via node is read as no via node (refuted)."
  },
  {
   "property": "C54",
   "status": "partial",
   "theorems": [
    "C54_car_partial",
    "C54_bicycle",
    "C54_pedestrian",
    "C54_car_refuted"
   ],
   "note": "Bicycles and pedestrians: for all files with distinct way ids. Cars: travel times are proved for arcs shorter than 238610 m; longer ones overflow (refuted). std::sort is assumed to sort, as in C50; with assertions the first assertion of the graph builder has to hold, as in C49."
  },
  {
   "property": "C55",
   "status": "partial",
   "theorems": [
    "C55_byte_order_partial",
    "C55_byte_order_refuted",
    "C55_blocks_partial",
    "C55_elements_partial",
    "C55_cut_partial",
    "C55_short_as_coded",
    "C55_size",
    "C55_defined_partial",
    "C55_features_refuted",
    "C55_unsized_refuted",
    "C55_cut_refuted",
    "C55_defined_refuted"
   ],
   "note": "Proved for files whose header comes first, with the size in every compressed blob, and features that the code knows; what is asked of zlib is a hypothesis. Refuted: byte order function for lengths from 2^16 on, the standard feature OsmSchema-V0.6 is refused, blobs without size, a file cut inside a skipped block is read on from the middle of that block, and a required feature whose name continues after a zero byte makes the comparison read behind the literal."
  },
  {
   "property": "C56",
   "status": "partial",
   "theorems": [
    "C56_race",
    "C56_order_partial",
    "C56_prefix_refuted",
    "C56_waits_refuted"
   ],
   "note": "C56_race holds for all files. The order is proved for supported files with a block that is not skipped and without features named like a proper beginning of Sort.Type_then_ID. Refuted: such a beginning is taken for the feature, and the loop that waits for the header never ends for an empty file or an unsupported header."
  },
  {
   "property": "C57",
   "status": "partial",
   "theorems": [
    "C57_graph_partial",
    "C57_empty_first_out_refuted",
    "C57_points_partial",
    "C57_empty_points_refuted",
    "C57_td_graph_partial",
    "C57_queries",
    "C57_first_position_partial",
    "C57_element_partial",
    "C57_empty_vector_refuted",
    "C57_element_or",
    "C57_to_best"
   ],
   "note": "Proved for arrays that are not empty. Refuted: front() and back() of an empty first_out or first_ipp_of_arc are undefined, the file is not refused; the best element of an empty vector is read out of range."
  },
  {
   "property": "C58",
   "status": "partial",
   "theorems": [
    "C58_dijkstra_partial",
    "C58_hierarchy_partial",
    "C58_agree_partial",
    "C58_rejects",
    "C58_hierarchy_rejects",
    "C58_no_queries_refuted",
    "C58_no_arcs_refuted",
    "C58_query_range_refuted",
    "C58_large_distance_refuted"
   ],
   "note": "Proved for graphs with at least one arc, at least one query, sources and targets within the graph, equally many of both, and distances below inf_weight. Refuted otherwise: a division by zero without queries, a read out of range without arcs or for nodes out of range, numbers above inf_weight for long distances. Command lines, timers and log messages are not modelled."
  },
  {
   "property": "C59",
   "status": "partial",
   "theorems": [
    "C59_rank_queries_partial",
    "C59_input_refuted"
   ],
   "note": "Proved for graphs with at least one node and at most 2^31 nodes, one weight per arc, and distances below inf_weight. Refuted: a graph without nodes and too few weights are not refused. The random numbers are a parameter."
  },
  {
   "property": "C60",
   "status": "partial",
   "theorems": [
    "C60_convert",
    "C60_convert_graph",
    "C60_export",
    "C60_round_trip",
    "C60_convert_refuted",
    "C60_export_refuted"
   ],
   "note": "Proved except that files in other formats are refused. Refuted: a file without header reads uninitialised variables, negative numbers wrap around, text behind the third number is ignored, and the exporting program uses an unsorted first_out. The standard library functions for text are part of the model; log messages are not modelled."
  },
  {
   "property": "C61",
   "status": "partial",
   "theorems": [
    "C61_permute",
    "C61_distances",
    "C61_unsorted_refuted"
   ],
   "note": "Proved for files that describe a graph with at least one arc. Refuted: an unsorted first_out is not refused and leads to writes out of range. The permutation and the unstable sort are parameters."
  },
  {
   "property": "C62",
   "status": "partial",
   "theorems": [
    "C62_encode",
    "C62_encode_uint64_partial",
    "C62_encode_uint64_refuted",
    "C62_decode_partial",
    "C62_round_trip_partial",
    "C62_int8_refuted",
    "C62_replace",
    "C62_decode_strings",
    "C62_strings_partial",
    "C62_strings_refuted"
   ],
   "note": "Proved for the integer types of at least two bytes, where encoding of uint64 also accepts negative numbers (refuted), and for strings without a backslash followed by n (exactly these survive). Refuted: numbers of one byte are printed as characters. float32 and float64 are not modelled here."
  },
  {
   "property": "C63",
   "status": "partial",
   "theorems": [
    "C63_compare_ints",
    "C63_compare_strings",
    "C63_compare_floats_partial",
    "C63_compare_floats_refuted"
   ],
   "note": "Proved for all integer types and strings, and for float32 if all values are numbers. Refuted: a vector with NaN is reported to be the same as another. float64, and vectors with 2^32 elements or more, are in C89."
  },
  {
   "property": "C64",
   "status": "partial",
   "theorems": [
    "C64_owners",
    "C64_no_leak_partial",
    "C64_move_refuted",
    "C64_read",
    "C64_open",
    "C64_rewind",
    "C64_reader",
    "C64_reader_refuted",
    "C64_size_partial",
    "C64_size_refuted"
   ],
   "note": "Proved for both variants. Refuted: moving into a variable with an open file leaks its descriptor, a function object that outlives the file may read another one, and size throws for every open file in the POSIX variant (proved to be right in the other variant). Reading errors are in C90."
  },
  {
   "property": "C65",
   "status": "proved",
   "theorems": [
    "C65_great_circle",
    "C65_error",
    "C65_unique",
    "C65_metric",
    "C65_haversine"
   ],
   "note": "Over the real numbers of the standard library (axioms listed in DESIGN.md); rounding of floating point numbers is not modelled."
  },
  {
   "property": "C66",
   "status": "partial",
   "theorems": [
    "C66_constructor",
    "C66_nearest_partial",
    "C66_find_all",
    "C66_lengths_refuted"
   ],
   "note": "Over the real numbers (axioms listed in DESIGN.md). As in C34, a position at exactly the radius may be missed by the nearest neighbour query. Refuted: with fewer longitudes than latitudes the constructor reads out of bounds (the assertion is compiled out)."
  },
  {
   "property": "C67",
   "status": "partial",
   "theorems": [
    "C67_weights_partial",
    "C67_walks",
    "C67_rejects",
    "C67_short_refuted"
   ],
   "note": "Over the real numbers (axioms listed in DESIGN.md), for enough coordinates. Refuted: with fewer coordinates than nodes the program reads out of bounds, the number is not checked."
  },
  {
   "property": "C68",
   "status": "partial",
   "theorems": [
    "C68_extremes",
    "C68_cut",
    "C68_order_partial",
    "C68_order_refuted",
    "C68_rejects_refuted"
   ],
   "note": "For graphs with at least one node, a coordinate for every node and coordinates that can be compared (no NaN). Refuted: without nodes, with too few coordinates or with NaN the behaviour is undefined, and files that are not a graph are not refused."
  },
  {
   "property": "C69",
   "status": "proved",
   "theorems": [
    "C69_order_file",
    "C69_distances",
    "C69_agree"
   ],
   "note": "For stored graphs with at least one node and comparable coordinates, weights at most inf_weight. The comparison with run_dijkstra has its condition on distances (C58)."
  },
  {
   "property": "C70",
   "status": "proved",
   "theorems": [
    "C70_pedestrian",
    "C70_bicycle",
    "C70_car"
   ],
   "note": "For graphs with at least one node, less than 2^32 nodes and arcs of at most inf_weight (cars: shorter than 238610 m, see C54). Forbidden turns of the car graph are not part of a CCH and are ignored."
  },
  {
   "property": "C71",
   "status": "partial",
   "theorems": [
    "C71_convert",
    "C71_refuses_partial",
    "C71_header_refuted"
   ],
   "note": "Which texts are accepted, and what is written then, is proved for all inputs. Refuted: a text without a header (for example an empty one) is not refused, because node_count has no value when it is used; all other texts are refused."
  },
  {
   "property": "C72",
   "status": "proved",
   "theorems": [
    "C72_error",
    "C72_order",
    "C72_bytes"
   ],
   "note": "Floats as formalised in Flocq; rests on the axioms of the Reals of the standard library. An example shows that different positions may be stored as the same float."
  },
  {
   "property": "C73",
   "status": "proved",
   "theorems": [
    "C73_routes"
   ],
   "note": "For texts with at least one node and weights at most inf_weight. Rests on the axioms of the Reals of the standard library, through the floats."
  },
  {
   "property": "C74",
   "status": "partial",
   "theorems": [
    "C74_extract_partial",
    "C74_no_arcs_refuted",
    "C74_time_refuted"
   ],
   "note": "All eleven files and the printed numbers are proved for files with at least one arc. Refuted: without arcs the program reads outside of an array (the theorem says that this is always so); travel times of arcs of 238610 metres or more overflow, as in C54."
  },
  {
   "property": "C75",
   "status": "proved",
   "theorems": [
    "C75_dijkstra",
    "C75_hierarchy",
    "C75_order"
   ],
   "note": "Within the quantifier; it excludes the cases refuted in C58 and C74."
  },
  {
   "property": "C76",
   "status": "partial",
   "theorems": [
    "C76_constant",
    "C76_queries_partial",
    "C76_nodes_partial",
    "C76_times_partial",
    "C76_refuses",
    "C76_usable",
    "C76_range_refuted",
    "C76_arguments_refuted",
    "C76_file_name_refuted"
   ],
   "note": "Proved for node counts and periods from 1 to 2^31. Refuted: with 0 or more than 2^31 the bounds of the distribution are in the wrong order, which is undefined; numbers are cut to 32 bits and text behind them is ignored; a file whose name starts with a digit is taken for a number."
  },
  {
   "property": "C77",
   "status": "partial",
   "theorems": [
    "C77_show_partial",
    "C77_input",
    "C77_examine",
    "C77_refuses",
    "C77_bounds_refuted",
    "C77_silent_refuted"
   ],
   "note": "Proved for all inputs; the theorem says what happens for each of them. Refuted: the check of the ids is off by one, a query for the node whose id is the number of nodes reads outside of an array; the number of positions is not checked; text that is no query ends the program without an error."
  },
  {
   "property": "C78",
   "status": "partial",
   "theorems": [
    "C78_dot_partial",
    "C78_svg_partial",
    "C78_input_refuted",
    "C78_same_refuted",
    "C78_square_refuted"
   ],
   "note": "Refuted: nothing is checked about the graph; if all latitudes or all longitudes are the same, the coordinates are not numbers; rounding can move a point out of the square, by at most 1/32768."
  },
  {
   "property": "C79",
   "status": "proved",
   "theorems": [
    "C79_popcount",
    "C79_ffs",
    "C79_parallel"
   ],
   "note": "Sequentially consistent memory, like C26; the load in front of the compare-and-swap counts as one access."
  },
  {
   "property": "C80",
   "status": "partial",
   "theorems": [
    "C80_programs_partial",
    "C80_no_leak_partial",
    "C80_resize_refuted",
    "C80_copy_empty_refuted"
   ],
   "note": "Proved for all programs whose resizes meet the conditions of C05; refuted for resizing the copy of an empty vector with the value true, and copying an empty vector may throw."
  },
  {
   "property": "C81",
   "status": "partial",
   "theorems": [
    "C81_counts_partial",
    "C81_counts_refuted",
    "C81_grow_partial",
    "C81_grow_refuted",
    "C81_aligned_partial",
    "C81_free_null",
    "C81_aligned_refuted"
   ],
   "note": "Proved for sizes up to 2^64-512, indices below 2^63 and successful malloc; refuted in each of the other cases."
  },
  {
   "property": "C82",
   "status": "partial",
   "theorems": [
    "C82_construction_partial",
    "C82_distance_partial",
    "C82_small_partial",
    "C82_small_distance_partial",
    "C82_distance_refuted",
    "C82_given_order_refuted"
   ],
   "note": "Proved for constructions whose sums fit into 32 bits, and for all constructions that C++ makes whose result has weights of at most (2^32 - 1) / 12, from input weights of at most twice this; refuted otherwise: on a ring of seven nodes with a chord of weight 1000 the query answers 5."
  },
  {
   "property": "C83",
   "status": "partial",
   "theorems": [
    "C83_stable_permutation_partial",
    "C83_stable_unique",
    "C83_inverse_stable_permutation_partial",
    "C83_stable_sort",
    "C83_permutation_partial",
    "C83_inverse_permutation_partial",
    "C83_sort",
    "C83_is_sorted_partial",
    "C83_less_partial",
    "C83_inverse_by_key_partial",
    "C83_by_key",
    "C83_moving_sort",
    "C83_moving_apply",
    "C83_size_refuted"
   ],
   "note": "Proved for vectors with less than 2^32 elements; refuted for 2^32 elements. std::sort is any function that keeps the promise of the standard; std::stable_sort is insertion sort, the result of a stable sort being unique (C83_stable_unique)."
  },
  {
   "property": "C84",
   "status": "partial",
   "theorems": [
    "C84_dense_partial",
    "C84_sparse_partial",
    "C84_nearest_partial",
    "C84_float_partial",
    "C84_same_place_refuted",
    "C84_nearest_double_refuted"
   ],
   "note": "Error bounds for IEEE 754 arithmetic (Flocq) in blocks without offsets; that every node gets the nearest double, or nodes at one place the same double, is refuted. Decoding of the differences themselves is C43, with exact numbers."
  },
  {
   "property": "C85",
   "status": "partial",
   "theorems": [
    "C85_survives_partial",
    "C85_change_refuted",
    "C85_dangling_refuted"
   ],
   "note": "Proved for programs that leave the bits alone or move them; refuted for changes of the bits, resizing, destruction and assignment. The resize operations that C80 leaves out are left out here as well."
  },
  {
   "property": "C86",
   "status": "partial",
   "theorems": [
    "C86_save_vector_partial",
    "C86_save_strings_partial",
    "C86_save_bits_partial",
    "C86_save_ch_partial",
    "C86_stream_partial",
    "C86_load_vector_partial",
    "C86_load_strings_partial",
    "C86_load_bits",
    "C86_load_ch",
    "C86_ch",
    "C86_read_all",
    "C86_read_vector_partial",
    "C86_read_ch",
    "C86_vector_refuted",
    "C86_strings_refuted",
    "C86_strings_open_refuted",
    "C86_stream_refuted",
    "C86_save_ch_refuted",
    "C86_read_vector_refuted",
    "C86_read_bits_refuted"
   ],
   "note": "Prefixes, refusal of incomplete bit vectors and hierarchies, and exceptions only with a reason are proved; that losses are reported is refuted for every saving function and for load_vector and load_bit_vector. The room on the device does not change while a file is written; a failing tellg is not modelled."
  },
  {
   "property": "C87",
   "status": "partial",
   "theorems": [
    "C87_queue_partial",
    "C87_flags",
    "C87_idset_partial",
    "C87_moved_queue_refuted",
    "C87_moved_idset_refuted",
    "C87_default_idset_refuted"
   ],
   "note": "Proved for all programs that do not call a MinIDQueue whose elements were moved away or an IDSetMinQueue that was moved from or default constructed; refuted for these. Moving a vector is taken to leave it empty, also when it is moved to itself."
  },
  {
   "property": "C88",
   "status": "partial",
   "theorems": [
    "C88_message_partial",
    "C88_aligned_partial",
    "C88_unaligned",
    "C88_any_bytes",
    "C88_alignment_refuted"
   ],
   "note": "Proved for machines that read numbers from any address, and by the letter of the standard for messages whose numbers are aligned; all other messages are proved to be undefined. Which NaN the NaN of a float becomes is not modelled, nor are the aliasing rules for cast pointers."
  },
  {
   "property": "C89",
   "status": "partial",
   "theorems": [
    "C89_floats_partial",
    "C89_doubles_partial",
    "C89_double_numbers_partial",
    "C89_double_same",
    "C89_ints",
    "C89_large",
    "C89_large_refuted",
    "C89_strings_partial",
    "C89_large_strings",
    "C89_nan_refuted"
   ],
   "note": "What is printed is proved for all files with less than 2^32 elements, with and without NaN; refuted: larger files of equal size make the loop run forever (C89_large says so for all of them), and with NaN the first difference may be an element that is counted as the same. The same for strings (C89_strings_partial, C89_large_strings)."
  },
  {
   "property": "C90",
   "status": "partial",
   "theorems": [
    "C90_posix",
    "C90_posix_all",
    "C90_file_partial",
    "C90_file_flag",
    "C90_file_refuted"
   ],
   "note": "Proved for the POSIX variant, and for the variant with FILE without errors; what happens there with errors is proved as well (C90_file_flag) and refutes the statement. The buffer of FILE is left out, and rewinding does not fail."
  }
 ]
}