{"id": "C01", "title": "MinIDQueue is a correct addressable priority queue", "statement": "For every sequence of push / decrease_key / increase_key / pop / clear calls that respects the documented preconditions, the queue behaves like a finite map from ids to keys: contains_id, get_key, size and empty report exactly the current map, and peek and pop return an entry whose key is minimal among all current entries; pop removes exactly that entry. No call reads or writes outside the queue's arrays.", "quantifier": "all id counts, all finite operation sequences, all keys (including ties)", "why_tests_cant": "The 4-ary heap order and the id->position back-index must stay consistent after every possible interleaving of operations; tests sample a handful of sequences.", "anchors": ["include/routingkit/id_queue.h: MinIDQueue::push, pop, peek, decrease_key, increase_key, clear, contains_id, get_key"]}
{"id": "C02", "title": "TimestampFlags equals a resettable set", "statement": "After any sequence of set / reset_one / reset_all calls, is_set(i) is true exactly if i was set after the last reset_all and not reset_one afterwards, no matter how often reset_all has been called (the 16-bit counter wraps).", "quantifier": "all sizes, all operation histories, in particular more than 65535 resets", "why_tests_cant": "The counter wrap only occurs after 2^16 resets and its effect depends on the entire history of stale stamps.", "anchors": ["include/routingkit/timestamp_flag.h: TimestampFlags"]}
{"id": "C03", "title": "IDSetMinQueue is a correct set with minimum extraction", "statement": "For every sequence of push / pop / clear on IDSetMinQueue, the queue holds exactly the set of ids pushed and not yet popped; pushing an id twice is the same as pushing it once; pop and peek return the smallest id contained; empty is true iff the set is empty.", "quantifier": "all id ranges, all operation sequences", "why_tests_cant": "The bits of the implicit binary tree must be consistent on all levels after every history, and pop must find the next minimum in each such tree.", "anchors": ["include/routingkit/id_set_queue.h: IDSetMinQueue"]}
{"id": "C04", "title": "BitVector single-bit operations", "statement": "set, set_if, reset, toggle and is_set act on exactly one bit: after any operation sequence is_set(i) is the value last written to i, and no other bit and no bit beyond the size is visible; bit-wise construction from a predicate gives the predicate.", "quantifier": "all sizes and operation sequences", "why_tests_cant": "Word/bit index arithmetic must be right at each of the unboundedly many sizes and positions.", "anchors": ["include/routingkit/bit_vector.h: BitVector, make_bit_vector", "src/bit_vector.cpp"]}
{"id": "C05", "title": "BitVector bulk operations agree with their bit-wise meaning", "statement": "set_all, reset_all, inplace_not, |=, &=, ^=, population_count, are_all_set, is_any_set, ==, resize and make_large_enough_for behave like the corresponding operation on a list of booleans of the vector's size; padding bits never influence the answer.", "quantifier": "all sizes (including multiples of 512), all contents", "why_tests_cant": "Behaviour at block boundaries (sizes that are multiples of 512) differs from the generic case; a test has to guess the boundary. (are_all_set and resize are in fact wrong there.)", "anchors": ["src/bit_vector.cpp: are_all_set, resize, make_large_enough_for, population_count, get_padding_mask, operator|=, operator==", "include/routingkit/bit_vector.h"]}
{"id": "C06", "title": "Local/global id mapping is an order-preserving bijection", "statement": "For an IDMapper built from a bit vector: is_global_id_mapped(g) iff the bit is set; to_local(g) is the number of set bits below g; to_global(to_local(g)) = g and to_local(to_global(l)) = l for every valid argument; local_id_count is the number of set bits; the default value is returned for unmapped ids.", "quantifier": "all bit vectors of all sizes and all ids", "why_tests_cant": "Rank and select tables have block structure; correctness is needed for each bit pattern.", "anchors": ["src/id_mapper.cpp: LocalIDMapper, IDMapper", "src/bit_select.cpp: bit_select", "include/routingkit/id_mapper.h"]}
{"id": "C07", "title": "Permutation algebra", "statement": "is_permutation decides exactly whether p is a permutation of 0..n-1. invert_permutation(p) is a permutation and inverts p on both sides, apply_permutation and apply_inverse_permutation undo each other and satisfy apply_permutation(p,v)[i] = v[p[i]], apply_inverse_permutation(p,v)[p[i]] = v[i]; chain_permutation_first_left_then_right composes; identity_permutation is neutral; applying to elements maps every element x to p[x].", "quantifier": "all permutations of all sizes and all payload vectors", "why_tests_cant": "Universally quantified algebraic laws.", "anchors": ["include/routingkit/permutation.h"]}
{"id": "C08", "title": "Applying a permutation to possibly invalid elements", "statement": "apply_permutation_to_possibly_invalid_elements_of(p,v) leaves invalid_id elements unchanged and maps every other element x to p[x], like its in-place variant.", "quantifier": "all permutations and vectors with invalid_id at arbitrary positions", "why_tests_cant": "Needs a vector that contains invalid_id; the existing test never passes one. (The non-in-place variant indexes p[invalid_id].)", "anchors": ["include/routingkit/permutation.h: apply_permutation_to_possibly_invalid_elements_of, inplace_apply_permutation_to_possibly_invalid_elements_of"]}
{"id": "C09", "title": "Sorting by key is a stable sort", "statement": "stable_sort_copy_using_key and the (inverse) sort permutations return a rearrangement of the input that is sorted by key and keeps the relative order of elements with equal keys; the result does not depend on whether the bucket or the comparison branch is chosen; the inverse sort permutation is the inverse of the sort permutation.", "quantifier": "all vectors, all key functions into [0,key_count)", "why_tests_cant": "The branch choice depends on the ratio of sizes; stability and permutation property quantify over all inputs.", "anchors": ["include/routingkit/sort.h: compute_key_pos, compute_sort_permutation_using_key, compute_inverse_sort_permutation_using_key, stable_sort_copy_using_key"]}
{"id": "C10", "title": "Lexicographic arc sort", "statement": "The permutations computed by compute_(inverse_)sort_permutation_first_by_tail_then_by_head sort the arcs lexicographically by (tail, head), stable for parallel arcs, and the and_apply_sort_to_tail variants additionally leave the tail vector sorted and consistent with the permutation.", "quantifier": "all arc lists over all node counts", "why_tests_cant": "Universally quantified; two passes must compose with stability.", "anchors": ["src/graph_util.cpp: compute_sort_permutation_first_by_left_then_by_right, compute_inverse_sort_permutation_first_by_left_then_by_right_and_apply_sort_to_left", "include/routingkit/graph_util.h"]}
{"id": "C11", "title": "invert_vector builds the adjacency index", "statement": "For a sorted vector v with elements < n, invert_vector(v,n) has n+1 entries, starts with 0, ends with size(v), is non-decreasing and for each x the positions in [index[x], index[x+1]) are exactly those where v equals x; invert_inverse_vector recovers v, and both are mutually inverse on valid inputs.", "quantifier": "all sorted vectors and element counts", "why_tests_cant": "Index loops must be right for every gap pattern (empty buckets at start, middle, end).", "anchors": ["include/routingkit/inverse_vector.h: invert_vector, invert_inverse_vector"]}
{"id": "C12", "title": "Filtering", "statement": "keep_element_of_vector_if / remove_element_of_vector_if and the in-place variants return exactly the elements whose filter bit is set (resp. unset) in their original order.", "quantifier": "all vectors and filters", "why_tests_cant": "Universally quantified.", "anchors": ["include/routingkit/filter.h"]}
{"id": "C13", "title": "Arc lookup", "statement": "find_arc_given_sorted_head returns the position of an arc (x,y) in x's adjacency range if there is one and fails (invalid_id / exception) if and only if there is none, as does the unsorted variant, which returns the first such arc.", "quantifier": "all graphs with sorted heads, all node pairs", "why_tests_cant": "Binary search correctness for every range.", "anchors": ["src/graph_util.cpp: find_arc_or_return_invalid, find_arc_given_sorted_head_or_return_invalid"]}
{"id": "C14", "title": "Path representation conversion", "statement": "convert_node_path_to_arc_path returns arcs that connect consecutive nodes of the path; convert_arc_path_to_node_path returns the start node followed by the head of every arc, for every arc path.", "quantifier": "all paths of all lengths in all graphs", "why_tests_cant": "Off-by-one errors only show at particular path lengths. (convert_arc_path_to_node_path is in fact wrong: index 1 is never written.)", "anchors": ["src/graph_util.cpp: convert_node_path_to_arc_path, convert_arc_path_to_node_path"]}
{"id": "C15", "title": "Dijkstra computes shortest distances", "statement": "After adding sources and settling until the search is finished, get_distance_to(v) is the length of a shortest path from the sources to v, and inf_weight iff v is not reachable; nodes are settled in order of non-decreasing distance, each at most once; at every intermediate moment the settled nodes already have their final distance.", "quantifier": "all graphs, all weights (shortest distances below inf_weight), all source sets and every prefix of settle calls", "why_tests_cant": "Optimality is a statement over all paths of all graphs.", "anchors": ["include/routingkit/dijkstra.h: Dijkstra::add_source, settle, get_distance_to"]}
{"id": "C16", "title": "Dijkstra returns valid shortest paths", "statement": "get_node_path_to(v) / get_arc_path_to(v) return a path that starts in a source, ends in v, consists of consecutive arcs of the graph and whose length is get_distance_to(v).", "quantifier": "all graphs, weights, sources, reached targets", "why_tests_cant": "The predecessor structure must be acyclic and consistent after each relaxation.", "anchors": ["include/routingkit/dijkstra.h: get_node_path_to, get_arc_path_to"]}
{"id": "C17", "title": "Query objects carry nothing over a reset (Dijkstra)", "statement": "After reset() the answers of a Dijkstra object do not depend on what was done with the object before.", "quantifier": "all histories of use before the reset", "why_tests_cant": "History quantification; lazily cleared state (timestamps) can leak.", "anchors": ["include/routingkit/dijkstra.h: Dijkstra::reset", "include/routingkit/timestamp_flag.h"]}
{"id": "C18", "title": "Strongly connected components", "statement": "compute_strongly_connected_component assigns two nodes the same component id iff each is reachable from the other; ids are a contiguous range in reverse topological order; compute_largest_strongly_connected_component marks exactly one component, of maximum size.", "quantifier": "all directed graphs", "why_tests_cant": "Low-link propagation correctness for every graph and every DFS shape.", "anchors": ["src/strongly_connected_component.cpp"]}
{"id": "C19", "title": "TagMap lookup", "statement": "After build with n <= 65536 key/value pairs, operator[](key) returns the value of the first pair whose key is textually equal, or null if there is none, whatever hash collisions happen.", "quantifier": "all tag lists and all queried keys", "why_tests_cant": "Hash collisions and duplicate keys must be handled for all strings.", "anchors": ["include/routingkit/tag_map.h: TagMap::build, operator[], compute_hash"]}
{"id": "C20", "title": "CCH customization is exact and never overflows", "statement": "For every metric with weights <= inf_weight, after customize() the weight of every CCH arc is the minimum over its input arcs and over all lower triangles, no intermediate 32-bit sum wraps around, and the value of arc (x,y) equals the length of a shortest up-to-there path, i.e. a path from x to y whose interior nodes all have smaller rank than x and y.", "quantifier": "all graphs, all node orders, all metrics", "why_tests_cant": "Statement about all triangles of all chordal supergraphs, including weights near inf_weight.", "anchors": ["src/customizable_contraction_hierarchy.cpp: CustomizableContractionHierarchyMetric::customize, LowerTriangleRelaxer, extract_initial_metric_of_cch_arc"]}
{"id": "C21", "title": "CCH construction yields a chordal supergraph and its elimination tree", "statement": "The CCH of any graph and order contains every (symmetrised, loop-free) input arc, is closed under the fill-in rule (two upper neighbours of a node are adjacent), and each upper neighbour of a node is an ancestor of it in the elimination tree.", "quantifier": "all graphs and orders", "why_tests_cant": "Closure property of an in-place merging algorithm on all graphs.", "anchors": ["src/customizable_contraction_hierarchy.cpp: compute_chordal_supergraph, CustomizableContractionHierarchy::CustomizableContractionHierarchy"]}
{"id": "C22", "title": "CCH queries return shortest distances", "statement": "After customize, add_source/add_target for arbitrary source and target sets with initial distances, run(): get_distance() is the minimum over all sources s and targets t of dist_to_s + d(s,t) + dist_to_t, inf_weight if there is no such path; get_used_source/get_used_target attain it.", "quantifier": "all graphs, orders, metrics, source/target sets", "why_tests_cant": "Optimality over all paths of all graphs.", "anchors": ["src/customizable_contraction_hierarchy.cpp: CustomizableContractionHierarchyQuery::run, add_source, add_target, get_distance"]}
{"id": "C23", "title": "CCH path unpacking", "statement": "get_node_path()/get_arc_path() after a CCH query return a path in the input graph from a used source to a used target whose length is the reported distance.", "quantifier": "all graphs, orders, metrics, queries", "why_tests_cant": "The recursive triangle unpacking must terminate and be length-preserving for all metrics including zero weights.", "anchors": ["src/customizable_contraction_hierarchy.cpp: unpack_shortest_path, unpack_arc, unpack_original_arc, get_node_path, get_arc_path"]}
{"id": "C24", "title": "CCH pinned one-to-many queries", "statement": "run_to_pinned_targets / run_to_pinned_sources return for each pinned node the same distance as an individual query; repeated runs with reset_source / reset_target against the same pinned set stay correct.", "quantifier": "all pinned lists (with duplicates), all sequences of runs", "why_tests_cant": "History over many reuse cycles of the same pinned selection.", "anchors": ["src/customizable_contraction_hierarchy.cpp: pin_targets, run_to_pinned_targets, get_distances_to_targets, reset_source"]}
{"id": "C25", "title": "CCH partial customization equals full customization", "statement": "If a customized metric's weights are changed on some arcs and exactly those arcs are reported with update_arc, then after CustomizableContractionHierarchyPartialCustomization::customize the metric is identical to a metric customized from scratch with the new weights.", "quantifier": "all graphs, orders, old and new metrics, all update sets and update orders", "why_tests_cant": "Equality of an incremental and a from-scratch computation over all changes.", "anchors": ["src/customizable_contraction_hierarchy.cpp: CustomizableContractionHierarchyPartialCustomization::update_arc, customize"]}
{"id": "C26", "title": "CCH parallel customization is schedule independent", "statement": "Parallel customization yields exactly the metric of sequential customization for every thread count and every interleaving of the threads' compare-and-swap steps.", "quantifier": "all graphs, metrics, thread counts and all thread schedules", "why_tests_cant": "The number of schedules is unbounded; races appear in practice only rarely.", "anchors": ["src/customizable_contraction_hierarchy.cpp: CustomizableContractionHierarchyParallelization::customize, atomic_min_to"]}
{"id": "C27", "title": "CCH query objects carry nothing over a reset", "statement": "After reset() a CCH query object answers like a freshly constructed one, whatever sources, targets, runs and pins were used before.", "quantifier": "all histories", "why_tests_cant": "History quantification.", "anchors": ["src/customizable_contraction_hierarchy.cpp: CustomizableContractionHierarchyQuery::reset, reset_source, reset_target"]}
{"id": "C28", "title": "CCH perfect customization", "statement": "Perfect customization lowers each arc weight to the exact shortest distance between its endpoints, and the contraction hierarchy extracted from it answers all queries with the same distances as the full CCH.", "quantifier": "all graphs, orders, metrics", "why_tests_cant": "Optimality over all paths.", "anchors": ["src/customizable_contraction_hierarchy.cpp: build_contraction_hierarchy_using_perfect_witness_search"]}
{"id": "C29", "title": "CH queries return shortest distances", "statement": "For every graph with non-negative weights whose path lengths stay below inf_weight, every contraction order and every max_pop_count, a ContractionHierarchyQuery returns the exact shortest distance between the given sources and targets (inf_weight iff unreachable), with stall-on-demand and early stopping enabled.", "quantifier": "all graphs, orders, witness-search limits, source/target sets", "why_tests_cant": "Optimality over all paths; shortcut omission is only sound because of witness paths.", "anchors": ["src/contraction_hierarchy.cpp: ContractionHierarchy::build, build_given_rank, contract_node, ShorterPathTest, ContractionHierarchyQuery::run"]}
{"id": "C30", "title": "CH path unpacking", "statement": "get_arc_path()/get_node_path() after a CH query return a path of the input graph from a source to a target whose length is the reported distance.", "quantifier": "all graphs, orders, queries", "why_tests_cant": "Recursive unpacking over shortcut tables created by contraction, re-sorting and re-ordering.", "anchors": ["src/contraction_hierarchy.cpp: get_arc_path, get_node_path, unpack_forward_arc, unpack_backward_arc, build_unpacking_information"]}
{"id": "C31", "title": "CH pinned one-to-many queries", "statement": "run_to_pinned_targets / run_to_pinned_sources return for every pinned node the distance an individual query would return.", "quantifier": "all pinned lists, all sequences of runs", "why_tests_cant": "History over many reuse cycles.", "anchors": ["src/contraction_hierarchy.cpp: pin, pinned_run, extract_distances_of_targets"]}
{"id": "C32", "title": "Multi-arc removal keeps shortest distances", "statement": "The arc clean-up that CH construction performs first (sort, drop loops, keep one arc per node pair) keeps exactly one arc per connected ordered node pair, with the minimum weight of the parallel arcs and the id of an input arc that has that weight.", "quantifier": "all arc lists (any number of parallel arcs and loops)", "why_tests_cant": "In-place compaction that compares with already overwritten positions must be right for all patterns.", "anchors": ["src/contraction_hierarchy.cpp: sort_arcs_and_remove_multi_and_loop_arcs"]}
{"id": "C33", "title": "Contraction hierarchy files round-trip", "statement": "Reading what ContractionHierarchy::write wrote returns an equal hierarchy, and the file-size check accepts exactly files of the right size.", "quantifier": "all hierarchies (any node and arc counts)", "why_tests_cant": "Size arithmetic is done partly in 32 bits; only huge hierarchies show the wrap.", "anchors": ["src/contraction_hierarchy.cpp: ContractionHierarchy::write, read, expected file size"]}
{"id": "C34", "title": "Nearest-neighbour index is exact", "statement": "For a distance that is a metric, GeoPositionToNode::find_nearest_neighbor_within_radius returns a point of minimum distance if any point lies within the radius, and nothing otherwise; find_all_nodes_within_radius returns exactly the points within the radius.", "quantifier": "all point sets, query points and radii", "why_tests_cant": "Pruning bounds have to be sound for all configurations, in particular at equality.", "anchors": ["src/geo_position_to_node.cpp: find_nearest_neighbor_within_radius, find_all_nodes_within_radius"]}
{"id": "C35", "title": "Varint decoding", "statement": "decode_varint reads back every 64-bit value from its base-128 encoding, consumes exactly the encoding, never reads past the end, and rejects every encoding whose value does not fit in 64 bits; zigzag decoding is the inverse of zigzag encoding.", "quantifier": "all 64-bit values and all byte strings", "why_tests_cant": "Byte strings are unbounded; malformed encodings are adversarial.", "anchors": ["src/protobuf.cpp: decode_varint_as_uint64_and_advance_first_parameter, zigzag_convert_uint64_to_int64"]}
{"id": "C36", "title": "Protobuf message walking is memory safe and complete", "statement": "decode_protobuf_message_with_callbacks on any byte string either reports exactly the fields the message consists of, in order, or throws; it never reads outside the message and always terminates.", "quantifier": "all byte strings", "why_tests_cant": "Adversarial inputs.", "anchors": ["src/protobuf.h: decode_protobuf_message_with_callbacks"]}
{"id": "C37", "title": "Asynchronous buffered reading delivers the source's bytes", "statement": "Under every interleaving of the reader and its worker thread, the concatenation of the blocks returned by read() is a prefix of the source's byte stream, a returned block is not overwritten before the next call, read returns null only if fewer bytes remain in the source, and every read call eventually returns or throws.", "quantifier": "all byte sources, read-size sequences and thread schedules", "why_tests_cant": "Unboundedly many schedules; the wrap-around of the ring buffer depends on all read sizes. (A source exception can be lost: lost wake-up.)", "anchors": ["src/buffered_asynchronous_reader.cpp: BufferedAsynchronousReader"]}
{"id": "C38", "title": "Nested dissection orders", "statement": "compute_nested_node_dissection_order returns a permutation of the nodes for every separator function, and the decomposition tree's separator ranges partition the order such that two nodes in different child subtrees are not adjacent.", "quantifier": "all graphs and separator functions that make progress", "why_tests_cant": "Recursive decomposition over arbitrary graphs.", "anchors": ["src/nested_dissection.cpp: compute_separator_decomposition, decompose_graph_fragment_into_connected_components, make_graph_fragment"]}
{"id": "C39", "title": "Inertial flow cuts are minimum cuts", "statement": "When BlockingFlow is finished, the returned source, target and balanced cuts separate sources from targets, and cut_size is the number of arcs that cross the cut and is the minimum over all cuts.", "quantifier": "all undirected graphs and disjoint source/target sets", "why_tests_cant": "Max-flow min-cut optimality.", "anchors": ["src/nested_dissection.cpp: BlockingFlow"]}
{"id": "C40", "title": "Vector files round-trip", "statement": "load_vector(save_vector(v)) = v for element vectors, strings without embedded NUL and bit vectors; loads reject files of inconsistent size.", "quantifier": "all vectors", "why_tests_cant": "Universally quantified.", "anchors": ["include/routingkit/vector_io.h", "src/vector_io.cpp"]}
{"id": "C41", "title": "Saturated weight addition", "statement": "SaturatedWeightAddition computes min(l+r, inf_weight) for unsigned weights up to inf_weight, and clamps the exact sum into the int range for ints, with no overflow; the unsigned variant is commutative, associative and monotone.", "quantifier": "all pairs/triples of 32-bit values", "why_tests_cant": "2^64 input pairs.", "anchors": ["include/routingkit/contraction_hierarchy.h: SaturatedWeightAddition"]}
{"id": "C42", "title": "Extra weights follow the shortest path", "statement": "ContractionHierarchyExtraWeight assigns every CH arc the linked extra weight of the input arcs it represents, and get_extra_weight_distance returns the linked extra weight of the arc path that get_arc_path returns, for every associative link function.", "quantifier": "all hierarchies, all extra weights, all associative link functions", "why_tests_cant": "Universally quantified over algebraic structures.", "anchors": ["include/routingkit/contraction_hierarchy.h: ContractionHierarchyExtraWeight::reset, get_extra_weight_distance"]}
{"id": "C43", "title": "OSM string ids and coordinates are decoded safely and as specified", "statement": "Every tag string id of a block is checked against the string table before use, and a node's latitude/longitude are offset + granularity * value with the offset of the respective axis.", "quantifier": "all PBF blocks", "why_tests_cant": "Adversarial inputs. (The tag check admits id == table size; the axes' offsets are interchanged, and dense nodes add the offset once per node.)", "anchors": ["src/osm_decoder.cpp: internal_read_osm_pbf"]}
{"id": "C44", "title": "The CCH constructor succeeds on every graph and order", "statement": "For every graph, node order and choice of optional arguments, the CustomizableContractionHierarchy constructor finishes without undefined behaviour or exception.", "quantifier": "all graphs (including the empty one), orders, with and without log function, with and without filtering of always-infinity arcs", "why_tests_cant": "Statement about all inputs and argument combinations of the constructor; the failing combinations are corner cases nobody runs.", "anchors": ["src/customizable_contraction_hierarchy.cpp: CustomizableContractionHierarchy::CustomizableContractionHierarchy", "include/routingkit/customizable_contraction_hierarchy.h: constructor default arguments"]}
{"id": "C45", "title": "The check for contraction hierarchies", "statement": "check_contraction_hierarchy_for_errors accepts exactly the hierarchies whose arrays fit together, whose arcs all go upwards, whose orders are inverse to the ranks and whose shortcuts point to two earlier arcs that add up to their weight; it accepts every hierarchy the library constructs.", "quantifier": "all values of class ContractionHierarchy with an order that is a permutation; all graphs for the second part", "why_tests_cant": "Exact characterisation over arbitrary, also corrupt, hierarchies; tests only see hierarchies that were built correctly.", "anchors": ["src/contraction_hierarchy.cpp: check_contraction_hierarchy_for_errors"]}
{"id": "C46", "title": "CH construction keeps the lengths of all walks", "statement": "For every graph and every contraction order, given or computed, construction terminates without failing an assertion, and for every walk of the graph the hierarchy contains a walk between the same nodes that goes up and then down and is not longer; every arc of it stands for an input arc or for two arcs at a lower node.", "quantifier": "all graphs (parallel arcs and loops allowed), ranks, orders, limits of the witness search; weights of any size", "why_tests_cant": "Needs all walks of all graphs, and the witness search may stop anywhere.", "anchors": ["src/contraction_hierarchy.cpp: ContractionHierarchy::build, build_given_rank, build_given_order", "src/contraction_hierarchy.cpp: contract_node, ShorterPathTest"]}
{"id": "C47", "title": "Inertial flow", "statement": "inertial_flow returns a minimum cut between the first and the last p percent of the nodes with respect to one of the four directions, no such cut of another direction is smaller, and both sides have at least p percent of the nodes. compute_nested_node_dissection_order_using_inertial_flow returns a permutation of the nodes of every graph, whatever the coordinates are.", "quantifier": "all graphs, all coordinates", "why_tests_cant": "Optimality over all cuts and termination of four interleaved flow computations for all graphs; the 32-bit product in the size of a side overflows only for graphs with more than 100 million nodes.", "anchors": ["src/nested_dissection.cpp: select_source_and_target, inertial_flow, compute_nested_node_dissection_order_using_inertial_flow"]}
{"id": "C48", "title": "Which nodes and ways of an OSM file matter", "statement": "load_osm_id_mapping_from_pbf ends for every file and marks exactly: as routing ways the ways with at least two nodes that the predicate accepts; as modelling nodes the nodes that the node predicate accepts and all nodes of these ways; as routing nodes the accepted nodes, the ends of these ways and the nodes listed at least twice by them (or all modelling nodes, if asked for). The order of the elements in the file plays no role.", "quantifier": "all files, all predicates, all 64-bit ids", "why_tests_cant": "The sets depend on all pairs of ways of a file and on the order in which a single pass meets them; ids from the whole 64-bit range cannot be tried.", "anchors": ["src/osm_graph_builder.cpp: load_osm_id_mapping_from_pbf", "src/bit_vector.cpp: BitVector::make_large_enough_for"]}
{"id": "C49", "title": "The graph of an OSM file", "statement": "load_osm_routing_graph_from_pbf builds for every file and the sets found by the scan of that file the graph whose nodes are the routing nodes in the order of their ids with their positions, and whose arcs are, for every way that is not closed and every part of it between two consecutive routing nodes, one arc for each direction that is open. Each arc has the length of its part, the local id of its way, the flag for the opposite direction and the geometry of the inner nodes in the order of travel. The arcs are sorted by tail and head and the adjacency array fits.", "quantifier": "all files, callbacks, geometry options and distance functions", "why_tests_cant": "Quantifies over all files and options; the geometry is permuted together with the arcs and an error shows only for particular orders of ids.", "anchors": ["src/osm_graph_builder.cpp: load_osm_routing_graph_from_pbf lines 116-367"]}
{"id": "C50", "title": "Turn restrictions become forbidden turns", "statement": "load_osm_routing_graph_from_pbf turns the restrictions of a file into a list of forbidden turns, sorted by first and second arc and without duplicates. A turn is in the list if and only if a restriction whose ways and via node belong to the graph forbids it. A prohibitive restriction forbids the turn it means: the only pair of an arc of the from-way into the via node and an arc of the to-way out of it, or else the only such pair with the direction of the restriction. A mandatory one forbids all other turns from the first arc of that pair. If no via node is given, it is the node at which the ways meet; an order to go straight on along a way forbids to leave the way.", "quantifier": "all files, restrictions, geometries and angle tests", "why_tests_cant": "Which turn is meant depends on all arcs of both ways at the node and on scratch arrays that are reused for all restrictions; wrong results show only for particular combinations of ways.", "anchors": ["src/osm_graph_builder.cpp: load_osm_routing_graph_from_pbf lines 375-829"]}
{"id": "C51", "title": "Speed limits are respected", "statement": "get_osm_way_speed is defined for all tags and gives a speed between 1 and 2^31-2 km/h. The speed is at most each number posted in the tag maxspeed (a semicolon separated list; km/h, mph or knots), and the smallest of them if all values are such numbers. Without the tag the speed is that of the kind of road.", "quantifier": "all tags, all strings, all contents of the stack buffer", "why_tests_cant": "The parser works on a fixed stack buffer that is truncated, split in place and rescanned; the truncation and the 32-bit overflow show only for long values.", "anchors": ["src/osm_profile.cpp: get_osm_way_speed, parse_maxspeed_value, split_str_at_osm_value_separators, copy_str_and_make_lower_case"]}
{"id": "C52", "title": "Access and direction of a way obey its tags", "statement": "A way is used by cars only if it is a road, no tag closes it for motor vehicles and access is free; roads on which nothing forbids cars are used. Bicycles and pedestrians use a way only if access is free, it is not forbidden for them and it is not a motorway or the like (bicycles: without a cycleway). The directions follow the tag oneway (or, without it, roundabouts and motorways are open forwards only), and bicycles follow the same directions as cars if no tag speaks about bicycles. A way with an unknown direction is closed. Every road used by cars has a speed of its own. The result depends only on the values of the tags, not on their order.", "quantifier": "all sets of tags", "why_tests_cant": "The combinations of tags and values are infinitely many, and the functions for cars, bicycles and speeds list the values separately.", "anchors": ["src/osm_profile.cpp: is_osm_way_used_by_cars, is_osm_way_used_by_bicycles, is_osm_way_used_by_pedestrians, get_osm_car_direction_category, get_osm_bicycle_direction_category, get_osm_way_bicycle_comfort_level"]}
{"id": "C53", "title": "Relations become turn restrictions", "statement": "decode_osm_car_turn_restrictions reports for a relation exactly the restrictions that it describes: the tag restriction is only_ or no_ followed by one of the four directions, there is no via member or a single one, which is a node, and the restriction leads from a way with the role from to a way with the role to. A mandatory restriction is reported only if there is one way for each of the two roles, and then once.", "quantifier": "all relations, tags and members with ids below 2^64-1", "why_tests_cant": "Quantifies over all lists of members, roles and types; members of the wrong type are skipped one by one.", "anchors": ["src/osm_profile.cpp: decode_osm_car_turn_restrictions"]}
{"id": "C54", "title": "The graphs for cars, bicycles and pedestrians", "statement": "The three simple loaders build for every file the graph of the ways that the means of transport uses, in the directions that are open for it. The travel time of an arc for cars is the time in milliseconds for its length at the speed of its way, rounded down, and the forbidden turns are those of the restrictions of the file. The comfort level of an arc for bicycles is that of its way. In the graph for pedestrians every arc has a reverse arc of the same length.", "quantifier": "all files in which each way id occurs once, all tags, both settings of all_modelling_nodes_are_routing_nodes", "why_tests_cant": "Speeds and comfort levels are stored by callbacks under local way ids and read for arcs that were sorted afterwards; the overflow of the travel time shows only for very long arcs.", "anchors": ["src/osm_simple.cpp"]}
{"id": "C55", "title": "Reading the blocks of an OSM file", "statement": "unordered_read_osm_pbf reports exactly the requested elements of the blocks of data of a PBF file, in the order of the file, skips blocks of unknown types, refuses files that need features which are not supported, and reports an error for a file that was cut off. Reading any sequence of bytes terminates without undefined behaviour and never buffers more than the limit of the format.", "quantifier": "all files (for the elements: all files in the format whose features are supported), all requested kinds, all decompression functions that undo the compression", "why_tests_cant": "Corrupted lengths, blobs without a size, features whose names begin like others and files cut at an unlucky place are each a tiny part of all sequences of bytes.", "anchors": ["src/osm_decoder.cpp:1-275", "src/osm_decoder.cpp:646-663"]}
{"id": "C56", "title": "The order of the elements of an OSM file", "statement": "ordered_read_osm_pbf reports first all requested nodes, then all requested ways, then all requested relations, by reading the file three times unless its header or the caller says that it is sorted. It does not depend on how the reading thread and the decompressing thread are interleaved, and it terminates.", "quantifier": "all files in the format whose features are supported, all requested kinds, all interleavings", "why_tests_cant": "The status is shared between two threads; a wrong order shows only in files that are not sorted; a header that is refused leaves the waiting loop without an end.", "anchors": ["src/osm_decoder.cpp:665-718"]}
{"id": "C57", "title": "The checks of input files", "statement": "check_if_graph_is_valid, check_if_arc_ipp_are_valid, check_if_td_graph_is_valid and check_if_sst_queries_are_valid return exactly for arrays that describe a graph, one non-empty sorted list of interpolation points per arc within the period, and queries within the graph, and throw for all others. The functions of min_max.h find the first smallest or largest element.", "quantifier": "all arrays, all periods, all node counts, all strict weak orders", "why_tests_cant": "A check that accepts one malformed array too many is only seen by a file that is malformed in exactly that way.", "anchors": ["src/verify.cpp:8-92", "include/routingkit/min_max.h"]}
{"id": "C58", "title": "The distance programs, from files to files", "statement": "run_dijkstra writes the distances between all pairs of the source and target files. compute_contraction_hierarchy writes a hierarchy file from which run_contraction_hierarchy_query computes the same file of distances, for every order of contraction and every working memory. Graph files that do not describe a graph are refused.", "quantifier": "all graph files, all query files, all contraction orders, all witness search outcomes", "why_tests_cant": "The claim joins the file formats, the construction, the stored hierarchy and the queries of three programs for every graph.", "anchors": ["src/run_dijkstra.cpp:21-117", "src/compute_contraction_hierarchy.cpp:15-71", "src/run_contraction_hierarchy_query.cpp:16-78"]}
{"id": "C59", "title": "Dijkstra rank queries", "statement": "generate_dijkstra_rank_test_queries writes, for every source drawn, the nodes number 2^6, 2^7, ... in the order of their distance from it, together with the exponent as rank and the distance.", "quantifier": "all graph files, all random sources", "why_tests_cant": "The files are benchmarks for other programs; a wrong rank makes no program fail.", "anchors": ["src/generate_dijkstra_rank_test_queries.cpp:18-110"]}
{"id": "C60", "title": "DIMACS files", "statement": "convert_road_dimacs_graph turns every file in the DIMACS format into files that store exactly its arcs, sorted by tail and head and otherwise in their order; whatever it accepts becomes a graph; files in another format are refused. export_road_dimacs_graph writes a file in the DIMACS format with the arcs of the graph. Exporting and converting gives back the same files if the heads are sorted.", "quantifier": "all texts, all graph files", "why_tests_cant": "The texts and the graphs are unbounded, and the numbers on their lines can have any value and form.", "anchors": ["src/convert_road_dimacs_graph.cpp:34-109", "src/export_road_dimacs_graph.cpp:35-71"]}
{"id": "C61", "title": "Permuting the nodes of a graph", "statement": "For every permutation that is drawn, randomly_permute_nodes replaces the graph files by files of the same graph with renamed nodes and sorted heads; every arc keeps all its weights, so that all distances stay the same. Files that do not describe a graph are refused.", "quantifier": "all graph files, all numbers of weight files, all permutations, all unstable sorts", "why_tests_cant": "The permutation depends on the seed, and a mixed-up weight gives a valid file again.", "anchors": ["src/randomly_permute_nodes.cpp:34-92", "include/routingkit/sort.h:223-247"]}
{"id": "C62", "title": "Encoding and decoding vectors", "statement": "encode_vector succeeds exactly if every line starts with a number of the given integer type, and then writes the bytes of these numbers; decode_vector prints one number or one escaped string per line. Decoding a file and encoding the text again gives the same file.", "quantifier": "all texts, all files, all integer types; all strings", "why_tests_cant": "The texts, files and strings are unbounded, and whether a string survives depends on which characters follow each other.", "anchors": ["src/encode_vector.cpp:11-61", "src/decode_vector.cpp:11-33"]}
{"id": "C63", "title": "Comparing vectors", "statement": "compare_vector says which file is shorter; otherwise it says that the vectors are the same exactly if they are equal, or how many elements are smaller in the first or in the second, the same or different, and the first index at which they differ.", "quantifier": "all pairs of files, all integer types, float, and strings", "why_tests_cant": "The vectors are unbounded, and a program that counts wrongly agrees on most of them.", "anchors": ["src/compare_vector.cpp:10-81"]}
{"id": "C64", "title": "File data sources", "statement": "In every sequence of operations on FileDataSource variables every variable has a descriptor of its own, and after the variables have been destroyed no descriptor is open. What is read from a variable or its function object are consecutive bytes of its file, whatever is done to other variables; at the end the whole file has been delivered. size is the size of the file.", "quantifier": "all sequences of operations on any number of variables and function objects, all files, all partial reads, all choices of descriptors", "why_tests_cant": "The sequences are unbounded, and how many bytes the operating system returns and which descriptors it chooses differ from run to run.", "anchors": ["src/file_data_source.cpp:18-188", "src/file_data_source.h:13-49"]}
{"id": "C65", "title": "Geographic distances are great circle distances", "statement": "In exact arithmetic geo_dist is the length of the great circle between two positions on a sphere with radius 6371000.785 m, up to 5 micrometers that are due to the constant for pi. It is a metric: symmetric, not negative, at most half the circumference, with the triangle inequality, and zero exactly for positions that are the same point of the sphere. The formula in the constructor of GeoPositionToNode gives the same result.", "quantifier": "all real latitudes and longitudes (the bound of 5 micrometers: in the documented ranges)", "why_tests_cant": "Coordinates are continuous, and the triangle inequality is about all triples of positions.", "anchors": ["include/routingkit/geo_dist.h:9-121", "src/geo_position_to_node.cpp:48-106"]}
{"id": "C66", "title": "Nearest positions on the sphere", "statement": "The constructor of GeoPositionToNode, with its vectorised loop, builds an index with which find_nearest_neighbor_within_radius finds a position with the smallest great circle distance if one is within the radius, and find_all_nodes_within_radius finds exactly the positions within the radius, with their distances.", "quantifier": "all lists of latitudes and longitudes of the same length, all query positions and radii, every std::nth_element; exact arithmetic", "why_tests_cant": "The pruning rests on the triangle inequality for all triples of positions, and blocks of sixteen lanes can end anywhere.", "anchors": ["src/geo_position_to_node.cpp:15-230", "include/routingkit/geo_position_to_node.h:10-40"]}
{"id": "C67", "title": "Geographic weights", "statement": "compute_geographic_distance_weights writes for every arc the great circle distance between its ends in whole meters, rounded down, for every graph with coordinates, and refuses files that are not a graph. The length of a walk is at least the great circle distance of its ends minus one meter per arc.", "quantifier": "all files with graphs and coordinates, all walks; exact arithmetic", "why_tests_cant": "Graphs, coordinates and walks are unbounded.", "anchors": ["src/compute_geographic_distance_weights.cpp:38-66"]}
{"id": "C68", "title": "compute_nested_dissection_order", "statement": "For every stored graph with coordinates the program writes a permutation of its nodes, which is the order of a separator decomposition of the graph; files that do not describe a graph are refused. Inertial flow cuts between nodes with extreme latitudes, longitudes, sums or differences of both: the cut is a minimum cut between such extremes of one of the four keys, and none of the four has a smaller one.", "quantifier": "all files, every std::nth_element, every type of coordinates with a comparison, all contents of uninitialised memory", "why_tests_cant": "Graphs and coordinates are unbounded, and std::nth_element may leave equal keys in any order.", "anchors": ["src/compute_nested_dissection_order.cpp:35-56", "src/nested_dissection.cpp:443-609", "src/nested_dissection.cpp:851-879"]}
{"id": "C69", "title": "From an order file to distances", "statement": "The order that compute_nested_dissection_order writes can be loaded and used to build a CCH of the graph; customization works for all weights of at most inf_weight; every query of a source and a target gives the distance in the graph and a shortest path. The distances are those that run_dijkstra writes.", "quantifier": "all stored graphs with at least one node, coordinates that are numbers (no NaN) and weights of at most inf_weight, all pairs of nodes, with and without filter", "why_tests_cant": "The whole chain of programs and classes has to fit together for all graphs.", "anchors": ["src/compute_nested_dissection_order.cpp:35-56", "src/customizable_contraction_hierarchy.cpp", "src/run_dijkstra.cpp:40-111"]}
{"id": "C70", "title": "From an OSM file to shortest routes", "statement": "The graphs of the simple loaders for pedestrians, bicycles and cars can be ordered by their coordinates, made into a CCH and customized with their lengths or travel times; a query between two nodes then gives the length of a shortest route between their OSM ids along the ways of the file, and the arcs of such a route.", "quantifier": "all files in which each way id occurs once and whose positions are numbers (no NaN), for graphs with at least one node whose arcs are not longer than inf_weight (cars: shorter than 238610 m), all pairs of nodes of the graph", "why_tests_cant": "The statement is about all files and spans local ids, sorted arcs, orders, shortcuts and unpacking.", "anchors": ["src/osm_simple.cpp", "src/osm_graph_builder.cpp", "src/nested_dissection.cpp:851-879", "src/customizable_contraction_hierarchy.cpp"]}
{"id": "C71", "title": "convert_road_dimacs_coordinates", "statement": "The program writes two files exactly if the text has a header line with the number of nodes and every node has exactly one position line; the files then contain these positions by node. Every other text, in particular one with a missing, repeated or unknown node or with extra words, is refused with an error.", "quantifier": "all sequences of bytes as input, every encoding of numbers by bytes", "why_tests_cant": "Inputs are arbitrary byte sequences: lines in any order, comments, signs, numbers that do not fit, missing newlines.", "anchors": ["src/convert_road_dimacs_coordinates.cpp:32-100"]}
{"id": "C72", "title": "Accuracy of stored positions", "statement": "The float that the program stores for k millionths of a degree is a number that differs from k/1000000 by at most 8 millionths if |k| is at most 180000000. Storing never reverses the order of two positions, and the four bytes give back the float.", "quantifier": "all numbers that can be read (the error: up to 180 degrees), IEEE 754 arithmetic with rounding to nearest even", "why_tests_cant": "There are 2^64 numbers, each rounded three times.", "anchors": ["src/convert_road_dimacs_coordinates.cpp:46", "src/convert_road_dimacs_coordinates.cpp:86-87", "src/convert_road_dimacs_coordinates.cpp:98-99"]}
{"id": "C73", "title": "From DIMACS texts to shortest routes", "statement": "Let one text list the arcs and another the positions of a road network. The files that convert_road_dimacs_graph, convert_road_dimacs_coordinates and compute_nested_dissection_order write from them can be loaded and give a CCH. After customization with the weights, every query gives the length of a shortest route along the arcs of the text, and the unpacked path has the nodes of such a route.", "quantifier": "all pairs of texts with at least one node and weights of at most inf_weight, all pairs of nodes, with and without filter, IEEE 754 floats, every std::nth_element", "why_tests_cant": "The chain of four programs and the query has to be right for all networks.", "anchors": ["src/convert_road_dimacs_graph.cpp", "src/convert_road_dimacs_coordinates.cpp", "src/compute_nested_dissection_order.cpp:35-56", "src/nested_dissection.cpp:443-609", "src/customizable_contraction_hierarchy.cpp"]}
{"id": "C74", "title": "osm_extract", "statement": "From an OSM file the program writes eleven files: the graph of the ways that cars use (adjacency array, lengths, ways, positions), the travel times in milliseconds, the name and the speed of every way, and the sets of the OSM ids of nodes and ways. Their contents are determined by the elements of the file. The numbers printed are those of an arc that takes the longest, with its length, its speed and its OSM way.", "quantifier": "all lists of OSM elements in which every way id occurs once, ids below 2^62, with and without assertions, every arithmetic of float and double", "why_tests_cant": "Files, tags and crossings can be combined in infinitely many ways, and each file of the output depends on several passes over the input.", "anchors": ["src/osm_extract.cpp:69-136", "src/osm_graph_builder.cpp:21-360", "src/osm_profile.cpp"]}
{"id": "C75", "title": "From an OSM file over files to distances between OSM nodes", "statement": "The files of osm_extract can be used by the other programs. run_dijkstra gets queries by local ids, the positions of OSM nodes among the ids in the file of nodes, and writes the length of a shortest route for cars between the OSM nodes, by travel time or by length. So do compute_contraction_hierarchy and the program that runs queries on its file. The order that compute_nested_dissection_order writes gives a CCH whose queries return the travel time of a shortest route and such a route.", "quantifier": "all files for which C74 holds with at least one arc, arcs shorter than 238610 metres and numbers that fit into 32 bits; all queries between nodes of the graph; for Dijkstra, routes below inf_weight; for the hierarchy, shortcuts that fit into the file", "why_tests_cant": "The chain of programs has to be right for all networks.", "anchors": ["src/osm_extract.cpp:69-136", "src/run_dijkstra.cpp", "src/compute_contraction_hierarchy.cpp", "src/run_contraction_hierarchy_query.cpp", "src/compute_nested_dissection_order.cpp:35-56", "src/customizable_contraction_hierarchy.cpp"]}
{"id": "C76", "title": "The programs that generate files", "statement": "generate_constant_vector writes the given number as often as the given size says. generate_test_queries writes two files with the given number of nodes each, all of them nodes of the graph, so that the programs that run queries can use them. generate_random_node_list and generate_random_source_times write the given number of nodes, or of times below the period; node counts and periods may be given as numbers or by a file.", "quantifier": "all arguments, all files, all generators of random numbers that keep to the range of the distribution", "why_tests_cant": "The output is random, the arguments are arbitrary texts, and a test runs a single seed.", "anchors": ["src/generate_constant_vector.cpp:23-36", "src/generate_test_queries.cpp:24-49", "src/generate_random_node_list.cpp:25-47", "src/generate_random_source_times.cpp:25-47"]}
{"id": "C77", "title": "show_path and examine_ch", "statement": "From a file written by compute_contraction_hierarchy and files with positions, show_path prints for each query of its input a document in the format KML with the positions of the source and the target, the distance, and the positions along a shortest route; without a route the line is empty. A query that asks for nodes outside of the graph ends the program with an error after the documents of the queries before it. examine_ch prints the numbers of nodes and arcs of the hierarchy.", "quantifier": "all graphs for which compute_contraction_hierarchy works, all positions and ways to print them, all inputs", "why_tests_cant": "Any text can be the input, and routes have to be shortest in every graph.", "anchors": ["src/show_path.cpp:17-76", "src/examine_ch.cpp:40-43"]}
{"id": "C78", "title": "graph_to_dot and graph_to_svg", "statement": "graph_to_dot writes one line per arc with its ends and its weight. graph_to_svg writes one line per arc between the positions of its ends, where coordinates are mapped linearly to the square from 0 to 300 with an error of at most 1/8192, keep their order, and the vertical axis is reversed.", "quantifier": "all graphs in files and all IEEE floats as coordinates up to 2^63 in absolute value that are not all the same", "why_tests_cant": "Rounding depends on the values of the coordinates; the points outside of the square are rare.", "anchors": ["src/graph_to_dot.cpp:32-51", "src/graph_to_svg.cpp:35-77", "include/routingkit/min_max.h:21-58"]}
{"id": "C79", "title": "Replacements of functions of the compiler", "statement": "Without the extensions of GCC: the emulated popcount and popcountll count the bits that are set, ffsll returns one plus the index of the lowest set bit or 0. The parallel customization with the emulated compare-and-swap, which takes a mutex, cannot get stuck, always ends, and ends with the metric that the sequential customization computes; no two threads are inside of the compare-and-swap at the same time.", "quantifier": "all words of 64 bits; all CCHs and weights, all numbers of threads, all interleavings of memory accesses and locks", "why_tests_cant": "Interleavings cannot be controlled, and the loads outside of the mutex race with the stores inside of it.", "anchors": ["src/emulate_gcc_builtin.h:12-49", "src/customizable_contraction_hierarchy.cpp:807-945"]}
{"id": "C80", "title": "Memory of bit vectors", "statement": "Programs that construct, copy, move, assign, swap, resize, combine and destroy BitVector objects: each object has the value it should have, each block of memory belongs to exactly one object, no operation touches memory that is not allocated, an operation throws only when an allocation failed and then changes nothing, and when all objects are destroyed no memory is left.", "quantifier": "all sequences of operations on any number of variables, all allocators (also ones that fail at any call), all contents of fresh memory", "why_tests_cant": "Aliasing (self-assignment, self-move, moved-from objects) and failing allocations have unboundedly many combinations.", "anchors": ["include/routingkit/bit_vector.h:12-145", "src/bit_vector.cpp:178-310", "src/bit_vector.cpp:312-367"]}
{"id": "C81", "title": "Sizes of bit vectors in 64 bits and the replacement of aligned_alloc", "statement": "The number of bytes that is allocated suffices for the bits and exceeds them by less than a block; make_large_enough_for ends with the least power of two that is larger than the index; the replacement of aligned_alloc returns an aligned address whose bytes are inside of the block of malloc, writes nothing outside of it, and aligned_free gives back exactly that block whatever was written and allocated meanwhile. False: no memory for sizes above 2^64-512, an infinite loop from index 2^63 on, and a write to address 63 when malloc fails.", "quantifier": "all sizes, indices, alignments below 256, results of malloc, and memories", "why_tests_cant": "Sizes near 2^64 and a failing malloc are not reachable in tests.", "anchors": ["src/bit_vector.cpp:26-42", "src/bit_vector.cpp:103-113", "src/bit_vector.cpp:370-393"]}
{"id": "C82", "title": "Construction of a contraction hierarchy with 32-bit numbers", "statement": "If no sum or product that build, build_given_rank or build_given_order computes has a result of more than 32 bits, they make the hierarchy that unbounded numbers give, and queries on it return the distances. If no weight of the hierarchy that comes out is above 357913941 = (2^32 - 1) / 12 and no weight that goes in above twice this number, then the hierarchy is right, even if node importances or hop counts have wrapped around. False otherwise: the weight of a shortcut can wrap around, and the query then returns a distance that no path has, although all input weights and the true distance are far below inf_weight.", "quantifier": "all graphs, weights, orders, limits of the witness search", "why_tests_cant": "Tests use small weights; the sums of the witness search and of shortcuts that are replaced later are not visible in the result.", "anchors": ["src/contraction_hierarchy.cpp:229-593", "src/contraction_hierarchy.cpp:608-830"]}
{"id": "C83", "title": "Sorting by comparator, unstable sorting and moving overloads", "statement": "For every strict weak order on the elements, the functions of sort.h by comparator and by less return the (stable) sorting permutation, its inverse or the sorted vector, and is_sorted tells whether the vector is sorted; the unstable variants do so for every std::sort that keeps the promise of the standard, also when sorting by key. The overloads that move elements return what the copying ones return, whatever a move leaves behind. False for vectors of 2^32 elements: the size is cut to 32 bits, the permutation is empty and is_sorted does not end.", "quantifier": "all element types, comparators that are strict weak orders on the vector, vectors with less than 2^32 elements, all implementations of std::sort, all states of objects moved from", "why_tests_cant": "Quantifies over all comparators, all implementations of std::sort and all moved-from states; the failing sizes do not fit into a test.", "anchors": ["include/routingkit/sort.h: *_using_comparator, *_using_less, sort_using_key, compute_inverse_sort_permutation_using_key", "include/routingkit/permutation.h: apply_permutation, apply_inverse_permutation (moving overloads)"]}
{"id": "C84", "title": "Coordinates of OSM nodes in floating point", "statement": "In a block without offsets, whose coordinates are between -180 and 180 degrees, the double computed for the i-th node of a dense group is finite and differs from the coordinate in the file by at most (i+1) * 2^-42 degrees; with the usual granularity of 10^-7 degrees and up to 200000 nodes no other coordinate is as near, so that the coordinate can be read off; the float in the graph differs by at most 8 millionths of a degree. False without error bounds: two nodes of one group at the same place may get different doubles, and a node need not get the double nearest to its coordinate.", "quantifier": "all granularities, all lists of differences whose sums are between -180 and 180 degrees, all nodes of the group", "why_tests_cant": "Rounding errors accumulate over the group; a bound for all lists of differences needs an analysis of every rounding.", "anchors": ["src/osm_decoder.cpp: decode_dense_node, decode_sparse_node", "src/osm_graph_builder.cpp: load_osm_routing_graph_from_pbf (latitude, longitude)"]}
{"id": "C85", "title": "How long a mapper of ids may be used", "statement": "A LocalIDMapper or IDMapper keeps a pointer to the memory of the bit vector it was made for. It answers all queries as C06 says after every program that only moves or swaps this vector, or leaves it alone, whatever it does with other vectors and whichever allocations fail. False in general: after a change of a bit two ids may have the same local id, and after resizing, destroying or assigning the vector, even to itself, the mapper reads memory that was freed.", "quantifier": "all programs before and after the mapper is made, all allocators, all patterns of failing allocations, all queries", "why_tests_cant": "Use of freed memory often goes unnoticed in a run; the statement is about all programs and allocators.", "anchors": ["include/routingkit/id_mapper.h: LocalIDMapper, IDMapper", "src/id_mapper.cpp", "src/bit_vector.cpp: constructors, assignment, swap, resize"]}
{"id": "C86", "title": "Files on devices that fail", "statement": "Whatever the device and the buffer of the stream do, a saved file is a prefix of the bytes it should have. Writing through write_value, write_vector and ContractionHierarchy::save_file throws only if something is lost, and does so always if the stream has no buffer. A proper prefix of a bit vector or of a hierarchy is never accepted by the loading functions, and a hierarchy of which not all bytes can be read is refused. False in general: losses are reported. save_vector and save_bit_vector never look at the stream, save_vector of strings does not even notice that the file can not be opened, the destructor loses the buffer silently, and load_vector gives zeros for what it could not read.", "quantifier": "all vectors, bit vectors and hierarchies, all sizes of the device, all ways to buffer, all numbers of readable bytes", "why_tests_cant": "Full disks and read errors are hardly ever tested, and the time at which a buffer is written is chosen by the library.", "anchors": ["include/routingkit/vector_io.h", "src/vector_io.cpp", "src/contraction_hierarchy.cpp: read, write, load_file, save_file"]}
{"id": "C87", "title": "Copying, moving and swapping queues and flags", "statement": "Objects of MinIDQueue, TimestampFlags and IDSetMinQueue are values: in every program that constructs, copies, moves, swaps and calls any number of them, each call gives the result of C01, C02 or C03 for the value of its object; copies are independent, and moving and swapping take the value along. Flags that were moved from or default constructed have no ids. False in general: an object that was moved from is usable. A MinIDQueue claims to have elements that it does not have, and clear reads outside of a vector; an IDSetMinQueue keeps its number of ids without memory for them; and a default constructed IDSetMinQueue answers from uninitialised numbers.", "quantifier": "all programs over any number of objects, all uninitialised values, with and without assertions", "why_tests_cant": "The operations are generated by the compiler and what they leave behind is only seen in unusual orders of calls.", "anchors": ["include/routingkit/id_queue.h: MinIDQueue", "include/routingkit/timestamp_flag.h: TimestampFlags", "include/routingkit/id_set_queue.h: IDSetMinQueue"]}
{"id": "C88", "title": "Floating point numbers in protobuf messages", "statement": "A message that was written with varints, strings, doubles and floats leads to one call per field, in order, with what was written: doubles arrive bit for bit, floats as doubles of the same value, including signed zeros, subnormal numbers, infinities and NaN; on any bytes the walk is that of C36. False by the letter of the standard: the numbers are read through cast pointers, and a message with two doubles in a row is undefined wherever it lies.", "quantifier": "all lists of fields, all floats and doubles, all start addresses, all byte sequences", "why_tests_cant": "All numbers are covered, and misaligned reads work on the machines on which tests are run.", "anchors": ["src/protobuf.h: decode_protobuf_message_with_callbacks"]}
{"id": "C89", "title": "Comparing files of floating point numbers and large files", "statement": "compare_vector prints for all files with less than 2^32 elements of type float32, float64 or an integer type how many elements are less and greater and the first index at which the elements are not equal, with NaN neither less than, equal to nor greater than anything, and for strings how many are the same; vectors of doubles are said to be the same if and only if at each index the numbers are equal or one of them is NaN. False: the first element that differs may be among those said to be the same, and for 2^32 elements or more the program never ends.", "quantifier": "all files, all bit patterns of floats and doubles, all sizes", "why_tests_cant": "All pairs of bit patterns and files of 4 GB and more are covered.", "anchors": ["src/compare_vector.cpp: compare_num_data, compare_string_data"]}
{"id": "C90", "title": "Errors while reading a FileDataSource", "statement": "In the POSIX variant each error of the system while reading leads to exactly one exception, which is without effect: whoever tries again gets all bytes of the file in order, none lost and none twice, and an empty answer means that all has been given. In the variant with FILE the same holds without errors, and each read then gives as much as there is. False for this variant with errors: the bytes read before the error are lost, and after one error every read throws, even after rewind, although nothing fails any more.", "quantifier": "all files, all sequences of reads and rewinds, all behaviours of the system", "why_tests_cant": "Errors of devices and signals while reading do not occur in tests.", "anchors": ["src/file_data_source.cpp: my_read, FileDataSource::rewind"]}
