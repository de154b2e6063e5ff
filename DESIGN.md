# Formal model of RoutingKit — design

The model is written in Coq 8.16.1 under `rocq/theories`. Source is `/repo`, read as text. Nothing of the C++
is executed; the tie to the code is the per-definition citation of file and lines.

## Conventions

* **Arrays** are Coq lists (std++ `l !! i`, `<[i:=x]> l`). An array access in the C++ is modelled in the option
  monad where memory safety matters: `None` is *undefined behaviour* (index out of range, read of an absent
  element, violated assertion), so a theorem of the form `f x = Some r` also says that no access is out of range.
  Where an algorithm is modelled with total look-ups this is said in the comment of the definition.
* **Node / arc ids** are `nat`; `invalid_id` (2^32-1) is `None` of an `option nat` where the code stores it. The
  C++ requires node and arc counts < 2^32-1; the model does not have that limit (simplification, stated once here).
* **Weights** are `N`. `inf_weight` = 2^31-1. Where the property is about wrap-around or the sum can exceed 32 bits,
  additions are written `(a + b) mod 2^32` and the theorem states the exact hypothesis under which no wrap occurs.
* **Loops** become structural recursion or recursion on fuel; running out of fuel is an error value (`None`), and
  theorems prove that the result is `Some`.
* **Property theorems** live in `Properties_*.v`-style files, closed by `exact lemma`, each followed by
  `Print Assumptions` and accompanied by an `Example` of a non-trivial instance meeting the hypotheses.
* **False properties**: if the faithful model violates a property, a theorem `…_refuted` gives a concrete witness
  and the property is additionally proved under the exact guard that makes it true, suffix `_partial`.

## Trusted base

* Coq 8.16.1's kernel (and `vm_compute`'s virtual machine, used in `Example`s and refutation witnesses).
* Axioms: the aim is "Closed under the global context" for every property theorem. Each `Properties` file prints
  the assumptions. std++ adds no axioms. (coqchk additionally lists the sealed `Coq.ssr.ssrunder` module that is
  loaded, not used.) Deviations are listed in the section *Assumptions per theorem* below.
* The reading of the C++ by the author of the model: the citations.
* The C++ standard library (`std::vector`, `std::sort`, `std::nth_element`, `std::thread`, `std::mutex`,
  condition variables) is modelled by its specification, not its code. zlib and the file system are not modelled.
  Floating point is modelled by Flocq's formalisation of IEEE 754 in FloatModel, PictureModel, OsmFloatModel and ProtobufFloatModel only; elsewhere it is an abstract type
  (OrderToolModel) or replaced by real numbers (GeoDistModel).

## Modelled / not modelled

This table is the scope the properties aim at. What is actually in the model today is the table at the end of this
file; a source file that is missing there is not modelled yet, and its properties are marked `partial` in MANIFEST.json
with the note "not yet modelled".

| Source | Modelled | Not modelled |
|---|---|---|
| id_queue.h | all of MinIDQueue, copying and moving | |
| timestamp_flag.h | all, with 16-bit wrap, copying and moving | that reading the uninitialised number of a default-constructed object is undefined |
| id_set_queue.h | all, copying and moving | |
| bit_vector.{h,cpp} | bit ops, bulk ops, resize, make_large_enough_for, comparison, allocation, copying and moving of objects, sizes in 64 bits, the replacement of aligned_alloc | SIMD instructions (v8_uint64_t is its eight words) |
| id_mapper.{h,cpp}, bit_select.cpp | rank, select, how long the pointer to the bits is valid | |
| permutation.h, inverse_vector.h, sort.h, filter.h, graph_util.{h,cpp} | all functions of the properties | iterator overloads (same code) |
| dijkstra.h | all | |
| strongly_connected_component.cpp | all | |
| tag_map.h | hash, build, look-up, clear | |
| customizable_contraction_hierarchy.cpp | chordal supergraph, triangles, metric, customization (seq/par/partial), query, unpacking, pinned, perfect customization | log messages, arc sorting internals reuse the sort model |
| contraction_hierarchy.cpp | clean-up, contraction with witness search, query, unpacking, pinned, file format | priority heuristic values (the order is arbitrary in the theorems), log messages |
| geo_position_to_node.cpp, geo_dist.h, compute_geographic_distance_weights.cpp | all functions over the real numbers, tree search also over any exact metric | floating-point rounding |
| protobuf.{h,cpp} | varint, zigzag, message walk, reading of floats and doubles with their alignment | aliasing rules for cast pointers, which NaN a float NaN becomes |
| buffered_asynchronous_reader.cpp | ring buffer and both threads as a transition system | weak memory effects, OS scheduling fairness |
| nested_dissection.cpp | fragments, components, decomposition, flow, the choice of sources and targets by coordinates | how the floats of the coordinates are compared (any order in OrderToolModel) |
| vector_io, osm_decoder | byte formats, string-id checks, coordinate arithmetic over exact numbers and, in blocks without offsets, over IEEE floats; full devices and read errors for vector_io and files of hierarchies | other iostream failures (tellg, devices whose room changes), zlib |
| osm_graph_builder | scan of the ids, graph and geometry, turn restrictions | floating point numerics, log messages |
| osm_profile, osm_simple | all functions | log messages |
| verify.cpp, min_max.h | all functions | |
| run_dijkstra, compute_contraction_hierarchy, run_contraction_hierarchy_query, generate_dijkstra_rank_test_queries | main functions, from files to files | command line, standard streams, timers, random number generator |
| convert_road_dimacs_graph, export_road_dimacs_graph, randomly_permute_nodes | main functions, from files to files | command line, random number generator, log messages |
| encode_vector, decode_vector, compare_vector | all functions for integers and strings; the comparison of float and double, also of large files | command line, text of the messages, other uses of floating point types |
| FileDataSource | all functions, both variants, errors of the operating system while reading | errors of lseek, fseek and close, the buffer of FILE |
| compute_nested_dissection_order.cpp | all | messages |
| convert_road_dimacs_coordinates.cpp | all, with IEEE floats | messages, which of several errors is reported |
| osm_extract.cpp | all, on the elements of the file | messages except for the slowest arc, running times, the variants with fewer files |
| generate_constant_vector, generate_test_queries, generate_random_node_list, generate_random_source_times | all, with an abstract generator of random numbers | the distribution itself beyond its range, messages |
| show_path.cpp, examine_ch.cpp | all | how floats are printed, messages |
| graph_to_dot.cpp, graph_to_svg.cpp | all, with IEEE floats | how floats are printed, messages |
| emulate_gcc_builtin.h | all | the memory model of C++ (fences; memory is sequentially consistent) |

## Plan per property

* **C01** Heap as list of (id,key) plus position array, in the option monad; invariant (heap order between parent and
  four children, position array inverse to heap); refinement to a finite map; induction over operation lists.
* **C02** Stamp array over N with `mod 2^16`; invariant: no stale stamp equals the current one; refinement to a set.
* **C03** Implicit binary tree in a list of bits; invariant: the bit of an inner node is the disjunction of its
  children's bits, min_id is the least set leaf; refinement to a set. Compiled with and without assertions.
* **C04, C05** Array of 64-bit words; `is_set` as `N.testbit`; refinement to `list bool`. Refutation witnesses for
  `are_all_set` and `resize` at sizes that are multiples of 512, positive theorems under the guard.
* **C06** rank = number of set bits before; tables per block; select by search; bijection.
* **C07–C14** direct list functions in the option monad, equations pointwise; witness for C08 and C14.
* **C15–C17** Dijkstra over the queue's *specification* interface via C01's refinement; classical invariant (settled
  nodes have final distance, tentative = minimum over settled predecessors); paths as inductive relation.
* **C18** iterative Tarjan with explicit stacks; invariant of low-links; specification by reachability.
* **C19** hash parametrised (proved for any hash) and instantiated; sorted bucket search.
* **C20–C28** CCH: abstract chordal order, customization as iteration over arcs in increasing order; invariant
  "value = minimum over paths through processed lower nodes"; query as two elimination-tree sweeps; pinned and partial
  variants as refinements of the same specification; parallel version as an interleaving semantics of CAS loops.
* **C29–C32, C42** CH: contraction step preserves distances among the remaining nodes for every sound witness oracle,
  the concrete witness search is sound for every pop limit; query by the up-down-path theorem; stall-on-demand.
* **C33** byte-level writer/reader, sizes with explicit 32-bit wrap.
* **C34** vantage-point tree over any metric with values in an ordered group (Z); soundness of pruning by the triangle
  inequality; witness for the boundary behaviour.
* **C35, C36** byte lists; encoder as separate specification; rejection theorem or refutation.
* **C37** labelled transition system of reader and worker; invariant relating ring buffer to the consumed stream;
  refutation of liveness by a lost wake-up schedule.
* **C38, C39** fragments as arc lists; induction over the recursion; flow invariants, max-flow/min-cut.
* **C40, C41, C43** straightforward functions; refutations where the code deviates.

No property of the list is considered inexpressible; what stays outside a model is named in the table above.

## Assumptions per theorem

Every theorem named `Cxx_…` other than those listed below is "Closed under the global context" (see the
`Print Assumptions` after each): no axioms, not even those of the standard library, are used.

The theorems `C65_…`, `C66_…` and `C67_…` in Properties_GeoDist.v are about real numbers; the theorems `C72_…` in
Properties_CoordTool.v, `C73_…` in Properties_DimacsRoute.v, `C78_…` in Properties_Picture.v (except `C78_dot_partial`),
`C84_…` in Properties_OsmFloat.v and `C88_…` in Properties_ProtobufFloat.v are about the floats of Flocq, whose definitions contain proofs about real numbers. Each of them rests on a subset
of these axioms of the standard library, which come with `Reals`, and on no others:

* `ClassicalDedekindReals.sig_not_dec`
* `ClassicalDedekindReals.sig_forall_dec`
* `FunctionalExtensionality.functional_extensionality_dep`
* `Classical_Prop.classic`

## What is in the model so far

| Files | Code |
|---|---|
| Base.v | array access, loops, constants |
| PermutationModel, SortModel, GraphUtilModel | permutation.h, inverse_vector.h, sort.h, filter.h, graph_util |
| IdQueueModel, IdSetModel | id_queue.h, timestamp_flag.h, id_set_queue.h |
| DijkstraModel | dijkstra.h |
| CchModel | CCH metric, customization, partial customization, queries, unpacking, pinned queries |
| CchBuildModel | CCH constructor: chordal supergraph, elimination tree, arc mapping, filter |
| CchParallelModel | parallel customization: level computation, OpenMP loops as a transition system |
| BitVectorModel | bit_vector.h, bit_vector.cpp (spec: BitVectorSpec) |
| IdMapperModel | id_mapper.h, id_mapper.cpp, bit_select.cpp |
| ProtobufModel | protobuf.h, protobuf.cpp (spec: ProtobufSpec) |
| TagMapModel | tag_map.h (spec: TagMapSpec) |
| VectorIoModel | vector_io.h, vector_io.cpp (bytes of files and streams) |
| OsmBlockModel | osm_decoder.cpp: decoding of a block into callback calls (spec: OsmBlockSpec); exact coordinates instead of doubles |
| GeoTreeModel | geo_position_to_node.cpp over an arbitrary exact metric (spec: GeoTreeSpec); std::nth_element by its contract |
| SccModel | strongly_connected_component.cpp (spec: SccSpec) |
| ChCleanModel | contraction_hierarchy.cpp: sort_arcs_and_remove_multi_and_loop_arcs (spec: ChCleanSpec) |
| ChGraphModel | contraction_hierarchy.cpp: Graph, ShorterPathTest, estimate_node_importance, contract_node; weights of shortcuts are unbounded numbers, but see ChWrapModel; queries are proved right for hierarchies made with unbounded numbers and for those made with 32 bits that have small weights |
| ChBuildModel | contraction_hierarchy.cpp: build_ch_and_order, build_ch_given_rank, make_internal_nodes_and_rank_coincide, sort_ch_arcs_and_build_first_out_arrays, optimize_order_for_cache, build_unpacking_information, build, build_given_rank, build_given_order |
| ChQueryModel | contraction_hierarchy.cpp: class ContractionHierarchyQuery except the default constructor and the extra weight functions (bidirectional search with stalling, pinned queries, unpacking, used sources) |
| ChExtraModel | contraction_hierarchy.h: ContractionHierarchyExtraWeight and the get_extra_weight_* functions of ContractionHierarchyQuery, over any type and link function (spec: ChExtraSpec) |
| ChFileModel | contraction_hierarchy.cpp: read, write, load_file, save_file as bytes, with 32-bit sizes (spec: ChFileSpec) |
| ChCheckModel | contraction_hierarchy.cpp: check_contraction_hierarchy_for_errors (spec: ChCheckSpec) |
| CchPerfectModel | customizable_contraction_hierarchy.cpp: build_contraction_hierarchy_using_perfect_witness_search |
| AsyncReaderModel | buffered_asynchronous_reader.cpp: the reader and its worker as a transition system with mutex, condition variables, ring buffer memory and byte source; moving the object left out |
| FlowModel | nested_dissection.cpp: BlockingFlow (constructor, advance with breadth first search and path augmentation, source, target and balanced cut) and pick_smaller_side; bit vectors are lists of bits |
| NestedModel | nested_dissection.cpp: make_graph_fragment, decompose_graph_fragment_into_connected_components, derive_separator_from_cut, compute_separator_decomposition and compute_nested_node_dissection_order; the separator function is any function with a state; LocalIDMapper is used by its specification (C06) |
| InertialModel | nested_dissection.cpp: select_source_and_target, inertial_flow (both), compute_nested_node_dissection_order_using_inertial_flow; what std::nth_element makes of the coordinates is any permutation, the 32-bit product of side_size is modelled |
| OsmGraphModel | src/osm_graph_builder.cpp lines 1-367: load_osm_id_mapping_from_pbf, load_osm_routing_graph_from_pbf without turn restrictions; a file is a list of elements; callbacks are pure functions; floating point operations are arguments; ids are natural numbers (the 64-bit loop of make_large_enough_for is modelled separately); log messages left out |
| OsmTurnModel | src/osm_graph_builder.cpp lines 375-829: restrictions with local ids, missing via nodes, choice of the turn that is meant, sorting and duplicates; load_osm_routing_graph_from_pbf as a whole; the angle test is an argument, std::sort is an argument, the two vectors of turns are a list of pairs until they are sorted |
| OsmProfileModel | osm_profile.cpp: access, directions, speeds, names and comfort levels from tags, restrictions from relations |
| OsmSimpleModel | osm_simple.cpp: the three loaders; the writes of the way callbacks into arrays are a separate pass in the same order |
| OsmFileModel | osm_decoder.cpp: blobs, header, decompression thread, ordered and unordered reading (zlib is an argument, the reader is used by its specification C37) |
| VerifyModel | verify.cpp and min_max.h: all functions |
| DistanceToolModel | the programs run_dijkstra, compute_contraction_hierarchy, run_contraction_hierarchy_query and generate_dijkstra_rank_test_queries, from the files they load to the files they save |
| TextModel | what the programs use of std::getline, >> and << of the standard library |
| GraphToolModel | the programs convert_road_dimacs_graph, export_road_dimacs_graph and randomly_permute_nodes, and the unstable inverse sort of sort.h |
| VectorToolModel | the programs encode_vector and decode_vector for integers and strings, compare_vector for integers, strings and float |
| FileSourceModel | file_data_source.h and file_data_source.cpp in both variants, on a table of open descriptors |
| GeoDistModel | geo_dist.h and the constructor of geo_position_to_node.cpp with its vectorised loop, over the real numbers |
| GeoToolModel | the program compute_geographic_distance_weights |
| OrderToolModel | the program compute_nested_dissection_order; the keys of inertial flow for any type of coordinates, std::nth_element by its specification |
| CoordToolModel | the program convert_road_dimacs_coordinates, for any encoding of positions |
| FloatModel | float and double as in IEEE 754 (Flocq): conversion of positions, sums, differences, comparisons, bytes |
| ExtractModel | the program osm_extract |
| GeneratorModel | the programs generate_constant_vector, generate_test_queries, generate_random_node_list and generate_random_source_times |
| ShowPathModel | the programs show_path and examine_ch |
| PictureModel | the programs graph_to_dot and graph_to_svg, with IEEE floats |
| EmulateModel | src/emulate_gcc_builtin.h; the parallel customization with a compare-and-swap that takes a mutex |
| BitMemoryModel | constructors, destructor, assignment, swap and resizing of BitVector: which object owns which memory (spec: BitMemorySpec) |
| BitSizeModel | arithmetic with sizes in bit_vector.cpp in 64 bits, aligned_alloc and aligned_free of bit_vector.cpp |
| ChWrapModel | contraction_hierarchy.cpp: the functions of ChGraphModel and ChBuildModel that compute with numbers, with 32 bits, with a check or exactly |
| SortApiModel | sort.h: functions by comparator and by less, unstable functions, moving overloads; permutation.h: moving overloads (spec: SortApiSpec) |
| OsmFloatModel | the coordinates of nodes in osm_decoder.cpp and osm_graph_builder.cpp with IEEE floats (spec: OsmFloatSpec) |
| MapperMemoryModel | the pointer in LocalIDMapper and IDMapper, on the memory of BitMemoryModel (spec: MapperMemorySpec) |
| VectorFailModel | vector_io.h, vector_io.cpp and the file functions of hierarchies on full devices and with read errors (spec: VectorFailSpec) |
| ObjectModel | default construction, copying, moving and swapping of MinIDQueue, TimestampFlags and IDSetMinQueue (spec: ObjectSpec) |
| ProtobufFloatModel | the reading of floats and doubles in protobuf.h, with their alignment (spec: ProtobufFloatSpec) |
| CompareFullModel | compare_vector.cpp for float64 and with its 32-bit numbers (spec: CompareFullSpec) |
| SourceFailModel | reading and rewinding in file_data_source.cpp when the system reports errors (spec: SourceFailSpec) |
| SaturatedModel | SaturatedWeightAddition of contraction_hierarchy.h |

Specifications (read these next to the theorems): UtilSpec, GraphSpec, PathSpec, IdQueueSpec, IdSetSpec, WalkSpec
(walks, best_route), CchApiSpec and ChApiSpec (calls of a query object, allowed histories, observations), ChSpec (a correct hierarchy), ChExtraSpec (extra weight along a path), AsyncReaderSpec, FlowSpec (fragments, separating sets, minimum cuts), NestedSpec (forests of separators, their array layout, decompositions), InertialSpec (first and last nodes of an order), OsmGraphSpec (sets found by a scan, positions, segments and arcs of the ways of a file), OsmTurnSpec (the turn a restriction means, the turns it forbids), OsmProfileSpec (values of tags, lists of values, posted limits, restrictions described by a relation), OsmFileSpec (files in the PBF format, what they contain), VerifySpec (first best elements, interpolation points of arcs, queries), DistanceToolSpec (files of numbers, distances, answers to queries, Dijkstra ranks), TextSpec (lines, numerals), GraphToolSpec (the DIMACS format, stored arcs, renamed graphs), VectorToolSpec (numbers and strings as text and bytes, what a comparison says), FileSourceSpec (owners of descriptors, bytes read from them), GeoDistSpec (points on a sphere, angles, great circles), OrderToolSpec (weak orders, std::nth_element, extremes), OsmRouteSpec (routes by OSM ids), CoordToolSpec (texts with positions), DimacsRouteSpec (routes along the arcs of a text), ExtractSpec (names, files with sets), ExtractRouteSpec (queries by OSM ids), GeneratorSpec (arguments that are numbers, generators that keep to a range), ShowPathSpec (texts with queries, documents in KML), PictureSpec (lines for arcs, coordinates fitted into a square), BitMemorySpec (programs with variables that are lists of booleans, owners of memory), SortApiSpec
(strict weak orders, the promise of std::sort, sorted positions), OsmFloatSpec (coordinates as integers), MapperMemorySpec
(which operations leave bits where a mapper finds them), VectorFailSpec (what a full device holds), ObjectSpec
(objects as values), ProtobufFloatSpec (messages with floats and doubles, equal numbers, alignment), CompareFullSpec (doubles by their
bits, reports about elements that cannot be compared), SourceFailSpec (streams that lose nothing).
