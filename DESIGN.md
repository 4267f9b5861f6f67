# Design of the formal model of dwave-optimization

## What is modelled

The C++ core in `/repo/dwave/optimization/{include,src}` plus the thin state machine of
the Python layer (`_model.pyx`, `states.pyx`).  Every definition in `rocq/theories/*Model.v`
cites the file and lines it transcribes.

Conventions used everywhere:

* **Values.** `double` is modelled by an abstract type with decidable equality where the code
  only stores, compares and moves values, and by the canonical rationals `Qc` where it computes
  (`+ - * /`, comparisons).  Floating-point rounding, infinities and signed zeros are *not*
  modelled, except in C64, where sums and products are computed in IEEE 754 doubles
  (`Coq.Floats.SpecFloat`, which is axiom-free).  NaN as "nothing" in `Update` is `None`; a division by zero is a distinct outcome
  (`None`), never a number.
* **Indices and sizes** are `nat` in buffers and `Z` in slice/stride arithmetic.  Machine overflow
  is not modelled unless a statement is about it.
* **Undefined behaviour / assertion failure / exceptions** are distinct outcomes (`None` or an
  error constructor), never a default value.  Theorems state which inputs avoid them.
* **State.** Each node's mutable state is a record; C++ methods become functions from state to state.
* **Randomness** is an explicit argument.  **Memory and object lifetime** are not modelled
  (unique_ptr, expired_ptr only as flags).

## Files

Per topic: `XModel.v` (definitions transcribed from the code, no proofs), `XSpec.v` (small
independent specification, when one is needed), `XProofs.v` (lemmas), `XProps.v` (the theorems of
the manifest, each closed by `exact`, with an `Example` and `Print Assumptions`).

## Plan per property

| id | model | proof |
|----|-------|-------|
| C01, C02 | `ArrayNodeStateData`: buffer, updates, previous_size and every mutator; `ScalarNodeStateData` | invariant `replay previous updates = Some buffer` preserved by each operation; revert shown to be a left inverse of replay |
| C03 | `deduplicate_diff` as stable sort + compaction loop | per-index characterisation by induction over the sorted list |
| C04, C05 | `NumberNode`/`IntegerNode`/`BinaryNode` over the array state | invariant over op sequences |
| C06-C08 | `CollectionStateData`, `CollectionNode::initialize_state` | permutation invariant; revert by replaying updates backwards |
| C09-C12 | disjoint sets / lists data | partition invariant; C09's explicit initialisation is expected to be refuted (only the total count is checked) |
| C13-C16, C18, C19, C49 | graph as an arena of nodes with predecessor and successor lists, node list, indices, deletion; recursive DFS, BFS, recursive (re)set with fuel | DFS invariants, reachability relation as spec; well-formedness over all histories |
| C17 | abstract node interface with a correctness law, instantiated by each verified node type | induction over the topological order |
| C20 | `Slice` | lia against an independently written Python `range`/`slice.indices` spec |
| C21-C24 | shapes, strides, iterators | induction over dimensions |
| C25-C33, C35-C37 | `initialize_state`/`propagate`/`commit`/`revert` of each node, function by function | simulation along the update list: incremental result = recomputation |
| C34 | adjacency lists of `QuadraticModel` | refinement to a finite map |
| C38, C39, C40 | `min/max/integral` members over `Qc` | order arithmetic, induction over element lists |
| C41 | `fraction` over `Z` | agreement with `Q` |
| C42 | `SizeInfo` and its producers | interval semantics; known violations refuted with witnesses |
| C43 | lock counter + states vector as a state machine | invariant over op sequences |
| C44 | writer/reader of the adjacency list, header padding | uses C13 |
| C45 | `infer_indices` against the parser | arithmetic on offsets |
| C46 | cached buffer statistics | fold lemmas |
| C47 | default moves with the random draw as argument | case analysis using C04, C06, C09, C10 |
| C48 | the same, iterated | unreachable subset exhibited |
| C50-C57 | the Python front end (`PyModel.v`: `Model` methods, `__getitem__`, operators, in-place operators) as a state monad over the list of symbols; the generators on top (`GenModel.v`) | what a symbol stands for (`PySpec.yields`) is defined by the functions that the node contracts (C25-C37) are stated with; one rule per front-end call, loops by induction |
| C58 | the node of every symbol (`RunModel.v`) and the graph `build` makes of them; whole models of three generators | the contracts of C17 for every class of symbol (`RunProofs.v`), the C13 theorems for the graph, evaluation of the graph = `yields` |
| C59 | `__getitem__` of `ArraySymbol` and of `AdvancedIndexing` (`PyModel.v`, part of C50) | NumPy's combined indexing as a separate function of the values (`GetSpec.v`); basic then advanced selection composes to it axis by axis (`GetProofs*.v`) |
| C60 | `equals` and `maybe_equals` of `Symbol`, `ArraySymbol`, `Constant` on the symbols of `PyModel` (`EqModel.v`), with the recursion limit and the number of calls | induction over the recursion limit and over trees built alike; soundness against `yields` (`EqProofs*.v`); a doubling model for the cost |
| C61 | `pow`, `inplace`, `add_node` of `PyModel.v` | the product being built as an invariant of the loop; replacing one symbol leaves alone what does not reach it; the shortest evaluation of a symbol does not involve itself (`PowProofs.v`) |
| C62 | `state_size`, `_header_data` of `_model.pyx` on the arrays of `SizeModel.v` (`StateSizeModel.v`) | following substitution along the parents: a maximum appears exactly if there is one on the way, and stays (`StateSizeProofs.v`); upper bound from C42 |
| C63 | `_into_zipfile`, `_from_zipfile` of every symbol of `PyModel.v`, `into_file`, `from_file` on the entries (`FileModel.v`) | an invariant of everything the front end builds (`FileProofs2.v`, `FileProofs3.v`); reading the n-th entry extends a copy of the first n-1 (`FileProofs4.v`, `FileProofs5.v`), views by C45 (`FileProofs.v`); nodes made of decisions only keep their order in every sort (`FileProofs6.v`) |
| C64 | the running sum, product and partial sums of `ReduceNode` and `PartialReduceNode` in doubles (`DblModel.v`) | the four operations are exact on whole numbers below 2^53 (`DblProofs.v`); an invariant along histories (`DblProofs2.v`, `DblProofs3.v`); rounding, overflow and NaN by witnesses |
| C65 | disjoint lists and bit-sets as decisions and their parts as operations of a whole model (`GroupModel.v`): the parent spells out contents and logs in one array, the parts read them back | the invariants of C09-C12 give C17's contract for the parents (`GroupProofs2.v`, `GroupProofs3.v`) and the parts (`GroupProofs.v`); C58's whole-model theorem extended to them |
| C66 | which elements the arrays of a model may have (`RunSpec2.carries`), ranks of symbols (`RunSpec2.ranked`); sums that grow after they were made (`RunModel.build`) | values by induction on ranks (`RunProofs6.v`), rules that carry the invariant through every step of a front-end program (`RunProofs7.v`, `RunProofs8.v`), the five generators (`RunProofs9.v`, `RunProofs10.v`, `RunProofs12.v`, `RunProofs13.v`, `RunProofs14.v`) |
| C67 | `_from_constrained_quadratic_model` with `Model.binary`, `Model.quadratic_model` and the biases the node keeps (`CqmModel.v`, `PyModel.v`) | the coordinates as a sequence of operations of C34 (`CqmProofs.v`), the rules for front-end programs (`CqmProofs2.v`), runs as in C66 (`RunProofs11.v`); the value is the spec's own polynomial (`CqmSpec.v`) |
| C68 | `QuadraticModel` from dictionaries, its readers of biases, and what model files hold of it (`QuboModel.v`) | the entries as the coordinates of C67 and their biases as sums over operations (`QuboProofs.v`); the polynomial and the biases are sums over the items (`QuboSpec.v`) |
| C69 | iterators with `MaskInfo` next to contiguous and strided ones, over a partial memory (`MaskModel.v`) | a masked iterator after moves is the masked iterator at the net displacement, by induction on the moves; the loop by induction on the data (`MaskProofs.v`); masked arrays are lists (`MaskSpec.v`) |
| C70 | `to_networkx`, `num_edges` over the graph model of C13-C16, C49, with a small model of `networkx.MultiDiGraph` (`NetModel.v`) | the export in closed form from the invariant of C49, then counting edges; the number of edges by counting pairs from both ends (`NetProofs.v`) |
| C71 | `from_future`, `resolve` and where it is called, around the model of C43 (`FutureModel.v`) | a simulation: the model with the pending states attached makes the same steps (`FutureProofs.v`), against a semantics that attaches at once (`FutureSpec.v`) |
| C72 | `Model.feasible` over the model of C43 (`FeasModel.v`) | the invariant of C43 along the loop, and values that the decisions determine (`FeasProofs.v`), against those values (`FeasSpec.v`) |
| C73 | `StateView.__getbuffer__` for views and for nodes with memory of their own (`BufModel.v`) | the geometry of C36 and row-major layout of C22/C23 (`BufProofs.v`), against the buffer protocol (`BufSpec.v`) |

Properties the faithful model violates get a `..._refuted` theorem with a concrete witness, plus a
positive theorem for the part that does hold.

## Frameworks

* **Node contract** (`NodeSpec.node_ok`, `ViewModel`/`ViewSpec` for `vnode_ok`).  A node is a record of its
  shape, its predecessors' shapes and the five methods (initialise, output, propagate, commit, revert).  `pin` is
  what it can read of a predecessor: view, pending updates, size difference.  The contract says: after
  initialising the view is `f(inputs)`; after propagating any *replayable* updates (`pin_ok`) the view is
  `f(new inputs)`, the node's own updates replay the old view to the new one and its size difference is
  exact; commit keeps the view, revert restores the old one, both clear the updates.  `node_ok_if` has a
  condition on the inputs (permutations; indices in range).
* **Whole graphs** (C17, `ProposeSpec`).  `contract`/`dcontract` repeat this for operations and decisions,
  `wf_model` asks it of every node of a graph any `history` of graph operations can make;
  `evaluation` is the value of every node by recursion over the graph, independent of the methods.
* **Front end** (C50-C59, `PyModel`, `PySpec`).  `py A` is a state monad with exceptions and undefined
  behaviour; `yields m dv x v` says what symbol `x` stands for.
* **`dbg : bool`** says whether `assert`s are compiled in (a failing one is `UB`); theorems hold for both unless a
  hypothesis says otherwise.  **`strict : bool`** says whether an undefined operation whose result is discarded
  counts as `UB`.

## What of the code is modelled

| file | modelled | not modelled |
|------|----------|--------------|
| include/array.hpp | `Slice`, `ShapeInfo`, contiguous, strided and masked iterators, `SizeInfo`, `Update`, shape/stride/size helpers, `is_contiguous`, default bounds | `View` wrappers, stream output |
| src/array.cpp | `SizeInfo` comparison and `substitute`, `array_shape_equal`, `broadcast_shape`, `unravel_index`, `ravel_multi_index` | printing, `format` |
| graph.hpp, graph.cpp | node arena, `emplace_node`, topological sort and reset, `descendants`, propose/propagate/commit/revert, (recursive) initialise and reset, `remove_unused_nodes`, objective and constraints | `SuccessorView::index`, stack depth, thread safety, memory |
| src/nodes/_state.hpp | everything | |
| numbers.{hpp,cpp} | bounds, initialisation, all mutators, default moves | the random engine (the draw is an argument) |
| collections.{hpp,cpp} | lists, sets, disjoint bit sets and lists: data, moves, initialisation, default moves, sizes | the random engine |
| constants.{hpp,cpp} | buffer statistics with cache, output | ownership of the buffer, the mutex |
| flow.cpp | `WhereNode` | |
| indexing.{hpp,cpp} | `AdvancedIndexingNode`, `BasicIndexingNode` (parser, `infer_indices`, all propagation modes), `PermutationNode`, `sizeinfo`s | advanced indexing of strided operands |
| manipulation.cpp | `ConcatenateNode`, `ReshapeNode`, `SizeNode` | |
| mathematical.{hpp,cpp} | `BinaryOpNode`, `NaryOpNode`, `ReduceNode`, `PartialReduceNode`, `UnaryOpNode`: constructors, methods, bounds; in doubles the sums and products kept by the reductions (C64) | rounding, NaN and infinities elsewhere |
| quadratic_model.{hpp,cpp} | `QuadraticModel`, `QuadraticModelNode` | |
| utils.{hpp,cpp} | `deduplicate_diff`, `fraction`, `is_integer` | |
| testing.{hpp,cpp} | the replay rules only (as the specification of updates) | the test nodes |
| _model.pyx, model.py | decisions and constants, `__getitem__`, `**`, `+=`, `*=`, `size`, `reshape`, `sum` with an axis, `quadratic_model` from coordinates and dictionaries, its readers of biases and its part of model files, generic binary/unary/reduction constructors, `minimize`, `add_constraint`, `equals`, `maybe_equals`, lock/unlock, states and their buffers, `feasible`, adjacency-list writer and reader, header, `state_size`, `to_networkx` with the iterators it uses, `num_edges` | zip container |
| states.pyx | the stored states under graph edits and unlocking, initialisation, the class check of `from_file`, futures | hooks of futures that look at the model, `into_file` wrapper |
| symbols.pyx | constructors behind the front-end calls, state setting checks of decisions, `Permutation` rewriting, what each class stores in a model file and how it is made from it | numpy conversion, JSON and .npy encoding |
| mathematical.py | `_op` | the remaining wrappers (they call one constructor each), `concatenate`'s argument handling |
| generators.py | the eight public generators with their argument checks (`GenModel.v`; routing from locations: `CoordModel.v`, with any function for the square root), `_from_constrained_quadratic_model` | square roots, `model.lock()` |

## Refuted expectations

* **C03** Deduplicated update lists keep the net effect: `C03_dedup_drops_noops_refuted`, `C03_dedup_defined_refuted`, `C03_dedup_replayable_refuted`
* **C09** Disjoint bit sets remain a partition: `C09_bitsets_init_refuted`
* **C13** Topological order is a valid evaluation order: `C13_add_node_cycle_refuted`
* **C14** Unlocking undoes the order of intermediate nodes only: `C14_locked_add_node_refuted`
* **C15** Affected-node set is complete, sound and ordered: `C15_descendants_duplicate_refuted`
* **C20** Slices select the same elements as Python: `C20_size_overflow_refuted`, `C20_fit_idempotent_refuted`
* **C22** Flat and multi-dimensional indices are inverse: `C22_size_int_refuted`, `C22_negative_stride_refuted`
* **C23** Contiguity test is exact: `C23_empty_refuted`
* **C24** Strided iteration visits the logical order: `C24_distance_mutates_refuted`
* **C25** Element-wise binary operations stay correct under moves: `C25_state_shape_refuted`, `C25_clash_refuted`, `C25_shape_malformed_refuted`
* **C29** Axis sums stay correct under moves: `C29_bad_axis_refuted`, `C29_assertion_refuted`
* **C31** Concatenation stays correct under moves: `C31_replay_refuted`
* **C35** Indexing by arrays equals NumPy gather and stays correct under moves: `C35_separated_refuted`, `C35_rows_refuted`, `C35_scalar_refuted`, `C35_shrink_refuted`, `C35_no_axes_refuted`
* **C36** Slicing views equal NumPy views and stay correct under moves: `C36_two_axes_refuted`, `C36_later_start_refuted`, `C36_dynamic_start_refuted`, `C36_dynamic_step_refuted`, `C36_bounded_rows_refuted`, `C36_negative_stop_refuted`, `C36_empty_corner_refuted`, `C36_cached_rows_refuted`
* **C37** Reordering a square array stays correct under moves: `C37_bounds_refuted`, `C37_vector_refuted`, `C37_cube_refuted`, `C37_empty_refuted`
* **C38** Declared bounds of element-wise operations are sound: `C38_divide_assert_refuted`, `C38_square_refuted`
* **C39** Declared bounds of reductions are sound: `C39_sum_of_slices_refuted`, `C39_empty_maximum_refuted`
* **C42** Declared size relations of dynamic arrays: sound for chains that cut ends or keep heads, unsound in general: `C42_minimum_refuted`, `C42_maximum_refuted`, `C42_two_sided_refuted`, `C42_strided_refuted`, `C42_rows_refuted`, `C42_empty_slice_refuted`
* **C43** Lock counting protects the model and its stored states: `C43_iadd_refuted`, `C43_foreign_states_refuted`
* **C44** Models survive being written and read: `C44_ids_refuted`
* **C45** Inferred slice indices rebuild the same view: `C45_past_end_refuted`, `C45_empty_refuted`, `C45_zero_refuted`, `C45_large_refuted`
* **C47** Default random moves keep decisions valid: `C47_number_default_move_refuted`, `C47_list_default_move_refuted`, `C47_disjoint_default_move_refuted`
* **C48** Set default moves cannot reach every set: `C48_set_default_moves_reach_all_refuted`
* **C49** Links between nodes stay consistent: `C49_refused_node_refuted`
* **C55** Vehicle routing with time windows: what is encoded: `C55_accepts_refuted`, `C55_cost_refuted`
* **C56** Flow shop generator: what is encoded: `C56_makespan_refuted`
* **C57** Job shop generator encodes the problem: `C57_long_refuted`
* **C59** Indexing of symbols selects what NumPy would: `C59_order_refuted`, `C59_permutation_refuted`
* **C60** Comparing symbols: `C60_decisions_refuted`, `C60_lists_refuted`, `C60_elements_refuted`, `C60_axes_refuted`, `C60_certainty_refuted`, `C60_limit_refuted`
* **C61** Powers and in-place operators: `C61_alias_refuted`, `C61_self_refuted`, `C61_product_refuted`
* **C62** State sizes: `C62_unary_refuted`, `C62_estimate_refuted`
* **C63** Model files: `C63_unreadable_refuted`, `C63_shape_refuted`, `C63_empty_refuted`
* **C64** Sums and products in doubles: `C64_sum_refuted`, `C64_product_refuted`, `C64_overflow_refuted`, `C64_nan_refuted`, `C64_order_refuted`
* **C67** Models of constrained quadratic models: `C67_no_variables_refuted`
* **C68** Quadratic models from dictionaries: `C68_range_refuted`
* **C69** Iterators with masks: `C69_write_refuted`
* **C70** Graph export: `C70_refused_node_refuted`
* **C71** States that arrive later: `C71_lost_refuted`
* **C72** Feasibility of a state: `C72_no_state_refuted`
* **C73** What NumPy reads of a state: `C73_step_refuted`

Each is a witness, evaluated by the kernel, of a program the model of the code gets wrong; the property's statement
in `properties.jsonl` says so, and the other theorems of the property cover what is right.

## Trusted base

The Coq 8.16.1 kernel; the reading of the C++, Cython and Python into Gallina (see the citations on every definition
and the simplifications stated there); the axioms listed by `Print Assumptions` under each theorem: none — every
theorem of the manifest is closed under the global context.
