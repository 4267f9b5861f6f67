{"id": "C01", "title": "Rejecting a move restores array state exactly", "statement": "For the state held by every array-valued node: after any sequence of element writes, exchanges, appends, removals, bulk assignments and applied updates made since the last commit, reverting leaves exactly the committed array (same length, same values), an empty list of pending updates and a size difference of zero.", "quantifier": "every committed array, every finite sequence of mutating operations of any mix and length", "why_tests_cant": "Tests exercise a few fixed sequences; the guarantee must hold for every interleaving of growth, shrinkage, repeated writes to one index and bulk assignment.", "anchors": ["dwave/optimization/src/nodes/_state.hpp: ArrayNodeStateData"]}
{"id": "C02", "title": "Reported updates replay to the current array", "statement": "At every moment the list of reported updates, replayed in order on the last committed array under the rules enforced by the library's own validation node (placements only at the end, removals only of the last element, every recorded old value equal to the value being replaced), succeeds and yields exactly the current array; the reported size difference equals the difference of lengths; committing keeps the array and empties the list.", "quantifier": "every committed array, every finite sequence of mutating operations", "why_tests_cant": "Every consumer node trusts this list blindly; tests can only sample histories.", "anchors": ["dwave/optimization/src/nodes/_state.hpp: ArrayNodeStateData", "dwave/optimization/src/nodes/testing.cpp: ArrayValidationNode::propagate"]}
{"id": "C03", "title": "Deduplicated update lists keep the net effect", "statement": "Deduplicating a replayable list of updates yields, for every index, at most one update; it goes from the element (or nothing) before all updates to the element (or nothing) after them, indices are strictly increasing, placed-then-removed indices are absent, and every index whose element changed is present. (Stronger expectations fail and are refuted: a value that changes and comes back stays as a no-op update; a list that only places and removes two or more elements reads diff[-1]; the result of two removals is not replayable.)", "quantifier": "every array, every list of updates that replays on it", "why_tests_cant": "Arbitrary numbers of updates, repeated indices and interleavings; the algorithm sorts and compacts in place.", "anchors": ["dwave/optimization/src/utils.cpp: deduplicate_diff"]}
{"id": "C04", "title": "Integer and binary decisions never leave their domain", "statement": "After initialization (default or explicit) and any sequence of moves accepted by an integer or binary decision (set value, exchange, flip, set, unset), commits and reverts, every element is an integer within the declared bounds; a move returns true exactly when it changed the array.", "quantifier": "every shape, every pair of bounds, every sequence of moves with arbitrary arguments inside the index range", "why_tests_cant": "Unbounded move histories and arbitrary bounds.", "anchors": ["dwave/optimization/src/nodes/numbers.cpp: NumberNode, IntegerNode, BinaryNode"]}
{"id": "C05", "title": "Explicit values of number decisions are validated", "statement": "Initializing an integer or binary decision with explicit values succeeds exactly when the number of values equals the size of the decision and every value is an integer within bounds; otherwise an error is raised and no state is created.", "quantifier": "every shape, bounds and list of values", "why_tests_cant": "Infinite input domain; acceptance must be exactly characterised in both directions.", "anchors": ["dwave/optimization/src/nodes/numbers.cpp: NumberNode::initialize_state, IntegerNode::is_valid, BinaryNode"]}
{"id": "C06", "title": "Lists and sets always hold distinct values in range", "statement": "At every moment a list or set decision exposes pairwise distinct integers between 0 (inclusive) and the number of items (exclusive), and the number exposed lies between the declared minimum and maximum size.", "quantifier": "every number of items and size bounds, every sequence of exchange/rotate/grow/shrink moves whose arguments satisfy the documented preconditions, commits and reverts", "why_tests_cant": "Holds as an invariant over unbounded move sequences; tests only see few of them.", "anchors": ["dwave/optimization/src/nodes/collections.cpp: CollectionStateData, CollectionNode", "dwave/optimization/include/dwave-optimization/nodes/collections.hpp"]}
{"id": "C07", "title": "Rejecting moves on a list or set restores it", "statement": "After any sequence of moves on a list or set since the last commit, reverting restores the exposed elements, their order and their number exactly, and the updates reported before the revert replay from the committed elements to the current ones.", "quantifier": "every collection state and every sequence of moves", "why_tests_cant": "Unbounded histories that mix growth, shrinkage, rotation and exchanges with elements outside the visible part.", "anchors": ["dwave/optimization/src/nodes/collections.cpp: CollectionStateData::revert, exchange, rotate, grow, shrink"]}
{"id": "C08", "title": "Explicit contents of lists and sets are validated", "statement": "Initializing a list or set with explicit contents succeeds exactly when the contents are pairwise distinct integers in range whose number lies within the size bounds, and the exposed elements are then exactly the given contents in the given order.", "quantifier": "every number of items, bounds and explicit contents", "why_tests_cant": "Acceptance must be characterised in both directions over an infinite domain.", "anchors": ["dwave/optimization/src/nodes/collections.cpp: CollectionNode::initialize_state"]}
{"id": "C09", "title": "Disjoint bit sets remain a partition", "statement": "Under every sequence of moves, commits and reverts each item belongs to exactly one of the bit sets, provided the initial contents do; every such contents is accepted. (That contents which are not a partition are rejected is false of the code: only the total number of items is checked.)", "quantifier": "every primary set size, number of sets, accepted initial contents and sequence of moves", "why_tests_cant": "Unbounded move sequences; also needs acceptance of explicit contents to imply the partition.", "anchors": ["dwave/optimization/src/nodes/collections.cpp: DisjointBitSetsNodeData, DisjointBitSetsNode"]}
{"id": "C10", "title": "Disjoint lists remain a partition", "statement": "Under every sequence of rotate, swap and pop-to-list moves each item belongs to exactly one list, exactly once.", "quantifier": "every primary set size, number of lists, accepted initial contents and sequence of moves", "why_tests_cant": "Unbounded move sequences over several arrays that share items.", "anchors": ["dwave/optimization/src/nodes/collections.cpp: DisjointListStateData"]}
{"id": "C11", "title": "Rejecting moves on disjoint collections restores every member", "statement": "After any sequence of moves on disjoint lists or disjoint bit sets since the last commit, reverting restores each member array exactly, and before the revert each member's reported updates replay from its committed contents to its current contents.", "quantifier": "every state and every sequence of moves", "why_tests_cant": "Unbounded histories touching several arrays.", "anchors": ["dwave/optimization/src/nodes/collections.cpp: DisjointListStateData::revert, DisjointBitSetsNodeData::revert"]}
{"id": "C12", "title": "Explicit contents of disjoint lists are validated", "statement": "Initializing disjoint lists with explicit contents succeeds exactly when every item of the primary set occurs exactly once over all lists.", "quantifier": "every primary set size, number of lists and contents", "why_tests_cant": "Acceptance must be characterised in both directions over an infinite domain.", "anchors": ["dwave/optimization/src/nodes/collections.cpp: DisjointListStateData constructor"]}
{"id": "C13", "title": "Topological order is a valid evaluation order", "statement": "Sorting a model succeeds exactly when its graph has no cycle; afterwards every node has a distinct position, positions are exactly 0..n-1, decisions keep the first positions in creation order, every node comes after all nodes it reads, and sorting again changes nothing. As long as operands are never added to an existing node, the graph has no cycle and the order is: decisions, then all other nodes, each in creation order. (Adding operands in place, NaryOpNode::add_node, can create a cycle: refuted.)", "quantifier": "every model graph reachable by any history of adding nodes, adding operands, sorting, resetting, removing unused nodes, setting objective/constraints", "why_tests_cant": "All DAG shapes; tests cover a handful of graphs.", "anchors": ["dwave/optimization/src/graph.cpp: Graph::topological_sort", "dwave/optimization/include/dwave-optimization/graph.hpp: Graph, Node, DecisionNode"]}
{"id": "C14", "title": "Unlocking undoes the order of intermediate nodes only", "statement": "Resetting the topological order gives every node back the index it had before sorting (none for non-decisions), keeps all links, and sorting again yields the same order; decisions keep their index for ever; adding a node to a sorted model is refused. (In-place addition of operands is not refused on a sorted model, and can make a node its own operand: refuted.)", "quantifier": "every model graph and every interleaving of adding nodes, sorting and resetting", "why_tests_cant": "Histories of lock/unlock/add are unbounded.", "anchors": ["dwave/optimization/src/graph.cpp: Graph::reset_topological_sort", "dwave/optimization/include/dwave-optimization/graph.hpp: Graph::emplace_node"]}
{"id": "C15", "title": "Affected-node set is complete, sound and ordered", "statement": "Given a list of changed nodes, the list of nodes scheduled for re-evaluation consists of the given nodes plus, once each, every node reachable from them, in evaluation order, and all marks are cleared again; so if the changed nodes are distinct and none depends on another, each affected node appears exactly once. (Without that condition a node is scheduled twice: refuted.)", "quantifier": "every DAG and every set of changed nodes", "why_tests_cant": "All DAG shapes and source sets.", "anchors": ["dwave/optimization/src/graph.cpp: Graph::descendants"]}
{"id": "C16", "title": "Unused-node removal keeps exactly what is needed", "statement": "Removing unused nodes deletes exactly those nodes that are not decisions, not the objective or a constraint, not referenced from outside, not of a kind that may not be removed, and not read (transitively) by a kept node; kept nodes keep their relative order, the nodes they read, and their kept readers.", "quantifier": "every model graph, objective, constraint set and set of external references", "why_tests_cant": "All graph shapes, chains of removable nodes of any length.", "anchors": ["dwave/optimization/src/graph.cpp: Graph::remove_unused_nodes"]}
{"id": "C17", "title": "Proposing a move is equivalent to re-evaluating from scratch or to nothing", "statement": "If a proposal is accepted, the value of every node afterwards equals the value obtained by evaluating the whole model from scratch on the new decision values; if it is rejected, the value of every node is exactly what it was before; in both cases no updates remain pending.", "quantifier": "every acyclic model built from integer and binary arrays, lists, sets, constants and the verified array node types; every initial state and every history of moves and proposals for whose decision values the evaluation is defined; every acceptance function; with and without assertions", "why_tests_cant": "Compositional claim over all DAGs and move histories; incremental evaluation bugs appear only for specific combinations.", "anchors": ["dwave/optimization/src/graph.cpp: Graph::propose, propagate, commit, revert"]}
{"id": "C18", "title": "Lazy initialization equals full initialization", "statement": "Initializing the state of one node on demand creates its state and that of exactly those nodes it depends on through nodes without a state, gives each of them the value full initialization would, and never alters a state that was already present.", "quantifier": "every DAG, every partially initialized state, every requested node", "why_tests_cant": "All graph shapes and patterns of already-initialized nodes.", "anchors": ["dwave/optimization/src/graph.cpp: Graph::recursive_initialize, initialize_state"]}
{"id": "C19", "title": "Resetting a node resets exactly its dependents", "statement": "Resetting the state of a node clears the state of that node and of all nodes that transitively read it, and of no other node.", "quantifier": "every DAG and every partially initialized state", "why_tests_cant": "All graph shapes and initialization patterns.", "anchors": ["dwave/optimization/src/graph.cpp: Graph::recursive_reset"]}
{"id": "C20", "title": "Slices select the same elements as Python", "statement": "Fitting a slice to a length and enumerating it yields exactly the indices Python's slice semantics selects, in Python's order, each index is inside the array, and the reported size is their number; the size of an unfitted slice is the number of terms of its progression except for extreme arguments, on which the code overflows (Slice(0, None, -1), step = SSIZE_MIN); fitting twice is harmless for positive steps but not for negative ones.", "quantifier": "every start, stop, step (including absent and negative) and every non-negative length", "why_tests_cant": "Infinite domain with many boundary cases (negative, clipped, empty).", "anchors": ["dwave/optimization/include/dwave-optimization/array.hpp: Slice::fit, Slice::size, Slice constructor"]}
{"id": "C21", "title": "Shape broadcasting follows the NumPy rule", "statement": "Broadcasting two shapes succeeds exactly when aligned trailing dimensions are equal or one of them is 1; the result then has the larger rank and each dimension is the non-1 one; the operation is commutative, idempotent and associative where defined.", "quantifier": "every pair (triple) of shapes", "why_tests_cant": "Unbounded rank and dimension values.", "anchors": ["dwave/optimization/src/array.cpp: broadcast_shape"]}
{"id": "C22", "title": "Flat and multi-dimensional indices are inverse", "statement": "For the strides of a contiguous array, flattening and unflattening indices are inverse bijections between in-range multi-indices and 0..size-1 (row-major rank); the computed size is the product of the dimensions when it fits a 32-bit int, and is wrong beyond that; flattening with negative strides is wrong.", "quantifier": "every shape with positive dimensions and every index", "why_tests_cant": "Unbounded rank and sizes.", "anchors": ["dwave/optimization/src/array.cpp: unravel_index, ravel_multi_index", "dwave/optimization/include/dwave-optimization/array.hpp: shape_to_strides, shape_to_size"]}
{"id": "C23", "title": "Contiguity test is exact", "statement": "An array without empty dimension is classified as contiguous exactly when walking its elements in logical order walks consecutive memory positions (for a state-dependent first axis: for every current length); a positive answer is right for every array; an empty array may be classified as not contiguous.", "quantifier": "every shape and strides", "why_tests_cant": "Unbounded rank and strides, unit and zero dimensions.", "anchors": ["dwave/optimization/include/dwave-optimization/array.hpp: Array::is_contiguous"]}
{"id": "C24", "title": "Strided iteration visits the logical order", "statement": "Starting at the beginning, advancing n times or advancing by n in one step (n of either sign) reaches the element whose multi-index is the n-th in row-major order; stepping back inverts stepping forward; when no two elements share memory, comparison and distance between iterators agree with their positions. Taking the distance, however, damages the operands' location, so later increments go astray.", "quantifier": "every shape, strides and step count inside the array", "why_tests_cant": "Unbounded rank, carries and step sizes.", "anchors": ["dwave/optimization/include/dwave-optimization/array.hpp: ArrayIteratorImpl_, ShapeInfo::increment, decrement"]}
{"id": "C25", "title": "Element-wise binary operations stay correct under moves", "statement": "For element-wise binary operations, after any changes to the operands, incremental propagation produces exactly the element-wise result (NumPy broadcasting of a one-element operand), the reported updates replay from the old result to the new one, and rejection restores the old result; the reported size is the number of values. Exceptions, shown by witnesses: an operand of state-dependent size that is currently 1 against a fixed operand with the same number of dimensions and size 1 makes propagation access memory out of range; with a state-dependent left operand of current size 1 the reported shape is the scalar's; a state-dependent operand against a one-element operand of more dimensions gives a malformed shape.", "quantifier": "every operation, every operand contents and sizes, every update history of either or both operands", "why_tests_cant": "Arbitrary update histories including several updates of one index, growth and shrinkage.", "anchors": ["dwave/optimization/src/nodes/mathematical.cpp: BinaryOpNode::propagate, initialize_state, shape, size"]}
{"id": "C26", "title": "Element-wise unary operations stay correct under moves", "statement": "For element-wise unary operations, incremental propagation yields exactly the operation applied to each element of the changed operand, with replayable updates and exact rejection, for fixed and dynamic sizes.", "quantifier": "every operation, operand and update history", "why_tests_cant": "Arbitrary update histories with growth and shrinkage.", "anchors": ["dwave/optimization/src/nodes/mathematical.cpp: UnaryOpNode::propagate"]}
{"id": "C27", "title": "N-ary operations stay correct under moves", "statement": "For n-ary sum, product, minimum and maximum, incremental propagation (including the shortcut that divides or subtracts the old contribution) yields exactly the fold of the operands at every position, with replayable updates and exact rejection.", "quantifier": "every number of operands (also repeated operands), contents and update history, including zeros in products", "why_tests_cant": "Zeros, repeated operands and multi-update histories combine in unboundedly many ways.", "anchors": ["dwave/optimization/src/nodes/mathematical.cpp: NaryOpNode::propagate"]}
{"id": "C28", "title": "Reductions stay correct under moves", "statement": "For sum, product, all, any, minimum and maximum over an array, incremental propagation yields exactly the fold over the current elements (with the initial value if given), with replayable updates and exact rejection, for fixed and dynamic sizes.", "quantifier": "every array, initial value and update history, including zeros for products and removal of the current extremum", "why_tests_cant": "Arbitrary histories; counters of zeros and extremum shortcuts are history dependent.", "anchors": ["dwave/optimization/src/nodes/mathematical.cpp: ReduceNode::propagate, initialize_state, reduce"]}
{"id": "C29", "title": "Axis sums stay correct under moves", "statement": "Summing over one axis yields at every remaining position the sum along that axis; the mapping from operand index to result index is the row-major index with the axis dropped; incremental propagation agrees with recomputation. (Not so, and refuted: that an axis out of range is refused before use; that propagation satisfies its own assertions for every valid axis.)", "quantifier": "every shape, axis and update history", "why_tests_cant": "Unbounded rank and shapes.", "anchors": ["dwave/optimization/src/nodes/mathematical.cpp: PartialReduceNode::map_parent_index, propagate, reduce"]}
{"id": "C30", "title": "Conditional selection stays correct under moves", "statement": "A conditional with a scalar condition equals the selected operand, one with an array condition selects element by element; incremental propagation agrees with recomputation when any of condition and branches change, with replayable updates.", "quantifier": "every condition and branch contents and update histories", "why_tests_cant": "Condition flips combined with branch changes of different sizes.", "anchors": ["dwave/optimization/src/nodes/flow.cpp: WhereNode"]}
{"id": "C31", "title": "Concatenation stays correct under moves", "statement": "Concatenating arrays along an axis is accepted exactly for static shapes equal off the axis and puts each operand's elements at the right place; after any moves propagation leaves the right contents and records the right positions and new values. (Not so, and refuted: that the recorded old values are right, so that the updates replay and revert restores; this holds only when just the first element of each operand changes.)", "quantifier": "every operand shapes, axis and update histories", "why_tests_cant": "Arbitrary shapes and histories.", "anchors": ["dwave/optimization/src/nodes/manipulation.cpp: ConcatenateNode"]}
{"id": "C32", "title": "Reshape and size stay correct under moves", "statement": "A reshaped array exposes the operand's elements in the same logical order with the same updates; exactly the fixed, contiguous operands with as many elements as the target shape are accepted; and the size node always equals the number of elements of its operand.", "quantifier": "every operand, target shape and update history", "why_tests_cant": "Arbitrary shapes and growth histories.", "anchors": ["dwave/optimization/src/nodes/manipulation.cpp: ReshapeNode, SizeNode"]}
{"id": "C33", "title": "Quadratic models: value is maintained exactly", "statement": "The value of a quadratic model equals the sum of linear and quadratic contributions at the current variable values after any sequence of changes and rejections.", "quantifier": "every set of linear and quadratic biases (including self-interactions), every update history", "why_tests_cant": "Several variables changing in one move, some more than once.", "anchors": ["dwave/optimization/src/nodes/quadratic_model.cpp: QuadraticModelNode::propagate, QuadraticModel::compute_value"]}
{"id": "C34", "title": "Quadratic models: bias storage behaves like a symmetric map", "statement": "Reading a bias returns the last value set plus what was added since, is symmetric in the two variables, does not affect other biases, and exporting and re-importing all biases gives an equivalent model.", "quantifier": "every sequence of set/add operations", "why_tests_cant": "Unbounded sequences over sorted adjacency lists.", "anchors": ["dwave/optimization/src/nodes/quadratic_model.cpp: QuadraticModel"]}
{"id": "C35", "title": "Indexing by arrays equals NumPy gather and stays correct under moves", "statement": "The constructor of advanced indexing accepts exactly the index tuples with one index per axis, at least one array, arrays of one shape of at most one axis that hold whole numbers inside their axis (its smallest length if it is state-dependent), slices that are full, no sliced state-dependent rows when the arrays are separated, and state-dependent arrays only in front; the result has NumPy's shape, and every element it needs exists. If the first index is an array, or the array's size is fixed and the arrays are not separated after a leading slice (or the array is constant, or the indices are single), or exactly one slice precedes adjacent arrays, the node shows the gathered array after initialisation, and after every change, growth and shrinkage of array and index arrays, with updates that are exactly the difference, and returns to it on revert. It fails otherwise: with A[:, i, :, j] a change of the array is written to the wrong element; with A[:, :, i] new rows are interleaved wrongly; A[:, i] with one index and state-dependent rows is accepted but cannot be initialised; removing indices converts NaN to an integer; an array without axes or with an empty inner axis is undefined.", "quantifier": "every array shape and tuple of indices, every number of axes, every values in range, every histories of updates of the array and of the index arrays, with and without assertions", "why_tests_cant": "Arbitrary combined histories of array and index arrays.", "anchors": ["dwave/optimization/src/nodes/indexing.cpp: AdvancedIndexingNode, AdvancedIndexingNodeData"]}
{"id": "C36", "title": "Slicing views equal NumPy views and stay correct under moves", "statement": "A basic-indexing view is accepted exactly for one index per axis with positive steps and integers in range, and it exposes exactly NumPy's selected elements. Through any history of changes, commits and reverts its contents stay the selected elements and its reported updates replay from old contents to new ones, for: consecutive elements of a fixed-size array; every k-th element of a fixed-size array starting among the first k; whole rows of an array that changes size with a negative start; with a non-negative start if rows have one element or all rows are taken. Elsewhere the expectation is false: two or more axes with a step, one axis with a step and a later start (changes of the last element are always lost), steps on an array that changes size, bounded ranges of wider rows; and two assertions fail on correct views.", "quantifier": "every array shape below 2^31 elements, indices, initial contents and update history", "why_tests_cant": "Arbitrary shapes, steps, starts and dynamic sizes.", "anchors": ["dwave/optimization/src/nodes/indexing.cpp: BasicIndexingNode"]}
{"id": "C37", "title": "Reordering a square array stays correct under moves", "statement": "Permuting a constant square array by an order decision yields element (order[i], order[j], ...) at (i, j, ...) when initialised, for any number of axes; on matrices incremental propagation agrees with recomputation, with replayable updates and exact rejection. (The wider expectations that orders able to index outside the array are refused, that empty arrays initialise, and that moves are propagated correctly for one axis or for three, are false and refuted.)", "quantifier": "every dimension, side length, order and update history", "why_tests_cant": "Arbitrary rank, order contents and histories.", "anchors": ["dwave/optimization/src/nodes/indexing.cpp: PermutationNode"]}
{"id": "C38", "title": "Declared bounds of element-wise operations are sound", "statement": "Whenever operand values lie within their declared bounds (and integrality), the results of element-wise binary, unary and n-ary operations lie within the bounds (and integrality) the node declares, and these bounds exist; for sum, difference, product, quotient, minimum and maximum of two operands they are attained. Exceptions, both refuted: the square of an operand that may be negative is declared with wrong bounds, and with assertions compiled in asking for the maximum of a quotient stops the program when the dividend's bounds include zero.", "quantifier": "every operand bounds and every operand values within them", "why_tests_cant": "Continuum of bounds and values; sign combinations.", "anchors": ["dwave/optimization/src/nodes/mathematical.cpp: BinaryOpNode::max/min/integral, UnaryOpNode::max/min/integral, NaryOpNode::max/min"]}
{"id": "C39", "title": "Declared bounds of reductions are sound", "statement": "Whenever the elements of the operand lie within its declared bounds and its size within its declared size bounds, the result of sum, product, all, any, min, max and axis-sum lies within the bounds (and integrality) the node declares, provided minima and maxima are taken of at least one element and results for which only the default bound is declared are representable. Refuted without the provisos: the maximum of no elements with an initial value may lie below the declared minimum, and for slices whose declared size is wrong the declared bounds of the sum are wrong too.", "quantifier": "every bounds, sizes, initial values and element values", "why_tests_cant": "Products over any number of elements with mixed signs; dynamic sizes.", "anchors": ["dwave/optimization/src/nodes/mathematical.cpp: ReduceNode::max/min, PartialReduceNode::max/min"]}
{"id": "C40", "title": "Modulus follows the floored convention", "statement": "The modulus operation returns the remainder with the sign of the divisor: x minus y times the floor of x/y, of magnitude smaller than the divisor's.", "quantifier": "every dividend and non-zero divisor", "why_tests_cant": "Infinite domain with sign cases.", "anchors": ["dwave/optimization/include/dwave-optimization/nodes/mathematical.hpp: functional::modulus"]}
{"id": "C41", "title": "Exact fractions behave as rational numbers", "statement": "Fraction construction, multiplication, division and comparison agree with rational arithmetic and always keep lowest terms with positive denominator.", "quantifier": "every numerator and non-zero denominator", "why_tests_cant": "Infinite domain; sign and reduction cases.", "anchors": ["dwave/optimization/include/dwave-optimization/utils.hpp: fraction"]}
{"id": "C42", "title": "Declared size relations of dynamic arrays: sound for chains that cut ends or keep heads, unsound in general", "statement": "For an array obtained from a decision by one-dimensional chains of slices that cut elements off the ends (decision of any size from 0), or of slices that keep at most a number of elements at the beginning or end, through element-wise operations and gathers of single elements, the declared size (multiple of another array's size plus offset, cut to minimum and maximum), traced back to any depth, is exactly the array's size in every state; so a declared maximum is never exceeded and, for the first kind, a declared minimum never undercut; and two such arrays (or arrays of fixed size) reported to have the same shape have the same size. In general this fails: a head of a decision with positive minimum declares that minimum; cutting the beginning off such a decision declares maximum 0; slices that do both, strided slices, gathers of rows and empty slices declare sizes they do not have, and are reported to have the shape of arrays of another size.", "quantifier": "every chain of dynamic arrays (slices, gathers, reshapes, element-wise operations) and every reachable size", "why_tests_cant": "Relations between sizes over all reachable states.", "anchors": ["dwave/optimization/src/array.cpp: SizeInfo::substitute, SizeInfo::operator==, array_shape_equal", "dwave/optimization/src/nodes/indexing.cpp: BasicIndexingNode::sizeinfo, AdvancedIndexingNode::sizeinfo"]}
{"id": "C43", "title": "Lock counting protects the model and its stored states", "statement": "In every history of locking, unlocking, adding and removing symbols, and reading, setting, resetting, initialising, resizing and loading states (without += on n-ary sums, and loading only states of no more decisions than the model has), the model is locked and its graph sorted exactly while a lock is held; extra releases do nothing; while locked symbols can be neither added nor removed and unlocked they can; releasing an inner lock changes nothing else, releasing the last keeps the states of decisions and discards all others; every stored state of another symbol is what its predecessors' states give, so reading a symbol returns its value for the stored decisions; setting a decision discards exactly the states of the symbols depending on it, also when the value is refused. += is not refused under a lock and breaks this; so does loading states of a model with more decisions, which is accepted.", "quantifier": "every history of user operations, every model and every number of states", "why_tests_cant": "Unbounded histories of nested contexts.", "anchors": ["dwave/optimization/_model.pyx: _Graph.lock, unlock, is_locked", "dwave/optimization/model.py: Model.lock, unlock", "dwave/optimization/states.pyx: States"]}
{"id": "C44", "title": "Models survive being written and read", "statement": "The adjacency file written for a locked model lists for every node only smaller ids, so the reader accepts it and rebuilds a graph with the same nodes (by position), edges in order, decisions, objective and constraints, and the first states of the decisions; the result is unlocked and writing it again gives the same archive. An unlocked model is locked only for the duration and keeps its decision states. The header is padded to a multiple of 64 bytes and decodes to the data followed by blanks. The reader does not survive files it has not written: a negative objective id or an out-of-range constraint id is undefined behaviour. An archive that claims a negative number of states is not read.", "quantifier": "every history of model operations without +=, every header length that fits 32 bits, every number of states to write", "why_tests_cant": "All graph shapes and header lengths.", "anchors": ["dwave/optimization/_model.pyx: _Graph.into_file, from_file"]}
{"id": "C45", "title": "Inferred slice indices rebuild the same view", "statement": "The indices inferred from a slicing view (used for serialization) are accepted again and rebuild a view of the same shape onto the same elements in the same order, for arrays of known shape and for arrays whose number of rows changes (whatever the number of rows is). This holds when all axes are non-empty, every slice starts inside its axis and the view has fewer than 2^31 elements. Without these conditions it fails: a slice starting past the end of its axis gives indices that are refused or a view of another shape, an empty array makes the inference divide by zero, and a view of 2^31 elements is mistaken for one of changing size.", "quantifier": "every array shape and every accepted index expression", "why_tests_cant": "Unbounded rank, steps and sizes.", "anchors": ["dwave/optimization/src/nodes/indexing.cpp: BasicIndexingNode::infer_indices"]}
{"id": "C46", "title": "Declared statistics of constants are exact", "statement": "The minimum, maximum, integrality and logical flags of a constant array are those of its elements.", "quantifier": "every constant array, including empty ones", "why_tests_cant": "Infinite domain.", "anchors": ["dwave/optimization/src/nodes/constants.cpp: ConstantNode"]}
{"id": "C47", "title": "Default random moves keep decisions valid", "statement": "A default move on any non-empty decision is an ordinary move that leaves it in its domain, for every outcome of the random generator. (False of the code for empty lists, disjoint decisions without items, and integers whose lower bound is negative: witnesses are given.)", "quantifier": "every decision type, size, state and random outcome", "why_tests_cant": "All random outcomes and all states, including empty decisions.", "anchors": ["dwave/optimization/src/nodes/collections.cpp: default_move", "dwave/optimization/src/nodes/numbers.cpp: default_move"]}
{"id": "C48", "title": "Set default moves cannot reach every set", "statement": "Default moves of a set decision reach every subset of allowed size. This is false of the code: the added item is only drawn from hidden positions below max_size, so items at positions max_size and later are never exposed.", "quantifier": "every sequence of default moves and random outcomes", "why_tests_cant": "Unreachability is about all move sequences and outcomes.", "anchors": ["dwave/optimization/src/nodes/collections.cpp: SetNode::default_move"]}
{"id": "C49", "title": "Links between nodes stay consistent", "statement": "At every point of the life of a model the operand lists and the reader lists of the live nodes agree (with multiplicity) and none of them mentions a deleted node; objective and constraints are live. A constructor that is refused while registering with its operands one by one (NaryOpNode, ConcatenateNode) breaks this: the earlier operands keep a pointer to the node that does not exist (refuted).", "quantifier": "every history of adding nodes, adding operands, sorting, resetting, removing unused nodes", "why_tests_cant": "Dangling pointers show only for particular histories.", "anchors": ["dwave/optimization/include/dwave-optimization/graph.hpp: Node::add_predecessor, Graph::emplace_node", "dwave/optimization/src/graph.cpp: Graph::remove_unused_nodes", "dwave/optimization/src/nodes/mathematical.cpp: NaryOpNode::NaryOpNode, add_node", "dwave/optimization/src/nodes/manipulation.cpp: ConcatenateNode::ConcatenateNode"]}
{"id": "C50", "title": "Traveling salesperson generator encodes the problem", "statement": "For every non-empty square matrix of non-negative distances the generator returns a model whose only decision is a list of all cities, which has no constraints, and whose objective for every order of the cities is the length of the closed tour; anything else is refused.", "quantifier": "every distance matrix, every value of the decision", "why_tests_cant": "Tests compare a few small instances; all sizes and all orders are quantified here.", "anchors": ["dwave/optimization/generators.py: traveling_salesperson, _require", "dwave/optimization/_model.pyx: ArraySymbol.__getitem__"]}
{"id": "C51", "title": "Quadratic assignment generator encodes the problem", "statement": "For every two square matrices of non-negative numbers of equal size the generator returns a model whose only decision is a list, without constraints, whose objective for every assignment is the sum of flow times distance between the assigned locations; anything else is refused.", "quantifier": "every pair of matrices, every value of the decision", "why_tests_cant": "All sizes and all assignments; the indexing is rewritten to a permutation node.", "anchors": ["dwave/optimization/generators.py: quadratic_assignment", "dwave/optimization/symbols.pyx: AdvancedIndexing.__getitem__"]}
{"id": "C52", "title": "Knapsack generator encodes the problem", "statement": "For non-negative values and weights of equal number and a positive capacity the generator returns a model whose only decision is a set of items, whose objective is minus the total value and whose constraints hold exactly if the total weight is at most the capacity; anything else is refused.", "quantifier": "every instance (including without items), every set of items", "why_tests_cant": "All instances and all subsets.", "anchors": ["dwave/optimization/generators.py: knapsack"]}
{"id": "C53", "title": "Bin packing generator encodes the problem", "statement": "For non-negative weights that each fit the positive capacity the generator returns a model whose decisions are a partition of the items into as many sets as items, whose objective is the number of non-empty sets and whose constraints hold exactly if no set is heavier than the capacity; anything else is refused.", "quantifier": "every instance, every partition", "why_tests_cant": "All instances and all partitions.", "anchors": ["dwave/optimization/generators.py: bin_packing"]}
{"id": "C54", "title": "Vehicle routing generator encodes the problem", "statement": "For a matrix of non-negative distances, positive demands of the customers and a fleet that can carry the total demand, the generator returns a model whose decisions are a partition of the customers into one list per vehicle, whose objective is the total length of the trips from the depot through each list and back (0 for an empty list) and whose constraints hold exactly if no vehicle is overloaded; the same from locations in the plane, with the depot as the first location (demand 0) or given apart, where the distances are the square roots (or any other non-negative function) of the sums of the squared differences; anything else is refused.", "quantifier": "every instance given by a distance matrix or by locations, every partition into lists", "why_tests_cant": "All instances and partitions, including empty routes and asymmetric distances.", "anchors": ["dwave/optimization/generators.py: capacitated_vehicle_routing"]}
{"id": "C55", "title": "Vehicle routing with time windows: what is encoded", "statement": "With n customers and k vehicles, a proper instance is accepted exactly when 1 <= 3*floor(n/k) <= n+1 and raises otherwise (so a single vehicle always raises, and with three or more vehicles there must be a customer for each). Accepted, the decisions are the k routes, and for every partition of the customers into routes the constraints hold exactly when every route respects the capacity, has at most 3*floor(n/k) customers, is on time at every customer and at the depot, and, if it is shorter than that, is over by time 10^6; the objective is the sum of the routes' times with the legs between customers taken backwards. That every proper instance is accepted, and that the objective is the travelling time, are false.", "quantifier": "every instance", "why_tests_cant": "The project's tests only use two or three customers and two vehicles, one customer per route when times are not symmetric.", "anchors": ["dwave/optimization/generators.py: capacitated_vehicle_routing_with_time_windows"]}
{"id": "C56", "title": "Flow shop generator: what is encoded", "statement": "For every non-empty matrix of non-negative processing times the generator returns a model whose only decision is an order of the jobs and which has no constraints. The objective is the makespan of a schedule in which the first job keeps every machine but the first until it leaves the last machine. This is the makespan for one or two machines and never less than it, but differs from it for three (refuted: the in-place addition extends a sum that was already used).", "quantifier": "every instance, every order", "why_tests_cant": "The project's tests only use two machines.", "anchors": ["dwave/optimization/generators.py: flow_shop_scheduling", "dwave/optimization/symbols.pyx: NaryAdd.__iadd__"]}
{"id": "C57", "title": "Job shop generator encodes the problem", "statement": "For every matrix of non-negative times and every matrix of machine orders (zero- or one-based) the generator returns a model whose only decision is the matrix of start times between 0 and the horizon, whose objective is the time the last operation ends, and whose constraints hold exactly if each job's operations follow each other and no two operations overlap on a machine. It requires the horizon to be at most 2e9; beyond the range of int the conversion is undefined (witnesses).", "quantifier": "every instance, all start times", "why_tests_cant": "All instances, all start times.", "anchors": ["dwave/optimization/generators.py: job_shop_scheduling"]}
{"id": "C58", "title": "Models built by the front end run correctly", "statement": "A model built through the Python front end whose nodes are within their contracts, once sorted, initialises; between proposals, after every history of moves, acceptances and rejections, every symbol has exactly the value it stands for given the decisions' current values, which are values the decisions may take; the acceptance function sees every symbol at its value for the proposed decisions. In particular, for every instance: the traveling salesperson model always holds an order of the cities and the length of its tour, the quadratic assignment model an assignment and its cost, and the knapsack model a set of items, minus its value, and whether it fits.", "quantifier": "every model of the covered classes, every instance, every starting state, every history of proposals", "why_tests_cant": "All instances together with all histories of proposals.", "anchors": ["dwave/optimization/_model.pyx", "dwave/optimization/generators.py", "dwave/optimization/src/graph.cpp: propose, initialize_state", "dwave/optimization/src/nodes"]}
{"id": "C59", "title": "Indexing of symbols selects what NumPy would", "statement": "If A[index] is accepted, where the index mixes integers, slices and one-dimensional array symbols, the symbol it returns stands for the array that NumPy's combined indexing selects from the value of A with the values of the index arrays, and has its shape, provided taking the integers out first does not move the axis of the index arrays; in particular whenever the integers and arrays in the index are next to each other. A[z, :][:, z] and A[:, z][z, :] of a constant square matrix, which are rewritten as a Permutation, stand for what the two selections in turn select. A[0, :, x] is not what NumPy returns (the axes are the other way around), and A[z, :][:, z] is refused when z has fewer entries than A has rows, although each selection alone is possible.", "quantifier": "every array, every index, every value of the index arrays", "why_tests_cant": "Unbounded combinations of index kinds, numbers of axes, slices and values.", "anchors": ["dwave/optimization/_model.pyx: _split_indices, ArraySymbol.__getitem__", "dwave/optimization/symbols.pyx: AdvancedIndexing.__getitem__, BasicIndexing, AdvancedIndexing, Permutation"]}
{"id": "C60", "title": "Comparing symbols", "statement": "Symbol.equals is reflexive, symmetric and, within a model, transitive; it returns for symbols computed from finitely many, given enough recursion depth; symbols built alike (the same operations with the same parameters on symbols built alike) compare equal, so symbols that compare different were not built alike; symbols that compare equal have the same value if what they are computed from contains no two operations of one type and shape with different parameters and no two decisions of one type and shape. Equal symbols need not represent the same quantity: different decisions, different lists of one disjoint_lists, different elements of an array, and rows and columns of a matrix compare equal; x + c and c + x compare different although 0 is documented as not equal with certainty. The number of calls is exponential in the number of symbols, and a model deeper than the recursion limit cannot be compared.", "quantifier": "every pair of symbols of the covered classes, in one model or two, every recursion limit", "why_tests_cant": "Unbounded graphs; the cost of a deep comparison alone is out of reach.", "anchors": ["dwave/optimization/_model.pyx: Symbol.equals, Symbol.maybe_equals, ArraySymbol.maybe_equals", "dwave/optimization/symbols.pyx: Constant.maybe_equals"]}
{"id": "C61", "title": "Powers and in-place operators", "statement": "x ** e is accepted for every whole e > 0 and stands for the elementwise power, leaving every other symbol's value alone, except that for e > 2 a state-dependent size is refused and x must not be a product built in place; e <= 0 is refused. x += y and x *= y of arrays of one fixed shape stand for the elementwise sum and product: of another symbol they create a new symbol and change nothing; of a sum (product) built in place they return the same symbol with the new value, and what is not computed from it keeps its value. Symbols computed earlier from such a sum change with it; s += s and p ** 3 of a product p built in place leave the symbol, and everything computed from it, without a value, because it becomes its own operand.", "quantifier": "every symbol, exponent, operand and values of the decisions", "why_tests_cant": "All exponents and all graphs around the symbol that changes.", "anchors": ["dwave/optimization/_model.pyx: ArraySymbol.__pow__, __iadd__, __imul__", "dwave/optimization/symbols.pyx: NaryAdd.__iadd__, NaryMultiply.__imul__", "dwave/optimization/src/nodes/mathematical.cpp: NaryOpNode::add_node"]}
{"id": "C62", "title": "State sizes: given exactly for arrays whose size is limited, an upper bound only for simple chains", "statement": "state_size() of a symbol gives a number only if it is no array, has a fixed size, or its size is derived (through element-wise operations with a fixed operand, gathers and slices) from an array with a declared maximum, and raises only if not; the header of a model file has the sums of these, so a model is written completely, and a written one accepted, only if all its arrays are limited so. For the chains of C42 the result is never below the bytes a state takes. In general both fail: a unary operation or a choice between arrays of state-dependent size declares nothing, so a model of a set and its negative has no state size and cannot be written (its decisions can); rows gathered by a set, and the end of a set with a positive minimum, take more than their state size, which even depends on how many nodes the model has.", "quantifier": "every model (list of arrays with the arrays their sizes come from) and every reachable size", "why_tests_cant": "All chains of declared sizes, and all sizes reachable at run time.", "anchors": ["dwave/optimization/_model.pyx: Symbol.state_size, ArraySymbol.state_size, _Graph.state_size, _header_data", "dwave/optimization/include/dwave-optimization/array.hpp: Array::sizeinfo"]}
{"id": "C63", "title": "Model files keep what the symbols stand for", "statement": "For every model built with the front end (constants, decisions, indexing, arithmetic, reductions, sums along an axis, reshaping, where, size, powers, in-place operators, objective, constraints) whose views are non-empty with slices starting inside their axes: into_file writes it, from_file reads the file, and the model read has the same symbols in the order in which locking arranged the nodes - same operation, operands, shape, contiguity, stored indices and parts of disjoint decisions -, the same objective and the same constraints; so every symbol, the objective and feasibility have the same values for all values of the decisions. With only_decision exactly the decisions are written and read. That the order of a locked graph lists the parts of each disjoint decision by their numbers, which reading relies on, holds after any history of the graph. Without the condition on views it fails: a model with the view [2, 4:] of a 3 by 4 array is written but cannot be read, [1:3, 4:] comes back with another shape, and writing a view of an empty array divides by zero. The decisions are exactly the symbols made from no others that are not constants.", "quantifier": "every program of front-end operations, every order of nodes that a topological sort can give, every history of the graph, every value of the decisions", "why_tests_cant": "All combinations of operations, and all orders that in-place operators make the sort choose.", "anchors": ["dwave/optimization/symbols.pyx: _from_zipfile and _into_zipfile of all symbols", "dwave/optimization/_model.pyx: _Graph.from_file, _Graph.into_file, Symbol._from_zipfile", "dwave/optimization/src/graph.cpp: Graph::topological_sort", "dwave/optimization/src/nodes/collections.cpp: DisjointListNode, DisjointBitSetNode"]}
{"id": "C64", "title": "Sums and products in doubles", "statement": "In IEEE 754 doubles (rounding to nearest, ties to even), the running sum that ReduceNode keeps for sum(), and the sums along an axis that PartialReduceNode keeps, are exactly the sum of the entries whenever the entries (and the initial value) are whole numbers whose largest possible total stays below 2^53: after any grouping and order of the initial summation, any history of changes kept and undone, and any pending updates. The running product is exact for whole numbers as long as the product of the nonzero entries stays below 2^53 and every change is from zero, to zero or to a multiple; appended and dropped entries are fine. Undoing a change restores sums, products and partial sums bit for bit whatever the doubles are. Refuted: that the sum stays close to that of the entries in general (0.1 changed to 1e16 and back shows 0), that the product of whole numbers is whole (49 changed to 1 shows 0.9999999999999999, 0 as an index, though the node says it is integral), that a sum recovers from an overflow, that a sum is never reported as removed (it is once it is NaN), and that the initial sum of whole numbers is independent of the order at 2^53.", "quantifier": "every array of whole numbers within the bounds, every order and grouping of the initial summation, every history of updates kept or undone, every pending update list, every map of entries to sums; for undoing every double", "why_tests_cant": "Rounding errors only show for particular values and after particular histories; no set of tests covers all histories.", "anchors": ["dwave/optimization/src/nodes/mathematical.cpp: ReduceNode<std::plus<double>>::propagate, ReduceNode<std::multiplies<double>>::propagate and initialize_state, ReduceNode::reduce, ReduceNodeData, PartialReduceNode<std::plus<double>>::propagate and reduce", "dwave/optimization/src/nodes/_state.hpp: ArrayNodeStateData::revert"]}
{"id": "C65", "title": "Disjoint lists and bit-sets in whole models", "statement": "Disjoint lists and disjoint bit-sets, with the arrays that are their parts, take part in whole models correctly: from every starting state and after every sequence of moves since the last commit, the pending updates of every part lead from its committed contents to its current ones, all values and logged values are items (bits), the assertions of propagate hold, commit and revert leave no pending updates; a part shows the contents of its parent at once and follows the parent's commit and revert without doing anything itself. Hence in a whole model, between proposals, the parts together hold every item exactly once (every item is in exactly one bit-set), and every array computed from them has its value.", "quantifier": "every number of items and of parts (at least one part), every starting state that the constructors accept and that is a partition, every history of moves (for lists rotations, swaps and moving an item between lists; for bit-sets moving an existing item), every model of the covered classes containing them, every history of proposals", "why_tests_cant": "The parts have no state and read their parent's; consistency of all the logs over all histories and all models cannot be enumerated.", "anchors": ["dwave/optimization/src/nodes/collections.cpp: DisjointBitSetsNode, DisjointBitSetNode, DisjointListsNode, DisjointListNode", "dwave/optimization/include/dwave-optimization/nodes/collections.hpp: DisjointBitSetNode, DisjointListNode", "dwave/optimization/src/graph.cpp: propose, initialize_state"]}
{"id": "C66", "title": "Typed models run as they stand for", "statement": "If no symbol of a model is, directly or by way of others, an operand of itself, and elements can be assigned to the arrays so that what is used as an index is an index of the axis it is used on, then the graph of the model is accepted and sorted (also when sums got operands made after them), every symbol has a value for all values of the decisions, and under every history of proposals every symbol shows that value. The bin packing, job shop, flow shop and capacitated vehicle routing models of any size, the last from distances or locations and also with time windows, are of this kind: at all times the bins partition the items, the objective is the number of bins used, and the constraints tell whether all bins are within capacity; and the objective is the end of the last operation, and the constraints tell whether every job goes through its machines in order and no machine has two jobs at once; and the list is an order of the jobs and the objective the value that C56 gives for it; and the routes partition the customers, the objective is the length of all trips from and to the depot, and the constraints tell whether no vehicle carries more than its capacity; and with time windows, where the instance is accepted, the same with the objective and the constraints that C55 gives.", "quantifier": "every model of the covered classes whose elements can be so assigned; every list of weights within capacity; every job shop, flow shop and vehicle routing instance within the sizes that indices of C++ allow; every history of proposals, accepted or not", "why_tests_cant": "The models grow with the instance (bin packing adds operands to a sum in a loop), and the histories of proposals are unbounded.", "anchors": ["dwave/optimization/generators.py: bin_packing, job_shop_scheduling, flow_shop_scheduling, capacitated_vehicle_routing, capacitated_vehicle_routing_with_time_windows", "dwave/optimization/_model.pyx: ArraySymbol.__iadd__, Model.lock", "dwave/optimization/src/nodes/mathematical.cpp: NaryOpNode::add_node", "dwave/optimization/src/graph.cpp: topological_sort, propose"]}
{"id": "C67", "title": "Models of constrained quadratic models", "statement": "The model made of a constrained quadratic model over at least one binary variable has those variables as its only decision; for all their values its objective is the value of the quadratic objective, including the offset, and its constraints hold exactly if every constraint of the quadratic model does, whatever its sense; and the model, sorted, initialises and shows this at all times, after every history of proposals. Interactions of a variable with itself and repeated interactions count as they should. A variable that is not binary is refused. Without variables the result is an empty model: an infeasible constraint between constants, and the offset of the objective, are lost.", "quantifier": "every number of variables, every objective and list of constraints (linear or quadratic, over any of the variables), every value of the variables", "why_tests_cant": "The symbols depend on the whole input: how many constraints, which of them are linear, which have an offset, which variables they use in which order.", "anchors": ["dwave/optimization/generators.py: _from_constrained_quadratic_model", "dwave/optimization/model.py: quadratic_model", "dwave/optimization/symbols.pyx: QuadraticModel.__init__, _init_from_coords", "dwave/optimization/src/nodes/quadratic_model.cpp"]}
{"id": "C68", "title": "Quadratic models from dictionaries", "statement": "A quadratic model made of dictionaries of linear and quadratic biases with keys in range shows, for all values of its variables, the sum of bias times variables over the items; its reported biases are the sums of those of the items for that pair in either order, where the square of a binary variable counts as linear; reading a bias out of range is refused. Refused as well are: no interaction, a linear key out of range, an interaction with a key out of range that is a 32-bit integer or no 64-bit integer, and arrays that are no non-empty vector of fixed size. Of other keys only the low 32 bits count, so that some keys out of range are accepted. What a model file stores of such a node, the constructor makes into a node with the same biases and the same value.", "quantifier": "every number of variables up to 2^31, every pair of dictionaries, binary variables and others, every value of the variables", "why_tests_cant": "The items of the dictionaries are arbitrary in number and order, and the keys range over all integers; the wrap-around of keys happens at values tests do not use.", "anchors": ["dwave/optimization/symbols.pyx: QuadraticModel.__init__, _init_from_qubo, _init_from_coords, get_linear, get_quadratic, _into_zipfile, _from_zipfile", "dwave/optimization/src/nodes/quadratic_model.cpp"]}
{"id": "C69", "title": "Iterators with masks", "statement": "Whatever increments, decrements and jumps led a masked iterator to a position, reading there gives the fill value if the mask is true at that position and the element of the data otherwise, and so does indexing relative to it; a loop from the beginning to an iterator at the end of the data, masked or not, meets exactly these values in order. Distance, equality and order of masked iterators are those of their positions. No iterator is both masked and strided, so the case the operators leave undefined does not occur. Writing where the mask is false changes that element and nothing else; writing where it is true changes the fill value, and with it every element under the mask.", "quantifier": "every data, mask and fill value in memory, every sequence of moves, every length", "why_tests_cant": "The data pointer and the mask pointer move separately, and the sequences of moves and the masks are unbounded.", "anchors": ["dwave/optimization/include/dwave-optimization/array.hpp: ArrayIteratorImpl_, MaskInfo"]}
{"id": "C70", "title": "Graph export", "statement": "Given unique names for the nodes, exporting a model to a NetworkX graph succeeds and gives a directed multigraph with exactly the model's nodes in their order, plus one node for the objective if there is one and one for the constraints if there are any; between two nodes it has as many edges as the first occurs among the operands of the second, one edge from the objective to its special node, one edge per added constraint, and no others. The reported number of edges is the total number of operands. Names that are not unique are noticed. After a refused node that had registered with some operand already, neither holds.", "quantifier": "every history of model building, locking, unlocking and removal of unused nodes", "why_tests_cant": "Operands may repeat and nodes be removed in any order; the agreement of both ends of all edges is an invariant over unbounded histories.", "anchors": ["dwave/optimization/model.py: Model.to_networkx", "dwave/optimization/_model.pyx: _Graph.num_edges, iter_symbols, iter_constraints, Symbol.iter_successors"]}
{"id": "C71", "title": "States that arrive later", "statement": "Attaching the result of a pending computation only when the states are first looked at cannot be noticed: for every sequence of operations on a model, with computations asked for at any point and succeeding with states of their own, what each operation returns and the model in the end are as if the states had been attached at once. The hook of every accepted future is called once, in order, except perhaps the last that is still pending. If it raises, so does the first operation that looks at the states, which has no effect otherwise, except that releasing the last lock releases it; if that operation asks for another computation, that one is lost.", "quantifier": "every history of operations on a model and its states, every point at which computations are asked for", "why_tests_cant": "The points at which the result is needed are spread over many methods, and the interleavings with edits, locks and resets are unbounded.", "anchors": ["dwave/optimization/states.pyx: States.from_future, resolve, attach_states, resize, initialize, from_file, _reset_intermediate_states", "dwave/optimization/_model.pyx: Symbol.reset_state, ArraySymbol.state", "dwave/optimization/model.py: Model.unlock"]}
{"id": "C72", "title": "Feasibility of a state", "statement": "After every history of a model under a lock, for every index of a state, counted from the front or, negative, from the back, feasible answers true exactly if every constraint is true of the values that the stored decisions determine, and false exactly if some constraint is not. It changes neither the graph, nor another state, nor anything present in that state, and asking again gives the same answer. Without a lock constraints that are not decisions cannot be read: the answer is then false if a decision that is false comes before them, and an exception if not. An index outside the states is an exception if there are constraints; without constraints the answer is true for any index, whether or not there is such a state.", "quantifier": "every history of operations on a model, every index, every truth value of the constraints", "why_tests_cant": "The answer stops at the first false constraint and fills in missing states as it goes, so it depends on what was initialized before, over unboundedly many histories.", "anchors": ["dwave/optimization/model.py: Model.feasible", "dwave/optimization/_model.pyx: _Graph.iter_constraints, ArraySymbol.state", "dwave/optimization/src/graph.cpp: Graph::add_constraint"]}
{"id": "C73", "title": "What NumPy reads of a state", "statement": "The buffer handed out for a state (address, length, shape and strides in bytes), read by the rules of the buffer protocol, gives exactly the elements the symbol shows: for a node with memory of its own all of it, with the first axis of an array that changes size following the state; for a view of an array of fixed size, with any starts, stops and positive steps on any number of axes, the selected elements; for a view of whole rows of an array that changes size the selected rows, at every point of its life, through propagation, commit and revert. The length is 8 bytes per element. For a view with a step of an array that changes size this fails: the buffer can reach past the end of the memory.", "quantifier": "every shape, every selection, every contents, every life of a view", "why_tests_cant": "Shape, strides, address and the state's size are computed in different places and have to agree for unboundedly many shapes and selections.", "anchors": ["dwave/optimization/states.pyx: StateView.__getbuffer__", "dwave/optimization/src/nodes/indexing.cpp: BasicIndexingNode::buff, shape, size, update_dynamic_shape, AdvancedIndexingNode::shape", "dwave/optimization/include/dwave-optimization/array.hpp: Array::len, strides"]}
