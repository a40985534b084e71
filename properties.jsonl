{"id": "C01", "title": "Even splits tile the range", "statement": "split_m(n, m) returns m part lengths with start and end bounds such that the intervals [start_i, end_i) are contiguous, begin at 0, end at n, have exactly the reported lengths, never differ in length by more than one, and put the longer parts first.", "quantifier": "every n >= 0 and every m >= 1", "why_tests_cant": "The arithmetic is a floor/remainder split; off-by-one errors only show for particular residues n mod m, and a test samples finitely many (n, m).", "anchors": ["caput/util/arraytools.py: split_m", "caput/util/mpitools.py: split_all, split_local"]}
{"id": "C02", "title": "partition_list deals every element exactly once", "statement": "For method 'con' the n pieces concatenated in order are the input list; for method 'alt' piece i holds exactly the elements at positions congruent to i mod n in order. In both cases every element of the list lands in exactly one piece. An unknown method is rejected.", "quantifier": "every list, every number of parts n >= 1, every part index i < n", "why_tests_cant": "A test fixes list length and n; the claim is about all residues and lengths, including lists shorter than the number of parts.", "anchors": ["caput/util/arraytools.py: partition_list"]}
{"id": "C03", "title": "MPI ranges own every index once", "statement": "For a communicator of any size, the index ranges that mpirange / split_local / partition_list_mpi give to the different ranks are pairwise disjoint and their union is the whole range, and the per-rank view agrees with the all-rank table (split_all).", "quantifier": "every communicator size, rank, and range length or (start, stop, step)", "why_tests_cant": "Running under mpirun exercises one communicator size at a time; the claim ranges over all of them.", "anchors": ["caput/util/mpitools.py: mpirange, split_all, split_local, partition_list_mpi"]}
{"id": "C04", "title": "parallel_map equals map", "statement": "parallel_map(func, glist, method='con' or 'alt') returns on every rank the list [func(x) for x in glist] in the original order, whatever the number of ranks.", "quantifier": "every list, every function, every communicator size >= 1", "why_tests_cant": "The result is rebuilt from rank-local pieces by an index sort; only particular list-length/rank-count combinations would expose a loss or reordering.", "anchors": ["caput/util/mpitools.py: parallel_map", "caput/util/arraytools.py: partition_list"]}
{"id": "C05", "title": "parallel_map with random assignment equals map", "statement": "parallel_map(func, glist, method='rand') returns [func(x) for x in glist] in the original order.", "quantifier": "every list, function, communicator size and every state of each rank's own random generator", "why_tests_cant": "Under a test the ranks are usually seeded identically or there is one rank; independent generators per rank are never sampled deliberately.", "anchors": ["caput/util/mpitools.py: parallel_map", "caput/util/arraytools.py: partition_list (method 'rand')"]}
{"id": "C06", "title": "transpose_blocks is a global transpose of ownership", "statement": "Given an array whose rows are spread over the ranks by split_local, transpose_blocks returns to every rank exactly its column block of all rows, so that reassembling the output column blocks yields the original global array.", "quantifier": "every number of ranks, row count, column count and element values", "why_tests_cant": "The block arithmetic depends on both residues of rows and columns modulo the rank count.", "anchors": ["caput/util/mpitools.py: transpose_blocks"]}
{"id": "C07", "title": "unique_ordered keeps first occurrences", "statement": "unique_ordered(x) has no duplicates, has exactly the elements of x, and orders them by first occurrence in x.", "quantifier": "every list over a type with decidable equality", "why_tests_cant": "Order-of-first-occurrence over arbitrary duplicate patterns is a for-all statement over lists.", "anchors": ["caput/util/arraytools.py: unique_ordered"]}
{"id": "C08", "title": "LRU cache never exceeds its byte budget and never lies", "statement": "After any history of insertions, lookups and deletions the total size of items held by an LRUCache is at most its maximum size, each key has one value, a lookup either misses or returns the value most recently stored under that key, and inserting never evicts a more recently used item while a less recently used one stays.", "quantifier": "every operation history, every item-size function, every capacity", "why_tests_cant": "Eviction bugs depend on the history of uses and sizes, which is unbounded.", "anchors": ["caput/util/arraytools.py: LRUCache"]}
{"id": "C09", "title": "Parallel row writes land at their own offset", "statement": "parallel_rows_write_hdf5 (through lock_and_write_buffer) leaves the file region of the dataset equal to the concatenation over ranks of their row blocks, in global row order, and changes no other byte of the file.", "quantifier": "every rank count, row count, column count, item size, dataset offset and initial file contents", "why_tests_cant": "Needs MPI and a real file to run at all; offsets and item sizes vary.", "anchors": ["caput/util/mpitools.py: parallel_rows_write_hdf5, lock_and_write_buffer"]}
{"id": "C10", "title": "Integer bit truncation respects the error bound", "statement": "bit_truncate(v, e) differs from v by at most e for every 32-bit v and every tolerance 0 <= e below 2^30 for which no 32-bit overflow occurs; the same for the 64-bit version.", "quantifier": "every value and every tolerance in range", "why_tests_cant": "2^62 input pairs for the 32-bit version.", "anchors": ["caput/util/truncate.hpp: bit_truncate, bit_truncate_64"]}
{"id": "C11", "title": "Bit truncation yields the nearest multiple, ties to even", "statement": "The result of bit_truncate(v, e) with e > 0 is a multiple of the granularity g (the smallest power of two above e), is a nearest multiple of g to v, and when v is exactly half way it is the multiple whose quotient by g is even; with e = 0 the value is unchanged; truncating twice with the same tolerance changes nothing.", "quantifier": "every value and every tolerance in range", "why_tests_cant": "Ties occur on a measure-zero set of inputs that random tests rarely hit.", "anchors": ["caput/util/truncate.hpp: bit_truncate, bit_truncate_64"]}
{"id": "C12", "title": "Float truncation respects the error bound and the sign", "statement": "bit_truncate_float(v, e) for finite v and finite e >= 0 returns a value within e of v that never changes sign (it may become zero), and returns v unchanged when e = 0.", "quantifier": "every finite single-precision value and tolerance (as exact dyadic rationals)", "why_tests_cant": "2^64 input pairs, with exponent-dependent branches.", "anchors": ["caput/util/truncate.hpp: bit_truncate_float, fast_pow"]}
{"id": "C13", "title": "Weight-based truncation stays within the fallback tolerance", "statement": "bit_truncate_weights truncates an element whose inverse variance is zero with the relative fallback precision, so that the element moves by at most fallback*|value|.", "quantifier": "every value (of either sign) and every fallback precision", "why_tests_cant": "Tests use few sign/zero-weight combinations.", "anchors": ["caput/util/truncate.pyx: _bit_truncate_weights_float, _bit_truncate_weights_double, bit_truncate_relative"]}
{"id": "C14", "title": "Slice length is right", "statement": "The length computed for a slice on an axis (used to size selections read from file) equals the number of indices Python's own slicing selects.", "quantifier": "every axis length and every slice with positive step and any (None, negative, out-of-range) bounds", "why_tests_cant": "Bounds, sign and step interact; only specific residues go wrong.", "anchors": ["caput/mpiarray.py: _len_slice"]}
{"id": "C15", "title": "Re-slicing composes", "statement": "Applying the combined slice computed from a slice and a sub-slice selects the same elements, in the same order, as applying the two slices one after the other.", "quantifier": "every axis length, every slice with positive step, every sub-slice of it with positive step", "why_tests_cant": "Composition over all starts, stops and steps is a for-all claim.", "anchors": ["caput/mpiarray.py: _reslice, _expand_sel"]}
{"id": "C16", "title": "Distributed reads with a selection partition the selection", "statement": "When a file is read distributed with a selection on the distributed axis, the per-rank selections read disjoint pieces that, concatenated in rank order, are the selected global data; the reported global length and local offsets match.", "quantifier": "every axis length, selection slice or index list, and communicator size", "why_tests_cant": "One run samples one size and one slice.", "anchors": ["caput/mpiarray.py: MPIArray.from_file, _partition_sel, _reslice, _len_slice"]}
{"id": "C17", "title": "IO partitioning tiles the array and bounds each transfer", "statement": "The slices used to split a large parallel transfer cover the split axis exactly once in order, and each transfer is below the size threshold whenever some axis makes that possible.", "quantifier": "every array shape, item size, communicator size and threshold", "why_tests_cant": "Needs arrays larger than 2 GB to exercise.", "anchors": ["caput/mpiarray.py: MPIArray._partition_io"]}
{"id": "C18", "title": "Global slicing sees one global array", "statement": "array.global_slice[...] on the distributed axis with a contiguous slice gives on each rank exactly the local share of the global slice: concatenating the results of the ranks in order gives the numpy slice of the global array; assignment through it changes exactly the selected global elements.", "quantifier": "every global length, communicator size, and unit-step slice with non-negative or None bounds", "why_tests_cant": "Rank boundaries relative to the slice ends give many cases; MPI tests fix one size.", "anchors": ["caput/mpiarray.py: _global_resolver"]}
{"id": "C19", "title": "Global slicing with a negative integer index", "statement": "array.global_slice[-k] on the distributed axis designates the k-th element from the end, as numpy does on the global array: exactly one rank returns it, and an assignment through it modifies that element.", "quantifier": "every global length, communicator size and k in 1..length", "why_tests_cant": "A silent no-op on assignment does not raise, so a test has to look for it.", "anchors": ["caput/mpiarray.py: _global_resolver._resolve_slice, __getitem__, __setitem__"]}
{"id": "C20", "title": "Global slicing with a step", "statement": "array.global_slice[a:b:s] on the distributed axis selects over the ranks together exactly the global elements a, a+s, a+2s, ...", "quantifier": "every global length, communicator size, start, stop and step >= 1", "why_tests_cant": "The phase of the stride at each rank boundary depends on the split.", "anchors": ["caput/mpiarray.py: _global_resolver._resolve_slice"]}
{"id": "C21", "title": "Redistribution preserves the global array", "statement": "redistribute(axis) leaves the global array (the concatenation of the local blocks along the distributed axis) unchanged for every element, changes only which axis is distributed, and redistributing back restores every local block.", "quantifier": "every global shape, communicator size, and pair of axes", "why_tests_cant": "The exchange pattern is a function of rank, size and both axis residues.", "anchors": ["caput/mpiarray.py: MPIArray.redistribute"]}
{"id": "C22", "title": "Redistribution message schedule is deadlock free and complete", "statement": "In the exchange used by redistribute every rank performs the same number of send/receive steps, in each step the messages posted form a permutation of the ranks, sender and receiver agree on the tag and the partner, and over the whole exchange every ordered pair of ranks communicates exactly once.", "quantifier": "every communicator size", "why_tests_cant": "A mismatched schedule deadlocks only for some sizes.", "anchors": ["caput/mpiarray.py: MPIArray.redistribute"]}
{"id": "C23", "title": "Gather and allgather rebuild the global array", "statement": "gather returns on the root (and None elsewhere), and allgather on all ranks, an array equal to the global array, whatever the distribution axis and communicator size.", "quantifier": "every shape, distribution axis, communicator size and root", "why_tests_cant": "One MPI run samples one size.", "anchors": ["caput/mpiarray.py: MPIArray.gather, allgather"]}
{"id": "C24", "title": "Reductions keep track of the distributed axis", "statement": "A reduction over an axis other than the distributed one yields an array whose reported distributed axis is the position the distributed axis occupies in the output, with and without keepdims and for negative axis numbers; a reduction over the distributed axis is rejected.", "quantifier": "every number of dimensions, distributed axis and tuple of reduced axes", "why_tests_cant": "Axis bookkeeping over all (ndim, axes, keepdims) combinations.", "anchors": ["caput/mpiarray.py: MPIArray._array_ufunc_reduce"]}
{"id": "C25", "title": "Accumulation over the distributed axis is rejected", "statement": "ufunc.accumulate(array, axis=a) on a distributed array raises whenever a names the distributed axis, including when a is given as a negative axis number.", "quantifier": "every number of dimensions, distributed axis and axis argument", "why_tests_cant": "The wrong case silently returns per-rank partial results.", "anchors": ["caput/mpiarray.py: MPIArray._array_ufunc_accumulate"]}
{"id": "C26", "title": "Basic indexing maps the distributed axis correctly", "statement": "Indexing a distributed array with integers, slices, newaxis and an ellipsis gives an array whose distributed axis is where numpy puts that axis in the result; indexing the distributed axis by anything but a full slice is rejected or de-distributes as documented.", "quantifier": "every number of dimensions and every index tuple of the supported kinds", "why_tests_cant": "Unbounded combinations of ellipsis, newaxis and integers.", "anchors": ["caput/mpiarray.py: sanitize_slice, MPIArray.__getitem__"]}
{"id": "C27", "title": "Reshape keeps the distributed axis and the element count", "statement": "reshape(new_shape) with the distributed axis marked by None accepts exactly shapes that keep the axes before and after the distributed axis separately compatible (with at most one -1 on each side), and the result enumerates the same global elements in the same order.", "quantifier": "every shape and requested shape", "why_tests_cant": "Wildcards and divisibility interact.", "anchors": ["caput/mpiarray.py: MPIArray.reshape"]}
{"id": "C28", "title": "Path normalisation is idempotent and canonical", "statement": "Two ways of writing the same absolute path (extra or trailing slashes, relative to the group) name the same object, normalising twice is the same as once, and the result always starts with '/' and has no empty component.", "quantifier": "every string", "why_tests_cant": "Strings are unbounded.", "anchors": ["caput/memdata/_memh5.py: format_abs_path, _StorageRoot.__getitem__"]}
{"id": "C29", "title": "The in-memory tree behaves like a map from paths to nodes", "statement": "After any history of create_group, require_group, create_dataset and delete on a MemGroup, looking up a path returns the last thing created there and not deleted since, intermediate groups exist, siblings are untouched, and looking up anything else fails with KeyError.", "quantifier": "every operation history and every path", "why_tests_cant": "Histories are unbounded.", "anchors": ["caput/memdata/_memh5.py: _Storage, _StorageRoot, MemGroup.create_group, create_dataset, __delitem__"]}
{"id": "C30", "title": "Attributes survive a save and load", "statement": "Copying attributes into a file-like target and back (with string conversion on) returns the same keys and equal values for strings, numbers, and nested dictionaries and lists of them; values that need it are stored as tagged JSON and decoded on the way back.", "quantifier": "every attribute dictionary over JSON-like values whose strings do not begin with the tag", "why_tests_cant": "Nesting is unbounded.", "anchors": ["caput/memdata/_memh5.py: copyattrs"]}
{"id": "C31", "title": "A string attribute is never mistaken for tagged JSON", "statement": "A user string attribute is returned unchanged by copying attributes out of a file, whatever its text.", "quantifier": "every string", "why_tests_cant": "Only strings starting with the reserved tag are affected.", "anchors": ["caput/memdata/_memh5.py: copyattrs"]}
{"id": "C32", "title": "Deep copy copies everything once", "statement": "deep_group_copy from one group tree to another creates exactly the groups and datasets of the source at the same paths, with equal data and attributes, touching nothing else.", "quantifier": "every tree of groups and datasets of any depth", "why_tests_cant": "Trees are unbounded.", "anchors": ["caput/memdata/_memh5.py: deep_group_copy"]}
{"id": "C33", "title": "Selections are applied when saving", "statement": "deep_group_copy(..., selections=...) writes for each dataset named in selections only the selected part, whatever the string-conversion and target options.", "quantifier": "every tree, selection and option combination", "why_tests_cant": "Options interact; a dropped selection is silent.", "anchors": ["caput/memdata/_memh5.py: deep_group_copy"]}
{"id": "C34", "title": "Turning a common dataset into a distributed one keeps the data", "statement": "dataset_common_to_distributed(name, distributed_axis=k) leaves the global contents of the dataset unchanged for every axis k: each rank ends with its share along axis k.", "quantifier": "every shape, axis and communicator size", "why_tests_cant": "Tests use axis 0.", "anchors": ["caput/memdata/_memh5.py: MemGroup.dataset_common_to_distributed"]}
{"id": "C35", "title": "File creation under lock_file is atomic at every crash point", "statement": "While a file is being written under lock_file, at every crash point the final name either does not exist (or holds its previous complete contents) or holds the complete new contents; whenever the temporary file exists incomplete, the lock file exists too; on success and on a handled failure both temporary artefacts are gone (unless preserve is set).", "quantifier": "every sequence of writes by the body, every crash point between file operations, exception or success", "why_tests_cant": "Crash points cannot be enumerated by a test.", "anchors": ["caput/memdata/_io.py: lock_file"]}
{"id": "C36", "title": "lock_file cleans up after an early failure", "statement": "If the body of a lock_file block raises before creating the temporary file, the original exception propagates and no lock file is left behind.", "quantifier": "every body that raises, having or not having created the temporary file", "why_tests_cant": "The early-failure window is rarely tested.", "anchors": ["caput/memdata/_io.py: lock_file.__exit__"]}
{"id": "C37", "title": "History order matches the additions", "statement": "After any sequence of add_history calls on a container, history['order'] lists the added names in order and history[name] is the last record added under that name; the reserved name is rejected and leaves the history unchanged.", "quantifier": "every sequence of names and records", "why_tests_cant": "Histories are unbounded.", "anchors": ["caput/containers/_core.py: Container.add_history, history"]}
{"id": "C38", "title": "Reading a config sets every declared property as documented", "statement": "read_config gives each declared property the converted configured value when the key is present and the converted default when absent; values not declared are ignored unless key comparison is on, in which case an unknown key (or, as configured, a missing one) is an error; nothing else of the object changes.", "quantifier": "every class hierarchy of declared properties and every configuration dictionary", "why_tests_cant": "Class hierarchies and dictionaries are unbounded.", "anchors": ["caput/config.py: Property, Reader.read_config, Reader.from_config"]}
{"id": "C39", "title": "Subclass properties override parent ones", "statement": "When a subclass redeclares a property of a parent, reading a config uses the subclass declaration (its key, type and default).", "quantifier": "every linear chain of classes and every set of redeclarations", "why_tests_cant": "Depends on the resolution order over arbitrary hierarchies.", "anchors": ["caput/config.py: Reader.read_config"]}
{"id": "C40", "title": "Validated property types accept exactly their domain", "statement": "float_in_range accepts exactly numbers between its bounds, enum exactly its options, list_type exactly lists of the right element type and length limits; anything else is a configuration error; declared defaults are validated in the same way.", "quantifier": "every value, bound, option list and length limit", "why_tests_cant": "The limit value zero and None defaults are special cases tests skip.", "anchors": ["caput/config.py: float_in_range, enum, list_type"]}
{"id": "C41", "title": "Task states only move forward", "statement": "In any run of a pipeline each task goes setup -> next -> finish -> removed without going back, its setup and finish run at most once each, and next never runs before setup nor after finish.", "quantifier": "every pipeline configuration and every behaviour of the tasks", "why_tests_cant": "Schedules depend on data-dependent task outputs.", "anchors": ["caput/pipeline/_pipeline.py: Task._pipeline_advance_state, _pipeline_next, Manager.run"]}
{"id": "C42", "title": "Products are delivered in order to every consumer", "statement": "Each item produced under a key is delivered to each task that lists the key among its inputs exactly once, in production order, and the i-th call of a task with several inputs receives the i-th item of each input.", "quantifier": "every pipeline configuration and every interleaving chosen by the scheduler", "why_tests_cant": "Interleavings are unbounded.", "anchors": ["caput/pipeline/_pipeline.py: Manager._check_task_output, Task._pipeline_queue_product, _pipeline_next"]}
{"id": "C43", "title": "A task is only closed when nothing more can arrive", "statement": "When producers are listed before consumers, a task is moved on from iterating to finishing only after every task that produces one of its inputs has finished, so no product is lost or rejected.", "quantifier": "every pipeline whose consumers come after their producers and every task behaviour", "why_tests_cant": "Needs an invariant over all reachable scheduler states.", "anchors": ["caput/pipeline/_pipeline.py: Manager._next_task, Manager.run, Task._pipeline_advance_state"]}
{"id": "C44", "title": "The order of tasks in the config does not matter", "statement": "A valid pipeline runs to completion whatever the order in which its tasks are listed.", "quantifier": "every permutation of a valid task list", "why_tests_cant": "Tests list producers first.", "anchors": ["caput/pipeline/_pipeline.py: Manager.run, _next_task, _validate_task_inputs"]}
{"id": "C45", "title": "The pipeline terminates when its tasks do", "statement": "If every task stops after finitely many iterations, the run finishes after finitely many scheduler steps.", "quantifier": "every pipeline in producer-first order and every finite task behaviour", "why_tests_cant": "Termination cannot be tested.", "anchors": ["caput/pipeline/_pipeline.py: Manager.run"]}
{"id": "C46", "title": "Static validation catches dangling inputs and duplicate outputs", "statement": "A pipeline passes validation exactly when every input or requirement key is produced by some task and no key is produced by two tasks.", "quantifier": "every list of task specifications", "why_tests_cant": "Unbounded configurations.", "anchors": ["caput/pipeline/_pipeline.py: Manager._validate_task_inputs"]}
{"id": "C47", "title": "Output limits are respected", "statement": "A task with limit_outputs = k delivers at most k outputs.", "quantifier": "every task behaviour and every k", "why_tests_cant": "Counting along unbounded runs.", "anchors": ["caput/pipeline/_pipeline.py: Task._pipeline_next"]}
{"id": "C48", "title": "Weighted quantile selection returns the weighted quantile", "statement": "quantile / weighted_median on exact data return the value x such that the total weight strictly below x is at most q*W and the weight at or below x is at least q*W, choosing lower, higher or their mean as requested when two values qualify; elements of zero weight are never returned unless all weights are zero, when all are treated as equal.", "quantifier": "every non-empty array, non-negative weights, quantile in [0,1]", "why_tests_cant": "Ties in partial sums form a measure-zero set.", "anchors": ["caput/algorithms/median/weighted.pyx: _quickselect_weight, quantile, weighted_median"]}
{"id": "C49", "title": "Weighted quantile selection never reads out of bounds", "statement": "The selection loop only reads array positions inside the array.", "quantifier": "every array length >= 1, weights and quantile in [0,1]", "why_tests_cant": "Bounds checks are compiled out; an out-of-range read does not fail a test.", "anchors": ["caput/algorithms/median/weighted.pyx: _quickselect_weight, _min_non_zero, _max_non_zero"]}
{"id": "C50", "title": "The moving-median tree stays a balanced, ordered multiset", "statement": "After any history of insertions and removals of previously inserted elements, the tree's in-order contents are the sorted multiset of the current elements, sibling heights differ by at most one, and the cached subtree weights and heights are the true ones.", "quantifier": "every history of inserts and removes", "why_tests_cant": "Rotations and successor replacement depend on the history.", "anchors": ["caput/algorithms/median/MedianTree.hpp: insert, remove, balance_path"]}
{"id": "C51", "title": "Moving weighted median, split method", "statement": "For the default method each output of the moving weighted median is the weighted median of the elements with non-zero weight in its window: the mean of the lower and higher weighted medians.", "quantifier": "every data array, non-negative exact weights, odd window length", "why_tests_cant": "Window histories are unbounded.", "anchors": ["caput/algorithms/median/MedianTree.hpp: weighted_median", "caput/algorithms/median/weighted.pyx: moving_weighted_median, _mwm_1D"]}
{"id": "C52", "title": "Moving weighted median, lower and higher methods", "statement": "For methods 'lower' and 'higher' each output is the lower, respectively higher, weighted median of its window.", "quantifier": "every data array, non-negative exact weights, odd window length", "why_tests_cant": "Only trees with a deep sibling subtree at a tie are affected.", "anchors": ["caput/algorithms/median/MedianTree.hpp: weighted_median_lower, weighted_median_higher"]}
{"id": "C53", "title": "Windows without weight are reported uniformly", "statement": "A window whose weights are all zero gives the same marker (NaN) wherever it occurs in the output.", "quantifier": "every data array and window position", "why_tests_cant": "The first output is computed by separate code.", "anchors": ["caput/algorithms/median/weighted.pyx: _mwm_1D, _mwm_2D, moving_weighted_median"]}
{"id": "C54", "title": "Concatenation equals slicing the concatenated data", "statement": "concatenate(data_list, start=a, stop=b) gives time axes and datasets equal to the full concatenation over the inputs sliced [a:b], for bounds that are None, negative or beyond the end as Python slicing treats them.", "quantifier": "every list of inputs of any lengths and every start/stop", "why_tests_cant": "Boundaries relative to the file edges give many cases.", "anchors": ["caput/containers/tod.py: concatenate, _start_stop_inds, _get_in_out_slice"]}
{"id": "C55", "title": "Time range selection picks exactly the times in range", "statement": "select_time_range(t0, t1) on a reader with ascending times selects exactly the samples with t0 <= time < t1, when there are samples at or after t0 and before t1.", "quantifier": "every ascending time axis and every t0 <= t1", "why_tests_cant": "Boundary and between-sample positions vary.", "anchors": ["caput/containers/tod.py: TODReader.select_time_range"]}
{"id": "C56", "title": "Container specifications resolve by inheritance, in a fixed order", "statement": "The dataset specification of a container class contains exactly the names declared in its class chain, each with the most derived declaration, and the listing order is the same on every rank whatever the order of declaration; likewise for axes.", "quantifier": "every class chain and every set of declarations", "why_tests_cant": "Class hierarchies are unbounded.", "anchors": ["caput/containers/_core.py: ContainerPrototype._class_dataset_spec, dataset_spec, _class_axes, axes"]}
{"id": "C57", "title": "Axis selections become per-dataset selections", "statement": "_make_selections maps each dataset having a selected axis to an index tuple that applies each selection on its own axis and keeps all other axes whole, adds the selections of the index maps, and rejects unknown axes.", "quantifier": "every class specification and selection dictionary", "why_tests_cant": "Unbounded specifications.", "anchors": ["caput/containers/_core.py: ContainerPrototype._make_selections"]}
{"id": "C58", "title": "Copying between containers applies the axis selections and nothing else", "statement": "copy_datasets_filter copies each dataset that has a filtered axis, with the selection applied on that axis only, skips datasets with an excluded axis, and never alters the values selected.", "quantifier": "every set of datasets, axes and selections given as slices or index lists", "why_tests_cant": "Selections are rewritten before being applied.", "anchors": ["caput/containers/_util.py: copy_datasets_filter", "caput/mpiarray.py: _apply_sel"]}
{"id": "C59", "title": "String conversion reaches every level and is idempotent", "statement": "bytes_to_unicode leaves no byte string anywhere inside nested lists, tuples, sets and dictionaries, changes nothing else, and applied twice equals applied once.", "quantifier": "every nested value", "why_tests_cant": "Nesting is unbounded.", "anchors": ["caput/util/typeutils.py: bytes_to_unicode"]}
{"id": "C60", "title": "dtype conversion converts all and only string fields", "statement": "dtype_to_unicode and dtype_to_bytestring change every byte-string (unicode) leaf of a dtype into the other kind with the same length and leave names, nesting, shapes and all other leaves alone, and each undoes the other on dtypes that only have the one kind.", "quantifier": "every nested compound dtype", "why_tests_cant": "Nesting is unbounded.", "anchors": ["caput/util/typeutils.py: _convert_dtype, dtype_to_unicode, dtype_to_bytestring"]}
{"id": "C61", "title": "Detection of string fields works on every dtype", "statement": "has_kind(dt, kind) returns True exactly when some leaf of the dtype has that kind, and never raises.", "quantifier": "every nested compound dtype", "why_tests_cant": "Single-field nested structs are an unusual shape.", "anchors": ["caput/util/typeutils.py: has_kind, has_unicode, has_bytestring"]}
{"id": "C62", "title": "AccumulateList groups inputs without loss or reorder", "statement": "With group_size = k >= 1 the lists returned are successive blocks of exactly k inputs in order and only an incomplete final block is withheld; without group_size the single list returned at the end is all inputs in order.", "quantifier": "every input sequence and every k", "why_tests_cant": "Sequences are unbounded.", "anchors": ["caput/pipeline/tasklib/flow.py: AccumulateList"]}
{"id": "C63", "title": "Selection keys resolve with the documented precedence", "statement": "For an axis with several selection keys, a range takes precedence over an index list, which takes precedence over a map selection; keys of other forms are rejected; axis names may contain underscores.", "quantifier": "every dictionary of selection keys", "why_tests_cant": "Combinations of key kinds per axis.", "anchors": ["caput/pipeline/tasklib/io.py: SelectionsMixin._resolve_sel"]}
{"id": "C64", "title": "Work over hosts is assigned exactly once", "statement": "ZipZarrContainers compresses each listed container on exactly one rank, which is the lowest rank of its host, whatever the placement of ranks on hosts.", "quantifier": "every rank-to-host mapping and every list of containers", "why_tests_cant": "Needs multi-node runs.", "anchors": ["caput/pipeline/tasklib/io.py: ZipZarrContainers.setup, process"]}
{"id": "C65", "title": "File list arguments are flattened", "statement": "list_of_filelists returns a flat list of the file paths named by its arguments, in order, whether given as patterns or as lists of patterns.", "quantifier": "every nested argument and every file system listing", "why_tests_cant": "Nested arguments vary.", "anchors": ["caput/pipeline/tasklib/io.py: list_of_filelists, list_or_glob"]}
{"id": "C66", "title": "File groups accept the documented glob patterns", "statement": "list_of_filegroups expands every glob pattern (including character classes such as file[3-4].h5) in each group and only rejects names that match nothing.", "quantifier": "every group list and every file system listing", "why_tests_cant": "Pattern forms vary.", "anchors": ["caput/pipeline/tasklib/io.py: list_of_filegroups"]}
{"id": "C67", "title": "A file format can be configured by name", "statement": "A property declared with file_format accepts 'hdf5' and 'zarr' in any letter case, and None, and rejects everything else with a configuration error.", "quantifier": "every configured value", "why_tests_cant": "A type test order bug affects every string.", "anchors": ["caput/pipeline/extensions/_configtypes.py: file_format"]}
{"id": "C68", "title": "Template expansion runs the full outer product", "statement": "Running a template with variables v1=a,b,.. v2=.. runs the pipeline exactly once for each combination of the listed values.", "quantifier": "every list of variable assignments", "why_tests_cant": "Combinations are unbounded.", "anchors": ["caput/pipeline/runner/_core.py: _from_template"]}
{"id": "C69", "title": "An existing job is only resubmitted as the overwrite option says", "statement": "With overwrite='never' an existing job directory is never reused; with overwrite='failed' it is reused only if the job has reported failure.", "quantifier": "every state of the job directory and status file", "why_tests_cant": "Status-file states vary.", "anchors": ["caput/pipeline/runner/_scheduler/__init__.py: _create_job_directories, queue"]}
{"id": "C70", "title": "Multithreaded generation fills every element exactly once", "statement": "For every output size and thread count the pieces handed to the worker threads are disjoint and cover the output, so every element of the result is written by exactly one thread, and the result depends only on the seed and the thread count, not on thread scheduling.", "quantifier": "every output size, thread count and thread interleaving", "why_tests_cant": "Interleavings and sizes are unbounded.", "anchors": ["caput/algorithms/random.py: MultithreadedRNG._build_method"]}
{"id": "C71", "title": "A supplied output array is filled", "statement": "When an output array is passed to a multithreaded generator method or to invert_no_zero, that array itself holds the result afterwards, whatever its memory layout.", "quantifier": "every shape and memory layout (C, Fortran, strided)", "why_tests_cant": "Tests use contiguous arrays.", "anchors": ["caput/algorithms/random.py: MultithreadedRNG._build_method", "caput/algorithms/_invert_no_zero/__init__.py: invert_no_zero"]}
{"id": "C72", "title": "invert_no_zero is elementwise", "statement": "invert_no_zero(x, out) stores at each index 1/x[index] (0 where x is zero) for every combination of memory layouts of x and out.", "quantifier": "every shape, layout combination and contents", "why_tests_cant": "Layout mismatches are rarely tested.", "anchors": ["caput/algorithms/_invert_no_zero/__init__.py: invert_no_zero"]}
{"id": "C73", "title": "total_size counts every reachable object once", "statement": "total_size(obj) terminates on every object graph, including cyclic ones, and returns the sum of the base sizes of the objects reachable through containers, each counted once.", "quantifier": "every finite object graph", "why_tests_cant": "Graphs are unbounded.", "anchors": ["caput/util/objecttools.py: total_size"]}
{"id": "C74", "title": "Structural equality is an equivalence", "statement": "allequal is reflexive, symmetric and transitive on nested dictionaries, lists and scalars, and identifies lists with tuples of equal items.", "quantifier": "every pair or triple of nested values", "why_tests_cant": "Nesting is unbounded.", "anchors": ["caput/util/objecttools.py: allequal, _assert_equal"]}
{"id": "C75", "title": "Transit search finds every sign change spaced by the step", "statement": "_solve_all examines a grid whose spacing does not exceed the requested step, so two roots further apart than the step are always separated, and reports each root once.", "quantifier": "every interval, step and function sampled on the grid", "why_tests_cant": "Grid sizes depend on the ratio of interval and step.", "anchors": ["caput/astro/observer.py: _solve_all"]}
{"id": "C76", "title": "Ground and celestial coordinates are consistent", "statement": "sph_to_ground gives unit vectors, projected_distance is the dot product of the baseline with that vector, and rotate_ypr preserves lengths and angles.", "quantifier": "every real angle and vector", "why_tests_cant": "Real-valued identities.", "anchors": ["caput/astro/coordinates/spherical.py: sph_to_ground, projected_distance, rotate_ypr"]}
{"id": "C77", "title": "Redistribution accepts negative axis numbers", "statement": "redistribute(axis) with a negative axis number has the same effect as with the non-negative number of the same axis.", "quantifier": "every shape, communicator size, current axis and negative axis number", "why_tests_cant": "Only the negative name of the current axis goes wrong, and only on more than one rank.", "anchors": ["caput/mpiarray.py: MPIArray.redistribute"]}
{"id": "C78", "title": "Transposition moves the distributed axis with the data", "statement": "transpose(axes) of a distributed array reports as distributed axis the position in which numpy puts the old distributed axis, and a global shape permuted like the local one, for every accepted form of the argument: nothing, None, or a permutation given with positive or negative axis numbers.", "quantifier": "every number of dimensions, distributed axis and permutation", "why_tests_cant": "Permutations grow factorially.", "anchors": ["caput/mpiarray.py: MPIArray.transpose"]}
{"id": "C79", "title": "Elementwise operations align distributed axes", "statement": "An elementwise ufunc call on several operands is accepted exactly when every distributed operand has its distributed axis at the same position counted from the right, with equal global length and offset, and every plain array either lacks that axis or has length 1 or the local length there; the reported axis of the result is where broadcasting puts that axis.", "quantifier": "every list of operands and shapes", "why_tests_cant": "Broadcast combinations are unbounded.", "anchors": ["caput/mpiarray.py: MPIArray._array_ufunc_call, _check_dist_axis"]}
{"id": "C80", "title": "Ranks agree on whether an indexed array is distributed", "statement": "Indexing a distributed array with the same index on every rank either gives a distributed array on all ranks or a plain local array on all ranks.", "quantifier": "every index tuple and every distribution of lengths over ranks", "why_tests_cant": "Needs ranks holding different numbers of elements and an index equal to one of them.", "anchors": ["caput/mpiarray.py: MPIArray.__getitem__"]}
{"id": "C81", "title": "lock_file names are private to the file", "statement": "The temporary and lock names that lock_file derives differ from each other and from the final name, stay in the same directory, and the three names used for one file never coincide with those used for a different file.", "quantifier": "every pair of file names", "why_tests_cant": "Collisions need special file names.", "anchors": ["caput/memdata/_io.py: lock_file.tmpfile, lock_file.lockfile"]}
{"id": "C82", "title": "Turning a distributed dataset into a common one gives every rank the whole array", "statement": "dataset_distributed_to_common(name) leaves on every rank (or, with ranks given, on those ranks) a plain dataset holding the whole global array, whatever the distributed axis and the number of ranks.", "quantifier": "every shape, distributed axis and communicator size", "why_tests_cant": "Needs several ranks and uneven shares; the single rank case takes a different path.", "anchors": ["caput/memdata/_memh5.py: MemGroup.dataset_distributed_to_common", "caput/util/mpitools.py: gather_local"]}
{"id": "C83", "title": "Dictionaries holding numpy numbers can be saved", "statement": "copyattrs into a file encodes a dictionary attribute whatever mixture of Python and numpy scalars, arrays, byte strings and dates it holds, as the custom JSON encoder intends.", "quantifier": "every nested value", "why_tests_cant": "Only numpy integers and narrow floats reach the faulty branch.", "anchors": ["caput/memdata/_memh5.py: copyattrs"]}
{"id": "C84", "title": "Skipped distributed datasets are all reported", "statement": "deep_group_copy to a file with skip_distributed returns the names of exactly the distributed datasets of the tree, each once; without it, or with a selection of such a dataset, it is refused with ValueError.", "quantifier": "every tree of groups and datasets of any depth", "why_tests_cant": "Trees are unbounded; the list decides what the parallel writer fills in later.", "anchors": ["caput/memdata/_memh5.py: deep_group_copy"]}
{"id": "C85", "title": "Task calls fit their signatures", "statement": "A task whose configuration is accepted has setup and next methods that can be called with as many arguments as it has required and input keys, and every call made in a run passes exactly that many; configurations that do not fit are refused with a configuration error.", "quantifier": "every signature and every list of keys", "why_tests_cant": "Defaults and variable arguments combine with any number of keys.", "anchors": ["caput/pipeline/_pipeline.py: Task._setup_keys, _format_product_keys"]}
{"id": "C86", "title": "The scheduler picks the documented task", "statement": "The next task is an available one of highest priority, among these of highest base priority, among these the first one in configuration order starting from the current position; if none is available it is the first task left.", "quantifier": "every state of the queues, priorities and positions", "why_tests_cant": "Ties between tasks in any position of the rotation are unbounded.", "anchors": ["caput/pipeline/_pipeline.py: Manager._next_task, Task._pipeline_priority, _pipeline_is_available"]}
{"id": "C87", "title": "A completed run finishes every task", "statement": "When a run completes, every task of the configuration has been removed, after its finish method ran exactly once, as its last call.", "quantifier": "every pipeline and task behaviour", "why_tests_cant": "Includes tasks which never received their requirements or inputs.", "anchors": ["caput/pipeline/_pipeline.py: Manager.run, Task._pipeline_next"]}
{"id": "C88", "title": "A wrong number of outputs is reported", "statement": "A task which returns a sequence whose length differs from the number of its output keys makes the run fail.", "quantifier": "every list of output keys and every returned value", "why_tests_cant": "Only the single key case goes wrong.", "anchors": ["caput/pipeline/_pipeline.py: Manager._check_task_output"]}
{"id": "C89", "title": "Log levels are normalised", "statement": "logging_config accepts exactly a level name or a dictionary of level names, in any letter case, and gives a dictionary with the names in upper case; applying it twice equals applying it once; every other value is refused with ValueError.", "quantifier": "every value and every dictionary of levels", "why_tests_cant": "Dictionaries are unbounded; the message for a wrong kind of value is itself faulty.", "anchors": ["caput/config.py: logging_config"]}
{"id": "C90", "title": "Reading a config does not depend on earlier reads", "statement": "The values read by read_config depend only on the class, the declarations and the configuration, not on what the property objects remembered from reading other configurations or other subclasses.", "quantifier": "every class hierarchy and every state of the remembered names and keys", "why_tests_cant": "Needs several classes sharing declarations and any order of reads.", "anchors": ["caput/config.py: Property._set_propname, Property._from_config"]}
{"id": "C91", "title": "Table specifications become datasets of the instance", "statement": "A container with tables has, besides the datasets of its classes, one dataset per table over the axis of the table (named after the table unless given), known to the instance as an axis too; creating a container leaves the specifications of its class alone.", "quantifier": "every class hierarchy and every set of tables", "why_tests_cant": "Sharing of a class attribute only shows after other containers were created.", "anchors": ["caput/containers/_core.py: TableSpec.__init__, TableSpec.table_spec"]}
{"id": "C92", "title": "Container.redistribute visits every distributed dataset once", "statement": "redistribute applies to exactly the distributed datasets of the tree, each once, and picks for each the first of the requested axes which the dataset has; datasets without any are left as they are.", "quantifier": "every tree of groups and datasets, every list of requested axes", "why_tests_cant": "Trees are unbounded; numbers and names of axes mix.", "anchors": ["caput/containers/_core.py: Container.redistribute"]}
{"id": "C93", "title": "New containers hold the requested axes and datasets", "statement": "Creating a container gives every axis of its class the definition from the arguments or else from the other container, and fails with RuntimeError if there is none; the datasets to be initialised have the lengths of their axes and fitting chunks; with a source, datasets none of whose axes were given as arguments hold the values of the source and all others are as without a source.", "quantifier": "every class specification, set of arguments and source container", "why_tests_cant": "Combinations of given and copied axes are unbounded; assignment silently stretches axes of length one.", "anchors": ["caput/containers/_core.py: ContainerPrototype.__init__, add_dataset"]}
{"id": "C94", "title": "File groups have distinct tags", "statement": "Every file group returned by list_of_filegroups carries its given tag, or group_n with its position as documented, and no two groups share a tag.", "quantifier": "every list of groups and tags", "why_tests_cant": "Given tags can collide with implicit ones at any position.", "anchors": ["caput/pipeline/tasklib/io.py: list_of_filegroups"]}
{"id": "C95", "title": "Every saved container is compressed once and waited for", "statement": "SaveZarrZip starts exactly one compression per saved container, on the lowest rank of a host, the hosts taking turns; WaitZarrZip succeeds exactly if all compressions did, on every rank alike.", "quantifier": "every placement of ranks on hosts, every number of containers and every outcome of the compressions", "why_tests_cant": "Needs several hosts and failing background jobs.", "anchors": ["caput/pipeline/tasklib/io.py: SaveZarrZip, ZarrZipHandle, WaitZarrZip"]}
{"id": "C96", "title": "Loading tasks deliver each file once, in order", "statement": "LoadFilesFromParams returns the container of each file once, in list order, tagged with its own tag or else its file name without directory and extension, and then stops; LoadFilesFromPathAndTag visits every combination of path and tag once, paths outermost.", "quantifier": "every list of files, paths and tags and every outcome of reading", "why_tests_cant": "Lists are unbounded; failures can occur at any position.", "anchors": ["caput/pipeline/tasklib/io.py: LoadFilesFromParams, LoadFilesFromPathAndTag"]}
{"id": "C97", "title": "LoadFilesAndSelect returns the selected file", "statement": "With a key parameter the file whose label equals that of the input is returned, otherwise the files are returned in turn; a label which is not there gives nothing.", "quantifier": "every list of files, labels and inputs", "why_tests_cant": "Labels may repeat; the list may be empty.", "anchors": ["caput/pipeline/tasklib/io.py: LoadFilesAndSelect"]}
{"id": "C98", "title": "Save writes every container to a file of its own", "statement": "Containers are written to root, underscore, tag (or a running number of the untagged ones) with the extension, and no container overwrites another one.", "quantifier": "every sequence of containers and tags", "why_tests_cant": "Tags may coincide with running numbers.", "anchors": ["caput/pipeline/tasklib/io.py: Save"]}
{"id": "C99", "title": "File formats are detected from the name", "statement": "guess_file_format tells zarr directories and archives from HDF5 files by their extension, check_file_format accepts a requested format exactly if it agrees with what was detected or nothing was detected.", "quantifier": "every name, default and requested format", "why_tests_cant": "Combinations of suffixes, directories and requests.", "anchors": ["caput/memdata/fileformats.py: guess_file_format, check_file_format"]}
{"id": "C100", "title": "Compression arguments can be given in either spelling", "statement": "compression_kwargs of each format accepts the spelling of either format, applying it to its own result changes nothing, and the result describes the same compression.", "quantifier": "every compression name and every set of options", "why_tests_cant": "Option dictionaries are open ended.", "anchors": ["caput/memdata/fileformats.py: HDF5.compression_kwargs, Zarr.compression_kwargs"]}
{"id": "C101", "title": "Outputs of tasks carry tags and attributes", "statement": "Every output of a container task has its tag formatted from the tag option, which by default is its own tag, or that of the first input, or the count; it has the configured attributes formatted from its attributes, count, task name and key, the tags of the inputs, and otherwise the attributes it had.", "quantifier": "every configuration, output and list of inputs", "why_tests_cant": "Format strings and attribute dictionaries are unbounded.", "anchors": ["caput/pipeline/tasklib/base.py: ContainerTask._process_output, _interpolation_dict, next"]}
{"id": "C102", "title": "Tasks save their outputs to distinct files", "statement": "With the default settings the file of an output is the output root, the tag and .h5, and different outputs of a run go to different files.", "quantifier": "every run, output and list of inputs", "why_tests_cant": "Needs several inputs, with and without tags.", "anchors": ["caput/pipeline/tasklib/base.py: ContainerTask._save_output"]}
{"id": "C103", "title": "Outputs with non-finite numbers are found and skipped", "statement": "nan_check finds a NaN or infinity in any dataset of any group on any rank, with the same answer on all ranks; with nan_skip such an output is neither passed on nor saved, and every other output is treated as without the check.", "quantifier": "every tree of groups and datasets on every rank", "why_tests_cant": "Trees are unbounded; ranks have different data.", "anchors": ["caput/pipeline/tasklib/base.py: ContainerTask._nan_process_output, _nan_check_walk"]}
{"id": "C104", "title": "Outputs of tasks are checked and counted", "statement": "Outputs which are not containers make next and finish fail with PipelineRuntimeError; several outputs keep their number and order; the count goes up by one with every call that has output.", "quantifier": "every list of outputs", "why_tests_cant": "Lists are unbounded.", "anchors": ["caput/pipeline/tasklib/base.py: ContainerTask.next, finish"]}
{"id": "C105", "title": "Task groups compose their subtasks", "statement": "The setup of a task group deals out its arguments in order, each subtask getting as many as it takes, all of them being used; its process hands the output of each subtask to the next one.", "quantifier": "every list of subtasks and arguments", "why_tests_cant": "Lists are unbounded.", "anchors": ["caput/pipeline/tasklib/base.py: group_tasks"]}
{"id": "C106", "title": "Logging levels are accepted by name and number", "statement": "_log_level gives integers unchanged and the number of every documented name in any letter case, and raises ValueError for anything else.", "quantifier": "every value", "why_tests_cant": "A test made before the conversion to upper case.", "anchors": ["caput/pipeline/tasklib/base.py: _log_level"]}
{"id": "C107", "title": "Queue systems are resolved and checked", "statement": "A cluster configuration is accepted exactly if it names a registered system (or a known cluster, which stands for its system) and has all keys the system requires; a missing section, system or key and unknown systems are reported; every registered system has a script and a command.", "quantifier": "every registry, configuration and file of systems", "why_tests_cant": "Registries and configurations are unbounded.", "anchors": ["caput/pipeline/runner/_scheduler/__init__.py: register_system, _resolve_system_config"]}
{"id": "C108", "title": "A checked configuration gives a job script", "statement": "A configuration accepted for a default system gives a job script, in which every field is replaced by its value: the configured one, or the derived processes, directories, launcher and files.", "quantifier": "every configuration", "why_tests_cant": "Kinds of values and optional keys combine freely.", "anchors": ["caput/pipeline/runner/_scheduler/__init__.py: _resolve_job_script", "caput/pipeline/runner/_scheduler/_default_systems.toml"]}
{"id": "C109", "title": "Job scripts load the configured modules and environment", "statement": "The module commands of a job are a purge, one use per module path and one load per module, in order, and nothing if neither is given; the environment is the configured one if it exists, or none.", "quantifier": "every list of paths and modules", "why_tests_cant": "Lists are unbounded, single strings are allowed.", "anchors": ["caput/pipeline/runner/_scheduler/__init__.py: _create_job_environment_strings"]}
{"id": "C110", "title": "Packages of a virtual environment take precedence", "statement": "After _load_venv the directories added for the environment come first in sys.path, all others keep their order, and the site-packages directory is that of the running Python version.", "quantifier": "every sys.path and version", "why_tests_cant": "Paths are unbounded and may repeat.", "anchors": ["caput/pipeline/runner/_core.py: _load_venv"]}
{"id": "C111", "title": "Multithreaded methods honour the arguments of NumPy", "statement": "A call of a multithreaded method draws from the distribution, into an array of the size and data type, that NumPy would use for the same arguments, whether it is split over threads or not.", "quantifier": "every method and every way of passing the arguments", "why_tests_cant": "Arguments may be positional or named in any combination.", "anchors": ["caput/algorithms/random.py: MultithreadedRNG._build_method"]}
{"id": "C112", "title": "Search intervals and steps are sanitised", "statement": "_fixup_interval_and_step searches from t0 to t1, by default a stellar day later, and refuses exactly intervals that do not end after their beginning and steps not shorter than the interval; the step is positive, the given one or by default at most a fifth of a day and of the interval, so that the interval is sampled at least that often.", "quantifier": "every interval and step", "why_tests_cant": "Defaults depend on the length of the interval.", "anchors": ["caput/astro/observer.py: _fixup_interval_and_step"]}
{"id": "C113", "title": "Ground coordinates lead back to the sky", "statement": "ground_to_sph gives, for every point of the unit disc and every latitude, the hour angle and declination whose direction sph_to_ground maps to that point; it is the inverse of sph_to_ground.", "quantifier": "every real point and latitude", "why_tests_cant": "Quadrants and the horizon are only sampled by tests.", "anchors": ["caput/astro/coordinates/spherical.py: ground_to_sph, sph_to_ground"]}
{"id": "C114", "title": "Cartesian and polar coordinates are inverse", "statement": "cart_to_sph gives for every vector the length, polar angle in [0, pi] and azimuth in (-pi, pi] from which sph_to_cart gives that vector back, and conversely.", "quantifier": "every vector and all coordinates in the usual ranges", "why_tests_cant": "All quadrants, the poles, the origin and integer arrays.", "anchors": ["caput/astro/coordinates/_spherical.pyx: cart_to_sph, sph_to_cart"]}
{"id": "C115", "title": "Angular distances are angles between directions", "statement": "sphdist of two directions is always a number, the angle between them; it is symmetric and zero exactly for equal directions.", "quantifier": "every pair of directions", "why_tests_cant": "An inverse function is applied to a sum that must not leave its domain.", "anchors": ["caput/astro/coordinates/spherical.py: sphdist"]}
{"id": "C116", "title": "Great circle points are equally spaced", "statement": "great_circle_points gives the requested number of points on the shorter arc between two points, the i-th at the fraction i/(n-1) of the angle from the first, and refuses antipodal points.", "quantifier": "every pair of points and every number of points", "why_tests_cant": "Nearly equal and antipodal points, any number of steps.", "anchors": ["caput/astro/coordinates/_spherical.pyx: great_circle_points"]}
{"id": "C117", "title": "Tangent vectors form a right-handed basis", "statement": "The vectors of thetaphi_plane_cart and the position form a right-handed orthonormal basis, pointing along growing polar angle and azimuth; thetaphi_plane gives the same vectors in polar coordinates; sph_dot is the product of the positions.", "quantifier": "every position", "why_tests_cant": "Real-valued identities, including the poles.", "anchors": ["caput/astro/coordinates/_spherical.pyx: thetaphi_plane, thetaphi_plane_cart, sph_dot"]}
{"id": "C118", "title": "Separations and unit vectors", "statement": "cosine_rule is the distance of two points at the given radii whose directions have the given product; norm_vec2 divides every pair of an array by its length, in place, and nothing else.", "quantifier": "every radius and pair of directions; every array of pairs, of any shape and layout, in any order of the threads", "why_tests_cant": "Layouts of arrays and schedules of threads are unbounded.", "anchors": ["caput/astro/coordinates/_spherical.pyx: cosine_rule, norm_vec2"]}
{"id": "C119", "title": "jl evaluates every element by one formula", "statement": "jl gives for every element of its argument the value of exactly one of the formulas (zero, the forms for small and large arguments, SciPy's function), chosen by order and argument, for numbers, arrays and sequences.", "quantifier": "every order and argument over the real numbers, arrays of any length", "why_tests_cant": "The choice depends on real-valued thresholds in two variables.", "anchors": ["caput/astro/coordinates/bessel.py: jl, _jl_approx_lowz, _jl_approx_highz"]}
{"id": "C120", "title": "jl_d is the derivative of jl", "statement": "If jl is the spherical Bessel function then jl_d is its derivative with respect to the argument.", "quantifier": "every order and every argument", "why_tests_cant": "Derivatives of real functions; z = 0 is a single point.", "anchors": ["caput/astro/coordinates/bessel.py: jl_d"]}
{"id": "C121", "title": "jl_d2 is the second derivative of jl", "statement": "If jl is the spherical Bessel function then jl_d2 is its second derivative.", "quantifier": "every order and every argument", "why_tests_cant": "Derivatives of real functions.", "anchors": ["caput/astro/coordinates/bessel.py: jl_d2"]}
{"id": "C122", "title": "Prefixed constants are products", "statement": "A name made of a prefix and the name of a constant gives the product of the two; defined names and aliases give their value; other names give AttributeError.", "quantifier": "every set of constants and aliases, every name", "why_tests_cant": "Names are unbounded strings.", "anchors": ["caput/astro/constants.py: __getattr__, __split_prefix"]}
{"id": "C123", "title": "Leap seconds between two times are counted", "statement": "leap_seconds_between is the difference of the numbers of leap seconds before the two times; a clock that is not off by whole seconds is refused.", "quantifier": "every clock and every two times", "why_tests_cant": "Times are real numbers, clocks are arbitrary.", "anchors": ["caput/astro/time.py: leap_seconds_between"]}
{"id": "C124", "title": "era_to_unix finds the next time with a rotation angle", "statement": "The result is the first UNIX time after time0, less than one stellar day later, at which the Earth has the given rotation angle.", "quantifier": "every angle and time, every table of leap seconds, uniform rotation", "why_tests_cant": "Angles wrap around and leap seconds may fall between the two times.", "anchors": ["caput/astro/time.py: era_to_unix, unix_to_era"]}
{"id": "C125", "title": "unix_to_lsd counts the turns since day zero", "statement": "The local stellar day of a time is the number of turns of the meridian of the observer since the first full turn after lsd_start_day, including the fraction.", "quantifier": "every time within twelve thousand years, every longitude, start and table of leap seconds", "why_tests_cant": "The whole number of days comes from rounding an approximation.", "anchors": ["caput/astro/observer.py: unix_to_lsd, unix_to_lsa, lsd_zero"]}
{"id": "C126", "title": "lsd_to_unix and unix_to_lsd are inverse", "statement": "Converting a time to a local stellar day and back gives the time.", "quantifier": "every time within twelve thousand years, every longitude, start and table of leap seconds", "why_tests_cant": "The search starts from an approximation that drifts with the distance.", "anchors": ["caput/astro/observer.py: lsd_to_unix, lsa_to_unix"]}
{"id": "C127", "title": "Datetimes and UNIX times are converted exactly", "statement": "datetime_to_unix counts the seconds since 1970 in the Gregorian calendar and UTC; unix_to_datetime is its inverse, to the microsecond.", "quantifier": "every date of the years 1 to 9999, every time zone", "why_tests_cant": "All dates of the calendar, including century rules.", "anchors": ["caput/astro/time.py: unix_to_datetime, datetime_to_unix, naive_datetime_to_utc"]}
{"id": "C128", "title": "Time strings can be read back", "statement": "timestr_to_datetime gives back the datetime from the text of datetime_to_timestr, to the second, and accepts only texts of that form.", "quantifier": "every datetime and every text", "why_tests_cant": "Texts are unbounded.", "anchors": ["caput/astro/time.py: datetime_to_timestr, timestr_to_datetime"]}
{"id": "C129", "title": "time_of_day is the remainder by the day", "statement": "time_of_day gives the seconds since the start of the UTC day, for UNIX times, datetimes and time strings, one or several.", "quantifier": "every time of the years 1 to 9999", "why_tests_cant": "All dates of the calendar.", "anchors": ["caput/astro/time.py: time_of_day"]}
{"id": "C130", "title": "ensure_unix converts every kind of time", "statement": "ensure_unix keeps numbers and converts datetimes and time strings, singly and in arrays of any shape.", "quantifier": "every time, arrays of every shape", "why_tests_cant": "Arrays of any size and shape.", "anchors": ["caput/astro/time.py: ensure_unix"]}
{"id": "C131", "title": "Decorated functions accept scalars, lists and arrays", "statement": "A function decorated with scalarize, vectorize or listize gets arrays with the same elements, and gives a scalar exactly for scalar arguments.", "quantifier": "every function, any number of arguments, arrays of any length", "why_tests_cant": "Functions and arguments are arbitrary.", "anchors": ["caput/util/arraytools.py: scalarize, vectorize, listize"]}
{"id": "C132", "title": "era_to_unix acts on each element", "statement": "For arrays of angles or times era_to_unix gives the array of the results for each element.", "quantifier": "arrays of any length", "why_tests_cant": "Arrays of any length, including none.", "anchors": ["caput/astro/time.py: era_to_unix, leap_seconds_between", "caput/util/arraytools.py: scalarize"]}
{"id": "C133", "title": "The methods of a task act on one state", "statement": "In every run, however the tasks are interleaved, each call of a method of a task does what that method does in the state left by the calls of the same task before it; a task without requirements is set up in every run that completes, and one without inputs is called until it stops.", "quantifier": "every configuration, all behaviours of the tasks, every number of turns", "why_tests_cant": "Interleavings and states are unbounded.", "anchors": ["caput/pipeline/_pipeline.py: Task._pipeline_next, Manager.run"]}
{"id": "C134", "title": "A chain of tasks maps its inputs", "statement": "A pipeline Input -> f1 -> ... -> fn -> Output always completes, and the outputs collected are the inputs passed through all functions, in order, without those for which a function gives None (tuples, which the pipeline takes apart, aside).", "quantifier": "every list of inputs, every number of functions, all priorities and keys", "why_tests_cant": "Chains, inputs and priorities are unbounded; the order of the calls depends on all of them.", "anchors": ["caput/pipeline/extensions/_pytools.py: Input, Output", "caput/pipeline/_pipeline.py: Manager, Task"]}
{"id": "C135", "title": "Tasks with files are validated", "statement": "Validation accepts a task exactly if its process method takes at most one plain argument and there is exactly one source for it (an in key or a file), and none if it takes no argument; a validated task called by the pipeline does not run into the errors that the base classes raise for impossible states.", "quantifier": "every signature, configuration and behaviour of the overridden methods", "why_tests_cant": "Signatures and settings combine freely.", "anchors": ["caput/pipeline/extensions/_extensions.py: _OneAndOne.validate, read_process_write"]}
{"id": "C136", "title": "IterBase reads its files in order and writes their outputs", "statement": "A task reading from disk reads in its i-th call the file with the i-th middle part and writes the output under the same middle part, stops when they are used up, and reads a file again after a failure; distinct middle parts give distinct names.", "quantifier": "every list of names and every behaviour of the overridden methods", "why_tests_cant": "Lists and behaviours are unbounded.", "anchors": ["caput/pipeline/extensions/_extensions.py: IterBase.next"]}
{"id": "C137", "title": "SingleBase works once", "statement": "The first call of a SingleBase task reads its file, if it has no input from the pipeline, processes and writes; all later calls stop without doing anything, even after a failure.", "quantifier": "every configuration and behaviour of the overridden methods", "why_tests_cant": "Behaviours are arbitrary functions.", "anchors": ["caput/pipeline/extensions/_extensions.py: SingleBase.next"]}
{"id": "C138", "title": "Outputs with a configured path are written", "statement": "If an output path is configured the output is written there, and its directory made if it does not exist; groups are written by GroupIOMixin and containers by ContainerIOMixin.", "quantifier": "every path and state of the directories", "why_tests_cant": "Paths are unbounded strings.", "anchors": ["caput/pipeline/extensions/_extensions.py: _OneAndOne.read_process_write, GroupIOMixin.write_output, ContainerIOMixin.write_output"]}
{"id": "C139", "title": "Tasks without files or input do not read and do stop", "statement": "A validated task with input from the pipeline never reads a file, and a validated IterBase task without input stops when its list of names is used up.", "quantifier": "every configuration", "why_tests_cant": "Items of every kind and any number of calls.", "anchors": ["caput/pipeline/extensions/_extensions.py: SingleBase.next, IterBase.next"]}
{"id": "C140", "title": "Forward and backward transforms invert each other", "statement": "FFTW.fft gives the sums of the discrete Fourier transform over the chosen axes (all, one, or a list, negative numbers counting from the end; their order and repetitions do not matter), and ifft and fft invert each other, also as functions of the module.", "quantifier": "every shape, every choice of axes, all complex arrays", "why_tests_cant": "Shapes, axes and values are unbounded; tests compare a few arrays numerically.", "anchors": ["caput/algorithms/fft/fftw.py: FFTW, fft, ifft"]}
{"id": "C141", "title": "fftconvolve is the circular convolution", "statement": "fftconvolve gives the circular convolution over the chosen axes, and is symmetric.", "quantifier": "every shape, choice of axes and pair of arrays", "why_tests_cant": "Shapes and values are unbounded.", "anchors": ["caput/algorithms/fft/fftw.py: FFTW.fftconvolve, fftconvolve"]}
{"id": "C142", "title": "fftconvolve is the discrete convolution", "statement": "fftconvolve gives the discrete (linear) convolution of its inputs.", "quantifier": "every shape, choice of axes and pair of arrays", "why_tests_cant": "Shapes and values are unbounded.", "anchors": ["caput/algorithms/fft/fftw.py: FFTW.fftconvolve, fftconvolve"]}
{"id": "C143", "title": "fftwindow multiplies the spectrum", "statement": "The transform of the output of fftwindow is the transform of the input times the window (broadcast to its shape); a window of ones changes nothing, two windows applied one after the other act as their product, and with the transform of an array as window it is fftconvolve.", "quantifier": "every shape, choice of axes, array and window", "why_tests_cant": "Shapes and values are unbounded.", "anchors": ["caput/algorithms/fft/fftw.py: FFTW.fftwindow, fftwindow"]}
{"id": "C144", "title": "Errors of transforms are the documented ones", "statement": "A transform which was not initialised raises the documented AttributeError, and only such a transform is reported as not initialised.", "quantifier": "every object and argument", "why_tests_cant": "Arguments of every kind.", "anchors": ["caput/algorithms/fft/fftw.py: FFTW.__init__, FFTW.fft, FFTW.ifft"]}
{"id": "C145", "title": "Weights for truncation are matched by axis", "statement": "With axes in the same order, the weight used for an element of a dataset is the one at its position on the axes which the weights have, twice as large for complex data; weights with other axes only are refused.", "quantifier": "all names and lengths of axes, all weights", "why_tests_cant": "Numbers of axes are unbounded.", "anchors": ["caput/pipeline/tasklib/io.py: Truncate._get_weights"]}
{"id": "C146", "title": "Which datasets are truncated and how", "statement": "The task truncates exactly the existing datasets of the specification for which the settings or, without an entry there, the specification of the class ask for it, with the given weights, precision and variance in place of the defaults.", "quantifier": "all settings, specifications and sets of datasets", "why_tests_cant": "Settings combine freely.", "anchors": ["caput/pipeline/tasklib/io.py: Truncate._get_params, Truncate.process"]}
{"id": "C147", "title": "Truncation stays within the variance asked for", "statement": "The square of the change of an element is at most three times (as for a uniform distribution) the variance increase over its weight, in total over both parts for complex data; without weights the change is at most the fixed precision relative to the value.", "quantifier": "all data, weights, settings and shapes", "why_tests_cant": "The bound involves square roots of arbitrary weights.", "anchors": ["caput/pipeline/tasklib/io.py: Truncate.process, Truncate._get_params", "caput/util/truncate.pyx: bit_truncate_weights, bit_truncate_relative"]}
{"id": "C148", "title": "Weights, presets and precisions are used or refused", "statement": "Weights with the axes of the data in another order, presets of the container itself, and precisions which are not numbers are either used as meant or refused.", "quantifier": "all settings, specifications and orders of axes", "why_tests_cant": "Settings combine freely.", "anchors": ["caput/pipeline/tasklib/io.py: Truncate._get_params, Truncate._get_weights"]}
{"id": "C149", "title": "The filter bank sums weighted blocks and transforms them", "statement": "PFB.apply gives for every block and every channel the discrete Fourier transform, of the length of a block, of the sum of ntap consecutive blocks weighted with the window; there is one spectrum for every position where all blocks lie in the timestream, and an error if the timestream is too short by more than that; delaying a timestream by whole blocks moves the spectra.", "quantifier": "every timestream, window, number of taps and length of blocks", "why_tests_cant": "Lengths and values are unbounded; tests compare a few arrays numerically.", "anchors": ["caput/util/pfb.py: PFB.apply"]}
{"id": "C150", "title": "Channel profiles are the transform of the window", "statement": "compute_channel_profile gives increasing frequencies in units of the width of a channel and at each of them the Fourier transform of the window, scaled if asked so that the greatest real part is one; evaluate_channel_profile with the same norm evaluates the spline through these points in every call.", "quantifier": "every window, number of taps, length of blocks and oversampling", "why_tests_cant": "Frequencies are reordered by index arithmetic for even and odd lengths.", "anchors": ["caput/util/pfb.py: PFB.compute_channel_profile, PFB.evaluate_channel_profile"]}
{"id": "C151", "title": "Every evaluation of the channel profile uses its norm", "statement": "evaluate_channel_profile with a norm gives the spline of the profile with that norm, whatever was called before.", "quantifier": "every sequence of calls", "why_tests_cant": "Sequences of calls are unbounded.", "anchors": ["caput/util/pfb.py: PFB.evaluate_channel_profile"]}
{"id": "C152", "title": "Decorrelation ratios computed from the power spectrum", "statement": "For delays of whole samples decorrelation_ratio gives (r(d) + (-1)^d c) / (r(0) + c) where r is the correlation of the window with itself and c the square of its alternating sum divided by the number of points; an odd number of points is an error.", "quantifier": "every window, even number of points, oversampling of two or more, every delay within the window", "why_tests_cant": "Identities between sums of any length.", "anchors": ["caput/util/pfb.py: PFB.decorrelation_ratio"]}
{"id": "C153", "title": "Decorrelation ratios are correlations of the window", "statement": "decorrelation_ratio for a delay of whole samples is the correlation of the window with itself at that delay over the one at no delay.", "quantifier": "every window, number of taps, length of blocks, oversampling and delay within the window", "why_tests_cant": "Identities between sums of any length.", "anchors": ["caput/util/pfb.py: PFB.decorrelation_ratio"]}
{"id": "C154", "title": "Profiles of the ranks have distinct, sorted names", "statement": "The file names of Profiler differ between ranks, have the same length, sort like the ranks, and contain the rank written with as many digits as the number of ranks has.", "quantifier": "every number of ranks and every rank", "why_tests_cant": "Numbers of ranks are unbounded.", "anchors": ["caput/util/profiler.py: Profiler.__exit__"]}
{"id": "C155", "title": "Profiles are written to the given directory", "statement": "With a path the profiles are written there, without one to the current directory.", "quantifier": "every path", "why_tests_cant": "Paths are unbounded strings.", "anchors": ["caput/util/profiler.py: Profiler.__init__, Profiler.__exit__, PSUtilProfiler.__init__"]}
{"id": "C156", "title": "Numbers of bytes are shown with the right unit", "statement": "bytes2human gives a number and a unit whose product is the number of bytes, the number being at least one (except for bytes) and less than 1024 (except for the last unit), shown to the nearest tenth.", "quantifier": "every number of bytes", "why_tests_cant": "Numbers are unbounded.", "anchors": ["caput/util/profiler.py: PSUtilProfiler.stop (bytes2human)"]}
{"id": "C157", "title": "Shown numbers of bytes are below 1024", "statement": "The number shown is less than 1024.0 except for the last unit.", "quantifier": "every number of bytes", "why_tests_cant": "Rounding reaches the limit only for few numbers.", "anchors": ["caput/util/profiler.py: PSUtilProfiler.stop (bytes2human)"]}
{"id": "C158", "title": "The table of a profiler has one row per block", "statement": "A used PSUtilProfiler writes the names of the columns to a new file and appends one row per block; every cell is the quantity its column names (differences of times and counters, the greatest memory seen); a switched off one writes nothing; stop before start is an error.", "quantifier": "any number of blocks, all readings", "why_tests_cant": "Readings and numbers of blocks are unbounded.", "anchors": ["caput/util/profiler.py: PSUtilProfiler"]}
{"id": "C159", "title": "Tables have headers, peaks are peaks", "statement": "A table always begins with the names of its columns, and the peak of the used memory is not less than the memory used at the end.", "quantifier": "all readings and uses", "why_tests_cant": "Readings are unbounded.", "anchors": ["caput/util/profiler.py: PSUtilProfiler.start, PSUtilProfiler.stop, PSUtilProfiler.monitor"]}
{"id": "C160", "title": "IOUsage gives the differences of the counters", "statement": "After a block the usage of every counter is its difference since the block was entered.", "quantifier": "all counters and values, objects used any number of times", "why_tests_cant": "Counters are unbounded.", "anchors": ["caput/util/profiler.py: IOUsage"]}
{"id": "C161", "title": "The test of the environment exchanges one message per pair of ranks", "statement": "Every rank sends to every rank once and receives from every rank once, in matching steps; with a positive timeout the test passes on a rank exactly if at some look, one every five seconds, all messages have arrived, and they are unchanged.", "quantifier": "every number of ranks and arrival times", "why_tests_cant": "Numbers of ranks and times are unbounded.", "anchors": ["caput/pipeline/tasklib/debug.py: CheckMPIEnvironment.setup"]}
{"id": "C162", "title": "Messages within the timeout are accepted", "statement": "The test of the environment passes exactly if all messages arrive unchanged before the timeout.", "quantifier": "every timeout, number of ranks and arrival times", "why_tests_cant": "Numbers of ranks and times are unbounded.", "anchors": ["caput/pipeline/tasklib/debug.py: CheckMPIEnvironment.setup"]}
{"id": "C163", "title": "Seeds differ between ranks and repeat runs", "statement": "The local seeds of a RandomTask differ between ranks; they are determined by the seed, or without one by the logged number, the class and the rank.", "quantifier": "every seed, class name of up to 256 characters and rank", "why_tests_cant": "Seeds and ranks are unbounded.", "anchors": ["caput/pipeline/tasklib/random.py: RandomTask.__init__"]}
{"id": "C164", "title": "Seeds differ between tasks and follow the settings", "statement": "Different classes of tasks have different local seeds, and the local seed is that of the seed set, by the configuration or on the instance.", "quantifier": "all classes and seeds", "why_tests_cant": "Class names are unbounded strings.", "anchors": ["caput/pipeline/tasklib/random.py: RandomTask.__init__"]}
{"id": "C165", "title": "cpu_count divides the cores by the number of machines", "statement": "cpu_count gives the cores of the machine divided by the number of machines of the job (rounded down), for machines with equally many processes; it answers on every job, never more than the machine has, nothing if the system does not know, and everything for a process on its own.", "quantifier": "every number of machines, processes and cores", "why_tests_cant": "Jobs of every size; tests run on one machine.", "anchors": ["caput/util/mpitools.py: cpu_count"]}
{"id": "C166", "title": "The cores promised to processes are there", "statement": "The processes of a machine are together promised at most the cores it has, and none is left that each could have; cpu_count does not fail.", "quantifier": "every number of machines, processes and cores", "why_tests_cant": "Jobs of every size; tests run on one machine.", "anchors": ["caput/util/mpitools.py: cpu_count"]}
{"id": "C167", "title": "can_allocate compares with the free memory", "statement": "By machine each process compares its request with the free memory; by process the requests on the machine are added and all its processes hear the same; over the job a yes means that the request is less than the sum of the free memory of all machines, and a no that it is short of it by less than a byte for each process.", "quantifier": "every job, all requests and amounts of memory", "why_tests_cant": "Jobs of every size.", "anchors": ["caput/util/mpitools.py: can_allocate"]}
{"id": "C168", "title": "can_allocate refuses unknown scopes and always answers", "statement": "A scope that is not documented raises ValueError, and with a documented one every process gets an answer.", "quantifier": "every job and scope", "why_tests_cant": "Needs several processes with different failures.", "anchors": ["caput/util/mpitools.py: can_allocate"]}
{"id": "C169", "title": "Free memory of a control group", "statement": "available_memory_shared gives the free memory of the machine outside control groups and in the root group, the limit less what is used in any other group (of version 1), and an OSError if the files cannot be read.", "quantifier": "all contents of the files", "why_tests_cant": "Texts are unbounded; depends on the system.", "anchors": ["caput/util/mpitools.py: available_memory_shared"]}
{"id": "C170", "title": "Free memory respects every limit", "statement": "The free memory reported is within the limit of the control group of the process, at most that of the machine, and not negative.", "quantifier": "all contents of the files", "why_tests_cant": "Texts are unbounded; depends on the system.", "anchors": ["caput/util/mpitools.py: available_memory_shared"]}
{"id": "C171", "title": "Log messages are filtered by rank", "statement": "MPILogFilter lets a record pass exactly if its level is at least that for rank 0 or for the other ranks, by the rank in the record or else that of the filter; it adds rank and size if asked and missing, and the elapsed time, and changes nothing when applied again.", "quantifier": "all filters and records", "why_tests_cant": "Records of every kind.", "anchors": ["caput/util/mpitools.py: MPILogFilter"]}
{"id": "C172", "title": "Sleeping processes are released", "statement": "If process 0 is active, every process that is put to sleep by active is released by close with the same list, whatever messages came before, and no message is left over; one message goes to each of them and to nobody else.", "quantifier": "every number of processes, list and messages", "why_tests_cant": "Needs many processes.", "anchors": ["caput/util/mpitools.py: active, close"]}
{"id": "C173", "title": "Sleeping processes are released for every list", "statement": "close releases the processes put to sleep by active for every list of active processes.", "quantifier": "every list of processes", "why_tests_cant": "Deadlocks need many processes.", "anchors": ["caput/util/mpitools.py: active, close"]}
{"id": "C174", "title": "Task classes are found by name", "statement": "A type with a dot names a class by module and class, split at the last dot; classes in local_tasks come first; nothing else is loaded.", "quantifier": "all names, modules and local classes", "why_tests_cant": "Names are unbounded strings.", "anchors": ["caput/util/importtools.py: import_class", "caput/pipeline/_pipeline.py: Manager._get_task_from_spec"]}
{"id": "C175", "title": "Errors in the configuration are CaputConfigErrors", "statement": "A wrong configuration (unknown types of tasks, unknown keys, missing or wrong sections and groups of parameters, modules whose version is not known) is reported as CaputConfigError.", "quantifier": "all documents", "why_tests_cant": "Documents are unbounded trees.", "anchors": ["caput/pipeline/_pipeline.py: Manager.from_yaml_str, Manager._get_task_from_spec, _get_versions", "caput/util/importtools.py: import_class"]}
{"id": "C176", "title": "Tasks get the global parameters overridden by their groups", "statement": "A task is made with the versions and the configuration, over which its groups of parameters (inline, one, or a list) are laid in order: for every name the value in the last group that has it.", "quantifier": "all specifications and groups", "why_tests_cant": "Numbers of groups and names are unbounded.", "anchors": ["caput/pipeline/_pipeline.py: Manager._get_task_from_spec, Manager.from_yaml_str"]}
{"id": "C177", "title": "Errors of tasks have a line", "statement": "A configuration error of a task is reported with the line of the innermost mapping known to contain it.", "quantifier": "all specifications", "why_tests_cant": "Depends on where in a document the error is.", "anchors": ["caput/pipeline/_pipeline.py: Manager._setup_tasks, Manager._get_task_from_spec", "caput/config.py: CaputConfigError"]}
{"id": "C178", "title": "The configured pattern of keys is used", "statement": "Products are passed on if their key matches key_pattern.", "quantifier": "all configurations", "why_tests_cant": "Patterns are unbounded strings.", "anchors": ["caput/pipeline/_pipeline.py: Manager.__init__, Manager.runner", "caput/config.py: Reader.from_config"]}
{"id": "C179", "title": "Log levels are set as configured", "statement": "Every configured module gets its level; the root gets INFO if levels are configured without one for it, or when only checking, and WARNING if nothing is configured.", "quantifier": "all configured levels", "why_tests_cant": "Names of modules are unbounded.", "anchors": ["caput/pipeline/_pipeline.py: Manager._setup_logging"]}
{"id": "C180", "title": "Checking a configuration logs at INFO", "statement": "When only checking (lint) the level of the root is INFO.", "quantifier": "all configurations", "why_tests_cant": "Depends on the configuration.", "anchors": ["caput/pipeline/_pipeline.py: Manager._setup_logging", "caput/config.py: Property.__get__"]}
{"id": "C181", "title": "Versions of modules are collected", "statement": "For a list of modules with versions, or one name, the versions of exactly these are saved; other values and missing modules are refused.", "quantifier": "all lists and modules", "why_tests_cant": "Lists are unbounded.", "anchors": ["caput/pipeline/_pipeline.py: _get_versions"]}
{"id": "C182", "title": "Keys of tasks come from the specification or the arguments", "statement": "Each of the keys of a task (requires, in, out) comes from whichever of specification and arguments gives it, and is refused if both do.", "quantifier": "all specifications and arguments", "why_tests_cant": "Mappings are unbounded.", "anchors": ["caput/pipeline/_pipeline.py: Manager.add_task"]}
{"id": "C183", "title": "Arguments beside a specification are refused", "statement": "add_task raises ValueError if arguments are given beside a specification.", "quantifier": "all specifications and arguments", "why_tests_cant": "Mappings are unbounded.", "anchors": ["caput/pipeline/_pipeline.py: Manager.add_task"]}
{"id": "C184", "title": "Writing a distributed array stores the global array", "statement": "Whatever the order in which the ranks write, however the transfers are cut and whichever writer is used (MPI-IO, one rank after the other, zarr), every element of the global array is in the dataset.", "quantifier": "all shapes, axes, numbers of ranks, orders and limits of transfers", "why_tests_cant": "Shapes and numbers of ranks are unbounded; tests use few.", "anchors": ["caput/mpiarray.py: MPIArray.to_hdf5, MPIArray._to_hdf5_serial, MPIArray.to_zarr, _partition_sel"]}
{"id": "C185", "title": "Every rank reads its part of a selection", "statement": "For selections of slices that do not run backwards and of lists, on arrays with any number of axes, each rank gets exactly its part of the selected array, whatever was in its memory.", "quantifier": "all shapes, selections, axes (also negative), numbers of ranks and limits of transfers", "why_tests_cant": "Shapes, selections and numbers of ranks are unbounded.", "anchors": ["caput/mpiarray.py: MPIArray.from_file, _expand_sel, _reslice, _partition_sel"]}
{"id": "C186", "title": "Arrays are read back by any number of ranks", "statement": "An array written by some ranks over some axis and read by any other number of ranks over any other axis, with any selection, is the same global array.", "quantifier": "all shapes, axes, numbers of ranks and selections", "why_tests_cant": "Pairs of distributions are unbounded.", "anchors": ["caput/mpiarray.py: MPIArray.to_hdf5, MPIArray._to_hdf5_serial, MPIArray.to_zarr, MPIArray.from_file"]}
{"id": "C187", "title": "Datasets of another shape or type are not overwritten", "statement": "Writing over a dataset of another shape or type raises; over one of the same shape and type it replaces the contents and keeps how it is stored.", "quantifier": "all datasets, arrays and writers", "why_tests_cant": "Shapes are unbounded.", "anchors": ["caput/mpiarray.py: _create_or_get_dset, MPIArray.to_file"]}
{"id": "C188", "title": "Compression is refused where it cannot be used", "statement": "With MPI in h5py, compression raises RuntimeError if a rank has no elements or the file is not open for MPI; the compression of the array is used if none is given.", "quantifier": "all shapes, numbers of ranks and files", "why_tests_cant": "Depends on shape and number of ranks together.", "anchors": ["caput/mpiarray.py: MPIArray.to_hdf5, MPIArray.to_file"]}
{"id": "C189", "title": "A compression asked for is used or refused", "statement": "to_file either stores a new dataset with the compression asked for or raises.", "quantifier": "all arrays and writers", "why_tests_cant": "Depends on how h5py was built.", "anchors": ["caput/mpiarray.py: MPIArray.to_hdf5, MPIArray._to_hdf5_serial"]}
{"id": "C190", "title": "Files are written over the communicator of the array", "statement": "to_hdf5 opens the file over the communicator of the array, from_file over the one given.", "quantifier": "all communicators", "why_tests_cant": "Needs several communicators and MPI in h5py.", "anchors": ["caput/mpiarray.py: MPIArray.to_hdf5, MPIArray.from_file", "caput/memdata/_io.py: open_h5py_mpi"]}
{"id": "C191", "title": "Arrays distributed over an axis counted from the end are written", "statement": "An array whose axis number is negative (accepted by MPIArray and wrap) is written like the one with the axis counted from the start.", "quantifier": "all shapes and axes", "why_tests_cant": "Shapes are unbounded.", "anchors": ["caput/mpiarray.py: MPIArray._make_selections, MPIArray.to_hdf5, MPIArray.wrap"]}
{"id": "C192", "title": "MPI-IO is not used where the axis is not zero", "statement": "As its comment says, from_file does not use MPI where the axis is not zero.", "quantifier": "all axes", "why_tests_cant": "Needs MPI in h5py.", "anchors": ["caput/mpiarray.py: MPIArray.from_file"]}
{"id": "C193", "title": "Lock files of zarr stores lie beside them", "statement": "The lock file of a zarr store is in the directory of the store, and different for different stores.", "quantifier": "all names", "why_tests_cant": "Names are unbounded strings.", "anchors": ["caput/mpiarray.py: MPIArray.to_zarr"]}
{"id": "C194", "title": "Distributed groups are read back by any number of ranks", "statement": "A distributed group written to a file by any number of ranks, in any order, and read by any other number gives back the tree: groups, attributes, the common datasets of rank 0 on all ranks, and of every distributed dataset the part of each rank (of the selection, if one is given).", "quantifier": "all trees, numbers of ranks, orders, formats and selections", "why_tests_cant": "Trees and numbers of ranks are unbounded.", "anchors": ["caput/memdata/_memh5.py: _distributed_group_to_file, _distributed_group_from_file"]}
{"id": "C195", "title": "Hints in the file describe the datasets", "statement": "With hints every dataset in the file is marked as distributed, with its axis, or as common, and the file as distributed; without hints and reserved attributes there are no marks.", "quantifier": "all trees", "why_tests_cant": "Trees are unbounded.", "anchors": ["caput/memdata/_memh5.py: _distributed_group_to_file"]}
{"id": "C196", "title": "to_file honours hints=False", "statement": "MemGroup.to_file(hints=False) writes no hints.", "quantifier": "all trees", "why_tests_cant": "Trees are unbounded.", "anchors": ["caput/memdata/_memh5.py: MemGroup.to_file"]}
{"id": "C197", "title": "Hints of the caller distribute datasets", "statement": "A dataset for which the caller gives the hint that it is distributed is read distributed over the axis given, whatever the file says.", "quantifier": "all datasets, hints, selections and numbers of ranks", "why_tests_cant": "Shapes and numbers of ranks are unbounded.", "anchors": ["caput/memdata/_memh5.py: _distributed_group_from_file"]}
{"id": "C198", "title": "Hints of the caller override those of the file", "statement": "A dataset for which the caller gives the hint that it is not distributed is read as common.", "quantifier": "all datasets and hints", "why_tests_cant": "Combinations of hints are unbounded.", "anchors": ["caput/memdata/_memh5.py: _distributed_group_from_file"]}
{"id": "C199", "title": "Reading keeps the compression", "statement": "Datasets of a distributed group read from a file know the compression they were stored with.", "quantifier": "all datasets", "why_tests_cant": "Depends on formats and settings together.", "anchors": ["caput/memdata/_memh5.py: _distributed_group_from_file"]}
{"id": "C200", "title": "Strings are converted in distributed datasets", "statement": "With conversion of strings, distributed datasets of unicode strings are written like common ones.", "quantifier": "all datasets", "why_tests_cant": "Needs distributed data of strings.", "anchors": ["caput/memdata/_memh5.py: _distributed_group_to_file", "caput/mpiarray.py: MPIArray.to_file"]}
{"id": "C201", "title": "Datasets without axes are written", "statement": "A common dataset with a single element and no axes in a distributed group is written.", "quantifier": "all datasets", "why_tests_cant": "A corner case.", "anchors": ["caput/memdata/_memh5.py: _distributed_group_to_file"]}
{"id": "C202", "title": "Common datasets are the same on all ranks", "statement": "A dataset that neither the file nor the caller says to be distributed is common, and read the same on all ranks.", "quantifier": "all files and numbers of ranks", "why_tests_cant": "Needs several processes.", "anchors": ["caput/memdata/_memh5.py: _distributed_group_from_file"]}
{"id": "C203", "title": "Iteration shows what may be accessed", "statement": "Iterating over a MemDiskGroup gives exactly the entries whose names its class allows, each once; len is their number and membership agrees.", "quantifier": "all trees, groups and rules of classes", "why_tests_cant": "Trees and rules are unbounded.", "anchors": ["caput/memdata/_memh5.py: MemDiskGroup.__iter__, MemDiskGroup.__len__, MemDiskGroup.__getitem__"]}
{"id": "C204", "title": "Containers show the datasets of their root", "statement": "A container shows exactly the datasets in its root group; groups and what is in them cannot be looked up.", "quantifier": "all trees and names", "why_tests_cant": "Names are unbounded strings.", "anchors": ["caput/containers/_core.py: Container.group_name_allowed, Container.dataset_name_allowed", "caput/memdata/_memh5.py: MemDiskGroup.__getitem__"]}
{"id": "C205", "title": "Refused names raise and change nothing", "statement": "Creating under a refused name raises ValueError, looking up and deleting KeyError, and nothing changes; a container accepts for datasets exactly single names, with or without a slash before, and no groups.", "quantifier": "all trees, names and rules", "why_tests_cant": "Names are unbounded strings.", "anchors": ["caput/memdata/_memh5.py: MemDiskGroup.create_dataset, MemDiskGroup.create_group, MemDiskGroup.__getitem__", "caput/containers/_core.py: Container.dataset_name_allowed"]}
{"id": "C206", "title": "Datasets created in containers are found", "statement": "A dataset created in a container under an accepted name that is not empty is found under it, and no other entry changes.", "quantifier": "all containers and names", "why_tests_cant": "Names are unbounded strings.", "anchors": ["caput/memdata/_memh5.py: MemDiskGroup.create_dataset", "caput/containers/_core.py: Container.dataset_name_allowed"]}
{"id": "C207", "title": "Whatever can be created can be found", "statement": "Every dataset that a container lets be created can be looked up afterwards.", "quantifier": "all names", "why_tests_cant": "Names are unbounded strings.", "anchors": ["caput/memdata/_memh5.py: MemDiskGroup.create_dataset", "caput/containers/_core.py: Container.dataset_name_allowed"]}
{"id": "C208", "title": "Containers protect their groups", "statement": "No history of calls on a container changes its index maps, reverse maps and history.", "quantifier": "all histories of calls", "why_tests_cant": "Histories are unbounded.", "anchors": ["caput/memdata/_memh5.py: MemDiskGroup.create_dataset, _BaseGroup.require_dataset, _BaseGroup.__delitem__", "caput/containers/_core.py: Container.group_name_allowed, Container.dataset_name_allowed"]}
{"id": "C209", "title": "group_name_allowed restricts the creation of groups", "statement": "No group whose name the class refuses is created through it.", "quantifier": "all names and rules", "why_tests_cant": "Names are unbounded strings.", "anchors": ["caput/memdata/_memh5.py: MemDiskGroup.group_name_allowed, MemDiskGroup.create_dataset"]}
{"id": "C210", "title": "create_group returns the group found under the name", "statement": "The group returned by create_group has the name under which it is found.", "quantifier": "all names", "why_tests_cant": "Names are unbounded strings.", "anchors": ["caput/memdata/_memh5.py: MemDiskGroup.create_group"]}
{"id": "C211", "title": "Files are closed by those who opened them", "statement": "close never closes a group that was given; it closes files that were opened by a name standing for HDF5, and after reading on disk exactly the HDF5 files that were opened.", "quantifier": "all arguments and settings", "why_tests_cant": "Combinations of arguments.", "anchors": ["caput/memdata/_memh5.py: MemDiskGroup.__init__, MemDiskGroup.close, MemDiskGroup.from_file, get_file"]}
{"id": "C212", "title": "All HDF5 files opened are closed", "statement": "close closes every HDF5 file that the constructor opened.", "quantifier": "all arguments", "why_tests_cant": "Combinations of arguments.", "anchors": ["caput/memdata/_memh5.py: MemDiskGroup.__init__, MemDiskGroup.close"]}
{"id": "C213", "title": "Distributed groups wrap distributed groups", "statement": "A distributed MemDiskGroup is around a distributed MemGroup with the same communicator, or the constructor raises ValueError; wrapping does not change the group.", "quantifier": "all groups, communicators and settings", "why_tests_cant": "Needs several communicators.", "anchors": ["caput/memdata/_memh5.py: MemDiskGroup.__init__"]}
{"id": "C214", "title": "Constructors that raise leave no file open", "statement": "If the constructor raises, every file it opened is closed.", "quantifier": "all arguments", "why_tests_cant": "Combinations of arguments.", "anchors": ["caput/memdata/_memh5.py: MemDiskGroup.__init__"]}
{"id": "C215", "title": "The class comes back from the file", "statement": "The class of an object without recorded class is found again after saving to HDF5 or zarr and reading, whichever class reads; without detection or record it is the class that reads; other classes are refused.", "quantifier": "all classes and attributes", "why_tests_cant": "Names and attributes are unbounded.", "anchors": ["caput/memdata/_memh5.py: MemDiskGroup.save, MemDiskGroup._detect_subclass_path, MemDiskGroup._resolve_subclass, MemDiskGroup.from_group"]}
{"id": "C216", "title": "Objects are read with the class they were saved with", "statement": "An object is read with the class it had when it was saved.", "quantifier": "all classes and attributes", "why_tests_cant": "Names and attributes are unbounded.", "anchors": ["caput/memdata/_memh5.py: MemDiskGroup.save, MemDiskGroup._resolve_subclass"]}
{"id": "C217", "title": "Unknown classes give a warning", "statement": "If the recorded class cannot be imported there is a warning, and the data are read.", "quantifier": "all classes", "why_tests_cant": "Depends on what is installed.", "anchors": ["caput/memdata/_memh5.py: MemDiskGroup._resolve_subclass"]}
{"id": "C218", "title": "Selections are taken from the arguments", "statement": "from_file takes the arguments whose names end in _sel as the selections of the axes, and passes on all others.", "quantifier": "all arguments", "why_tests_cant": "Names are unbounded strings.", "anchors": ["caput/memdata/_memh5.py: MemDiskGroup.from_file"]}
{"id": "C219", "title": "Selections are applied or warned about", "statement": "Selections of axes are applied by the class that the data are read as, or there is a warning.", "quantifier": "all classes and arguments", "why_tests_cant": "Combinations of classes and arguments.", "anchors": ["caput/memdata/_memh5.py: MemDiskGroup.from_file, MemDiskGroup._make_selections"]}
{"id": "C220", "title": "Conversions of strings are those asked for", "statement": "Saving data in memory writes with the conversions given, or else those of the class, or else the defaults, in the format given.", "quantifier": "all combinations", "why_tests_cant": "Combinations of arguments.", "anchors": ["caput/memdata/_memh5.py: MemDiskGroup.save"]}
{"id": "C221", "title": "Data on disk are saved like those in memory", "statement": "Saving a group on disk writes a new file with the conversions and format given, and leaves the source alone.", "quantifier": "all combinations", "why_tests_cant": "Combinations of arguments.", "anchors": ["caput/memdata/_memh5.py: MemDiskGroup.save"]}
{"id": "C222", "title": "Locks are removed once", "statement": "The lock of a zarr store opened by several ranks is removed by one of them.", "quantifier": "all ranks", "why_tests_cant": "Needs several processes.", "anchors": ["caput/memdata/_memh5.py: MemDiskGroup.close, MemDiskGroup.from_file"]}
{"id": "C223", "title": "MemGroup.from_group copies groups of files", "statement": "MemGroup.from_group copies groups in memory, of HDF5 files and of zarr stores.", "quantifier": "all groups", "why_tests_cant": "Kinds of groups.", "anchors": ["caput/memdata/_memh5.py: MemGroup.from_group"]}
{"id": "C224", "title": "The walk over time-ordered data finds everything", "statement": "Walking a tree lists exactly the datasets along a time axis and collects everything else to be copied, each once, groups before what is in them.", "quantifier": "all trees with absolute names and axes", "why_tests_cant": "Trees are unbounded.", "anchors": ["caput/containers/tod.py: _copy_non_time_data, _dset_has_axis"]}
{"id": "C225", "title": "Index maps are left out of the walk", "statement": "The walk passes over index_map and reverse_map.", "quantifier": "all trees", "why_tests_cant": "Trees are unbounded.", "anchors": ["caput/containers/tod.py: _copy_non_time_data"]}
{"id": "C226", "title": "Time-ordered datasets of a container", "statement": "The time-ordered datasets found in a container are those with a time axis, once each, in the order of their names.", "quantifier": "all containers", "why_tests_cant": "Containers are unbounded.", "anchors": ["caput/containers/tod.py: _copy_non_time_data"]}
{"id": "C227", "title": "Concatenation along several axes: index maps", "statement": "For compatible containers the index map of each time axis is the slice asked for along that axis of all index maps joined; the other index maps, reverse maps and attributes are those of the first.", "quantifier": "all compatible containers, axes and bounds in order, given as numbers or mappings", "why_tests_cant": "Numbers of files, axes and lengths are unbounded.", "anchors": ["caput/containers/tod.py: concatenate"]}
{"id": "C228", "title": "Concatenation along several axes: datasets", "statement": "For compatible containers each time-ordered dataset that is wanted is the slice asked for along its own time axis of the datasets joined, the others with a time axis are absent, and those without are copied from the first.", "quantifier": "all compatible containers, axes, bounds and selections", "why_tests_cant": "Numbers of files, datasets and lengths are unbounded.", "anchors": ["caput/containers/tod.py: concatenate, _copy_non_time_data"]}
{"id": "C229", "title": "Concatenation into files fills the index maps", "statement": "When the output is a group on disk the index maps of the time axes hold the joined index maps.", "quantifier": "all compatible containers", "why_tests_cant": "Needs files.", "anchors": ["caput/containers/tod.py: concatenate", "caput/containers/_core.py: Container.index_map"]}
{"id": "C230", "title": "Concatenation leaves its arguments alone", "statement": "start and stop are the same after a call as before.", "quantifier": "all arguments", "why_tests_cant": "Needs calls that share an argument.", "anchors": ["caput/containers/tod.py: concatenate"]}
{"id": "C231", "title": "Any sequence of containers can be concatenated", "statement": "A tuple of containers gives what the list gives.", "quantifier": "all sequences", "why_tests_cant": "The containers are arbitrary.", "anchors": ["caput/containers/tod.py: concatenate, _copy_non_time_data"]}
{"id": "C232", "title": "Concatenation keeps the history", "statement": "The history of the result is that of the first container.", "quantifier": "all containers", "why_tests_cant": "Histories are unbounded.", "anchors": ["caput/containers/tod.py: concatenate, _copy_non_time_data"]}
{"id": "C233", "title": "Attributes come from the first container", "statement": "The attributes of each dataset of the result are those in the first container.", "quantifier": "all compatible containers and bounds", "why_tests_cant": "Bounds decide which containers contribute.", "anchors": ["caput/containers/tod.py: concatenate"]}
{"id": "C234", "title": "A reader reads what it lists", "statement": "Every dataset that a reader lists, and lets be selected, is read.", "quantifier": "all files", "why_tests_cant": "Files are unbounded trees.", "anchors": ["caput/containers/tod.py: TODReader.__init__, TODReader.read, TODReader.dataset_sel"]}
{"id": "C235", "title": "A reader closes the file it opened", "statement": "The file opened for its header is closed after the reader was made.", "quantifier": "all formats", "why_tests_cant": "Leaks are not visible in results.", "anchors": ["caput/containers/tod.py: TODReader.__init__"]}
{"id": "C236", "title": "Lists of files", "statement": "A pattern stands for the files that match it, sorted; a sequence for itself, a group for the list of it alone, anything else raises ValueError; a reader reads the header of the first of its files.", "quantifier": "all file systems and arguments", "why_tests_cant": "File systems are unbounded.", "anchors": ["caput/containers/tod.py: ensure_file_list, TODReader.__init__"]}
{"id": "C237", "title": "Selections of a reader", "statement": "A selection of datasets is accepted exactly if all of them are listed and a selection of times exactly if it is a pair; otherwise ValueError.", "quantifier": "all selections", "why_tests_cant": "Selections are unbounded.", "anchors": ["caput/containers/tod.py: TODReader.dataset_sel, TODReader.time_sel"]}
{"id": "C238", "title": "Times are moved to the centres by half of the spacing", "statement": "The times of samples that are not centred are shifted by alignment times h where h is between half of the smallest and half of the largest spacing, so half of the spacing if it is even; centred times are unchanged.", "quantifier": "all ascending times with two samples or more, all alignments", "why_tests_cant": "Lists of times are unbounded.", "anchors": ["caput/containers/tod.py: TOData.time"]}
{"id": "C239", "title": "Times are numbers", "statement": "The times of a container are numbers.", "quantifier": "all times and alignments", "why_tests_cant": "Depends on the number of samples.", "anchors": ["caput/containers/tod.py: TOData.time"]}
{"id": "C240", "title": "Bounds out of order are refused", "statement": "If along some time axis the start is past the stop, concatenate raises ValueError.", "quantifier": "all containers, bounds and axes", "why_tests_cant": "Bounds are unbounded integers.", "anchors": ["caput/containers/tod.py: concatenate"]}
{"id": "C241", "title": "Datasets that were looked up are names", "statement": "Whatever is written or set as an attribute through one handle of a dataset is read through every other one and through the group; copies are independent of all of them.", "quantifier": "all programs of lookups, views, copies, reads, writes and attributes, any number of roots and processes, without redistribution and removal", "why_tests_cant": "Programs are unbounded.", "anchors": ["caput/memdata/_memh5.py: MemDataset.copy, MemDataset.view, _BaseGroup.__getitem__, MemGroup.create_dataset"]}
{"id": "C242", "title": "One process: redistribution does not separate handles", "statement": "With one process the same holds with redistributions of looked-up datasets in between.", "quantifier": "all programs as before with redistributions", "why_tests_cant": "Programs are unbounded.", "anchors": ["caput/memdata/_memh5.py: MemDatasetDistributed.redistribute", "caput/mpiarray.py: MPIArray.redistribute"]}
{"id": "C243", "title": "Redistributing a looked-up dataset", "statement": "The handle and the dataset in the group get the same array with the new axis and the old contents, and nothing else changes; a removed dataset is a KeyError, a common one an AttributeError.", "quantifier": "all states, axes and numbers of processes", "why_tests_cant": "States are unbounded.", "anchors": ["caput/memdata/_memh5.py: MemDatasetDistributed.redistribute"]}
{"id": "C244", "title": "Handles follow a redistribution", "statement": "What is written after a redistribution is seen through handles obtained before it.", "quantifier": "all programs, all numbers of processes", "why_tests_cant": "Needs two processes and two handles.", "anchors": ["caput/memdata/_memh5.py: MemDatasetDistributed.redistribute"]}
{"id": "C245", "title": "All handles see the axis", "statement": "After a redistribution all handles of the dataset report the new axis.", "quantifier": "all programs", "why_tests_cant": "Needs two handles of one dataset.", "anchors": ["caput/memdata/_memh5.py: MemDatasetDistributed.redistribute, distributed_axis"]}
{"id": "C246", "title": "Redistributing a copy", "statement": "Redistributing a copy leaves the original alone and keeps the values of the copy.", "quantifier": "all copies", "why_tests_cant": "Copies look equal to their originals.", "anchors": ["caput/memdata/_memh5.py: MemDataset.copy, MemDatasetDistributed.redistribute"]}
{"id": "C247", "title": "Storage settings change only through the storage", "statement": "Chunks and compression of a dataset in a group stay the same whatever is done with handles.", "quantifier": "all programs that do not set them in the storage", "why_tests_cant": "Programs are unbounded.", "anchors": ["caput/memdata/_memh5.py: MemDataset.view, chunks, compression, compression_opts"]}
{"id": "C248", "title": "Storage settings are those of later lookups", "statement": "A setting made on the dataset in the storage is found on every later lookup.", "quantifier": "all programs in between that do not touch it", "why_tests_cant": "Programs are unbounded.", "anchors": ["caput/memdata/_memh5.py: _BaseGroup.__getitem__, MemDataset.view"]}
{"id": "C249", "title": "Settings made on a looked-up dataset last", "statement": "Chunks or compression set on group[name] are found on the next lookup.", "quantifier": "all datasets and settings", "why_tests_cant": "Looks right while the handle is kept.", "anchors": ["caput/memdata/_memh5.py: _BaseGroup.__getitem__, MemDataset.copy"]}
{"id": "C250", "title": "Chunk sizes", "statement": "Both kinds of dataset accept chunk sizes exactly if there is one for each dimension and limit each to the length of the axis; None removes them.", "quantifier": "all shapes and chunk sizes", "why_tests_cant": "Dimensions are unbounded.", "anchors": ["caput/memdata/_memh5.py: MemDatasetCommon.chunks, MemDatasetDistributed.chunks"]}
{"id": "C251", "title": "Specified chunks and compression", "statement": "_ensure_chunked sets the specified chunks (limited to the shape), compression and options on exactly the datasets which have none; chunk sizes for too few dimensions raise IndexError.", "quantifier": "all specifications and containers", "why_tests_cant": "Containers are unbounded.", "anchors": ["caput/containers/_core.py: _ensure_chunked"]}
{"id": "C252", "title": "Compression off", "statement": "With the option off, all datasets of the root of an output lose chunks, compression and options and keep the rest.", "quantifier": "all outputs without sub-groups", "why_tests_cant": "Outputs are unbounded.", "anchors": ["caput/pipeline/tasklib/base.py: SingleTask._save_output"]}
{"id": "C253", "title": "Compression off, with groups", "statement": "With the option off, outputs with datasets in sub-groups are handled too.", "quantifier": "all outputs", "why_tests_cant": "Containers of the library have no sub-groups.", "anchors": ["caput/pipeline/tasklib/base.py: SingleTask._save_output", "caput/memdata/_memh5.py: _StorageRoot.__getitem__"]}
{"id": "C254", "title": "Compression given", "statement": "Settings given by dataset are made on exactly these datasets; bitshuffle without options gets the default options.", "quantifier": "all outputs and configurations with fitting chunk sizes", "why_tests_cant": "Configurations are unbounded.", "anchors": ["caput/pipeline/tasklib/base.py: SingleTask._save_output"]}
{"id": "C255", "title": "The short name of the filter is replaced", "statement": "After the settings are made, compression given as bitshuffle is the number of the filter.", "quantifier": "all outputs", "why_tests_cant": "The file looks the same either way.", "anchors": ["caput/pipeline/tasklib/base.py: SingleTask._save_output"]}
{"id": "C256", "title": "The short name is enough for files", "statement": "Both names of the filter give the same arguments for HDF5 and for zarr.", "quantifier": "all options and compressors", "why_tests_cant": "Options are unbounded.", "anchors": ["caput/memdata/fileformats.py: HDF5.compression_kwargs, Zarr.compression_kwargs"]}
{"id": "C257", "title": "Equality of datasets", "statement": "Two datasets are equal exactly if both are common or both distributed, and they agree in storage root, name, attributes, contents and settings.", "quantifier": "all states and datasets", "why_tests_cant": "States are unbounded.", "anchors": ["caput/memdata/_memh5.py: _MemObjMixin.__eq__, MemDataset.__eq__, MemDatasetCommon.__eq__, MemDatasetDistributed.__eq__"]}
{"id": "C258", "title": "Equality of copies", "statement": "A copy equals its original; datasets of different roots are never equal.", "quantifier": "all datasets", "why_tests_cant": "States are unbounded.", "anchors": ["caput/memdata/_memh5.py: MemDataset.copy, _MemObjMixin.__eq__"]}
{"id": "C259", "title": "Length of a dataset", "statement": "len is the length of the first axis if that is not the distributed one or there is one process.", "quantifier": "all shapes, axes and ranks", "why_tests_cant": "Shapes are unbounded.", "anchors": ["caput/memdata/_memh5.py: MemDatasetCommon.__len__, MemDatasetDistributed.__len__"]}
{"id": "C260", "title": "len agrees with shape", "statement": "len of a dataset is the first entry of its shape.", "quantifier": "all datasets and numbers of processes", "why_tests_cant": "Needs two processes.", "anchors": ["caput/memdata/_memh5.py: MemDatasetDistributed.__len__, MemDatasetDistributed.shape"]}
{"id": "C261", "title": "Elementwise operations on distributed arrays", "statement": "Every rank gets its part of what numpy gives for the whole arrays, described as that; arrays which cannot be broadcast raise ValueError, on all ranks alike.", "quantifier": "all ufuncs, numbers of inputs and outputs, shapes, distributed axes, numbers of ranks; inputs distributed, common or scalar", "why_tests_cant": "Shapes and numbers of ranks are unbounded.", "anchors": ["caput/mpiarray.py: MPIArray.__array_ufunc__, _array_ufunc_call, _get_common_comm, _view_from_data_and_params"]}
{"id": "C262", "title": "Reductions of distributed arrays", "statement": "A reduction over other axes gives every rank its part of the reduction of the whole array; one over the distributed axis raises AxisException.", "quantifier": "all reductions, shapes, sets of axes, with and without keepdims, numbers of ranks", "why_tests_cant": "Shapes and numbers of ranks are unbounded.", "anchors": ["caput/mpiarray.py: MPIArray.__array_ufunc__, _array_ufunc_reduce"]}
{"id": "C263", "title": "Accumulations of distributed arrays", "statement": "An accumulation along another axis gives every rank its part of that of the whole array; one along the number of the distributed axis raises AxisException.", "quantifier": "all accumulations, shapes, axes, numbers of ranks", "why_tests_cant": "Shapes and numbers of ranks are unbounded.", "anchors": ["caput/mpiarray.py: MPIArray.__array_ufunc__, _array_ufunc_accumulate"]}
{"id": "C264", "title": "Accumulation along the distributed axis counted from the end", "statement": "It raises or gives the accumulation of the whole array.", "quantifier": "all distributed arrays", "why_tests_cant": "Wrong only with two ranks.", "anchors": ["caput/mpiarray.py: _array_ufunc_accumulate"]}
{"id": "C265", "title": "Reductions over all axes", "statement": "The result is a vector with one element for each rank, the reduction of what the rank has; with allreduce it is the reduction of the whole array.", "quantifier": "all arrays, numbers of ranks, associative and commutative operations with a neutral element", "why_tests_cant": "Shapes and numbers of ranks are unbounded.", "anchors": ["caput/mpiarray.py: _array_ufunc_reduce, MPIArray.allreduce"]}
{"id": "C266", "title": "Results in existing arrays", "statement": "Arrays distributed like the result get their parts of it; a plain array raises TypeError.", "quantifier": "all ufuncs, inputs and outputs", "why_tests_cant": "Shapes are unbounded.", "anchors": ["caput/mpiarray.py: MPIArray.__array_ufunc__, _check_dist_axis"]}
{"id": "C267", "title": "Existing arrays are checked against the result", "statement": "An array that numpy would refuse for the result of the whole arrays is refused.", "quantifier": "all outputs", "why_tests_cant": "Depends on the number of ranks.", "anchors": ["caput/mpiarray.py: MPIArray.__array_ufunc__"]}
{"id": "C268", "title": "Plain arrays are accepted on all ranks or none", "statement": "Whether a plain array that all ranks have can be combined with a distributed one is the same on all ranks.", "quantifier": "all arrays and numbers of ranks", "why_tests_cant": "Needs lengths that differ between ranks.", "anchors": ["caput/mpiarray.py: _array_ufunc_call"]}
{"id": "C269", "title": "Arrays distributed over an axis counted from the end", "statement": "They behave in ufuncs like those with the axis counted from the front.", "quantifier": "all arrays", "why_tests_cant": "The axis is stored as given.", "anchors": ["caput/mpiarray.py: _array_ufunc_call, _array_ufunc_reduce, MPIArray.wrap"]}
{"id": "C270", "title": "Communicators of the inputs", "statement": "Without a communicator every ufunc raises RuntimeError; if the first array and another have different ones, ValueError.", "quantifier": "all ufuncs and inputs", "why_tests_cant": "Input lists are unbounded.", "anchors": ["caput/mpiarray.py: _get_common_comm, MPIArray.__array_ufunc__"]}
{"id": "C271", "title": "The order of the inputs does not matter", "statement": "Arrays are accepted or refused whatever the order of the inputs.", "quantifier": "all inputs", "why_tests_cant": "Needs arrays with and without communicator.", "anchors": ["caput/mpiarray.py: _get_common_comm"]}
{"id": "C272", "title": "Some of several outputs given", "statement": "Outputs that are not given are made, as in numpy.", "quantifier": "all ufuncs with several outputs", "why_tests_cant": "Rarely used.", "anchors": ["caput/mpiarray.py: MPIArray.__array_ufunc__"]}
{"id": "C273", "title": "Reductions without neutral element", "statement": "They succeed on all ranks if numpy can reduce the whole array.", "quantifier": "all arrays and numbers of ranks", "why_tests_cant": "Needs a rank without elements.", "anchors": ["caput/mpiarray.py: MPIArray.__array_ufunc__"]}
{"id": "C274", "title": "Transposed distributed arrays", "statement": "Every rank gets its part of the transposed array, described as that.", "quantifier": "all arrays, permutations (as non-negative numbers), numbers of ranks", "why_tests_cant": "Shapes are unbounded.", "anchors": ["caput/mpiarray.py: MPIArray.transpose"]}
{"id": "C275", "title": "The attribute T", "statement": "arr.T is the transposed distributed array.", "quantifier": "all arrays", "why_tests_cant": "The class has no T of its own.", "anchors": ["caput/mpiarray.py: MPIArray.__array_finalize__, transpose"]}
{"id": "C276", "title": "Indexed distributed arrays", "statement": "An index that takes the whole distributed axis gives every rank its part of what it selects from the whole array; another one gives what it selects from the local array; one with too many entries or ellipses raises IndexError.", "quantifier": "all arrays, indices of integers, slices (any step), new axes and an ellipsis, numbers of ranks", "why_tests_cant": "Indices and shapes are unbounded.", "anchors": ["caput/mpiarray.py: MPIArray.__getitem__, sanitize_slice, __array_finalize__"]}
{"id": "C277", "title": "Making and copying distributed arrays", "statement": "wrap of the parts of an array gives that array, distributed; if the lengths are not those of the even division it raises AxisException on every rank; copy gives an equal distributed array.", "quantifier": "all arrays and numbers of ranks", "why_tests_cant": "Numbers of ranks are unbounded.", "anchors": ["caput/mpiarray.py: MPIArray.wrap, copy"]}
{"id": "C278", "title": "Unsupported ufunc methods", "statement": "Other methods, and a where argument that is not True, raise UnsupportedOperation.", "quantifier": "all ufuncs and inputs", "why_tests_cant": "Inputs are unbounded.", "anchors": ["caput/mpiarray.py: MPIArray.__array_ufunc__"]}
{"id": "C279", "title": "Expressions of distributed arrays", "statement": "Any expression of elementwise operations, reductions and accumulations over other axes, transpositions and indices gives every rank its part of the value that numpy gives for the whole arrays.", "quantifier": "all expressions, inputs, shapes and numbers of ranks", "why_tests_cant": "Expressions are unbounded.", "anchors": ["caput/mpiarray.py: MPIArray"]}
{"id": "C280", "title": "Hour angles and sidereal time", "statement": "The hour angle of a source is in [-180, 180) and differs from local sidereal time less right ascension by full turns; unix_to_lst is in [0, 360) and is Greenwich sidereal time plus the longitude, up to full turns.", "quantifier": "all times, bodies and longitudes", "why_tests_cant": "Times are real numbers.", "anchors": ["caput/astro/observer.py: Observer._source_ha, unix_to_lst"]}
{"id": "C281", "title": "Transits", "statement": "transit_times gives, in ascending order, exactly the times in the interval at which the body is on the upper (or, with lower, the other half of the) meridian, when its hour angle grows by less than half a turn in two steps; a number stands for a star on the equator.", "quantifier": "all observers, bodies whose hour angle grows, intervals and steps", "why_tests_cant": "Intervals, steps and motions are unbounded.", "anchors": ["caput/astro/observer.py: Observer.transit_times, _source_ha, _solve_all, _fixup_interval_and_step"]}
{"id": "C282", "title": "Transits once", "statement": "Each transit is listed once.", "quantifier": "all observers, bodies and intervals", "why_tests_cant": "Needs a transit on the grid.", "anchors": ["caput/astro/observer.py: Observer.transit_times, _solve_all"]}
{"id": "C283", "title": "The step", "statement": "A step less than the time between two transits finds them all.", "quantifier": "all steps", "why_tests_cant": "Needs an interval not much longer than the step.", "anchors": ["caput/astro/observer.py: Observer.transit_times, _solve_all"]}
{"id": "C284", "title": "A full turn has a transit", "statement": "If the hour angle grows by a full turn in the interval, a transit is found.", "quantifier": "all observers, bodies, intervals and steps (as C281)", "why_tests_cant": "Motions are unbounded.", "anchors": ["caput/astro/observer.py: Observer.transit_times"]}
{"id": "C285", "title": "Sidereal time at transit", "statement": "At an upper transit found, unix_to_lst is the right ascension.", "quantifier": "all observers, bodies, intervals and steps (as C281)", "why_tests_cant": "Times are real numbers.", "anchors": ["caput/astro/observer.py: Observer.transit_times, unix_to_lst"]}
{"id": "C286", "title": "Declinations at transit", "statement": "With return_dec the same transits are returned, with one declination each, that at the transit; without transits an empty array.", "quantifier": "all observers, bodies, intervals and steps", "why_tests_cant": "Motions are unbounded.", "anchors": ["caput/astro/observer.py: Observer.transit_times"]}
{"id": "C287", "title": "Risings and settings", "statement": "rise_set_times gives, in ascending order, exactly the times in the interval at which the altitude goes through minus half the diameter, with the direction; rise_times those going up, set_times those going down; when the altitude crosses it at each such time and not again within two steps.", "quantifier": "all observers, bodies with continuous altitude, intervals, steps and diameters", "why_tests_cant": "Motions are unbounded.", "anchors": ["caput/astro/observer.py: Observer._sr_work, rise_set_times, rise_times, set_times, _solve_all"]}
{"id": "C288", "title": "Risings and settings alternate", "statement": "In rise_set_times a rising is followed by a setting and a setting by a rising.", "quantifier": "all observers, bodies, intervals, steps and diameters", "why_tests_cant": "Motions are unbounded.", "anchors": ["caput/astro/observer.py: Observer.rise_set_times, _solve_all"]}
{"id": "C289", "title": "Sun and Moon", "statement": "The risings and settings of Sun and Moon are times at which the altitude is -50 arcminutes; each function is about the body and the event of its name.", "quantifier": "all observers, intervals and steps", "why_tests_cant": "Times are real numbers.", "anchors": ["caput/astro/observer.py: Observer.solar_rising, solar_setting, lunar_rising, lunar_setting, solar_transit, lunar_transit"]}
{"id": "C290", "title": "Moving an observer", "statement": "After the latitude of an observer is set, results are those for the new latitude.", "quantifier": "all observers", "why_tests_cant": "Needs a question before.", "anchors": ["caput/astro/observer.py: Observer.skyfield_obs, latitude"]}
{"id": "C291", "title": "Asking an observer", "statement": "Transits, risings and settings do not change the location of the observer, and one that was not moved stays so.", "quantifier": "all observers and questions", "why_tests_cant": "Arguments are unbounded.", "anchors": ["caput/astro/observer.py: Observer.skyfield_obs, transit_times, _sr_work"]}
{"id": "C292", "title": "Refused intervals", "statement": "ValueError is raised exactly when the end is not after the start, or the step is not less than the interval; otherwise there is a result.", "quantifier": "all intervals and positive steps", "why_tests_cant": "Times are real numbers.", "anchors": ["caput/astro/observer.py: _fixup_interval_and_step, Observer.transit_times, rise_set_times"]}
{"id": "C293", "title": "Decorrelation at whole samples", "statement": "At a delay of d samples, of either sign, the decorrelation is the correlation of the window with itself (with the term of C152), relative to that without delay.", "quantifier": "all windows, numbers of taps and channels, oversampling from 2", "why_tests_cant": "Sizes are unbounded.", "anchors": ["caput/util/pfb.py: PFB.decorrelation_ratio"]}
{"id": "C294", "title": "Decorrelation between the nodes", "statement": "Between two neighbouring nodes (1 / oversample samples apart) the decorrelation is linear.", "quantifier": "all windows, delays within the window, oversampling from 3", "why_tests_cant": "Delays are real numbers.", "anchors": ["caput/util/pfb.py: PFB.decorrelation_ratio"]}
{"id": "C295", "title": "Decorrelation is even", "statement": "The decorrelation at a delay is that at the opposite delay.", "quantifier": "all windows and delays", "why_tests_cant": "Needs oversampling 2 and a delay of a whole window.", "anchors": ["caput/util/pfb.py: PFB.decorrelation_ratio"]}
{"id": "C296", "title": "Decorrelation of long delays", "statement": "For delays longer than the window the decorrelation is zero.", "quantifier": "all windows, delays and oversamplings", "why_tests_cant": "Delays are real numbers.", "anchors": ["caput/util/pfb.py: PFB.decorrelation_ratio"]}
{"id": "C297", "title": "Gathering arrays in C order", "statement": "MPIArray.gather gives the whole array, byte by byte, on the root and nothing elsewhere, for local arrays in C order of any type, known to MPI or compound.", "quantifier": "all shapes, numbers of ranks, item sizes, contents and types", "why_tests_cant": "Contents and sizes are unbounded; needs several processes.", "anchors": ["caput/mpiarray.py: MPIArray._prep_buf", "caput/mpiarray.py: MPIArray.gather"]}
{"id": "C298", "title": "Gathering does not depend on the layout", "statement": "The result of gather does not depend on the layout of the local arrays in memory.", "quantifier": "all strides", "why_tests_cant": "Layouts are unbounded; tests only use new arrays.", "anchors": ["caput/mpiarray.py: MPIArray._prep_buf", "caput/mpiarray.py: MPIArray.gather"]}
{"id": "C299", "title": "Compound types are gathered rightly or refused", "statement": "For compound types of two bytes or more gather is right if it returns, and raises ValueError for every layout but C order.", "quantifier": "all strides, shapes, ranks and item sizes of two bytes or more", "why_tests_cant": "Layouts are unbounded.", "anchors": ["caput/mpiarray.py: MPIArray._prep_buf", "caput/mpiarray.py: MPIArray.gather"]}
{"id": "C300", "title": "allgather does not depend on the layout", "statement": "allgather gives the whole array on every rank, for local arrays of any type and layout.", "quantifier": "all shapes, strides, ranks, item sizes and types", "why_tests_cant": "Layouts are unbounded.", "anchors": ["caput/mpiarray.py: MPIArray.allgather", "caput/mpiarray.py: MPIArray._prep_buf"]}
{"id": "C301", "title": "gather_local places sections", "statement": "gather_local puts the section of each rank, of any layout, at its place in a global array in C order and changes nothing else.", "quantifier": "all shapes, starts, strides, item sizes and numbers of ranks other than one, sections that do not overlap", "why_tests_cant": "Layouts are unbounded; needs several processes.", "anchors": ["caput/util/mpitools.py: gather_local"]}
{"id": "C302", "title": "gather_local into any array", "statement": "gather_local puts the sections at their places whatever the layout and type of the global array.", "quantifier": "all layouts and types", "why_tests_cant": "Layouts are unbounded.", "anchors": ["caput/util/mpitools.py: gather_local", "caput/util/mpitools.py: typemap"]}
{"id": "C303", "title": "One outcome in every order of events", "statement": "Programs of ranks that use their requests properly (nothing touches the buffer of a receive, nothing changes that of a send, before the wait) always end, and all runs end in the same state, whatever the order of events and whichever sends the library copies.", "quantifier": "all programs of sends, receives, waits, barriers and local computations, all numbers of ranks and schedules", "why_tests_cant": "There are unboundedly many schedules; a test sees one.", "anchors": ["caput/util/mpitools.py", "caput/mpiarray.py"]}
{"id": "C304", "title": "Redistribution in every order of events", "statement": "One or more redistributions after each other, with no barrier between them, neither deadlock nor mix up messages: they always end with no message left and with every rank holding its share over the last axis.", "quantifier": "all arrays, shapes, numbers of ranks from 2, sequences of axes, schedules and buffering", "why_tests_cant": "There are unboundedly many schedules; a test sees one.", "anchors": ["caput/mpiarray.py: MPIArray.redistribute"]}
{"id": "C305", "title": "transpose_blocks in every order of events", "statement": "The messages of transpose_blocks always end with every rank holding its part of the transposed blocks.", "quantifier": "all matrices, numbers of ranks from 2, schedules and buffering", "why_tests_cant": "There are unboundedly many schedules; a test sees one.", "anchors": ["caput/util/mpitools.py: transpose_blocks"]}
{"id": "C306", "title": "gather_local in every order of events", "statement": "gather_local, alone or with every rank as root once and no barrier (conversion of a distributed dataset to a common one), always ends with the sections of all ranks at the root.", "quantifier": "all sections, numbers of ranks, schedules and buffering", "why_tests_cant": "There are unboundedly many schedules; a test sees one.", "anchors": ["caput/util/mpitools.py: gather_local", "caput/memdata/_memh5.py: MemGroup.dataset_distributed_to_common"]}
{"id": "C307", "title": "CheckMPIEnvironment in every order of events", "statement": "The check of the environment always ends with the row of every rank received by every rank and no message left, though nothing waits for the sends.", "quantifier": "all numbers of ranks, schedules and buffering", "why_tests_cant": "There are unboundedly many schedules; a test sees one.", "anchors": ["caput/pipeline/tasklib/debug.py: CheckMPIEnvironment.setup"]}
{"id": "C308", "title": "gather in every order of events", "statement": "MPIArray.gather always ends with the parts of the other ranks right on the root; its own part is right or what the new array held before, and right if the library does not copy the messages of the root.", "quantifier": "all arrays, numbers of ranks, roots, schedules and buffering", "why_tests_cant": "There are unboundedly many schedules; a test sees one.", "anchors": ["caput/mpiarray.py: MPIArray.gather"]}
{"id": "C309", "title": "gather: the part of the root", "statement": "MPIArray.gather puts the right data into the part of the root itself, whatever happens when.", "quantifier": "all schedules and buffering", "why_tests_cant": "The root does not wait for its own message; a test sees one schedule.", "anchors": ["caput/mpiarray.py: MPIArray.gather"]}
{"id": "C310", "title": "Sinc windows", "statement": "sinc_window has ntap * lblock samples of the cardinal sine, lblock to the unit; the peak, 1, stands after half of them, samples whole blocks away are zero, both sides are alike and nothing exceeds the peak.", "quantifier": "all numbers of taps and lengths of blocks", "why_tests_cant": "Sizes are unbounded.", "anchors": ["caput/util/pfb.py: sinc_window"]}
{"id": "C311", "title": "Tapered windows", "statement": "sinc_hann and sinc_hamming are the sinc window times a raised cosine over all samples; a Hann window begins and ends with zero, neither exceeds the sinc window and Hamming leaves at least 8 percent.", "quantifier": "all numbers of taps and lengths of blocks", "why_tests_cant": "Sizes are unbounded.", "anchors": ["caput/util/pfb.py: sinc_hann, sinc_hamming"]}
{"id": "C312", "title": "Tapered windows are symmetric", "statement": "sinc_hann and sinc_hamming are symmetric, about their middle or about the peak of the sinc.", "quantifier": "all numbers of taps and lengths of blocks", "why_tests_cant": "The two factors are symmetric about different points, half a sample apart.", "anchors": ["caput/util/pfb.py: sinc_hann, sinc_hamming"]}
{"id": "C313", "title": "Loading the data of Skyfield", "statement": "The timescale and the ephemeris are each loaded once: later uses give the same object without asking. Until then each use tries the official source, and only after an OSError all files of the mirror in order and then once more; its outcome is that of the last call. The directory is the argument, else CAPUT_SKYFIELD_PATH, else in the package.", "quantifier": "all answers of loader and network, all sequences of uses", "why_tests_cant": "Depends on failures of the network at any moment.", "anchors": ["caput/astro/skyfield.py: SkyfieldWrapper.timescale, ephemeris, reload, __init__"]}
{"id": "C314", "title": "Reloading the data of Skyfield", "statement": "After reload the data used are the reloaded ones.", "quantifier": "all sequences of uses", "why_tests_cant": "Needs a use before the reload.", "anchors": ["caput/astro/skyfield.py: SkyfieldWrapper.reload"]}
{"id": "C315", "title": "Times for Skyfield", "statement": "unix_to_skyfield_time gives the date and the seconds since midnight of the same instant, also before 1970; skyfield_time_to_unix leads back as closely as datetimes of Skyfield go.", "quantifier": "all times of the years 1 to 9999", "why_tests_cant": "Times are unbounded.", "anchors": ["caput/astro/skyfield.py: unix_to_skyfield_time, skyfield_time_to_unix"]}
{"id": "C316", "title": "The direction of transit_RA", "statement": "The direction whose right ascension transit_RA gives is on the meridian and on the equator.", "quantifier": "all latitudes", "why_tests_cant": "Latitudes are real numbers.", "anchors": ["caput/astro/observer.py: Observer.transit_RA"]}
{"id": "C317", "title": "To disk and back", "statement": "to_disk of data in memory makes exactly the named file, with the data, and returns an object showing them; to_memory reads them back from HDF5; data in memory are returned as they are and distributed data refused.", "quantifier": "all data, files present and modes that do not create files", "why_tests_cant": "Contents are unbounded.", "anchors": ["caput/memdata/_memh5.py: MemDiskGroup.to_disk, to_memory"]}
{"id": "C318", "title": "to_disk creates the file as asked", "statement": "Keyword arguments of to_disk, e.g. mode, are used when the file is created.", "quantifier": "all modes", "why_tests_cant": "Needs a mode that creates a file.", "anchors": ["caput/memdata/_memh5.py: MemDiskGroup.to_disk, save"]}
{"id": "C319", "title": "to_disk copies data on disk", "statement": "Data that live on disk already are copied to the new file.", "quantifier": "all files", "why_tests_cant": "Needs an object on disk.", "anchors": ["caput/memdata/_memh5.py: MemDiskGroup.to_disk, save"]}
{"id": "C320", "title": "to_memory of data on disk", "statement": "to_memory returns a version of the data in memory.", "quantifier": "all data on disk", "why_tests_cant": "Needs zarr or a group in a file.", "anchors": ["caput/memdata/_memh5.py: MemDiskGroup.to_memory, from_file"]}
{"id": "C321", "title": "Removing together", "statement": "When several processes remove the same file or directory at the same time, it is gone in the end and none of them raises.", "quantifier": "all numbers of processes, directories of files, and orders of their steps", "why_tests_cant": "There are unboundedly many interleavings.", "anchors": ["caput/memdata/fileformats.py: remove_file_or_dir"]}
{"id": "C322", "title": "Queueing a template", "statement": "If the combinations of values give new directories that differ, template_queue submits each job once, in order; with overwrite=never no directory is ever submitted twice or over an existing job.", "quantifier": "all templates, variables, values and existing jobs", "why_tests_cant": "Numbers of variables and values are unbounded.", "anchors": ["caput/pipeline/runner/_scheduler/__init__.py: template_queue, queue", "caput/pipeline/runner/_core.py: _from_template"]}
{"id": "C323", "title": "Jobs of collective calls end in one way", "statement": "A job of ranks that make collective calls has no endless run; if the ranks share no files, all runs end in the same state, whatever the order of events.", "quantifier": "all programs of ranks, all numbers of ranks and all schedules", "why_tests_cant": "There are unboundedly many schedules; a test sees one.", "anchors": ["caput/util/mpitools.py: barrier, bcast, allreduce"]}
{"id": "C324", "title": "wrap", "statement": "MPIArray.wrap gives every rank the length of the whole axis and its own start if the local lengths are those of the even split, and raises AxisException on every rank otherwise; it never hangs.", "quantifier": "all numbers of ranks, local lengths and schedules", "why_tests_cant": "Numbers of ranks and lengths are unbounded; needs several processes.", "anchors": ["caput/mpiarray.py: MPIArray.wrap"]}
{"id": "C325", "title": "allreduce of one element each", "statement": "MPIArray.allreduce gives every rank the combination of the elements of all ranks, in order, if every rank has one element.", "quantifier": "all numbers of ranks, values and operations, also those that are not commutative", "why_tests_cant": "Numbers of ranks are unbounded; needs several processes.", "anchors": ["caput/mpiarray.py: MPIArray.allreduce"]}
{"id": "C326", "title": "allreduce of uneven arrays", "statement": "MPIArray.allreduce returns or raises on every rank.", "quantifier": "all distributions of elements", "why_tests_cant": "Needs several processes with different numbers of elements.", "anchors": ["caput/mpiarray.py: MPIArray.allreduce"]}
{"id": "C327", "title": "Memory for a redistribution", "statement": "If there is enough memory on every node redistribute goes on on every rank; if there is enough on none, all ranks raise.", "quantifier": "all numbers of ranks and nodes, sizes and memories", "why_tests_cant": "Needs several nodes.", "anchors": ["caput/mpiarray.py: MPIArray.redistribute", "caput/util/mpitools.py: can_allocate"]}
{"id": "C328", "title": "Nodes that disagree about memory", "statement": "redistribute returns or raises on every rank even if only some nodes have enough memory or a rank cannot read its memory.", "quantifier": "all memories of nodes", "why_tests_cant": "Needs several nodes of different memory.", "anchors": ["caput/mpiarray.py: MPIArray.redistribute", "caput/util/mpitools.py: can_allocate"]}
{"id": "C329", "title": "parallel_map and exceptions", "statement": "parallel_map gives the values in order to all ranks (or to the root) if no call raises; if one raises and the exception handler of MPI is enabled, the job ends.", "quantifier": "all lists, functions, numbers of ranks, methods con and alt, and schedules", "why_tests_cant": "Lists, ranks and schedules are unbounded.", "anchors": ["caput/util/mpitools.py: parallel_map", "caput/util/mpitools.py: enable_mpi_exception_handler"]}
{"id": "C330", "title": "parallel_map without the handler", "statement": "An exception of the function on one rank ends parallel_map on all ranks.", "quantifier": "all lists, functions and numbers of ranks", "why_tests_cant": "Needs several processes and a function that raises on one.", "anchors": ["caput/util/mpitools.py: parallel_map"]}
{"id": "C331", "title": "One decision about NaN", "statement": "All ranks take the same decision about an output: it is dropped exactly if checks and skipping are on and some rank has data that are not finite, and dumps are written by all ranks or none.", "quantifier": "all data of all ranks, settings and numbers of ranks", "why_tests_cant": "Numbers of ranks and datasets are unbounded.", "anchors": ["caput/pipeline/tasklib/base.py: SingleTask._nan_process_output, _nan_check_walk"]}
{"id": "C332", "title": "Ranks run the same task", "statement": "If all ranks have available tasks every rank runs the one rank 0 chose, whatever the others would have chosen; if none has, each runs its next one.", "quantifier": "all states of the managers, numbers of ranks and schedules", "why_tests_cant": "States are unbounded; needs several processes.", "anchors": ["caput/pipeline/_pipeline.py: Manager._next_task"]}
{"id": "C333", "title": "Ranks that differ in available tasks", "statement": "All ranks agree on the next task even if only some of them have available tasks.", "quantifier": "all states of the managers", "why_tests_cant": "Needs ranks with different queues.", "anchors": ["caput/pipeline/_pipeline.py: Manager._next_task"]}
{"id": "C334", "title": "Writing a distributed group together", "statement": "All ranks write the same distributed datasets in the same order; if one cannot be converted or the format is unknown all ranks raise.", "quantifier": "all groups, numbers of ranks and schedules", "why_tests_cant": "Groups are unbounded; needs several processes.", "anchors": ["caput/memdata/_memh5.py: _distributed_group_to_file"]}
{"id": "C335", "title": "Failing to write a distributed group", "statement": "If rank 0 cannot write the common part, all ranks raise.", "quantifier": "all errors of rank 0", "why_tests_cant": "Needs several processes and a full disk.", "anchors": ["caput/memdata/_memh5.py: _distributed_group_to_file"]}
{"id": "C336", "title": "Reading a distributed group together", "statement": "All ranks get the same groups, attributes and datasets as are in the file, common data read by rank 0 alone.", "quantifier": "all trees of groups and datasets, numbers of ranks and schedules", "why_tests_cant": "Trees are unbounded; needs several processes.", "anchors": ["caput/memdata/_memh5.py: _distributed_group_from_file"]}
{"id": "C337", "title": "Failing to read a distributed group", "statement": "If rank 0 cannot read a common dataset, all ranks raise.", "quantifier": "all files", "why_tests_cant": "Needs several processes and a damaged file.", "anchors": ["caput/memdata/_memh5.py: _distributed_group_from_file"]}
{"id": "C338", "title": "to_zarr together", "statement": "to_zarr writes the part of every rank once to one dataset made by rank 0 before, and the synchroniser is gone at the end; if the store is missing and must not be made, all ranks raise and nothing changes.", "quantifier": "all numbers of ranks, sizes, states of the store and schedules", "why_tests_cant": "There are unboundedly many schedules.", "anchors": ["caput/mpiarray.py: MPIArray.to_zarr"]}
{"id": "C339", "title": "One rank after the other", "statement": "_to_hdf5_serial lets the ranks write in order, never two with the file open at the same time, and ends with all parts in the dataset and the file closed.", "quantifier": "all numbers of ranks, states of the file and schedules", "why_tests_cant": "There are unboundedly many schedules.", "anchors": ["caput/mpiarray.py: MPIArray._to_hdf5_serial"]}
{"id": "C340", "title": "_to_hdf5_serial without a file", "statement": "_to_hdf5_serial ends on every rank if the file is missing and must not be made.", "quantifier": "all numbers of ranks", "why_tests_cant": "Needs several processes.", "anchors": ["caput/mpiarray.py: MPIArray._to_hdf5_serial"]}
{"id": "C341", "title": "Distributed output appears when complete", "statement": "While a distributed group is saved through lock_file the name of the output is at all times the old file or the complete new one, whatever rank fails when; without failures it is the new one and no temporary or lock file is left.", "quantifier": "all numbers of ranks, failures and schedules", "why_tests_cant": "There are unboundedly many schedules; a reader can look at any time.", "anchors": ["caput/memdata/_io.py: lock_file", "caput/pipeline/extensions/_extensions.py: write_output"]}
{"id": "C342", "title": "Output of several ranks that is not distributed", "statement": "Saving a group through lock_file works on every rank and leaves no files behind when a rank fails.", "quantifier": "all groups, failures and schedules", "why_tests_cant": "Needs two processes at the same time.", "anchors": ["caput/memdata/_io.py: lock_file", "caput/pipeline/extensions/_extensions.py: write_output"]}
{"id": "C343", "title": "The pipeline on all ranks", "statement": "If all ranks have the same tasks with the same keys and every method, called by all ranks together with arguments of the same shape, returns on all of them with outcomes of the same shape, then the whole pipeline runs on all ranks without a deadlock: the same methods are called in the same order on every rank, and all ranks end the same way.", "quantifier": "all pipelines, methods with any collective calls, numbers of ranks, products and schedules", "why_tests_cant": "Pipelines and schedules are unbounded; needs several processes.", "anchors": ["caput/pipeline/_pipeline.py: Manager._run_pipeline, Manager._next_task", "caput/pipeline/_pipeline.py: Task._pipeline_next, _pipeline_queue_product"]}
{"id": "C344", "title": "Ranks of a pipeline do what they do alone", "statement": "In such a job every rank of a pipeline whose tasks make no collective calls calls the methods with the arguments it would have alone, and ends in the same way.", "quantifier": "all pipelines, numbers of ranks and schedules", "why_tests_cant": "Pipelines and schedules are unbounded; needs several processes.", "anchors": ["caput/pipeline/_pipeline.py: Manager._run_pipeline, Manager._next_task"]}
{"id": "C345", "title": "A task without output on some ranks", "statement": "A pipeline runs to the end, and combines the outputs of the same call, also if a task gives None on some ranks only.", "quantifier": "all pipelines and outputs", "why_tests_cant": "Needs several processes and data that differ between them.", "anchors": ["caput/pipeline/_pipeline.py: Manager._next_task, Manager._run_pipeline"]}
{"id": "C346", "title": "Truncation of arrays to a relative precision", "statement": "bit_truncate_relative changes every finite entry v of an array to one that differs by at most |prec * v|, up to the rounding of that product, and keeps its sign.", "quantifier": "all arrays of float or double, precisions and orders of the loop; entries below the top binade and outside the band [2^-105, 2^-104) ([2^-972, 2^-971) for double)", "why_tests_cant": "Floating point numbers are too many to try; the order of the parallel loop varies.", "anchors": ["caput/util/truncate.pyx: bit_truncate_relative"]}
{"id": "C347", "title": "Entries that are not finite", "statement": "bit_truncate_relative replaces entries that are infinite or not a number by zeros of the same sign.", "quantifier": "all arrays, precisions and orders of the loop", "why_tests_cant": "Precisions and arrays are unbounded.", "anchors": ["caput/util/truncate.pyx: bit_truncate_relative"]}
{"id": "C348", "title": "Truncation of arrays by weights", "statement": "bit_truncate_weights changes an entry by at most the computed 1/sqrt of its inverse variance, and an entry of inverse variance zero by at most fallback * v up to rounding.", "quantifier": "all arrays of float or double, weights, fallbacks with fallback * v >= 0 and orders of the loop; entries below the top binade and outside the band of C346", "why_tests_cant": "Floating point numbers are too many to try; the order of the parallel loop varies.", "anchors": ["caput/util/truncate.pyx: bit_truncate_weights"]}
{"id": "C349", "title": "Arguments of the truncation", "statement": "The results of the array functions do not depend on the order of the parallel loop; they refuse other types, other numbers of axes, arrays that cannot be written and weights of another length; the functions of one number refuse exactly tolerances that are not a number.", "quantifier": "all arrays, types, shapes and orders of the loop", "why_tests_cant": "The order of the parallel loop varies from run to run.", "anchors": ["caput/util/truncate.pyx: bit_truncate_relative, bit_truncate_weights, bit_truncate_float, bit_truncate_double"]}
{"id": "C350", "title": "Truncation of complex numbers", "statement": "bit_truncate_max_complex changes the parts of each number of a row by at most the larger of prec times its modulus and prec_max_row times the largest modulus of the row, up to the rounding of these products and of the number to a float.", "quantifier": "all rows of numbers of modulus below 2^124, precisions between 0 and 1, parts outside [2^-106, 2^-103)", "why_tests_cant": "Floating point numbers are too many to try; three roundings add up.", "anchors": ["caput/util/truncate.pyx: bit_truncate_max_complex"]}
{"id": "C351", "title": "Not a number stays not a number", "statement": "The array functions leave numbers that are not finite as they are.", "quantifier": "all arrays", "why_tests_cant": "Special values are easily forgotten.", "anchors": ["caput/util/truncate.pyx: bit_truncate_relative"]}
{"id": "C352", "title": "Complex doubles", "statement": "bit_truncate_max_complex with precision 0 keeps the numbers, a part that is not a number does not change the other one, and large numbers keep their size.", "quantifier": "all rows", "why_tests_cant": "Special values are easily forgotten.", "anchors": ["caput/util/truncate.pyx: bit_truncate_max_complex"]}
{"id": "C353", "title": "Inverses of floats", "statement": "The inverse of a finite float x is the float nearest to 1/x if |x| > 2^-128 and 0 otherwise, although the quotient is computed in double and rounded again; the inverses of infinities are zeros of their sign, and NaN stays NaN.", "quantifier": "all floats", "why_tests_cant": "There are four thousand million floats.", "anchors": ["caput/algorithms/_invert_no_zero/_invert_no_zero.pyx: _invert_no_zero"]}
{"id": "C354", "title": "Inverses of doubles", "statement": "The inverse of a finite double x is the double nearest to 1/x if |x| > 2^-1024 and 0 if |x| < 2^-1024; the inverses of infinities are zeros of their sign, and NaN stays NaN.", "quantifier": "all doubles", "why_tests_cant": "There are too many doubles.", "anchors": ["caput/algorithms/_invert_no_zero/_invert_no_zero.pyx: _invert_no_zero"]}
{"id": "C355", "title": "Inverses are finite", "statement": "Finite doubles have finite inverses.", "quantifier": "all doubles", "why_tests_cant": "The exceptions are two of 2^64 doubles.", "anchors": ["caput/algorithms/_invert_no_zero/_invert_no_zero.pyx: _invert_no_zero"]}
{"id": "C356", "title": "Inverses of arrays", "statement": "invert_no_zero returns a new array of the same shape with the inverses of C353 and C354 of the elements, and changes nothing else.", "quantifier": "all arrays of float or double of any shape and layout, and orders of the parallel loop", "why_tests_cant": "Arrays, layouts and orders are unbounded.", "anchors": ["caput/algorithms/_invert_no_zero/__init__.py: invert_no_zero", "caput/algorithms/_invert_no_zero/_invert_no_zero.pyx: _invert_no_zero"]}
{"id": "C357", "title": "Inverses of integers", "statement": "The inverse of an integer n is the double nearest to 1/n if |n| <= 2^53, within 2^-51 of 1/n relative to it if |n| < 2^64, and 0 for 0.", "quantifier": "all integers of 64 bits", "why_tests_cant": "There are too many integers.", "anchors": ["caput/algorithms/_invert_no_zero/__init__.py: invert_no_zero"]}
{"id": "C358", "title": "Inverses of complex numbers", "statement": "The inverse of a finite complex number is 0 exactly if both parts are at most 2^-128 (below 2^-1024 for complex doubles) in size, and otherwise the quotient computed in double, rounded to nearest for complex floats.", "quantifier": "all complex numbers and quotients of the compiler", "why_tests_cant": "There are too many numbers.", "anchors": ["caput/algorithms/_invert_no_zero/_invert_no_zero.pyx: _invert_no_zero"]}
{"id": "C359", "title": "Inverses of numbers of Python", "statement": "invert_no_zero gives 0 for a zero that is an int, float or bool of Python and the nearest double to 1/x for others.", "quantifier": "all numbers of Python", "why_tests_cant": "Types of arguments are easily forgotten.", "anchors": ["caput/algorithms/_invert_no_zero/__init__.py: invert_no_zero"]}
{"id": "C360", "title": "Datetimes as doubles", "statement": "datetime_to_unix gives the double nearest to the exact UNIX time, and unix_to_datetime gives back the same datetime.", "quantifier": "all datetimes to the microsecond in UTC of the years 1698 to 2241", "why_tests_cant": "There are 10^16 microseconds; two roundings and one product of doubles are involved.", "anchors": ["caput/astro/time.py: datetime_to_unix, unix_to_datetime"]}
{"id": "C361", "title": "All datetimes as doubles", "statement": "unix_to_datetime(datetime_to_unix(dt)) is dt.", "quantifier": "all datetimes in UTC of the years 1 to 9999", "why_tests_cant": "The exceptions are far from the present.", "anchors": ["caput/astro/time.py: datetime_to_unix, unix_to_datetime"]}
{"id": "C362", "title": "The nearest microsecond", "statement": "unix_to_datetime converts every double from year 1 to year 9999 to the nearest datetime and refuses what is not finite.", "quantifier": "all doubles", "why_tests_cant": "There are too many doubles; the exceptions are near half microseconds.", "anchors": ["caput/astro/time.py: unix_to_datetime"]}
{"id": "C363", "title": "The time of the day as a double", "statement": "time_of_day of a double is the double nearest to the time of the day of its datetime, and of a datetime that of its hours, minutes, seconds and microseconds.", "quantifier": "all doubles that have a datetime; all datetimes in UTC of the years 1698 to 2241", "why_tests_cant": "There are too many doubles.", "anchors": ["caput/astro/time.py: time_of_day"]}
{"id": "C364", "title": "Quickselect under any arithmetic", "statement": "With two elements or more, the weighted quickselect reads nothing outside its arrays, ends, and returns one of the data or the mean of two of them, whatever the sums of the weights come out as: also with rounding, overflow, negative or infinite weights and NaN among data and weights. With one element it does exactly if the target is below the weight.", "quantifier": "all data types with an asymmetric comparison, all weight types and arithmetics, all arrays, quantiles and methods", "why_tests_cant": "Bounds checks are compiled out; arrays, special values and rounding errors combine without bound.", "anchors": ["caput/algorithms/median/weighted.pyx: _quickselect_weight, _max_non_zero, _min_non_zero, _quickselect, quantile"]}
{"id": "C365", "title": "Quickselect of one element", "statement": "The quantile of one number of any weight is that number.", "quantifier": "all weights that are doubles", "why_tests_cant": "Special values are easily forgotten.", "anchors": ["caput/algorithms/median/weighted.pyx: _quickselect_weight, quantile"]}
{"id": "C366", "title": "Weighted medians with doubles", "statement": "The weighted median of finite doubles is the exact one if the weights are multiples of one power of two whose sum is at most 2^53 times that power (for example integers or masks), also if all weights are zero.", "quantifier": "all arrays of at most 2^53 finite doubles, weights (double or integer) and methods", "why_tests_cant": "Arrays are unbounded, and ties are found by comparing rounded sums.", "anchors": ["caput/algorithms/median/weighted.pyx: _quickselect_weight, _quickselect, weighted_median"]}
{"id": "C367", "title": "Weighted medians with rounded sums", "statement": "The weighted median of finite doubles with weights that are nonnegative doubles, or integers, is the exact one.", "quantifier": "all weights", "why_tests_cant": "The exceptions need sums beyond 2^53 units of the smallest weight.", "anchors": ["caput/algorithms/median/weighted.pyx: _quickselect_weight, weighted_median"]}
{"id": "C368", "title": "Weighted quantiles up to rounding", "statement": "Every element of the weighted quantile of n finite doubles is an element of the row at which the cumulative weight passes the target q * total, but for 10 n / 2^53 of the total weight (and half the smallest positive double).", "quantifier": "all rows of 2 to 2^51 finite doubles with weights that are doubles, not negative, of total between 0 and 2^1022; all quantiles and methods", "why_tests_cant": "Arrays are unbounded, and the rounding errors of the sums and differences add up.", "anchors": ["caput/algorithms/median/weighted.pyx: _quickselect_weight, _quickselect, quantile"]}
{"id": "C369", "title": "Moving weighted medians with doubles", "statement": "If the weights are multiples of one power of two and sum to at most 2^51 of it in every window, then the moving weighted median with doubles returns in every cell the exact lower or higher weighted median of the window if the window has no tie, and for \"split\" the mean of the two, rounded once for the sum and once for the division.", "quantifier": "all arrays of finite doubles of one or two dimensions, all odd window sizes and methods; values below 2^1022 for \"split\"", "why_tests_cant": "Windows and arrays are unbounded; the sums are updated with each rotation of the tree.", "anchors": ["caput/algorithms/median/MedianTree.hpp: weighted_median, weighted_median_split, weighted_median_lower, weighted_median_higher, insert, remove", "caput/algorithms/median/weighted.pyx: moving_weighted_median, _mwm_1D, _mwm_2D"]}
{"id": "C370", "title": "Moving weighted medians of positive weights", "statement": "The moving weighted median of finite doubles with positive weights follows no null pointer.", "quantifier": "all finite data and positive weights", "why_tests_cant": "Only some combinations of weights round the wrong way.", "anchors": ["caput/algorithms/median/MedianTree.hpp: weighted_median"]}
{"id": "C371", "title": "Moving weighted medians of NaN", "statement": "The moving weighted median of doubles with positive weights raises no error.", "quantifier": "all data, also NaN", "why_tests_cant": "Whether a node is found again depends on the rotations of the tree.", "anchors": ["caput/algorithms/median/MedianTree.hpp: insert, remove", "caput/algorithms/median/weighted.pyx: _mwm_1D"]}
{"id": "C372", "title": "Moving weighted medians under rounding", "statement": "For any finite data and weights, of any sign and with any rounding of the sums, the moving weighted median finds every element again that leaves the window, and returns the mean of elements with weight of the window (one element for \"lower\" and \"higher\"), or NaN without them (0 in the first cell), unless it follows a null pointer.", "quantifier": "all arrays of finite doubles, all odd window sizes above 1 and methods", "why_tests_cant": "Arrays are unbounded and rounding errors accumulate in the tree.", "anchors": ["caput/algorithms/median/MedianTree.hpp: weighted_median, insert, remove, in_order_predecessor, in_order_successor", "caput/algorithms/median/weighted.pyx: moving_weighted_median, _mwm_1D"]}
{"id": "C373", "title": "Split medians in range", "statement": "The split moving weighted median of finite doubles is finite.", "quantifier": "all finite data", "why_tests_cant": "Needs values above half of the largest double.", "anchors": ["caput/algorithms/median/MedianTree.hpp: weighted_median_split"]}
{"id": "C374", "title": "Approximations of spherical Bessel functions", "statement": "The approximation for small arguments is the expansion of Debye (Gradshteyn and Ryzhik 8.452) to the second order without the term 385/1152 coth^6(a) / nu^2; the one for large arguments is the expansion 8.453 with the first term of each coefficient only.", "quantifier": "all real orders above -1/2 and all arguments below, respectively above, l + 1/2", "why_tests_cant": "Tests compare a few values with a tolerance.", "anchors": ["caput/astro/coordinates/bessel.py: _jl_approx_lowz, _jl_approx_highz"]}
{"id": "C375", "title": "Spherical Bessel functions near zero", "statement": "Where the approximation for small arguments is used, the function jl is within a tenth of the spherical Bessel function.", "quantifier": "all orders and arguments", "why_tests_cant": "The approximation is used for small orders only below 1e-6 l, where tests do not look.", "anchors": ["caput/astro/coordinates/bessel.py: jl, _jl_approx_lowz"]}
{"id": "C376", "title": "Native byte order", "statement": "ensure_native_byteorder changes no value; a scalar type with the byte order of the architecture written out becomes native and all others are left alone.", "quantifier": "all arrays, on both kinds of architecture", "why_tests_cant": "Tests run on one architecture.", "anchors": ["caput/util/typeutils.py: check_byteorder, has_matching_byteorder, ensure_native_byteorder"]}
{"id": "C377", "title": "Native byte order of fields", "statement": "ensure_native_byteorder leaves no part of a type with the byte order of the architecture written out.", "quantifier": "all arrays", "why_tests_cant": "Compound types are not tested.", "anchors": ["caput/util/typeutils.py: ensure_native_byteorder"]}
{"id": "C378", "title": "Global slices with a step, exactly", "statement": "The ranks together read or assign the slice of the whole array if and only if every rank whose block starts inside of the slice, behind its first element, starts at an element of it; each rank counts the steps from its own first element.", "quantifier": "all arrays of distinct elements (for assignments: without the new value), all numbers of ranks and slices with a positive step", "why_tests_cant": "Whether a step is right depends on the number of ranks and on the bounds together.", "anchors": ["caput/mpiarray.py: _global_resolver"]}
{"id": "C379", "title": "Lists of lists of files", "statement": "list_of_filelists returns the names found by each string one by one and, for each element of a list, the list of its names in order; it raises CaputConfigError exactly if some name cannot be found.", "quantifier": "all nested arguments and file systems in which patterns find readable names that are no patterns", "why_tests_cant": "Nested arguments and all file systems.", "anchors": ["caput/pipeline/tasklib/io.py: list_of_filelists, list_or_glob"]}
{"id": "C380", "title": "Moving weighted medians of planes under rounding", "statement": "For any finite data and weights, of any sign and with any rounding of the sums, every cell of the two-dimensional moving weighted median is the mean of elements with weight of its window (one element for \"lower\" and \"higher\"), or 0 without them, unless a null pointer is followed.", "quantifier": "all rectangular arrays of finite doubles, all pairs of odd window sizes and methods", "why_tests_cant": "Arrays are unbounded and rounding errors accumulate in the tree.", "anchors": ["caput/algorithms/median/weighted.pyx: _mwm_2D, _moving_weighted_median", "caput/algorithms/median/MedianTree.hpp: weighted_median, insert, remove"]}
{"id": "C381", "title": "Reading several files", "statement": "from_mult_files with a pattern joins the files that match it in the order of their names, along each time axis and for each dataset that is wanted; without files it raises IndexError, otherwise the first error of opening a file.", "quantifier": "all file systems, patterns, compatible files, axes, bounds in order and selections", "why_tests_cant": "File systems and files are unbounded.", "anchors": ["caput/containers/tod.py: TOData.from_mult_files, ensure_file_list, concatenate"]}
{"id": "C382", "title": "Reading in pieces", "statement": "Reading up to a bound and then from it on gives, put together, what reading at once gives: each index map of a time axis and each dataset.", "quantifier": "all compatible containers and triples of bounds in order along each axis", "why_tests_cant": "Bounds and lengths are unbounded, and differ between axes.", "anchors": ["caput/containers/tod.py: concatenate, _get_in_out_slice, _start_stop_inds"]}
{"id": "C383", "title": "Joining in stages", "statement": "If two groups of containers both have samples along each axis, joining each group and then the two results gives the index maps, datasets and attributes that joining all of them at once gives.", "quantifier": "all compatible containers, axes, bounds in order and selections", "why_tests_cant": "Groups and containers are unbounded.", "anchors": ["caput/containers/tod.py: concatenate, _copy_non_time_data"]}
{"id": "C384", "title": "Joining in stages, groups without samples", "statement": "Joining two groups of containers and then the results gives the datasets that joining all of them at once gives.", "quantifier": "all compatible containers", "why_tests_cant": "Needs a group without samples.", "anchors": ["caput/containers/tod.py: concatenate, _copy_non_time_data"]}
{"id": "C385", "title": "Moving medians and units", "statement": "Replacing the values u by c u + d with c other than 0 (c below 0 included) and the weights by positive multiples turns each moving weighted median v into c v + d.", "quantifier": "all data, non-negative weights, odd window sizes, c, d and multiples, method \"split\", windows with weight", "why_tests_cant": "Data and windows are unbounded.", "anchors": ["caput/algorithms/median/weighted.pyx: _mwm_1D, _moving_weighted_median", "caput/algorithms/median/MedianTree.hpp: weighted_median"]}
{"id": "C386", "title": "Moving medians and directions", "statement": "The moving weighted medians of the reversed data are the reversed ones, and those of the transposed plane with the window transposed are the transposed ones.", "quantifier": "all data, non-negative weights and odd window sizes, method \"split\", windows with weight", "why_tests_cant": "The tree is filled in another order, and planes are transposed inside of the function.", "anchors": ["caput/algorithms/median/weighted.pyx: _mwm_1D, _mwm_2D, _moving_weighted_median"]}
{"id": "C387", "title": "Moving medians and directions without weight", "statement": "The moving weighted medians of the reversed data are the reversed ones, windows without weight included.", "quantifier": "all data", "why_tests_cant": "Needs windows without weight at one end.", "anchors": ["caput/algorithms/median/weighted.pyx: _mwm_1D"]}
{"id": "C388", "title": "Truncating twice", "statement": "Truncating a float or double again with the same tolerance changes nothing, and neither does truncating an array again with the same weights, in any order of the iterations.", "quantifier": "all finite values below 2^127 (2^1023), outside of [2^-105, 2^-104) ([2^-972, 2^-971)), all finite tolerances that are not negative; all arrays with weights other than zero", "why_tests_cant": "There are too many pairs of words, and rounding to the next power of two changes the scale of the tolerance.", "anchors": ["caput/util/truncate.hpp: bit_truncate_float, bit_truncate_double", "caput/util/truncate.pyx: bit_truncate_weights"]}
{"id": "C389", "title": "Truncating twice with a relative precision", "statement": "Truncating an array again with the same relative precision changes nothing.", "quantifier": "all arrays and precisions", "why_tests_cant": "Needs a value whose tolerance is just below a power of two.", "anchors": ["caput/util/truncate.pyx: bit_truncate_relative"]}
{"id": "C390", "title": "Accumulations over several axes", "statement": "An accumulation of a distributed array (ufunc.accumulate) raises TypeError if no axis is given, and ValueError for several axes, also if axis=None stands for them.", "quantifier": "all distributed arrays, axes and ufuncs", "why_tests_cant": "Axis arguments and shapes are unbounded.", "anchors": ["caput/mpiarray.py: MPIArray.__array_ufunc__, _array_ufunc_accumulate"]}
{"id": "C391", "title": "Accumulations with axis=None", "statement": "An accumulation with axis=None of a distributed array of one axis is refused or gives the parts of the accumulation of the whole array.", "quantifier": "all distributed arrays of one axis", "why_tests_cant": "On one rank the result is right.", "anchors": ["caput/mpiarray.py: MPIArray.__array_ufunc__, _array_ufunc_accumulate"]}
{"id": "C392", "title": "Truncating tiny numbers", "statement": "A float below 2^-105 (a double below 2^-972) in absolute value is returned unchanged by the truncation, with any tolerance below 2^106 (2^973).", "quantifier": "all words of these ranges and all tolerances of either sign", "why_tests_cant": "Needs subnormal numbers or numbers below 1e-31 (1e-292), and the shift goes through an 8-bit exponent.", "anchors": ["caput/util/truncate.hpp: bit_truncate_float, bit_truncate_double, fast_pow"]}
{"id": "C393", "title": "Truncating numbers far below the tolerance", "statement": "A number more than 2^100 times smaller than the tolerance is truncated to zero.", "quantifier": "all floats and tolerances", "why_tests_cant": "Needs numbers at the lower end of the range.", "anchors": ["caput/util/truncate.hpp: bit_truncate_float"]}
{"id": "C394", "title": "Characters of JSON attributes", "statement": "The JSON text of an attribute consists of printable ASCII characters; any other character of a string is written as its code in four lower-case digits, but for the five with a letter of their own.", "quantifier": "all values made of numbers, texts, lists, dictionaries and arrays", "why_tests_cant": "Texts are unbounded and nest.", "anchors": ["caput/memdata/_memh5.py: copyattrs (2380-2421)"]}
{"id": "C395", "title": "Errors in configurations", "statement": "The text of an error about a block names the line the block starts on, and the file if it is known; SafeLineLoader.construct_mapping gives a mapping its line and the last value of each key. Of a document that was loaded no block has a line, so that errors about it show their message only.", "quantifier": "all documents, blocks, messages and files", "why_tests_cant": "Documents are unbounded trees.", "anchors": ["caput/config.py: _line_dict, SafeLineLoader.construct_mapping, CaputConfigError"]}
{"id": "C396", "title": "Lines in errors about loaded configurations", "statement": "An error about a block of a configuration that was loaded with SafeLineLoader shows the line the block starts on; an error with a file names the file.", "quantifier": "all documents", "why_tests_cant": "The tests of the loader compare contents only.", "anchors": ["caput/config.py: SafeLineLoader, CaputConfigError", "caput/pipeline/_pipeline.py: Manager.from_yaml_str, from_yaml_file, _setup_tasks"]}
