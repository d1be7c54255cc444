{"id": "C01", "title": "Compressed neighbour lists round-trip", "statement": "Pushing any neighbour list of at most 254 u32 ids (254 being the debug limit) into a compressed layer and reading it back yields the same ids, as a multiset, in ascending order; nothing is lost, invented or truncated, whichever internal representation (variable-byte or raw) is chosen.", "quantifier": "every sequence of pushes, every list length 0..254, every u32 value, every position read back", "why_tests_cant": "The encoder has value-dependent branches (raw vs. variable-byte, padding to four numbers, per-number byte width); the existing tests cover about eight hand-written lists.", "anchors": ["src/slice_vector/set_vector.rs: MultiSetVector::push, get, set_encode, decode_into, delta_encode, delta_decode"]}
{"id": "C02", "title": "Over-long neighbour lists are not silently corrupted", "statement": "A neighbour list longer than the one-byte count can express is either rejected or preserved, never silently shortened.", "quantifier": "every list length > 254, debug and release builds", "why_tests_cant": "The behaviour differs between build profiles and the limit is never approached by a test.", "anchors": ["src/slice_vector/set_vector.rs: set_encode"]}
{"id": "C03", "title": "Compressed offset table is a faithful list of offsets", "statement": "After any sequence of pushed slices the compressed slice vector has exactly that many slices and returns, at every index, exactly the slice pushed there; in particular at the 60-entry chunk boundaries. Offsets that decrease or jump by more than the delta type can hold are refused.", "quantifier": "every push sequence (any number of chunks) and every index", "why_tests_cant": "Chunk-boundary arithmetic (index+1 mod 60) must be right for all lengths; a sentinel value shares the delta range.", "anchors": ["src/slice_vector/offsets.rs: Chunk, Offsets::push, get, get_consecutive, len, CompressedVariableWidthSliceVector"]}
{"id": "C04", "title": "Compressed layer bytes round-trip", "statement": "Writing a compressed layer and loading it from the written bytes gives a layer with the same length and the same neighbour lists; the reported byte count is the number of bytes written.", "quantifier": "every compressed layer reachable by pushes", "why_tests_cant": "Needs all sizes, including partially filled last chunks and empty layers.", "anchors": ["src/slice_vector/offsets.rs: CompressedVariableWidthSliceVector::write, load_mmap", "src/slice_vector/set_vector.rs: MultiSetVector::write, from_bytes"]}
{"id": "C05", "title": "Builder layer to compressed layer conversion preserves the graph", "statement": "Saving a fixed-width (builder) layer in compressed form and loading it back yields a layer with the same number of nodes in which every node has exactly the neighbours it had, sorted by id; the pre-computed size of the offset table always matches what is written, so saving never trips its internal size assertion.", "quantifier": "every layer, every width < 255, every number of nodes, any cursor position", "why_tests_cant": "The pre-computed table size must match for every node count; tests try three sizes.", "anchors": ["src/slice_vector/set_vector.rs: FixedWidthSliceVector::write_as_multi_set_vector", "src/index/io.rs: write_index"]}
{"id": "C06", "title": "Saved index loads back as the same graph", "statement": "For every index, write_index followed by from_bytes succeeds and the loaded index has the same number of layers, the same layer lengths and, for every node of every layer, the same neighbour set.", "quantifier": "every number of layers (that fits the metadata block), every layer content, builder and compressed layers alike", "why_tests_cant": "The file layout is assembled with seeks, per-layer sizes in a JSON header and a fixed-size header block; correctness must hold for all sizes.", "anchors": ["src/index/io.rs: write_index, load_layers, read_layer_sizes", "src/index/mod.rs: Granne::from_bytes, Index"]}
{"id": "C07", "title": "Metadata block never overflows", "statement": "Writing an index never fails merely because it has many layers: the metadata always fits its 1024-byte block.", "quantifier": "every number of layers and every layer size", "why_tests_cant": "Depends on the total number of decimal digits of all layer counts and sizes; tests use at most 4 layers.", "anchors": ["src/index/io.rs: write_index (assert metadata.len() <= METADATA_LEN)"]}
{"id": "C08", "title": "Search results do not depend on the stored order of neighbours", "statement": "Searching a saved-and-reloaded index (neighbours sorted by id) returns exactly the same ids, distances and order as searching the in-memory index it was saved from (neighbours in insertion order).", "quantifier": "every graph, query, max_search and num_neighbors", "why_tests_cant": "Equality of search output over all graphs is not testable; it rests on an order-independence argument about the search loop.", "anchors": ["src/index/mod.rs: search_for_neighbors, search_internal, Graph impls"]}
{"id": "C09", "title": "Re-opened builder has the saved graph", "statement": "A GranneBuilder created from a saved index has the saved layers with every node's neighbours preserved when the configured num_neighbors is at least the stored degree; otherwise exactly the num_neighbors smallest ids are kept; in either case building can continue.", "quantifier": "every saved index and every configured num_neighbors >= 1", "why_tests_cant": "Ranges over all indexes and configuration values.", "anchors": ["src/index/mod.rs: GranneBuilder::from_bytes"]}
{"id": "C10", "title": "Vector collections round-trip through bytes", "statement": "Writing a collection of dense vectors and loading it from the written bytes gives a collection of the same dimension, length and contents; this includes the empty collection.", "quantifier": "every dimension, length, content (f32 bit patterns or i8)", "why_tests_cant": "All sizes including the empty collection, for which the loader's precondition differs.", "anchors": ["src/slice_vector/mod.rs: FixedWidthSliceVector::write, from_bytes, load_mmap", "src/elements/dense_vector.rs: Vectors::from_bytes"]}
{"id": "C11", "title": "Reported byte counts equal bytes written", "statement": "Every writer that returns Ok(n) on success has appended exactly n bytes (Writeable: 'returns Ok(num_bytes_written)').", "quantifier": "every collection and every write entry point", "why_tests_cant": "Return values are ignored by the tests except one.", "anchors": ["src/io.rs: Writeable", "src/slice_vector/mod.rs: FixedWidthSliceVector::write, VariableWidthSliceVector::write, write_range"]}
{"id": "C12", "title": "Variable-width collections behave as a list of slices", "statement": "Under any sequence of push and extend operations a variable-width slice vector behaves as the list of slices pushed: length, every get, iteration order.", "quantifier": "every operation sequence", "why_tests_cant": "Operation sequences are unbounded.", "anchors": ["src/slice_vector/mod.rs: VariableWidthSliceVector::push, extend_from_slice_vector, get, iter, len"]}
{"id": "C13", "title": "Variable-width collections and their sub-ranges round-trip through bytes", "statement": "Writing a variable-width collection, or any sub-range [begin,end) of it, and loading the bytes gives exactly those slices.", "quantifier": "every collection and all begin <= end <= len", "why_tests_cant": "All ranges and sizes; offsets are re-based.", "anchors": ["src/slice_vector/mod.rs: VariableWidthSliceVector::write, write_range, load_mmap"]}
{"id": "C14", "title": "Fixed-width to variable-width conversion preserves filtered slices", "statement": "write_as_variable_width_slice_vector produces bytes that load as the collection of slices filtered by the predicate, for every predicate and size, although offsets and values are written in interleaved chunks with seeks; the returned count is the number of bytes produced.", "quantifier": "every fixed-width vector and predicate, any starting cursor position", "why_tests_cant": "Chunked seek-and-write logic; chunk counts depend on the length.", "anchors": ["src/slice_vector/mod.rs: write_as_variable_width_slice_vector"]}
{"id": "C15", "title": "Fixed-width collections behave as a list of equally long slices", "statement": "Under any sequence of push, extend, resize, in-place update, the fixed-width slice vector behaves as a list of slices of one width; pushing a slice of another width is refused and get_two_mut returns the two requested slices.", "quantifier": "every operation sequence", "why_tests_cant": "Unbounded operation sequences.", "anchors": ["src/slice_vector/mod.rs: FixedWidthSliceVector::push, extend_from_slice_vector, resize, get, get_mut, get_two_mut, subslice, iter"]}
{"id": "C16", "title": "In-place permutation is correct and terminates", "statement": "permute(p) for a permutation p moves the slice at p[i] to i for every i, changes nothing else and terminates.", "quantifier": "every permutation of every length, every width >= 1", "why_tests_cant": "Cycle-following over all permutations; tests use one random shuffle.", "anchors": ["src/slice_vector/mod.rs: FixedWidthSliceVector::permute", "src/elements/dense_vector.rs: Permutable for Vectors"]}
{"id": "C17", "title": "Odd-width integers round-trip", "statement": "Three- and five-byte integers store and return every value below 2^24 / 2^40 exactly and refuse larger values rather than truncating them; embedding ids and element offsets inherit this.", "quantifier": "every usize value", "why_tests_cant": "2^64 inputs.", "anchors": ["src/odd_byte_int.rs: ThreeByteInt, FiveByteInt", "src/elements/embeddings/mod.rs: push, get_terms"]}
{"id": "C18", "title": "Typed views of loaded bytes stay inside the buffer", "statement": "Loading an index or collection from arbitrary bytes either fails or yields typed views that lie inside the buffer and are suitably aligned for their element type.", "quantifier": "every byte buffer", "why_tests_cant": "Arbitrary/corrupt input and memory layout.", "anchors": ["src/io.rs: load_bytes_as", "src/index/io.rs: load_layers", "src/slice_vector/offsets.rs: Offsets::load"]}
{"id": "C19", "title": "Search results are well-formed", "statement": "Search returns at most min(num_neighbors, max_search) entries, all ids are indexed nodes, no id occurs twice, entries are sorted by (distance, id), and each reported distance is the container's distance of that element to the query.", "quantifier": "every well-formed index, query, max_search >= 1, num_neighbors, and any distance function (no metric axioms)", "why_tests_cant": "Universally quantified over graphs and distance functions.", "anchors": ["src/index/mod.rs: Granne::search, search_internal, find_entrypoint, search_for_neighbors", "src/max_size_heap.rs"]}
{"id": "C20", "title": "Search terminates, does not panic and finds something", "statement": "On every well-formed non-empty index with max_search >= 1, search terminates without panicking and, for num_neighbors >= 1, returns at least one result; on an empty index it returns the empty list.", "quantifier": "every well-formed index incl. cyclic graphs, any distance function", "why_tests_cant": "Termination on every graph.", "anchors": ["src/index/mod.rs: search_for_neighbors, find_entrypoint"]}
{"id": "C21", "title": "Exhaustive search is exact", "statement": "If max_search is at least the number of nodes reachable from the entry point in the bottom layer, search returns exactly the num_neighbors nearest reachable nodes (ties broken by id).", "quantifier": "every well-formed index and distance function", "why_tests_cant": "A completeness claim over all graphs.", "anchors": ["src/index/mod.rs: search_for_neighbors"]}
{"id": "C22", "title": "Returned set is closed under improvement", "statement": "Every neighbour of every node in the (untruncated) result is itself in the result or is at least as far from the query as the farthest returned node, and in the latter case the result holds max_search entries; the nearest result is never farther than the entry point.", "quantifier": "every well-formed index, query, max_search", "why_tests_cant": "Local-optimality over all graphs.", "anchors": ["src/index/mod.rs: search_for_neighbors", "src/max_size_heap.rs: MaxSizeHeap::push"]}
{"id": "C23", "title": "max_search = 0 is handled", "statement": "Calling search with max_search = 0 returns an empty result rather than panicking.", "quantifier": "every non-empty index", "why_tests_cant": "No test uses 0; it is a value a user can pass.", "anchors": ["src/index/mod.rs: search_for_neighbors (res.peek().unwrap())"]}
{"id": "C24", "title": "Bounded heap keeps the smallest elements", "statement": "Under any push sequence a bounded heap of size m holds exactly the m smallest elements pushed (as a multiset), push reports whether the element was kept, and it is output in ascending order.", "quantifier": "every push sequence and every m >= 1", "why_tests_cant": "Unbounded operation sequences.", "anchors": ["src/max_size_heap.rs: MaxSizeHeap"]}
{"id": "C25", "title": "Neighbour selection heuristic", "statement": "Selecting neighbours from candidates sorted by distance returns at most max_neighbors of them, in order, always keeps the nearest, keeps all when they fit, and otherwise a candidate is kept iff fewer than max_neighbors are already kept and it is at least as close to the element as to every kept candidate.", "quantifier": "every candidate list, container and limit", "why_tests_cant": "Greedy procedure over arbitrary lists.", "anchors": ["src/index/mod.rs: select_neighbors"]}
{"id": "C26", "title": "Neighbour lists stay well-formed under every schedule", "statement": "During and after a build with any number of threads, every neighbour list contains only ids of nodes of that layer, never the node itself, and no entry appears behind an unused slot; after the build no list exceeds the configured num_neighbors (half of it, at least 1, on upper layers).", "quantifier": "every interleaving of element insertions at lock granularity, every container, every starting layer that is well-formed", "why_tests_cant": "Thread schedules cannot be enumerated by tests.", "anchors": ["src/index/mod.rs: index_elements, index_element, connect_nodes, initialize_node, add_and_limit_neighbors"]}
{"id": "C27", "title": "No duplicate neighbours under every schedule", "statement": "No neighbour list ever contains the same id twice, for any number of threads.", "quantifier": "every interleaving of element insertions", "why_tests_cant": "There is an unlocked check (row empty?) followed by a separately locked write; whether another thread can intervene depends on the schedule.", "anchors": ["src/index/mod.rs: index_element, initialize_node, connect_nodes"]}
{"id": "C28", "title": "Building never deadlocks and every schedule finishes", "statement": "Whatever the interleaving, the element-insertion tasks of a layer always all finish after finitely many steps; no task ever waits for a lock while holding another.", "quantifier": "every schedule", "why_tests_cant": "Deadlock and termination over all schedules.", "anchors": ["src/index/mod.rs: index_elements, index_element"]}
{"id": "C29", "title": "Building never panics", "statement": "Building with num_neighbors >= 1 and max_search >= 1 never panics, in any schedule, in release builds; in debug builds as well.", "quantifier": "every interleaving, both build profiles", "why_tests_cant": "A debug assertion re-reads shared state that another thread may have changed.", "anchors": ["src/index/mod.rs: index_element, initialize_node (debug_assert_eq)"]}
{"id": "C30", "title": "build_partial indexes exactly the requested prefix", "statement": "After build_partial(n) with len() <= n <= num_elements(), n > 0, the index length is exactly n; requests outside that range are refused and leave no partial effect; build() indexes everything; build_partial(0) does nothing.", "quantifier": "every history of push / build_partial / build calls, every layer-size schedule, every thread schedule", "why_tests_cant": "Histories are unbounded.", "anchors": ["src/index/mod.rs: Builder::build_partial, build, index_elements_in_last_layer"]}
{"id": "C31", "title": "Later builds only touch the last existing layer and add new ones", "statement": "Building further never changes any layer except the last one existing before the call (which may grow), and layer lengths are non-decreasing from the first to the last layer.", "quantifier": "every history of builds", "why_tests_cant": "History property.", "anchors": ["src/index/mod.rs: build_partial, index_elements_in_last_layer"]}
{"id": "C32", "title": "Layer sizes", "statement": "For a layer multiplier m > 1 the layer sizes are positive, non-decreasing with the layer index, never exceed the number of elements, reach it at layer floor(log_m n), and grow by a factor m up to rounding up (in floating point all this up to a relative error of 2^-38).", "quantifier": "every n >= 1, every m > 1, every layer index", "why_tests_cant": "Infinite domain; floating-point formula.", "anchors": ["src/index/mod.rs: compute_num_elements_in_layer"]}
{"id": "C33", "title": "Building terminates for every layer multiplier", "statement": "build() terminates for every configured layer_multiplier.", "quantifier": "every f32 multiplier", "why_tests_cant": "Divergence cannot be observed by a finite test; tests use multipliers > 1 only.", "anchors": ["src/index/mod.rs: build_partial loop, compute_num_elements_in_layer", "src/index/mod.rs: BuildConfig::layer_multiplier"]}
{"id": "C34", "title": "Ids never collide with the unused marker", "statement": "A builder never holds more than 2^32-2 elements, so no element id equals the reserved 'unused' id, and no id is truncated when stored as u32.", "quantifier": "every history of constructions and pushes", "why_tests_cant": "Cannot push 2^32 elements in a test.", "anchors": ["src/index/mod.rs: GranneBuilder::new, push, UNUSED", "src/lib.rs (documented limit)"]}
{"id": "C35", "title": "Pushed elements are invisible until built and ids are stable", "statement": "push appends the element with id num_elements() and changes neither len() nor any neighbour list; element ids never change afterwards.", "quantifier": "every history", "why_tests_cant": "History property.", "anchors": ["src/index/mod.rs: GranneBuilder::push"]}
{"id": "C36", "title": "Zero elements are never linked", "statement": "An element whose distance to itself exceeds the threshold (a zero vector) gets no neighbours of its own from its insertion and inserting it changes no neighbour list; an element more than half of whose selected neighbours are duplicates of it is not linked either.", "quantifier": "every layer state, container", "why_tests_cant": "Needs all states.", "anchors": ["src/index/mod.rs: index_element (early returns)"]}
{"id": "C37", "title": "reorder_by_keys returns a layer-preserving sorted permutation", "statement": "The returned order is a permutation of all ids, maps each layer's new nodes into that layer's id range, and within each range ids are sorted by (key, id).", "quantifier": "every index, every key assignment", "why_tests_cant": "All key functions.", "anchors": ["src/index/reorder.rs: reorder_by_keys"]}
{"id": "C38", "title": "reorder returns a layer-preserving permutation fixing the first layer", "statement": "reorder() returns a permutation of all ids that fixes every id of layer 0 and keeps every layer's id range.", "quantifier": "every well-formed index with at least two layers, any distance function", "why_tests_cant": "All indexes.", "anchors": ["src/index/reorder.rs: compute_order, find_entrypoint_trail"]}
{"id": "C39", "title": "Reordering is a graph isomorphism and moves the elements along", "statement": "After a reorder with returned permutation p, node i has exactly the neighbours of old node p[i] renamed by the inverse of p, in every layer, and get_element(i) is the old get_element(p[i]).", "quantifier": "every index, permutation and layer", "why_tests_cant": "All permutations and graphs.", "anchors": ["src/index/reorder.rs: reorder_layers, reorder_layer, get_reverse_mapping", "src/elements: Permutable"]}
{"id": "C40", "title": "Search commutes with reordering", "statement": "Searching the reordered index returns the same elements, renamed, with the same distances.", "quantifier": "every index, query and search parameters", "why_tests_cant": "Equivalence over all graphs; depends on ties and on the fixed entry point 0.", "anchors": ["src/index/reorder.rs: reorder (documented example)", "src/index/mod.rs: find_entrypoint"]}
{"id": "C41", "title": "Reordering works for every index", "statement": "reorder() succeeds on every index a builder can produce, including single-layer indexes and indexes covering only part of their elements.", "quantifier": "every index", "why_tests_cant": "Boundary shapes (one layer, partial) are not tested.", "anchors": ["src/index/reorder.rs: compute_order (num_layers() - 2), permute length assertion"]}
{"id": "C42", "title": "Concurrent inserts get unique, consecutive, correct ids", "statement": "Across any interleaving of insert and insert_batch calls, every returned id is unique, the element stored at that id is the one inserted, ids returned by one batch are increasing, earlier elements are never moved or overwritten, and the number of elements never exceeds max_elements.", "quantifier": "every set of concurrent calls and every interleaving of their critical sections", "why_tests_cant": "Schedules.", "anchors": ["src/index/rw/mod.rs: insert, insert_batch"]}
{"id": "C43", "title": "Concurrent builder capacity invariant", "statement": "The current layer always has room for all elements (len() <= current layer length) and insert never trips its assertion; a batch is accepted in full as long as max_elements is not reached.", "quantifier": "every history and interleaving", "why_tests_cant": "Schedules and layer boundaries.", "anchors": ["src/index/rw/mod.rs: insert_batch, new"]}
{"id": "C44", "title": "Saving concurrently with inserting does not deadlock", "statement": "Threads calling insert_batch, search and write on one concurrent builder can always make progress.", "quantifier": "every interleaving", "why_tests_cant": "A deadlock needs a particular schedule and a batch that spans a layer boundary.", "anchors": ["src/index/rw/mod.rs: insert_batch (recursive call holding write_lock.read()), write"]}
{"id": "C45", "title": "A saved concurrent builder is a consistent snapshot", "statement": "write() never observes a half-finished insertion: the saved index has exactly as many nodes as elements saved, and every saved element has been through indexing.", "quantifier": "every interleaving of insert_batch, search and write", "why_tests_cant": "Schedules.", "anchors": ["src/index/rw/mod.rs: write, insert_batch"]}
{"id": "C46", "title": "Concurrent builder search finds inserted elements", "statement": "Searching a concurrent builder that contains at least one element returns at least one result.", "quantifier": "every number of inserted elements and every max_elements", "why_tests_cant": "Depends on how many layers exist; the test ignores the result.", "anchors": ["src/index/rw/mod.rs: search"]}
{"id": "C47", "title": "A successful save means the bytes were written", "statement": "If write_index returns Ok, all bytes of the index have reached the underlying writer.", "quantifier": "every writer failure point", "why_tests_cant": "Fault injection at every write call.", "anchors": ["src/index/io.rs: write_index (BufWriter dropped without flush)"]}
{"id": "C48", "title": "Crash while saving is detected", "statement": "If the process stops at any point while saving to a fresh file, loading that file fails rather than returning a wrong index; and an existing saved index survives an interrupted re-save.", "quantifier": "every crash point (prefix of the byte writes, in program order)", "why_tests_cant": "Every crash point.", "anchors": ["src/index/io.rs: write_index, load_layers", "src/index/rw/mod.rs: save_index_and_elements_to_disk"]}
{"id": "C49", "title": "Sum embeddings: stored terms and their sums", "statement": "push then get_terms returns the pushed ids; the embedding of an element equals the embedding created from its terms, which is the left-to-right componentwise sum of its term vectors (zero vector when empty).", "quantifier": "every element, every id < 2^24, any number of terms", "why_tests_cant": "All element lists.", "anchors": ["src/elements/embeddings/mod.rs: SumEmbeddings::push, get_terms, get_embedding, create_embedding, get_embedding_internal"]}
{"id": "C50", "title": "Sum embeddings permute", "statement": "permute(p) puts old element p[i] at position i, for every length (the work is split into chunks).", "quantifier": "every permutation and length", "why_tests_cant": "Chunk boundary at 10,000 elements is never crossed by a test.", "anchors": ["src/elements/embeddings/mod.rs: Permutable for SumEmbeddings"]}
{"id": "C51", "title": "Dot product kernel computes the dot product", "statement": "The chunked dot product kernel sums x[i]*y[i] over all positions for equally long inputs (exactly, in exact arithmetic); vectors of different dimension are rejected.", "quantifier": "every length (any remainder modulo 32) and all values", "why_tests_cant": "All lengths; tests compare up to 100 with a tolerance.", "anchors": ["src/math.rs: dot_product_f32, dot_product_and_squared_norms_i8, sum_into_f32"]}
{"id": "C52", "title": "Quantised distance is well-behaved", "statement": "The int8 angular distance is never NaN, never negative, symmetric, at most 2 up to rounding, equals 1 against a zero vector, and its integer accumulators do not overflow for dimensions up to 131071.", "quantifier": "all pairs of i8 vectors of equal dimension", "why_tests_cant": "2^(16 dim) inputs.", "anchors": ["src/elements/angular_int.rs: Dist for Vector", "src/math.rs: dot_product_and_squared_norms_i8"]}
{"id": "C53", "title": "Quantisation maps into [-127,127]", "statement": "Converting a finite f32 vector to int8 maps every component into [-127,127] preserving sign and order, and maps the component of largest magnitude to +-127; it does not panic.", "quantifier": "every finite f32 vector", "why_tests_cant": "All bit patterns; rounding cases.", "anchors": ["src/elements/angular_int.rs: Vector::quantize"]}
{"id": "C54", "title": "f32 angular distance is well-behaved", "statement": "The f32 angular distance is never negative, symmetric, and 1 against a zero vector; it panics only if the dot product is NaN.", "quantifier": "all pairs of f32 vectors of equal dimension", "why_tests_cant": "All bit patterns.", "anchors": ["src/elements/angular.rs: Dist for Vector"]}
{"id": "C55", "title": "Shards partition the elements", "statement": "Writing parsed elements into num_shards files produces shards whose concatenation is exactly the element collection; it never panics for num_shards >= 1.", "quantifier": "every number of elements and shards", "why_tests_cant": "Boundary: ceil division leaves late shards starting past the end.", "anchors": ["src/elements/embeddings/parsing.rs: parse_elements_and_save_shards_to_disk"]}
{"id": "C56", "title": "Chunked embedding export equals the whole", "statement": "compute_embeddings_and_save_to_disk produces exactly the bytes of writing the whole converted collection at once.", "quantifier": "every number of elements", "why_tests_cant": "Chunk arithmetic for all lengths.", "anchors": ["src/elements/embeddings/parsing.rs: compute_embeddings_and_save_to_disk"]}
{"id": "C57", "title": "Word dictionary is a consistent bijection", "statement": "After any sequence of pushes, words and ids correspond one-to-one, pushing an existing word is refused without effect, and converting ids to text and back returns the ids (for words without whitespace).", "quantifier": "every push sequence and id list", "why_tests_cant": "Unbounded histories.", "anchors": ["py/src/variants/mod.rs: WordDict"]}
{"id": "C58", "title": "Extending by an empty collection is a no-op", "statement": "Extending a vector collection by an empty collection leaves it unchanged.", "quantifier": "every collection", "why_tests_cant": "Boundary never tested.", "anchors": ["src/elements/dense_vector.rs: Vectors::extend", "src/slice_vector/mod.rs: FixedWidthSliceVector::extend_from_slice_vector"]}
{"id": "C59", "title": "Reordering keys", "statement": "compute_keys_for_reordering returns one key per element, holding its (up to eight) term ids with largest norm in non-increasing norm order, padded with 0.", "quantifier": "every collection", "why_tests_cant": "All inputs.", "anchors": ["src/elements/embeddings/reorder.rs: compute_keys_for_reordering"]}
{"id": "C60", "title": "Inserting an element links it", "statement": "Inserting an element that is neither zero nor mostly surrounded by duplicates links it, in both directions, with exactly the neighbours selected among the results of a search; lists with room gain the element, full lists are selected anew, and no other list changes. Under every interleaving a link is lost only from a list that is full.", "quantifier": "every layer state, element, schedule and moment of a build", "why_tests_cant": "All interleavings and all layer states; tests only look at recall.", "anchors": ["src/index/mod.rs: index_element, connect_nodes, initialize_node, add_and_limit_neighbors"]}
{"id": "C61", "title": "Parsing elements from text", "statement": "Parsing files of JSON strings yields one element per line, in file and line order, holding the ids of the known words after the last colon of the text; a word listed twice in the word file has the last of its ids; a line that is no JSON string or an id of 2^24 or more panics.", "quantifier": "every list of files, word file and text", "why_tests_cant": "All texts, Unicode whitespace and line endings.", "anchors": ["src/elements/embeddings/parsing.rs: parse_words, parse_file, parse_elements_in_directory_or_file, parse_elements_and_save_to_disk"]}
{"id": "C62", "title": "Python word embeddings stay aligned", "statement": "After any sequence of appends, the embedding of a text is the sum of the vectors of its known words, each word having the vector it was first appended with; appending a known word is refused without effect; a refused append leaves no trace.", "quantifier": "every sequence of appends and every text", "why_tests_cant": "Unbounded histories, including refused calls.", "anchors": ["py/src/embeddings.rs: Embeddings::append, get_embedding", "py/src/variants/mod.rs: WordDict"]}
{"id": "C63", "title": "Normalised vectors and angles", "statement": "An f32 vector is stored divided by its length, up to rounding; the distance between two stored vectors is one minus the cosine of the angle between the vectors given, up to an explicit error growing with the dimension; zero vectors are stored unchanged; a non-zero vector is never mistaken for a zero vector.", "quantifier": "all finite f32 vectors of all dimensions", "why_tests_cant": "All bit patterns and dimensions: rounding errors, underflow and overflow; tests use a handful of random vectors.", "anchors": ["src/math.rs: normalize_f32, dot_product_f32", "src/elements/angular.rs: From<Vec<f32>> for Vector, Dist for Vector", "src/index/mod.rs: index_element (zero vector test)"]}
{"id": "C64", "title": "Vector collections work as element containers", "statement": "A collection of int8 or normalised f32 vectors of one dimension meets everything the index builder relies on: no operation on its elements panics, exactly the zero vectors are left out of the graph, and no release-mode history of pushes and builds over it panics; the collection then holds exactly the vectors pushed, in order.", "quantifier": "every collection, every history of push and build calls, every schedule", "why_tests_cant": "All vectors, histories and interleavings.", "anchors": ["src/elements/dense_vector.rs", "src/elements/angular.rs", "src/elements/angular_int.rs", "src/index/mod.rs: GranneBuilder"]}
{"id": "C65", "title": "Small collections are searched exactly", "statement": "While every node has room for all other nodes of its layer (with the defaults: up to 31 elements) and no element has more near-duplicates than the tolerated number, every element that is not a zero vector can be reached from every other in every layer, and a search with max_search at least the number of indexed elements returns exactly the nearest of all of them, for every query. Collections of at most 1 + num_neighbors/4 elements need no further condition. When lists overflow, or with more duplicates, this fails.", "quantifier": "all collections, histories of pushes and builds, schedules and queries", "why_tests_cant": "Every interleaving of the insertions, every history, every query.", "anchors": ["src/index/mod.rs: index_element, initialize_node, connect_nodes, limit_number_of_neighbors, search_internal"]}
{"id": "C66", "title": "What is built can be searched, saved, loaded and reordered", "statement": "After any history of pushes and builds, complete or partial, under any schedules: searching with a positive max_search succeeds and returns well-formed results over the indexed elements, at least one if there is any; writing the index and loading it back succeeds (lists of up to 254 ids, up to 25 layers) and every search of the loaded index returns the same; reordering a complete index of two layers or more succeeds and moves nodes and elements alike. For int8 and f32 vectors the index and vector files together give the same answers, each being the stored vector's distance. The number of layers is bounded by the first layer size that takes all elements; with the default multiplier it is at most 9, with any of at least 2.5 at most 25.", "quantifier": "all histories, schedules, collections, queries and files written to", "why_tests_cant": "Composes all modules: every build history and interleaving, every query.", "anchors": ["src/index/mod.rs: GranneBuilder, Granne", "src/index/io.rs", "src/index/reorder.rs", "src/elements/dense_vector.rs", "src/io.rs"]}
{"id": "C67", "title": "The Python classes work from the first append to searching the saved files", "statement": "A GranneBuilder made in Python (any element type) accepts any sequence of append and build calls on admissible values; append and build() never fail (given enough layers and a fair schedule); afterwards num_elements and len are right, the index and the elements can be saved, Granne opens the files, has the same length and the same neighbours, returns for every index the appended value (normalised, quantised, or for texts its vector and its known words), and every search, with given or default arguments, returns at most the number asked for, closest first, no index twice, each with the distance compute_distance gives between the appended value and the query (for texts: between their vectors).", "quantifier": "all element types, options, sequences of append/build/build(n) calls and thread interleavings, all finite vectors / texts within the stated ranges, all queries and arguments", "why_tests_cant": "Composes argument conversion, options, vectors or word dictionaries, builder, files and search: every history, interleaving and query.", "anchors": ["py/src/lib.rs: Granne, GranneBuilder, py_compute_distance", "py/src/variants/builder.rs", "py/src/variants/index.rs", "src/index/mod.rs: GranneBuilder, Granne", "src/elements/embeddings/mod.rs"]}
{"id": "C68", "title": "Options and arguments of the Python classes", "statement": "Every keyword argument of GranneBuilder ends up in the builder it configures and nothing else changes with it; left-out options and arguments have their documented defaults; element type names are taken in any capitalisation; missing files and unknown element types are refused; values of the wrong kind raise an exception without a panic; a new builder is empty and its saved files can be opened again.", "quantifier": "all option combinations, type names, arguments and files", "why_tests_cant": "Quantifies over all combinations of arguments; the false parts (default number of neighbours, capitalisation in compute_distance, files of an empty builder) are shown false.", "anchors": ["py/src/lib.rs: GranneBuilder.__new__, Granne.__new__, search, get_neighbors, py_compute_distance", "py/src/variants/builder.rs", "src/index/mod.rs: BuildConfig"]}
{"id": "C69", "title": "A saved index can be opened by a builder and built on", "statement": "Whatever was built can be saved, at any position of a file, and opened from there by a builder with any configuration: it has the same elements, the same layers of the same lengths and the saved neighbours, cut to the lowest ids when the new configuration has fewer of them. With at least as many neighbours per node nothing is lost and all searches are the same. The builder can be pushed to and built on: everything proved of builders holds again, also after any number of such interruptions. An older index can be opened with the elements as they are after more pushes. Opening does not notice missing elements: with fewer elements than nodes it succeeds, and building panics.", "quantifier": "all histories of pushes, builds and reopenings, all configurations, all schedules", "why_tests_cant": "Histories of any length with any number of reopenings under changing configurations, every interleaving.", "anchors": ["src/index/mod.rs: GranneBuilder::from_bytes, from_file, build_partial, push", "src/index/io.rs: save_index, load_layers"]}
{"id": "C70", "title": "Python builders over saved files", "statement": "A GranneBuilder can be used, its elements saved with or without its index, both opened again with other options, and used on, any number of times. Whatever the sessions of append and build, the elements are all the values ever appended, in order; the index and elements can be saved, opened as a Granne and searched as if the builder had never been interrupted (the answers are as in C67, for all the values). If only append(x) and build() are called nothing fails, and after a final build() everything is indexed.", "quantifier": "all values of a type, all numbers of reopenings, all sessions, all options, all schedules", "why_tests_cant": "Any number of lives of a builder with changing options, every interleaving of the builds, all lengths.", "anchors": ["py/src/lib.rs: GranneBuilder::new, append, build, save_index, save_elements", "py/src/variants/*.rs: init_builder, WordEmbeddingsBuilder", "src/index/mod.rs: GranneBuilder::from_bytes, push, build_partial"]}
{"id": "C71", "title": "Python: opened indexes reordered", "statement": "A Granne opened from the files of a finished builder can be reordered, and saved and opened again, any number of times. Each reorder returns a permutation of the indexed ids; afterwards element i is the one that was element order[i], where order is what the returned orders make up one after the other; the neighbours of every node in every layer are the old ones, renamed by it; and elements and searches are answered as before for the values in the new order (distances and elements belong together, at most num_elements distinct sorted answers). For vectors the index must have at least two layers (with one, reorder panics); for texts the embeddings must contain no NaN.", "quantifier": "all values of a type, all builders of C70, all sequences of reorder and save/open", "why_tests_cant": "Any sequence of reorderings and reopenings, all builders and schedules behind the index.", "anchors": ["py/src/lib.rs: Granne::reorder, save_index, save_elements, load", "py/src/variants/index.rs: reorder", "src/index/reorder.rs: reorder, reorder_by_keys"]}
{"id": "C72", "title": "What reorder sorts by", "statement": "In the order returned by reorder, the elements that a layer adds appear by the new positions of their landmarks - the element that a search of each layer above, for one element with max_search 1, finds for them (first layer first, at most eight layers) - and by their old id where these agree; so elements with the same landmarks end up next to each other. Refuted for the landmarks in the first layer: the code never records the positions of the first layer, so all its elements count as position 0. Hence the second layer, too, is never reordered and reordering an index of two layers changes nothing.", "quantifier": "all indexes of two or more layers, all element collections and distances", "why_tests_cant": "The order depends on the graph and on all distances; a unit test sees single indexes.", "anchors": ["src/index/reorder.rs: reorder, compute_order, find_entrypoint_trail"]}
{"id": "C73", "title": "A larger max_search never gives worse results", "statement": "Searching the same index for the same element with a larger max_search (and at least as large a num_neighbors) returns at least as many results, and the first, second, ... of them is never farther than the first, second, ... of the smaller search. Asking for fewer neighbours with the same max_search returns a prefix of the answer. Refuted when elements are equally far from the query: then a search with max_search 2 can miss a nearer element which a search with max_search 1 finds. Proved for all queries without such ties.", "quantifier": "all indexes, queries, distances without ties, and all pairs of max_search and num_neighbors", "why_tests_cant": "Compares two runs of a heuristic graph search over every graph and every distance function; tests see single graphs.", "anchors": ["src/index/mod.rs: Granne::search, search_internal, search_for_neighbors", "src/max_size_heap.rs"]}
{"id": "C74", "title": "The format of index files, and exactly which files are read", "statement": "write_index writes the library name and a JSON object, filled up with blanks to 1024 bytes, and then the layers one after the other; the object gives the number of layers, their element counts, their sizes in bytes, the number of elements, the number of neighbours of element 0, the version. from_bytes reads exactly the files that begin with the library name and a JSON object (1024 bytes together) with num_layers, layer_counts (one for each layer) and layer_sizes, followed by pieces of those sizes which can each be read as a layer; from_file reads the same files, except that one whose last layer has an empty table of offsets panics. The order of the fields, white space and additional fields do not matter. Refuted: the version of the format, and the agreement of the counts with the stored layers, are not checked.", "quantifier": "all saved indexes, and all files (byte strings)", "why_tests_cant": "The set of files accepted is infinite; a test can only try some files.", "anchors": ["src/index/io.rs: write_index, load_layers, read_layer_sizes", "src/index/mod.rs: Granne::from_bytes, Granne::from_file"]}
{"id": "C75", "title": "The functions of the Python module and the class Embeddings", "statement": "compute_embeddings_and_save_to_disk(elements_path, embeddings_path, output_path) and parse_elements_and_save_to_disk(elements_path, words_path, output_path) take the files they are documented to take, whether the arguments are given by position or by name, and write the converted vectors of all elements (the parsed elements); wrong arguments raise an exception. For an Embeddings object after any appends: the embedding of an id is the vector appended under it, that of ids or a text the sum, ids out of range panic; dist is compute_distance of the two embeddings, dists is dist for each; saving and opening gives the same object back. Refuted: given by name, the two input files of compute_embeddings_and_save_to_disk are swapped; dist panics where get_embedding raises an exception; an Embeddings object without embeddings cannot be opened again.", "quantifier": "all files, paths, orders of keyword arguments, histories of appends (refused ones too) and arguments", "why_tests_cant": "Quantifies over all files and histories; the bindings have no test that uses keyword arguments.", "anchors": ["py/src/lib.rs: py_module_initializer!, py_compute_embeddings_and_save_to_disk, py_parse_elements_and_save_to_disk", "py/src/embeddings.rs: Embeddings"]}
{"id": "C76", "title": "Machine words: indices, counts and widths up to 2^64 - 1", "statement": "Reading an element, a slice or the neighbours of a node by any 64-bit number either gives exactly the stored item with that number or panics; a header count of any size is either honoured or refused; every stored neighbour list decodes, if at all, to the announced number of 32-bit ids in ascending order; a search panics for a width no memory can hold and only then. Refuted for builds without overflow checks (the profile the package is built with): a fixed-width collection or the index of a builder answers numbers beyond its end whose position wraps round 2^64 (with a width that does not divide 2^64 the answer is a mixture of two vectors); of a variable-width file announcing 2^64 - 1 slices a collection is made that claims that many and refuses each; differences may wrap, so ids need not ascend.", "quantifier": "all collections and layers that fit in memory, all 64-bit indices, all file bytes, both build profiles", "why_tests_cant": "A test would have to try 2^64 indices; the interesting ones are never tried by accident.", "anchors": ["src/slice_vector/mod.rs: FixedWidthSliceVector::get, get_mut, subslice; VariableWidthSliceVector::get, load_mmap", "src/slice_vector/offsets.rs", "src/slice_vector/set_vector.rs", "src/index/mod.rs: Index::get_neighbors, search_for_neighbors", "src/max_size_heap.rs: new"]}
{"id": "C77", "title": "The concurrent builder called from the tasks of a rayon pool", "statement": "insert, insert_batch, search and write of an RwGranneBuilder may be called from the tasks of a rayon pool, in any number and with any number of workers: what the tasks do is what threads of their own would do (so identifiers, capacity, snapshots and search results are as promised), nothing panics, and every task returns. Proved to return: when the builder was made with one thread and elements are inserted one at a time, and when one task inserts and the others search. Refuted: with more than one thread, a worker that waits for the builder's pool takes another task; if that inserts, it waits for the lock the first one holds, on the same stack: both hang for ever and the builder accepts no further element.", "quantifier": "all builders, numbers of workers and tasks, calls, schedules of tasks and workers, lock policies", "why_tests_cant": "Whether a worker takes another task at the wrong moment depends on timing; the tests call from threads or with one thread.", "anchors": ["src/index/rw/mod.rs: RwGranneBuilder::insert_batch, search, write, pool"]}
{"id": "C78", "title": "Parsing reads and writes the files it is told to", "statement": "parse_elements_and_save_to_disk reads the file at elements_path or, if that is a directory, every file in it in byte order of the names (those ending in .gz unzipped), replaces the file at output_path by the parsed elements and changes no other file; when it fails no file has changed; an unreadable input (a sub-directory, bytes or names that are not UTF-8, a broken archive, a missing file) makes it panic. parse_elements_and_save_shards_to_disk writes shard i to elements-i.bin in output_path if that is a directory, otherwise beside it to stem-i.ext (bin without an extension): the names are different for different i, lie in one directory and differ from output_path; read in the order of the numbers the files hold the elements in order; nothing else changes; a path without a file name panics. Refuted: parts numbered 2 and 10 are read in numeric order; different output paths give different shard files (x and x.bin); with the output in the input directory the call can be repeated.", "quantifier": "all disks, paths, file names, contents, element and word files, numbers of shards", "why_tests_cant": "Holds for every directory content, name and number of shards; tests use three names and one small directory.", "anchors": ["src/elements/embeddings/parsing.rs: parse_elements_and_save_to_disk, parse_elements_and_save_shards_to_disk, get_shard_name, parse_elements_in_directory_or_file, parse_words"]}
{"id": "C79", "title": "Exporting embeddings leaves the inputs intact", "statement": "compute_embeddings_and_save_to_disk replaces output_path by the vectors of all elements and changes no other file; when the export panics, so does the call, and the inputs are unchanged. Refuted when output_path is one of the inputs: that file is emptied while it is still mapped into memory, before anything has been computed; the input is lost and the process reads a truncated mapping.", "quantifier": "all disks, element and embedding files, conversions, build modes", "why_tests_cant": "The damage depends on how the paths coincide; tests use different files.", "anchors": ["src/elements/embeddings/parsing.rs: compute_embeddings_and_save_to_disk"]}
{"id": "C80", "title": "Text files are read exactly: UTF-8 and JSON strings", "statement": "Word and element files are read as UTF-8 text whose lines are JSON strings. Bytes are accepted as text exactly if they are well-formed UTF-8 (no overlong forms, surrogates, values above 10FFFF or cut sequences), and the result is that text, which has no other form; decoding line by line or all at once makes no difference. A line is accepted exactly if it is a JSON string (RFC 8259: any escapes, surrogate pairs, blanks around it), and the result is its value; the line written for a word is such a string for every word, is one line, and what a dictionary writes is read back, as bytes, as the same words. Parsing files with such lines gives the elements; any other line (empty, unquoted, with a byte order mark in front, a lone surrogate) makes the call panic and writes nothing.", "quantifier": "all byte strings, texts, words, disks and files", "why_tests_cant": "Encodings are infinite families of cases (every escape, every boundary of every length); tests use ASCII words.", "anchors": ["src/elements/embeddings/parsing.rs: parse_words, parse_file", "py/src/variants/mod.rs: WordDict::new, WordDict::write"]}
{"id": "C81", "title": "Quantisation changes distances little", "statement": "For two finite, nonzero vectors of equal dimension n <= 131071, quantising both and taking the int8 distance gives one minus the cosine of the angle between the vectors given, up to sqrt 2 times the sum of their coarsenesses, plus 2^-20; the coarseness of x is sqrt n * max|x_i| / (127 * length of x), up to a factor 1 + 2^-15: between 1/127 (all components of one magnitude) and sqrt n / 127. So which of two vectors is nearer to a third does not change by quantisation when their distances differ by more than the error, and the int8 and the f32 index agree on the distance of the same two vectors up to it.", "quantifier": "all finite vectors in range, of every dimension, debug and release builds", "why_tests_cant": "The error depends on all components of both vectors through truncation and rounding; tests compare a few random vectors with a tolerance picked by hand.", "anchors": ["src/elements/angular_int.rs: From<Vec<f32>> for Vector, quantize, angular_dist", "src/elements/angular.rs: Vector, Dist"]}
{"id": "C82", "title": "Saving a shared builder to files", "statement": "When save_index_and_elements_to_disk returns, the elements file is exactly the serialised elements of one moment between call and return, the index file loads as the layers of that moment, and the two belong together, whatever other threads insert, search or save meanwhile; files of nobody's save are not touched. (Refuted as far as several threads save to the same files: the call empties both files before it waits for its turn, so a save that has just returned Ok may be undone, and with the deadlock of C44 both files stay empty for ever, old contents lost.)", "quantifier": "all numbers of threads, programs of calls, schedules down to single system calls on the files, lock policies, previous file contents and buffer sizes", "why_tests_cant": "The outcome depends on how the opening, truncating and writing of two files by several threads interleave with the three locks; a test sees a few interleavings, and none in which a waiting save has just truncated the file.", "anchors": ["src/index/rw/mod.rs: RwGranneBuilder::save_index_and_elements_to_disk, write", "src/index/io.rs: write_index"]}
{"id": "C83", "title": "Number of layers of a shared builder", "statement": "A shared builder adds only the layers its size requires: at most as many as layer sizes below max_elements, however the threads interleave, all of the configured width. (Refuted: every thread that has passed the capacity check before another thread stores the last element adds one superfluous layer of full size; proved: never more than one for each thread but one, none with a single thread.)", "quantifier": "all numbers of threads, programs of calls, schedules, lock policies, containers and layer-size functions", "why_tests_cant": "The superfluous layers appear only if several threads are between the check and the lock at the moment the builder becomes full; no test drives threads into that window.", "anchors": ["src/index/rw/mod.rs: RwGranneBuilder::insert, insert_batch"]}
{"id": "C84", "title": "Python: saving to files that are in use", "statement": "An index opened from files in Python keeps answering as if it were in memory, whatever is saved in between and to whichever path; each saved file holds what was saved to it last, no other file changes, and saved files open again. (Proved while no save goes to a file the index was opened from; after reorder only the embeddings file counts, so an index can be reordered and saved over its own files, any number of times. A builder can save its index over the file it was opened from, and its elements once an element has been appended. Refuted: save_index to the index's own file, or save_elements to its own elements file, truncates the file that is mapped into memory, kills the process and loses the file; save_index over the elements or embeddings file succeeds, and the next access to an element kills the process.)", "quantifier": "all files, element types, sequences of calls and paths", "why_tests_cant": "Every test saves to temporary files of its own; the damage depends on which file a path names and on which parts of the index still live in a mapping after the calls so far.", "anchors": ["py/src/lib.rs: Granne::save_index, save_elements, reorder, GranneBuilder::save_index, save_elements", "py/src/variants/index.rs", "src/index/mod.rs: FileOrMemoryLayers, Granne::from_file, GranneBuilder::from_file", "src/slice_vector/mod.rs: load_mut"]}
{"id": "C85", "title": "RwGranneBuilder: a panicking call is confined", "statement": "When a call on a shared RwGranneBuilder panics (it inserts an element that the container refuses, or searches while looking at no node) nothing but that call fails: no other thread's call panics because of it, no guard is left behind, the builder's data stay well-formed and keep all elements, the ids returned to the other calls stay distinct and right, searches stay correct, what is saved is a valid index, and any calls may follow. (Refuted: that nothing of a batch whose insertion panicked remains; the elements before the refused one stay and are saved, their ids are never returned, and those of the last piece are linked to no other node.)", "quantifier": "all containers that refuse elements, all threads, calls, schedules and lock policies, int8 and f32 vectors of every dimension", "why_tests_cant": "A panic leaves the locks, the element container and the layer in the middle of an insertion, at every possible moment of every schedule; no test of the repository makes a call panic.", "anchors": ["src/index/rw/mod.rs: RwGranneBuilder::insert, insert_batch, search, write", "src/slice_vector/mod.rs: FixedWidthSliceVector::push", "src/index/search.rs"]}
