# A Rocq (Coq 8.16.1) model of granne and the properties proved about it

Layout of `/verif/rocq/theories`:

* `Base.v`, `Bytes.v` — outcome monad (value / panic / I/O error / out of fuel), list helpers, little-endian
  encodings, typed byte views (`io.rs`), the seekable writer.
* `M*.v` — **model files**: only definitions, each with a comment citing the file and lines of `/repo` it models.
* `S*.v` — **specification files**: small, model-independent vocabulary used by the theorem statements.
* `P*.v` — proofs (lemmas).
* `T*.v` — **property files**: only `Theorem … Proof. exact …. Qed.`, non-vacuity `Example`s and `Print Assumptions`.

## Modelling conventions (apply everywhere)

* The target is a 64-bit little-endian machine. `usize` values are `nat` (indices, lengths) and never overflow
  unless a definition says otherwise (lengths are bounded by memory); `u8`, `u16`, `u32`, `u64` stored values are `N`
  with explicit ranges; `f32` distances are `Z`, an order-preserving code of non-NaN f32 (only order matters to the graph
  code); float arithmetic itself is modelled with Flocq's `binary32` in the element files.
* A panic (failed `assert!`, `unwrap`, out-of-range index, arithmetic underflow in debug) is the value
  `Fail Panicked`; an `Err` of `std::io::Result` is `Fail IoError`; a loop whose termination is not structural takes fuel
  and returns `Fail OutOfFuel`; every theorem about such a loop shows that the result is not `OutOfFuel` for a computed
  amount of fuel, or states divergence for all fuels.
* `debug_assert!`/overflow checks depend on a `mode` parameter (`Debug`/`Release`); theorems quantify over it or fix it.
* `Cow`, borrows, `into_owned`, mmap-vs-memory variants carry the same bytes: all variants are one value. A memory map
  is the byte list of the file and is assumed not to be modified concurrently (the documented `unsafe` contract).
* `BinaryHeap`, `HashSet`, `sort`, rayon's `par_iter`, `parking_lot::RwLock`, `serde_json`, `stream_vbyte` (Scalar) are
  outside `/repo`: they are modelled by executable definitions of their documented behaviour (listed under trusted base).
* Progress bars, printing, `madvise`, timing are not modelled (no effect on results).

## Concurrency

`index_elements` runs one task per element; every task only takes one row lock at a time. A task is a small-step
program whose atomic steps are exactly the lock-protected sections (one `get_neighbors` row read per search iteration,
the `read()[0]` test, the debug re-read, the initialising write, each `connect_nodes`). A schedule is an arbitrary list
of task numbers; theorems quantify over all schedules. `RwGranneBuilder` is modelled by its three locks
(`write_lock`, `elements`, `layers`) with parking_lot's rule that a pending writer blocks new readers.

## Plan per property

| id | model | theorem(s) / method |
|----|-------|---------------------|
| C01 | `set_encode`, `decode_into`, delta codecs, stream-vbyte scalar format | round trip by induction; the raw/compressed length test is unambiguous |
| C02 | same, with `mode` | refuted in release (witness of 256 ids); the exact truncation behaviour is proved; debug panics proved |
| C03 | `Chunk`, `Offsets`, compressed vector | refinement to a list of slices by invariant over pushes; sentinel delta 65535 refuted |
| C04 | `write`, `load_mmap` over bytes | byte-level round trip |
| C05 | `write_as_multi_set_vector` on a seekable writer | round trip for any cursor position; table-size assertion never fails |
| C06 | `write_index`, JSON writer and parser, `load_layers` | whole-file round trip |
| C07 | metadata length | exact criterion by digit counts (SMeta, TMeta): saved if the text has at most 1024 bytes, panic otherwise; 34 layers always fit, 220 never |
| C08 | `search_for_neighbors` | simulation: equal neighbour *sets* give equal outputs; combined with C06 |
| C09 | `GranneBuilder::from_bytes` | computed exactly |
| C10, C11 | `FixedWidthSliceVector` bytes | round trip; refuted for the empty collection; byte counts refuted |
| C12, C13, C14, C15 | slice vectors | refinement to `list (list T)`; byte round trips; chunked writer |
| C16 | `permute` | cycle-following invariant over any permutation |
| C17 | odd-byte ints | LE codec |
| C18 | `load_*` on arbitrary bytes | views are sub-lists; alignment refuted by computing a misaligned layer offset |
| C19–C23 | search loop | invariants of the best-first loop, termination measure, reachability |
| C24 | `MaxSizeHeap` | multiset specification |
| C25 | `select_neighbors` | characterisation by prefix-induction |
| C26–C29 | task machine | invariants over all schedules, measure for termination; debug panic refuted by an explicit schedule |
| C30, C31, C35 | builder state machine | induction over histories, layer-size oracle arbitrary |
| C32, C33 | layer-size formula | exact real arithmetic; f64 (Flocq) for any C library with monotonic `powf`, and with relative error bounds for any accurate one (`SLayerAcc.v`, `PLayerAcc.v`); divergence for multipliers < 1 |
| C34 | builder guards | invariant over histories |
| C36 | task machine | frame statement |
| C37–C41 | `reorder.rs` | permutation lemmas, graph isomorphism, simulation of the search loop, refutations |
| C42–C46 | `RwGranneBuilder` | interleaving of critical sections; lock-level model for deadlock |
| C47, C48 | `BufWriter` over a faulty device; byte-prefix crash model | refuted / proved |
| C49, C50 | `SumEmbeddings` | refinement, generic component addition |
| C51 | `dot_product_f32` over any scalar type, i8 kernel | exact over any commutative monoid; in `binary32` a standard-model error bound; mismatched dimensions and i32 overflow refuted |
| C52–C54 | Flocq `binary32`: distances, quantisation | all inputs; error analysis against exact reals; extreme inputs refuted |
| C63 | `normalize_f32` in `binary32` | error bound of the normalised pair distance; underflow, overflow, high dimension refuted |
| C64 | `Vectors` as `ElementContainer` | instantiates the builder theorems (C26–C31) with the real containers; order code of f32 |
| C65 | whole build, search | connectedness to node 0 as invariant of every step of every task (`PReach.v`), through passes, layers and histories (`PReachB.v`, `PReachC.v`); then C21 |
| C55, C56 | sharding/chunk arithmetic | proved / refuted |
| C57 | `WordDict` | invariant |
| C58 | `extend` | refuted |
| C59 | key computation | characterised |
| C61 | parsing of words and element files | specification of tokens, lines, last colon; JSON a parameter |
| C62 | Python `Embeddings` | invariant over histories of appends; refuted after a refused append |
| C60 | one `index_element` task (`MBuild`) run alone; single steps under all schedules | inversion of the steps, invariants of C26/C27 |
| C66 | build, search, io, reorder, vector files together | the layers of a built index as an abstract graph (`PPipeline.v`, `PPipelineB.v`), then C06, C08, C19, C20, C38, C39, C10, C64; layer count by induction over histories (`PLayers.v`); f32 bytes in `MFloatBits.v` |
| C67 | the Python classes as a whole (`MPyIndex.v`) | sessions become builder histories over converted values (`PPyIndex.v`); a generic history invariant for containers with partial push (`PHistGen.v`), instantiated to f32, int8 and sum embeddings (`PPyWords.v`); then C10, C57, C66; layer counts under correct rounding (`PPyLayers.v`) |
| C68 | constructors, options, argument conversion | case analysis over all argument combinations |
| C69 | builders over saved indexes | `built` closed under saving and opening (`SBuild.v`), the invariants of layers kept by it (`POpen.v`), rows after C09 |
| C70 | Python builders over saved files | `SPyMore.v` (lives of a builder), an invariant per element type kept by sessions and openings (`PPyMore.v`, `PPyKinds.v`), from C69 and C67 |
| C71 | Python: opened indexes reordered | `SPyReorder.v` (lives of an opened index), an invariant per element type kept by reordering and by save/open (`PIndexRe.v`, `PPyLife.v`, `PPyIx.v`, `PPyIxW.v`), from C37–C39, C56 and C70 |
| C72 | what `reorder` sorts by | `SReorderTrail.v` (landmarks by `search` on one layer, trails, lexicographic order); `PReorderTrail.v`: fold invariant over `compute_order`; refuted for the first layer (`order_inv` stays 0 there) |
| C73 | larger `max_search` is not worse | `SMono.v`; `PMono.v`: coupling of the two runs - without ties the smaller search expands a prefix of what the larger one expands, both heaps are the best of the same set; refuted with ties |
| C74 | file format, which files are read | `SJson.v`: grammar of JSON texts; `PJsonText.v`: the parser accepts exactly that grammar; `TJsonText.v`. RFC 8259 with serde_json's limit of 127 levels and UTF-8 check; only the range of f64 is not modelled (1e999 is accepted); serde_json itself is external |
| C75 | Python module functions, class `Embeddings` | `MPyMod.v`: binding of positional and keyword arguments, the declared parameter lists; `PPyMod.v`: independence of the order of keywords, invariant over histories of appends; then C49, C56, C62; swapped keywords refuted |
| C76 | machine words: 64-bit indices, counts, widths | `MWord.v`: `usize` arithmetic modulo 2^64 or checked, at the places the other files take it to be exact; `PWord.v`: agreement in range, wrap-around, reads past a compressed table, decoding of arbitrary bytes; refuted for fixed-width layers in unchecked builds |
| C77 | builder called from rayon tasks | `MWorkers.v`: workers with stacks of jobs over the threads of `MRw.v`; taking a job while waiting in `install`; `PWorkers.v`: refinement to threads, invariant of stacks, the trap is permanent; `PWorkers2.v`: progress and termination measure; refuted by an explicit run |
| C78 | files read and written while parsing | `MFiles.v`: disks, paths, directory listing in byte order, `File::create`, file stems and extensions, the loop over shards; `SFiles.v`: numerals, shard names, lines with any ending, listings; `PFiles*.v`: numerals are unique, sorting, invariant of the loop; refuted by concrete disks |
| C79 | output of the export is one of its inputs | `MFiles.v`: `export_at` reads mappings of files that may have been truncated; proved equal to `export` (C56) when the files are different |
| C80 | text decoding | `MUtf8.v`, `MText.v`: UTF-8 decoder by lead byte, JSON string reader and writer; `SText.v`: UTF-8 forms by base-64 digits, spellings of a character in JSON; `PText*.v`: both decoders accept exactly the specified strings; instances of the parameters of C57, C61, C75, C78 |
| C81 | quantised distances | no new model code: `quantize`, `angular_int_dist` of `MAngular.v`; `SQuant.v`: coarseness; `PAngle.v`: moving a vector by e times its length moves a cosine by at most sqrt 2 e (Gram determinant, Cauchy-Schwarz); truncation error from C53, rounding from C52, C63 |
| C82 | saving a shared builder to files | `MRwFiles.v`: on top of `MRw.v`, each save carries its file operations (create/truncate elements file, then index file, before the lock; buffered writes of the elements; `write_index`; the rest of the elements when the buffer is dropped), one per move; disk as a function of names; invariant "either someone else is inside a save to this file, or it holds what I have written" plus a bound on the length of elements files; projection to runs of `MRw.v` under a policy that replays the decisions; end of every run by a lexicographic measure (`PRwFiles3.v`); refutations by concrete runs |
| C83 | number of layers of a shared builder | no new model code (`MRw.v`); `PRwCount.v`: invariant "not full and at most L layers, or full and layers plus threads past the check at most L + threads - 1"; the bound is reached by a concrete run |
| C84 | saving to files an opened index uses | `MPyFiles.v`: disks of `MFiles.v`, an opened index with the mappings its layers, elements and embeddings come from, which calls read and which copy them; `PPyFiles*.v`: simulation by the index in memory (`MPyIndex.v`) as long as no mapped file is written |
| C85 | panicking calls on a shared builder | `MRwPanic.v`: the runs of `MRw.v`, where a panic unwinds the thread (guards dropped, call forgotten, data left as they are) and the rest go on; `PRwPanic*.v`: the invariant of `PRwConc.v` with the ids that a panic lost; `TRwPanicEx.v`: int8 and f32 containers |

A property that is false of the code gets a theorem named `…_refuted` with a computed witness, plus the strongest true
variant; MANIFEST.json marks it `partial` and the note says so.

## Trusted base

1. **Coq 8.16.1's kernel** (and `coqchk`). `vm_compute` is used for concrete witnesses (kernel VM; `coqchk` re-checks the
   same terms by ordinary conversion). No native compilation, no plugin of ours, no kernel check switched off.
2. **Axioms.** Every `T*.v` file ends with `Print Assumptions` for its theorems. All are *closed under the global context*
   except those whose statements speak about real numbers (Coq's `Reals`, Flocq), which list only standard-library axioms:
   `ClassicalDedekindReals.sig_forall_dec`, `ClassicalDedekindReals.sig_not_dec`,
   `FunctionalExtensionality.functional_extensionality_dep`, `Classical_Prop.classic`. They are:
   all of `TLayerSize.v` and `TLayerAcc.v` that mentions reals or floats (C32, C33); `C43_new_with_multiplier`, `C44_layers_grow`,
   `C44_sizes_reach_max` of `TRw.v`; the float theorems of `TAngular.v`, `TVectors.v`, `TPipelineVec.v`, `TPipelineSize.v`, `TReachSize.v`, `TPyIndex.v`,
   `TPyWords.v`, `TPyOptions.v`, `TPyNames.v`, `TPyMore.v`, `TPyReorder.v`, `TPyMod.v` (C51–C54, C63–C68, C70, C71, C75).
   No axiom, `Admitted`, functor, module type or section-less hypothesis is ours.
3. **Faithfulness of the model to `/repo`**: the cited lines were transcribed by hand; nothing is extracted from the Rust
   text. This is the main thing to review; every `M*.v` definition cites the lines it models and states what it simplifies.
4. **External crates and std, modelled by their documented behaviour** (part of the model, so trusted): `BinaryHeap`
   (sorted list), `HashSet`/`FxHashSet` (a set), `sort_unstable_by_key` (an *arbitrary* function that returns a permutation
   sorted by distance, so no order of ties is assumed), `dedup`, `stream_vbyte` Scalar (byte format), `serde_json` (only the metadata
   block; for element files its string codec is a parameter with the stated hypothesis that decoding inverts encoding, and C80
   gives the codec and proves the hypothesis), UTF-8 in std (C80),
   `byteorder`, `BufWriter`/`Seek` (over a device that may fail at any write), rayon (arbitrary interleaving of the lock-protected
   steps for `index_elements`; order-preserving results for `par_iter().map().collect()`), `parking_lot::RwLock`
   (mutual exclusion; a waiting writer may block new readers; otherwise an *arbitrary* grant policy), `powf`/`log` of the C
   library (an arbitrary function with the stated properties, which a correctly rounded one is proved to have), IEEE 754
   `binary32`/`binary64` in Flocq with one NaN.

## What is modelled

| file in /repo | modelled | not modelled |
|---|---|---|
| `src/io.rs` | all (typed views of byte slices, alignment in C18) | — |
| `src/odd_byte_int.rs` | all | — |
| `src/max_size_heap.rs` | all | — |
| `src/slice_vector/{mod,offsets,set_vector}.rs` | all constructors, accessors, iterators' contents, push/extend/write/read/load/permute | `madvise`, memory-map syscalls, `Cow` borrowing |
| `src/index/mod.rs` | `Granne`, `GranneBuilder`, search, selection, insertion, layer construction, accessors, `BuildConfig` | progress bars, `Debug` printing |
| `src/index/io.rs` | all | the text of error messages |
| `src/index/reorder.rs` | all | progress bars |
| `src/index/rw/*` | all | — |
| `src/elements/*` | `Vectors` (`angular`, `angular_int`), `SumEmbeddings`, reorder, parsing with the files it reads and writes (C78, C79) | gzip (a parameter; UTF-8 and JSON strings are parameters instantiated in C80), links, permissions |
| `src/math.rs` | portable kernels | the `blas` feature; AVX2 code is the same source compiled for another target (no explicit intrinsics) |
| `py/src/*` | word dictionary, `Embeddings`, `Granne`, `GranneBuilder` with constructors, options and all methods, `compute_distance`, the module functions with their argument binding, named in C57, C61, C62, C67, C68, C70, C71, C74, C75 | conversion of Python numbers (rust-cpython), opening files, GIL, `show_progress` |
| `benches`, `examples`, `build.rs`, tests | — | not part of the library |

Machine-level simplifications: in the main model `usize` is `nat` and never overflows; `MWord.v` (C76) models the 64-bit
arithmetic of indices, counts and widths and says where it differs (in release builds "out of range panics" holds while
`index * width` stays below 2^64; a search with `max_search` of 2^59 or more panics when its heaps are allocated); allocation
otherwise never fails. Data races are excluded by the types (`RwLock`, `&mut`), so interleavings of lock-protected steps are
sequentially consistent. Memory maps are not modified while mapped, except in C79 and C84. C42–C46 take the calls to come from threads of their own; calls from the tasks of a
rayon pool, whose workers may take other tasks while waiting, are C77 (there an `install` with nothing to do counts as done).
The histories called `built` are: a new builder, calls of its methods in any order, and saving and opening again.

## Behaviours of the code that contradict a property a user would expect

Each is a theorem `…_refuted` (or the negative half of a `partial` claim), with a concrete witness.

* **Neighbour lists**: release builds keep only 255 of 256+ ids silently (C02); the offset table accepts an increase of exactly
  65535 and loses it (C03); the offset table of a second layer may be misaligned (C18).
* **Saving**: 220 or more layers do not fit the metadata block (C07); the writer is dropped without `flush`, so an error while
  writing the metadata is lost (C47); replacing a file in place has windows in which the file is unloadable or mixed (C48);
  `RwGranneBuilder::save_index_and_elements_to_disk` empties both files before it waits for the lock, so a save that only waits has already
  destroyed the old pair, and emptying also hits a save that is under way to the same files (C82);
  `FixedWidthSliceVector::write` under-reports bytes (C11); an empty `Vectors` cannot be read back — `from_bytes` panics, `read` never returns
  (C10), and extending an empty collection by one panics (C58).
* **Search**: `max_search = 0` panics (C23).
* **Python**: `compute_embeddings_and_save_to_disk` called with keyword arguments reads the elements as embeddings and the
  embeddings as elements (C75); `Embeddings.dist` panics on values `get_embedding` refuses with an exception (C75).
* **Building**: the debug assertion in `initialize_node` can fail under a legal schedule (C29); multipliers below 1 make `build` loop
  for ever (C33).
* **Reorder**: panics with fewer than two layers or a partially built index (C41); with ties results may change (C40).
* **RwGranneBuilder**: a batch larger than the room of the layer takes the write lock twice and can deadlock (C44); nothing is found
  while only one layer exists (C46); spurious extra layers of the same size may be pushed when threads race at the limit, up to one per further thread (C83). When an
  insertion panics the elements of the batch that were already pushed stay; their ids are lost, and those of the last piece are linked to nothing (C85).
* **Vectors**: mismatched dimensions are mis-zipped (C51); int8 dot products overflow from dimension 131072 (C51); the largest component may quantise to
  126, a zero vector panics in debug builds, components near the largest f32 give −128 (C53); tiny or huge vectors are not normalised, and a
  non-zero high-dimensional vector can be taken for zero (C63).
* **Embeddings and Python**: sharded export panics after writing everything, e.g. 10 elements in 7 shards (C55); duplicate words break the
  dictionary's bijection (C57); a refused append leaves its word behind (C62); the keyword names of
  `compute_embeddings_and_save_to_disk` are registered in swapped order (`py/src/lib.rs:48-51` vs `132-135`, C75); exporting over one
  of the inputs destroys it (C79); `save_index` and `save_elements` of an opened `Granne` to its own files truncate what is mapped,
  kill the process and lose the file (C84); numbered part files are read in byte order of their names, 10 before 2 (C78).
