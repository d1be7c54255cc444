#!/usr/bin/env python3
"""Regenerates MANIFEST.json; checks that every theorem exists in a T*.v file and lists T-theorems not claimed."""
import json, re, glob
C=[]
def c(prop, status, theorems, note=""):
    C.append(dict(property=prop, status=status, theorems=theorems.split(), note=note))

c("C10","partial","C10_vectors_round_trip C10_vectors_read_round_trip C10_empty_collection_refuted C10_empty_read_diverges_refuted C10_read_with_capacity_round_trip C10_read_with_capacity_empty_refuted",
  "Proved for every collection of positive dimension (also with no elements). FALSE of the code for the empty collection Vectors::new() (width 0): from_bytes panics, read loops forever.")
c("C11","partial","C11_variable_width_count C11_fixed_width_count_refuted C11_write_range_count_refuted",
  "True of VariableWidthSliceVector::write (and of the writers in C04/C05/C14). FALSE of FixedWidthSliceVector::write (always 8 too few) and write_range (header and offsets not counted); exact discrepancy proved.")
c("C12","proved","C12_variable_width_history","All histories of push/extend from new(), every offset width; overflow of the offset type refused with a panic.")
c("C13","proved","C13_variable_width_bytes C13_sub_range_bytes C13_bad_range_refused","")
c("C14","proved","C14_fixed_to_variable","The writer is modelled as a seekable byte buffer; result equals one write of the encoding at the cursor.")
c("C15","proved","C15_fixed_width_history C15_new_takes_width C15_subslice C15_get_two_mut","")
c("C16","proved","C16_permute C16_permute_wrong_length_refused","Fuel n (number of slices) suffices for every permutation.")
c("C17","proved","C17_odd_round_trip C17_odd_bytes_bijective C17_odd_max C17_three_five","")
c("C58","partial","C58_extend_by_empty_partial C58_extend_by_new_refuted","Holds when the empty collection has the same width; FALSE for Vectors::new(): the width assertion panics.")

c("C01","proved","C01_neighbour_lists_round_trip","All push histories of lists of at most 254 ids, both build profiles.")
c("C02","partial","C02_debug_rejects C02_release_255_preserved C02_release_truncates_refuted","Holds in debug builds and for 255 ids in release builds. FALSE in release builds for 256 or more ids: only the 255 smallest are kept, silently.")
c("C03","partial","C03_slices_faithful C03_offsets_faithful C03_bad_offsets_refused_partial C03_long_slice_refused_partial C03_boundary_unchecked_refuted C03_jump_65535_lost_refuted","Faithfulness proved for all histories. The refusal half holds inside a block of 60 offsets for jumps > 65535 and decreases; FALSE at block boundaries (nothing checked) and for a jump of exactly 65535 (accepted but lost).")
c("C04","proved","C04_layer_bytes_round_trip C04_compressed_slices_round_trip","For layers of fewer than 2^50 nodes (sizes must fit u64).")
c("C05","proved","C05_conversion_preserves_graph","Width 1..254; any cursor position (also past the end of the buffer); any filter.")
c("C06","proved","C06_saved_index_loads_back C06_save_succeeds","Fixed-width (builder) and compressed indexes, any start position in the file; the success half is for at most 25 layers of < 2^32 nodes with a non-empty last layer (see C07).")
c("C07","partial","C07_exactly_when_it_fits C07_fits_up_to_34_layers_partial C07_fits_up_to_25_layers_partial C07_many_layers_refuted C07_many_large_layers_refuted","FALSE as stated: an index with too many layers makes write_index panic. C07_exactly_when_it_fits says exactly which indexes can be saved (by the decimal digits of the layer counts and sizes), with every other one panicking; 34 layers always fit, 220 never, 88 of 1000 or more elements never.")
c("C09","proved","C09_reopened_rows C09_reopened_same_graph","")
c("C18","partial","C18_index_views_in_bounds_partial C18_collection_views_in_bounds_partial C18_misaligned_refuted C18_first_table_aligned_partial","In-bounds half proved for every buffer. FALSE for alignment: the offset table of a second layer can start at an address that is not a multiple of 8.")
c("C47","partial","C47_ok_means_layers_written_partial C47_reliable_device_partial C47_error_lost_refuted","FALSE of the code: BufWriter is dropped without flush, so an error writing the metadata block is lost. Proved: Ok means everything but a suffix of the metadata block was written; with no device error everything is.")
c("C48","partial","C48_fresh_file_all_or_nothing C48_truncate_refuted C48_overwrite_in_place_refuted","All crash points (byte-wise prefixes in program order) of a save to a fresh file: loads => the whole index. FALSE for replacing an existing file: the truncated file is unloadable until the last block, and an in-place overwrite can load as a mix.")
c("C08","proved","C08_neighbour_order_irrelevant C08_saved_index_searches_the_same","")
c("C19","proved","C19_results_well_formed","Distances are integers ordering like the non-NaN floats; arbitrary distance function.")
c("C20","proved","C20_finds_something C20_empty_index","Fuel (number of loop iterations) one more than the number of nodes always suffices.")
c("C21","proved","C21_exhaustive_is_exact C21_connected_is_exact","")
c("C22","proved","C22_no_neighbour_improves C22_not_farther_than_entry","")
c("C23","partial","C23_zero_max_search_panics_refuted","FALSE of the code: max_search = 0 panics on every non-empty index (proved for all of them).")
c("C24","proved","C24_heap_keeps_smallest C24_push_reports","Any total order; max size 0 panics on push (that is C23).")
c("C25","proved","C25_keeps_all_that_fit C25_selection_heuristic C25_nearest_kept_first","")
c("C26","proved","C26_well_formed_at_every_moment C26_well_formed_after_pass C26_neighbour_limits","Interleavings at lock granularity; any well-formed starting layers. The per-layer limit is for a build from scratch with non-decreasing layer sizes (C32); later builds leave earlier layers with the limit of the build that made them.")
c("C27","proved","C27_no_duplicates_in_built_index C27_no_duplicates_at_every_moment C27_built_is_reached","For every history starting from new (any pushes, builds, schedules). For a builder read from a file this is not claimed: C26 only.")
c("C28","proved","C28_every_fair_schedule_finishes C28_no_endless_schedule C28_locked_runs_are_schedules C28_no_wait_while_holding C28_no_deadlock C28_locked_pass_finishes","Explicit row locks with an arbitrary granting policy; the locked program refines the step machine used for the other builder properties.")
c("C29","partial","C29_release_never_panics C29_single_threaded_never_panics C29_debug_race_refuted C29_zero_settings_panic","Release: no schedule panics. Debug: one thread never panics; FALSE for several threads (the debug_assert in initialize_node races, explicit schedule).")
c("C30","proved","C30_length_after_build_partial C30_out_of_range_refused C30_zero_is_a_no_op C30_build_indexes_everything","")
c("C31","proved","C31_earlier_layers_untouched C31_layer_lengths C31_layers_only_grow","")
c("C34","proved","C34_ids_fit C34_limit_enforced","")
c("C35","proved","C35_push_changes_no_list C35_ids_stable C35_vec_push","")
c("C36","proved","C36_inserting_zero_changes_nothing C36_zero_never_linked C36_duplicates_not_linked C36_zero_element_0_linked_refuted","Beyond the statement: a zero element with id other than 0 is never linked in any history. With id 0 it is, by the insertion of others (refuted reading).")
c("C32","proved","C32_sizes_in_exact_arithmetic C32_sizes_in_floating_point C32_sizes_with_monotonic_powf C32_correct_rounding_is_accurate C32_assumptions_met_by_correct_rounding","Proved in exact arithmetic and in f64 (Flocq, n <= 2^53), there up to a relative error of 2^-38, for every C library whose powf is monotonic and whose ln and powf are accurate to 2^-50; a correctly rounded library is proved to be such, for every finite multiplier above 1. With a merely monotonic powf: bounds, monotonicity and reaching n.")
c("C33","partial","C33_multiplier_above_one_terminates C33_multiplier_one_terminates C33_infinite_multiplier_terminates C33_zero_multiplier_terminates C33_zero_multiplier_opened_never_returns_refuted C33_small_multiplier_never_returns_refuted C33_small_float_multiplier_never_returns_refuted C33_nan_or_negative_multiplier_never_returns_refuted","FALSE of the code as stated: multipliers in (0,1), negative ones and NaN make build loop for ever (proved, in exact arithmetic and in f64), and so does 0 for a reopened builder of two or more layers. It terminates for multipliers above 1, 1, infinity, and 0 from a new builder (proved): every f32 is covered.")
c("C37","proved","C37_reorder_by_keys_order C37_wrong_number_of_keys_refused","Any container obeying the law of permute (C39_vectors_permute shows the vector collections do), indexes with at least one layer; a wrong number of keys is refused.")
c("C38","proved","C38_reorder_order","For indexes with two or more layers covering all elements; the others panic (C41).")
c("C39","proved","C39_reorder_renames C39_reorder_by_keys_renames C39_vectors_permute","Both reorder functions; the compressed layers they write read back renamed.")
c("C40","partial","C40_reordered_search_partial C40_keys_search_partial C40_exhaustive_same_distances C40_ties_refuted C40_moved_entry_point_refuted","Exact correspondence proved when no two elements are equally far from the query and element 0 stays (reorder always keeps it). FALSE in general: with ties reorder() can change which elements are found (even their distances), and reorder_by_keys can move the entry point. On a strongly connected bottom layer with max_search >= n the distances are the same in every case.")
c("C41","partial","C41_single_layer_panics_refuted C41_partial_index_panics_refuted C41_full_index_reorders","FALSE of the code: every index with fewer than two layers, and every index covering only a part of its elements, panics; all others work.")
c("C42","proved","C42_ids_unique_and_correct C42_elements_are_kept C42_ids_without_gaps C42_at_most_max",
  "Every interleaving, every lock-grant policy that respects mutual exclusion, every number of threads and calls. The bound by max_elements is under session (a builder as new leaves it). Not modelled: rayon work stealing re-entering insert_batch on the same OS thread; guards of get_elements kept by the user. RwGranneBuilder never checks the id limit 2^32-1: elems_work assumes max_elements below it.")
c("C43","partial","C43_capacity C43_no_panic C43_new_is_in_order C43_new_with_multiplier C43_shrinking_layer_panics_refuted",
  "Proved for builders whose layer sizes do not shrink (in particular for every builder made by new from unbuilt elements, with the sizes computed in floating point). False in general: with an index loaded under a smaller layer multiplier the next layer can be smaller than the number of elements, the rows of indexed elements are truncated and insert panics (refuted theorem, with an example).")
c("C44","partial","C44_split_batch_and_write_deadlock_refuted C44_only_deadlock C44_no_deadlock_without_writer_preference C44_single_inserts_never_deadlock C44_layers_grow C44_no_endless_run C44_every_call_returns C44_every_single_insert_returns C44_sizes_reach_max",
  "False as stated: a batch larger than the room in the current layer asks for write_lock twice and deadlocks with a concurrent write under parking_lot's writer preference. Proved: that is the only possible deadlock; none without writer preference; none for single insertions if layers grow (multiplier at least 2); there is no endless run, and every call returns unless that deadlock occurs.")
c("C45","proved","C45_saved_snapshot","The layers read by write are saved by io::write_index, whose properties are C03-C07.")
c("C46","partial","C46_results_correct C46_finds_something_partial C46_first_layer_not_searched_refuted",
  "False as stated: while the builder has only its first layer no search finds anything (refuted theorem and example). Proved: results are correct, and non-empty once there are two layers. max_search = 0 panics and is excluded by calls_ok.")
c("C60","proved","C60_insertion_links C60_room_means_linked C60_every_step_only_links C60_links_lost_only_from_full_lists",
  "C60_insertion_links: one insertion running alone, into any well-formed layer. The other two: every history, schedule and moment.")
c("C49","proved","C49_history C49_history_refused C49_write_and_load C49_missing_embeddings_unnoticed",
  "Any component type and addition. Remark proved beside it: with no embeddings at all a release build does not notice ids that refer to nothing.")
c("C50","proved","C50_permute C50_permute_refused C50_container_law","C50_container_law: the law of permute assumed by the reordering theorems holds of sum embeddings.")
c("C59","proved","C59_keys C59_nan_panics","The norm is a parameter (NaN = panic); ties: the later term first.")
c("C61","proved","C61_parse C61_every_json_line_is_an_element C61_element_unique C61_bad_input_panics C61_line_endings",
  "JSON decoding is a parameter; UTF-8 decoding and gunzip are not modelled.")
c("C55","partial","C55_shards C55_never_panics_refuted C55_enough_elements C55_no_shards_panics",
  "'never panics' is false (10 elements, 7 shards): proved exactly when it panics, and that all elements have been written then.")
c("C56","proved","C56_export C56_export_panics C56_no_elements_unreadable","The conversion to int8 is a parameter here; see C53 for the real one.")
c("C57","partial","C57_pushes C57_text_round_trip C57_write_and_load C57_load C57_duplicates_in_a_file_refuted",
  "Proved for all histories of pushes and for files of distinct words; a file that lists a word twice breaks the bijection (refuted).")
c("C62","partial","C62_appends C62_refused_append_leaves_no_trace_refuted",
  "Proved for vectors of one dimension; 'a refused append leaves no trace' is false: after a wrong-dimension append the word stays and words and vectors are misaligned.")
c("C51","partial","C51_exact_in_the_integers C51_exact_in_any_commutative_monoid C51_rounding_error C51_int8_kernel C51_int8_release C51_int8_debug C51_int8_overflow_refuted C51_different_dimensions_refuted",
  "Exact over Z and any commutative monoid for every length; rounding error bound in f32 (Flocq). 'Vectors of different dimension are rejected' is false: they are mis-zipped silently (refuted). int8 sums overflow from dimension 131072 on (refuted; release wraps, debug panics).")
c("C52","proved","C52_symmetric C52_not_negative C52_accurate C52_zero_vector","All inputs, in binary32; C52_accurate also bounds the error against one minus the cosine by 2^-20.")
c("C53","partial","C53_quantise C53_largest_refuted C53_zero_vector_refuted C53_large_components_refuted C53_nan_panics C53_constants",
  "Proved for every finite non-zero vector with components up to 2^121, with 126 or 127 for the largest component (126 happens: refuted). A zero vector panics in debug builds, components near the largest f32 give -128 or a debug panic (refuted).")
c("C54","proved","C54_symmetric C54_not_negative C54_panics_only_for_nan C54_zero_vector C54_no_panic C54_overflow_panics_refuted",
  "All inputs. C54_overflow_panics_refuted shows that finite vectors can have a NaN dot product.")
c("C63","partial","C63_normalised C63_accurate C63_zeros_kept C63_self_distance C63_dimensions C63_tiny_refuted C63_huge_refuted C63_high_dimension_refuted",
  "Proved for vectors whose largest component lies between 2^-50 and 2^50; never mistaken for zero up to 1024 dimensions. False outside: tiny components are not normalised, huge ones become zero, and a 5792-dimensional vector is at more than 100 EPSILON from itself (refuted).")
c("C64","proved","C64_codes_order C64_int8_usable C64_int8_distances C64_int8_zero C64_int8_histories C64_f32_usable C64_f32_distances C64_f32_zero C64_f32_histories C64_empty_vector_refuted",
  "f32: vectors made by Vector::from out of vectors with largest component between 2^-50 and 2^50, or of zeros; the zero-vector claim up to 95 roundings (1024 dimensions). Remark: an empty vector pushed onto a new collection is not counted.")
c("C65","proved","C65_small_collections_are_connected C65_small_collections_are_searched_exactly C65_tiny_collections_are_searched_exactly C65_room_with_exact_layer_sizes C65_overflowing_lists_refuted C65_many_duplicates_refuted",
  "For builders from new, and reopened ones as long as the lists have room; the limits of the claim are refuted outside its conditions by two concrete builds. The room for 1 + num_neighbors elements is proved for unrounded layer sizes and multipliers of at least 2; other sizes enter as the hypothesis roomy. Adds to the container laws that pushing keeps the distances of the other elements.")
c("C66","proved","C66_built_index_can_be_searched C66_built_index_survives_saving C66_layers_added C66_number_of_layers C66_built_index_can_be_reordered C66_int8_pipeline C66_f32_pipeline C66_layers_with_exact_sizes C66_always_saved_with_exact_sizes C66_default_layers_with_exact_sizes",
  "The numbers of layers for given multipliers are for unrounded layer sizes; the general bound holds for every layer-size function. The bytes of f32 values are those of IEEE 754 binary32 (Flocq), all NaNs being one value.")
c("C67","proved","C67_angular_int C67_angular C67_embeddings C67_options C67_same_layers",
  "Release builds. angular: finite vectors whose largest component is between 2^-50 and 2^50 or of zeros; angular_int: no NaN, up to 131071 dimensions; embeddings: texts whose vectors are as for angular, no word listed twice. The options hypothesis is met by every multiplier of at least 5/2 under a correctly rounded C library (C67_options); other libraries enter by the assumptions of C32.")
c("C68","partial","C68_options_take_effect C68_builder_configured C68_documented_num_neighbors_refuted C68_element_type_names C68_kind_names C68_distance_kinds C68_compute_distance_names_refuted C68_compute_distance_arguments C68_missing_arguments_panic C68_opening_refuses C68_append_refuses C68_new_builder_is_empty C68_saved_empty_builder_opens_refuted C68_default_arguments",
  "Three parts are false of the code and refuted: the documented default of 20 neighbours is 30, compute_distance does not accept capitalised names, and the saved elements of an empty builder cannot be opened. Conversions of Python numbers themselves (rust-cpython) are not modelled.")
c("C69","proved","C69_saved_index_opens_in_a_builder C69_same_index_when_wide_enough C69_older_index_with_newer_elements C69_missing_elements_noticed_late_refuted",
  "At most 254 neighbours (C02) and 25 layers (C07) when saving. built includes reopening, so C26 to C36, C65 and C66 hold for reopened builders too; C66_number_of_layers is for builders from new, C66_layers_added for any.")
c("C70","proved","C70_angular_int C70_angular C70_embeddings",
  "For each of the three element types. For vectors something must be appended before the first saving (C68: an empty vector file has no dimension). Out-of-fuel failures are not failures of the code (fuel bounds waiting threads in the model).")
c("C71","proved","C71_angular_int C71_angular C71_embeddings C71_single_layer_panics_refuted",
  "For each of the three element types, over all builders of C70 whose last session ends with build(). C71_single_layer_panics_refuted: an opened index of vectors with a single layer cannot be reordered.")
c("C72","partial","C72_order_by_trails_partial C72_same_trail_adjacent_partial C72_second_layer_unsorted_refuted",
  "Proved with the first layer's landmarks counting as 0 (as the code has it); C72_second_layer_unsorted_refuted: consequently the second layer stays in place and two-layer indexes are not reordered at all. The searches start at element 0 in every layer (eps[i] is read before it is set), which the definition of landmark (a search of that layer alone) reflects.")
c("C73","partial","C73_fewer_neighbours_is_a_prefix C73_larger_max_search_not_worse_partial C73_ties_refuted",
  "Proved without ties (no_ties); C73_ties_refuted gives an index of seven nodes where raising max_search from 1 to 2 makes the nearest result worse. Prefix part proved in full.")
c("C74","partial","C74_file_format C74_which_files_load C74_which_files_open C74_layout_irrelevant C74_version_checked_refuted C74_counts_checked_refuted",
  "Format and exact set of readable files proved for all indexes and all byte strings; a check of the version and of the counts is refuted by concrete files. The JSON reader is the whole of RFC 8259 with the limit of 127 levels; only numbers beyond the range of f64, which serde_json refuses, are accepted.")
c("C75","partial","C75_export_by_position C75_export_by_name_refuted C75_export_writes_the_vectors C75_parse_by_position_and_name C75_bad_arguments C75_get_embedding C75_dist C75_dists C75_dist_raises_refuted C75_save_and_open C75_save_and_open_empty_refuted C75_open_needs_both C75_parameter_names C75_argument_binding",
  "Proved for all files and histories, except what the code refutes: the keyword arguments of compute_embeddings_and_save_to_disk are swapped (declared as embeddings_path, elements_path, passed to a function of elements_path, embeddings_path); dist panics on values of the wrong kind; an empty Embeddings object does not survive saving and opening.")
c("C76","partial","C76_in_range C76_checked_build_refuses C76_reasonable_index_refused C76_unchecked_build_exact_partial C76_refuted C76_subslice C76_neighbours_in_range C76_compressed_index_refuses C76_saved_index_refuses C76_builder_index_checked C76_builder_index_refuted C76_variable_width C76_variable_width_load C76_variable_width_load_refuted C76_any_record C76_any_record_order_refuted C76_search_width",
  "Proved with overflow checks, and without for compressed layers, variable-width vectors and for every index whose position is below 2^64; for the others the exact answer of a build without checks is proved, and that it refutes the claim.")
c("C77","partial","C77_tasks_run_as_threads C77_no_panic C77_stuck_for_ever C77_every_task_returns_refuted C77_single_threaded_builder C77_one_inserting_task C77_returned_means_done",
  "False as stated: insert_batch holds the elements lock while pool.install lets the worker run other tasks (refuted theorem, for writer- and reader-preferring locks). Proved: safety for all tasks, returning in the two situations named.")
c("C78","partial","C78_parse C78_failure_changes_nothing C78_unreadable_panics C78_shard_names C78_shards C78_no_file_name C78_numeric_order_refuted C78_outputs_apart_refuted C78_rerun_refuted",
  "Proved on a model of disks and paths (literal paths, no links or permissions; UTF-8 and gzip are parameters); three further expectations are refuted by concrete disks.")
c("C79","partial","C79_export C79_output_is_input_refuted",
  "False when the output is one of the inputs (refuted theorem: for every such call). Proved otherwise; the exported bytes are those of C56.")
c("C80","proved","C80_utf8 C80_lines_are_decoded_one_by_one C80_json C80_dictionary_bytes C80_parse C80_bad_line C80_unquoted_lines",
  "UTF-8 (std) and JSON strings (serde_json) are modelled from their documentation; gunzip remains a parameter.")
c("C81","proved","C81_quantised_distance C81_coarseness C81_order_kept C81_kinds_agree",
  "Over the exact f32 and i32 arithmetic of C51-C53; the standard library's axioms of the reals.")
c("C82","partial","C82_completed_save C82_own_files C82_same_builder C82_files_left_alone C82_no_panic C82_every_call_returns C82_files_emptied_by_a_waiting_save_refuted C82_old_files_lost_refuted C82_one_name_for_both_refuted",
  "No move panics and every run can be finished (locks without writer preference, release build, at most 34 layers). Exact contents proved for every return at which no other thread is inside a save to the same files (always so if each thread saves to its own files). The code refutes the rest: a second save to the same files empties them before waiting for the lock. Failing file operations, links and other processes are not modelled.")
c("C83","partial","C83_number_of_layers C83_one_thread C83_width_of_layers C83_extra_layers_refuted",
  "The bound proved (layers needed + threads - 1) is reached, so the property as stated is false of the code for two or more threads that race at the limit. L: any layer whose size is max_elements; debug builds included.")
c("C84","partial","C84_saves_elsewhere C84_after_reorder C84_lives C84_reordered_in_place C84_builder_saves C84_builder_after_append C84_own_index_refuted C84_own_elements_refuted C84_over_elements_refuted C84_builder_own_elements_refuted",
  "Saving over a mapped file is refuted (for every index and every such file, not only by an example). A mapping whose file has changed is taken to kill its reader; renamed and deleted files are not modelled. C84_reordered_in_place takes what C71 proves of the index in memory as its hypothesis.")
c("C85","partial","C85_only_bad_calls_panic C85_ids C85_results C85_left_in_order C85_someone_can_go C85_nothing_of_a_panicked_batch_remains_refuted C85_int8 C85_f32",
  "Refuted only in that part of a batch remains. Release builds that unwind, with locks that are not poisoned (parking_lot). The guards of a call are dropped together. C85_someone_can_go is for locks that let readers in while a writer waits (see C44 for the others).")
#NEXT
props=[json.loads(l)["id"] for l in open("/verif/properties.jsonl")]
C.sort(key=lambda x: x["property"])
names=set()
for f in glob.glob("/verif/rocq/theories/T*.v"):
    names|=set(re.findall(r"^\s*Theorem\s+(\w+)", open(f).read(), re.M))
used=set()
for x in C:
    assert x["property"] in props, x
    for t in x["theorems"]:
        assert t in names, t
        used.add(t)
print("unclaimed theorems:", sorted(names-used))
print("properties without claim:", [p for p in props if p not in {x["property"] for x in C}])
json.dump({"claims":C}, open("/verif/MANIFEST.json","w"), indent=1)
