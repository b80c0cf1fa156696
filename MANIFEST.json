{
 "claims": [
  {
   "property": "C01",
   "status": "proved",
   "theorems": [
    "C01_collected_bitmap_reads_back",
    "C01_every_list_is_collected",
    "C01_try_collected_bitmap_reads_back"
   ],
   "note": "Any bit iterator; liveness clause under the allocation limit for what the iterator yields and promises."
  },
  {
   "property": "C02",
   "status": "partial",
   "theorems": [
    "C02_collect_resumable_refuted",
    "C02_try_collect_resumable_refuted",
    "C02_collect_settling_partial",
    "C02_try_collect_settling_partial",
    "C02_what_is_collected",
    "C02_what_is_try_collected"
   ],
   "note": "False for Bitmap: from_iter, from_iter_in and try_from_iter_in keep items produced after a None in the middle of a byte. Proved exactly: the collected bitmap shows the items before the first None if and only if the iterator settles (stops after whole groups of eight, or stays silent up to the first call of the next group). C02_what_is_collected and C02_what_is_try_collected say for every iterator, settling or not, which bits the collected bitmap shows: one bit per call, None as false, in groups of eight calls until a group begins with None, cut down to the number of items (answers and packed_answers in SpecResume.v)."
  },
  {
   "property": "C03",
   "status": "proved",
   "theorems": [
    "C03_parts_accepted_exactly",
    "C03_parts_read_back"
   ],
   "note": ""
  },
  {
   "property": "C04",
   "status": "proved",
   "theorems": [
    "C04_extend_appends"
   ],
   "note": "Any built bitmap, any offset, any padding, any iterator. Fails only if the iterator yields or promises more than can be allocated."
  },
  {
   "property": "C05",
   "status": "proved",
   "theorems": [
    "C05_panicking_extend_leaves_a_prefix"
   ],
   "note": "The prefix is given exactly: the items that complete the last byte."
  },
  {
   "property": "C06",
   "status": "proved",
   "theorems": [
    "C06_try_extend_is_atomic"
   ],
   "note": ""
  },
  {
   "property": "C07",
   "status": "proved",
   "theorems": [
    "C07_null_counts"
   ],
   "note": ""
  },
  {
   "property": "C08",
   "status": "proved",
   "theorems": [
    "C08_histories_refine_a_list"
   ],
   "note": ""
  },
  {
   "property": "C09",
   "status": "proved",
   "theorems": [
    "C09_not_for_torn_rows",
    "C09_iterators_exact"
   ],
   "note": "Every collection that can be built, all shapes. C09_not_for_torn_rows shows why torn fixed-size lists are excepted; C55 and C57 say what holds of them."
  },
  {
   "property": "C10",
   "status": "proved",
   "theorems": [
    "C10_collected_options_read_back",
    "C10_try_collected_options_read_back"
   ],
   "note": "All shapes without zero widths, infallible and fallible collecting; a null item's view is None; indices past the end give None; liveness clause when sizes are within the limit."
  },
  {
   "property": "C11",
   "status": "proved",
   "theorems": [
    "C11_extend_appends",
    "C11_not_for_torn_rows"
   ],
   "note": "Any built nullable collection, implicit or explicit validity, any bit offset, any iterator. C11_not_for_torn_rows shows why torn fixed-size lists are excepted; C55 and C57 say what holds of them."
  },
  {
   "property": "C12",
   "status": "proved",
   "theorems": [
    "C12_panicking_extend_leaves_chunks",
    "C12_panicking_try_extend_leaves_chunks"
   ],
   "note": "Exactly the whole chunks of 1024 are kept when there is room; for panic-safe inner shapes (classification in Reach.panic_safe; C23 shows what happens for the others)."
  },
  {
   "property": "C13",
   "status": "proved",
   "theorems": [
    "C13_try_extend_is_atomic",
    "C13_not_for_torn_rows"
   ],
   "note": "Every allocator script, every size hint. C13_not_for_torn_rows shows why torn fixed-size lists are excepted; C55 and C57 say what holds of them."
  },
  {
   "property": "C14",
   "status": "proved",
   "theorems": [
    "C14_parts_accepted_exactly"
   ],
   "note": "The same after arbitrary panics: C57_null_parts."
  },
  {
   "property": "C15",
   "status": "proved",
   "theorems": [
    "C15_offsets_accepted_exactly",
    "C15_first_fault_reported"
   ],
   "note": "Exact acceptance condition and the exact first fault reported, for every child collection and every list of offsets. The same after arbitrary panics: C57_list_parts."
  },
  {
   "property": "C16",
   "status": "proved",
   "theorems": [
    "C16_collected_lists_read_back",
    "C16_try_collected_lists_read_back",
    "C16_parts_are_slices"
   ],
   "note": "Both collecting functions and slices from parts."
  },
  {
   "property": "C17",
   "status": "proved",
   "theorems": [
    "C17_extend_appends",
    "C17_not_for_torn_rows"
   ],
   "note": "Any list collection built through the API, any iterator. C17_not_for_torn_rows shows why torn fixed-size lists are excepted; C55 and C57 say what holds of them."
  },
  {
   "property": "C18",
   "status": "proved",
   "theorems": [
    "C18_offsets_stay_valid",
    "C18_overflowing_extend_panics",
    "C18_overflowing_extend_never_returns",
    "C18_overflowing_try_extend_fails"
   ],
   "note": "Offsets stay valid after any operation; overflow panics (infallible) or fails (fallible), keeping exactly the lists before the overflow. The same after arbitrary panics: C57_list_rows."
  },
  {
   "property": "C19",
   "status": "proved",
   "theorems": [
    "C19_try_extend_is_atomic",
    "C19_not_for_torn_rows"
   ],
   "note": "Every allocator script, every size hint. C19_not_for_torn_rows shows why torn fixed-size lists are excepted; C55 and C57 say what holds of them."
  },
  {
   "property": "C20",
   "status": "proved",
   "theorems": [
    "C20_parts_accepted_exactly"
   ],
   "note": "All widths including 0, all children. The same after arbitrary panics: C57_fixed_parts."
  },
  {
   "property": "C21",
   "status": "proved",
   "theorems": [
    "C21_collected_rows_read_back",
    "C21_try_collected_rows_read_back",
    "C21_extend_appends",
    "C21_truncate_keeps_a_prefix",
    "C21_not_for_torn_rows"
   ],
   "note": "Collecting (three ways), extend, truncate; liveness clauses within the size limits. C21_not_for_torn_rows shows why torn fixed-size lists are excepted; C55 and C57 say what holds of them."
  },
  {
   "property": "C22",
   "status": "partial",
   "theorems": [
    "C22_view_out_of_bounds_partial",
    "C22_fixed_view_refuted",
    "C22_list_view_refuted",
    "C22_refuted"
   ],
   "note": "False in general: Flatten::view panics for every out of bounds index and Offsets::view(usize::MAX) panics (both proved for all collections). Proved for all other outermost collections."
  },
  {
   "property": "C23",
   "status": "partial",
   "theorems": [
    "C23_panicking_extend_keeps_rows_partial",
    "C23_bits_refuted",
    "C23_options_refuted",
    "C23_lists_refuted",
    "C23_words_refuted",
    "C23_refuted"
   ],
   "note": "False in general. Proved for the layouts classified by panic_safe; C23_*_refuted show what the others do: rows get mixed up after a panic (booleans, options, lists), and for primitives after a size hint that is a lie makes the vector panic in the middle of a row."
  },
  {
   "property": "C24",
   "status": "proved",
   "theorems": [
    "C24_collected_items_read_back",
    "C24_honest_iterators_need_room_for_their_items"
   ],
   "note": "All item types without zero widths; bitmaps need a fused iterator (see C02). Completes whenever the items and the promised items fit; for iterators with honest hints that is the room for the items."
  },
  {
   "property": "C25",
   "status": "proved",
   "theorems": [
    "C25_not_for_torn_rows",
    "C25_try_extend_is_atomic"
   ],
   "note": "Every item type, allocator script and size hint. C25_not_for_torn_rows shows why torn fixed-size lists are excepted; C55 and C57 say what holds of them."
  },
  {
   "property": "C26",
   "status": "proved",
   "theorems": [
    "C26_histories_refine_lists",
    "C26_executions_refine_lists",
    "C26_extend_appends"
   ],
   "note": "Any history without process abort; panicking extensions covered as classified by Reach.panic_safe (C23 shows what happens for the others)."
  },
  {
   "property": "C27",
   "status": "proved",
   "theorems": [
    "C27_reserve_keeps_contents",
    "C27_try_reserve_keeps_contents",
    "C27_truncate_keeps_a_prefix"
   ],
   "note": "The same after arbitrary panics: C55_operations."
  },
  {
   "property": "C28",
   "status": "proved",
   "theorems": [
    "C28_reservation_suffices",
    "C28_reservation_suffices_in_parts",
    "C28_lists_get_one_element_each",
    "C28_not_for_lists",
    "C28_reservation_succeeds"
   ],
   "note": "Proved for every reachable collection without lists, any allocator after the reservation, one or several extensions; the iterator ends and its lower size bound is honest (Vec trusts it). Lists are excluded by the property; what a reservation covers for them is proved too (C28_lists_get_one_element_each), and that more is refused (C28_not_for_lists)."
  },
  {
   "property": "C29",
   "status": "partial",
   "theorems": [
    "C29_try_collected_items_read_back",
    "C29_empty_constructors",
    "C29_upper_bound_refuted",
    "C29_refuted",
    "C29_construction_succeeds",
    "C29_empty_construction_succeeds",
    "C29_extension_succeeds"
   ],
   "note": "False as stated: nullable and list collections reserve for the upper size bound (C29_refuted, C29_upper_bound_refuted). Proved with the upper bound fitting as well for those; for vectors, bitmaps and fixed-size lists of them no condition on the upper bound is needed. Sizes must fit in what can be allocated at all (limit)."
  },
  {
   "property": "C30",
   "status": "partial",
   "theorems": [
    "C30_zero_width_refuted",
    "C30_zero_width_parts_rejected"
   ],
   "note": "False: only try_from_parts rejects the width 0. Collected zero-width rows give a collection whose len, truncate and iter_views panic, whose owned iterator is empty and whose view returns a row for every index."
  },
  {
   "property": "C31",
   "status": "proved",
   "theorems": [
    "C31_views_are_slices",
    "C31_equality_is_pointwise"
   ],
   "note": "OffsetView len, view, iteration, into_owned and equality. The same after arbitrary panics: C57_list_views and C57_list_equality."
  },
  {
   "property": "C32",
   "status": "partial",
   "theorems": [
    "C32_bitmap_parts_inverse",
    "C32_fixed_parts_inverse",
    "C32_list_parts_inverse",
    "C32_null_parts_inverse_partial",
    "C32_calm_is_built",
    "C32_after_panic_refuted",
    "C32_refuted"
   ],
   "note": "Bitmap, Flatten and Offsets: for every built value. Validity: for every value built without an extension that panicked; false after an offset overflow inside a nullable list extension (C32_refuted), and after a panicking iterator (C32_after_panic_refuted)."
  },
  {
   "property": "C33",
   "status": "partial",
   "theorems": [
    "C33_round_trip_partial",
    "C33_round_trip_refuted",
    "C33_panicked_array_not_importable"
   ],
   "note": "Proved for all arrays that no panicking extension touched. False as stated: an extension of a nullable array of fixed-size lists of lists whose 32-bit offsets overflow panics although no iterator does, and the array it leaves exports but cannot be imported. The same after a panicking iterator. C56 says exactly which arrays import back after panics."
  },
  {
   "property": "C34",
   "status": "proved",
   "theorems": [
    "C34_export_rejects_offsets",
    "C34_exported_items",
    "C34_exported_pair_describes",
    "C34_items_determined"
   ],
   "note": "Hypothesis: at most 2^63 elements altogether (beyond, the length does not fit i64 and export panics). That the whole pair describes the array needs that no extension panicked. For other arrays C56 shows that it holds the items and describes only memory that exists."
  },
  {
   "property": "C35",
   "status": "proved",
   "theorems": [
    "C35_import_never_panics",
    "C35_import_accepts_exactly",
    "C35_imported_items"
   ],
   "note": "The safety contract (readable) only concerns the validity of non-null pointers. import succeeds exactly on the pairs that describe an array of the type."
  },
  {
   "property": "C36",
   "status": "proved",
   "theorems": [
    "C36_own_format_accepted",
    "C36_no_other_width",
    "C36_accepted_strings"
   ],
   "note": "The accepted strings are exactly +w: followed by a non-empty decimal number with value N; leading zeros are accepted."
  },
  {
   "property": "C37",
   "status": "proved",
   "theorems": [
    "C37_freed_exactly_on_release",
    "C37_allocations_distinct",
    "C37_buffers_of_export"
   ],
   "note": "A step that would free or read unallocated memory has no result, so the existence of the state says that nothing is freed twice or read after release. The initial state is the one that export, run step by step on a heap that holds the collection, leaves."
  },
  {
   "property": "C38",
   "status": "partial",
   "theorems": [
    "C38_moved_children_partial",
    "C38_moved_child_refuted"
   ],
   "note": "False of the code: the storage belongs to the outermost array, so the buffers of a child that was moved out are freed with its parent. Proved: until then everything stays valid, nothing is freed twice and nothing leaks."
  },
  {
   "property": "C39",
   "status": "proved",
   "theorems": [
    "C39_validity_is_consistent"
   ],
   "note": "The same after arbitrary panics: C57_validity."
  },
  {
   "property": "C40",
   "status": "proved",
   "theorems": [
    "C40_implicit_shows_as_explicit",
    "C40_histories_agree",
    "C40_extensions_agree",
    "C40_materializing_changes_nothing"
   ],
   "note": "Same items, counts and outcomes; histories compared at equal outcomes because materializing needs memory that an explicit bitmap already has."
  },
  {
   "property": "C41",
   "status": "proved",
   "theorems": [
    "C41_same_calls",
    "C41_yields_the_items",
    "C41_imported_items"
   ],
   "note": "Iterators over slices, Rc and Arc (SliceIntoIter and the layout iterators above it) are modelled separately in StorageModel.v. Box and array storage use std iterators, as Vec does. The storage of each buffer is chosen separately (own_in)."
  },
  {
   "property": "C42",
   "status": "partial",
   "theorems": [
    "C42_boxed_items_read_back",
    "C42_nullable_boxed_items_read_back",
    "C42_try_boxed_items_partial",
    "C42_try_boxed_succeeds",
    "C42_boxed_empty",
    "C42_shrink_refuted"
   ],
   "note": "False in one case: into_boxed_slice after a fallible construction with spare capacity ends the process if the allocator refuses to shrink the buffer (C42_shrink_refuted). Everything else is proved; with an allocator that refuses nothing the fallible constructors succeed."
  },
  {
   "property": "C43",
   "status": "proved",
   "theorems": [
    "C43_errors_are_true",
    "C43_faults_are_violations",
    "C43_rejected_exactly_the_faulty"
   ],
   "note": "fault (SpecFault.v) is written on the raw structures, without the functions of import. Which of several faults is reported is not specified; format and structure checks come first in the code."
  },
  {
   "property": "C44",
   "status": "proved",
   "theorems": [
    "C44_failed_export_leaves_nothing"
   ],
   "note": "Heap semantics of export step by step (FfiExportModel.v); a step that frees or reads unallocated memory has no result. The state after a successful export is the one C37 and C38 start from."
  },
  {
   "property": "C45",
   "status": "proved",
   "theorems": [
    "C45_extend_stops",
    "C45_try_extend_stops",
    "C45_extend_exhausts",
    "C45_try_extend_exhausts",
    "C45_lent_iterator_resumes",
    "C45_collect_stops",
    "C45_try_collect_stops",
    "C45_not_for_collected_bitmaps"
   ],
   "note": "The first two theorems assume nothing about the collection. C45_not_for_collected_bitmaps shows why collecting booleans is excluded (see C02). The same after arbitrary panics: C57_extend_exhausts and C57_try_extend_exhausts."
  },
  {
   "property": "C46",
   "status": "proved",
   "theorems": [
    "C46_writing_as_lists",
    "C46_seen_as_lists",
    "C46_owned_row",
    "C46_owned_rows",
    "C46_round_trip"
   ],
   "note": "Writing is equal to writing the lists of items (all results, for any collections), so C16, C17 and C29 carry over. The items of T and U have one type in Rust; here two functions stand for the identity between them."
  },
  {
   "property": "C47",
   "status": "proved",
   "theorems": [
    "C47_constructed_with_one_handle",
    "C47_histories_keep_the_handle",
    "C47_no_new_handles"
   ],
   "note": "Handles are kept beside the collections of the other files (HandleModel.v); that a bitmap has a handle exactly when it exists is proved for every operation of those."
  },
  {
   "property": "C48",
   "status": "proved",
   "theorems": [
    "C48_empty",
    "C48_collected",
    "C48_try_collected",
    "C48_extended",
    "C48_try_extended",
    "C48_reserved",
    "C48_histories",
    "C48_laid_shows",
    "C48_wrapped",
    "C48_not_after_truncation"
   ],
   "note": "The layout is defined in SpecLaid.v without operations of the model. C48_not_after_truncation shows why truncation is not included."
  },
  {
   "property": "C49",
   "status": "proved",
   "theorems": [
    "C49_collected",
    "C49_try_collected",
    "C49_histories",
    "C49_bytes"
   ],
   "note": "Joins C33, C34 and C48: the hypotheses of C33_round_trip_partial are established for everything collected or extended. item_fits states that values fit their types, a fact of Rust's types; the bound of 2^63 elements is the one of C34."
  },
  {
   "property": "C50",
   "status": "proved",
   "theorems": [
    "C50_packed",
    "C50_packed_until_panic",
    "C50_packed_hints",
    "C50_unpacked",
    "C50_unpacked_any",
    "C50_unpacked_hints",
    "C50_inverse"
   ],
   "note": "For sources that stay at their end. C50_packed_until_panic needs no such assumption. Bytes for unpacking are those of a buffer (at most 2^60), so that the hint in bits does not overflow."
  },
  {
   "property": "C51",
   "status": "proved",
   "theorems": [
    "C51_extend",
    "C51_try_extend",
    "C51_reserve",
    "C51_truncate",
    "C51_collected",
    "C51_histories",
    "C51_same",
    "C51_plain_histories",
    "C51_clone"
   ],
   "note": "Premise snug: nothing behind the items, as after collecting; kept by every operation that the theorems cover. Absent bitmaps of validity count as the ones they stand for. Histories with truncations: bits, numbers and fixed-size lists of them."
  },
  {
   "property": "C52",
   "status": "proved",
   "theorems": [
    "C52_source",
    "C52_copy",
    "C52_try_copy",
    "C52_same",
    "C52_append",
    "C52_try_append",
    "C52_exports",
    "C52_relay"
   ],
   "note": "Copying succeeds if the items fit the documented bounds (total cost at most limit); beyond them it may abort. Same bytes up to absent bitmaps of validity. The same after arbitrary panics: C57_copy and C57_try_copy."
  },
  {
   "property": "C53",
   "status": "proved",
   "theorems": [
    "C53_items",
    "C53_map",
    "C53_zip",
    "C53_zip_with",
    "C53_map_map",
    "C53_is_empty"
   ],
   "note": "Closures are functions of a value and a state that return or panic."
  },
  {
   "property": "C54",
   "status": "proved",
   "theorems": [
    "C54_whole_rows_are_read",
    "C54_truncate_repairs",
    "C54_extend_shifts",
    "C54_after_a_panic"
   ],
   "note": "Children that survive the panic: panic_safe; for the others (nested fixed-size lists that are torn themselves) see C55."
  },
  {
   "property": "C55",
   "status": "proved",
   "theorems": [
    "C55_reading_survives",
    "C55_operations",
    "C55_exact_without_arrays"
   ],
   "note": "After OAbort nothing is claimed (the process is gone). What exactly the rows of a torn fixed-size list contain is said by C54."
  },
  {
   "property": "C56",
   "status": "proved",
   "theorems": [
    "C56_export",
    "C56_exported_items",
    "C56_import_back",
    "C56_round_trip_without_arrays"
   ],
   "note": "Hypotheses: at most 2^63 elements altogether; values of the Rust types (typed); for importing, allocations aligned for the values. After OAbort nothing is claimed."
  },
  {
   "property": "C57",
   "status": "proved",
   "theorems": [
    "C57_outside",
    "C57_validity",
    "C57_null_parts",
    "C57_fixed_parts",
    "C57_list_parts",
    "C57_list_rows",
    "C57_list_views",
    "C57_list_equality",
    "C57_copy",
    "C57_try_copy",
    "C57_extend_exhausts",
    "C57_try_extend_exhausts"
   ],
   "note": "Without panics these are C22, C39, C14, C20, C15, C18, C31, C52 and C45. C22 itself is partial because out-of-range views of fixed-size lists panic; C57_outside says so again."
  },
  {
   "property": "C58",
   "status": "proved",
   "theorems": [
    "C58_extension_completes",
    "C58_fallible_extension_succeeds",
    "C58_reservation_succeeds",
    "C58_fallible_reservation_succeeds",
    "C58_growth_is_bounded",
    "C58_histories_end_well",
    "C58_reservation_suffices",
    "C58_lists_get_one_element_each"
   ],
   "note": "The room is counted as in C26 to C29 (`held`, `cost`, `limit` in Reach.v). A fallible extension whose source panics may return an error or panic."
  },
  {
   "property": "C59",
   "status": "proved",
   "theorems": [
    "C59_released_exactly_once",
    "C59_moved_children",
    "C59_pointers",
    "C59_failed_export"
   ],
   "note": "Any placement of the buffers per buffer; weak references and the contents of shared buffers are not modelled."
  },
  {
   "property": "C60",
   "status": "proved",
   "theorems": [
    "C60_handed_over",
    "C60_handed_over_fallibly",
    "C60_collected",
    "C60_writing_whole",
    "C60_whole_as_lists",
    "C60_filled_are_whole",
    "C60_lists_are_whole",
    "C60_owned_row",
    "C60_owned_rows",
    "C60_clone",
    "C60_shared_storage"
   ],
   "note": "Running out of memory in the infallible operations ends the process; then nothing is claimed. That the operations succeed when there is room is C58 through C60_writing_whole."
  },
  {
   "property": "C61",
   "status": "proved",
   "theorems": [
    "C61_reserved_room_is_used",
    "C61_reserved_room_is_used_by_lists",
    "C61_reservations_agree",
    "C61_reserving_asks_once",
    "C61_creating_asks_once",
    "C61_collecting_asks_once",
    "C61_refusals_are_reported",
    "C61_refused_reservations_are_reported",
    "C61_buffers_grow",
    "C61_buffers_move_seldom"
   ],
   "note": "Collecting is claimed for sources that know how many items come, without lists. Growth of the infallible operations is that of std's Vec, which is modelled as doubling."
  },
  {
   "property": "C62",
   "status": "proved",
   "theorems": [
    "C62_extending_at_most_doubles",
    "C62_extending_lists_at_most_quadruples",
    "C62_fallible_extensions_ask_for_what_is_needed",
    "C62_fallible_extensions_of_lists_ask_for_what_is_needed",
    "C62_reserving_at_most_doubles",
    "C62_fallible_reservations_ask_for_what_is_announced",
    "C62_capacity_is_exact",
    "C62_fallible_capacity_is_close",
    "C62_collecting_asks_for_what_is_needed",
    "C62_infallible_collecting_at_most_doubles",
    "C62_collecting_lists_asks_for_what_is_needed",
    "C62_infallible_collecting_of_lists_at_most_quadruples",
    "C62_clones_are_exact",
    "C62_not_for_lists_of_lists"
   ],
   "note": "Infallible extension of lists of lists is excluded because the bound is false of it (C62_not_for_lists_of_lists). Lists are claimed for histories without panicking extensions. Collecting is claimed for exact size hints (lists: any honest hint)."
  },
  {
   "property": "C63",
   "status": "proved",
   "theorems": [
    "C63_equal_messages_equal_errors",
    "C63_messages_state_the_numbers",
    "C63_source"
   ],
   "note": "The plain form {} of the messages. AllocError has one message and no numbers."
  },
  {
   "property": "C64",
   "status": "proved",
   "theorems": [
    "C64_debug_determines_the_buffers",
    "C64_clones_print_alike",
    "C64_views_print_their_range",
    "C64_bitmaps_state_their_fields",
    "C64_integers_are_listed",
    "C64_offsets_are_listed",
    "C64_views_state_their_range"
   ],
   "note": "The plain form {:?}. What std prints for integers, lists, options and ranges is part of the model; floating point numbers are left out."
  },
  {
   "property": "C65",
   "status": "proved",
   "theorems": [
    "C65_import_borrows",
    "C65_slices_are_buffers",
    "C65_nothing_else_is_read",
    "C65_schema_not_borrowed",
    "C65_borrowed_until_release"
   ],
   "note": "Memory is a byte for every address. The slices of one array may overlap; nothing is claimed about memory that changes while it is borrowed, which the contract of import excludes. The last part uses the heap model of C37 and C38."
  }
 ]
}