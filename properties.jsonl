{"id": "C01", "title": "Collected bitmaps read back the collected booleans", "statement": "Collecting a well-behaved (fused) iterator of booleans into a Bitmap gives a bitmap whose len() is the number of items and whose view(i), iter_views() and into_iter_owned() return exactly the items in order; view(i) is None for every i >= len().", "quantifier": "every finite sequence of booleans and every index", "why_tests_cant": "the packed representation has a different case for each length modulo 8 and every bit pattern", "anchors": ["src/bitmap/mod.rs: FromIterator::from_iter, Collection::view, IntoIterator::into_iter", "src/bitmap/packed.rs: BitPacked::next", "src/bitmap/unpacked.rs: BitUnpacked::next"]}
{"id": "C02", "title": "Collecting a resumable iterator stops at the first None", "statement": "Collecting any iterator into a Bitmap (from_iter, from_iter_in, try_from_iter_in) gives the items produced before the iterator first returned None, as it does for Vec and as Bitmap::extend does, also when the iterator would produce further items after that None.", "quantifier": "every iterator behaviour, including iterators that resume after None", "why_tests_cant": "needs iterators that violate FusedIterator, at every phase of the 8-item packing loop", "anchors": ["src/bitmap/mod.rs: FromIterator::from_iter, CollectionAllocIn::from_iter_in, try_from_iter_in", "src/bitmap/packed.rs: BitPacked::next"]}
{"id": "C03", "title": "Bitmap::try_from_parts accepts exactly the in-bounds parts", "statement": "Bitmap::try_from_parts(buffer, bits, offset) succeeds exactly when offset + bits does not overflow and is at most 8 * buffer.len(); otherwise it returns OutOfBounds with the given numbers. On success, view(i) for i < bits is bit (offset+i) of the buffer in LSB-first order, len() is bits, and into_parts() gives back the three parts.", "quantifier": "every buffer, bit count, bit offset and index, including values near usize::MAX", "why_tests_cant": "unbounded buffers and offsets; overflow corner cases", "anchors": ["src/bitmap/mod.rs: Bitmap::try_from_parts, into_parts, view, bit_offset"]}
{"id": "C04", "title": "Extending a bitmap appends, whatever is in the padding", "statement": "For every bitmap (any bit offset, any stale bits and bytes after its logical end) extend(iter) keeps the previous items and appends exactly the items of iter up to its first None.", "quantifier": "every bitmap value, every bit offset, every padding content, every iterator (resumable ones too)", "why_tests_cant": "the result depends on the alignment of offset+len, on leftover bytes and on the number of appended items", "anchors": ["src/bitmap/mod.rs: Extend::extend"]}
{"id": "C05", "title": "A panicking bitmap extension leaves a prefix and later extensions are exact", "statement": "If the iterator panics in Bitmap::extend (or try_extend), the bitmap afterwards shows its old items followed by a prefix of the items the iterator had produced; uncommitted bits are never visible after any later extension.", "quantifier": "every bitmap, every iterator, every point at which it panics, every later sequence of operations", "why_tests_cant": "all panic points times all alignments times all follow-up histories", "anchors": ["src/bitmap/mod.rs: Extend::extend, CollectionRealloc::try_extend (doc lines 79-80)"]}
{"id": "C06", "title": "Bitmap::try_extend is atomic under allocation failure", "statement": "Bitmap::try_extend returns Ok and appends exactly the items of the iterator, or returns AllocError and leaves the logical contents unchanged, for every behaviour of the allocator.", "quantifier": "every bitmap, every iterator with any size_hint, every pattern of allocation successes and failures", "why_tests_cant": "allocation failures at arbitrary points cannot be injected exhaustively", "anchors": ["src/bitmap/mod.rs: CollectionRealloc::try_extend", "src/collection/vec.rs: try_extend", "src/collection/mod.rs: CollectionRealloc::try_extend doc 351-357"]}
{"id": "C07", "title": "Bitmap null counts are the counts of visible bits", "statement": "For a validity bitmap with any bit offset and any padding, null_count() is the number of visible false bits, valid_count() the number of true bits, any_null/all_null/any_valid/all_valid agree with those counts, and is_valid(i)/is_null(i) are Some of the i-th bit for i < len() and None otherwise.", "quantifier": "every bitmap content, length, bit offset and padding", "why_tests_cant": "leading and trailing byte masks depend on every combination of offset and end alignment", "anchors": ["src/bitmap/mod.rs: count_ones", "src/bitmap/validity.rs: ValidityBitmap"]}
{"id": "C08", "title": "Bitmap histories refine a list of booleans", "statement": "After any sequence of extend, try_extend, truncate, reserve and try_reserve calls, including calls whose iterator panics and calls that fail to allocate, the contents of the bitmap are those of a plain list of booleans on which the same operations were performed.", "quantifier": "every finite history of operations, every iterator and allocator behaviour", "why_tests_cant": "histories are unbounded and interleave panics, failures and truncations that leave stale bits", "anchors": ["src/bitmap/mod.rs: Extend, CollectionRealloc"]}
{"id": "C09", "title": "Output iterators are exact", "statement": "iter_views() and into_iter_owned() of every collection produce exactly len() items, report (remaining, Some(remaining)) as size_hint before every call to next, and keep returning None afterwards.", "quantifier": "every collection value and every number of calls to next — except those holding a fixed-size list that a panic tore in the middle of a row (C23), which C54, C55 and C57 are about", "why_tests_cant": "must hold at every intermediate iterator state", "anchors": ["src/bitmap/unpacked.rs: BitUnpacked", "src/validity.rs: ValidityIter", "src/collection/flatten.rs: ArrayChunks, iter_views", "src/offset.rs: OffsetIntoIter, iter_views", "src/collection/slice.rs: SliceIntoIter"]}
{"id": "C10", "title": "Nullable collections read back the collected options", "statement": "Collecting options into a Validity gives a collection whose len(), view, owned, iter_views and into_iter_owned return exactly those options in order; a None never exposes the placeholder value.", "quantifier": "every finite sequence of options over every inner collection", "why_tests_cant": "unbounded sequences; validity bits and values are kept in separate buffers", "anchors": ["src/validity.rs: FromIterator, Collection, ValidityIter"]}
{"id": "C11", "title": "Extending a nullable collection appends", "statement": "Validity::extend keeps the previous items and appends exactly the iterator's items, whether validity was implicit (no bitmap) or explicit, with any bitmap offset, and for any number of items relative to the 1024-item chunk size.", "quantifier": "every nullable collection, every iterator of any length — except those holding a fixed-size list that a panic tore in the middle of a row (C23), which C54, C55 and C57 are about", "why_tests_cant": "chunk boundary and implicit-validity cases combine with unbounded lengths", "anchors": ["src/validity.rs: Extend::extend, materialize_bitmap, from_collection"]}
{"id": "C12", "title": "A panicking nullable extension leaves whole committed items", "statement": "If the iterator panics in Validity::extend, the collection afterwards shows its old items followed by a prefix of the produced items, and the next extension discards the uncommitted suffix and appends exactly its items.", "quantifier": "every nullable collection over a panic-safe inner collection, every panic point, every later history", "why_tests_cant": "panic points inside and across chunks, unbounded histories", "anchors": ["src/validity.rs: Extend::extend (doc 25-26)"]}
{"id": "C13", "title": "Validity::try_extend is atomic under allocation failure", "statement": "Validity::try_extend appends all items and returns Ok, or returns AllocError with unchanged logical contents, for every behaviour of the allocator, including failures while materializing the bitmap and after whole chunks have been committed.", "quantifier": "every nullable collection, iterator, size_hint and allocator behaviour — except those holding a fixed-size list that a panic tore in the middle of a row (C23), which C54, C55 and C57 are about", "why_tests_cant": "failure points across two buffers and unboundedly many chunks", "anchors": ["src/validity.rs: CollectionRealloc::try_extend, try_materialize_bitmap, truncate"]}
{"id": "C14", "title": "Validity::try_from_parts accepts exactly equal lengths", "statement": "Validity::try_from_parts succeeds exactly when the collection and the bitmap have the same length, otherwise reports both lengths; on success item i is Some(collection[i]) if bit i is set and None otherwise, and into_parts gives the parts back.", "quantifier": "every inner collection and every bitmap (any offset)", "why_tests_cant": "unbounded inputs", "anchors": ["src/validity.rs: try_from_parts, into_parts, view"]}
{"id": "C15", "title": "Offsets::try_from_parts accepts exactly valid offsets", "statement": "Offsets::try_from_parts succeeds exactly when the offsets are non-empty, start at 0, are non-negative, never decrease and end at most at the data length; otherwise it returns the error describing the first violation with the right index.", "quantifier": "every offsets buffer (i32 and i64) and every data length", "why_tests_cant": "unbounded buffers; the first offending position is arbitrary", "anchors": ["src/offset.rs: Offsets::try_from_parts, OffsetsError"]}
{"id": "C16", "title": "List collections read back the collected lists", "statement": "Collecting lists into Offsets gives a collection whose len, view, owned, iter_views and into_iter_owned return exactly those lists in order, empty lists included; for Offsets built from valid parts item i is data[offsets[i]..offsets[i+1]].", "quantifier": "every finite sequence of finite lists, every valid offsets/data pair", "why_tests_cant": "unbounded nested sizes", "anchors": ["src/offset.rs: FromIterator, Collection, OffsetIntoIter, OffsetView"]}
{"id": "C17", "title": "Extending a list collection appends and drops unreferenced data", "statement": "Offsets::extend keeps the previous lists and appends exactly the iterator's lists, also when the data buffer has an unreferenced suffix (from try_from_parts or from an earlier panicking extension).", "quantifier": "every list collection, every data suffix, every iterator — except those holding a fixed-size list that a panic tore in the middle of a row (C23), which C54, C55 and C57 are about", "why_tests_cant": "arbitrary unreferenced suffixes and histories", "anchors": ["src/offset.rs: Extend::extend"]}
{"id": "C18", "title": "Offsets never wrap", "statement": "When appending would push an offset past the offset type's maximum, Offsets::extend panics with the previously committed lists intact and try_extend returns AllocError with unchanged contents; no history ever yields a negative, decreasing or out-of-bounds offset.", "quantifier": "every list collection and every iterator, whatever the total length", "why_tests_cant": "needs more than 2^31 (or 2^63) items to observe", "anchors": ["src/offset.rs: Offset::strict_add, Extend::extend, try_extend"]}
{"id": "C19", "title": "Offsets::try_extend is atomic under allocation failure", "statement": "Offsets::try_extend appends all lists and returns Ok, or returns AllocError with unchanged logical contents, for every behaviour of the allocator.", "quantifier": "every list collection, iterator and allocator behaviour — except those holding a fixed-size list that a panic tore in the middle of a row (C23), which C54, C55 and C57 are about", "why_tests_cant": "failures in the child, in the offsets buffer and in offset arithmetic, after any number of committed lists", "anchors": ["src/offset.rs: CollectionRealloc::try_extend, truncate"]}
{"id": "C20", "title": "Flatten::try_from_parts accepts exactly multiples of a non-zero width", "statement": "Flatten::<_, N>::try_from_parts succeeds exactly when N > 0 and N divides the child length, otherwise reports ZeroChunkSize or NotMultiple with the numbers; on success item i is the N child items starting at i*N.", "quantifier": "every child collection and every width N", "why_tests_cant": "unbounded lengths and widths", "anchors": ["src/collection/flatten.rs: try_from_parts, view, len"]}
{"id": "C21", "title": "Fixed-size lists read back and append", "statement": "For N > 0, collecting arrays into Flatten gives a collection whose len, view (in range), owned, iter_views and into_iter_owned return exactly those arrays, and extend/truncate behave as on a list of arrays.", "quantifier": "every N > 0, every sequence of arrays, every child collection — except those holding a fixed-size list that a panic tore in the middle of a row (C23), which C54, C55 and C57 are about", "why_tests_cant": "unbounded lengths and widths", "anchors": ["src/collection/flatten.rs: Flatten, ArrayChunks"]}
{"id": "C22", "title": "view returns None out of bounds", "statement": "For every collection and every index >= len(), view(index) and owned(index) return None and do not panic (the contract stated on Collection::view).", "quantifier": "every collection value of every item type and every usize index", "why_tests_cant": "all indices up to usize::MAX on all nested layouts", "anchors": ["src/collection/mod.rs: Collection::view doc 49-60", "src/collection/flatten.rs: view", "src/offset.rs: Offsets::view, OffsetView::view", "src/validity.rs: view", "src/bitmap/mod.rs: view"]}
{"id": "C23", "title": "A panicking extension of a fixed-size list keeps rows aligned", "statement": "If the iterator panics in extend on a fixed-size-list collection, the collection afterwards shows its old rows followed by a prefix of the produced rows, and later extensions append exactly their rows.", "quantifier": "every item type T and width N, every panic point, every later history", "why_tests_cant": "the child may commit any number of items that is not a multiple of N", "anchors": ["src/collection/flatten.rs: Extend::extend, truncate", "src/bitmap/mod.rs: Extend::extend", "src/validity.rs: Extend::extend"]}
{"id": "C24", "title": "Every nested array reads back what was collected", "statement": "For every array item type built from bool, fixed-size primitives, [T; N] with N > 0, Vec<T> and Option, collecting a sequence of items into Array<T> gives an array whose len, owned(i), iter_views and into_iter_owned return exactly those items.", "quantifier": "every item type (unbounded nesting) and every finite sequence of items", "why_tests_cant": "the set of types is infinite; tests cover a handful of instantiations", "anchors": ["src/array.rs: Array", "src/layout/mod.rs: ArrayItem, Layout", "src/validity.rs", "src/offset.rs", "src/collection/flatten.rs", "src/bitmap/mod.rs"]}
{"id": "C25", "title": "Every nested array is atomic under allocation failure", "statement": "For every array item type, try_extend either appends all items and returns Ok or returns AllocError with unchanged logical contents, whatever the allocator does, and it never falls back to an infallible (aborting) allocation.", "quantifier": "every item type, array, iterator, size_hint and allocator behaviour — except those holding a fixed-size list that a panic tore in the middle of a row (C23), which C54, C55 and C57 are about", "why_tests_cant": "failure points in arbitrarily nested buffers", "anchors": ["src/collection/mod.rs: CollectionRealloc::try_extend", "src/collection/vec.rs: try_extend", "src/bitmap/mod.rs", "src/validity.rs", "src/offset.rs", "src/collection/flatten.rs"]}
{"id": "C26", "title": "Array histories refine a list", "statement": "For every array item type, after any history of extend, try_extend, truncate, reserve and try_reserve calls (iterator panics included for the panic-safe item types), the contents read through the API are those of a list on which the same operations were performed.", "quantifier": "every item type, every finite history, every iterator and allocator behaviour", "why_tests_cant": "unbounded histories over an infinite family of types", "anchors": ["src/array.rs: Array", "src/layout/*.rs", "src/validity.rs", "src/offset.rs", "src/collection/flatten.rs", "src/bitmap/mod.rs", "src/collection/vec.rs"]}
{"id": "C27", "title": "Reservations never change contents and truncate follows its contract", "statement": "reserve and try_reserve never change the logical contents (also when they fail or panic); truncate(n) keeps exactly the first min(n, len()) items and has no effect if n >= len().", "quantifier": "every item type, array, additional count (up to usize::MAX) and allocator behaviour", "why_tests_cant": "reservation may materialize validity and may fail in any nested buffer", "anchors": ["src/collection/mod.rs: try_reserve, reserve, truncate", "src/validity.rs: try_reserve, truncate", "src/offset.rs: truncate", "src/collection/flatten.rs: truncate"]}
{"id": "C28", "title": "A successful reservation suffices", "statement": "After a successful try_reserve(n) on a vector, bitmap, or a nullable / fixed-size-list collection over them, extending by n items with try_extend succeeds even if every further allocation fails.", "quantifier": "every collection value, n, items and allocator behaviour", "why_tests_cant": "byte rounding, materialization and trailing bits interact", "anchors": ["src/bitmap/mod.rs: try_reserve, trailing_bits", "src/validity.rs: try_reserve", "src/collection/flatten.rs: try_reserve", "src/collection/vec.rs: try_reserve"]}
{"id": "C29", "title": "Fallible construction returns all items or an error", "statement": "try_from_iter_in returns Ok with exactly the iterator's items or AllocError; with_capacity_in / try_with_capacity_in / default return empty collections. When no allocation fails and the iterator's lower size bound is honest, construction succeeds.", "quantifier": "every item type, iterator, size_hint and allocator behaviour", "why_tests_cant": "size hints may be anything; reservations are made from them", "anchors": ["src/collection/vec.rs: try_from_iter_in", "src/validity.rs: try_from_iter_in", "src/offset.rs: try_from_iter_in", "src/collection/flatten.rs: try_from_iter_in", "src/bitmap/mod.rs: try_from_iter_in"]}
{"id": "C30", "title": "Zero-width fixed-size lists are usable or rejected", "statement": "For N = 0 every way of obtaining a fixed-size-list collection is rejected, or the collection supports len() and reads back the collected rows.", "quantifier": "N = 0, every child collection and number of rows", "why_tests_cant": "the failing case is a degenerate const parameter", "anchors": ["src/collection/flatten.rs: FromIterator, Default, len, view"]}
{"id": "C31", "title": "List views are slices", "statement": "An OffsetView of item i has len offsets[i+1]-offsets[i], its view/iter_views/into_iter_owned/into_owned return exactly the items of that range, and its equality with any other collection holds exactly when both have the same length and pairwise equal items.", "quantifier": "every list collection, row and other collection", "why_tests_cant": "unbounded sizes", "anchors": ["src/offset.rs: OffsetView"]}
{"id": "C32", "title": "into_parts and try_from_parts are inverse", "statement": "For every collection obtained through the API without a panicking iterator, feeding the result of into_parts back to try_from_parts succeeds and gives a collection with the same contents.", "quantifier": "every reachable Bitmap, Validity, Offsets and Flatten", "why_tests_cant": "reachable states are unbounded", "anchors": ["src/bitmap/mod.rs: into_parts, try_from_parts", "src/validity.rs: into_parts, try_from_parts", "src/offset.rs: into_parts, try_from_parts", "src/collection/flatten.rs: into_parts, try_from_parts"]}
{"id": "C33", "title": "Exported arrays import back unchanged", "statement": "For every array item type with N > 0 widths, exporting an array through the Arrow C Data Interface and importing the result at the same item type succeeds and gives an array with the same contents, if all bitmap offsets are zero.", "quantifier": "every item type with an Arrow format and every array obtained without a panicking iterator", "why_tests_cant": "unbounded nesting and sizes; validity, offsets and children are checked separately", "anchors": ["narrow-ffi/src/export/mod.rs: ArrowArrayLayout::export, child_array", "narrow-ffi/src/import/mod.rs: ImportLayout::import_layout"]}
{"id": "C34", "title": "Export rejects exactly the arrays with a non-zero bit offset", "statement": "export returns NonZeroOffset exactly when some bitmap in the array (values or validity, at any depth) has a non-zero bit offset, and otherwise returns a live array/schema pair describing the array: length, null count, buffers and children as required by the Arrow layout.", "quantifier": "every item type and array", "why_tests_cant": "unbounded nesting", "anchors": ["narrow-ffi/src/export/mod.rs: export, child_array", "narrow-ffi/src/export/*.rs"]}
{"id": "C35", "title": "Import validates all scalar metadata", "statement": "For every array/schema pair whose non-null pointers are valid, import either returns an array or an ImportError; it never panics. When it returns an array, the declared length, offset, null count, buffer and child counts, format, offsets and child lengths were consistent and the array's contents are those given by the Arrow layout of the buffers.", "quantifier": "every value of every scalar field, every item type, every nesting of children", "why_tests_cant": "i64 metadata fields, arbitrary trees", "anchors": ["narrow-ffi/src/import/mod.rs", "narrow-ffi/src/import/*.rs"]}
{"id": "C36", "title": "Fixed-size-list format strings match exactly their width", "statement": "The format string produced for width N is accepted by import for width N and by no other width; no string that is not a decimal number after +w: is accepted.", "quantifier": "every width N up to usize::MAX and every byte string", "why_tests_cant": "unbounded strings; overflow of the parsed number", "anchors": ["narrow-ffi/src/export/fixed_size_list.rs: ArrowSchema::fixed_size_list", "narrow-ffi/src/import/fixed_size_list.rs: matches_format"]}
{"id": "C37", "title": "Exported storage is released exactly once", "statement": "For an exported array and schema, under any sequence of consumer actions allowed on the top-level structures (reading, moving, calling release, dropping), every allocation made by export is freed at most once, none is freed before release, and all are freed after release.", "quantifier": "every item type and every consumer history on the top-level structures", "why_tests_cant": "lifetime property over all histories", "anchors": ["narrow-ffi/src/export/mod.rs: release_array, release_schema, ArrayData", "narrow-ffi/src/lib.rs: Drop"]}
{"id": "C38", "title": "A child moved out of an exported array outlives its parent", "statement": "As the Arrow C Data Interface requires, after a consumer moves a child array out of an exported parent and releases the parent, the buffers of the moved child stay valid until the child is released.", "quantifier": "every item type with children and every such history", "why_tests_cant": "use-after-free is not observable by a unit test without a sanitizer", "anchors": ["narrow-ffi/src/export/mod.rs: child_array (ArrayData::<(), Self>), release_array"]}
{"id": "C39", "title": "Validity stays consistent with values", "statement": "In every nullable collection reachable through the API, is_valid(i) is Some(true) exactly when view(i) is Some(Some(_)), null_count is the number of null items seen by iteration, and the value collection is never shorter than the validity bitmap.", "quantifier": "every nullable item type and every history (panics included for panic-safe types)", "why_tests_cant": "two separately growing buffers over unbounded histories", "anchors": ["src/validity.rs: Validity", "src/bitmap/validity.rs: ValidityBitmap"]}
{"id": "C40", "title": "Implicit and explicit validity agree", "statement": "A collection wrapped with implicit validity behaves under every operation like the same collection with an all-set bitmap; materializing the bitmap (by reserve, extend, try_extend) changes no observable item and no count.", "quantifier": "every inner collection of every length", "why_tests_cant": "tail masks of the materialized bitmap depend on the length", "anchors": ["src/validity.rs: from_collection, materialize_bitmap", "src/bitmap/mod.rs: all_set_in, all_set_bytes"]}
{"id": "C41", "title": "Shared storage gives away the same items", "statement": "Turning a collection into owned items gives the same sequence of items, None and size hints, and panics at the same calls, whether its buffers are vectors or borrowed slices, Rc or Arc slices, or some of them one and some the other; an array imported over the C data interface, which borrows its buffers, gives away exactly the items that the foreign array describes.", "quantifier": "every shape of collection, every choice of storage for each of its buffers, every contents of the buffers, any number of calls", "why_tests_cant": "tests use a few fixed arrays per storage type; the iterators nest without bound", "anchors": ["src/collection/slice.rs: SliceIntoIter, into_iter_owned", "src/collection/rc.rs: into_iter_owned", "src/collection/arc.rs: into_iter_owned", "src/bitmap/unpacked.rs: BitUnpacked", "src/validity.rs: ValidityIter", "src/collection/flatten.rs: ArrayChunks", "src/offset.rs: OffsetIntoIter"]}
{"id": "C42", "title": "Boxed storage is constructed like growable storage", "statement": "Collecting any iterator into boxed storage (Box<[T]>, Bitmap<BoxBuffer>, fixed-size lists of them, and nullable ones with a growable bitmap) gives a collection without spare capacity that reads back exactly the collected items; the fallible constructors return all items or an error, panic only if the iterator does, and never end the process.", "quantifier": "every item type that can be constructed in boxed storage, every iterator and size hint, every sequence of allocator answers", "why_tests_cant": "needs an allocator that grants the buffer and then refuses to shrink it, and size hints that leave spare capacity at every nesting", "anchors": ["src/collection/box.rs: CollectionAllocIn for Box<[T]>", "src/bitmap/mod.rs: FromIterator, CollectionAllocIn for Bitmap<Storage>", "src/collection/flatten.rs: FromIterator, CollectionAllocIn for Flatten", "src/validity.rs: FromIterator for Validity<T, Storage>"]}
{"id": "C43", "title": "Import errors name a true fault", "statement": "When import fails, the error it returns, with the values it carries (lengths, null counts, buffer and child counts, the kind and position of an offset fault), is true of the array/schema pair or of one of its child pairs; a pair with any such fault is always rejected.", "quantifier": "every item type, every readable array/schema pair with arbitrary scalar fields, missing pointers and nesting", "why_tests_cant": "the errors are reported from every level of a nested type, for combinations of several faults at once", "anchors": ["narrow-ffi/src/import/mod.rs: ImportError, Import::import, checks of children, buffers, lengths, null counts", "src/offset.rs: OffsetsError"]}
{"id": "C44", "title": "A rejected or panicking export frees everything", "statement": "An export that returns an error or panics, at any nesting depth, frees every allocation it made and the collection it consumed, each exactly once; an export that succeeds leaves exactly the allocations that releasing the array and the schema frees.", "quantifier": "every item type, every collection, every place of a non-zero bit offset or a panic", "why_tests_cant": "the early return happens in the middle of building nested private data; leaks and double frees are not visible in results", "anchors": ["narrow-ffi/src/export/mod.rs: Export::export, child_array, PrivateData, set_child_pointers, into_array", "narrow-ffi/src/export/*.rs: children"]}
{"id": "C45", "title": "An iterator that has ended is not called again", "statement": "extend and try_extend never call next again after it returned None or panicked, whatever the outcome (success, error, panic, abort) and whatever the collection; when they succeed they have called next up to and including the first None, so that an iterator lent with by_ref can go on with what comes after it. The same holds for collecting, except that collecting (optional) booleans may go on calling until a byte is full.", "quantifier": "every layout, every collection, every iterator including ones that resume after None or panic later, every allocator", "why_tests_cant": "the calls come from nested adapters (fuse, take, flatten, byte packing, chunks of 1024) and the position at which a failure interrupts them is arbitrary; test iterators keep returning None", "anchors": ["src/bitmap/mod.rs: Extend, TryExtend", "src/validity.rs: extend, try_extend", "src/collection/flatten.rs: extend", "src/offset.rs: extend, try_extend", "src/collection/vec.rs"]}
{"id": "C46", "title": "Lists handed over as collections of any type", "statement": "Offsets<T, OffsetItem, Storage, U> stores and returns the same lists for every owned item type U. Extending or collecting from an iterator of U leaves exactly the buffers, the outcome and the consumed input that the lists of their items would; owned(i), into_owned of a view and the owning iterator return collections U that show exactly the items of the row, one per row, and fail only if such a collection does not fit in memory. Collections put in come back showing the same items.", "quantifier": "every child layout, every collection type U with the same items, both offset types, every iterator of collections including sliced bitmaps, empty ones, failing allocators", "why_tests_cant": "the tests use U = Vec only; other U have offsets, bitmaps and reserved buffers of their own, and the chain of their owning iterator, extend and from_iter must agree on length, order and end", "anchors": ["src/offset.rs: Offsets<T, OffsetItem, Storage, U>, Extend<U>, FromIterator<U>, try_extend, try_from_iter_in, OffsetView::into_owned, OffsetIntoIter::next"]}
{"id": "C47", "title": "All buffers come from the allocator handed in", "statement": "A collection constructed by with_capacity_in, from_iter_in or one of their fallible versions with an allocator handle has only buffers constructed with (clones of) that handle, at every nesting. This stays so under reserve, try_reserve, extend, try_extend and truncate, however they end: validity bitmaps that are materialised later use it too, and allocator() returns it. In collections assembled from parts of different allocators no other handle is ever used.", "quantifier": "every layout, every handle type, every iterator and allocator behaviour, every history of operations", "why_tests_cant": "the tests use one flat nullable collection; all other storage has the handle ()", "anchors": ["src/collection/mod.rs: CollectionAllocIn, CollectionRealloc::allocator", "src/validity.rs: materialize_bitmap, try_materialize_bitmap, with_capacity_in, from_iter_in", "src/offset.rs: with_capacity_in, allocator", "src/collection/flatten.rs: allocator", "src/bitmap/mod.rs: allocator"]}
{"id": "C48", "title": "Collected arrays have the canonical Arrow physical layout", "statement": "Whatever is collected, infallibly or fallibly, has exactly the buffers that the Arrow columnar format prescribes for its items: bitmaps start at bit 0, hold ceil(n/8) bytes in least-significant-bit order and are zero behind the last bit; a null occupies a slot with the default value; offsets start at 0, there is one more of them than lists, each list ends where the next begins; nothing is stored beyond the last item, at every nesting. Successful extend and try_extend append to this layout, reserve and try_reserve leave it as it is even if they fail, and the layout determines the items read.", "quantifier": "every layout, every iterator and allocator behaviour, every history of successful extensions and arbitrary reservations", "why_tests_cant": "the tests compare buffers of a few flat arrays of a few items; padding, slots of nulls and nested buffers depend on every earlier operation", "anchors": ["src/bitmap/mod.rs: extend, try_extend, from_iter, all_set", "src/validity.rs: extend, try_extend, from_iter, materialize_bitmap", "src/offset.rs: extend, try_extend, Default", "src/collection/flatten.rs: extend"]}
{"id": "C49", "title": "Collected arrays cross the C Data Interface byte for byte", "statement": "Whatever is collected, infallibly or fallibly, or then extended successfully can be exported: no bit offset is ever in the way. The exported array and schema form a consistent description, the header counts items and nulls, the validity, value and offset buffers are at every nesting exactly the bytes that the Arrow format prescribes for the items (little-endian values, default values in the slots of nulls, zero padding, offsets from 0), a consumer following the layout reads the items, and importing the pair succeeds and gives an array of the same items.", "quantifier": "every exportable item type, every iterator and allocator behaviour, every history of successful extensions and arbitrary reservations, every placement of buffers with the alignment of their elements; fewer than 2^63 elements altogether", "why_tests_cant": "the tests export a few arrays built from a handful of items; whether an export is refused and what the buffers contain depends on the whole history of the array", "anchors": ["narrow-ffi/src/export/mod.rs: ArrowArrayLayout::export, child_array", "narrow-ffi/src/import/mod.rs: ImportLayout::import_layout", "src/validity.rs: from_iter, extend", "src/offset.rs: from_iter, extend"]}
{"id": "C50", "title": "Packing and unpacking bits are inverse", "statement": "bit_packed turns the bits of any iterator that stays at its end into exactly ceil(n/8) bytes, least significant bit first and zero behind the last bit, even though it asks again after the end to fill the last byte; before a panic of the source exactly the full bytes are handed out. Correct size hints of the source give correct hints of the bytes and exact hints exact ones, before every call. bit_unpacked gives the eight bits of every byte in order, with exact hints over a buffer, and ends, resumes and panics where any source does; correct hints stay correct also where eight times the bound overflows. Unpacking what was packed gives the bits and then fewer than eight zeros; packing what was unpacked gives the bytes.", "quantifier": "every iterator of bits with any hints, ending or panicking after any number of items; every iterator of bytes, and every sequence of bytes of a buffer", "why_tests_cant": "the tests pack a few literals whose hints are exact; the state after each partial byte, the repeated calls at the end and the hints in between are not observed", "anchors": ["src/bitmap/packed.rs: BitPacked::next, size_hint", "src/bitmap/unpacked.rs: BitUnpacked::next, size_hint", "src/bitmap/mod.rs: bytes_for_bits"]}
{"id": "C51", "title": "Every successful operation has one prescribed effect on the buffers", "statement": "After an extension that succeeds, fallible or not, every buffer holds what it held with the encoded items behind it: bits before the end keep their values, a write within the last byte leaves the rest of it alone, a write past it zeroes the rest of the last byte written, nulls take the default value, offsets continue from the last one. Reservations, also refused ones, change no buffer, and truncation shortens each buffer to the items kept while a bitmap keeps all its bytes. So size hints, capacities, the answers of the allocator, the portions in which items arrive and the choice between extend and try_extend leave no trace in the bytes, up to absent bitmaps of validity. A clone has the same bytes and items.", "quantifier": "every shape of collection at any nesting, every state built through the API without an abandoned extension in it, bitmaps that begin at any bit of a buffer with any bits around them, every iterator with any hints, every allocator, histories of any length", "why_tests_cant": "the tests compare items and not bytes, on bitmaps that begin at bit 0 of a fresh buffer and with one way of extending", "anchors": ["src/bitmap/mod.rs: Extend, try_extend, truncate, Clone", "src/validity.rs: Extend, try_extend, truncate", "src/offset.rs: Extend, try_extend, truncate", "src/collection/flatten.rs: Extend, try_extend, truncate, Clone"]}
{"id": "C52", "title": "Copying an array normalises it", "statement": "An array collected anew from the owning iterator of another one, in whatever storage its buffers are (owned, boxed, borrowed slices, Rc, Arc, mixed), or from its views turned into owned items, shows the same items and has exactly the buffers that the Arrow format prescribes for them, whatever the first one looked like: bit offsets, spare bytes, values in slots of nulls, unreferenced data and abandoned extensions leave no trace, and copies of arrays with the same items agree byte for byte. So a copy is exported even where the original is refused, and an imported array that is copied and exported reaches the next consumer with the items that the first producer stored. Extending one array by the iterator of another appends exactly its items; a fallible copy or extension either succeeds or reports the error and leaves the items as they were.", "quantifier": "every shape and exportable type at any nesting, every state that can be built, every storage of each buffer, every imported structure that satisfies the safety contract, every allocator behaviour", "why_tests_cant": "the tests collect from literals; moving items between arrays of different storage depends on the iterators of both and on the state of the source, and no test imports, copies and exports", "anchors": ["src/array.rs: FromIterator, Extend, into_iter_owned, iter_views, try_extend", "src/collection/mod.rs: Collection, IntoOwned", "src/collection/slice.rs: SliceIntoIter", "narrow-ffi/src/import/mod.rs", "narrow-ffi/src/export/mod.rs"]}
{"id": "C53", "title": "Nullable items map and zip as values that may be absent", "statement": "For both nullabilities an item has at most one value and is null exactly if it has none; a non-nullable item is never null. Nullability::map calls the closure exactly once with the value of an item and never for a null, zip is null exactly if one of the two is, and zip_with calls the closure exactly once with both values or not at all; effects and panics of the closure are those of that one call. Mapping twice is mapping once by the composition, mapping the identity changes nothing. is_empty() holds exactly of collections without items.", "quantifier": "both nullabilities, every item, every closure with any effects and panics, every collection", "why_tests_cant": "the tests zip four pairs of numbers by one closure without effects", "anchors": ["src/nullability.rs: Nullability::map, zip, zip_with", "src/length.rs: Length::is_empty"]}
{"id": "C54", "title": "A fixed-size list torn by a panic can be read and repaired", "statement": "If an operation on fixed-size lists of width N panics (its iterator does, or the allocator does) and the child collection survives panics, the length is at least the old one and at most what was appended; every index below it and the view iterator give the old rows and a prefix of the new ones, whether or not the child ends in the middle of a row. Truncating below the length then yields a sound collection with exactly that many of these rows, on which every later history behaves as on the list; truncating to the length or above changes nothing. If the child does end in the middle of a row, the owning iterator returns the whole rows, announcing only them, and panics; and rows that are appended without truncating first are each read as the end of the one before followed by the start of their own.", "quantifier": "every width > 0, every shape of the child that survives the panic, every state that can be built, every operation and iterator with any size hints and panics, every length of the child", "why_tests_cant": "no test panics inside an extension and goes on with the collection", "anchors": ["src/collection/flatten.rs: len, view, iter_views, into_iter_owned, ArrayChunks, extend, try_extend, truncate"]}
{"id": "C55", "title": "No panic makes reading panic or loses an item", "statement": "Whatever operations a collection went through, and wherever any of them panicked (in the iterator, on a size hint, on a capacity overflow, on an offset overflow, deep inside nested collections), it has a definite list of items: its length, every index, the view iterator and the owning iterator give them, with exact size hints, and none of these panics except that the owning iterator of a torn fixed-size list may panic after the last item. Every further operation acts on that list: a completed extension keeps all items and appends exactly as many as were pushed, each equal to the pushed one up to the contents of rows of fixed-size lists (nulls stay nulls, lists keep their lengths); a refused fallible operation changes nothing; a panicking one keeps all old items and appends those of a prefix; truncation always completes with the prefix; reservations change nothing. Fallible operations never abort and panic only if the iterator does. Without fixed-size lists the items are exactly those pushed. Taking such a collection apart and building others from its parts keeps all this.", "quantifier": "every shape with positive widths, every history of operations including arbitrary panics, disassembly and reassembly, every iterator with any size hints, every allocator behaviour", "why_tests_cant": "no test panics in an operation and goes on; histories and nestings are unbounded", "anchors": ["src/bitmap/mod.rs", "src/validity.rs", "src/collection/flatten.rs", "src/offset.rs: len, view, iter_views, into_iter_owned, extend, try_extend, reserve, try_reserve, truncate, try_from_parts, into_parts"]}
{"id": "C56", "title": "Exporting after any panic describes only memory that exists", "statement": "Whatever an array went through, panics at arbitrary points included, exporting it never panics: it is rejected exactly if some bitmap has a bit offset (with the first such offset), and otherwise the exported structures are unreleased, describe only memory that exists, have the length and the null count of the items that can be read, and hold exactly those items by the Arrow layouts. Importing the structures again gives an array with the same items precisely if no fixed-size list in it holds values beyond its rows (and, if its items may be null, rows beyond its validity bits); otherwise import fails with the length mismatch of fixed-size lists and with no other error. Without fixed-size lists the round trip always succeeds.", "quantifier": "every type, every history of operations including arbitrary panics, every allocation address with the alignment of the values, at most 2^63 elements", "why_tests_cant": "no test exports an array that a panic interrupted; histories and nestings are unbounded, and reading beyond a buffer is undefined behaviour that a passing test need not show", "anchors": ["narrow-ffi/src/export/mod.rs", "narrow-ffi/src/export/boolean.rs", "narrow-ffi/src/export/fixed_size_primitive.rs", "narrow-ffi/src/export/fixed_size_list.rs", "narrow-ffi/src/export/variable_size_list.rs", "narrow-ffi/src/import/fixed_size_list.rs", "src/validity.rs", "src/offset.rs", "src/collection/flatten.rs"]}
{"id": "C57", "title": "After any panic views, counts, parts and copies agree with the items read", "statement": "Whatever a collection went through, panics at arbitrary points included, everything else agrees with the items that can be read from it (C55): indices past the end are answered as for any other collection; null counts, the any/all queries and is_valid are those of the items; the checked constructors accept and reject by the lengths read, and what they build reads accordingly; the offsets of lists stay valid and the rows are the slices between them; views of rows have the length, items, iterators and equality of the row; a successful extension has taken everything up to the first None. A copy made by reading has the buffers that the Arrow format prescribes for the items read and behaves like any new collection, so copying repairs torn rows; reading by reference makes it whenever there is room, and by value the copy may panic instead.", "quantifier": "every nesting of layouts with positive widths, every history of operations including arbitrary panics, every index, iterator and allocator behaviour", "why_tests_cant": "no test goes on with a collection that a panic interrupted; what a panic leaves depends on the nesting, the history and the point of the panic, all unbounded", "anchors": ["src/validity.rs", "src/offset.rs", "src/collection/flatten.rs", "src/collection/mod.rs", "src/bitmap/mod.rs", "src/nullability.rs"]}
{"id": "C58", "title": "No panic makes a later operation fail or a reservation insufficient", "statement": "Whatever a collection went through, panics at arbitrary points included: an extension for which there is room completes unless its source panics; a fallible extension or reservation succeeds when no allocation is refused and there is room; what the buffers hold grows, however an operation ends, by no more than the items its source yields, so over any history for whose items and reservations there is room no operation fails other than by a panic of its source; and a reservation that succeeded pays for as many items, in any number of extensions, even if every further allocation is refused (with lists: one element each).", "quantifier": "every nesting of layouts with positive widths, every history of operations including arbitrary panics, every iterator whose size hints promise no more than it yields (any size hints that fit for single infallible extensions), every allocator behaviour", "why_tests_cant": "what a panic leaves behind, and whether the next operation copes with it, depends on the nesting, the history and the point of the panic, all unbounded; no test goes on after a panic", "anchors": ["src/bitmap/mod.rs", "src/validity.rs", "src/collection/flatten.rs", "src/offset.rs", "src/collection/vec.rs"]}
{"id": "C59", "title": "Exported memory in any storage is released exactly once", "statement": "Whether the buffers of an exported array are allocations of its own, shared with other owners by reference counts, inside of the array itself or static: all buffer pointers of the exported structures, children included, point to where the buffers are after the export (what was inside of the array has moved with it); whatever a consumer then does with the structures, and whenever the other owners clone or drop their references, every read finds memory that is there, nothing is freed twice, the memory of the array is freed and its references are given up exactly when the array is released, and a shared allocation is freed exactly when the array is released and the last other owner is gone. If children are moved out this holds as long as nothing is read after the release of the array. An export that is rejected or panics frees the memory of the array and gives up its references, and no others.", "quantifier": "every type, every array, every placement of its buffers (several may share one allocation), any numbers of other references, every history of reads, moves, releases and drops interleaved with clones and drops by the other owners", "why_tests_cant": "histories, nestings and sharing patterns are unbounded, and a dangling pointer into a moved array or a reference given up twice is undefined behaviour that a passing test need not show", "anchors": ["src/buffer.rs", "narrow-ffi/src/export/mod.rs: child_array, export, ArrayData, release_array", "narrow-ffi/src/lib.rs: Drop"]}
{"id": "C60", "title": "After any panic, lists handed over as collections, clones and other storage agree too", "statement": "Whatever the collections and the list went through, panics at arbitrary points included: appending collections to a list of them appends the lists of their items, up to the contents of new rows of fixed-size lists; a collection that ends in the middle of a row makes the operation panic, with the lists before it appended and itself not; a fallible operation that fails changes nothing and panics only where the source or such a collection does. Every row of a list is read back into a new collection, and consuming the list hands out all rows, whatever is left behind them. A clone reads as what it was cloned from and has the same bytes, and over shared storage consuming ends as over vectors. All of these results can be used on like any other collection (C55 to C58).", "quantifier": "every nesting of layouts with positive widths for the list and for the collections handed over, every history including arbitrary panics, clones and lists handed over, every iterator of such collections, every allocator behaviour, every choice of storage", "why_tests_cant": "what a panic leaves behind in the collections, in the list and in the values behind its last row interacts across an unbounded number of nestings and histories; no test hands over a collection that went through a panic", "anchors": ["src/offset.rs: extend, try_extend, from_iter, into_owned, OffsetIntoIter", "src/bitmap/mod.rs: Clone", "src/collection/flatten.rs: Clone, into_iter_owned", "src/collection/slice.rs"]}
{"id": "C61", "title": "Memory is asked for when room runs out, and kept", "statement": "After a successful reservation of n items an extension by at most n items makes no request for memory, succeeds whatever the allocator would answer, enlarges no buffer, and the fallible and the infallible extension leave the same collection; with lists this holds for what the reservation pays for (C28). Reserving makes at most one request per buffer and one more per bitmap that is still implicit, creating with a capacity at most one per buffer, and so does collecting an iterator whose size hint is exact. No request follows a refusal, a refusal is always reported as an error, and the items are then what they were. However an operation ends no buffer becomes smaller; truncation changes none. An infallible operation leaves a buffer alone or enlarges it at least twofold (or to the largest allocation), so that in any history of infallible operations a buffer moves at most log2 of its final capacity plus two times.", "quantifier": "every nesting of layouts (positive widths where items are read; no lists where stated), every collection reached by any history including arbitrary panics, every iterator and every script of answers of the allocator", "why_tests_cant": "whether a request is made depends on the capacities of all nested buffers, on where panics happened before and on the size hints of adapters; a test sees one allocator and one history, and an extra request in a nested buffer goes unnoticed", "anchors": ["src/collection/vec.rs: try_reserve, try_extend, try_from_iter_in, reserve, truncate", "src/bitmap/mod.rs: reserve, try_reserve, try_extend, try_all_set_in", "src/validity.rs: materialize, try_extend, try_reserve, try_from_iter_in", "src/collection/flatten.rs: try_with_capacity_in, try_reserve", "src/offset.rs: try_extend, try_reserve"]}
{"id": "C62", "title": "No more memory is asked for than the items account for", "statement": "After a successful infallible extension every buffer of a collection without lists has the capacity it had, the smallest capacity that is ever allocated, or at most twice the elements now in it; with lists (but not lists of lists) at most four times. After a successful fallible extension, of any layout (provided that lists within the data of a list end where their data ends), every buffer has the capacity it had or at most the elements now in it plus what is given on top of a request (by the allocator, or by Vec::try_reserve, which rounds a request up to twice the capacity). The same two bounds hold of reservations with the announced items counted as if they were there. Creating with a capacity gives each buffer exactly what that many items take (fallibly: plus what the allocator gives on top), and collecting gives each buffer what the items take, within these bounds, when the size hint is exact; lists start with one element per announced list. A clone has memory for exactly what is in it. For infallible extensions of lists of lists no such bound holds.", "quantifier": "every nesting of layouts with positive widths (no lists or no lists of lists where stated), every collection reached by any history (including arbitrary panics where no lists are involved, and for reservations), every well-behaved iterator and every script of answers of an allocator that gives at most e elements more than it is asked for", "why_tests_cant": "asking for too much changes no item that can be read: reserving bits as bytes, rows as items or a list twice goes unnoticed unless the capacities of all nested buffers are compared with what they hold for every history", "anchors": ["src/collection/vec.rs: try_with_capacity_in, try_reserve, try_extend, reserve, extend", "src/bitmap/mod.rs: bytes_for_bits, reserve, try_reserve, try_extend, with_capacity_in", "src/validity.rs: reserve, extend, try_extend, from_iter_in, try_from_iter_in", "src/collection/flatten.rs: with_capacity_in, reserve, extend, try_extend", "src/offset.rs: with_capacity_in, reserve, extend, try_extend", "src/bitmap/mod.rs: clone"]}
{"id": "C63", "title": "Error messages tell errors apart and state their numbers", "statement": "Two errors of the same type with the same message are the same error, numbers included: the messages of BitmapError, ValidityError, FlattenError, OffsetsError, ExportError and ImportError. Looking up in the message what a number is called gives that number, so no two are exchanged. The only import error with a source is that of invalid offsets, and its message ends with the message of the source.", "quantifier": "every error of every error type of the two crates, every value of the numbers in it, negative ones included", "why_tests_cant": "no test looks at a message; the texts share prefixes that end in numbers of any length, and exchanging the lengths in a message goes unnoticed", "anchors": ["src/bitmap/mod.rs: Display for BitmapError", "src/validity.rs: Display for ValidityError", "src/collection/flatten.rs: Display for FlattenError", "src/offset.rs: Display for OffsetsError", "narrow-ffi/src/export/mod.rs: Display for ExportError", "narrow-ffi/src/import/mod.rs: Display for ImportError, source"]}
{"id": "C64", "title": "Debug output of an array tells exactly what is in its buffers", "statement": "Two arrays of one type without floating point numbers have the same Debug output if and only if they agree in all values, all offsets, the presence of every bitmap, all its bytes, its length and its bit offset; capacities do not show. A clone prints as what it was cloned from. Views of lists print the same exactly if they are views of the same range. What stands behind the name of a field is what the field holds: the bytes, the length and the bit offset of a bitmap, the offsets of a list, the start and the end of a view; integers are printed with the sign they have in two's complement.", "quantifier": "every array type without floating point numbers, nested to any depth, every pair of arrays with any contents that are values of the Rust types, whatever happened to them before", "why_tests_cant": "no test looks at Debug output; that nested lists of numbers of different lengths are never printed alike is a statement about all pairs of arrays", "anchors": ["src/array.rs: Debug for Array", "src/bitmap/mod.rs: Debug for Bitmap", "src/validity.rs: Debug for Validity", "src/offset.rs: Debug for Offsets, OffsetView", "src/collection/flatten.rs: derive(Debug)", "src/layout: Debug for Boolean, FixedSizePrimitive, FixedSizeList, VariableSizeList", "src/fixed_size.rs: derive(Debug)"]}
{"id": "C65", "title": "Import copies nothing", "statement": "An imported array consists of slices of the memory the structure and its children point to: at every level the validity bitmap is buffer 0 with one bit per item and the values or offsets are buffer 1 with as many elements as the length needs, each starting where the buffer starts, aligned for its elements and inside of the buffer; a level without items borrows no values. What is read from the array later is what is in this memory and depends on no other memory. The schema is not borrowed. For an array exported by this crate all slices are in its storage, which stays allocated until the array is released, whatever happens to the schema and to children that are moved out.", "quantifier": "every item type, every pair of structures, every memory; for exported arrays every array and every history of a consumer that reads nothing after the release", "why_tests_cant": "the tests compare pointers of single arrays; this is about every level of every type, every length, and every history of the structures", "anchors": ["narrow-ffi/src/import/mod.rs:72-115", "narrow-ffi/src/import/boolean.rs:23-48", "narrow-ffi/src/import/fixed_size_primitive.rs:26-53", "narrow-ffi/src/import/fixed_size_list.rs:46-74", "narrow-ffi/src/import/variable_size_list.rs:31-65"]}
