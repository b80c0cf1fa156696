# Formal model of `narrow` (Rocq/Coq 8.16.1)

Source modelled: `/repo` (crates `narrow` and `narrow-ffi`), read as text and left
unchanged. Properties: `properties.jsonl`. Claims: `MANIFEST.json`. Wrong programs
tried against the theorems: `seeded/LOG.jsonl`.

## Approach

* Every Rust function that matters is transcribed as a small total Gallina
  function, with file and lines in a comment. A panic is an explicit value;
  `&mut self` functions return the state they leave behind also when they panic or
  fail.
* **usize** is 64 bits. Lengths of things in memory are `nat`, untrusted arguments
  are `N`; every checked, strict or saturating operation compares with `2^64`.
  Offsets (`i32`, `i64`) are `Z` with their bounds.
* **Input iterators** are arbitrary finite scripts of `next` results (an item,
  `None`, or a panic) with an arbitrary `size_hint` at every point (`Iter.v`). After
  the script the iterator returns `None`. Every terminating run of a real iterator
  is such a script. Resumable iterators, panicking iterators and wrong hints are
  included. The state of the source after each call is part of the script, so that
  closures that count or push (`inspect`) and `by_ref` can be followed. The adapters
  of core (`fuse`, `flatten`, `take`, `inspect`, `map`, `chain`, `by_ref`) and
  `BitPacked` are functions on scripts.
* **Allocator**: fallible operations consult an arbitrary script of answers (granted
  with any amount of extra capacity, or refused); an exhausted script grants exactly
  what was asked for. Requests above 2^60 bytes always fail. Infallible growth above
  2^60 bytes aborts the process (`OAbort`; no claim is made after it);
  `reserve`/`with_capacity` above `isize::MAX` bytes panic ("capacity overflow").
* **Vectors** grow as std's do: pushing to a full vector reserves for the item and for
  the lower bound the iterator promises for the rest (`extend_desugared`); infallible
  reservations at least double the capacity.
* **Collections** are records of operations (`Coll`), one per Rust type that
  implements `Collection`/`Extend`/`CollectionAlloc`/`CollectionRealloc`; `Validity`,
  `Flatten` and `Offsets` are functions from collections to collections, as their
  generic Rust counterparts are. Item types are an inductive type (`shape`, `ty`), so a
  theorem about all item types covers unbounded nesting. `shape` also has vectors of
  arbitrary items (`SAny`: `Vec<bool>`, `Vec<Vec<T>>`, `Vec<[T; N]>`), alone or under
  `Validity`, `Flatten` and `Offsets`.
* **Theorems** are stated with what the API shows (`shows`: len, view, owned items,
  iterators, for every index and any number of calls), with the collections a program
  can build (`built`, an inductive closure over all constructors and operations of the
  API), and with the items and the end of an input iterator (`items_of`, `fin_of`).
  `room_in`/`room_new` say that what an iterator yields and promises fits in memory:
  these are the premises under which infallible operations are proved to complete.
* **FFI**: the C structures are data trees (`FfiModel.v`: export, import, format
  strings); who owns which allocation is a separate heap model (`FfiHeapModel.v`:
  release and moves by the consumer; `FfiExportModel.v`: the steps of export), in which
  a step that frees or reads memory that is not allocated has no result. These two have
  an allocation for every buffer, as with `VecBuffer` and `BoxBuffer`;
  `FfiPlaceModel.v` has the same steps with buffers that are shared (`RcBuffer`,
  `ArcBuffer`), inline (`ArrayBuffer`) or static (`SliceBuffer`). `BorrowModel.v` has
  import with the slices it makes of the pointers.

## Files

| files | contents |
|---|---|
| `Base`, `Iter` | machine integers, outcomes, allocator answers, input iterators |
| `VecModel`, `BitmapModel`, `UnpackModel`, `CollModel`, `ValidityModel`, `FlattenModel`, `OffsetsModel`, `OffsetViewModel`, `OwnedListModel`, `LayoutModel`, `StorageModel`, `BoxModel`, `FfiModel`, `FfiHeapModel`, `FfiExportModel`, `FfiPlaceModel`, `BorrowModel`, `HandleModel`, `CloneModel`, `CopyModel`, `NullModel`, `TextModel` | the model; no proofs |
| `Spec*`, `Reach`, `Calm` | vocabulary of the theorems; no proofs |
| `Laws`, `LiveLaws`, `WeakLaws`, `MemoryLaws`, `BoundLaws` | what is proved of a collection in general (used in proofs only) |
| `*Lemmas*`, `Laws*`, `Live*`, `Weak*`, `Facts*`, … | proofs |
| `Prop*` | the theorems named in `MANIFEST.json`, with `Print Assumptions` and examples |
| `RepoTests` | the crate's own unit tests evaluated on the model: a check of the transcription, tests and not proofs |

## Trusted base

* Coq's kernel (8.16.1) and `vm_compute`.
* `Print Assumptions` says "Closed under the global context" for every theorem in
  `Prop*.v`. There are no axioms, parameters or section-less hypotheses in the
  development. `coqchk -o` lists seven axioms of the standard library that are loaded
  but not used by any theorem: `Coq.ssr.ssrunder.Under_rel.{Under_rel,
  Under_rel_from_rel, Under_relE, Over_rel, over_rel, over_rel_done, under_rel_done}`.
* The definitions in the model files as a transcription of `/repo`, and in particular:
  * std and core: `Vec` (growth, `extend`, `try_reserve`, `truncate`), slices, `Option`,
    the iterator adapters. They are transcribed, not verified. `FromIterator` for `Vec`
    follows `extend_desugared`; the `TrustedLen` specialisation reserves once at the
    beginning instead, which gives the same items and the same outcome, possibly
    aborting before instead of after items were taken. Collecting a `Vec` from the
    iterator of a `Vec` may reuse its buffer: the same items, another capacity.
    `Clone` and `Default` of the items of a user's type (`SAny`) return.
  * no allocation above 2^60 bytes succeeds (a statement about 64-bit address spaces).
    Below it infallible allocation succeeds. A capacity that doubling would bring above
    the bound is cut down to it.
  * an allocation failure in an infallible operation ends the process.
  * a terminating run calls an iterator finitely often.
  * Rust's type system: arrays `[T; N]` have `N` items, references are valid,
    exclusive access is exclusive. The safety contract of the `unsafe` import functions
    is a hypothesis (`readable`).

## What is modelled, what is not

Modelled, function by function: `collection/mod.rs` (traits), `collection/{vec,slice,rc,
arc,box,array,flatten}.rs`, `bitmap/{mod,packed,unpacked,validity}.rs`, `validity.rs`,
`nullability.rs` (the choice of `Validity` or nothing; `map` and `zip` of items), `offset.rs` (`Offsets`,
`OffsetView`, owned and view iterators, equality), `layout/*.rs` and `array.rs` (newtypes
that delegate), `fixed_size.rs` (sizes and formats), `buffer.rs` (which storage is
read how), `narrow-ffi` (export, import, formats, schema and array structures, release
callbacks).

`variable_size_binary.rs` is an alias for lists of `u8`, which are covered. Clones
exist for vectors, bitmaps, fixed-size lists and what contains only these
(`CloneModel.v`); C51 shows that a clone is one of the collections that can be built.
`CopyModel.v` puts functions of the crate together as a program would: an array collected
from, or extended by, the iterator of another one.

`TextModel.v` has the messages of errors and the plain `Debug` output of arrays and views of
lists, with what std prints for integers, lists, options and structures.

Not modelled: `Debug` of iterators, errors, the C structures and floating point numbers, and the
pretty-printed form; `Deref` and accessor one-liners; items without size (`FixedSizeArray<_, 0>`); buffers that
allocate otherwise than `Vec` and `Box` (of a custom allocator only the passing around of
its handle is modelled, HandleModel.v);
tests (`RepoTests.v` runs them on the model), benches, and the build configuration; threads (the types are used by one owner
at a time); floating point arithmetic (a value is its bit pattern).

## False properties

The faithful model refutes these; each has a machine-checked witness or a theorem that
shows it for all collections. The part that is true is proved under the name in
parentheses.

* **C02** Collecting a `Bitmap` from an iterator that resumes after `None` in the middle
  of a byte keeps items after it: `BitPacked::next` calls `next` again after `None`, and
  the count goes on (`C02_collect_settling_partial`: exactly when it is right;
  `C02_what_is_collected`: what is collected otherwise).
* **C22** `Flatten::view` panics for every out of bounds index of a non-nullable
  fixed-size list, `Offsets::view(usize::MAX)` overflows (`C22_view_out_of_bounds_partial`).
* **C23** After an iterator panics inside `Flatten::extend`, the child may hold part of
  a row; all later rows are shifted. This happens for booleans, options and lists in
  fixed-size lists (`C23_bits_refuted`, `C23_options_refuted`, `C23_lists_refuted`), and
  for primitives when a wrong size hint makes the vector panic in the middle of a row
  (`C23_words_refuted`) (`C23_panicking_extend_keeps_rows_partial`).
  Truncating to the old length does not help when part of a row was added; truncating
  below `len()` does, at the cost of a row that could still be read
  (`C54_truncate_repairs`).
* **C28** for lists: `Offsets::try_reserve(n)` reserves `n` offsets and `n` elements,
  which does not suffice for `n` lists (`C28_not_for_lists`). The property excludes
  lists; `C28_lists_get_one_element_each` is what holds for them.
* **C29** `Validity` and `Offsets` reserve for the *upper* bound of the size hint: a
  short iterator with a large upper bound is refused (`C29_refuted`,
  `C29_upper_bound_refuted`; `C29_construction_succeeds` when the upper bound fits).
* **C30** Width 0: only `try_from_parts` rejects it; collected zero-width rows give a
  collection whose `len` panics and whose `view` returns a row for every index
  (`C30_zero_width_refuted`, `C30_zero_width_parts_rejected`).
* **C32** After a panicking extension the value collection of a `Validity` may be longer
  than its bitmap; its parts are then rejected (`C32_after_panic_refuted`); offset
  overflow alone can cause this (`C32_refuted`) (`C32_null_parts_inverse_partial`).
* **C33** Such an array is exported, and import rejects it (`C33_round_trip_refuted`,
  `C33_panicked_array_not_importable`; `C33_round_trip_partial`; `C56_import_back` says exactly when it does).
* **C42** `Vec::into_boxed_slice` after a fallible construction ends the process if the
  allocator refuses to shrink the buffer (`C42_shrink_refuted`;
  `C42_try_boxed_items_partial`).
* **C38** The buffers of a child moved out of an exported array are freed with the
  parent (`C38_moved_child_refuted`; `C38_moved_children_partial`).

### Scope of the claims about all collections

Claims that say "every collection" mean those of the inductive definition `built`
(`Reach.v`): anything reachable through constructors, parts, conversions and operations,
with panics included except those that tear rows of fixed-size lists (C23), and with
positive widths (C30). What this leaves out is the subject of C54 to C58 and C60.

* C14, C15, C18, C20, C27, C28, C31, C39, C45, C52 hold for torn collections too, with
  "items that can be read" for "items" (`C57_*`, `C55_operations`, `C58_*`), and so do
  C41, C46 and the part of C51 about clones (`C60_*`).
* C09, C11, C13, C17, C19, C21, C25 do not: consuming torn rows panics after the last
  whole row, and extending shifts the rows appended. Each has a witness
  (`C09_not_for_torn_rows`, …), and since this was found their `quantifier` in
  `properties.jsonl` names the exception.

Also noted: import of an empty variable-size list whose offsets buffer is null is
rejected (`MissingOffsetsBuffer`), although older producers send an empty buffer for it.

## Plan per property

* **C01 Collected bitmaps read back the collected booleans** — Bitmap model over bytes (N, 8 bits, LSB first); induction over the items in blocks of eight.
* **C02 Collecting a resumable iterator stops at the first None** — Input iterators are event traces, so resumable iterators exist in the model. False of the code: refuted by a concrete trace; proved exactly for the iterators that settle (partial).
* **C03 Bitmap::try_from_parts accepts exactly the in-bounds parts** — Direct case analysis on the model of try_from_parts; bits read back through the API.
* **C04 Extending a bitmap appends, whatever is in the padding** — Invariant of Bitmap (offset+bits <= 8*bytes) and the list abstraction; extend proved to append for every trace.
* **C05 A panicking bitmap extension leaves a prefix and later extensions are exact** — Same model, traces that end in a panic event; history theorem.
* **C06 Bitmap::try_extend is atomic under allocation failure** — Allocator oracle (script of successes/failures) threaded through try_* operations.
* **C07 Bitmap null counts are the counts of visible bits** — Masked popcount fold proved equal to the number of true bits of the visible list.
* **C08 Bitmap histories refine a list of booleans** — Refinement over histories of operations (induction on the history).
* **C09 Output iterators are exact** — Output iterators are state machines; simulation by the list of remaining items, preserved by next.
* **C10 Nullable collections read back the collected options** — Validity as a function on collections (record of operations), laws derived from the child's laws.
* **C11 Extending a nullable collection appends** — Chunk loop by induction on the trace; materialization lemma for all_set bytes.
* **C12 A panicking nullable extension leaves whole committed items** — As C11 with traces ending in panic; invariant tolerates a longer value collection.
* **C13 Validity::try_extend is atomic under allocation failure** — As C11 with allocator oracle; rollback through truncate.
* **C14 Validity::try_from_parts accepts exactly equal lengths** — Case analysis plus read-back through the API.
* **C15 Offsets::try_from_parts accepts exactly valid offsets** — Induction over the offsets buffer; the specification is an independent first-violation predicate.
* **C16 List collections read back the collected lists** — Offsets as a function on collections, laws derived from the child's laws.
* **C17 Extending a list collection appends and drops unreferenced data** — Invariant allows an unreferenced data suffix; extend starts by truncating.
* **C18 Offsets never wrap** — Offsets in Z with explicit bounds; invariant (zero first, monotone, last <= data length) over all histories.
* **C19 Offsets::try_extend is atomic under allocation failure** — Allocator oracle; rollback of both buffers.
* **C20 Flatten::try_from_parts accepts exactly multiples of a non-zero width** — Case analysis; read-back through the API.
* **C21 Fixed-size lists read back and append** — Flatten as a function on collections, N > 0; laws derived from the child's laws.
* **C22 view returns None out of bounds** — Proved for bitmap, vectors and nullable collections; false for non-nullable fixed-size lists (any index >= len) and for lists at usize::MAX: refuted with witnesses, true part proved under the exact guard.
* **C23 A panicking extension of a fixed-size list keeps rows aligned** — False for children that commit a number of items that is not a multiple of N ([bool;3]): refuted; proved for the exact class of item types whose child commits every produced item.
* **C24 Every nested array reads back what was collected** — Item types as an inductive type, layout : ty -> collection record, induction on the type.
* **C25 Every nested array is atomic under allocation failure** — Induction on the type with the laws of C06, C13, C19.
* **C26 Array histories refine a list** — Induction on the type, then on the history.
* **C27 Reservations never change contents and truncate follows its contract** — Induction on the type.
* **C28 A successful reservation suffices** — Capacity is part of the vector model; allocator that always fails afterwards.
* **C29 Fallible construction returns all items or an error** — Safety for all types; success needs honest hints. The reservation by the *upper* bound in Validity/Offsets is shown to refuse small honest iterators (refuted part).
* **C30 Zero-width fixed-size lists are usable or rejected** — False: refuted (len panics on a collected zero-width collection, view returns rows for every index).
* **C31 List views are slices** — OffsetView model with its own operations; equality against an arbitrary list-like collection.
* **C32 into_parts and try_from_parts are inverse** — Per layout, over the reachable states without panics; refuted after a panicking Validity::extend.
* **C33 Exported arrays import back unchanged** — FFI structures as data trees, export and import as functions by induction on the type.
* **C34 Export rejects exactly the arrays with a non-zero bit offset** — Same model; specification of the Arrow layout written separately.
* **C35 Import validates all scalar metadata** — import is a total function on arbitrary trees; soundness by induction on the type.
* **C36 Fixed-size-list format strings match exactly their width** — Decimal printing and parsing over byte strings, all N < 2^64.
* **C37 Exported storage is released exactly once** — Heap of allocations with ownership tree, release as a state transformer.
* **C38 A child moved out of an exported array outlives its parent** — Same heap model. False: refuted by moving the child out, releasing the parent, reading the child.
* **C39 Validity stays consistent with values** — Corollary of the nullable refinement, stated through the API.
* **C40 Implicit and explicit validity agree** — Refinement between implicit and explicit states.
* **C41 Shared storage gives away the same items** — `SliceIntoIter` and the layout iterators above it as state machines of their own, bisimulation with the iterators over vectors.
* **C42 Boxed storage is constructed like growable storage** — Construction functions over boxed slices, related to those over vectors by shrinking the buffer at the bottom; false when the allocator refuses to shrink.
* **C43 Import errors name a true fault** — Fault predicate on the raw structures, per error and nesting level; induction on the type.
* **C44 A rejected or panicking export frees everything** — Export as steps on the heap, with the destructors that run on an early return or while unwinding; agreement with the functional export by induction on the type.
* **C45 An iterator that has ended is not called again** — Scripts carry the state of their source; every state returned is one the source had up to the first `None`. By induction on shapes, with a lemma per adapter (fuse, take, by_ref, inspect, flatten, packing).
* **C46 Lists handed over as collections of any type** — `OwnedListModel.v` has the functions of `offset.rs` that mention `U`, for any two collection types with corresponding items. Writing is shown equal to writing lists through the drained owning iterator of `U`; reading is shown to collect the row into a new `U`.
* **C47 All buffers come from the allocator handed in** — Handles kept beside each collection (`HandleModel.v`), one per buffer; that they follow the buffers is proved for every operation of the model.
* **C48 Collected arrays have the canonical physical layout** — `SpecLaid.v` writes down, from the Arrow format alone, which bytes, offsets and slots represent a list of items. Shown to hold of everything collected and to be kept by successful extensions and by reservations. After a truncation, a failed or a panicking extension a bitmap may keep stale bits behind its end (`C48_not_after_truncation`), so nothing is claimed there.
* **C49 Collected arrays cross the C Data Interface byte for byte** — `SpecWire.v` writes down the bytes of an array of given items at every level. Arrays with the layout of C48 are shown to export to them by induction on the type; the hypotheses of C33 (no bit offset, values that fit, no abandoned extension, fewer than 2^63 elements) are derived from what was collected.
* **C50 Packing and unpacking bits are inverse** — `BitPacked` and `BitUnpacked` by themselves, against `arrow_bits` and `bits_of`; hints by induction on scripts for any relation between hints and remaining items that survives rounding up to bytes. `UnpackModel.v` has `BitUnpacked` over any script, resumable and panicking ones included. What is handed out after an abandoned partial byte is not claimed: hints are only followed for sources that end without panic.
* **C51 Every successful operation has one prescribed effect on the buffers** — `SpecBytes.v` describes the contents of all buffers, bits outside the window of a bitmap included, and what appending and shortening do to them. A set of laws about this description (`BLaws` in `FactsBytes.v`) is shown of each collection and carried through the shapes; histories by induction. An absent bitmap counts as the ones it stands for, since appending an empty list of nullable items through `extend` creates it and through `try_extend` does not. The premise `snug` excludes what an abandoned extension leaves behind the items; there the two kinds of extension may leave different bytes. After truncations the bits that were cut off are part of the description, so there histories are only followed where no bitmap can be absent.
* **C52 Copying an array normalises it** — The iterator of an array, by value in any storage (C41) or through views, is shown to be the script of its items; with this C48, C49 and C51 apply to what is collected from it. For the relay from an imported structure to an exported one, what `readable` memory holds is shown to fit its type by induction on the type.
* **C53 Nullable items map and zip as values that may be absent** — `map`, `zip` and `zip_with` of both kinds of nullability with closures that have effects and may panic; by cases.
* **C54 A fixed-size list torn by a panic can be read and repaired** — The complement of C23: for a child of any length, not only multiples of the width, the rows are what `cut_rows` describes; reading, iterating and truncating are followed from the laws of the child, and the child of a panicking extension shows a prefix of the concatenated rows.
* **C55 No panic makes reading panic or loses an item** — `lived` drops the premise of `built` that panics are harmless. A weaker invariant (`WLaws` in `WeakLaws.v`: a child may hold more than its parent shows, fixed-size lists may end in the middle of a row, appended rows may be shifted) is shown to be kept by every operation of every collection, however it ends, and to suffice for reading. For types without fixed-size lists it is the invariant of the other claims.
* **C56 Exporting after any panic describes only memory that exists** — The proofs about export (`FactsExport.v`, `FactsFfi.v`) are carried out on the weak invariant of C55; those of C33 and C34 are the special case without panics. Slices of children that hold more than their parent shows are followed through `holds` and `readable`; `rows_fill` in `SpecLived.v` says, from lengths only, when import accepts the result.
* **C57 After any panic views, counts, parts and copies agree with the items read** — The weak invariant of C55 in place of the invariant of the other claims; the lemmas about views of rows (`FactsList.v`) are stated for both. For copies, the owning iterator of a torn collection is a script that ends in a panic, the one by reference a script of the items read, to which the theorems about collecting apply.
* **C58 No panic makes a later operation fail or a reservation insufficient** — `WRoom` (`WeakRoom.v`) adds to the weak laws of C55 that what the laws count as used memory still bounds what operations need, and `WLive` (`WeakLive.v`) that reserved room can be used; both are carried through the shapes. `demand` and `fair` in `SpecRoom.v` say when there is room for a whole history.
* **C59 Exported memory in any storage is released exactly once** — `FfiPlaceModel.v` gives every buffer a place of its own choice (more general than the code, where all buffers of an array have the same kind of storage) and shared allocations a reference count, with the other owners as actors. Every step is shown to be followed by one of the model of C37, C38 and C44 (a simulation: the count is the number of other references plus the buffers not yet freed there), whose theorems then apply. That the pointers are taken after the move into the box matters here; it did not there.
* **C60 After any panic, lists handed over as collections, clones and other storage agree too** — `lived` also allows clones and appending lived collections to lists, so that C55 to C58 cover histories with them. `WeakOwned.v` carries the weak invariant through the model of C46 with iterators that may panic at the end of a collection; collections that can be consumed are again written as lists are (C46). Storage follows from the simulation of C41.
* **C61 Memory is asked for when room runs out, and kept** — `memory` in `SpecCaps.v` lists the capacities of all buffers. `Asks` (`MemoryLaws.v`) says of every operation, without any condition on the collection, what it does to them and which answers of the allocator it uses; carried through the shapes. That an extension asks for nothing follows from C58: it succeeds even if the next request is refused, and an operation that succeeds although the next request is refused made none. Doubling is how the model of `Vec` grows; that std grows so is part of the trusted base.
* **C62 No more memory is asked for than the items account for** — `stored` in `SpecBounds.v` lists for every buffer its capacity, the elements in it and how many a number of items takes. `Bounds` and `TryBounds` (`BoundLaws.v`, `BoundLists.v`) say what each operation may leave, and are carried through the shapes; the fallible one counts with every request exactly what is needed because an extension reserves by size hints that are shown to be honest at every level. Lists within the data of a list must end where their data ends (`inner_flush`; true of every list without lists in it and of every new collection): what lies beyond is cut off only by the extension. Where std collects a `Vec` from the iterator of a `Vec` in place, the capacity is that of the source; this is outside the model. What a fallible request gives on top (`e`) includes what `Vec::try_reserve` adds to double the capacity; that is less than the capacity it had, or the smallest one. `C62_not_for_lists_of_lists`: infallible extension reserves one element of the innermost data per inner list, even if all are empty.
* **C63 Error messages tell errors apart and state their numbers** — A reader of numbers (`read_number` in `SpecText.v`) inverts printing them if no digit follows. Messages of different errors differ in their words, or in what follows a number that both start with; `said` finds a number by the words in front of it.
* **C64 Debug output of an array tells exactly what is in its buffers** — By induction over the type: what is printed, followed by anything that does not start with a digit, can be taken apart into what was printed and what follows (`tells` in `FactsText.v`). Lists are unambiguous because no element starts with `]`. That alone would not notice swapped fields, so reading the fields back by name is shown as well.
* **C65 Import copies nothing** — `BorrowModel.v` has the import functions once more, with slices (address, number of elements) in place of contents and a memory to read them from. An induction on the type shows that reading through the slices gives what `import` of `FfiModel.v` gives, in every outcome, so that all claims about imported arrays are claims about borrowed memory. For arrays of this crate the slices are followed to the storage blocks of the heap model.
