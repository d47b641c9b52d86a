{
 "C01": {
  "note": "History theorem over all builder operations (data, references, slices, builders, prepend, rewind, clear), zero tail, equality, built cell."
 },
 "C02": {
  "note": "For counts that do not wrap u16 (at most 64512). C02_wrap_refuted shows that release builds accept larger counts."
 },
 "C03": {
  "note": "bool, u8..u128, i8..i128, 256-bit hashes, n-bit integers, raw bytes; any list of values at any position."
 },
 "C04": {
  "note": "For counts that do not wrap (bits at most 64000, refs at most 250). C04_wrap_refuted shows the window growing otherwise (release builds)."
 },
 "C05": {
  "status": "partial",
  "note": "The full statement is false of the code: get_raw ignores its offset in the bound check (C05_get_raw_beyond_window_refuted, C05_get_raw_out_of_bounds_refuted) and get_uint wraps for offsets near 2^16 in release builds (C05_get_uint_wrap_refuted). Proved for offsets up to 64000 and, for get_raw, requests inside of the window."
 },
 "C06": {
  "note": "All alignments; contents_eq is stated for an arbitrary comparison of references."
 },
 "C07": {
  "note": "For every pointer alignment (al)."
 },
 "C08": {
  "note": "Raw data, slices, prepend and rewind at every alignment."
 },
 "C09": {
  "note": "BigInt as Z, BigUint as N; num-bigint's byte conversions are modelled by their documented results. Fixed-width and variable-length forms; integers up to 2^65000 (larger ones wrap the u16 size). Findings: C09_negative_unsigned_refuted, C09_var_store_atomic_refuted."
 },
 "C29": {
  "note": "Labels of any width up to 1023. C29_overlong_label_refuted: the reader accepts same-bit/long labels longer than the remaining key width."
 },
 "C20": {
  "note": "For every history of set/replace/add (borrowing and owning variants), remove and remove-bound operations, and separately for any well-formed dictionary, canonical or not. C20_updates_succeed gives the sizes for which no update can fail."
 },
 "C21": {
  "note": "All modes, both variants; returned flag and previous value; wrong key length gives an error."
 },
 "C22": {
  "note": "Removal from canonical dictionaries gives the canonical dictionary without the key; C22_remove_any covers any well-formed dictionary."
 },
 "C23": {
  "note": "Root is a function of content over all operation histories, and content of root; existence and uniqueness of the canonical dictionary of every small enough map. Bulk operations are covered by C26 and C27."
 },
 "C24": {
  "note": "Borrowing and owning entry iterators in all four modes; value iterators in unsigned order. Findings: values().signed() visits a labelled root in the wrong order (C24_values_signed_refuted), and the owning value iterator returns ranges of the wrong cell when reversed (C24_values_owned_reversed_refuted)."
 },
 "C25": {
  "note": "Minimum, maximum, next and previous in signed and unsigned order, and removal of a bound."
 },
 "C46": {
  "note": "All operations of the model on arbitrary trees, keys and modes, and all iterators; fin (cell finalisation) is any function that itself does not panic."
 },
 "C48": {
  "note": "Any pair of well-formed dictionaries, all four modes."
 },
 "C26": {
  "note": "Keys whose order is the unsigned numeric order: the built root is the canonical dictionary of the entries (first value of a repeated key), equal to the root reached by insertion; unsorted input never succeeds. For signed key order the claim is false and refuted (C26_signed_refuted)."
 },
 "C28": {
  "note": "split by prefix, raw split and merge of siblings, soundness for any well-formed plain dictionary, success for canonical ones; split then merge and merge then split are inverse. dict_merge is modelled only for the malformed-tree property C46."
 },
 "C10": {
  "note": "Descriptor bytes of every finalized cell; distinct shapes have distinct bytes."
 },
 "C11": {
  "note": "All masks (three bits), levels and offsets; plus: levels outside of the mask repeat hash and depth."
 },
 "C12": {
  "note": "For every hash function with 32-byte results that maps the empty cell's representation to the constant in the code (C12_sha256 shows that SHA-256 does). A collision is between two strings actually hashed for the two trees. The constant cells' hashes are checked."
 },
 "C13": {
  "note": "Level-aware depths, height for trees without pruned branches, DepthOverflow exactly above 65535."
 },
 "C14": {
  "note": "build_ext with the empty cell context: three-way classification (built / DepthOverflow / InvalidCell), mask and type of the result."
 },
 "C15": {
  "note": "One, two or any number of roots, with and without checksum and stored hashes, any trailing bytes; C15_any_bag decodes every well-formed bag, also with index or duplicate cells. Conditions: distinct representation hashes (C15_distinct derives it from absence of collisions), fewer than 2^32 cells, at least as many cells as roots. C15_duplicate_root_refuted: one cell added twice as root cannot be decoded again."
 },
 "C16": {
  "note": "All three entry points on every byte string: no read outside of the input, and what is accepted is a bag whose references lead to later cells, all cells valid, at most half as many cells as bytes. Stored hashes, index and trailing bytes are not checked by the code (C16_case shows it)."
 },
 "C17": {
  "note": "Recursive and iterative traversal (chosen by depth) are both modelled and shown equal."
 },
 "C18": {
  "note": "Options fixed before roots are added; C18_late_option_refuted shows wrong sizes when without_hashes is set later."
 },
 "C19": {
  "note": "Any chunk size and any completion order of the thread pool, and the chunked writer with running checksum; collect_into_vec is modelled as one slot per chunk. The debug assertion at the end of encode_to_writer (off by the checksum) is not modelled."
 },
 "C47": {
  "note": "The 256-entry table of crc.rs is transcribed and the table-driven loop is proved equal to long division by x^16+x^12+x^5+1; linearity, single-bit and 16-bit burst detection follow."
 },
 "C37": {
  "status": "partial",
  "note": "Constructor, children, parent, sibling, intersection and address containment are proved exactly (C37_new..C37_contains_address). The ancestor test is not exact in the code: it never misses a true ancestor (C37_ancestor_partial) but accepts shards that are not ancestors (C37_ancestor_refuted), so the full statement is false of the code."
 },
 "C44": {
  "note": "Round trip for bit strings up to 1020 bits, exact grammar accepted and rejected. Finding: texts of 1021..1023-bit strings exceed the 256-character limit of the parser (C44_long_refuted)."
 },
 "C45": {
  "note": "Shard identifiers, block identifiers and their short forms; cell and text forms. Finding: children of the masterchain root obtained by split() print to text that the parser refuses (C45_masterchain_split_refuted)."
 },
 "C35": {
  "note": "VarUint24, VarUint56, Tokens and VarUint248: store succeeds exactly when in range with room, writes the shortest notation; load reads exactly the notation (minimal or not) and never leaves the range; reported bit length is the length written."
 },
 "C36": {
  "status": "partial",
  "note": "Exact for VarUint24/56/Tokens (checked, saturating, assigning forms, operators) and for VarUint248 checked add/sub, saturating add/sub, -, *, /, %, shifts and comparison (the full Knuth division is verified). Two operations of VarUint248 are wrong in the code: the checked product accepts results of 249..256 bits (C36_checked_mul248_partial, C36_checked_mul248_refuted), and the operator + ignores the high word of the left operand (C36_add248_partial characterises exactly when it is right; C36_add248_refuted)."
 },
 "C51": {
  "status": "partial",
  "note": "Small integers fully proved. A split depth comes back for 1..31 (C51_split_depth_partial); the constructor also accepts 32..255, which are written modulo 32 (C51_split_depth_refuted)."
 },
 "C52": {
  "status": "partial",
  "note": "VarUint24/56/Tokens display and parse proved exactly; VarUint248 display proved for all 256-bit values; VarUint248 parsing exact for more than 64 digits or radix above 16 (C52_parse248_long) and for values below 2^128 (C52_parse248_partial); otherwise the high word is lost (C52_parse248_refuted)."
 },
 "C38": {
  "note": "Store/load of standard, variable, optional and external addresses against a TL-B style layout relation (AddrSpec), dictionary keys, raw text, base64 with CRC-16 and detection of one- and two-character typos. Refuted parts: anycast depth 31 is accepted, an anycast prefix of 32 bits or more does not round-trip, text of an anycast address is not parseable, the two base64 alphabets are not told apart."
 },
 "C39": {
  "note": "Extra currencies: the dictionary operations are those of C20-C24; amounts are read in any notation that fits. Addition, subtraction, clamping and normalization are stated for plain and canonical dictionaries; errors other than overflow happen only outside the 'sturdy' case (non-canonical labels, values with more than an amount, or a context that refuses cells). The sort of try_from_iter is a parameter assumed to return a sorted permutation. Collections: tokens likewise, layouts, sizes, loads."
 },
 "C32": {
  "status": "partial",
  "note": "The sequential builder, the stored form, loading and proofs for one cell. The full statement is refuted: if a subtree with references occurs both outside and inside a Merkle cell, the proof has a wrong hash and does not load (C32_shared_subtree_refuted); the theorems assume it does not (one_depth), which holds for every tree without Merkle cells. C32_root_level_refuted shows that level 0 of the root is needed. C32_commits is the converse direction: a proof that loads shows only what is in the tree with that hash (trees without Merkle cells and pruned branches). The parallel builder is not modelled."
 },
 "C34": {
  "note": "All cells and all depths: when a pruned branch is made and what it reports at every level. make_pruned_branch fails for depths above 2 and for cells with a level above the new one."
 },
 "C49": {
  "status": "partial",
  "note": "Level 0 for all cells and walks; all levels for trees without Merkle cells whose root has mask 0 or 1, and so for the views of proofs. The full statement is refuted: the descriptor is not that of the level below, and virtualizing twice is not two levels below. Missing: masks with more than one level in trees with Merkle cells (there the code passes a hash index as a level)."
 },
 "C43": {
  "note": "For every history of add_cell and add_slice. Distinct cells are different trees; assumes different cells have different hashes (C12) and totals below 2^64. Finding: with the limit 0 a single cell is counted, because add_cell does not check the limit for the cell itself (C43_zero_limit_refuted)."
 },
 "C41": {
  "note": "For every schedule of any number of threads, each running any list of set and wait_cloned calls. Threads are assumed not to panic while they hold the lock. No lost wake-up: once a value is published every continuation is bounded and ends with all calls returned, without relying on spurious wake-ups."
 },
 "C40": {
  "note": "For every interleaving of any number of threads (thread-safe version). Exact when no call is in progress; data accesses are recorded before they return. Finding: in on-load mode a thread can get a child before the thread that created the tracked child has recorded it (C40_load_not_immediate_refuted)."
 },
 "C42": {
  "note": "Heap of counted cells, destructor and iterative release modelled step by step, with the number of nested destructors bounded by the model (2 suffice for every shape: C42_release). C42_everything: dropping all handles releases each cell exactly once. C42_weak_handles_refuted: with weak handles to the cells Arc::get_mut fails and the nesting grows with the depth of the tree. Handles changed by other threads during the release and virtual/usage-tracking cells are not modelled."
 },
 "C33": {
  "status": "partial",
  "note": "Application is sound for every update and every cell (C33_apply_sound, C33_wrong_root), loading is sound (C33_load). That an update made by the builder can be applied and gives the new tree, and that it survives storing and loading, is proved for trees without Merkle cells and pruned branches and for filters that remember the visited cells of the old tree without asking for whole subtrees (C33_create_apply_partial). Outside of that the property is false: C33_subtree_filter_refuted, C33_embedded_proof_refuted, C33_two_levels_refuted. The parallel builder is not modelled."
 },
 "C50": {
  "status": "partial",
  "note": "Proved for trees without Merkle cells and pruned branches, for updates that show every remaining cell with references that a removed cell refers to (C50_counts_partial), in particular if no such cell is shared between a removed and a remaining cell (C50_unshared_partial). Without that condition the property is false: C50_shared_refuted is a small update after which a cell of the new tree has counter zero."
 },
 "C30": {
  "note": "Histories of new, set, replace, add, remove, split and merge, with failures; bulk building and bulk modification of augmented dictionaries are not part of the history. The extra of every fork is in AugSpec.aug_hashmap, which C31_history establishes. Instances for all five extras of the crate."
 },
 "C31": {
  "note": "Same histories as C30; lookups and iteration also for dictionaries with any valid labels. find_by_extra is not modelled."
 },
 "C27": {
  "note": "Model of the whole of modify.rs in plain mode, function by function (seek, unwind, flattening, merge stack). Strictly increasing unsigned keys: the canonical dictionary of the old content after the batch, the same root as one-by-one operations; flag, failures of extract_value, unsorted batches. Findings: with repeated keys the result depends on whether the dictionary was empty (C27_repeated_keys_refuted); for keys ordered as signed numbers the claim is false (C27_signed_refuted)."
 },
 "C53": {
  "status": "partial",
  "note": "Given placement: exact for all infos, slice and part bodies; loading exact; round trips; relaxed forms. Computed placement: exact for external messages; for internal ones only when no placement takes exactly 1024 bits (C53_computed_internal_partial), because the declared size of an internal info is one bit short (C53_internal_size): the full statement is refuted (C53_internal_layout_refuted). A flag for a missing init takes the room of a reference (C53_unused_flag_refuted)."
 },
 "C54": {
  "note": "Layouts, loading and round trips are exact. The statistics part is refuted: StorageUsed::compute tests `cells.is_valid()` without the negation, so it answers IntOverflow for every account with fewer than 2^56 cells (C54_compute_refuted) and only ever answers with an invalid count (C54_compute_only_invalid); beyond the limit it is Cancelled (C54_compute_limit).",
  "status": "partial"
 },
 "C55": {
  "note": "The parts are exact for every fee that the same prices can produce (C55_parts); for arbitrary valid amounts of tokens above 2^112 they are not, because the product saturates (C55_parts_refuted)."
 },
 "C56": {
  "note": "The hash function is arbitrary (64 bytes of output). A set that contains a validator without weight, which loading accepts, breaks the claim (C56_zero_weight_refuted)."
 },
 "C57": {
  "note": "Excluded by the hypothesis `supported`, with a refutation for each: numbers of no bits, empty tuples behind a cell, positive varints whose top bit is set, variable numbers longer than a cell, keys longer than 1011 bits and (before 2.2) empty maps. UTF-8 checking is a parameter; the walk over a map is any permutation of its entries."
 },
 "C58": {
  "note": "Lazy values and dictionaries are cells. `C58_derived` is about the macro, `C58_params`, `C58_blocks`, `C58_messages`, `C58_checked_structs` and `C58_versions` about the structures."
 },
 "C59": {
  "note": "The outcome of finalizing inner cells is a parameter, as in C08; messages, state updates and descriptions inside a transaction are lazy cells."
 },
 "C60": {
  "note": "Lazy messages, envelopes and transactions are cells; the variants of InMsg and OutMsg are those that the code has."
 },
 "C61": {
  "note": "Keys of validators are byte strings of 32 bytes; the older layout of sets (tag 0x11) is covered by C61_loaded_set only."
 },
 "C62": {
  "note": "The hash map that groups shards by workchain is modelled by an arbitrary order of its keys, the unstable sort by an arbitrary sorting function."
 },
 "C63": {
  "note": "Key and value are raw (the typed method loads them afterwards)."
 },
 "C64": {
  "note": "What one would expect of merging dictionaries with other roots and of subdictionaries of proper prefixes is false in the code: see the findings."
 },
 "C65": {
  "note": "Without the feature tycho. Value flows with extra currencies in the collected fees do not come back: see the findings."
 },
 "C66": {
  "note": "C66_zero_refuted: a zero entry in a balance makes a balanced flow be reported as unbalanced. C66_twice_refuted: a signature that is in the dictionary under two keys is counted twice, so that the weight can exceed that of all nodes. The comparison of cells is a parameter: that equal hashes mean equal cells is a hypothesis of C66_balanced, and both directions of C66_exact. The hash of the key and the verification of a signature are parameters. The sum of weights is that of a release build (modulo 2^64)."
 },
 "C67": {
  "note": "C67_endless_refuted: on a slice with bits but without references the iterator returns the same error for ever. C67_mode_refuted: the mode of a change of a library has seven bits in a cell; the top bit of the byte is lost without an error. How far a failed reading moves the slice is not modelled."
 },
 "C68": {
  "note": "C68_hint_refuted: len and size_hint count bits that stand for no capability, so that size_hint promises more items than come, and a set without items need not be empty."
 },
 "C69": {
  "note": "C69_leaf_refuted: a plain dictionary with one entry takes all that follows it into the value of the entry (LibDescr and non-empty parameters are therefore read back only when they come last). Cells are finalized by the parameter fin as in the dictionary layer."
 },
 "C70": {
  "note": "C70_emptied_refuted: the dictionary of parameters that is said not to be empty becomes empty when the only parameter, other than 0, is removed. C70_rest_refuted: getters do not look at what follows the value in the cell. Serde forms are not modelled."
 },
 "C71": {
  "note": "C71_version_1_refuted: in version 1 the signed body has no payload, and the unsigned body is not read back. C71_headers_refuted: a header declared several times can push the identifier into another cell, where it is not looked for. C71_expire_refuted: without an expiration time, a time past 2^32 seconds wraps to the past. Names of values are not modelled; identifiers and the parsing of contract JSON: C73; the signature is any 64 bytes."
 },
 "C72": {
  "note": "C72_key_0_refuted: a field declared with the key 0 is silently replaced by the public key. C72_large_refuted: a value that fills its cell cannot be put into initial data."
 },
 "C73": {
  "note": "C73_name_refuted: names are not checked, and an event named f() has the signature of a function f. C73_same_name_refuted: of functions with the same name all but the last are lost. C73_spelling_refuted: several texts are accepted as the same type. The JSON syntax itself (serde_json) is not modelled."
 },
 "C74": {
  "note": "Left out (EncSpec): arrays of a fixed length (C57_full_cell_refuted), before version 2.2 empty maps and negative varints of a whole number of bytes (C74_negative_refuted), integers of more than a cell, keys of more than 1011 bits. Depth limits are not modelled: every cell of up to 1023 bits and 4 references is taken to be built."
 },
 "C75": {
  "note": "Left out of the model: VarUint248 and Lazy (which have a type but no conversion), AbiValue and PlainAbiValue as Rust types, FromAbiIter. A map is its entries, in any order; for encoding it is listed by the bits of its keys, as in C57. For numbers beyond their types three refutations: C75_hash_refuted, C75_amount_refuted, C75_split_depth_refuted."
 },
 "C76": {
  "note": "The hex and base64 crates are modelled by their documented behaviour (base64 0.22, STANDARD). Errors of the parser are not told apart. The rayon variants, BocRepr and SerdeBoc are left out. Refutations: C76_panic_refuted, C76_prefix_refuted, C76_short_refuted."
 },
 "C77": {
  "note": "An object is given by its store and load functions on bits and references; its references are built from their trees. Hashes below the root are assumed distinct and fewer than 2^32, as in C15. Left out: containers of cells (Option, Vec, arrays, maps) in SerdeBoc, the rayon variants. C77_trailing_refuted: data behind the object is accepted and lost."
 },
 "C78": {
  "note": "Values are given by what they store and load; the histories have the successful updates insert and remove. A readable serde format is the list of entries it is given. Left out: typed union iteration and splitting through the typed interface (C48 on bits); bulk building is C79."
 },
 "C79": {
  "note": "For signed integers, and for addresses, of both signs the claim is false and has no part here: C79_signed_refuted and C79_addresses_refuted give sorted collections that are built without an error into dictionaries with other keys. All keys are stored before the first is compared, so which error is returned when there are several is not claimed. The iterator with failing values of modify_with_sorted_iter_ext is C27 on bits; augmented dictionaries are C28 on bits."
 },
 "C80": {
  "note": "The removed value is given as the content of its slice parts; it is what the value stores. Values are C24 on bits."
 }
}