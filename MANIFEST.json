{
 "claims": [
  {
   "property": "C01",
   "status": "proved",
   "theorems": [
    "C01_builder_history",
    "C01_tail_zero",
    "C01_equal_data_equal_builder",
    "C01_build_shows_content"
   ],
   "note": "History theorem over all builder operations (data, references, slices, builders, prepend, rewind, clear), zero tail, equality, built cell."
  },
  {
   "property": "C02",
   "status": "proved",
   "theorems": [
    "C02_capacity",
    "C02_invariant",
    "C02_wrap_refuted"
   ],
   "note": "For counts that do not wrap u16 (at most 64512). C02_wrap_refuted shows that release builds accept larger counts."
  },
  {
   "property": "C03",
   "status": "proved",
   "theorems": [
    "C03_values_round_trip",
    "C03_wire_format"
   ],
   "note": "bool, u8..u128, i8..i128, 256-bit hashes, n-bit integers, raw bytes; any list of values at any position."
  },
  {
   "property": "C04",
   "status": "proved",
   "theorems": [
    "C04_window_history",
    "C04_never_widens",
    "C04_load_prefix",
    "C04_load_suffix",
    "C04_open",
    "C04_apply_range",
    "C04_wrap_refuted"
   ],
   "note": "For counts that do not wrap (bits at most 64000, refs at most 250). C04_wrap_refuted shows the window growing otherwise (release builds)."
  },
  {
   "property": "C05",
   "status": "partial",
   "theorems": [
    "C05_get_bit_partial",
    "C05_get_uint_fixed_partial",
    "C05_get_u128_partial",
    "C05_get_u256_partial",
    "C05_get_small_uint_partial",
    "C05_get_uint_partial",
    "C05_get_raw_partial",
    "C05_load_raw",
    "C05_no_out_of_bounds_partial",
    "C05_get_raw_beyond_window_refuted",
    "C05_get_raw_out_of_bounds_refuted",
    "C05_get_uint_wrap_refuted"
   ],
   "note": "The full statement is false of the code: get_raw ignores its offset in the bound check (C05_get_raw_beyond_window_refuted, C05_get_raw_out_of_bounds_refuted) and get_uint wraps for offsets near 2^16 in release builds (C05_get_uint_wrap_refuted). Proved for offsets up to 64000 and, for get_raw, requests inside of the window."
  },
  {
   "property": "C06",
   "status": "proved",
   "theorems": [
    "C06_lex_cmp",
    "C06_contents_eq",
    "C06_longest_common_data_prefix",
    "C06_strip_data_prefix",
    "C06_is_data_prefix_of",
    "C06_is_data_suffix_of"
   ],
   "note": "All alignments; contents_eq is stated for an arbitrary comparison of references."
  },
  {
   "property": "C07",
   "status": "proved",
   "theorems": [
    "C07_count_leading",
    "C07_count_trailing",
    "C07_test_uniform"
   ],
   "note": "For every pointer alignment (al)."
  },
  {
   "property": "C08",
   "status": "proved",
   "theorems": [
    "C08_raw_round_trip",
    "C08_slice_round_trip",
    "C08_slice_always_fits",
    "C08_prepend",
    "C08_rewind",
    "C08_rewind_undoes_append"
   ],
   "note": "Raw data, slices, prepend and rewind at every alignment."
  },
  {
   "property": "C09",
   "status": "proved",
   "theorems": [
    "C09_store_bigint",
    "C09_store_biguint",
    "C09_load_bigint",
    "C09_load_biguint",
    "C09_load_underflow",
    "C09_bigint_round_trip",
    "C09_biguint_round_trip",
    "C09_var_bigint_round_trip",
    "C09_var_biguint_round_trip",
    "C09_negative_unsigned_refuted",
    "C09_var_store_atomic_refuted"
   ],
   "note": "BigInt as Z, BigUint as N; num-bigint's byte conversions are modelled by their documented results. Fixed-width and variable-length forms; integers up to 2^65000 (larger ones wrap the u16 size). Findings: C09_negative_unsigned_refuted, C09_var_store_atomic_refuted."
  },
  {
   "property": "C10",
   "status": "proved",
   "theorems": [
    "C10_descriptor",
    "C10_determined",
    "C10_injective"
   ],
   "note": "Descriptor bytes of every finalized cell; distinct shapes have distinct bytes."
  },
  {
   "property": "C11",
   "status": "proved",
   "theorems": [
    "C11_contains",
    "C11_hash_index",
    "C11_iter",
    "C11_virtualize",
    "C11_insignificant"
   ],
   "note": "All masks (three bits), levels and offsets; plus: levels outside of the mask repeat hash and depth."
  },
  {
   "property": "C12",
   "status": "proved",
   "theorems": [
    "C12_sha256",
    "C12_hash_of_tree",
    "C12_deterministic",
    "C12_identifies",
    "C12_constant_cells"
   ],
   "note": "For every hash function with 32-byte results that maps the empty cell's representation to the constant in the code (C12_sha256 shows that SHA-256 does). A collision is between two strings actually hashed for the two trees. The constant cells' hashes are checked."
  },
  {
   "property": "C13",
   "status": "proved",
   "theorems": [
    "C13_depth",
    "C13_height",
    "C13_overflow"
   ],
   "note": "Level-aware depths, height for trees without pruned branches, DepthOverflow exactly above 65535."
  },
  {
   "property": "C14",
   "status": "proved",
   "theorems": [
    "C14_build",
    "C14_type"
   ],
   "note": "build_ext with the empty cell context: three-way classification (built / DepthOverflow / InvalidCell), mask and type of the result."
  },
  {
   "property": "C15",
   "status": "proved",
   "theorems": [
    "C15_crc32c",
    "C15_distinct",
    "C15_roundtrip",
    "C15_enough",
    "C15_single",
    "C15_pair",
    "C15_any_bag",
    "C15_duplicate_root_refuted"
   ],
   "note": "One, two or any number of roots, with and without checksum and stored hashes, any trailing bytes; C15_any_bag decodes every well-formed bag, also with index or duplicate cells. Conditions: distinct representation hashes (C15_distinct derives it from absence of collisions), fewer than 2^32 cells, at least as many cells as roots. C15_duplicate_root_refuted: one cell added twice as root cannot be decoded again."
  },
  {
   "property": "C16",
   "status": "proved",
   "theorems": [
    "C16_decode_any",
    "C16_limits",
    "C16_entry_points"
   ],
   "note": "All three entry points on every byte string: no read outside of the input, and what is accepted is a bag whose references lead to later cells, all cells valid, at most half as many cells as bytes. Stored hashes, index and trailing bytes are not checked by the code (C16_case shows it)."
  },
  {
   "property": "C17",
   "status": "proved",
   "theorems": [
    "C17_table"
   ],
   "note": "Recursive and iterative traversal (chosen by depth) are both modelled and shown equal."
  },
  {
   "property": "C18",
   "status": "proved",
   "theorems": [
    "C18_sizes",
    "C18_late_option_refuted"
   ],
   "note": "Options fixed before roots are added; C18_late_option_refuted shows wrong sizes when without_hashes is set later."
  },
  {
   "property": "C19",
   "status": "proved",
   "theorems": [
    "C19_rayon",
    "C19_writer"
   ],
   "note": "Any chunk size and any completion order of the thread pool, and the chunked writer with running checksum; collect_into_vec is modelled as one slot per chunk. The debug assertion at the end of encode_to_writer (off by the checksum) is not modelled."
  },
  {
   "property": "C20",
   "status": "proved",
   "theorems": [
    "C20_lookup",
    "C20_lookup_any",
    "C20_updates_succeed"
   ],
   "note": "For every history of set/replace/add (borrowing and owning variants), remove and remove-bound operations, and separately for any well-formed dictionary, canonical or not. C20_updates_succeed gives the sizes for which no update can fail."
  },
  {
   "property": "C21",
   "status": "proved",
   "theorems": [
    "C21_modes",
    "C21_previous_value",
    "C21_key_length"
   ],
   "note": "All modes, both variants; returned flag and previous value; wrong key length gives an error."
  },
  {
   "property": "C22",
   "status": "proved",
   "theorems": [
    "C22_remove",
    "C22_remove_any"
   ],
   "note": "Removal from canonical dictionaries gives the canonical dictionary without the key; C22_remove_any covers any well-formed dictionary."
  },
  {
   "property": "C23",
   "status": "proved",
   "theorems": [
    "C23_root_of_content",
    "C23_content_of_root",
    "C23_exists_unique"
   ],
   "note": "Root is a function of content over all operation histories, and content of root; existence and uniqueness of the canonical dictionary of every small enough map. Bulk operations are covered by C26 and C27."
  },
  {
   "property": "C24",
   "status": "proved",
   "theorems": [
    "C24_iteration",
    "C24_order_unique",
    "C24_values",
    "C24_values_signed_refuted",
    "C24_values_owned_reversed_refuted"
   ],
   "note": "Borrowing and owning entry iterators in all four modes; value iterators in unsigned order. Findings: values().signed() visits a labelled root in the wrong order (C24_values_signed_refuted), and the owning value iterator returns ranges of the wrong cell when reversed (C24_values_owned_reversed_refuted)."
  },
  {
   "property": "C25",
   "status": "proved",
   "theorems": [
    "C25_bounds",
    "C25_neighbours",
    "C25_remove_bound"
   ],
   "note": "Minimum, maximum, next and previous in signed and unsigned order, and removal of a bound."
  },
  {
   "property": "C26",
   "status": "proved",
   "theorems": [
    "C26_build",
    "C26_same_root",
    "C26_equals_insertion",
    "C26_build_succeeds",
    "C26_unsorted_rejected",
    "C26_signed_refuted"
   ],
   "note": "Keys whose order is the unsigned numeric order: the built root is the canonical dictionary of the entries (first value of a repeated key), equal to the root reached by insertion; unsorted input never succeeds. For signed key order the claim is false and refuted (C26_signed_refuted)."
  },
  {
   "property": "C27",
   "status": "proved",
   "theorems": [
    "C27_modify",
    "C27_modify_any_labels",
    "C27_equals_one_by_one",
    "C27_same_root",
    "C27_modify_succeeds",
    "C27_flag",
    "C27_repeated_keys",
    "C27_on_empty",
    "C27_repeated_keys_refuted",
    "C27_unsorted_rejected",
    "C27_failed_value",
    "C27_signed_refuted"
   ],
   "note": "Model of the whole of modify.rs in plain mode, function by function (seek, unwind, flattening, merge stack). Strictly increasing unsigned keys: the canonical dictionary of the old content after the batch, the same root as one-by-one operations; flag, failures of extract_value, unsorted batches. Findings: with repeated keys the result depends on whether the dictionary was empty (C27_repeated_keys_refuted); for keys ordered as signed numbers the claim is false (C27_signed_refuted)."
  },
  {
   "property": "C28",
   "status": "proved",
   "theorems": [
    "C28_split_by_prefix",
    "C28_split_canonical",
    "C28_split_succeeds",
    "C28_split_raw",
    "C28_merge",
    "C28_merge_canonical",
    "C28_merge_succeeds",
    "C28_split_merge",
    "C28_merge_split"
   ],
   "note": "split by prefix, raw split and merge of siblings, soundness for any well-formed plain dictionary, success for canonical ones; split then merge and merge then split are inverse. dict_merge is modelled only for the malformed-tree property C46."
  },
  {
   "property": "C29",
   "status": "proved",
   "theorems": [
    "C29_write_canonical",
    "C29_write_parts_canonical",
    "C29_canonical_unique",
    "C29_read_any_encoding",
    "C29_round_trip",
    "C29_read_sound",
    "C29_read_total",
    "C29_overlong_label_refuted"
   ],
   "note": "Labels of any width up to 1023. C29_overlong_label_refuted: the reader accepts same-bit/long labels longer than the remaining key width."
  },
  {
   "property": "C30",
   "status": "proved",
   "theorems": [
    "C30_root_extra",
    "C30_measure",
    "C30_currency",
    "C30_shard_accounts",
    "C30_old_blocks",
    "C30_shard_fees",
    "C30_import_fees"
   ],
   "note": "Histories of new, set, replace, add, remove, split and merge, with failures; bulk building and bulk modification of augmented dictionaries are not part of the history. The extra of every fork is in AugSpec.aug_hashmap, which C31_history establishes. Instances for all five extras of the crate."
  },
  {
   "property": "C31",
   "status": "proved",
   "theorems": [
    "C31_history",
    "C31_get",
    "C31_insert",
    "C31_remove",
    "C31_canonical",
    "C31_split",
    "C31_merge",
    "C31_iteration"
   ],
   "note": "Same histories as C30; lookups and iteration also for dictionaries with any valid labels. find_by_extra is not modelled."
  },
  {
   "property": "C32",
   "status": "partial",
   "theorems": [
    "C32_build",
    "C32_root",
    "C32_proof",
    "C32_store_load",
    "C32_load",
    "C32_commits",
    "C32_for_cell",
    "C32_for_missing_cell",
    "C32_shared_subtree_refuted",
    "C32_root_level_refuted"
   ],
   "note": "The sequential builder, the stored form, loading and proofs for one cell. The full statement is refuted: if a subtree with references occurs both outside and inside a Merkle cell, the proof has a wrong hash and does not load (C32_shared_subtree_refuted); the theorems assume it does not (one_depth), which holds for every tree without Merkle cells. C32_root_level_refuted shows that level 0 of the root is needed. C32_commits is the converse direction: a proof that loads shows only what is in the tree with that hash (trees without Merkle cells and pruned branches). The parallel builder is not modelled."
  },
  {
   "property": "C33",
   "status": "partial",
   "theorems": [
    "C33_apply_sound",
    "C33_wrong_root",
    "C33_create_apply_partial",
    "C33_load",
    "C33_subtree_filter_refuted",
    "C33_embedded_proof_refuted",
    "C33_two_levels_refuted"
   ],
   "note": "Application is sound for every update and every cell (C33_apply_sound, C33_wrong_root), loading is sound (C33_load). That an update made by the builder can be applied and gives the new tree, and that it survives storing and loading, is proved for trees without Merkle cells and pruned branches and for filters that remember the visited cells of the old tree without asking for whole subtrees (C33_create_apply_partial). Outside of that the property is false: C33_subtree_filter_refuted, C33_embedded_proof_refuted, C33_two_levels_refuted. The parallel builder is not modelled."
  },
  {
   "property": "C34",
   "status": "proved",
   "theorems": [
    "C34_pruned",
    "C34_when"
   ],
   "note": "All cells and all depths: when a pruned branch is made and what it reports at every level. make_pruned_branch fails for depths above 2 and for cells with a level above the new one."
  },
  {
   "property": "C35",
   "status": "proved",
   "theorems": [
    "C35_store",
    "C35_load",
    "C35_round_trip",
    "C35_bit_len",
    "C35_store248",
    "C35_load248",
    "C35_round_trip248"
   ],
   "note": "VarUint24, VarUint56, Tokens and VarUint248: store succeeds exactly when in range with room, writes the shortest notation; load reads exactly the notation (minimal or not) and never leaves the range; reported bit length is the length written."
  },
  {
   "property": "C36",
   "status": "partial",
   "theorems": [
    "C36_checked",
    "C36_saturating",
    "C36_try_assign",
    "C36_operators",
    "C36_checked248",
    "C36_operators248",
    "C36_checked_mul248_partial",
    "C36_checked_mul248_refuted",
    "C36_add248_partial",
    "C36_add248_refuted"
   ],
   "note": "Exact for VarUint24/56/Tokens (checked, saturating, assigning forms, operators) and for VarUint248 checked add/sub, saturating add/sub, -, *, /, %, shifts and comparison (the full Knuth division is verified). Two operations of VarUint248 are wrong in the code: the checked product accepts results of 249..256 bits (C36_checked_mul248_partial, C36_checked_mul248_refuted), and the operator + ignores the high word of the left operand (C36_add248_partial characterises exactly when it is right; C36_add248_refuted)."
  },
  {
   "property": "C37",
   "status": "partial",
   "theorems": [
    "C37_new",
    "C37_path_unique",
    "C37_full",
    "C37_split",
    "C37_can_split",
    "C37_merge",
    "C37_opposite",
    "C37_root",
    "C37_side",
    "C37_parent",
    "C37_intersects",
    "C37_contains_account",
    "C37_contains_address",
    "C37_ancestor_partial",
    "C37_ancestor_refuted"
   ],
   "note": "Constructor, children, parent, sibling, intersection and address containment are proved exactly (C37_new..C37_contains_address). The ancestor test is not exact in the code: it never misses a true ancestor (C37_ancestor_partial) but accepts shards that are not ancestors (C37_ancestor_refuted), so the full statement is false of the code."
  },
  {
   "property": "C38",
   "status": "proved",
   "theorems": [
    "C38_store",
    "C38_load",
    "C38_round_trip",
    "C38_std_load",
    "C38_std_store",
    "C38_opt",
    "C38_opt_load",
    "C38_ext",
    "C38_ext_load",
    "C38_load_errors",
    "C38_superfluous",
    "C38_anycast_depth_refuted",
    "C38_anycast_long_refuted",
    "C38_key_store",
    "C38_key_load",
    "C38_text_parse",
    "C38_text",
    "C38_text_anycast_refuted",
    "C38_ext_text",
    "C38_ext_text_parse",
    "C38_base64_parse",
    "C38_base64",
    "C38_base64_checksum",
    "C38_base64_typo",
    "C38_base64_alphabet_refuted"
   ],
   "note": "Store/load of standard, variable, optional and external addresses against a TL-B style layout relation (AddrSpec), dictionary keys, raw text, base64 with CRC-16 and detection of one- and two-character typos. Refuted parts: anycast depth 31 is accepted, an anycast prefix of 32 bits or more does not round-trip, text of an anycast address is not parseable, the two base64 alphabets are not told apart."
  },
  {
   "property": "C39",
   "status": "proved",
   "theorems": [
    "C39_add",
    "C39_sub",
    "C39_undo",
    "C39_clamp",
    "C39_normalized",
    "C39_get",
    "C39_from_amounts",
    "C39_collection_add",
    "C39_collection_sub",
    "C39_collection_clamp",
    "C39_assign",
    "C39_store",
    "C39_load",
    "C39_round_trip"
   ],
   "note": "Extra currencies: the dictionary operations are those of C20-C24; amounts are read in any notation that fits. Addition, subtraction, clamping and normalization are stated for plain and canonical dictionaries; errors other than overflow happen only outside the 'sturdy' case (non-canonical labels, values with more than an amount, or a context that refuses cells). The sort of try_from_iter is a parameter assumed to return a sorted permutation. Collections: tokens likewise, layouts, sizes, loads."
  },
  {
   "property": "C40",
   "status": "proved",
   "theorems": [
    "C40_exact",
    "C40_no_more",
    "C40_data",
    "C40_navigation",
    "C40_stable",
    "C40_progress",
    "C40_load_not_immediate_refuted"
   ],
   "note": "For every interleaving of any number of threads (thread-safe version). Exact when no call is in progress; data accesses are recorded before they return. Finding: in on-load mode a thread can get a child before the thread that created the tracked child has recorded it (C40_load_not_immediate_refuted)."
  },
  {
   "property": "C41",
   "status": "proved",
   "theorems": [
    "C41_value",
    "C41_once",
    "C41_bounded",
    "C41_no_lost_wakeup",
    "C41_all_return"
   ],
   "note": "For every schedule of any number of threads, each running any list of set and wait_cloned calls. Threads are assumed not to panic while they hold the lock. No lost wake-up: once a value is published every continuation is bounded and ends with all calls returned, without relying on spurious wake-ups."
  },
  {
   "property": "C42",
   "status": "proved",
   "theorems": [
    "C42_release",
    "C42_everything",
    "C42_weak_handles_refuted"
   ],
   "note": "Heap of counted cells, destructor and iterative release modelled step by step, with the number of nested destructors bounded by the model (2 suffice for every shape: C42_release). C42_everything: dropping all handles releases each cell exactly once. C42_weak_handles_refuted: with weak handles to the cells Arc::get_mut fails and the nesting grows with the depth of the tree. Handles changed by other threads during the release and virtual/usage-tracking cells are not modelled."
  },
  {
   "property": "C43",
   "status": "proved",
   "theorems": [
    "C43_list",
    "C43_history",
    "C43_slice",
    "C43_cell",
    "C43_zero_limit_refuted"
   ],
   "note": "For every history of add_cell and add_slice. Distinct cells are different trees; assumes different cells have different hashes (C12) and totals below 2^64. Finding: with the limit 0 a single cell is counted, because add_cell does not check the limit for the cell itself (C43_zero_limit_refuted)."
  },
  {
   "property": "C44",
   "status": "proved",
   "theorems": [
    "C44_parse",
    "C44_reject",
    "C44_format",
    "C44_round_trip",
    "C44_long_refuted"
   ],
   "note": "Round trip for bit strings up to 1020 bits, exact grammar accepted and rejected. Finding: texts of 1021..1023-bit strings exceed the 256-character limit of the parser (C44_long_refuted)."
  },
  {
   "property": "C45",
   "status": "proved",
   "theorems": [
    "C45_shard_cell",
    "C45_shard_load",
    "C45_shard_text",
    "C45_masterchain_split_refuted",
    "C45_block_text",
    "C45_block_cell",
    "C45_block_grammar",
    "C45_shard_grammar",
    "C45_more_parts_refuted"
   ],
   "note": "Shard identifiers, block identifiers and their short forms; cell and text forms. Finding: children of the masterchain root obtained by split() print to text that the parser refuses (C45_masterchain_split_refuted)."
  },
  {
   "property": "C46",
   "status": "proved",
   "theorems": [
    "C46_operations",
    "C46_iterators"
   ],
   "note": "All operations of the model on arbitrary trees, keys and modes, and all iterators; fin (cell finalisation) is any function that itself does not panic."
  },
  {
   "property": "C47",
   "status": "proved",
   "theorems": [
    "C47_crc16",
    "C47_linear",
    "C47_burst",
    "C47_single_bit"
   ],
   "note": "The 256-entry table of crc.rs is transcribed and the table-driven loop is proved equal to long division by x^16+x^12+x^5+1; linearity, single-bit and 16-bit burst detection follow."
  },
  {
   "property": "C48",
   "status": "proved",
   "theorems": [
    "C48_union"
   ],
   "note": "Any pair of well-formed dictionaries, all four modes."
  },
  {
   "property": "C49",
   "status": "partial",
   "theorems": [
    "C49_level0",
    "C49_view_partial",
    "C49_proof_view",
    "C49_descriptor_refuted",
    "C49_twice_refuted"
   ],
   "note": "Level 0 for all cells and walks; all levels for trees without Merkle cells whose root has mask 0 or 1, and so for the views of proofs. The full statement is refuted: the descriptor is not that of the level below, and virtualizing twice is not two levels below. Missing: masks with more than one level in trees with Merkle cells (there the code passes a hash index as a level)."
  },
  {
   "property": "C50",
   "status": "partial",
   "theorems": [
    "C50_counts_partial",
    "C50_unshared_partial",
    "C50_remaining",
    "C50_roots",
    "C50_shared_refuted"
   ],
   "note": "Proved for trees without Merkle cells and pruned branches, for updates that show every remaining cell with references that a removed cell refers to (C50_counts_partial), in particular if no such cell is shared between a removed and a remaining cell (C50_unshared_partial). Without that condition the property is false: C50_shared_refuted is a small update after which a cell of the new tree has counter zero."
  },
  {
   "property": "C51",
   "status": "partial",
   "theorems": [
    "C51_store_load",
    "C51_load",
    "C51_dict_key",
    "C51_arith",
    "C51_split_depth_partial",
    "C51_split_depth_load",
    "C51_split_depth_refuted"
   ],
   "note": "Small integers fully proved. A split depth comes back for 1..31 (C51_split_depth_partial); the constructor also accepts 32..255, which are written modulo 32 (C51_split_depth_refuted)."
  },
  {
   "property": "C52",
   "status": "partial",
   "theorems": [
    "C52_parse",
    "C52_display",
    "C52_display248",
    "C52_parse248_long",
    "C52_parse248_partial",
    "C52_parse248_refuted"
   ],
   "note": "VarUint24/56/Tokens display and parse proved exactly; VarUint248 display proved for all 256-bit values; VarUint248 parsing exact for more than 64 digits or radix above 16 (C52_parse248_long) and for values below 2^128 (C52_parse248_partial); otherwise the high word is lost (C52_parse248_refuted)."
  },
  {
   "property": "C53",
   "status": "partial",
   "theorems": [
    "C53_store",
    "C53_store_relaxed",
    "C53_load",
    "C53_load_relaxed",
    "C53_round_trip",
    "C53_round_trip_relaxed",
    "C53_external_size",
    "C53_internal_size",
    "C53_computed",
    "C53_computed_relaxed",
    "C53_computed_internal_partial",
    "C53_store_owned",
    "C53_load_owned",
    "C53_round_trip_owned",
    "C53_relax_store",
    "C53_relax_store_out",
    "C53_relax_load",
    "C53_relax_ext_in",
    "C53_internal_layout_refuted",
    "C53_unused_flag",
    "C53_unused_flag_refuted",
    "C53_exotic_body"
   ],
   "note": "Given placement: exact for all infos, slice and part bodies; loading exact; round trips; relaxed forms. Computed placement: exact for external messages; for internal ones only when no placement takes exactly 1024 bits (C53_computed_internal_partial), because the declared size of an internal info is one bit short (C53_internal_size): the full statement is refuted (C53_internal_layout_refuted). A flag for a missing init takes the room of a reference (C53_unused_flag_refuted)."
  },
  {
   "property": "C54",
   "status": "partial",
   "theorems": [
    "C54_store_account",
    "C54_store_entry",
    "C54_store_status",
    "C54_store_lib",
    "C54_load_account",
    "C54_load_entry",
    "C54_load_status",
    "C54_load_lib",
    "C54_views",
    "C54_round_trip",
    "C54_entry_account",
    "C54_compute_only_invalid",
    "C54_compute_refuted",
    "C54_compute_limit"
   ],
   "note": "Layouts, loading and round trips are exact. The statistics part is refuted: StorageUsed::compute tests `cells.is_valid()` without the negation, so it answers IntOverflow for every account with fewer than 2^56 cells (C54_compute_refuted) and only ever answers with an invalid count (C54_compute_only_invalid); beyond the limit it is Cancelled (C54_compute_limit)."
  },
  {
   "property": "C55",
   "status": "proved",
   "theorems": [
    "C55_burned",
    "C55_burned_invalid",
    "C55_storage",
    "C55_storage_monotone",
    "C55_gas",
    "C55_gas_monotone",
    "C55_forward",
    "C55_parts",
    "C55_parts_refuted",
    "C55_store_gas",
    "C55_load_gas",
    "C55_gas_round_trip"
   ],
   "note": "The parts are exact for every fee that the same prices can produce (C55_parts); for arbitrary valid amounts of tokens above 2^112 they are not, because the product saturates (C55_parts_refuted)."
  },
  {
   "property": "C56",
   "status": "proved",
   "theorems": [
    "C56_generator",
    "C56_shard_subset",
    "C56_draw",
    "C56_masterchain_subset",
    "C56_shuffle_fair",
    "C56_choices",
    "C56_hash",
    "C56_zero_weight_refuted"
   ],
   "note": "The hash function is arbitrary (64 bytes of output). A set that contains a validator without weight, which loading accepts, breaks the claim (C56_zero_weight_refuted)."
  },
  {
   "property": "C57",
   "status": "proved",
   "theorems": [
    "C57_value",
    "C57_tuple",
    "C57_injective",
    "C57_varint_refuted",
    "C57_empty_map_refuted",
    "C57_empty_refuted",
    "C57_long_varuint_refuted",
    "C57_full_cell_refuted",
    "C57_full_optional_refuted",
    "C57_long_key_refuted",
    "C57_version_1_refuted"
   ],
   "note": "Excluded by the hypothesis `supported`, with a refutation for each: numbers of no bits, empty tuples behind a cell, positive varints whose top bit is set, variable numbers longer than a cell, keys longer than 1011 bits and (before 2.2) empty maps. UTF-8 checking is a parameter; the walk over a map is any permutation of its entries."
  },
  {
   "property": "C58",
   "status": "proved",
   "theorems": [
    "C58_round_trip",
    "C58_read",
    "C58_injective",
    "C58_derived",
    "C58_checked",
    "C58_plain",
    "C58_tagged",
    "C58_checked_structs",
    "C58_versions",
    "C58_params",
    "C58_blocks",
    "C58_messages",
    "C58_one_cell"
   ],
   "note": "Lazy values and dictionaries are cells. `C58_derived` is about the macro, `C58_params`, `C58_blocks`, `C58_messages`, `C58_checked_structs` and `C58_versions` about the structures."
  },
  {
   "property": "C59",
   "status": "proved",
   "theorems": [
    "C59_phases",
    "C59_info",
    "C59_transaction",
    "C59_round_trip",
    "C59_executed_ok",
    "C59_read",
    "C59_injective",
    "C59_tags",
    "C59_count_unchecked"
   ],
   "note": "The outcome of finalizing inner cells is a parameter, as in C08; messages, state updates and descriptions inside a transaction are lazy cells."
  },
  {
   "property": "C60",
   "status": "proved",
   "theorems": [
    "C60_layouts",
    "C60_round_trip",
    "C60_tags",
    "C60_hop",
    "C60_collect",
    "C60_message",
    "C60_created_lt",
    "C60_exported",
    "C60_exports_nothing",
    "C60_overflow",
    "C60_final",
    "C60_transit",
    "C60_immediate",
    "C60_conservation",
    "C60_arrives",
    "C60_hop_fees",
    "C60_not_an_envelope"
   ],
   "note": "Lazy messages, envelopes and transactions are cells; the variants of InMsg and OutMsg are those that the code has."
  },
  {
   "property": "C61",
   "status": "proved",
   "theorems": [
    "C61_layouts",
    "C61_round_trip",
    "C61_address_lengths",
    "C61_descr_read",
    "C61_descr_round_trip",
    "C61_adnl_lost",
    "C61_set_read",
    "C61_loaded_set",
    "C61_set_written",
    "C61_set_round_trip",
    "C61_main_exceeds",
    "C61_candidates",
    "C61_split_depths",
    "C61_repeated_prefix"
   ],
   "note": "Keys of validators are byte strings of 32 bytes; the older layout of sets (tag 0x11) is covered by C61_loaded_set only."
  },
  {
   "property": "C62",
   "status": "proved",
   "theorems": [
    "C62_tree",
    "C62_shards",
    "C62_any_tree",
    "C62_no_error",
    "C62_all_workchains",
    "C62_parsed",
    "C62_latest_block",
    "C62_layouts",
    "C62_accepted",
    "C62_partition_disjoint",
    "C62_built",
    "C62_overlaps_refuted",
    "C62_duplicates_refuted",
    "C62_empty_root_refuted",
    "C62_goes_on_refuted",
    "C62_untagged_refuted",
    "C62_negative_refuted"
   ],
   "note": "The hash map that groups shards by workchain is modelled by an arbitrary order of its keys, the unstable sort by an arbitrary sorting function."
  },
  {
   "property": "C63",
   "status": "proved",
   "theorems": [
    "C63_found",
    "C63_total",
    "C63_ends",
    "C63_index",
    "C63_extreme",
    "C63_weights",
    "C63_key_block",
    "C63_by_lt",
    "C63_sums_refuted"
   ],
   "note": "Key and value are raw (the typed method loads them afterwards)."
  },
  {
   "property": "C64",
   "status": "proved",
   "theorems": [
    "C64_merge_empty",
    "C64_merge",
    "C64_merge_succeeds",
    "C64_subdict_whole",
    "C64_subdict_key",
    "C64_merge_refused_refuted",
    "C64_merge_broken_refuted",
    "C64_subdict_error_refuted",
    "C64_subdict_loses_refuted",
    "C64_subdict_invents_refuted",
    "C64_subdict_long_refuted"
   ],
   "note": "What one would expect of merging dictionaries with other roots and of subdictionaries of proper prefixes is false in the code: see the findings."
  },
  {
   "property": "C65",
   "status": "proved",
   "theorems": [
    "C65_layouts",
    "C65_round_trip",
    "C65_mc_extra",
    "C65_header",
    "C65_set_version",
    "C65_previous",
    "C65_flow_written",
    "C65_flow_read",
    "C65_flow_round_trip",
    "C65_flow_refuted",
    "C65_data_for_sign",
    "C65_empty_config"
   ],
   "note": "Without the feature tycho. Value flows with extra currencies in the collected fees do not come back: see the findings."
  },
  {
   "property": "C66",
   "status": "proved",
   "theorems": [
    "C66_balanced",
    "C66_exact",
    "C66_tokens_only",
    "C66_signatures",
    "C66_signed_weight",
    "C66_zero_refuted",
    "C66_twice_refuted"
   ],
   "note": "C66_zero_refuted: a zero entry in a balance makes a balanced flow be reported as unbalanced. C66_twice_refuted: a signature that is in the dictionary under two keys is counted twice, so that the weight can exceed that of all nodes. The comparison of cells is a parameter: that equal hashes mean equal cells is a hypothesis of C66_balanced, and both directions of C66_exact. The hash of the key and the verification of a signature are parameters. The sum of weights is that of a release build (modulo 2^64)."
  },
  {
   "property": "C67",
   "status": "proved",
   "theorems": [
    "C67_layout",
    "C67_round_trip",
    "C67_iterator",
    "C67_iterator_only",
    "C67_unique",
    "C67_endless_refuted",
    "C67_mode_refuted"
   ],
   "note": "C67_endless_refuted: on a slice with bits but without references the iterator returns the same error for ever. C67_mode_refuted: the mode of a change of a library has seven bits in a cell; the top bit of the byte is lost without an error. How far a failed reading moves the slice is not modelled."
  },
  {
   "property": "C68",
   "status": "proved",
   "theorems": [
    "C68_iterator",
    "C68_contains",
    "C68_names",
    "C68_named",
    "C68_collect",
    "C68_round_trip",
    "C68_hint_refuted"
   ],
   "note": "C68_hint_refuted: len and size_hint count bits that stand for no capability, so that size_hint promises more items than come, and a set without items need not be empty."
  },
  {
   "property": "C69",
   "status": "proved",
   "theorems": [
    "C69_exact",
    "C69_load",
    "C69_aug_exact",
    "C69_aug_load",
    "C69_account_block",
    "C69_empty",
    "C69_lib_descr",
    "C69_non_empty",
    "C69_leaf_refuted"
   ],
   "note": "C69_leaf_refuted: a plain dictionary with one entry takes all that follows it into the value of the entry (LibDescr and non-empty parameters are therefore read back only when they come last). Cells are finalized by the parameter fin as in the dictionary layer."
  },
  {
   "property": "C70",
   "status": "proved",
   "theorems": [
    "C70_read",
    "C70_set_raw",
    "C70_remove",
    "C70_new",
    "C70_getters",
    "C70_reward",
    "C70_validator_sets",
    "C70_setters",
    "C70_setters_succeed",
    "C70_set_get",
    "C70_params",
    "C70_lists",
    "C70_addresses",
    "C70_storage_prices",
    "C70_emptied_refuted",
    "C70_rest_refuted"
   ],
   "note": "C70_emptied_refuted: the dictionary of parameters that is said not to be empty becomes empty when the only parameter, other than 0, is removed. C70_rest_refuted: getters do not look at what follows the value in the cell. Serde forms are not modelled."
  },
  {
   "property": "C71",
   "status": "proved",
   "theorems": [
    "C71_internal",
    "C71_output",
    "C71_event",
    "C71_other_id",
    "C71_types",
    "C71_external",
    "C71_unsigned",
    "C71_headers",
    "C71_signed",
    "C71_signature_id",
    "C71_ids",
    "C71_expire",
    "C71_expire_refuted",
    "C71_version_1_refuted",
    "C71_headers_refuted"
   ],
   "note": "C71_version_1_refuted: in version 1 the signed body has no payload, and the unsigned body is not read back. C71_headers_refuted: a header declared several times can push the identifier into another cell, where it is not looked for. C71_expire_refuted: without an expiration time, a time past 2^32 seconds wraps to the past. Names of values are not modelled; identifiers and the parsing of contract JSON: C73; the signature is any 64 bytes."
  },
  {
   "property": "C72",
   "status": "proved",
   "theorems": [
    "C72_encode",
    "C72_encode_refuses",
    "C72_update",
    "C72_update_refuses",
    "C72_decode",
    "C72_default",
    "C72_fields",
    "C72_fields_refuses",
    "C72_find",
    "C72_key_0_refuted",
    "C72_large_refuted"
   ],
   "note": "C72_key_0_refuted: a field declared with the key 0 is silently replaced by the public key. C72_large_refuted: a value that fills its cell cannot be put into initial data."
  },
  {
   "property": "C73",
   "status": "proved",
   "theorems": [
    "C73_text",
    "C73_unambiguous",
    "C73_json",
    "C73_accepted",
    "C73_parts",
    "C73_spelling_refuted",
    "C73_version",
    "C73_version_accepted",
    "C73_header",
    "C73_signature_text",
    "C73_event_text",
    "C73_signature",
    "C73_event_signature",
    "C73_kinds",
    "C73_name_refuted",
    "C73_contract",
    "C73_same_name_refuted"
   ],
   "note": "C73_name_refuted: names are not checked, and an event named f() has the signature of a function f. C73_same_name_refuted: of functions with the same name all but the last are lost. C73_spelling_refuted: several texts are accepted as the same type. The JSON syntax itself (serde_json) is not modelled."
  },
  {
   "property": "C74",
   "status": "proved",
   "theorems": [
    "C74_arguments",
    "C74_value",
    "C74_round_trip",
    "C74_bodies",
    "C74_external",
    "C74_unsigned",
    "C74_negative_refuted"
   ],
   "note": "Left out (EncSpec): arrays of a fixed length (C57_full_cell_refuted), before version 2.2 empty maps and negative varints of a whole number of bytes (C74_negative_refuted), integers of more than a cell, keys of more than 1011 bits. Depth limits are not modelled: every cell of up to 1023 bits and 4 references is taken to be built."
  },
  {
   "property": "C75",
   "status": "proved",
   "theorems": [
    "C75_type",
    "C75_round_trip",
    "C75_read",
    "C75_read_total",
    "C75_arguments",
    "C75_value",
    "C75_hash_refuted",
    "C75_amount_refuted",
    "C75_split_depth_refuted"
   ],
   "note": "Left out of the model: VarUint248 and Lazy (which have a type but no conversion), AbiValue and PlainAbiValue as Rust types, FromAbiIter. A map is its entries, in any order; for encoding it is listed by the bits of its keys, as in C57. For numbers beyond their types three refutations: C75_hash_refuted, C75_amount_refuted, C75_split_depth_refuted."
  },
  {
   "property": "C76",
   "status": "proved",
   "theorems": [
    "C76_print",
    "C76_parse",
    "C76_one",
    "C76_errors",
    "C76_serde",
    "C76_base64",
    "C76_boc",
    "C76_boc_text",
    "C76_panic_refuted",
    "C76_prefix_refuted",
    "C76_short_refuted"
   ],
   "note": "The hex and base64 crates are modelled by their documented behaviour (base64 0.22, STANDARD). Errors of the parser are not told apart. The rayon variants, BocRepr and SerdeBoc are left out. Refutations: C76_panic_refuted, C76_prefix_refuted, C76_short_refuted."
  },
  {
   "property": "C77",
   "status": "proved",
   "theorems": [
    "C77_cells",
    "C77_build",
    "C77_object",
    "C77_cell_serde",
    "C77_read",
    "C77_exotic",
    "C77_texts",
    "C77_encode",
    "C77_message",
    "C77_account",
    "C77_trailing_refuted"
   ],
   "note": "An object is given by its store and load functions on bits and references; its references are built from their trees. Hashes below the root are assumed distinct and fewer than 2^32, as in C15. Left out: containers of cells (Option, Vec, arrays, maps) in SerdeBoc, the rayon variants. C77_trailing_refuted: data behind the object is accepted and lost."
  },
  {
   "property": "C78",
   "status": "proved",
   "theorems": [
    "C78_keys",
    "C78_numbers",
    "C78_order",
    "C78_bits",
    "C78_get",
    "C78_update",
    "C78_succeeds",
    "C78_iteration",
    "C78_bounds",
    "C78_neighbours",
    "C78_stops",
    "C78_root",
    "C78_serde",
    "C78_written",
    "C78_errors"
   ],
   "note": "Values are given by what they store and load; the histories have the successful updates insert and remove. A readable serde format is the list of entries it is given. Left out: typed union iteration and splitting through the typed interface (C48 on bits); bulk building is C79."
  },
  {
   "property": "C79",
   "status": "proved",
   "theorems": [
    "C79_orders",
    "C79_same_sign",
    "C79_build",
    "C79_root",
    "C79_build_succeeds",
    "C79_build_errors",
    "C79_modify",
    "C79_modify_root",
    "C79_one_by_one",
    "C79_modify_flag",
    "C79_modify_errors",
    "C79_signed_refuted",
    "C79_addresses_refuted"
   ],
   "note": "For signed integers, and for addresses, of both signs the claim is false and has no part here: C79_signed_refuted and C79_addresses_refuted give sorted collections that are built without an error into dictionaries with other keys. All keys are stored before the first is compared, so which error is returned when there are several is not claimed. The iterator with failing values of modify_with_sorted_iter_ext is C27 on bits; augmented dictionaries are C28 on bits."
  },
  {
   "property": "C80",
   "status": "proved",
   "theorems": [
    "C80_remove_bound",
    "C80_min_max",
    "C80_succeeds",
    "C80_drain",
    "C80_keys",
    "C80_errors",
    "C80_passed_on"
   ],
   "note": "The removed value is given as the content of its slice parts; it is what the value stores. Values are C24 on bits."
  }
 ]
}