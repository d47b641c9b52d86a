#!/usr/bin/env python3
"""Writes properties.jsonl (one property per line)."""
import json,os
P=[]
def p(id,title,statement,quantifier,why,anchors):
    P.append(dict(id=id,title=title,statement=statement,quantifier=quantifier,why_tests_cant=why,anchors=anchors))

B="src/cell/builder.rs"; S="src/cell/slice.rs"; M="src/cell/mod.rs"
p("C01","Cell builder appends exactly the bits it was given",
 "Starting from an empty builder, after any sequence of successful store calls (bits, zeros, ones, fixed-width integers, n-bit integers, raw bytes, slices, other builders) the data of the builder is the concatenation, in call order, of the big-endian bit strings of the stored values, and nothing else; the unused tail of its buffer stays zero, so the finished cell data is fully determined by that concatenation.",
 "all sequences of store operations, all operand values, all bit offsets of the write position",
 "every operation has eight alignment cases and value-dependent carries between neighbouring bytes; the number of (history, offset, value) combinations is unbounded for a test-suite, and the zero tail is an invariant of every history",
 [f"{B}: CellDataBuilder::store_bit/store_zeros/store_ones/store_u8/store_u16/.../store_u256/store_small_uint/store_uint/store_raw/store_slice_data/prepend_raw/rewind", f"{B}: CellBuilder::store_builder, store_slice"])
p("C02","Builder capacity is exact and failures change nothing",
 "A store call succeeds exactly when the resulting data has at most 1023 bits (and, for references, at most 4 references); otherwise it reports CellOverflow and the builder content is unchanged.",
 "all builder states and all store operations with requested lengths that do not wrap a 16-bit counter",
 "the boundary must be hit for every operation at every fill level; a single off-by-one in one path corrupts only rare cells",
 [f"{B}: CellDataBuilder::has_capacity_bits, store_*; CellRefsBuilder::store_reference; CellBuilder::has_capacity"])
p("C03","Integers written to a cell are read back unchanged",
 "Storing an unsigned integer of any supported width (1..64 bit n-bit integers, u8..u256, small uints) and then loading with the same width returns the same value, consumes exactly that many bits and leaves the following bits untouched, at every bit offset.",
 "all widths, all values below 2^width, all offsets, all surrounding bits",
 "2^64 values times 1023 offsets times widths",
 [f"{S}: CellSlice::get_u8/get_u16/get_u32/get_u64/get_u128/get_u256/get_small_uint/get_uint/load_*", f"{B}: CellDataBuilder::store_*"])
p("C04","Slices are exact windows of the cell",
 "A slice denotes a contiguous window of the bits and references of its cell. skip, split, prefix/suffix extraction, get_prefix, load_prefix and remainder operations return exactly the corresponding sub-windows or CellUnderflow, and no operation on a slice can widen it.",
 "all cells, all windows, all sequences of slicing operations with non-wrapping arguments",
 "composition of window arithmetic over unbounded operation histories",
 [f"{S}: CellSliceRange::skip_first/skip_last/only_first/only_last/split*/..., CellSlice::get_prefix/load_prefix/skip_first/..."])
p("C05","Slice reads stay inside the window",
 "A read at an offset returns the bits of the window at that offset, and CellUnderflow if the window has fewer bits than offset plus length; no read ever looks at bytes outside the cell's data.",
 "all cells, windows, offsets and lengths",
 "memory-safety style claim over all inputs; out-of-range reads may silently return plausible data in tests",
 [f"{S}: CellSlice::get_bit, get_u*, get_small_uint, get_uint, get_raw, load_raw"])
p("C06","Slice comparison, prefix and strip operations agree with bit strings",
 "Lexicographic comparison of two slices is the lexicographic order of their bit strings; the longest common prefix operation returns exactly the longest common bit prefix; prefix tests and strip operations succeed exactly when one bit string is a prefix of the other and return the remaining suffix.",
 "all pairs of slices at all (possibly different) alignments",
 "pairs of alignments (64) times all contents; the implementation uses word-wise xor and shifts that only fail on rare alignments",
 [f"{S}: lex_cmp, longest_common_data_prefix, longest_common_data_prefix_impl, strip_data_prefix, is_data_prefix_of, is_data_suffix_of, contents_eq"])
p("C07","Uniform-run queries count exactly",
 "count_leading(b) / count_trailing(b) return the length of the maximal run of bit b at the start / end of the slice, and the uniformity test returns b iff every bit of the slice equals b.",
 "all slices, all alignments, both bit values",
 "word-wise scanning with head and tail masks; all alignments and run lengths",
 [f"{S}: count_leading, count_trailing, test_uniform, bits_memscan, bits_memscan_rev"])
p("C08","Raw data and slice transfer is lossless",
 "Storing raw bytes (first n bits) or a slice and then reading n raw bits back yields the same bits; prepending raw data to a builder yields the prepended bits followed by the old content; rewinding removes exactly the last bits.",
 "all byte arrays, bit lengths and alignments of source and destination",
 "two independent alignments and arbitrary contents",
 [f"{B}: store_raw, store_slice_data, prepend_raw, rewind", f"{S}: get_raw, load_raw"])
p("C09","Big integers of arbitrary width round-trip",
 "Storing a (signed or unsigned) big integer in a field of n bits succeeds iff the value fits into n bits of two's complement / plain binary, and loading with the same width returns the value.",
 "all integers and all widths up to the cell size",
 "infinitely many integers",
 [f"{B}: store_bigint, store_biguint", f"{S}: load_bigint, load_biguint", "src/util.rs: BigIntExt::bitsize"])
p("C10","Cell descriptors encode the cell shape faithfully",
 "From the two descriptor bytes of any finalized cell one recovers its reference count, exotic flag, level mask, data byte length and whether the data is byte-aligned; distinct (level mask, exotic, reference count, bit length class) give distinct bytes.",
 "all cells",
 "finite but must hold together with the hashing injectivity argument for all cells",
 [f"{M}: CellDescriptor::compute_d1, compute_d2, reference_count, level_mask, byte_len, is_aligned, cell_type"])
p("C11","Level masks: hash indexes are consistent",
 "For every level mask and level the index used to select a stored hash counts the significant levels not above the requested one; iterating a level mask enumerates level 0 and the significant levels in increasing order; virtualization is right shift and composes.",
 "all masks, levels and offsets",
 "needed for every use of multi-level hashes; combined with the cell tree induction it is not a finite test",
 [f"{M}: LevelMask::*, LevelMaskIter"])
p("C12","The representation hash identifies the cell tree",
 "Two finalized cells have the same representation hash only if they are the same tree (same type, data bits, references recursively), unless the hash function collides on two of the byte strings hashed for their subtrees; and the same tree always gets the same hashes and depths, whatever order or builder calls produced it.",
 "all pairs of cell trees, all hash functions",
 "a statement about all trees of all depths",
 ["src/cell/cell_context.rs: CellParts::compute_hashes", "src/cell/cell_impl/sync.rs: finalize_cell/make_cell", f"{M}: DynCell eq"])
p("C13","Depth of a cell is exact or building fails",
 "The depth reported for a cell is 0 for leaves and 1 + the maximum child depth otherwise (for level-aware depth: of the children at the same level); building a cell whose depth would exceed 65535 fails with DepthOverflow instead of wrapping.",
 "all cell trees",
 "trees of depth up to 65535",
 ["src/cell/cell_context.rs: CellParts::compute_hashes"])
p("C14","Only well-formed exotic cells can be built",
 "Building an exotic cell succeeds exactly when the data and references form a valid pruned branch, library reference, Merkle proof or Merkle update layout, with the level mask determined by the content; every built cell carries the level mask determined by its type and children.",
 "all builder contents",
 "all contents of 0..1023 bits with 0..4 references",
 ["src/cell/cell_context.rs: compute_hashes", f"{B}: CellBuilder::build_ext"])
p("C15","BOC round trip",
 "Decoding the bytes produced by encoding one or several root cells returns the same root cells in the same order (bag-of-cells encode then decode is the identity), for every hash/CRC function, as long as no two different cells reachable from the roots have equal representation hashes and the number of roots is within the decoder limit.",
 "all finite lists of root cell trees including arbitrary sharing",
 "all trees and sharing patterns; index and offset widths change with the size of the input",
 ["src/boc/ser.rs: BocHeader::add_root, fill_recursive, encode, encode_header, encode_cells_chunk", "src/boc/de.rs: BocHeader::decode, finalize", "src/boc/mod.rs: Boc::encode, Boc::decode, BocRepr"])
p("C16","BOC decoding is total and safe on untrusted bytes",
 "Decoding any byte string either returns an error or a list of cells, terminates, never reads outside the input, never creates a cyclic or forward-referencing structure, and the accepted cells all satisfy the cell invariants (at most 1023 bits, at most 4 references).",
 "all byte strings",
 "the input space is infinite and adversarial",
 ["src/boc/de.rs: BocHeader::decode, BocHeader::finalize, RawCell::from_raw_cell, read_raw_cell_from_ptr"])
p("C17","BOC contains every distinct cell exactly once, children after parents",
 "The serialized cell list contains each distinct reachable cell exactly once and every reference points to a later position, the roots being listed by position in the order they were added.",
 "all root lists",
 "property of the traversal for all DAG shapes",
 ["src/boc/ser.rs: BocHeader::fill_recursive, fill_deep, encode_cells_chunk"])
p("C18","BOC declared sizes are exact",
 "The header fields (reference width, offset width, cell count, total data size) equal the sizes of what is actually written, and the widths are large enough to represent every written index and offset, so the total number of bytes produced equals the precomputed size.",
 "all root lists and option settings fixed before adding roots",
 "widths change at 2^8, 2^16, 2^24, 2^32 boundaries",
 ["src/boc/ser.rs: compute_stats, encode_header, byte_len_full, number_of_bytes_to_fit, encode, encode_to_writer"])
p("C19","Parallel BOC encoding equals sequential encoding",
 "Encoding with the thread pool yields the same bytes as sequential encoding for every way the cells are split into chunks and every completion order of the chunks.",
 "all inputs, all schedules",
 "schedules",
 ["src/boc/ser.rs: encode_rayon"])
D="src/dict"
p("C20","Dictionary lookup follows map semantics",
 "After any sequence of dictionary updates that reported success, looking up a key returns the value most recently set and not removed for that key, and looking up any other key is unaffected.",
 "all key widths, all operation histories, all keys and values",
 "unbounded histories over exponentially many keys; label splits and joins depend on the whole key set",
 [f"{D}/ops/get.rs: dict_get", f"{D}/ops/insert.rs: dict_insert", f"{D}/ops/remove.rs: dict_remove_owned", f"{D}/raw.rs: RawDict", f"{D}/typed.rs: Dict"])
p("C21","Insertion modes: Set, Replace and Add",
 "Set always stores; Replace stores only if the key was present; Add stores only if it was absent; the returned flag tells whether the dictionary changed its content, and in the refused case the dictionary is untouched.",
 "all dictionaries, keys, values and modes",
 "all tree shapes",
 [f"{D}/mod.rs: SetMode", f"{D}/ops/insert.rs: dict_insert"])
p("C22","Removal removes exactly one entry",
 "Removing a key returns its value if it was present (none otherwise) and the dictionary afterwards contains exactly the other entries; when the removed entry was the last one the dictionary is empty.",
 "all dictionaries and keys",
 "sibling labels must be merged for all shapes",
 [f"{D}/ops/remove.rs: dict_remove_owned, dict_remove_bound_owned", f"{D}/mod.rs: Segment::rebuild_as_removed, rebuild_dict_from_stack"])
p("C23","Dictionary root is a function of the content",
 "Two dictionaries of the same key width with the same key/value content have the same root cell (hence the same hash), independently of the order of insertions, removals and bulk operations that produced them.",
 "all pairs of histories",
 "all pairs of histories; this is what makes dictionaries usable under Merkle hashes",
 [f"{D}/ops/insert.rs", f"{D}/ops/remove.rs", f"{D}/ops/build.rs", f"{D}/ops/modify.rs"])
p("C24","Dictionary iteration is complete, duplicate-free and sorted",
 "Iterating a dictionary yields every entry exactly once, in increasing (or, reversed, decreasing) order of the keys, in unsigned order or, for signed mode, in two's complement order; then it ends.",
 "all dictionaries, both directions, signed and unsigned",
 "all tree shapes",
 [f"{D}/raw.rs: RawIter", f"{D}/typed.rs: Iter"])
p("C25","Bounds and neighbours",
 "The minimum/maximum queries return the least/greatest entry in the chosen (signed or unsigned) order, and next/previous (inclusive or not) return the nearest entry on the requested side of the given key or none.",
 "all dictionaries and all probe keys, present or absent",
 "exponentially many probes; the divergence position decides among several code paths",
 [f"{D}/ops/find.rs: dict_find_owned, dict_find_bound, dict_find_bound_owned"])
p("C26","Bulk building equals repeated insertion",
 "Building a dictionary from a strictly increasing sequence of keys gives the same root cell as inserting the entries one by one; unsorted or duplicate keys are rejected or skipped as documented, never silently mis-stored.",
 "all strictly increasing key sequences of a fixed width",
 "all sequences",
 [f"{D}/ops/build.rs: build_dict_from_sorted_iter"])
p("C27","Bulk modification equals one-by-one modification",
 "Applying a sorted batch of set/remove instructions gives the same dictionary as applying them individually.",
 "all dictionaries and sorted batches",
 "all pairs of trees and batches",
 [f"{D}/ops/modify.rs: dict_modify_from_sorted_iter"])
p("C28","Split and merge are inverse",
 "Splitting a dictionary by the next key bit yields the entries starting with 0 and with 1; merging siblings yields the union; splitting then merging gives back the same root cell. Splitting by a prefix (shard prefix) yields the entries whose keys extend that prefix + 0 and prefix + 1.",
 "all dictionaries and prefixes",
 "all shapes",
 [f"{D}/ops/split_merge.rs: dict_split_by_prefix, dict_merge_siblings, dict_merge"])
p("C29","Edge labels: decode is inverse of encode, encoding is minimal",
 "For every label and every remaining key width the encoded label decodes to the same label and leaves exactly the bits that followed; the encoder picks the shortest of the three encodings; decoding consumes at most the available bits and never returns more bits than the remaining key width allows when the encoding is canonical.",
 "all widths 0..1023 and all labels up to the width",
 "2^1023 labels",
 [f"{D}/mod.rs: write_label, read_label, write_hml_*, read_hml_*"])
p("C30","Augmented dictionary: root extra equals the fold of all leaf extras",
 "After any sequence of successful updates of an augmented dictionary, the extra stored at the root and at every fork equals the combination (by the extra's addition) of the two sub-extras; an empty dictionary has the default extra. In particular, for additive extras, the root extra is the sum over all entries.",
 "all histories, all extra combination functions",
 "an invariant over all histories",
 [f"{D}/aug.rs: AugDict", f"{D}/ops/insert.rs: aug_dict_insert", f"{D}/ops/remove.rs: aug_dict_remove_owned", f"{D}/mod.rs: rebuild_aug_dict_from_stack, make_leaf_with_extra, split_aug_edge"])
p("C31","Augmented dictionary has map semantics",
 "Lookup, insertion modes, removal and iteration of augmented dictionaries obey the same map semantics as plain dictionaries.",
 "all histories",
 "as for plain dictionaries",
 [f"{D}/aug.rs", f"{D}/ops/insert.rs: aug_dict_insert"])
p("C32","Merkle proofs commit to the original tree",
 "A Merkle proof created for a root and a set of visited cells loads successfully, its virtual root has the original root's hash and depth at level 0, all included cells keep their data, and every pruned part is replaced by a pruned branch carrying the original hash and depth.",
 "all level-0 root trees and all filters that include the root",
 "all trees and filters",
 ["src/merkle/proof.rs: MerkleProof, MerkleProofBuilder", "src/merkle/pruned_branch.rs: make_pruned_branch"])
p("C33","Merkle update applied to the old tree gives the new tree",
 "For a Merkle update created from (old, new) with any filter describing visited cells of the old tree, applying it to the old root returns the new root; applying it to a different root fails.",
 "all pairs of trees and filters",
 "all trees",
 ["src/merkle/update.rs: MerkleUpdate::create, apply, MerkleUpdateBuilder"])
p("C34","Pruned branches preserve lower-level hashes",
 "The pruned branch made for a cell at some Merkle depth reports, for every level below the pruning level, the hash and depth of the original cell at that level.",
 "all cells and Merkle depths",
 "all cells",
 ["src/merkle/pruned_branch.rs: make_pruned_branch", "src/cell/cell_impl/mod.rs: PrunedBranch"])
p("C35","Variable-length integers: canonical and lossless",
 "Storing a VarUint24/VarUint56/Tokens/VarUint248 succeeds iff the value is in range and there is room, uses the minimal number of bytes, and loading returns the same value; the reported bit length equals the number of bits written.",
 "all values and offsets",
 "2^248 values",
 ["src/num/mod.rs: VarUint24, VarUint56, Tokens, store_u128, load_u128", "src/num/varuint248.rs: VarUint248"])
p("C36","Checked arithmetic on token amounts is exact",
 "checked_add/sub/mul/div of the variable-length integer types return the exact mathematical result if it is in range and None otherwise; saturating variants clamp to the range; the operators agree with integer arithmetic when no overflow occurs.",
 "all pairs of values",
 "2^240 .. 2^496 pairs",
 ["src/num/mod.rs: impl_var_uints!", "src/num/varuint248.rs: checked_add, checked_sub, checked_mul, AddAssign, SubAssign, MulAssign, DivAssign, RemAssign, Shl, Shr"])
p("C37","Shard identifiers form a binary tree",
 "Splitting a shard yields its two children, merging a child yields the parent, opposite swaps siblings; ancestor, intersection and address containment tests agree with the prefix relation on bit strings.",
 "all valid shard identifiers and all account addresses",
 "2^60 prefixes and pairs of them",
 ["src/models/block/block_id.rs: ShardIdent"])
p("C38","Address codecs round-trip",
 "Every valid standard, variable and external address is read back unchanged after being stored in a cell, including as dictionary key; the textual and base64 forms parse back to the same address, and base64 parsing rejects a wrong checksum.",
 "all addresses",
 "2^264 addresses",
 ["src/models/message/address.rs: StdAddr, VarAddr, ExtAddr, IntAddr, Anycast"])
p("C39","Currency collections add and subtract per currency",
 "checked_add / checked_sub of currency collections compute, for each currency id, the exact sum / difference, drop zero results produced, and fail iff some currency overflows / underflows; subtraction undoes addition.",
 "all currency collections",
 "all dictionaries of amounts",
 ["src/models/currency.rs: CurrencyCollection, ExtraCurrencyCollection"])
p("C40","Usage tracking is exact under concurrency",
 "A usage tree contains exactly the hashes of tracked cells that were loaded (on-load mode) or whose data was read (on-data mode), whatever the interleaving of threads navigating the same tracked cells; navigation through tracked cells returns the same cells as the original tree.",
 "all interleavings of accesses",
 "schedules",
 ["src/cell/usage_tree.rs: UsageTree, UsageCell::load_reference"])
p("C41","Promises deliver the published value",
 "A thread waiting on a promise returns only after a value was published, gets exactly that value, and once a value is published every waiter can finish (no lost wake-up), for every interleaving of publishers, waiters and clones.",
 "all schedules of any number of threads",
 "schedules",
 ["src/merkle/promise.rs: Promise"])
p("C42","Releasing a cell tree frees each cell once with bounded stack",
 "Dropping the last handle to a cell tree of any depth releases exactly the cells that are not shared with other live handles, each exactly once, without recursion depth growing with the tree depth.",
 "all trees and sharing patterns",
 "depth up to 65535 and all sharing patterns",
 ["src/cell/cell_impl/mod.rs: Drop for OrdinaryCell, take_first_child, replace_first_child, take_next_child"])
p("C43","Storage statistics count unique cells within limits",
 "Counting statistics of a cell tree visits every distinct cell once, the reported cell and bit counts are the totals over the distinct cells, and counting with a limit reports failure exactly when the number of distinct cells exceeds the limit.",
 "all trees and limits",
 "all DAG shapes",
 [f"{M}: StorageStat, CellTreeStats"])
p("C44","Hex bit-string notation round-trips",
 "Formatting a bit string in the TVM hex notation (with completion tag) and parsing it gives back the bit string; parsing rejects malformed text.",
 "all bit strings",
 "2^1023 bit strings",
 ["src/util.rs: Bitstring::from_hex_str, fmt_hex"])
p("C45","Block identifiers: text and cell forms round-trip",
 "Every valid shard identifier and block identifier survives a store/load in a cell and a print/parse as text.",
 "all identifiers",
 "2^600 identifiers",
 ["src/models/block/block_id.rs: BlockId, ShardIdent, FromStr, Display, Store, Load"])
p("C46","Dictionary operations terminate and do not panic on malformed trees",
 "Lookup, bound queries and iteration over an arbitrary (not necessarily valid) cell tree terminate, performing at most one cell visit per remaining key bit along a path, and return a result or an error.",
 "all cell trees as dictionary roots, all key widths and keys",
 "adversarial inputs",
 [f"{D}/ops/get.rs", f"{D}/ops/find.rs", f"{D}/raw.rs: RawIter"])
p("C47","CRC-16 table equals its polynomial",
 "The checksum used in textual addresses is the CRC-16/XMODEM of the data: linear, table-driven computation equals bitwise polynomial division, and any single-bit change or any burst of at most 16 bits changes the checksum.",
 "all byte strings",
 "all byte strings",
 ["src/crc.rs: crc_16"])
p("C48","Union iteration of two dictionaries",
 "Iterating the union of two dictionaries yields every key of either exactly once in order, paired with the values from the left and right dictionary.",
 "all pairs of dictionaries",
 "all pairs of shapes",
 [f"{D}/raw.rs: UnionRawIter"])
p("C49","Virtualized cells expose the lower-level view",
 "Viewing a cell without its Merkle level (virtualization) yields the descriptor, hashes and depths of the tree one level lower, recursively through references.",
 "all cells and levels",
 "all trees",
 ["src/cell/cell_impl/mod.rs: VirtualCell, VirtualCellWrapper, virtual_hash_index"])
p("C50","Reference-removal accounting of Merkle updates",
 "The set of removed cells computed from a Merkle update matches a reference-counting store: after storing old and new and applying the computed removals, exactly the cells of the new tree remain with the right counters.",
 "all updates produced by the builder",
 "all trees",
 ["src/merkle/update.rs: compute_removed_cells, find_old_cells"])
p("C51","Small fixed-width integers keep their value or refuse",
 "The 9-, 12- and 15-bit integers store exactly their bits if and only if the value is in range and there is room, load every bit pattern back to the same number, survive use as dictionary keys, and their checked and saturating arithmetic is that of the integers; a split depth loads back to the depth that was stored.",
 "all 16-bit values, all builders and slices, all operand pairs, all 8-bit depths",
 "all values against all boundaries",
 ["src/num/mod.rs: impl_small_uints!, SplitDepth"])
p("C52","Textual form of numbers",
 "Displaying an amount gives its decimal notation without superfluous zeros, parsing accepts exactly an optional plus sign followed by digits whose value is in range, and parsing a displayed value gives the value back, for every integer type including the 248-bit one in every radix.",
 "all values, all strings, all radices",
 "unbounded strings and 2^248 values",
 ["src/num/mod.rs: FromStr, Display", "src/num/varuint248.rs: fmt_var_uint248, from_str_radix"])
p("C53","Messages: stored as laid out, read back, and given a layout that fits",
 "A message (internal, external incoming, external outgoing, or relaxed) with a given placement of its init and body is stored exactly as its TL-B layout or refused only because it does not fit; loading accepts exactly those layouts and gives back info, init, body and placement; when no placement is given, the first one in which the message fits is chosen, and the message is refused only if it fits in none.",
 "all messages, all placements, all bodies (as slices and as parts of cells), all builders and slices",
 "sizes of infos, inits and bodies interact with the 1023-bit and 4-reference limits",
 ["src/models/message/mod.rs: BaseMessage::store_into, BaseMessage::load_from, MessageLayout::compute, MsgInfo, RelaxedMsgInfo", "src/models/account/mod.rs: StateInit"])
p("C54","Accounts: stored as laid out and read back; storage statistics",
 "An account, an absent account, an entry of the shard accounts, an account status and a library are stored exactly as TL-B lays them out (or refused for lack of room), loading accepts exactly those layouts, and an account wrapped lazily in a cell is loaded from it again. Computing the storage an account uses counts the distinct cells and bits of its storage, within the limit.",
 "all accounts, builders and slices; all cells and limits for the statistics",
 "the answer depends on the shape of an unbounded tree and on field widths; a single test account does not show that no account gets an answer",
 ["src/models/account/mod.rs: Account, OptionalAccount, AccountState, AccountStatus, StorageInfo, StorageExtra, StorageUsed::compute, ShardAccount, SimpleLib", "src/cell/lazy.rs: Lazy::new, Lazy::load, Lazy::from_raw"])
p("C55","Fees are exact, rounded the right way, and never overflow",
 "Storage, gas and forwarding fees are the exact price divided by 2^16 and rounded up (prices beyond 128 bits count as the largest one), never panic and are always valid amounts; more data, time or gas never costs less; burned fees are the exact fraction rounded down and not more than the fees; the parts of a forwarding fee for the first and the next block are exact fractions and together not more than the fee. Gas prices are stored and loaded as laid out.",
 "all 64-bit prices, statistics, times and amounts of gas; all valid amounts of tokens",
 "overflow and saturation show only at extreme prices and sizes",
 ["src/models/config/params.rs: BurningConfig::compute_burned_fees, StoragePrices::compute_storage_fee, GasLimitsPrices::compute_gas_fee, MsgForwardPrices::compute_fwd_fee, get_first_part, get_next_part, shift_ceil_price, GasLimitsPrices::store_into, GasLimitsPrices::load_from"])
p("C56","Subsets of validators are drawn fairly and never name a validator twice",
 "For a set whose weights are positive and add up, the validators of a shard are drawn without replacement: every 64-bit word of the generator picks one of the remaining candidates, each with its exact share of the remaining weight, so no validator is drawn twice, as many are drawn as asked for (or as there are), the result depends only on the set, the shard and the session number, and nothing panics. Masterchain validators are kept out when configured. The subset of the masterchain is the first validators of the set, in order or in a shuffled order; the shuffle reaches every order by exactly one sequence of choices. The generator yields the words of the hashes of consecutively numbered texts, and the short hash is the checksum of one text naming the members in order.",
 "all validator sets, shards, catchain configurations, session numbers and hash functions of 64 bytes",
 "the bookkeeping of drawn intervals depends on the order of all draws; a wrong boundary shows only for particular weights and words",
 ["src/models/config/params.rs: ValidatorSet::compute_subset, compute_mc_subset, compute_subset_hash_short, at_weight, ValidatorSetPRNG"])
p("C57","ABI values are decoded from the cells they were encoded into",
 "From ABI version 2 on, whatever cell a list of ABI values (numbers, addresses, tokens, cells, bytes, strings, tuples, arrays, maps, optional values, references, nested in any way) is encoded into, decoding that cell by the types of the values gives exactly these values, wherever the encoder moved on to a continuation cell; so two different lists of the same types never have the same cell. The claim leaves out values the format has no place for: numbers of no bits, empty tuples, positive varints that use their top bit, optional values whose fixed-length arrays fill the cell, variable numbers longer than a cell, map keys longer than 1011 bits and, before version 2.2, empty maps.",
 "all versions from 2 on, all lists of values of any size and nesting, both size rules (before and from 2.2)",
 "where the encoder breaks off a cell depends on the sizes of all values before and after; the decoder has to guess the breaks from the types alone",
 ["src/abi/value/ser.rs: AbiValue::tuple_to_cell, make_cell, AbiSerializer", "src/abi/value/de.rs: AbiValue::load_tuple, load"])
p("C58","Derived codecs write and read the layouts that their attributes describe",
 "For a structure with #[derive(Store, Load)] whose field types have lawful codecs, the derived store writes exactly the tag and the fields in order (all of it, or CellOverflow and nothing), the derived load accepts exactly these layouts and returns the stored value and what follows it; with several tags a value is written in the first version that holds it and read in any version, absent fields getting their defaults; the validate_with condition is enforced in both directions. The 60 or so structures of config, block, shard state, messages and transactions that use the macro have the tags and field layouts written down in StructsSpec, and every value of them has room in one cell.",
 "all structure descriptions (any number of fields, tags and versions), all values, builders and slices",
 "a macro has unboundedly many instances, and each instance 2^hundreds of values; a wrong version or a swapped field shows only for particular values",
 ["proc/src/derive_store.rs: build_struct, store_tags_versioned", "proc/src/derive_load.rs: build_struct, load_tags_versioned", "proc/src/internals/attr.rs", "src/models/config/params.rs", "src/models/global_version.rs", "src/models/block", "src/models/shard", "src/models/message", "src/models/transaction"])
p("C59","Transactions and their phases are written and read in the layouts of their schemes",
 "Storing a transaction, its description (ordinary or tick-tock) or a phase (storage, credit, compute, action, bounce) writes exactly the TL-B scheme: the prefixes of the cases, the flags and counters that the code packs into one number as separate fields, the parts kept in cells of their own as references. Loading accepts exactly these layouts and gives the same value back, whatever follows; every value whose numbers and hashes are in range is written and has room in one cell; representations of different transactions differ; other prefixes are refused.",
 "all transactions, descriptions and phases, all builders and slices, any outcome of building the inner cells",
 "flags and four counters are packed by shifts into one number and the messages are loaded before the fields that precede them; an error shows only for particular combinations of flags, counters and optional phases",
 ["src/models/transaction/mod.rs: Transaction, TxInfo, OrdinaryTxInfo, TickTockTxInfo", "src/models/transaction/phases.rs: StoragePhase, ComputePhase, ExecutedComputePhase, ComputePhaseSkipReason, ActionPhase, BouncePhase, AccountStatusChange"])
p("C60","No value is lost or created on the route of a message, and envelopes have the layouts of their schemes",
 "The value that a new outbound message exports is the tokens of the message, its IHR fee and the forward fees not yet paid, or an overflow error; what a final or transit inbound message imports is the same sum, with exactly the named fee collected, and a fee that differs from (final) or exceeds (transit) the remaining one is an error. On a route of any number of hops, the exported tokens are the tokens that arrive plus the sum of the fees collected by the hops, and extra currencies are unchanged. collect_fee takes exactly the fee if it is there and otherwise changes nothing. Next-hop addresses, envelopes, inbound and outbound messages are written and read in the layouts of their schemes.",
 "all messages, envelopes, fees, routes of any length, cells and slices",
 "the sum holds over routes of every length and for all fees, the layouts for all combinations of variants and bit widths",
 ["src/models/message/envelope.rs: MsgEnvelope::collect_fee, load_message_info, IntermediateAddr", "src/models/message/in_message.rs: InMsg::compute_fees, ImportFees", "src/models/message/out_message.rs: OutMsg::compute_exported_value"])
p("C61","Configuration parameters and validator sets have the layouts of their schemes, and every validator set that is read is consistent",
 "Catchain parameters, consensus parameters, gas limits and prices and workchain descriptions are written in the newest layout of their schemes, and exactly the newest and the older layouts are read; values in range are read back. A validator description is read exactly from its three layouts. A validator set in range is always written if it has fewer than 65536 validators and refused otherwise; it is read back exactly if it is not empty, has no more main validators than validators, and states the right total weight, and then it is the set that was stored, with the cumulative weights recomputed. Every validator set that is read from any data has right cumulative weights, the right total weight without overflow, and at least one validator and one main validator. check_addr_len accepts exactly the greatest length and the lengths reached from the least one in steps.",
 "all parameter values, validators, sets of any length, dictionaries of any shape, slices",
 "the layouts must hold for all values and versions, sets for any number of validators and dictionaries of any shape",
 ["src/models/config/params.rs: CatchainConfig, ConsensusConfig, GasLimitsPrices, WorkchainDescription, WorkchainFormat, WorkchainFormatExtended::check_addr_len, ValidatorSet, ValidatorDescription (Store and Load)"])
p("C62","The shards of all workchains form complete trees, and iterating gives back exactly the shards they were built from",
 "Iterating over the shard tree of a workchain gives its leaves from left to right with the shards at them and then ends, for every tree of at most 60 levels; for any other cell it gives the leaves up to the first broken cell and then an error. The shards of every tree contain every account exactly once and are sorted. A list of shards with descriptions in range is accepted in any order if every account of its workchains is in exactly one shard; what is built from shards that do not overlap had this property, and all iterators give back exactly the shards with their descriptions and block identifiers, workchain by workchain in order; looking up a workchain gives exactly its own shards. The latest block of a shard is the one its description names. Descriptions have the layouts of their scheme.",
 "all cells, trees, lists of shards in any order, sorts, orders of workchains, numbers of calls of the iterators",
 "the claims range over all trees and lists of shards of any size and any interleaving of workchains",
 ["src/models/block/shard_hashes.rs: ShardHashes::from_shards, get_workchain_shards, iter, raw_iter, latest_blocks, WorkchainShardHashes, ShardDescription, FutureSplitMerge"])
p("C63","Searching an augmented dictionary by its extras finds what the index says",
 "A search by extra in an augmented dictionary never fails, and what it finds is an entry of the dictionary whose extra the search accepted. A search that never stops and accepts all leaves finds nothing only in an empty dictionary. Going always to one side gives the entry with the least or greatest key. If extras say whether some entry below has a property, the search for the property finds the entry with the least key that has it, or nothing if none has. If extras combine to the greatest (least) one, the search by ordering finds an entry with the greatest (least) extra, the one with the greatest key among equal ones, and its extra is that of the dictionary. If extras are sums, the search with a number below the total finds the entry in whose part of the total, in order of keys, the number lies.",
 "all sequences of calls that build the dictionary, all dictionaries read from somewhere, all types of extras, all searches with state, all predicates, orders and numbers",
 "a dictionary has unboundedly many shapes, and the result depends on the extras of every fork on the path",
 ["src/dict/ops/find.rs: aug_dict_find_by_extra", "src/dict/mod.rs: SearchByExtra, Branch, Ordering", "src/dict/aug.rs: AugDict::find_by_extra", "src/models/shard/shard_extra.rs: KeyMaxLt"])
p("C64","Merging two dictionaries gives their union, and the subdictionary of a key is its leaf",
 "Merging a dictionary into another whose root cell has equally many bits gives the union of both, with the entries of the merged one where both have a key; it succeeds whenever all values fit, and if it fails, exactly the entries before the one that could not be inserted have been added. Merging with an empty dictionary changes nothing. The subdictionary of the empty prefix is the whole dictionary; that of a whole key of the dictionary is its leaf with the value.",
 "all dictionaries built by any sequence of calls, all dictionaries read from somewhere, all prefixes, all outcomes of finalization",
 "the result depends on the shapes of both tries, which have unboundedly many forms",
 ["src/dict/ops/split_merge.rs: dict_merge", "src/dict/ops/get.rs: dict_get_subdict", "src/dict/raw.rs: RawDict::get_subdict"])
p("C65","Blocks, their headers, value flows and proofs, and shard states follow their schemes and come back",
 "Blocks, block headers, block extras of both kinds, block proofs, shard states (split or not) and the extra state of the masterchain are written as the TL-B schemes say; exactly what follows the schemes is read, and every value in range comes back. Every header is written; one with block number zero, or lying on a vertical block at height zero, is never read back, and the version of the software comes back only if its flag is set. Previous blocks come back if they are one or two as the header says. Value flows come back if the collected fees and what was burned are without extra currencies. The extra of a masterchain block with more than four references is refused. What validators sign has 68 bytes and determines both hashes of the block.",
 "all values of these types, all cells behind them, all outcomes of finalization, all slices",
 "flags, optional parts, nested cells and several schemes per type combine in too many ways for examples",
 ["src/models/block/mod.rs: Block, BlockInfo, PrevBlockRef, ValueFlow", "src/models/block/block_extra.rs: BlockExtra, McBlockExtra", "src/models/block/block_proof.rs: BlockProof", "src/models/block/block_id.rs: BlockId::build_data_for_sign", "src/models/shard/mod.rs: ShardState, ShardStateUnsplit", "src/models/shard/shard_extra.rs: McStateExtra"])
p("C66","The balance of a block's value flow and the weight of its signatures are computed exactly",
 "ValueFlow::validate returns true only if of the native tokens and of every extra currency exactly as much goes out (to the next block, exported, collected fees, burned) as comes in (from the previous block, imported, imported fees, created, minted, recovered). For collections in the form this library writes, with no zero entries in the balances carried from and to other blocks, it returns true exactly then, and it fails only with IntOverflow, exactly when one of the sums does not fit. check_signatures fails with InvalidSignature exactly when the signature of a listed node does not verify, ignores signatures of unlisted nodes, and otherwise returns the sum of the weights of the signatures that count; when no node is listed or signs twice this is the weight of the listed nodes that signed, never more than the weight of the list.",
 "all value flows with any dictionaries of extra currencies; all lists of validators, dictionaries of signatures, signature schemes and short-id functions",
 "The sums go through ten dictionaries of unbounded size and the result compares dictionary roots, so that a difference in form alone could change the answer; tests check a few flows with no or few extra currencies. Signatures can come in any order, from any nodes, listed or not.",
 ["src/models/block/mod.rs: ValueFlow::validate", "src/models/block/block_extra.rs: BlockSignatureExt::check_signatures", "src/models/currency.rs: CurrencyCollection::checked_add", "src/dict/typed.rs: Dict::eq"])
p("C67","Output actions come back as they were stored, from the last to the first",
 "An output action (send a message, set the code, reserve currency, change a library) is stored as the schema of actions says and loads back as it was, whatever follows it. The iterator over a list of actions returns each action of the list exactly once, from the last made to the first, and then nothing at every further call; and a slice from which it returns actions up to an end holds exactly the list of these actions.",
 "all actions, all lists of actions of any length, all slices, any number of calls of next",
 "The list is a chain of cells of unbounded length with data of four kinds; tests walk a few lists.",
 ["src/models/vm/out_actions.rs: OutAction::store_into", "src/models/vm/out_actions.rs: OutAction::load_from", "src/models/vm/out_actions.rs: OutActionsRevIter::next", "src/models/vm/out_actions.rs: LibRef"])
p("C68","Sets of capabilities",
 "The iterator over a set of capabilities returns exactly the capabilities of the set in increasing order of their bits, each once, and then nothing at every further call; bits that stand for no capability are skipped. A set built from a list of capabilities contains exactly those of the list and equals the set built from what its iterator returns. Adding a capability adds it and changes no other. A capability has exactly one name and the name gives it back; other names are rejected.",
 "all 64-bit sets, all lists of capabilities, any number of calls of next, all names",
 "There are 2^64 sets and 2^32 that hold only known capabilities; a test iterates over one of them.",
 ["src/models/global_version.rs: GlobalCapabilitiesIter::next", "src/models/global_version.rs: GlobalCapabilities::contains", "src/models/global_version.rs: GlobalCapabilities::from_iter", "src/models/global_version.rs: GlobalCapability::from_str", "src/models/global_version.rs: GlobalCapability::fmt"])
p("C69","Dictionaries whose root lies inside other data are read back exactly",
 "An account block stores the root of its transactions inside its own data; it always fits, and it loads back as it was: the same account, the same dictionary (root cell and total), the same update, and what follows is left. A description of a library with its publishers and a parameter that is a non-empty dictionary come back the same way when nothing follows, and with at least two entries whatever follows. What is loaded as a root is exactly the part of the data that is taken. Empty dictionaries are refused.",
 "all augmented dictionaries reachable by inserts, removals, splits and merges, all plain dictionaries reachable by updates, all accounts, updates and data that follows",
 "Where the root ends depends on the label, on the kind of the node and on the lengths of extras and values; tests parse a few blocks.",
 ["src/dict/mod.rs: dict_load_from_root", "src/dict/aug.rs: AugDict::load_from_root_ext", "src/models/block/block_extra.rs: AccountBlock::store_into", "src/models/block/block_extra.rs: AccountBlock::load_from", "src/models/shard/mod.rs: LibDescr", "src/models/config/mod.rs: NonEmptyDict"])
p("C70","Network parameters are found where they were put, under their identifiers and with their fallbacks",
 "The parameters of the network are a map from identifiers to cells. Reading by identifier returns what the map holds; writing changes that identifier only; removing returns the removed cell, and the parameter 0 is never removed. Every named getter returns exactly what its parameter says (the minter falls back to the configuration contract, the fee collector to the elector, a current, previous or next validator set is the temporary one if there is one), and fails if there is nothing to find. Every named setter makes its parameter say the value, leaves all others as they are, and does not fail for values in range. Every known parameter set and read back returns the value. Lists of identifiers, addresses and storage prices come back as dictionaries with exactly those keys.",
 "all dictionaries of parameters (any valid labels for reading and writing, those made by the library for the absence of failures), all identifiers below 2^32, all values in range of every known parameter, all lists",
 "There are forty parameters with four kinds of codecs, pairs for the masterchain and the others, and fallbacks; tests read one configuration and cover a few getters.",
 ["src/models/config/mod.rs: BlockchainConfig::new_empty", "src/models/config/mod.rs: BlockchainConfigParams", "src/models/config/mod.rs: define_config_params"])
p("C71","Calls, results and events of contracts are decoded to the values they were encoded from",
 "Arguments of an internal call, results and events encoded by a function or event of a contract start with its identifier and are decoded by it to the same values; a body with another identifier is rejected, and values whose types or number differ from the declaration are never encoded. An external call is the signature (or a zero bit), the declared headers in their order, the identifier and the arguments: it is decoded to the arguments, signed or not, and its headers are read back. Two calls whose signed cells are equal have the same destination (from version 2.3 on), headers, function and arguments, and signature identifiers are part of the signed bytes. Identifiers of a function for calls and results computed from its text differ in the highest bit only. A call expires when it says, or 60 seconds after its time.",
 "all functions and events of contracts of versions 2.0 and later, all lists of values in range and supported by the version, all times, keys, addresses and signatures, all orders of distinct headers, any outcome of finalization, any sorting of maps",
 "Bodies spread over cells by rules that depend on versions, headers and sizes; tests decode a few recorded messages.",
 ["src/abi/contract.rs: Function::encode_internal_input, encode_external, decode_internal_input, decode_external_input, encode_output, decode_output", "src/abi/contract.rs: ExternalInput, FunctionBuilder, Event", "src/abi/contract.rs: UnsignedBody::fill_signature, UnsignedExternalMessage", "src/abi/signature.rs: extend_signature_with_id", "src/abi/value/mod.rs: NamedAbiValue::check_types"])
p("C72","Initial data and storage fields of contracts are read back as they were given",
 "Initial data encoded for a contract is decoded to every declared field, in the order of the declarations, with the value given for it or the default value of its type; the public key is under the key 0 and nothing else is there. Updating initial data gives the named fields the values given last and leaves every other entry as it was, also entries that are no fields; updating nothing returns the same cell. Values for unknown fields or of other types are never written, and encoding refuses a field given twice. Decoding fails if a field is missing. A default value has the type it is made for. Storage fields are decoded to the values they were encoded from, and values of other types are refused. Functions and events are found by their identifiers exactly if there are any.",
 "all contracts of versions 2.0 and later with distinct names and distinct nonzero keys of fields, all values in range and supported by the version, all dictionaries with valid labels that are updated, all orders of hash maps, any outcome of finalization",
 "Fields are spread over a dictionary in an order that depends on hash maps, with defaults for the rest; tests encode one contract.",
 ["src/abi/contract.rs: Contract::update_init_data, encode_init_data, decode_init_data", "src/abi/contract.rs: Contract::encode_fields, decode_fields", "src/abi/contract.rs: Contract::find_function_by_id, find_event_by_id", "src/abi/value/mod.rs: AbiType::make_default_value"])
p("C73","The text of an ABI type, signature or contract says one thing",
 "The text of a type in a signature is given by a grammar, and no two types have the same text. Two functions whose names contain no parenthesis have the same signature only if they agree in name, major version, inputs, outputs and, in version 1, headers; the same holds for events, and no function shares a signature with an event. A named type is read back from its JSON with the names of all its components, and whatever is accepted is a type whose numbers are in range and which is read back. A version is read back from its text, and the accepted texts are two numbers below 256 with a dot between them. A contract read from JSON has the version and the headers that it states, its functions and events have the stated identifiers or else the ones of their signatures, and of items with the same name the last one counts.",
 "all types of any depth, all names, versions, headers and lists of arguments, all JSON values of contracts, any hash function",
 "Identifiers of functions are hashes of texts without escaping: an ambiguity would give different functions the same identifier, and types nest to any depth; tests compare a few signatures.",
 ["src/abi/ty.rs: AbiType Display and from_simple_str, PlainAbiType Display and from_str, AbiHeaderType from_str", "src/abi/ty.rs: NamedAbiType Serialize and Deserialize", "src/abi/mod.rs: AbiVersion from_str and Display", "src/abi/contract.rs: Contract Deserialize, Function::compute_function_id, Event::compute_event_id, FunctionSignatureRaw, EventSignatureRaw"])
p("C74","Arguments of the declared types can be encoded",
 "Arguments whose numbers are in the ranges of their types and whose elements have the declared types can be encoded, however many they are and however they nest: they are spread over as many cells as needed and no cell overflows. The same holds for one value, for bodies of internal messages, results and events, and for calls: the body of an external message can be built whatever the headers and the arguments, and there is room for the signature (and, from version 2.3 on, for the address that is signed) afterwards.",
 "all versions, all values of any depth and number, all headers, all calls, all optional signatures of 64 bytes, any order in which the entries of a map are visited",
 "Whether a value still fits into the current cell is decided from sizes that are reckoned beforehand for all that is left, in two ways depending on the version; an error shows only for particular combinations of bits and references that fill a cell.",
 ["src/abi/value/ser.rs: AbiSerializer::reserve_value, require_builder, write_value, finalize, compute_size_full, compute_exact_size_short, compute_max_size_short", "src/abi/ty.rs: AbiType::max_size", "src/abi/contract.rs: Function::encode_internal_input, encode_output, ExternalInput::build_input_ext, build_payload, UnsignedBody::fill_signature, Event::encode_internal_input"])
p("C75","Rust values become ABI values of their types and come back",
 "For every Rust type with conversions (machine integers, hashes, small integers, booleans, addresses, amounts, cells, bytes, strings, and boxes, options, vectors, arrays, maps and tuples of them) the ABI value of a Rust value has the ABI type of the Rust type; converting it back gives the value. An ABI value of the type whose numbers are numbers of their types is read exactly: what is read is a value of the Rust type whose ABI value is the one that was read, and reading fails only for an address of the other kind. Arguments given as Rust values can be encoded, and what is decoded from the cells converts to the same arguments.",
 "all Rust types built from the supported ones to any depth, all their values, all ABI values, all versions of the ABI from 2.0",
 "The conversions are generic over nested types, with special cases for bytes decided by comparing types at run time and unchecked casts of vectors; tests see a few types and values.",
 ["src/abi/traits.rs: WithAbiType::abi_type, WithPlainAbiType::plain_abi_type, IntoAbi::as_abi, into_abi, IntoPlainAbi::as_plain_abi, into_plain_abi, FromAbi::from_abi, FromPlainAbi::from_plain_abi"])
p("C76","Hashes and bags of cells come back from their texts",
 "Every 32-byte hash is printed as its 64 hexadecimal digits and is read back from them in either case, from them after two further characters, and from its base64; its serde forms (digits, or the 32 bytes) come back and nothing else is accepted as one. Parsing accepts exactly these texts, and the base64 of 31 bytes, each as the one hash it means; every other text is an error, except for texts of 66 bytes with a character across their third byte. Base64 with padding reads exactly the canonical texts and returns the bytes they spell. A cell encoded as a bag in hexadecimal or base64 decodes to the same tree, and decoding a text is decoding the bytes it spells.",
 "all hashes, all texts (byte strings of any length), all byte strings, all finalized cells without hash collisions among them",
 "The parser chooses the format by length alone and slices the text by bytes; unit tests see a few texts, while acceptance, canonicity of padding and the absence of panics are about every text.",
 ["src/cell/mod.rs: HashBytes::from_str, fmt_hex, Display, LowerHex, UpperHex, serde::Serialize, serde::Deserialize", "src/util.rs: encode_base64, decode_base64, decode_base64_slice, encode_to_hex_slice", "src/boc/mod.rs: Boc::encode_hex, encode_base64, decode_hex, decode_base64"])
p("C77","Objects come back from bags of cells",
 "A tree of cells can be built exactly if every cell has a valid layout and no depth exceeds the limit, and what is built is that tree. For every type whose values are loaded from what they store, encoding a value as a bag of cells and decoding it gives the value back, also through hexadecimal, base64 and both serde forms; messages and accounts with a layout that fits into a cell are such values. Decoding succeeds exactly for bags whose root is an ordinary cell with an object in front; an exotic root is an error. Cells come back from their serde forms.",
 "all Store/Load pairs and values, all trees of cells, all byte strings, all messages and accounts with a layout",
 "The path crosses builders, hashing, the bag format and parsing, for every type and every tree; a test checks single values of single types.",
 ["src/boc/mod.rs: BocRepr::encode_ext, encode_hex, encode_base64, decode_ext, decode_hex, decode_base64, serialize, deserialize", "src/cell/mod.rs: DynCell::parse, DynCell::serialize", "src/boc/serde.rs: DeserializeAsBoc for Cell", "src/cell/builder.rs: CellBuilder::build_ext"])
p("C78","Typed dictionaries are maps from keys to values",
 "Every key type (booleans, integers, byte arrays, pairs, shards, small integers, addresses) gives each key its own bits and reads a buffer as a key exactly if it starts with the bits of this key; integers are ordered as their keys are, signed ones as signed keys. After any successful updates of a typed dictionary, lookups give what the same updates of a partial function give; set, replace and add tell whether they changed it, remove gives the value that was there; iteration gives every entry once in the order of the keys; minimum, maximum, next and previous entries are those of the function. The root depends on the entries only, and a dictionary comes back from the entries that are given to a readable serde format, in any order.",
 "all key types with the stated law, all value types and values that are loaded from what they store, all histories of updates, all keys, both directions, signed and unsigned",
 "Every key of every type and every history of updates; tests use a few keys of a few types.",
 ["src/dict/typed.rs: Dict::get, contains_key, set, replace, add, remove, iter, get_min, get_max, get_next, get_prev, get_or_next, get_or_prev, Iter::next", "src/dict/mod.rs: impl_dict_key", "src/num/mod.rs: impl_small_uints (DictKey)", "src/models/block/block_extra.rs: ShardIdentFull", "src/models/message/address.rs: StdAddr (DictKey)"])
p("C79","Typed dictionaries built or changed in bulk are those of single updates",
 "If the given keys are compared as their bits are (booleans, unsigned integers, byte arrays, pairs, signed integers of the same sign, addresses whose workchains have the same sign), a typed dictionary built from a sorted collection has exactly the listed entries (the first of several with the same key) and is the very dictionary that any single updates leading to these entries give; a sorted list of inserts and removes leads to the entries, and to the very dictionary, to which the same changes one by one lead. Without the flag nothing has changed. Entries out of order and keys without bits are errors; entries that fit are built.",
 "all key types with the stated law, all value types, all lists of entries and of changes, all histories of the dictionary that is changed",
 "Every collection and every dictionary before it; tests build a few dictionaries and compare them with insertions.",
 ["src/dict/typed.rs: Dict::try_from_btree, try_from_sorted_slice, modify_with_sorted_iter", "src/dict/ops/build.rs: build_dict_from_sorted_iter", "src/dict/ops/modify.rs: dict_modify_from_sorted_iter"])
p("C80","Entries are taken out of typed dictionaries in the order of their keys",
 "Removing the smallest or the greatest entry of a typed dictionary gives that entry of the map it stands for, keeps all the others and leaves the very dictionary that removing its key leaves; there is nothing to take exactly if there are no entries. Removing again and again gives the entries in order, all before those that are left, until nothing is left. The keys are iterated in the order of the entries, each once. A key that cannot be read is an error.",
 "all key types with the stated law, all value types, all histories of updates, all numbers of removals, both directions, signed and unsigned",
 "Every dictionary and any number of removals; tests drain a few small dictionaries.",
 ["src/dict/typed.rs: Dict::remove_min_raw, remove_max_raw, remove_bound_raw, keys, Keys::next"])
out=os.path.join(os.path.dirname(__file__),"..","properties.jsonl")
with open(out,"w") as f:
    for x in P: f.write(json.dumps(x)+"\n")
print(len(P))
