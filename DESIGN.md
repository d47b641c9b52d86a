# Formal model of `tycho-types` (broxus/everscale-types) in Rocq/Coq 8.16.1

The code under study is in `/repo` (Rust). Nothing is executed: the model is a
hand translation of the source text. Every definition cites the file and lines it
models and states its simplifications.

## Conventions

* `list bool` is a bit string (most significant bit first), `list N` a byte string.
* Fallible Rust functions become functions into `res A := Ok a | Err e` with the
  error enum of `src/error.rs`; a panic is the explicit error value `Panic`, an access
  outside of a buffer by unsafe code is `UB`, a loop that runs out of fuel is `OutOfFuel`;
  the theorems exclude these values, they are never defaults.
* `&mut self` methods return the new state next to the result.
* Machine integers: where wrap-around can occur in release builds, the wrap is
  written explicitly (`mod 2^16` ...). Theorems then carry the range hypothesis and
  a `_refuted` theorem shows what happens without it.
* External code (SHA-256, CRC-32C) is a parameter of the definitions, so a theorem holds
  for every function in its place; `Sha256.v` and `Crc32c.v` define the real ones for examples
  and for the constants in the code.
* Files: `*Model.v` (definitions only), `*Spec.v` (independent specification),
  `*Proofs.v` (lemmas), `*Props.v` (theorems `Cnn_...`, `Print Assumptions`, and an
  `Example Cnn_case` that meets the hypotheses).
* A theorem named `..._refuted` proves that (part of) a property is false of the code, by a
  concrete case. A theorem named `..._partial` proves part of a property; the note in
  MANIFEST.json says what is missing.

## Layers

1. Bytes: `BuilderModel`, `SliceModel`, `CellBuilderModel`, `IntModel`, `BigIntModel`
   (the 128-byte buffer, windows, shifts and masks as in the code).
   C01-C09 prove that these are operations on bit strings.
2. Bits: `CellModel` (a cell is an exotic flag, bits and references). Labels, dictionaries,
   addresses, currencies and all `Store`/`Load` codecs are modelled on bit strings, which C01-C09 justify.
3. Finalized cells: `HashModel` (`fcell`: descriptor, hashes, depths). Bags of cells, Merkle
   proofs and updates, virtual cells and storage statistics are modelled on these.
4. Threads: `UsageModel`, `PromiseModel` are small-step transition systems; `DropModel` is a heap
   with counters.

## Properties

| id | model | proof method |
|----|-------|--------------|
| C01, C02, C08 | byte-level `CellDataBuilder` (128-byte buffer + bit length) | refinement to `list bool` append; invariant "tail is zero"; induction over histories |
| C03, C04, C05, C08 | byte-level `CellSlice` (data, window) reads | refinement to sublists; composition with C01 |
| C06, C07 | word-wise scans of slices | refinement to list functions |
| C09 | big integers over Z and N | round trip |
| C10, C11 | descriptors, level masks | exhaustive finite sweep lifted to theorems |
| C12, C13, C14 | cell trees, `compute_hashes`, abstract sha | induction on trees |
| C15-C19 | BOC writer/reader over byte lists | round trip by induction over the written cell list; totality of the reader; all completion orders of the parallel writer |
| C20-C25, C46, C48 | dictionary functions and iterators over cell trees | refinement to a canonical Patricia tree (`pt`), and of that tree to a finite map |
| C26, C27 | merge stack and the walk of bulk modification | abstract stack of trees with an invariant; simulation of the cells |
| C28 | split and merge | refinement to `pt` |
| C29 | edge labels | all widths, all labels |
| C30, C31 | augmented dictionary | same as plain ones, plus the extra of every fork |
| C32-C34, C49, C50 | pruned branches, Merkle proofs / updates, virtual cells | induction on cell trees with abstract sha |
| C53 | messages, their infos, state inits, placements | layouts as relations; stores append them, loads read exactly them |
| C35, C36, C51, C52 | variable-length integers, 256-bit two-word arithmetic, text | round trip; exactness over N, including Knuth division |
| C37, C45 | `ShardIdent` on u64, block ids | refinement to bit-string prefixes; parsers against grammars |
| C38, C44 | address codecs, hex notation, base64 | layout relation, round trip |
| C39 | currency collections over the dictionary model | refinement to finite maps of N |
| C40, C41 | transition systems for threads | invariants over all interleavings |
| C42 | drop loop over a reference-counted heap | invariant; the machine stack is the nesting depth of destructors |
| C43 | `StorageStat` | induction over histories |
| C47 | CRC-16 | table = polynomial division, linearity, burst errors |
| C54 | accounts, entries of shard accounts, lazy cells | layouts as relations; the statistics of C43 as a parameter |
| C55 | prices as machine words, 128-bit saturation, VarUint248 of C36 | arithmetic |
| C56 | the generator and the loops as functions on lists, panics as errors; `drawn` specifies a draw by shares | invariant: the holes are the intervals of the drawn ones, in order; the shuffle inverted step by step |
| C57 | the serializer's stack of builders and the loader as functions; what a value stands for in `AbiSpec` | invariant: the stack is what is left to write behind what was written, so every break of a cell is seen by the loader in the same place |
| C58 | the macro as a function from a description of a structure (types of fields, codecs, versions, tags, condition) to a codec; layouts put together from parts in `StructsSpec` | induction over the fields: lawful fields give a lawful structure; each structure by composition
| C59 | store and load functions of `transaction/` statement by statement; `TxSpec` is the TL-B scheme as layouts, `CasesSpec` the layouts of enumerations and of parts in cells of their own | lawfulness of every codec as in C58; packed numbers are split with lemmas on bits, the early load of the messages by commuting references with bits
| C60 | `EnvModel`: store/load of envelopes, InMsg and OutMsg, `collect_fee`, `compute_fees`, `compute_exported_value` statement by statement; `EnvSpec`: layouts and the tokens an envelope carries | lawfulness as in C59; both value functions characterised by an iff, conservation by induction on the route
| C61 | `ParamsModel`: the hand-written Store/Load functions statement by statement, the validator loop over the dictionary iterator of IterModel; `ParamsSpec`: layouts of all versions, what is kept of a validator | lawfulness by the combinators of C58/C59; the loop by induction over the iterator invariant; written sets through dictionary histories (C20)
| C62 | `HashesModel`: descriptions, the stack machine that builds trees, the iterators with their segment stacks; `HashesSpec`: trees, leaves with paths, partitions of the accounts | iterators by an invariant that relates the segment stack to the leaves left; the builder by induction over trees: a sorted partition is the list of leaves of one tree; round trip through dictionary histories (C20) and order of iteration (C24)
| C63 | `SearchModel`: the loop with its nodes and an arbitrary stateful search | induction over the aug trie relates the loop to a search over the sorted entries; then each kind of search by induction over that relation, with the aggregate of each subtree (C30)
| C64 | `SubdictModel`: the merge loop over the raw iterator, the loop of get_subdict | the loop is a sequence of insertions in the order of C24, so the result is a history (C20); subdictionaries by induction over the trie
| C65 | `BlockModel`, `BlockSpec` (TL-B layouts with optional parts and parts that depend on flags) | the codec toolkit of C58-C61; loaders are compared up to the error they return; references move past bits
| C66 | `FlowModel`, `FlowSpec` (sums over the collections, who counts as a signer) | sums of collections by C39; canonical dictionaries with the shortest amounts and the same amounts are the same cell, so that the comparison is exact; the walk over the signatures by the invariant of C24, sums up to permutation
| C67 | `ActionsModel`, `ActionsSpec` (schema of an action, the list as an inductive relation) | `lawful` of the enumeration by the tools of C59; the iterator by induction over the list, both directions
| C68 | `CapsModel`, `CapsSpec` (the offsets in use, the members of a set) | bits of the lowest set bit; the loop by induction over the offsets that are left
| C69 | `InlineModel`, the histories of C22 and C31 | the root is label, two references and extra, or label, extra and value, so that reading ends where the root ends; bounds on labels and currencies show that account blocks fit
| C70 | `ConfigModel`, the maps of C20-C22, the layouts of C58 and C61, C69 for dictionaries without a cell | `config`: the entries of the dictionary are one reference each; every operation is an update or a lookup of the map; getters and setters by the laws of the codecs
| C71 | `CallModel` on the ABI values of C57 | `body_round_trip`: the values after an identifier and a reservation are those of C57; headers and signature are fixed layouts in front; equality of what is signed by decoding both
| C72 | `InitModel` on the ABI values of C57, the calls of C71 and the dictionaries of C20 | encoding is an update of an empty dictionary with the given values and the defaults; every update is an insertion into the map
| C73 | `TypeModel`: texts as lists of bytes, JSON as the tree of the fields that are asked for | a grammar in `TypeSpec`; the text of a type is a word, a part in parentheses and array suffixes, which is read from the left in one way when a comma or a closing parenthesis follows; parsing by induction on the type
| C74 | the serializer of `AbiModel` and the calls of `CallModel` | `encodable` in `EncSpec`; an invariant of the serializer: the current cell holds no more than what is counted, a cell with four references has room for all that is left, closed cells have three references; by induction on values, dictionaries by C20
| C75 | `RustModel` (Rust types as an inductive type, their values as Coq types indexed by it), conversions both ways | `rust_ok`, `sendable` in `RustSpec`; induction on types; encoding by C74, decoding by C57 |
| C76 | `HashTextModel` (padded base64, parser and printers of hashes, texts of bags) | `padded`, `hash_text` in `HashTextSpec`; padded base64 by reduction to whole groups (C38), digits by `spells` (C44), bags by C15 and C17 |
| C77 | `ReprModel` (builder and hashing for whole trees, `BocRepr`, serde forms of cells) | `shallow`, `baggable` in `ReprSpec`; induction on trees by C14, bags by C15, texts by C76, messages by C53, accounts by C54 |
| C78 | `TypedModel` (key types, typed lookups, updates, queries, iterator) | `good_key`, `typed_history`, `is_first`, `is_nearest` in `TypedSpec`; maps of bits by C20-C22, C24, C25, a representation of partial functions by finite maps |
| C79 | `TypedBulkModel` (orders of key types, typed building and changing) | `bit_order`, `listed`, `changed`, `one_by_one` in `TypedBulkSpec`; only the comparisons of the given keys matter, then C26 and C27 and the representation of C78 |
| C80 | `TypedQueueModel` (typed removal of a bound, keys) | `drain` in `TypedQueueProps`; C25_remove_bound on bits, induction over the removals with the representation of C78 |

## Trusted base

* Coq 8.16.1's kernel and its virtual machine (`vm_compute` is used for examples, finite sweeps
  and constants).
* `Print Assumptions` stands under every theorem in the `*Props.v` files. Every one prints
  "Closed under the global context": no axiom is used, of the standard library or otherwise.
  `coqchk -o` lists the opaque parameters of `Coq.ssr.ssrunder.Under_rel` for the files that load
  std++, because std++ loads Coq's own ssreflect; no theorem depends on them.
* Libraries: Coq's standard library and std++ (finite maps and list lemmas). Nothing else.
* The hand translation of the Rust text into Gallina. The seeded errors in `seeded/LOG.jsonl`
  test how tightly the theorems hold the model; nothing tests the model against the running code.
* External behaviour modelled by its documentation: `num-bigint` conversions, `str` and integer
  parsing and formatting, the `hex` and `base64` crates, `Vec`, `HashMap`/`HashSet` (finite maps),
  sorting (`sort_unstable`, as any sorted permutation), `rayon` collection (one slot per chunk, any
  completion order), `Mutex`/`Condvar`/`Once`/atomics (linearizable, sequentially consistent),
  `Arc` counters.
* `fin`, the outcome of `CellContext::finalize_cell`, is a parameter of the dictionary layer: any
  function that accepts or rejects a cell. Cells are loaded as by `EmptyCellContext` (no library or
  gas logic of other contexts).
* Allocation succeeds; `usize` is 64 bits wide.

## What is modelled

`src/cell/builder.rs`, `slice.rs`, `mod.rs` (descriptors, masks, storage statistics), `cell_context.rs`,
`cell_impl/mod.rs` (ordinary, pruned, virtual cells, release of cells), `usage_tree.rs` (thread-safe version),
`src/dict/` (lookup, insert, remove, bounds, iterators, union iterator, split, merge of siblings, bulk build,
bulk modification, labels, augmented dictionaries with searches by extra), `src/boc/` (header, decoder, encoder, parallel encoder, checksums),
`src/merkle/` (pruned branches, proofs, updates, promises; sequential builders), `src/num/`, `src/crc.rs`, `src/util.rs`
(bit strings, big integers), `src/models/currency.rs`, `src/models/block/block_id.rs`, `src/models/message/address.rs`,
the extras of augmented dictionaries in `src/models`, messages (`src/models/message/mod.rs`), accounts (`src/models/account/mod.rs`), `src/cell/lazy.rs`,
fees, gas prices and the selection of validators of `src/models/config/params.rs`, ABI values (`src/abi/value/`),
the derive macro of `proc/` and the structures of `src/models` whose codecs it writes, transactions (`src/models/transaction/`),
envelopes, inbound and outbound messages (`src/models/message/`), parameters with hand-written codecs and validator sets
(`src/models/config/params.rs`), the shards of all workchains (`src/models/block/shard_hashes.rs`), blocks and
their headers, extras, value flows, signatures and proofs (`src/models/block/`), shard states (`src/models/shard/`), without the feature `tycho`,
output actions (`src/models/vm/out_actions.rs`), capabilities (`src/models/global_version.rs`),
account blocks, descriptions of libraries and other dictionaries without a cell of their own,
the accessors of network parameters (`src/models/config/mod.rs`), calls, results, events, initial data and storage fields of contracts
(`src/abi/contract.rs`, `src/abi/ty.rs`, with JSON as the tree of its fields, `src/abi/signature.rs`),
conversions of Rust values to and from ABI values (`src/abi/traits.rs`); the text and serde forms of hashes and the hexadecimal and base64 forms of bags of
cells (`src/cell/mod.rs`, `src/boc/mod.rs`); objects as bags of cells and the serde forms of cells (`src/boc/mod.rs`, `src/boc/serde.rs`); typed dictionaries, their key types and their building and changing in bulk (`src/dict/typed.rs`, `src/dict/mod.rs`).

## What is not modelled

* `src/abi/`, `src/models/` apart from the parts named above (the `tycho` variants of blocks and states),
  other serde forms (containers of cells, models), `Debug` output.
* The parallel (rayon) builders of Merkle proofs and updates; the `Rc` variants of cells (same code, other counters);
  `stats`-feature counters.
* Runtime costs, except where a bound is part of the claim (recursion depth of C42, steps of C41).

## Findings

Each is proved of the model by a theorem with a concrete case.

| theorem | what happens in the code |
|---------|--------------------------|
| C02_wrap_refuted | a count of bits near 2^16 wraps the 16-bit sum in release builds and is accepted by the builder |
| C04_wrap_refuted | skipping near 2^16 bits wraps and widens the window of a slice (release builds) |
| C05_get_raw_beyond_window_refuted | `get_raw` ignores its offset in the bound check: bits beyond the window are returned |
| C05_get_raw_out_of_bounds_refuted | ... and one byte past the data of the cell can be read |
| C05_get_uint_wrap_refuted | `get_uint` with an offset near 2^16 reads outside of the data (release builds) |
| C09_negative_unsigned_refuted | `store_bigint` with `signed = false` stores the magnitude of a negative integer |
| C09_var_store_atomic_refuted | variable-length big integer stores leave the length prefix behind when the payload does not fit |
| C15_duplicate_root_refuted | a bag with one cell as both roots cannot be decoded |
| C18_late_option_refuted | `without_hashes` set after adding roots gives wrong declared sizes |
| C24_values_signed_refuted | `values().signed()` visits a labelled root in the wrong order |
| C24_values_owned_reversed_refuted | `values_owned()` reversed returns ranges of the wrong sibling |
| C26_signed_refuted, C27_signed_refuted | bulk build/modify with signed keys accept input and misplace entries |
| C79_signed_refuted, C79_addresses_refuted | a sorted map with the keys -1 and 1 (i32), or with addresses in the masterchain and in workchain 0 (`StdAddr` derives `Ord`, with a signed workchain), is built without an error into a dictionary that has neither key, and has the values under keys that were not given |
| C27_repeated_keys_refuted | bulk modify with repeated keys behaves differently on an empty dictionary |
| C29_overlong_label_refuted | the label reader accepts labels longer than the remaining key |
| C32_shared_subtree_refuted | a proof of a tree in which a subtree occurs outside and inside of a Merkle cell is wrong |
| C32_root_level_refuted | proofs of roots with a level are made for one hash and checked for another |
| C33_subtree_filter_refuted, C33_embedded_proof_refuted, C33_two_levels_refuted | updates that cannot be applied, or lose cells, for such filters and trees |
| C36_checked_mul248_refuted | `VarUint248::checked_mul` accepts products of 249..256 bits |
| C36_add248_refuted | `VarUint248 + ` ignores the high word of the left operand |
| C37_ancestor_refuted | `is_ancestor_of` reports shards that are not ancestors |
| C38_anycast_depth_refuted, C38_anycast_long_refuted | anycast prefixes of 31 bits are read; 32 bits or more are stored wrongly |
| C38_text_anycast_refuted, C38_base64_alphabet_refuted | text of anycast addresses is not parsed; the base64 alphabets are not told apart |
| C40_load_not_immediate_refuted | a thread can get a tracked child before its use is recorded |
| C42_weak_handles_refuted | with weak handles the nesting of destructors grows with the depth |
| C43_zero_limit_refuted | with the limit 0 one cell is counted |
| C44_long_refuted | bit strings of 1021..1023 bits print to text that the parser refuses |
| C45_masterchain_split_refuted | children of the masterchain shard print to text that the parser refuses |
| C49_descriptor_refuted, C49_twice_refuted | virtual cells report the descriptor of the original; virtualizing twice is not two levels |
| C50_shared_refuted | removal counters reach zero for a cell that the new tree still uses |
| C51_split_depth_refuted | `SplitDepth::new` accepts 32..255, written modulo 32 |
| C52_parse248_refuted | parsing a `VarUint248` of up to 64 digits loses the high word |
| C53_internal_layout_refuted | the declared size of an internal message is one bit short; a message whose parts take 1024 bits in place is refused although it fits with its body in a cell |
| C53_unused_flag_refuted | a layout flag for an init that is not there takes the room of a reference |
| C54_compute_refuted | `StorageUsed::compute` has a condition the wrong way round: it fails with `IntOverflow` for every account of fewer than 2^56 cells |
| C55_parts_refuted | `get_first_part` and `get_next_part` saturate for amounts above 2^112 and give too little |
| C56_zero_weight_refuted | a validator of weight 0 in front of others makes `compute_subset` fail an assertion (debug) or draw the same validator twice (release) |
| C57_varint_refuted | a positive `varint` whose top bit is set is stored without a sign bit and read as negative: 128 comes back as -128 |
| C57_empty_map_refuted | before 2.2 the reference reckoned for an empty map is not the one it is written with: with four cells behind it the last one comes back wrapped in another cell |
| C57_empty_refuted | a cell followed only by values that take no room (an empty tuple, `uint0`) is encoded but cannot be decoded |
| C57_long_varuint_refuted | from 2.2 on a `varuint` of more than 128 bytes followed by another value panics (subtraction overflow); arrays of them are encoded but not decoded |
| C57_full_cell_refuted, C57_full_optional_refuted | a fixed-length array is counted with two bits although it takes one, so cells that would be exactly full are refused and an optional value fails a debug assertion |
| C57_long_key_refuted | with map keys of more than 1011 bits a cell as value comes back wrapped in another cell |
| C57_version_1_refuted | version 1 writes arrays it cannot read back and reads a wrong cell behind an empty map |
`Transaction` does not compare `out_msg_count` with the number of outgoing messages, in either direction (`C59_count_unchecked`).
The fees of an immediate message and the creation time of an enqueued message are computed from the first reference of the envelope cell without reading the envelope, so cells that are no envelopes are accepted (`C60_not_an_envelope`).
A validator description with a nonzero sequence number is stored with a zero ADNL address instead of its own (`C61_adnl_lost`).
A validator set whose dictionary has fewer entries than the stated total is read, even if there are then more main validators than validators (`C61_main_exceeds`).
The number of round candidates is a u32 but only its low eight bits are stored: 257 becomes 1, and 256 makes the stored parameters unreadable (`C61_candidates`).
The split depths of a workchain are checked when it is stored and not when it is loaded (`C61_split_depths`).
The flat gas prefix may be repeated in gas prices (`C61_repeated_prefix`).
Validator sets that are empty, have too many main validators or a wrong total weight are stored without an error and cannot be read (`C61_set_written`).
Overlapping shards are dropped without an error when the shards before them in the order already form a tree: {full, right half} becomes {full} (`C62_overlaps_refuted`, `C62_duplicates_refuted`).
A tree whose root has no bits gives no items and no error, although the documentation says that an error ends the iteration (`C62_empty_root_refuted`).
After an error in the tree of one workchain the iterator over all workchains goes on with the next (`C62_goes_on_refuted`).
latest_blocks does not check the tag of descriptions, so it accepts ones that iter refuses (`C62_untagged_refuted`).
Items are in the order of the unsigned workchain numbers: the masterchain comes last, so they are not sorted by identifier (`C62_negative_refuted`).
A text with further parts behind a shard identifier is accepted as one, unlike for block identifiers (`C45_more_parts_refuted`).
With extras that are sums, as those of accounts and messages are, the search by Ordering::Greater follows the greater sums and misses the greatest extra (`C63_sums_refuted`).
Merging refuses dictionaries whose root cells have different numbers of bits, although all keys have the same length (`C64_merge_refused_refuted`).
If the merged dictionary is broken, the entries before the broken cell are added and success is reported (`C64_merge_broken_refuted`).
get_subdict reads labels as if the keys ended where the prefix ends: for a prefix that all keys have it fails or loses entries (`C64_subdict_error_refuted`, `C64_subdict_loses_refuted`).
For an absent key get_subdict returns a dictionary that has it, with a reference to an empty cell, and all other entries (`C64_subdict_invents_refuted`).
For a prefix longer than the keys get_subdict returns the whole dictionary (`C64_subdict_long_refuted`).
A value flow whose collected fees have extra currencies is read wrongly: the cell of the first four values is taken for the dictionary of the fees (`C65_flow_refuted`, `C65_case_flow`).
A block header with number zero is written but never read (`C65_zero_refuted`).
A header that is not after a merge accepts two previous blocks and then cannot read them, and the other way round (`C65_previous`, `C65_case_previous`).
The version of the software is silently dropped if its flag is unset (`C65_header`).
The extra of a masterchain block with extra currencies in both fees, shards and a configuration needs more than four references and cannot be written (`C65_mc_extra`, `C65_case_extra`).
A configuration without parameters cannot be written (`C65_empty_config`).
`ValueFlow::validate` reports a balanced flow as unbalanced when a balance has an entry with a zero amount that the other side does not have (`C66_zero_refuted`).
`check_signatures` counts a node as often as its signature is in the dictionary, so that the result can exceed the weight of all nodes (`C66_twice_refuted`).
`OutActionsRevIter` returns an error at every call, without an end, on a slice with bits but without references (`C67_endless_refuted`).
`OutAction::ChangeLibrary` with a mode of 128 or more is stored without an error and comes back with another mode (`C67_mode_refuted`).
`GlobalCapabilitiesIter::size_hint` promises more items than the iterator returns when bits that stand for no capability are set (`C68_hint_refuted`).
`dict_load_from_root` on a dictionary with one entry takes all data that follows into the value of the entry (`C69_leaf_refuted`).
`BlockchainConfigParams::remove` can leave no parameter at all, although the dictionary is documented as never empty; storing it then fails (`C70_emptied_refuted`).
Getters of parameters ignore what follows the value in the cell (`C70_rest_refuted`).
`UnsignedBody` of ABI version 1: `fill_signature` stores the payload only if the version is not 1, so a signed body of version 1 has a signature and nothing else; the unsigned body starts with a bit the decoder does not expect (`C71_version_1_refuted`).
A header type declared more than once can leave no room for the function identifier in the first cell; the decoder then fails (`C71_headers_refuted`).
`ExternalInput` without an expiration time computes it in 32 bits: it wraps for late times (`C71_expire_refuted`).
`Contract::encode_init_data` and `update_init_data` put the public key under the key 0 without looking at the fields: a field declared with this key is overwritten (`C72_key_0_refuted`).
Values of initial data are stored in the leaves of the dictionary as they are, never behind a reference: a value that fills its cell is refused with `CellOverflow` (`C72_large_refuted`).
Names of functions and events are not checked: a name with a parenthesis gives signatures, and so identifiers, of other functions or events (`C73_name_refuted`).
A contract whose JSON has several functions with the same name is accepted, and all but the last are silently dropped (`C73_same_name_refuted`); the same holds for events and initial data.
Widths and lengths in ABI types are parsed by `from_str` of integers: `uint+008` is accepted as `uint8` (`C73_spelling_refuted`).
Before ABI version 2.2, for a negative `varint` whose absolute value takes a whole number of bytes a byte too few is reckoned: `compute_exact_size_short` counts the bits of the absolute value, `write_varint` adds a sign byte. Arguments that then fill a cell are refused with `CellOverflow` (`C74_negative_refuted`).
An `AbiValue::Uint(256, x)` with `x` of more than 256 bits converts to a `HashBytes` without its high bytes, where the conversions to machine integers fail with `IntOverflow` (`C75_hash_refuted`).
`from_abi` of `VarUint24`, `VarUint56` and `Tokens` accepts numbers of 32, 64 and 128 bits and makes amounts that these types cannot store (`C75_amount_refuted`).
A `SplitDepth` above 31 becomes a `uint5` that cannot be encoded (`C75_split_depth_refuted`).
`HashBytes::from_str` panics on a text of 66 bytes whose third byte is inside of a character, because it slices `&s[2..]` without a check (`C76_panic_refuted`).
`HashBytes::from_str` accepts any two characters in the place of "0x" before 64 digits (`C76_prefix_refuted`).
`HashBytes::from_str` accepts the base64 of 31 bytes as a hash that ends with a zero, because the number of decoded bytes is dropped (`C76_short_refuted`).
`BocRepr::decode` ignores whatever follows the object in the root cell, so that different bags decode to one object (`C77_trailing_refuted`).
