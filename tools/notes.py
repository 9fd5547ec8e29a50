STATUS = {}
NOTES = {
 "C02": "Also: Stream.Raw accepts a non-canonical single byte and element-wise reading can leave the enclosing list (both _refuted theorems, see DESIGN.md findings).",
 "C08": "The clause that iteration always stops is false; the exact termination condition is proved and the counterexample is C08_iterator_bounded_refuted.",
 "C30": "Equal lengths are necessary: C30_length_independent_refuted gives two lists with one root for every hash function.",
 "C31": "Readers that return short reads, and truncated inputs, are accepted with wrong contents (C31_short_reads_refuted, C31_truncation_detected_refuted).",
 "C62": "MoreTimes.IsValid rejects repeats at index 0 that Append builds (C62_isvalid_accepts_built_refuted); IsValid is not called by the package.",
 "C10": "Proved without any assumption on the hash function; keys may have any length.",
 "C11": "A finding: the theorem shows the map property fails for every hash function and pair of values.",
 "C12": "Keys of at most 48 bytes; assumes no collision among the strings hashed for the contents visited (explicit list) and among value hashes. C12_put_delete_root needs only the strings hashed for the final contents.",
 "C13": "The assumption is injectivity of the hash on the explicit list of strings hashed for the two roots and the empty root.",
 "C17": "The stronger wish (every failed write is reported) is false: C17_child_write_failure_refuted.",
 "C20": "Tries made by Clone/Inherit/NewTrie(root) start counting at 0 (C20_clone_count_refuted).",
 "C46": "Exp overwrites the caller's base (C46_exp_keeps_base_refuted).",
 "C51": "The documented leading-bits rule fails for 256 shards (C51_leading_bits_refuted); Pos fails when the nil chain id is a shard (C51_pos_with_nil_refuted).",
 "C58": "The unconditional wish is refuted: C58_new_always_validates_refuted.",
 "C60": "The documented behaviour (all pairs attached) is refuted: C60_keeps_every_field_refuted.",
 "C64": "The documented meaning of index (last bit compared) is refuted: C64_last_bit_compared_refuted.",
 "C53": "Hooks can run more than once (restart after stop) and a failing hook still advances the state: C53_at_most_once_refuted, C53_failed_hook_keeps_state_refuted.",
 "C54": "The cache of golang-lru is modelled from its documented behaviour. Insertion-order eviction is refuted: C54_insertion_order_refuted.",
 "C57": "The unrestricted property is false: the second deletion can remove the wrong id (C57_second_delete_wrong_id) or panic (C57_second_delete_panics), and listings contain extra zero ids (C57_listing_exact_refuted).",
 "C48": "Negative big integers are encoded with a leading minus sign that no decoder accepts, against the documentation: C48_negative_refuted.",
 "C34": "Temporary of a temporary database is the same object, so writes do pass through: C34_nested_refuted.",
 "C35": "Has answers yes for an absent key that was read before (C35_has_refuted); batches not made by the cached database leave stale entries (C35_foreign_batch_refuted).",
 "C36": "Without incomparability the property is false: C36_comparable_refuted.",
 "C37": "The expected behaviour, that an adapter can commit its own batch, is false for every database: C37_prefixed_batch_never_applies, C37_applied_refuted.",
 "C38": "The expected behaviour, that all accepted callbacks are written, is false when the last callback returns false: C38_lost_refuted.",
 "C66": "False for the batch commit of a closed leveldb database, which reports success and drops the batch: C66_closed_batch_refuted.",
 "C39": "Refuted without the restrictions: C39_range_refuted (out-of-range big ints are packed modulo 2^256), C39_overflow_refuted, C39_empty_static_refuted, C39_canonical_refuted (different data decode to the same values).",
 "C40": "bytesN with N > 32 panics: C40_wide_bytes_refuted.",
 "C42": "Negative *big.Int topics lose the sign (C42_negative_refuted), too-large ones panic (C42_oversize_refuted), function topics are not parsed back (C42_function_refuted).",
 "C43": "The unrestricted wish is refuted for every interleaved pattern (C43_interleaved_refuted) and for leading indexed strings (C43_indexed_dynamic_refuted).",
 "C44": "The wish that only well-formed signatures are accepted is refuted (C44_strict_refuted).",
 "C45": "The doc comment's example (send2) is refuted: C45_documented_refuted.",
 "C16": "Completeness of both kinds of proof, in the middle of any history; the hash is assumed not to collide on the node inputs of the trees visited (history_ok).",
 "C18": "Soundness of value chains under explicit no-collision and domain-separation hypotheses; C18_existence_refuted is the finding that the existence chain's child index is not bound to the Merkle path.",
 "C19": "C19_reversed_prefix_keys_refuted: with keys 0x12 and 0x1200 the reversed iterator skips 0x12.",
 "C21": "The property as first written (RevertTo(0) restores the contents at checkpoint 0) is false: C21_first_checkpoint_refuted. RevertTo with a root longer than 32 bytes whose tail matches is accepted and loses the contents: C21_long_root_refuted. SetTo is not part of the histories; C21_setto says what is visible after it in any state, and C21_setto_checkpoints_refuted that it keeps the checkpoints of the contents it replaces. The mutex, proofs and iterators of RevertableTrie and RevertableHistoryTree are not modelled here.",
 "C22": "Two clauses one would expect are false: an empty combined trie cannot be loaded after Commit (C22_empty_reload_refuted), and the root does not depend on the keys, so that committing another combined trie with the same sub-tries replaces the saved keys (C22_root_ignores_keys_refuted). Nil sub-tries, a nil adapter, IsDirty in histories and Marshal are not covered.",
 "C25": "C25_history_is_log is the simulation of the whole family by lists; C25_in_memory drops the hash hypotheses; C25_append_then_call spells it out for one tree. hist_ok_ideal shows a large class of histories meeting hist_ok.",
 "C26": "Stated on the trees reached by any calls, with get_proof, chain_proof and chain_bigkey of the model.",
 "C27": "C27_root_binds is the converse direction, with the hash hypotheses on exactly the strings hashed.",
 "C28": "The original claim (Has terminates) is false: C28_has_returns_refuted. Bodies are read then write, so the statements need the lock.",
 "C69": "C69_any_depth_refuted: an inner hash is accepted as a value, for every hash function.",
 "C70": "Types with their own EncodeRLP/DecodeRLP are outside. Findings: C70_canonical_with_optional_refuted, C70_stable_without_nil_exact_refuted, C70_nil_pointer_round_trip_refuted, C70_nil_big_round_trip_refuted, C70_nil_tag_own_encoding_refuted, C70_nil_tag_loses_empty_refuted.",
 "C71": "Four tempting clauses are false and are shown so: a low event may be taken while a high one waits (C71_high_always_first_refuted), a pool started again after Stop panics (C71_restart_refuted), events still queued at Stop are never handled (C71_stop_handles_all_refuted), a Post to a stopped pool with a full queue blocks for ever (C71_post_completes_refuted). Not modelled: what workFunc does to the pool itself, a workFunc that panics, the unlocked read of the map KeyCount returns, the logging goroutine.",
 "C72": "Batch of a memory database is not atomic for other threads: C72_memdb_batch_refuted. C72_cached_alone and C72_temporary_alone tie the micro-steps to the sequential model of C33-C35. C72_mutex is the general fact for objects whose methods all take one mutex. Modelled lock: sync.RWMutex with writer preference. Not modelled: Close and Replace racing with reads, the statistics counters, NewBatch, other users of the database below.",
 "C73": "The maps start empty, as the package variables do; addresses are byte strings of any length.",
 "C74": "A list that is not in ascending order (decoded from elsewhere, say) is searched wrongly: C74_unsorted_refuted.",
 "C75": "Findings: upper-case names (C75_case_refuted), servers of different chains after Sort (C75_after_sort_refuted), colliding HashValue (C75_hash_refuted).",
 "C76": "A nil receiver (ErrNil) is not modelled.",
 "C77": "NewType is not strict: C77_strict_refuted. Unicode field names and the size limit of reflect.ArrayOf and StructOf are parameters. fixedMxN types are rejected by the code. C77_text: outside tuples the text of a type is the text it was made from.",
 "C78": "Findings as _refuted theorems: duplicate signatures make MethodById depend on map order, call data without arguments share memory with the method id, events shadow methods in Unpack, entries without outputs are not found, empty argument lists are refused by InputUnpack and UnpackReturnsMap, unnamed arguments overwrite each other in maps, PackEventArgs fails when all arguments are indexed, reading into a used ABI keeps its constructor. JSON text decoding and copying into user structs are not modelled.",
 "C79": "Findings as _refuted theorems: NewType accepts tuples whose component names collide: equal names make packing read one field twice, names equal in camel case make every packing fail; acceptance depends on the order of arguments. Conversions between value types (set) are a parameter.",
 "C80": "Same hypotheses on hash and values as C25. Findings: without a tree Get and Commit panic (C80_nil_refuted); PreCommit returns an unsaved root when the tree handed over had uncommitted values (C80_unsaved_refuted). Has, MergeProof, Rebase and String are not modelled.",
 "C81": "Hypotheses on hash and values as in C25, and the list had been committed. The calls after the Chop on the new tree are reads and appends, or anything once the first call on it is an append, or anything if k is the last key. Findings: CommitAndHash straight after Chop saves nothing (C81_commit_refuted); Chop of uncommitted values can lose them (C81_uncommitted_refuted).",
 "C82": "Hypotheses on hash and values as in C25. Findings: nothing is compared with a root (C82_unchecked_refuted); keys other than the restored one are absent without an error (C82_other_key_refuted); from a key that is not the last one the tree takes a second value for the next key (C82_not_last_refuted); Get of an absent key makes later hashing fail (C82_get_spoils_refuted); the root a Commit returns cannot be opened with the check (C82_commit_refuted).",
 "C83": "In the program theorem variables start without sharing a number and AddInts does not get its receiver as an argument. Findings: AddInts given its receiver adds the changed value (C83_addints_alias_refuted); Compare puts nil below negative numbers (C83_compare_nil_refuted); ToUint64 of nil is refused, of zero it is not (C83_zero_uint64_refuted); a result stored elsewhere changes the receiver (C83_receiver_changes_refuted), unless it is a product with zero (C83_mul_zero_receiver_refuted); HexString of nil panics (C83_hex_nil_refuted).",
 "C84": "The hash is assumed injective only on the inputs met in the tree and in the offered proof; a value is not the hash of nothing. Finding: a proof of a key in the other block of a pair with a known key is reported as merged, but the key cannot be read (C84_paired_block_refuted).",
 "C85": "strconv.ParseUint, big.Int.SetString and fmt are modelled as documented. Findings: HexOrDecimal256 does not read back the negative numbers it prints (C85_hex_negative_refuted), the sign it reads stands after 0x (C85_sign_place_refuted).",
 "C86": "big.Rat.Float64 is modelled as rounding to the nearest binary64 number, ties to even, and proved to be so against a separate definition (C86_float). Findings: the floor of negative numbers is rounded up, above 2^53 the smallest integer is missed, 2^63 - 1 passes the range check (C86_floor_negative_refuted, C86_precision_refuted, C86_mul_precision_refuted, C86_limit_refuted).",
 "C87": "Findings: SetBytes with fewer bytes than the value holds keeps the old leading bytes (C87_set_short_refuted); the zero address and the zero hash become nil on the way through ForRLP and FromRLP (C87_rlp_zero_refuted).",
 "C88": "Finding: HashRipemd160 does not hash its argument: it returns the argument followed by the hash of the empty string (C88_ripemd_refuted).",
 "C89": "Finding: whether a recursive type that is not supported is refused depends on what was used before. With type T struct { Next []T; C chan int }, decoding into []T first is refused; after a (refused) decoding into T it is not, and calls a nil function (C89_recursive_refuted).",
 "C90": "WriteBigInt ignores the sign, as documented; item_of says so with the absolute value.",
 "C91": "Finding: an EncoderBuffer that is copied and flushed in both copies puts its buffer into the pool twice, and two innocent goroutines share it from then on (C91_copied_refuted).",
 "C92": "For tries opened from a root hash (NewTrie, Clone, Inherit) whose nodes come from the database. Assumes no node hash is the zero hash or the hash of no bytes (InvalidHash skips such nodes) and no value has an empty encoding (Dump does not copy those). Findings: a key of length zero is reported twice (C92_empty_key_refuted); Rebase alone moves no data (C92_rebase_empty_refuted).",
 "C93": "The value of the rlp key is given (reflect.StructTag.Get is not modelled); ASCII white space only; error texts left out. Finding: an ignored exported field behind a tail field is refused (C93_tail_before_ignored_refuted).",
 "C94": "The meaning of the printed statements is modelled, not the text. Types with their own methods, RawValue, and what does not compile (string fields in decoders: rlp.Stream has no String method; comparisons of structs with slices) are left out. Findings: empty optional slices are dropped (C94_empty_optional_refuted); nil tags are decoded wrongly (C94_nil_not_consumed_refuted, C94_nil_shifts_fields_refuted, C94_other_nil_refuted).",
 "C95": "The layout of headers and summaries (they are built outside this repository) is the one described in the comments of trie/proof.go. Findings: IsHeaderPropertyOf rejects every proof that IsHeaderOf accepts (C95_property_of_refuted); the length of the path is not bound (C95_path_length_refuted).",
 "C96": "Chains with nil elements are not modelled. A nil Repeats is not Equal to an empty one (C96_repeats_equal); the model of proofs takes an empty one as nil, which it is unless read from JSON.",
 "C97": "A method body runs in two micro-steps inside the mutex (reads, then writes). Count, IsEmpty and iterators read without the mutex and are not part of the histories. C97_map_and_root assumes that the hash does not collide on the strings hashed for contents some order of the calls goes through, and that the database does not fail.",
 "C98": "Memory is modelled for the slices of a description; the fields without references are one value. C98_agree assumes for its second half that the last 20 bytes of the hash do not collide on the keys concerned.",
 "C99": "C99_add refers to Attrs_Add, the model on lists of which C76 proves that it is the sorted union. sort.Sort is modelled by its result.",
 "C100": "Refinement of the list model of C74 to memory. Of Sort only the data nodes are modelled here.",
 "C101": "Memory as in C98; a pointer is a reference to the array of the fields. Cyclic structures are excluded: what is seen is a finite tree.",
 "C102": "The hash function is assumed to have no collision on the three strings concerned.",
 "C103": "The answers are those of the lists if the calls, in the order found, meet the conditions of C80 (no collision, 32-byte values, keys below 2^64). The method bodies run in two steps: a read and a write of the trees.",
}
