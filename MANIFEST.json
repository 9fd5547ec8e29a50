{
 "claims": [
  {
   "property": "C01",
   "status": "proved",
   "theorems": [
    "C01_rlp_round_trip"
   ],
   "note": ""
  },
  {
   "property": "C02",
   "status": "proved",
   "theorems": [
    "C02_rlp_canonical",
    "C02_rlp_injective",
    "C02_rlp_no_trailing",
    "C02_decoder_total",
    "C02_raw_value_canonical_refuted",
    "C02_stream_list_containment_refuted"
   ],
   "note": "Also: Stream.Raw accepts a non-canonical single byte and element-wise reading can leave the enclosing list (both _refuted theorems, see DESIGN.md findings)."
  },
  {
   "property": "C03",
   "status": "proved",
   "theorems": [
    "C03_encoder_is_recursive_rlp",
    "C03_announced_size_exact",
    "C03_reader_any_chunking",
    "C03_reader_eof"
   ],
   "note": ""
  },
  {
   "property": "C04",
   "status": "proved",
   "theorems": [
    "C04_rlp_self_delimiting",
    "C04_stream_consumes_exactly_one_value"
   ],
   "note": ""
  },
  {
   "property": "C05",
   "status": "proved",
   "theorems": [
    "C05_split_partitions",
    "C05_split_string",
    "C05_split_list",
    "C05_count_values",
    "C05_count_values_sound"
   ],
   "note": ""
  },
  {
   "property": "C06",
   "status": "proved",
   "theorems": [
    "C06_append_uint64",
    "C06_encode_uint64",
    "C06_split_uint64",
    "C06_split_uint64_canonical",
    "C06_decode_uint64",
    "C06_decode_uint64_canonical"
   ],
   "note": ""
  },
  {
   "property": "C07",
   "status": "proved",
   "theorems": [
    "C07_bytes_size",
    "C07_list_size",
    "C07_int_size"
   ],
   "note": ""
  },
  {
   "property": "C08",
   "status": "proved",
   "theorems": [
    "C08_iterator_yields_elements",
    "C08_iterator_terminates_iff_wellformed",
    "C08_iterator_bounded_refuted"
   ],
   "note": "The clause that iteration always stops is false; the exact termination condition is proved and the counterexample is C08_iterator_bounded_refuted."
  },
  {
   "property": "C09",
   "status": "proved",
   "theorems": [
    "C09_bigint_encode",
    "C09_bigint_round_trip",
    "C09_bigint_canonical"
   ],
   "note": ""
  },
  {
   "property": "C10",
   "status": "proved",
   "theorems": [
    "C10_trie_is_map",
    "C10_same_length_keys"
   ],
   "note": "Proved without any assumption on the hash function; keys may have any length."
  },
  {
   "property": "C11",
   "status": "proved",
   "theorems": [
    "C11_arbitrary_keys_refuted"
   ],
   "note": "A finding: the theorem shows the map property fails for every hash function and pair of values."
  },
  {
   "property": "C12",
   "status": "proved",
   "theorems": [
    "C12_histories_refine_maps",
    "C12_history_independence",
    "C12_put_delete_root"
   ],
   "note": "Keys of at most 48 bytes; assumes no collision among the strings hashed for the contents visited (explicit list) and among value hashes. C12_put_delete_root needs only the strings hashed for the final contents."
  },
  {
   "property": "C13",
   "status": "proved",
   "theorems": [
    "C13_root_binds_contents",
    "C13_equal_hashes_equal_contents"
   ],
   "note": "The assumption is injectivity of the hash on the explicit list of strings hashed for the two roots and the empty root."
  },
  {
   "property": "C14",
   "status": "proved",
   "theorems": [
    "C14_commit_reload"
   ],
   "note": ""
  },
  {
   "property": "C15",
   "status": "proved",
   "theorems": [
    "C15_collapse_invisible"
   ],
   "note": ""
  },
  {
   "property": "C16",
   "status": "proved",
   "theorems": [
    "C16_value_proofs",
    "C16_existence_proofs"
   ],
   "note": "Completeness of both kinds of proof, in the middle of any history; the hash is assumed not to collide on the node inputs of the trees visited (history_ok)."
  },
  {
   "property": "C17",
   "status": "proved",
   "theorems": [
    "C17_root_write_reported",
    "C17_failed_commit_stays_dirty",
    "C17_child_write_failure_refuted"
   ],
   "note": "The stronger wish (every failed write is reported) is false: C17_child_write_failure_refuted."
  },
  {
   "property": "C18",
   "status": "proved",
   "theorems": [
    "C18_value_proofs_sound",
    "C18_existence_refuted"
   ],
   "note": "Soundness of value chains under explicit no-collision and domain-separation hypotheses; C18_existence_refuted is the finding that the existence chain's child index is not bound to the Merkle path."
  },
  {
   "property": "C19",
   "status": "proved",
   "theorems": [
    "C19_iterators",
    "C19_key_order_unique",
    "C19_iterate_all_and_marshal",
    "C19_reversed_prefix_keys_refuted"
   ],
   "note": "C19_reversed_prefix_keys_refuted: with keys 0x12 and 0x1200 the reversed iterator skips 0x12."
  },
  {
   "property": "C20",
   "status": "proved",
   "theorems": [
    "C20_count_is_size",
    "C20_clone_count_refuted"
   ],
   "note": "Tries made by Clone/Inherit/NewTrie(root) start counting at 0 (C20_clone_count_refuted)."
  },
  {
   "property": "C21",
   "status": "proved",
   "theorems": [
    "C21_refines",
    "C21_revert_restores",
    "C21_revert_contents",
    "C21_first_checkpoint_discards",
    "C21_first_checkpoint_refuted",
    "C21_long_root_refuted",
    "C21_setto",
    "C21_setto_checkpoints_refuted"
   ],
   "note": "The property as first written (RevertTo(0) restores the contents at checkpoint 0) is false: C21_first_checkpoint_refuted. RevertTo with a root longer than 32 bytes whose tail matches is accepted and loses the contents: C21_long_root_refuted. SetTo is not part of the histories; C21_setto says what is visible after it in any state, and C21_setto_checkpoints_refuted that it keeps the checkpoints of the contents it replaces. The mutex, proofs and iterators of RevertableTrie and RevertableHistoryTree are not modelled here."
  },
  {
   "property": "C22",
   "status": "proved",
   "theorems": [
    "C22_sorted_keys",
    "C22_refines",
    "C22_commit_load",
    "C22_iterator",
    "C22_empty_reload_refuted",
    "C22_root_ignores_keys_refuted"
   ],
   "note": "Two clauses one would expect are false: an empty combined trie cannot be loaded after Commit (C22_empty_reload_refuted), and the root does not depend on the keys, so that committing another combined trie with the same sub-tries replaces the saved keys (C22_root_ignores_keys_refuted). Nil sub-tries, a nil adapter, IsDirty in histories and Marshal are not covered."
  },
  {
   "property": "C23",
   "status": "proved",
   "theorems": [
    "C23_key_nibbles_lossless",
    "C23_prefix_packing_lossless",
    "C23_hex_lossless"
   ],
   "note": ""
  },
  {
   "property": "C24",
   "status": "proved",
   "theorems": [
    "C24_header_round_trip",
    "C24_node_round_trip"
   ],
   "note": ""
  },
  {
   "property": "C25",
   "status": "proved",
   "theorems": [
    "C25_values_that_are_hashes_refuted",
    "C25_history_is_log",
    "C25_in_memory",
    "C25_append_then_call"
   ],
   "note": "C25_history_is_log is the simulation of the whole family by lists; C25_in_memory drops the hash hypotheses; C25_append_then_call spells it out for one tree. hist_ok_ideal shows a large class of histories meeting hist_ok."
  },
  {
   "property": "C26",
   "status": "proved",
   "theorems": [
    "C26_short_values_refuted",
    "C26_proofs_verify"
   ],
   "note": "Stated on the trees reached by any calls, with get_proof, chain_proof and chain_bigkey of the model."
  },
  {
   "property": "C27",
   "status": "proved",
   "theorems": [
    "C27_short_values_refuted",
    "C27_root_of_values",
    "C27_same_values_same_root",
    "C27_root_binds"
   ],
   "note": "C27_root_binds is the converse direction, with the hash hypotheses on exactly the strings hashed."
  },
  {
   "property": "C28",
   "status": "proved",
   "theorems": [
    "C28_serialised",
    "C28_real_time_order",
    "C28_answers_from_the_log",
    "C28_all_calls_return",
    "C28_in_memory_calls_return",
    "C28_has_never_returns",
    "C28_has_blocks_all",
    "C28_has_returns_refuted"
   ],
   "note": "The original claim (Has terminates) is false: C28_has_returns_refuted. Bodies are read then write, so the statements need the lock."
  },
  {
   "property": "C29",
   "status": "proved",
   "theorems": [
    "C29_complete_proof_verifies",
    "C29_compact_proof_verifies",
    "C29_root_without_proof",
    "C29_old_version_agrees"
   ],
   "note": ""
  },
  {
   "property": "C30",
   "status": "proved",
   "theorems": [
    "C30_complete_root_binds",
    "C30_compact_root_binds",
    "C30_length_independent_refuted"
   ],
   "note": "Equal lengths are necessary: C30_length_independent_refuted gives two lists with one root for every hash function."
  },
  {
   "property": "C31",
   "status": "proved",
   "theorems": [
    "C31_serialization_round_trip",
    "C31_nil_round_trip",
    "C31_built_proofs_round_trip",
    "C31_short_reads_refuted",
    "C31_truncation_detected_refuted"
   ],
   "note": "Readers that return short reads, and truncated inputs, are accepted with wrong contents (C31_short_reads_refuted, C31_truncation_detected_refuted)."
  },
  {
   "property": "C32",
   "status": "proved",
   "theorems": [
    "C32_complete_bigkey",
    "C32_compact_bigkey"
   ],
   "note": ""
  },
  {
   "property": "C33",
   "status": "proved",
   "theorems": [
    "C33_memdb",
    "C33_leveldb"
   ],
   "note": ""
  },
  {
   "property": "C34",
   "status": "proved",
   "theorems": [
    "C34_temporary",
    "C34_nested_refuted"
   ],
   "note": "Temporary of a temporary database is the same object, so writes do pass through: C34_nested_refuted."
  },
  {
   "property": "C35",
   "status": "proved",
   "theorems": [
    "C35_cached",
    "C35_has",
    "C35_has_refuted",
    "C35_has_exact",
    "C35_replace",
    "C35_foreign_batch_refuted"
   ],
   "note": "Has answers yes for an absent key that was read before (C35_has_refuted); batches not made by the cached database leave stale entries (C35_foreign_batch_refuted)."
  },
  {
   "property": "C36",
   "status": "proved",
   "theorems": [
    "C36_isolated",
    "C36_prefix_key",
    "C36_rebase",
    "C36_comparable_refuted"
   ],
   "note": "Without incomparability the property is false: C36_comparable_refuted."
  },
  {
   "property": "C37",
   "status": "proved",
   "theorems": [
    "C37_prefixed_batch_never_applies",
    "C37_applied_refuted",
    "C37_own_batch"
   ],
   "note": "The expected behaviour, that an adapter can commit its own batch, is false for every database: C37_prefixed_batch_never_applies, C37_applied_refuted."
  },
  {
   "property": "C38",
   "status": "proved",
   "theorems": [
    "C38_lost_refuted"
   ],
   "note": "The expected behaviour, that all accepted callbacks are written, is false when the last callback returns false: C38_lost_refuted."
  },
  {
   "property": "C39",
   "status": "proved",
   "theorems": [
    "C39_encoding",
    "C39_round_trip",
    "C39_injective",
    "C39_checked",
    "C39_range_refuted",
    "C39_overflow_refuted",
    "C39_empty_static_refuted",
    "C39_canonical_refuted",
    "C39_normalise"
   ],
   "note": "Refuted without the restrictions: C39_range_refuted (out-of-range big ints are packed modulo 2^256), C39_overflow_refuted, C39_empty_static_refuted, C39_canonical_refuted (different data decode to the same values)."
  },
  {
   "property": "C40",
   "status": "proved",
   "theorems": [
    "C40_unpack_total",
    "C40_wide_bytes_refuted"
   ],
   "note": "bytesN with N > 32 panics: C40_wide_bytes_refuted."
  },
  {
   "property": "C41",
   "status": "proved",
   "theorems": [
    "C41_sizes",
    "C41_wide_bytes_refuted"
   ],
   "note": ""
  },
  {
   "property": "C42",
   "status": "proved",
   "theorems": [
    "C42_make_topic",
    "C42_round_trip",
    "C42_injective",
    "C42_hashed",
    "C42_rejects",
    "C42_negative_refuted",
    "C42_oversize_refuted",
    "C42_function_refuted"
   ],
   "note": "Negative *big.Int topics lose the sign (C42_negative_refuted), too-large ones panic (C42_oversize_refuted), function topics are not parsed back (C42_function_refuted)."
  },
  {
   "property": "C43",
   "status": "proved",
   "theorems": [
    "C43_event_of_topic",
    "C43_indexed_first",
    "C43_interleaved_refuted",
    "C43_indexed_dynamic_refuted"
   ],
   "note": "The unrestricted wish is refuted for every interleaved pattern (C43_interleaved_refuted) and for leading indexed strings (C43_indexed_dynamic_refuted)."
  },
  {
   "property": "C44",
   "status": "proved",
   "theorems": [
    "C44_accepts",
    "C44_inverts",
    "C44_total",
    "C44_strict_refuted"
   ],
   "note": "The wish that only well-formed signatures are accepted is refuted (C44_strict_refuted)."
  },
  {
   "property": "C45",
   "status": "proved",
   "theorems": [
    "C45_fresh",
    "C45_suffixes_differ",
    "C45_documented_refuted"
   ],
   "note": "The doc comment's example (send2) is refuted: C45_documented_refuted."
  },
  {
   "property": "C46",
   "status": "proved",
   "theorems": [
    "C46_U256",
    "C46_S256_inverse",
    "C46_Exp",
    "C46_exp_keeps_base_refuted",
    "C46_PaddedBigBytes",
    "C46_ReadBits",
    "C46_Byte",
    "C46_U256Bytes",
    "C46_FirstBitSet",
    "C46_max_min_pow"
   ],
   "note": "Exp overwrites the caller's base (C46_exp_keeps_base_refuted)."
  },
  {
   "property": "C47",
   "status": "proved",
   "theorems": [
    "C47_SafeAdd_exact",
    "C47_SafeSub_exact",
    "C47_SafeMul_exact"
   ],
   "note": ""
  },
  {
   "property": "C48",
   "status": "proved",
   "theorems": [
    "C48_uint64",
    "C48_big",
    "C48_bytes",
    "C48_round_trip",
    "C48_injective",
    "C48_unmarshal_text",
    "C48_unmarshal_fixed",
    "C48_json",
    "C48_from_hex",
    "C48_from_hex_value",
    "C48_negative_refuted"
   ],
   "note": "Negative big integers are encoded with a leading minus sign that no decoder accepts, against the documentation: C48_negative_refuted."
  },
  {
   "property": "C49",
   "status": "proved",
   "theorems": [
    "C49_split_height",
    "C49_to_height",
    "C49_epoch_bounds",
    "C49_first_last",
    "C49_era",
    "C49_remove_remainder",
    "C49_height_bytes",
    "C49_chain_id_bytes",
    "C49_nil_height",
    "C49_useful"
   ],
   "note": ""
  },
  {
   "property": "C50",
   "status": "proved",
   "theorems": [
    "C50_compare_total_order",
    "C50_instances",
    "C50_diff",
    "C50_pointer_cmp"
   ],
   "note": ""
  },
  {
   "property": "C51",
   "status": "proved",
   "theorems": [
    "C51_order_irrelevant",
    "C51_shard_is_member",
    "C51_too_many",
    "C51_power_of_two",
    "C51_same_prefix_same_shard",
    "C51_even",
    "C51_256_shards_second_byte",
    "C51_leading_bits_refuted",
    "C51_pos",
    "C51_pos_with_nil_refuted",
    "C51_shard_info"
   ],
   "note": "The documented leading-bits rule fails for 256 shards (C51_leading_bits_refuted); Pos fails when the nil chain id is a shard (C51_pos_with_nil_refuted)."
  },
  {
   "property": "C52",
   "status": "proved",
   "theorems": [
    "C52_gas_pool_ideal",
    "C52_gas_steps"
   ],
   "note": ""
  },
  {
   "property": "C53",
   "status": "proved",
   "theorems": [
    "C53_hooks_in_order",
    "C53_status",
    "C53_errors",
    "C53_at_most_once_refuted",
    "C53_failed_hook_advances",
    "C53_failed_hook_keeps_state_refuted"
   ],
   "note": "Hooks can run more than once (restart after stop) and a failing hook still advances the state: C53_at_most_once_refuted, C53_failed_hook_keeps_state_refuted."
  },
  {
   "property": "C54",
   "status": "proved",
   "theorems": [
    "C54_lru",
    "C54_deterministic",
    "C54_insertion_order_refuted"
   ],
   "note": "The cache of golang-lru is modelled from its documented behaviour. Insertion-order eviction is refuted: C54_insertion_order_refuted."
  },
  {
   "property": "C55",
   "status": "proved",
   "theorems": [
    "C55_pad",
    "C55_pad_value",
    "C55_fixed",
    "C55_concatenate",
    "C55_split",
    "C55_split_join",
    "C55_split_panics",
    "C55_intersection",
    "C55_intersection_map",
    "C55_slice_equal"
   ],
   "note": ""
  },
  {
   "property": "C56",
   "status": "proved",
   "theorems": [
    "C56_ShiftBits",
    "C56_SubBytes"
   ],
   "note": ""
  },
  {
   "property": "C57",
   "status": "proved",
   "theorems": [
    "C57_set_semantics",
    "C57_index",
    "C57_sorter_exists",
    "C57_second_delete_wrong_id",
    "C57_second_delete_panics",
    "C57_listing_exact_refuted",
    "C57_node_ids"
   ],
   "note": "The unrestricted property is false: the second deletion can remove the wrong id (C57_second_delete_wrong_id) or panic (C57_second_delete_panics), and listings contain extra zero ids (C57_listing_exact_refuted)."
  },
  {
   "property": "C58",
   "status": "proved",
   "theorems": [
    "C58_new_validates",
    "C58_rejected_iff",
    "C58_new_always_validates_refuted",
    "C58_validate_iff"
   ],
   "note": "The unconditional wish is refuted: C58_new_always_validates_refuted."
  },
  {
   "property": "C59",
   "status": "proved",
   "theorems": [
    "C59_version_round_trip",
    "C59_version_order"
   ],
   "note": ""
  },
  {
   "property": "C60",
   "status": "proved",
   "theorems": [
    "C60_with_field",
    "C60_one_field",
    "C60_keeps_every_field_refuted"
   ],
   "note": "The documented behaviour (all pairs attached) is refuted: C60_keeps_every_field_refuted."
  },
  {
   "property": "C61",
   "status": "proved",
   "theorems": [
    "C61_shares_cover_epoch",
    "C61_empty_committee_panics"
   ],
   "note": ""
  },
  {
   "property": "C62",
   "status": "proved",
   "theorems": [
    "C62_compression_lossless",
    "C62_isvalid_accepts_built_refuted"
   ],
   "note": "MoreTimes.IsValid rejects repeats at index 0 that Append builds (C62_isvalid_accepts_built_refuted); IsValid is not called by the package."
  },
  {
   "property": "C63",
   "status": "proved",
   "theorems": [
    "C63_complete_proof_sound",
    "C63_compact_proof_sound"
   ],
   "note": ""
  },
  {
   "property": "C64",
   "status": "proved",
   "theorems": [
    "C64_address_range",
    "C64_out_of_range",
    "C64_bit",
    "C64_last_bit_compared_refuted"
   ],
   "note": "The documented meaning of index (last bit compared) is refuted: C64_last_bit_compared_refuted."
  },
  {
   "property": "C65",
   "status": "proved",
   "theorems": [
    "C65_watched_heights",
    "C65_cas_is_max"
   ],
   "note": ""
  },
  {
   "property": "C66",
   "status": "proved",
   "theorems": [
    "C66_closed_batch_refuted",
    "C66_close",
    "C66_acknowledged"
   ],
   "note": "False for the batch commit of a closed leveldb database, which reports success and drops the batch: C66_closed_batch_refuted."
  },
  {
   "property": "C67",
   "status": "proved",
   "theorems": [
    "C67_readonly",
    "C67_get_nil_error"
   ],
   "note": ""
  },
  {
   "property": "C68",
   "status": "proved",
   "theorems": [
    "C68_batch_putter",
    "C68_zero_modulus_panics"
   ],
   "note": ""
  },
  {
   "property": "C69",
   "status": "proved",
   "theorems": [
    "C69_own_proofs_accepted",
    "C69_accepted_proof_sound",
    "C69_any_depth_refuted"
   ],
   "note": "C69_any_depth_refuted: an inner hash is accepted as a value, for every hash function."
  },
  {
   "property": "C70",
   "status": "proved",
   "theorems": [
    "C70_encode",
    "C70_nil_pointer",
    "C70_encode_fails",
    "C70_decode_iff",
    "C70_decode_total",
    "C70_round_trip",
    "C70_injective",
    "C70_clean_encodes",
    "C70_canonical",
    "C70_stable",
    "C70_canonical_with_optional_refuted",
    "C70_stable_without_nil_exact_refuted",
    "C70_nil_pointer_round_trip_refuted",
    "C70_nil_big_round_trip_refuted",
    "C70_nil_tag_own_encoding_refuted",
    "C70_nil_tag_loses_empty_refuted"
   ],
   "note": "Types with their own EncodeRLP/DecodeRLP are outside. Findings: C70_canonical_with_optional_refuted, C70_stable_without_nil_exact_refuted, C70_nil_pointer_round_trip_refuted, C70_nil_big_round_trip_refuted, C70_nil_tag_own_encoding_refuted, C70_nil_tag_loses_empty_refuted."
  },
  {
   "property": "C71",
   "status": "proved",
   "theorems": [
    "C71_fifo",
    "C71_exactly_once",
    "C71_no_workfunc",
    "C71_width",
    "C71_priority",
    "C71_stop",
    "C71_stop_returns",
    "C71_no_panic",
    "C71_start_once_no_panic",
    "C71_key_counts",
    "C71_drains",
    "C71_post_progress",
    "C71_high_always_first_refuted",
    "C71_restart_refuted",
    "C71_stop_handles_all_refuted",
    "C71_post_completes_refuted"
   ],
   "note": "Four tempting clauses are false and are shown so: a low event may be taken while a high one waits (C71_high_always_first_refuted), a pool started again after Stop panics (C71_restart_refuted), events still queued at Stop are never handled (C71_stop_handles_all_refuted), a Post to a stopped pool with a full queue blocks for ever (C71_post_completes_refuted). Not modelled: what workFunc does to the pool itself, a workFunc that panics, the unlocked read of the map KeyCount returns, the logging goroutine."
  },
  {
   "property": "C72",
   "status": "proved",
   "theorems": [
    "C72_cached",
    "C72_temporary",
    "C72_memdb",
    "C72_memdb_batch_refuted",
    "C72_cached_alone",
    "C72_temporary_alone",
    "C72_no_deadlock",
    "C72_no_deadlock_temporary",
    "C72_all_calls_return",
    "C72_mutex"
   ],
   "note": "Batch of a memory database is not atomic for other threads: C72_memdb_batch_refuted. C72_cached_alone and C72_temporary_alone tie the micro-steps to the sequential model of C33-C35. C72_mutex is the general fact for objects whose methods all take one mutex. Modelled lock: sync.RWMutex with writer preference. Not modelled: Close and Replace racing with reads, the statistics counters, NewBatch, other users of the database below."
  },
  {
   "property": "C73",
   "status": "proved",
   "theorems": [
    "C73_registry",
    "C73_answers",
    "C73_nested",
    "C73_last_block"
   ],
   "note": "The maps start empty, as the package variables do; addresses are byte strings of any length."
  },
  {
   "property": "C74",
   "status": "proved",
   "theorems": [
    "C74_data_nodes",
    "C74_data_nodes_fresh",
    "C74_sort",
    "C74_unsorted_refuted",
    "C74_auditors"
   ],
   "note": "A list that is not in ascending order (decoded from elsewhere, say) is searched wrongly: C74_unsorted_refuted."
  },
  {
   "property": "C75",
   "status": "proved",
   "theorems": [
    "C75_boot_nodes",
    "C75_sorter_exists",
    "C75_case_refuted",
    "C75_compare",
    "C75_hash_fields",
    "C75_hash_refuted",
    "C75_after_sort_refuted",
    "C75_after_sort",
    "C75_boot_sorter_exists"
   ],
   "note": "Findings: upper-case names (C75_case_refuted), servers of different chains after Sort (C75_after_sort_refuted), colliding HashValue (C75_hash_refuted)."
  },
  {
   "property": "C76",
   "status": "proved",
   "theorems": [
    "C76_attributes"
   ],
   "note": "A nil receiver (ErrNil) is not modelled."
  },
  {
   "property": "C77",
   "status": "proved",
   "theorems": [
    "C77_describes",
    "C77_total",
    "C77_text",
    "C77_text_determines_type",
    "C77_signatures_differ",
    "C77_selector",
    "C77_field_names",
    "C77_strict_refuted"
   ],
   "note": "NewType is not strict: C77_strict_refuted. Unicode field names and the size limit of reflect.ArrayOf and StructOf are parameters. fixedMxN types are rejected by the code. C77_text: outside tuples the text of a type is the text it was made from."
  },
  {
   "property": "C78",
   "status": "proved",
   "theorems": [
    "C78_accepts",
    "C78_decoded",
    "C78_methods",
    "C78_events",
    "C78_others",
    "C78_stable",
    "C78_total",
    "C78_reuse",
    "C78_reuse_refuted",
    "C78_method_by_id",
    "C78_event_by_id",
    "C78_ids",
    "C78_call",
    "C78_constructor_call",
    "C78_ambiguous_refuted",
    "C78_shared_iff",
    "C78_shared_refuted",
    "C78_returns",
    "C78_event_args",
    "C78_input_map",
    "C78_returns_map",
    "C78_map_refuses",
    "C78_shadow_refuted",
    "C78_no_outputs_refuted",
    "C78_empty_refuted",
    "C78_unnamed_refuted",
    "C78_event_pack_refuted",
    "C78_revert",
    "C78_error"
   ],
   "note": "Findings as _refuted theorems: duplicate signatures make MethodById depend on map order, call data without arguments share memory with the method id, events shadow methods in Unpack, entries without outputs are not found, empty argument lists are refused by InputUnpack and UnpackReturnsMap, unnamed arguments overwrite each other in maps, PackEventArgs fails when all arguments are indexed, reading into a used ABI keeps its constructor. JSON text decoding and copying into user structs are not modelled."
  },
  {
   "property": "C79",
   "status": "proved",
   "theorems": [
    "C79_accepts",
    "C79_pairs",
    "C79_injective",
    "C79_untagged",
    "C79_copy_ok",
    "C79_copy",
    "C79_take",
    "C79_round_trip",
    "C79_generated",
    "C79_same_name_refuted",
    "C79_same_camel_refuted",
    "C79_order_refuted"
   ],
   "note": "Findings as _refuted theorems: NewType accepts tuples whose component names collide: equal names make packing read one field twice, names equal in camel case make every packing fail; acceptance depends on the order of arguments. Conversions between value types (set) are a parameter."
  },
  {
   "property": "C80",
   "status": "proved",
   "theorems": [
    "C80_refines",
    "C80_isolation",
    "C80_rollback",
    "C80_nil_refuted",
    "C80_unsaved_refuted"
   ],
   "note": "Same hypotheses on hash and values as C25. Findings: without a tree Get and Commit panic (C80_nil_refuted); PreCommit returns an unsaved root when the tree handed over had uncommitted values (C80_unsaved_refuted). Has, MergeProof, Rebase and String are not modelled."
  },
  {
   "property": "C81",
   "status": "proved",
   "theorems": [
    "C81_chop",
    "C81_one_call",
    "C81_commit_refuted",
    "C81_uncommitted_refuted"
   ],
   "note": "Hypotheses on hash and values as in C25, and the list had been committed. The calls after the Chop on the new tree are reads and appends, or anything once the first call on it is an append, or anything if k is the last key. Findings: CommitAndHash straight after Chop saves nothing (C81_commit_refuted); Chop of uncommitted values can lose them (C81_uncommitted_refuted)."
  },
  {
   "property": "C82",
   "status": "proved",
   "theorems": [
    "C82_restore",
    "C82_extend",
    "C82_unchecked_refuted",
    "C82_other_key_refuted",
    "C82_not_last_refuted",
    "C82_get_spoils_refuted",
    "C82_commit_refuted"
   ],
   "note": "Hypotheses on hash and values as in C25. Findings: nothing is compared with a root (C82_unchecked_refuted); keys other than the restored one are absent without an error (C82_other_key_refuted); from a key that is not the last one the tree takes a second value for the next key (C82_not_last_refuted); Get of an absent key makes later hashing fail (C82_get_spoils_refuted); the root a Commit returns cannot be opened with the check (C82_commit_refuted)."
  },
  {
   "property": "C83",
   "status": "proved",
   "theorems": [
    "C83_new",
    "C83_clone_apart",
    "C83_add",
    "C83_sub",
    "C83_mul",
    "C83_div",
    "C83_mulrat",
    "C83_set",
    "C83_addints",
    "C83_sub_floor",
    "C83_sign",
    "C83_compare",
    "C83_compare_nil_refuted",
    "C83_uint64",
    "C83_zero_uint64_refuted",
    "C83_program",
    "C83_program_determined",
    "C83_addints_alias_refuted",
    "C83_receiver_changes_refuted",
    "C83_mul_zero_receiver_refuted",
    "C83_hex",
    "C83_hex_nil_refuted"
   ],
   "note": "In the program theorem variables start without sharing a number and AddInts does not get its receiver as an argument. Findings: AddInts given its receiver adds the changed value (C83_addints_alias_refuted); Compare puts nil below negative numbers (C83_compare_nil_refuted); ToUint64 of nil is refused, of zero it is not (C83_zero_uint64_refuted); a result stored elsewhere changes the receiver (C83_receiver_changes_refuted), unless it is a product with zero (C83_mul_zero_receiver_refuted); HexString of nil panics (C83_hex_nil_refuted)."
  },
  {
   "property": "C84",
   "status": "proved",
   "theorems": [
    "C84_merge",
    "C84_sound",
    "C84_keys",
    "C84_paired_block_refuted"
   ],
   "note": "The hash is assumed injective only on the inputs met in the tree and in the offered proof; a value is not the hash of nothing. Finding: a proof of a key in the other block of a pair with a known key is reported as merged, but the key cannot be read (C84_paired_block_refuted)."
  },
  {
   "property": "C85",
   "status": "proved",
   "theorems": [
    "C85_uint64",
    "C85_big256",
    "C85_round_trip",
    "C85_too_big",
    "C85_print",
    "C85_print_value",
    "C85_print_both",
    "C85_hex_negative_refuted",
    "C85_sign_place_refuted"
   ],
   "note": "strconv.ParseUint, big.Int.SetString and fmt are modelled as documented. Findings: HexOrDecimal256 does not read back the negative numbers it prints (C85_hex_negative_refuted), the sign it reads stands after 0x (C85_sign_place_refuted)."
  },
  {
   "property": "C86",
   "status": "proved",
   "theorems": [
    "C86_float",
    "C86_ceil",
    "C86_floor",
    "C86_mul",
    "C86_near",
    "C86_refused",
    "C86_floor_negative_refuted",
    "C86_precision_refuted",
    "C86_mul_precision_refuted",
    "C86_limit_refuted"
   ],
   "note": "big.Rat.Float64 is modelled as rounding to the nearest binary64 number, ties to even, and proved to be so against a separate definition (C86_float). Findings: the floor of negative numbers is rounded up, above 2^53 the smallest integer is missed, 2^63 - 1 passes the range check (C86_floor_negative_refuted, C86_precision_refuted, C86_mul_precision_refuted, C86_limit_refuted)."
  },
  {
   "property": "C87",
   "status": "proved",
   "theorems": [
    "C87_bytes",
    "C87_set",
    "C87_set_short_refuted",
    "C87_big",
    "C87_address_hash",
    "C87_hex_value",
    "C87_is_hex_address",
    "C87_hex_round_trip",
    "C87_text",
    "C87_node_text",
    "C87_strings",
    "C87_node_list",
    "C87_order",
    "C87_rlp_form",
    "C87_rlp_zero_refuted",
    "C87_create",
    "C87_public_key"
   ],
   "note": "Findings: SetBytes with fewer bytes than the value holds keeps the old leading bytes (C87_set_short_refuted); the zero address and the zero hash become nil on the way through ForRLP and FromRLP (C87_rlp_zero_refuted)."
  },
  {
   "property": "C88",
   "status": "proved",
   "theorems": [
    "C88_header_index",
    "C88_hash_equals",
    "C88_ripemd_refuted"
   ],
   "note": "Finding: HashRipemd160 does not hash its argument: it returns the argument followed by the hash of the empty string (C88_ripemd_refuted)."
  },
  {
   "property": "C89",
   "status": "proved",
   "theorems": [
    "C89_complete",
    "C89_refused",
    "C89_frozen",
    "C89_exclusive",
    "C89_finishes",
    "C89_recursive_refuted"
   ],
   "note": "Finding: whether a recursive type that is not supported is refused depends on what was used before. With type T struct { Next []T; C chan int }, decoding into []T first is refused; after a (refused) decoding into T it is not, and calls a nil function (C89_recursive_refuted)."
  },
  {
   "property": "C90",
   "status": "proved",
   "theorems": [
    "C90_bytes",
    "C90_short_writer",
    "C90_item"
   ],
   "note": "WriteBigInt ignores the sign, as documented; item_of says so with the absolute value."
  },
  {
   "property": "C91",
   "status": "proved",
   "theorems": [
    "C91_isolated",
    "C91_encoder",
    "C91_reset",
    "C91_reader",
    "C91_copied_refuted"
   ],
   "note": "Finding: an EncoderBuffer that is copied and flushed in both copies puts its buffer into the pool twice, and two innocent goroutines share it from then on (C91_copied_refuted)."
  },
  {
   "property": "C92",
   "status": "proved",
   "theorems": [
    "C92_dump",
    "C92_rebase",
    "C92_dirty_or_empty",
    "C92_empty_key_refuted",
    "C92_rebase_empty_refuted"
   ],
   "note": "For tries opened from a root hash (NewTrie, Clone, Inherit) whose nodes come from the database. Assumes no node hash is the zero hash or the hash of no bytes (InvalidHash skips such nodes) and no value has an empty encoding (Dump does not copy those). Findings: a key of length zero is reported twice (C92_empty_key_refuted); Rebase alone moves no data (C92_rebase_empty_refuted)."
  },
  {
   "property": "C93",
   "status": "proved",
   "theorems": [
    "C93_process_fields",
    "C93_tags_ok",
    "C93_hidden",
    "C93_default_nil",
    "C93_tail_before_ignored_refuted"
   ],
   "note": "The value of the rlp key is given (reflect.StructTag.Get is not modelled); ASCII white space only; error texts left out. Finding: an ignored exported field behind a tail field is refused (C93_tail_before_ignored_refuted)."
  },
  {
   "property": "C94",
   "status": "proved",
   "theorems": [
    "C94_encode",
    "C94_encode_same",
    "C94_decode",
    "C94_decode_nil_tags",
    "C94_decode_iff",
    "C94_decode_total",
    "C94_round_trip",
    "C94_empty_optional_refuted",
    "C94_nil_not_consumed_refuted",
    "C94_nil_shifts_fields_refuted",
    "C94_other_nil_refuted"
   ],
   "note": "The meaning of the printed statements is modelled, not the text. Types with their own methods, RawValue, and what does not compile (string fields in decoders: rlp.Stream has no String method; comparisons of structs with slices) are left out. Findings: empty optional slices are dropped (C94_empty_optional_refuted); nil tags are decoded wrongly (C94_nil_not_consumed_refuted, C94_nil_shifts_fields_refuted, C94_other_nil_refuted)."
  },
  {
   "property": "C95",
   "status": "proved",
   "theorems": [
    "C95_tests",
    "C95_unique",
    "C95_header_sound",
    "C95_hds_sound",
    "C95_complete",
    "C95_constructors",
    "C95_property_of_refuted",
    "C95_path_length_refuted"
   ],
   "note": "The layout of headers and summaries (they are built outside this repository) is the one described in the comments of trie/proof.go. Findings: IsHeaderPropertyOf rejects every proof that IsHeaderOf accepts (C95_property_of_refuted); the length of the path is not bound (C95_path_length_refuted)."
  },
  {
   "property": "C96",
   "status": "proved",
   "theorems": [
    "C96_to_merkles",
    "C96_verdict",
    "C96_bigkey",
    "C96_repeats_equal",
    "C96_equal",
    "C96_canonical"
   ],
   "note": "Chains with nil elements are not modelled. A nil Repeats is not Equal to an empty one (C96_repeats_equal); the model of proofs takes an empty one as nil, which it is unless read from JSON."
  },
  {
   "property": "C97",
   "status": "proved",
   "theorems": [
    "C97_map",
    "C97_map_and_root",
    "C97_all_calls_return",
    "C97_answers",
    "C97_collapse_refuted"
   ],
   "note": "A method body runs in two micro-steps inside the mutex (reads, then writes). Count, IsEmpty and iterators read without the mutex and are not part of the histories. C97_map_and_root assumes that the hash does not collide on the strings hashed for contents some order of the calls goes through, and that the database does not fail."
  },
  {
   "property": "C98",
   "status": "proved",
   "theorems": [
    "C98_clone",
    "C98_pub",
    "C98_addr",
    "C98_agree",
    "C98_other_keys",
    "C98_nil"
   ],
   "note": "Memory is modelled for the slices of a description; the fields without references are one value. C98_agree assumes for its second half that the last 20 bytes of the hash do not collide on the keys concerned."
  },
  {
   "property": "C99",
   "status": "proved",
   "theorems": [
    "C99_add",
    "C99_from_map",
    "C99_to_from_map",
    "C99_receiver_refuted",
    "C99_assigned_refuted"
   ],
   "note": "C99_add refers to Attrs_Add, the model on lists of which C76 proves that it is the sorted union. sort.Sort is modelled by its result."
  },
  {
   "property": "C100",
   "status": "proved",
   "theorems": [
    "C100_calls",
    "C100_set",
    "C100_held",
    "C100_listed_refuted",
    "C100_listed_run_refuted"
   ],
   "note": "Refinement of the list model of C74 to memory. Of Sort only the data nodes are modelled here."
  },
  {
   "property": "C101",
   "status": "proved",
   "theorems": [
    "C101_clone",
    "C101_seen_once",
    "C101_parts"
   ],
   "note": "Memory as in C98; a pointer is a reference to the array of the fields. Cyclic structures are excluded: what is seen is a finite tree."
  },
  {
   "property": "C102",
   "status": "proved",
   "theorems": [
    "C102_binds",
    "C102_nil_child",
    "C102_other_lengths_refuted"
   ],
   "note": "The hash function is assumed to have no collision on the three strings concerned."
  },
  {
   "property": "C103",
   "status": "proved",
   "theorems": [
    "C103_logs",
    "C103_all_calls_return"
   ],
   "note": "The answers are those of the lists if the calls, in the order found, meet the conditions of C80 (no collision, 32-byte values, keys below 2^64). The method bodies run in two steps: a read and a write of the trees."
  }
 ]
}
