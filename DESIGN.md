# Formal model of ThinkiumGroup/go-common in Rocq (Coq 8.16.1)

## 1. Shape of the development

Every module of the repository that is modelled gets up to three kinds of files in
`rocq/theories`:

* `*Model.v`  - total, computable Gallina functions, one per Go function, each with a
  comment `(* file.go:lines ... *)` and a note about every simplification. No proofs.
* `*Spec.v`   - (only where needed) small independent specifications, written without
  looking at the code's helpers: recursive RLP, maps, arithmetic.
* `*Proofs.v` - lemmas.
* `*Props.v`  - the property theorems only, each closed by `exact some_lemma`, with
  `Print Assumptions` under it and non-vacuity `Example`s next to it.

Common conventions

* A byte is an `N`; `is_bytes l` says all elements are below 256. Byte strings / slices are
  `list N`. `nil` slices are distinguished from empty ones (`option (list N)`) only where
  the code distinguishes them.
* Go errors are values (`inl err` / `inr v`, or `option`), panics are a separate explicit
  outcome wherever the code can panic.
* 64-bit arithmetic is modelled with explicit `mod 2^64` where wrap-around is reachable.
* The hash function (Keccak-256) is a parameter `H : list N -> list N`. Nothing about it is
  assumed globally (a globally injective 32-byte hash does not exist, so such a hypothesis
  would be vacuous). Binding theorems have the form "equal roots imply equal contents or two
  *different inputs that were really hashed in these two computations* have equal hashes".
  Where needed: `forall x, length (H x) = 32`.
* External libraries (goleveldb, hashicorp LRU, go-rtl, logrus, math/big, reflect) are not modelled
  internally; `math/big` is `Z`/`N`, databases are an abstract map or a parameter, LRU eviction
  is an arbitrary adversarial choice.
* Where the full statement of a property is false of the faithful model, a theorem
  `..._refuted` exhibits the witness and a theorem with the exact extra hypothesis is proved
  beside it. These are listed in section 4 (findings).

## 2. Plan per property

| id | model | proof |
|----|-------|-------|
| C01,C02,C04 | `rlp` Stream decoder as a state machine (remaining input, list-size stack, kind cache) + decodeInterface; encoder writes | round trip by induction on the value tree; canonicity by induction on fuel of the decoder |
| C03 | encBuffer with `str`, `lheads`, `lhsize`; `list/listEnd/copyTo` | invariant: flushing the buffer = recursive encoding |
| C05-C08 | raw.go functions over lists; iterator as step function | direct, case analysis on header byte; iterator on malformed input refuted |
| C06,C09 | putint/intsize/AppendUint64/readUint; big ints as minimal byte strings | arithmetic on base-256 digits |
| C10-C15,C20 | trie nodes as an inductive tree with cached hashes, collapsed references and dirty flags; insert/delete/get/expand/commit follow trie.go | canonical-form invariant + abstraction to a map; history independence from uniqueness of canonical forms; C11 refuted by witness |
| C13 | hash inputs of a node are collected explicitly | collision extraction by induction |
| C16,C18 | MakeProof / ProofChain | induction along the path; C18 refuted for every hash function |
| C17 | store with failures | refuted by witness; proved for failure of the root write |
| C19 | iterator as stack machine | enumerates the in-order list of the tree |
| C21 | RevertableTrie as state machine over abstract tries | invariant over histories; checkpoint 0 refuted |
| C22 | sorted key list + map | refinement to a map |
| C23,C24 | nibble conversion, header bit masks | induction; finite sweep lifted for masks |
| C25-C28 | history tree: 16-ary, 4-level binary per node | refinement to a list; Merkle structure; Has modelled with a non-reentrant lock |
| C29-C32 | MerkleHashComplete/MerkleProofs layer by layer | induction over layers |
| C33-C38 | maps, overlay, cache with adversarial eviction, adapters, BatchWrite loop | refinement to maps; C35(Has), C37, C38 refuted + corrected |
| C39-C43 | ABI types/values as inductive types, pack/toGoType with offsets | mutual induction with a frame lemma on offsets; bounds safety via explicit panic outcome |
| C44,C45 | parser over character lists; fresh-name search | grammar round trip; pigeonhole for termination |
| C46-C48 | Z arithmetic, two's complement, hex digits | number theory over Z |
| C49-C61 | direct models of the small functions | arithmetic, induction, set/map reasoning |
| C62,C63 | MerkleProofs with its run-length coded repeats and bit path | list expansion invariant; induction along the path with collision extraction |
| C64,C65 | AddressShard bit ranges; LastBlockMap as a state machine | bitwise reasoning; invariant over histories |
| C66,C67 | same database model as C33-C38, with closed databases | refinement: reported success iff the view changed as asked |
| C68 | BatchPutter over a pool of tries | the batch is a fold of puts |
| C69 | ProofChain.HistoryProof over the history tree of C25 | soundness by folding the siblings against the unique path of the tree |
| C70 | `rlp` makeWriter and makeDecoder: a type is a tree (`rty`), a value a tree (`rval`), writers fill the encbuf of C03, decoders run on the Stream of C01 | writers and decoders related to a value<->item map by mutual induction on types and field lists; C04 for uniqueness |
| C71 | `routinepool.go`: goroutines, queues, quit channel, wait group, mutex and clients as one state; an execution is a list of atomic actions (select cases, sends, beginning and end of workFunc) | invariants over all executions: conservation of events, life-cycle phases, key counts; priority by looking back through the execution |
| C72 | `db/cacheddb.go`, `db/readonly.go`, `db/memdb.go` with their locks: threads run micro-steps (one access to cache, map or database below) under a `sync.RWMutex` (LockModel.v); histories record calls and returns | generic theorem: linearize each call at its last micro-step, invariants for readers and for the writer; termination measure for progress |
| C73 | the address registry and LastBlockMap of `basic.go` on the same lock model | instances of the generic theorem, registry related to the list of registrations |
| C74 | data nodes and auditors of `chaininfo.go`: sorted lists searched with sort.Search | set semantics by induction over the calls, invariant: strictly ascending |
| C75 | boot nodes of `chaininfo.go`: sort.Slice is a parameter with its contract | map semantics by induction over the calls; hex encoding preserves the order of byte strings |
| C76 | attribute lists of `chaininfo.go` | induction over the attributes added |
| C77 | `abi/type.go` NewType with its two regular expressions, ToCamelCase, signatures of methods, events and errors | types as trees with dimensions (AbiTypeSpec.v), induction over the tree; unique parsing of the canonical text; composition with C44 |
| C78 | `abi/abi.go` (reading entries, Pack/Unpack by name, lookups by id, reverts), `method.go` NewMethod, `event.go` NewEvent, `error.go` | maps as finite maps, iteration order as any permutation; invariants over the entries read; composition with C39, C40, C45, C77 |
| C79 | `abi/reflect.go` mapArgNamesToStructFields, `argument.go` copyTuple, `thinkium.go` copyTupleEvent, `type.go` tuple packing by name | two rounds over finite maps; exact conditions by invariants of both rounds; composition with C77 |
| C80 | `trie/revertable.go` RevertableHistoryTree | committed and working tree of HistModel.v over one store; refinement to two lists by simulation over all call sequences, reusing the representation of C25 |
| C81 | `trie/historytree.go` Chop | the loop along the key and the branch rule, on the trees of HistModel.v; the result is, up to dirty marks (HistSimProofs.v), a representation of the prefix; run refinement to lists with a new list `take (k+1)` |
| C82 | `trie/historytree.go` RestoreTreeFromProofs | the nodes built along the key from the items of the proof; the result is a part of a representation of the list (HistPartProofs.v: nodes off the path may be missing if their hash is there), and the calls asked for do not look at what is missing |
| C83 | `math/big.go` BigInt | memory as a list of integers, pointers as indexes or nil; per method what it returns and that only the receiver changes; programs by refinement to integer variables (BigIntSpec.v) |
| C84 | `trie/historytree.go` MergeProof | invariant: every node that holds something agrees with the layers of the list, the known keys are on complete paths and the only gaps are next to them; an offer is folded to the root and back (HistMergeSpec.v) |
| C85 | `math/integer.go`, `math/big.go` text forms | digits in positional notation and decimals with exponent as functions on text (TextSpec.v); loops with overflow checks by induction over the text |
| C86 | `math/big.go:350-354,408-427` | binary64 numbers as integers over 2^1074, nearest number without reference to the code (RatSpec.v); error bound of the rounding, integers as fixed points |
| C87 | `basic.go:277-460,1170-1720` | values of n bytes as big-endian numbers modulo 256^n (FixedSpec.v); hexadecimal text through C48 and TextSpec.v; contract inputs through C01 |
| C88 | `hash.go:751-754,1007-1053` | the hashed buffer as a concatenation of fixed-size parts |
| C89 | `rlp/typecache.go:49-119,182-185` | goroutines as small-step programs over the current map, the copy that is filled, the entries and the mutex; what a type looks up is a parameter; invariant: every published entry is finished and leads to published entries, every unfinished one is on the stack of the generation; termination by the number of types not seen yet |
| C90 | `rlp/encbuffer.go:82-104,366-424` | documents of values, raw bytes and lists; every method adds strings and headers that copy out to the encoding; writeTo is that output cut off where the destination fails |
| C91 | `rlp/encbuffer.go:36-51,230-258,295-363`, `rlp/encode.go:61-102` | goroutines over a heap of buffers and a pool whose choices are arbitrary; simulation of each goroutine by itself alone, with a map from its own buffers to those it really has; the maps of all goroutines and the pool stay disjoint |
| C92 | `trie/trie.go:180-202,965-1045`, `trie/iterator.go:147-203`, `hash.go:1014-1017` | the node iterator as a stack machine over expanding nodes, a source and a destination store with failing writes; invariant of the walk from C19, every node visited has its bytes in the destination, so the tree is stored there |
| C93 | `rlp/internal/rlpstruct/rlpstruct.go:30-213` | the tag parser over bytes against a declarative reading of tags (a word between commas and blanks); acceptance is an equivalence, the result is characterised, and it satisfies `tags_ok`, the assumption of the struct theorems |
| C94 | `rlp/rlpgen/gen.go:160-760`, `types.go:65-93`, `rlp/decode.go:660-687,834-837` | the statements that the generator prints, as functions on the encoder buffer and the stream of the RLP model; the writer is shown to be exact against `to_item`, the decoder is simulated step by step by the reflection decoder |
| C95 | `trie/proof.go:151-171,250-266,559-603`, `hash.go:1040-1053` | headers and summaries as keyed Merkle trees (leaf H(H key ++ hash)); soundness by following the path: every string hashed on it is hashed in the tree, so the first one is the leaf of the key; completeness from the Merkle proofs of C29 |
| C96 | `trie/proof.go:212-224,608-618,726-742`, `hash.go:90-92,139-155,272-292`, `trie/node.go:129-131` | the callback loop of ToMerkles over the items of the chain, by the representation invariant of the Merkle proofs of C30; the comparison loops decide equality |
| C97 | `trie/trie.go:232-257,333-345,455-459,639-660`, `trie/synctrie.go:21-97`: threads run the method bodies of TrieModel.v in micro-steps under the mutex of LockModel.v | linearizability of any object with a mutex, then a simulation of the sequential run by finite maps with the representation relation of C10 and C12; progress by the work measure of LockProofs.v |
| C98 | `chaininfo.go:638-667,699-728`, `basic.go:518-525`, `bytes.go:147-157,299-308`, `chaininfo.go:253-260`: arrays by number, slices as array, offset and length; the loops over administrators | every array the clone reaches is new and every array of the original is unchanged, so a view depends only on the arrays of its own side; administrators by induction over the list and C87 |
| C99 | `chaininfo.go:262-305,326-354`: slices with capacity, append in place or into a new array, sort in place | refinement of the memory model to lists, with a frame (only the array of the receiver is written to), by induction over the loops |
| C100 | `chaininfo.go:788-825,874-876` on the memory of AttrMemModel.v | refinement to the list model of C74 over all call sequences, with the frame of C99 |
| C101 | `trie/proof.go:225-235,620-629`, `trie/node.go:72-79,103-107,133-139`, `hash.go:110-117,293-307`, `math/big.go:356-361` on the memory of ChainCloneModel.v | each clone function makes new arrays for all it reaches, by combinators for loops, structs and pointers; what is seen depends only on the arrays reached |
| C102 | `trie/binarytree.go:19-37` | children of 32 bytes split the hashed string in one way |
| C103 | `trie/revertable.go:334-510`: threads run the method bodies of RevHistModel.v in micro-steps under the mutex of LockModel.v | linearizability of any object with a mutex, then C80 for the sequence of calls found; progress by the work measure of LockProofs.v |

Not expressible: real goroutine scheduling, wall-clock behaviour, OS/file-system effects
(log rotation, LevelDB durability), reflection over user struct types, and the cryptographic
strength of Keccak. They are outside the model and stated as such in section 5.

## 3. How the theorems are tested

`seeded/LOG.jsonl` has one line per wrong program tried: a definition of a model was edited the
way a realistic bug would change the Go code, the development was rebuilt in a scratch copy and
the theorems that no longer prove were recorded. When all theorems still proved and the English
claim had become false, the theorem was tightened and the line says which one.

## 4. Findings: claims that are false of the code

Each is a theorem whose name ends in `_refuted`, with the witness in its statement; the property
list holds the corrected statement, proved beside it.

RLP
* `C02_raw_value_canonical_refuted`: Stream.Raw accepts the non-canonical one-byte form.
* `C02_stream_list_containment_refuted`: read element by element, a nested list can extend past
  the end of the list that contains it.
* `C08_iterator_bounded_refuted`: the list iterator never ends on malformed content.
* `C70_canonical_with_optional_refuted`: with an optional field two inputs decode to one value.
* `C70_stable_without_nil_exact_refuted`: a pointer (tag nil) to a struct of optional fields, all
  zero, is written as an empty list and comes back as nil.
* `C70_nil_pointer_round_trip_refuted`, `C70_nil_big_round_trip_refuted`: nil pointers without a
  nil tag do not come back.
* `C70_nil_tag_own_encoding_refuted`, `C70_nil_tag_loses_empty_refuted`: under a nil tag a pointer
  to an empty value is refused by its own decoder (mismatching kind) or comes back as nil.

Trie
* `C11_arbitrary_keys_refuted`: with keys that are prefixes of each other Get returns the value of
  another key.
* `C17_child_write_failure_refuted`: Commit reports success although a child was not stored.
* `C18_existence_refuted`: existence proofs can be forged, for every hash function.
* `C19_reversed_prefix_keys_refuted`: the reversed iterator skips entries when keys are prefixes.
* `C20_clone_count_refuted`: a clone of a non-empty trie reports Count 0.
* `C21_first_checkpoint_refuted`, `C21_long_root_refuted`: reverting to the first checkpoint
  empties the trie; a root with a byte in front is accepted and loses the contents.
* `C21_setto_checkpoints_refuted`: SetTo keeps the checkpoints of the contents it replaces; RevertTo
  one of them then succeeds and changes nothing.
* `C22_empty_reload_refuted`, `C22_root_ignores_keys_refuted`: an empty combined trie cannot be
  reloaded; the root of a combined trie does not depend on its keys, so two of them overwrite
  each other in the database.

History tree
* `C25_values_that_are_hashes_refuted`: there is no domain separation: a value equal to a node
  hash overwrites the node in the database.
* `C26_short_values_refuted`, `C27_short_values_refuted`: for values that are not 32 bytes long
  proofs do not verify and the root does not determine the values.
* `C28_has_returns_refuted`: Has takes the lock twice and never returns; every later call on the
  tree blocks.
* `C69_any_depth_refuted`: HistoryProof does not check the depth of the proof.

Merkle hashing
* `C30_length_independent_refuted`: lists of different lengths can have the same root.
* `C31_short_reads_refuted`, `C31_truncation_detected_refuted`: Deserialization does not detect
  short reads or a proof cut off inside its path.
* `C62_isvalid_accepts_built_refuted`: MoreTimes.IsValid rejects proofs that Append builds.

Databases
* `C34_nested_refuted`: a temporary database over a temporary database writes through.
* `C35_has_refuted`, `C35_foreign_batch_refuted`: reading an absent key makes Has say it is
  present; a batch of the database below leaves the cache stale.
* `C36_comparable_refuted`: adapters whose prefixes are prefixes of each other are not isolated.
* `C37_applied_refuted`: a batch of a prefixed adapter is never applied (error or panic).
* `C38_lost_refuted`: BatchWrite drops the last callbacks when the last one returns false.
* `C66_closed_batch_refuted`: a batch on a closed leveldb is lost without an error.

ABI
* `C39_range_refuted`, `C39_overflow_refuted`: the range of a big integer is not checked.
* `C39_empty_static_refuted`: static types of size zero do not round trip.
* `C39_canonical_refuted`: Unpack ignores the high bytes of small integers.
* `C40_wide_bytes_refuted`, `C41_wide_bytes_refuted`: bytesN with N > 32 panics in Unpack and has
  the wrong size.
* `C42_negative_refuted`, `C42_oversize_refuted`, `C42_function_refuted`: topics of negative,
  oversize and function values are wrong.
* `C43_interleaved_refuted`, `C43_indexed_dynamic_refuted`: events whose indexed arguments do not
  come first, or are strings, cannot be decoded.
* `C44_strict_refuted`: ParseSelector accepts texts that are not signatures.
* `C45_documented_refuted`: ResolveNameConflict does not count as its comment says.

Others
* `C46_exp_keeps_base_refuted`: Exp changes its base argument.
* `C48_negative_refuted`: negative numbers are written in a form no decoder accepts.
* `C51_leading_bits_refuted`, `C51_pos_with_nil_refuted`: with 256 shards the second byte decides;
  the nil chain id is not found.
* `C53_at_most_once_refuted`, `C53_failed_hook_keeps_state_refuted`: hooks of a service can run
  twice; a failed hook still advances the state.
* `C54_insertion_order_refuted`: LruMap evicts by use, not insertion.
* `C57_listing_exact_refuted`: listing a node id set returns zero ids; `C57_second_delete_panics`.
* `C58_new_always_validates_refuted`: construction accepts structures that validation rejects.
* `C60_keeps_every_field_refuted`: WithField drops fields.
* `C71_restart_refuted`: a RoutinePool started again after Stop panics (the quit channel stays
  closed, the wait group goes below zero). `C71_post_completes_refuted`: posting to a stopped pool
  with a full queue blocks for ever. `C71_stop_handles_all_refuted`: events still queued at Stop
  are dropped. `C71_high_always_first_refuted`: a low event may be taken while a high one waits.
* `C77_strict_refuted`: NewType takes texts that are no types, as the regular expressions are not
  anchored: "-uint8!", "bool7", "uint7", "uint08", "bool[-2]", "bool[]x"; "bytes0" is taken for the
  dynamic type bytes. The odd text goes into the signature and hence into the method id.
* `C78_ambiguous_refuted`: two function entries with one signature give two methods with one id; which
  one MethodById returns depends on Go's random map order.
* `C78_shared_refuted`: Pack appends the arguments to the slice `method.ID`, which has capacity 32; for
  a call without arguments the result is that slice, and writing into it changes the ABI.
* `C78_shadow_refuted`: Unpack by name takes the event when a method and an event share the name.
* `C78_no_outputs_refuted`: an entry without "outputs" cannot be found by Unpack.
* `C78_empty_refuted`: InputUnpack and UnpackReturnsMap refuse what was packed for no values.
* `C78_unnamed_refuted`: arguments without a name (or with the same name) overwrite each other in
  UnpackIntoMap; only the last one survives.
* `C78_event_pack_refuted`: PackEventArgs fails for an event whose arguments are all indexed.
* `C78_reuse_refuted`: UnmarshalJSON clears methods, events and errors of the target but keeps its
  constructor, fallback and receive; a second fallback then is an error.
* `C79_same_name_refuted`: NewType accepts a tuple with two components called `a` (fields A and A0), but
  packing reads A for both: the second value is silently lost.
* `C79_same_camel_refuted`: NewType accepts a tuple with components `a` and `_a`, but no value of it can
  ever be packed.
* `C79_order_refuted`: whether struct tags are accepted depends on the order of the arguments.
* `C80_nil_refuted`: a RevertableHistoryTree without Origin panics in Get, Commit and CommitAndHash,
  although Append, Expecting, HashValue and GetProof handle the case.
* `C80_unsaved_refuted`: PreCommit without a working tree returns Origin's root without committing it;
  if Origin held uncommitted values that root cannot be opened later.
* `C81_commit_refuted`: the nodes made by Chop are not marked dirty although they are in no
  database: CommitAndHash of the new tree returns a root that cannot be opened.
* `C81_uncommitted_refuted`: Chop replaces the children before the key by their hashes; if they
  were never committed, their values are lost to the new tree (Get finds nothing, no error).
* `C82_unchecked_refuted`: RestoreTreeFromProofs compares nothing with a root; a wrong value or
  foreign proof gives a tree with another root.
* `C82_other_key_refuted`, `C82_not_last_refuted`: a restored tree says that earlier values do not
  exist, and one restored from an earlier key accepts another value for the next key.
* `C82_get_spoils_refuted`: Get of an absent key of a restored tree makes HashValue fail after the
  next append.
* `C82_commit_refuted`: CommitAndHash of a restored tree returns a root that cannot be opened with
  checkPrecedingNil.
* `C83_addints_alias_refuted`: b.AddInts(b, b) is 4b and not 3b.
* `C83_compare_nil_refuted`, `C83_zero_uint64_refuted`: nil counts as 0 in sums, but Compare puts it
  below negative numbers and ToUint64 refuses it though it accepts 0.
* `C83_receiver_changes_refuted`, `C83_mul_zero_receiver_refuted`: x := y.Add(z) changes y, while
  x := y.Mul(z) with z zero leaves y and gives nil.
* `C83_hex_nil_refuted`: HexString of nil panics.
* `C84_paired_block_refuted`: a tree restored from the proof of key 2 reports that the proof of
  key 16 was merged, but Get of key 16 finds nothing: the node made from the hash of the other block
  of 16 is not marked as a leaf node, so the value merged into it is dropped.
* `C85_hex_negative_refuted`, `C85_sign_place_refuted`: HexOrDecimal256 prints -1 as -0x1, which it
  refuses; it reads 0x-1.
* `C86_floor_negative_refuted`, `C86_precision_refuted`, `C86_mul_precision_refuted`,
  `C86_limit_refuted`: RatToInt64Floor(-1/2) is 0; RatToInt64(1 + 2^-60) is 1 and
  Int64MulRat(2^53 + 1, 1) is 2^53, less than the number; 2^63 - 1 passes the range check as the
  float64 2^63, which does not fit an int64.
* `C88_ripemd_refuted`: HashRipemd160 returns its argument followed by the hash of the empty string.
* `C87_set_short_refuted`, `C87_rlp_zero_refuted`: SetBytes with too few bytes keeps the old leading
  bytes; a pointer to the zero address or hash comes back from its RLP form as nil.
* `C89_recursive_refuted`: an unsupported recursive type may be accepted, and then fails by a call of a
  nil function, depending on which types were used before: an entry that is still being made reads as
  one without error.
* `C91_copied_refuted`: an EncoderBuffer that is copied (a plain struct, with value receivers) and flushed
  in both copies gives its buffer to the pool twice; the output of one goroutine then appears in that of
  another.
* `C92_empty_key_refuted`: Dump calls the value callback twice for a key of length zero (trie.go:1032-1040 has no
  `continue`). `C92_rebase_empty_refuted`: Rebase copies nothing; over a database without the data the new trie
  finds no key and reports no error.
* `C93_tail_before_ignored_refuted`: the rule that `tail` must be on the last field counts exported fields that are
  ignored (rlpstruct.go:177,193-201), so `A []uint64 "tail"; B int "-"` is refused although B is never encoded.
* `C94_nil_not_consumed_refuted`, `C94_nil_shifts_fields_refuted`: a decoder generated for a pointer with a nil tag looks
  at the kind of a nil value but does not take it off the stream (gen.go:450-485; the same in testdata/nil.out.txt). So
  the generated decoder of `struct { A *uint64 "nil"; B uint64 }` refuses what the generated encoder wrote for
  `{nil, 5}`, and with a further optional field `{nil, 5, 0}` is silently read as `{nil, 0, 5}`.
* `C94_other_nil_refuted`: with the tag nilList it accepts 0x80 as a pointer to 0; reflection refuses it.
* `C94_empty_optional_refuted`: nonZeroCheck (types.go:65-93) treats an empty slice as zero, reflect's IsZero only a nil
  one, so an optional empty slice is written as C1 80 by reflection and as C0 by generated code.
* Decoders generated for string fields call `dec.String()` (gen.go:183-187), a method that rlp.Stream does not have, so
  they do not compile (no theorem: compilation is not modelled).
* `C95_property_of_refuted`: IsHeaderPropertyOf (proof.go:578-591) compares with the hash of chain and height without the
  property number, so it rejects every proof that IsHeaderOf accepts.
* `C95_path_length_refuted`: neither IsHeaderOf nor VerifyProofChain bounds the path of a header property proof. If a
  property of some header is H(H(c, h, i) ++ v), its hash is accepted as that of a header at (c, h) whose property i is v.
* `C97_collapse_refuted`: Trie.Collapse (`trie/trie.go:646-660`) does not take the mutex of the trie. A
  Put that another goroutine makes between its test and its effect is lost although Put answered
  true, and the entries that were there before can no longer be read either.
* `C99_receiver_refuted`: ChainAttrs.FromMap (`chaininfo.go:337-354`) has a value receiver but reuses its
  array. `b := a.FromMap(m)` overwrites the first attributes of `a` when its capacity suffices.
* `C99_assigned_refuted`: ChainAttrs.Add (`chaininfo.go:284-305`) sorts in place. A list that was assigned
  from the same list before, not cloned, then shows an attribute that was not added to it and has
  lost one of its own.
* `C100_listed_refuted`, `C100_listed_run_refuted`: ChainInfos.GetDataNodes (`chaininfo.go:823-825`) answers the
  slice of the description itself. A later AddDataNode sorts it in place: the list obtained before shows the
  new node and can lack one that is still a data node. Three nodes added, listed, a fourth added is enough.
* `C102_other_lengths_refuted`: BinaryNode.HashValue (`trie/binarytree.go:24-37`) joins its children without lengths;
  children that are not 32 bytes long can be moved across the border.
* `C74_unsorted_refuted`: HasDataNode, AddDataNode and RemoveDataNode on a `Datas` list that is not
  in ascending order miss members, add them twice and refuse to remove them.
* `C75_case_refuted`: boot nodes whose name has upper-case letters (ParseNodeID accepts them) are
  listed twice, or cannot be removed.
* `C75_after_sort_refuted`: ChainInfos.Sort orders boot nodes by chain first, AddBootNode and
  RemoveBootNode search by name; with two chains a member is added again and cannot be removed.
* `C75_hash_refuted`: Dataserver.HashValue hashes the fields without separators; servers with
  different ports have the same hash (the code has a TODO on it).
* `C72_memdb_batch_refuted`: Batch of a MemDB is visible to other threads half-applied.
* `C64_last_bit_compared_refuted`: the index of an address range is off by one at byte borders.

Seen while reading, not part of a theorem: Get/GetProof of an unavailable key on a history tree
restored from a proof empties the node; SmallCombinedTrie.PutValue always answers false;
VerifyProofChain does not compare the
key; ForPrintSlice panics on a non-nil empty slice; Trie.Collapse, Count, IsEmpty and the value
iterators touch the nodes without taking the lock of the trie that every other method takes.

## 5. Trusted base

* Coq's kernel (8.16.1) and, for a second opinion, coqchk, which re-checks every module.
* `vm_compute` in proofs of concrete examples: part of the kernel (coqchk re-checks them without it).
* Axioms: none. `Print Assumptions` under every property theorem answers "Closed under the global
  context". (coqchk also lists `Coq.ssr.ssrunder.Under_rel.*`, sealed module fields of the ssreflect
  library that std++ loads; no theorem depends on them.)
* Libraries: Coq's standard library and std++ (finite maps, lists). No other library's axioms.
* That the Gallina models say what the Go code does. Every definition cites the lines it models.
* Hypotheses: the system hash is any function with 32-byte results; where binding is claimed, it
  has no collisions *on the explicit list of strings hashed in the computation at hand*. The rtl
  codec is any pair of functions with the round-trip laws written in `env_ok` / `henv_ok`. Map
  iteration order is any order.

Modelled (file: what)

* rlp: encode.go, encbuffer.go, raw.go, decode.go (Stream and decodeInterface/DecodeBytes),
  iterator.go; makeWriter, makeDecoder and rlpstruct tag rules for user types (RlpTypeModel.v).
  The type cache (TypeCacheModel.v), EncoderBuffer and the buffer pool, the parser of struct tags
  (RlpTagModel.v), and what the code printed by rlpgen does (RlpGenModel.v). Not: custom EncodeRLP/DecodeRLP methods,
  reuse of memory in the destination of a decoder, unsafe.go, the text that rlpgen prints and its command line.
* trie: utils.go, node.go, trie.go (Get, Put, Delete, hashing, Commit, Collapse, Clone, Count,
  proofs, iteration, Marshal, Dump, Rebase), iterator.go, proof.go, revertable.go (RevertableTrie, RevertableHistoryTree),
  combinedtrie.go, historytree.go (Append, Get, Has, GetProof, Hash, Commit, CollapseBefore, Clone, Chop,
  RestoreTreeFromProofs, MergeProof, reopening), and tries shared by goroutines with the mutex of trie.go and
  the lock of synctrie.go (TrieConcModel.v), binarytree.go. Not: printing.
* hash.go: Merkle hashing and proofs. Not: the Keccak implementation and the plain helpers.
* db: all of it, sequentially (DbModel.v) and with the locks of cachedDB and temporaryDB
  (DbConcModel.v); goleveldb, golang-lru and sync.Map are maps with atomic operations. Not: iteration over leveldb, file handling.
* abi: type.go (sizes, packing), pack.go, unpack.go, argument.go (Pack, UnpackValues), topics.go,
  selector_parser.go, utils.go (ResolveNameConflict), thinkium.go (UnpackEvent), abi.go
  (EventString), NewType, signatures, reading entries, calls, lookups, pairing with struct fields. Not: the JSON text,
  value conversions of reflect.go, String methods.
* math: integer.go, the integer part of big.go and BigInt, with the text forms but for String of BigInt,
  and the rounding of rationals. hexutil: all. bytes.go: padding, splitting,
  bits, hex. basic.go: heights, epochs, node id sets, ShouldPropose, address registry, fixed-size values. chaininfo.go: node
  lists, boot nodes, auditors, attributes, administrators, Clone, ChainID, ChainStruct; data nodes and
  attributes also in memory. shardinfo.go, gaspool.go, version.go, types.go (service, LruMap, LastBlockMap).
  log: WithField. routinepool.go. Not: endpoint.go, consts.go, forrlp.go, shared.go.
