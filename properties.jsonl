{"id": "C01", "title": "RLP round trip", "statement": "Encoding any value built from byte strings and (arbitrarily nested) lists with rlp and decoding the bytes with DecodeBytes into an interface{} gives back exactly the same value.", "quantifier": "every finite tree of byte strings and lists whose encoding is shorter than 2^64 bytes", "why_tests_cant": "the trees are unbounded in depth, width and string length; header forms change at 55/56 bytes and at every power of 256", "anchors": ["rlp/encode.go:puthead", "rlp/encbuffer.go:encBuffer", "rlp/decode.go:Stream", "rlp/decode.go:decodeInterface", "rlp/decode.go:DecodeBytes"]}
{"id": "C02", "title": "RLP decoding is canonical", "statement": "If DecodeBytes accepts an input (decoding into interface{}), then the input is byte for byte the RLP encoding of the value it returns; hence two different accepted inputs never decode to the same value, and trailing bytes are always rejected.", "quantifier": "every byte string", "why_tests_cant": "it is a statement about all accepted inputs, including adversarial ones", "anchors": ["rlp/decode.go:Stream.Kind", "rlp/decode.go:Stream.readUint", "rlp/decode.go:DecodeBytes"]}
{"id": "C03", "title": "Deferred list headers produce the recursive encoding", "statement": "The encoder buffer, which writes list headers after the fact and splices them in on output, yields exactly the bytes of the recursive RLP definition, and the size it announces equals the number of bytes it outputs.", "quantifier": "every value tree", "why_tests_cant": "header splice offsets depend on the whole nesting history", "anchors": ["rlp/encbuffer.go:list", "rlp/encbuffer.go:listEnd", "rlp/encbuffer.go:copyTo", "rlp/encbuffer.go:size"]}
{"id": "C04", "title": "RLP encodings are self-delimiting", "statement": "No RLP encoding is a proper prefix of another one, so concatenated encodings parse uniquely.", "quantifier": "every pair of values and every continuation of the input", "why_tests_cant": "quantifies over all pairs and all suffixes", "anchors": ["rlp/encode.go:puthead", "rlp/raw.go:Split"]}
{"id": "C05", "title": "Split partitions its input", "statement": "When Split succeeds, header, content and rest concatenate to the input; on an encoded value followed by any bytes it returns the content of the value and exactly those bytes; CountValues of a concatenation of n encodings is n.", "quantifier": "every byte string; every list of values", "why_tests_cant": "unbounded inputs, all header lengths", "anchors": ["rlp/raw.go:Split", "rlp/raw.go:readKind", "rlp/raw.go:readSize", "rlp/raw.go:CountValues", "rlp/raw.go:SplitList", "rlp/raw.go:SplitString"]}
{"id": "C06", "title": "Unsigned integers round trip canonically through RLP", "statement": "For every uint64 x, AppendUint64 writes the minimal big-endian RLP form, SplitUint64 reads x back leaving the rest untouched, and every input that SplitUint64 or Stream.Uint64 accepts starts with exactly the AppendUint64 form of its result.", "quantifier": "every uint64 and every suffix; every byte string", "why_tests_cant": "2^64 values and all adversarial non-minimal forms", "anchors": ["rlp/raw.go:AppendUint64", "rlp/raw.go:SplitUint64", "rlp/encode.go:putint", "rlp/encode.go:intsize", "rlp/decode.go:Stream.uint"]}
{"id": "C07", "title": "RLP size functions are exact", "statement": "BytesSize, StringSize, ListSize and IntSize return the exact length of the corresponding encodings.", "quantifier": "every byte string, every content length, every uint64", "why_tests_cant": "unbounded domain with many size classes", "anchors": ["rlp/raw.go:BytesSize", "rlp/raw.go:ListSize", "rlp/raw.go:IntSize", "rlp/encode.go:headsize"]}
{"id": "C08", "title": "The RLP list iterator yields the list elements and stops exactly on well-formed content", "statement": "Iterating over a well-formed list yields the encodings of its elements in order and then stops; the loop over Next terminates exactly when the content is a concatenation of well-formed items (on malformed content it never stops, although Err is set).", "quantifier": "every byte string used as list content", "why_tests_cant": "non-termination cannot be observed by a finite test", "anchors": ["rlp/iterator.go:NewListIterator", "rlp/iterator.go:Next"]}
{"id": "C09", "title": "Big integers round trip through RLP", "statement": "Every non-negative big.Int is written as its minimal big-endian string and read back unchanged; integers with leading zeros are rejected.", "quantifier": "every natural number of any size", "why_tests_cant": "unbounded integers, word-boundary special cases", "anchors": ["rlp/encbuffer.go:writeBigInt", "rlp/decode.go:decodeBigInt"]}
{"id": "C10", "title": "The trie is a map", "statement": "After any sequence of Put and Delete with keys none of which is a proper prefix of another (in particular keys of one common length) and non-nil values, Get(k) returns the value of the last Put(k) not followed by Delete(k), and not-found otherwise; Delete reports the old value and whether the key was present.", "quantifier": "every sequence of operations, every prefix-free set of keys", "why_tests_cant": "node splitting, merging and prefix chopping depend on the entire history", "anchors": ["trie/trie.go:Get", "trie/trie.go:Put", "trie/trie.go:Delete", "trie/trie.go:insert", "trie/trie.go:delete", "trie/node.go:chop", "trie/node.go:mergeTheLastChild"]}
{"id": "C11", "title": "The trie is not a map when one key is a prefix of another", "statement": "The restriction to prefix-free keys in C10 is necessary: whatever the hash function and the values, after Put(0x1234,v) and Put(0x15,w) a Get of the absent key 0x12 returns v.", "quantifier": "every hash function, every pair of values", "why_tests_cant": "only specific prefix-related key shapes expose it", "anchors": ["trie/trie.go:get", "trie/trie.go:insert", "trie/trie.go:delete"]}
{"id": "C12", "title": "The root hash depends only on the contents", "statement": "Two histories of Put, Delete, Get, HashValue, Commit, Collapse, Clone and reopening (prefix-free keys) that leave the same key/value contents leave the same root hash, whatever the order and whatever was inserted and removed in between.", "quantifier": "every pair of operation sequences", "why_tests_cant": "history independence ranges over pairs of unbounded histories", "anchors": ["trie/trie.go:HashValue", "trie/node.go:computeHash", "trie/node.go:mergeTheLastChild"]}
{"id": "C13", "title": "The root hash commits to the contents", "statement": "If two tries have the same root hash then they hold the same contents, unless two different inputs actually hashed while computing those roots collide.", "quantifier": "every pair of tries", "why_tests_cant": "cryptographic binding cannot be tested; it needs an argument over all pairs of structures", "anchors": ["trie/node.go:computeHash", "hash.go:MerkleHashComplete", "hash.go:HashPair"]}
{"id": "C14", "title": "Commit makes the contents recoverable from the root hash", "statement": "After Commit on a working database, a new trie opened on the same database with the root hash answers every Get as the original did.", "quantifier": "every trie contents, every database that stores what it is given", "why_tests_cant": "all tree shapes; child-before-parent persistence order", "anchors": ["trie/trie.go:Commit", "trie/trie.go:iterateSave", "trie/trie.go:saveOneNode", "trie/trie.go:expandNode", "trie/node.go:Serialization", "trie/node.go:Deserialization"]}
{"id": "C15", "title": "Collapsing does not change what the trie says", "statement": "Removing every Collapse call from a history leaves every other answer (Get, HashValue, Delete, Count, ...) unchanged: collapsed parts are expanded again on demand.", "quantifier": "every history and every placement of Collapse calls in it", "why_tests_cant": "exponentially many collapse patterns", "anchors": ["trie/node.go:collapse", "trie/trie.go:fullExpand", "trie/trie.go:expandNode", "trie/trie.go:Collapse"]}
{"id": "C16", "title": "Trie proofs verify", "statement": "At any point of any history of calls, GetProof of a present key returns the stored value and a chain that verifies from the hash of the value to the root hash, and reports an absent key as not found; GetExistenceProof of any non-empty key returns a chain whose existence hash is the root hash and whose IsExist answer for the key is right. Neither call changes what later calls answer.", "quantifier": "every history of trie calls, every trie of the family and every key, present or absent (keys of which none is a proper prefix of another)", "why_tests_cant": "all paths through all tree shapes and all collapse states", "anchors": ["trie/trie.go:GetProof", "trie/trie.go:GetExistenceProof", "trie/node.go:GetProof", "trie/proof.go:NodeHasher.MakeProof", "trie/proof.go:ProofChain.Proof", "trie/proof.go:VerifyProofChain", "trie/proof.go:ProofChain.IsExist", "trie/proof.go:ProofChain.ExistenceHash"]}
{"id": "C17", "title": "A failure to store the root during Commit is reported", "statement": "Whatever writes fail, a Commit of a modified trie that returns no error has stored the root node, and a Commit that returns an error leaves the trie marked as modified. Failures to store nodes below the root are not reported.", "quantifier": "every trie and every schedule of write failures", "why_tests_cant": "each write position is a separate crash point", "anchors": ["trie/trie.go:iterateSave", "trie/trie.go:saveOneNode"]}
{"id": "C18", "title": "Value proofs cannot be forged (existence proofs can)", "statement": "Whatever proof chain is presented, if VerifyProofChain accepts it for the hash of a value against the root hash of a trie, a value with that hash is stored in the trie, provided the hash does not collide on the strings involved and value hashes differ from node hashes. The same does not hold of existence chains: a chain whose ExistenceHash is the root hash can report an absent key as present and a present key as absent.", "quantifier": "every trie contents, value and adversarial proof chain", "why_tests_cant": "quantifies over all adversarial chains", "anchors": ["trie/proof.go:VerifyProofChain", "trie/proof.go:NodeProof.Iterate", "trie/proof.go:ProofChain.IsExist", "trie/proof.go:ProofChain.ExistenceHash", "trie/proof.go:NodeProof.ExistenceMatch"]}
{"id": "C19", "title": "Iteration visits every entry once in key order", "statement": "Whatever the history of a trie (keys not prefixes of each other), its forward iterator, IterateAll and Marshal visit every key/value pair exactly once in increasing key order, up to where the caller stops; the reversed iterator yields the same pairs in the opposite order, also if other tries write to the database meanwhile.", "quantifier": "every history, every contents, every stopping point", "why_tests_cant": "traversal stack behaviour depends on unbounded tree shapes", "anchors": ["trie/iterator.go:Next", "trie/iterator.go:depthFirstNextStep", "trie/iterator.go:Current", "trie/trie.go:ValueIterator", "trie/trie.go:ReversedValueIterator", "trie/trie.go:IterateAll", "trie/utils.go:Marshal", "trie/utils.go:MarshalAsMap"]}
{"id": "C20", "title": "Count is the number of entries", "statement": "Count() equals the number of keys present after every history starting from an empty trie.", "quantifier": "every operation sequence", "why_tests_cant": "counter drift needs specific overwrite/delete histories", "anchors": ["trie/trie.go:Count", "trie/trie.go:putLocked", "trie/trie.go:deleteLocked"]}
{"id": "C21", "title": "Checkpoints restore the exact state", "statement": "A history of Put, Delete, Get, GetLive, HashValue, PreHashValue, PreCommit, IsDirty, CheckPoint, RevertTo, Rollback, Commit, CommitAndHash and Copy on a RevertableTrie answers as a map with checkpoints. RevertTo(i, root) with the number i > 0 and the root returned by CheckPoint, after calls that did not discard checkpoint i, succeeds, restores exactly the contents at the checkpoint, leaves the committed contents and the earlier checkpoints as they were and forgets checkpoint i and the later ones; if there were uncommitted changes at the checkpoint, all later calls answer as if nothing had happened since. RevertTo checkpoint 0 discards all uncommitted changes, also those made before the checkpoint.", "quantifier": "every history of calls, every checkpoint", "why_tests_cant": "arbitrary interleavings of checkpoints and updates", "anchors": ["trie/revertable.go:RevertTo", "trie/revertable.go:CheckPoint"]}
{"id": "C22", "title": "The small combined trie is a map with ordered iteration", "statement": "SmallCombinedTrie answers Get, Put, Delete and Keys as a map from keys to tries with sorted keys, under every history that also changes, commits, collapses and clones the tries in it. HashValue is the Merkle root of the hashes of the sub-tries by increasing key, GetProof returns a proof that verifies from the hash of the sub-trie to it, an iterator yields every entry once by increasing key (also after changes: the keys at its creation that are still there). Commit and then InitTrie of a new combined trie with the root restores a non-empty combined trie: same keys, tries with the same contents, as long as no other combined trie was committed in between.", "quantifier": "every operation sequence, every order of ranging over the map", "why_tests_cant": "sorted-slice maintenance under arbitrary interleavings", "anchors": ["trie/combinedtrie.go:Put", "trie/combinedtrie.go:Delete", "trie/combinedtrie.go:Get", "trie/combinedtrie.go:saveRoot", "trie/combinedtrie.go:loadRoot"]}
{"id": "C23", "title": "Trie key encodings are lossless", "statement": "Converting a key to nibble/prefix form and back, and packing an even or odd length nibble prefix and unpacking it, is the identity.", "quantifier": "every key, every nibble string", "why_tests_cant": "odd/even length and all lengths", "anchors": ["trie/utils.go:keyToPrefix", "trie/utils.go:prefixToKey", "trie/utils.go:keystringToPrefix", "trie/utils.go:prefixToKeystring"]}
{"id": "C24", "title": "Node headers survive serialization", "statement": "Deserializing a serialized node header yields the same header: type, prefix, value flag and the exact set of children with their hashes.", "quantifier": "every node", "why_tests_cant": "2^16 child sets, arbitrary prefixes", "anchors": ["trie/node.go:NodeHeader", "trie/node.go:Serialization", "trie/node.go:Deserialization"]}
{"id": "C25", "title": "The history tree is an append-only log", "statement": "A family of history trees over one database, used through Append, Get, Expecting, HashValue, GetProof, CommitAndHash, CollapseBefore, Clone and reopening of committed roots, answers every call as lists of values do: Append of any key other than the number of values, or of an empty value, is refused and changes nothing; Get(i) returns the i-th value for i below the number of values and nothing otherwise; a clone or a reopened root starts from the values committed; no call panics. Without commits this holds for every hash function and values of any length; with commits for 32-byte values that are not themselves hashes computed in the run, as long as the hash has no collision among the strings hashed.", "quantifier": "every sequence of calls on every number of trees, all positions up to 2^64-1", "why_tests_cant": "carry propagation at every power of 16 up to 16 levels, and unbounded interleavings with commits, collapses and reopening", "anchors": ["trie/historytree.go:Append", "trie/historytree.go:Get", "trie/historytree.go:putLeaf", "trie/historytree.go:locateNode"]}
{"id": "C26", "title": "History tree proofs verify to the root", "statement": "After any calls, on any tree of the family, GetProof(k) answers exactly for the keys below the number of values; the proof turns the k-th value into the current root hash and its key decodes to k.", "quantifier": "every sequence of calls, every tree and every key", "why_tests_cant": "all positions and all partially filled right edges, with parts of the tree collapsed or not loaded", "anchors": ["trie/historytree.go:GetProof", "trie/historytree.go:MergeProof", "hash.go:MerkleProofs.Proof", "hash.go:MerkleProofs.BigKey"]}
{"id": "C27", "title": "The history root depends only on, and determines, the appended values", "statement": "The root hash is a fixed function of the list of appended values, whatever commits, collapses, clones and reopenings are made in between; two lists of 32-byte values with the same root are equal unless the hash collides on the strings hashed for them or a value is one of those hashes.", "quantifier": "every sequence of calls; every pair of lists of values", "why_tests_cant": "unbounded interleavings; a statement about all pairs of histories", "anchors": ["trie/historytree.go:Append", "trie/historytree.go:CollapseBefore", "trie/historytree.go:Commit"]}
{"id": "C28", "title": "Goroutines sharing a history tree are serialised and return, except from Has", "statement": "For any goroutines calling the methods of one history tree under any schedule, the answers are those of the calls made one after the other in an order that respects each goroutine's own order and real time; without Has no schedule gets stuck before every call has returned. Has never returns, and once it holds the lock no other call takes effect: it takes the tree's mutex and then calls Get, which takes it again.", "quantifier": "every number of goroutines, every list of calls and every schedule", "why_tests_cant": "schedules cannot be enumerated; a deadlock is not a wrong answer", "anchors": ["trie/historytree.go:Has", "trie/historytree.go:Get", "trie/historytree.go:HistoryTree.lock"]}
{"id": "C29", "title": "Merkle proofs verify", "statement": "For every list of hashes and every index in range, the proof produced for that index applied to that hash gives the Merkle root returned by the same call.", "quantifier": "every non-empty list and index", "why_tests_cant": "padding happens at every odd layer; all lengths", "anchors": ["hash.go:MerkleHashComplete", "hash.go:MerkleHash", "hash.go:MerkleProofs.Proof"]}
{"id": "C30", "title": "Merkle roots bind the leaves", "statement": "Two lists of the same length with equal Merkle roots are equal, unless two distinct inputs hashed in the two computations collide.", "quantifier": "every pair of equal-length lists", "why_tests_cant": "needs collision extraction through all layers", "anchors": ["hash.go:MerkleHash", "hash.go:HashPair"]}
{"id": "C31", "title": "Merkle proofs survive serialization", "statement": "Deserializing a serialized MerkleProofs from a reader that returns full reads gives back equal proofs and leaves the rest of the input.", "quantifier": "every proof object with at most 65535 entries", "why_tests_cant": "length fields are 16-bit; arbitrary sizes", "anchors": ["hash.go:MerkleProofs.Serialization", "hash.go:MerkleProofs.Deserialization", "hash.go:writeArray", "hash.go:readArray"]}
{"id": "C32", "title": "Proof position equals the leaf index", "statement": "The number decoded from the left/right pattern of a Merkle proof (BigKey) is the index of the proved leaf.", "quantifier": "every list length and index", "why_tests_cant": "all path patterns", "anchors": ["hash.go:MerkleProofs.BigKey", "hash.go:MerkleProofs.Order", "hash.go:MerkleHashComplete"]}
{"id": "C33", "title": "MemDB is a map with sequential batches", "statement": "Get, Has, Put, Delete and batches on an in-memory database answer as an abstract map does (nil keys and values are refused with an error and change nothing); a batch has the effect of its commands in order. The same for a leveldb database, which stores nil as empty.", "quantifier": "every operation history", "why_tests_cant": "unbounded histories", "anchors": ["db/memdb.go:Put", "db/memdb.go:Get", "db/memdb.go:Delete", "db/memdb.go:Batch"]}
{"id": "C34", "title": "A temporary database overlays without writing through", "statement": "Temporary(db), for db not itself temporary, answers every history of operations as a map that starts with the contents of db, and db keeps its contents.", "quantifier": "every base contents and operation history", "why_tests_cant": "delete-then-put-then-delete histories over base keys", "anchors": ["db/readonly.go:Temporary", "db/readonly.go:_put", "db/readonly.go:_delete", "db/readonly.go:Get", "db/readonly.go:Has"]}
{"id": "C35", "title": "The cached database answers like the database below it", "statement": "Put, Get, Delete and batches on a cached database answer exactly like the database below it, for every cache size. Has answers yes for every key that is present; it is exact in histories where every Get finds its key.", "quantifier": "every operation history and cache size", "why_tests_cant": "cache state depends on the entire read/write/eviction history", "anchors": ["db/cacheddb.go:Get", "db/cacheddb.go:Has", "db/cacheddb.go:Put", "db/cacheddb.go:Delete", "db/cacheddb.go:Batch"]}
{"id": "C36", "title": "Key-prefixed adapters are isolated from each other", "statement": "Two adapters with incomparable prefixes over one database each answer as a map of their own, however the operations are interleaved.", "quantifier": "every pair of prefixes, every database contents, every interleaving", "why_tests_cant": "key collisions exist only for particular prefix/key combinations", "anchors": ["db/adapters.go:NewKeyPrefixedDataAdapter", "db/types.go:PrefixKey"]}
{"id": "C37", "title": "A batch is committed entirely or not at all, and prefixed adapters never commit one", "statement": "A batch made by an in-memory, leveldb, temporary or cached database and committed to it applies its commands in order. A batch made by a key-prefixed adapter is never applied: building or committing it panics or returns an error, and no contents change.", "quantifier": "every database stack and sequence of batch commands", "why_tests_cant": "the dynamic type of the batch decides", "anchors": ["db/adapters.go:KeyBatch", "db/adapters.go:SaveBatch", "db/memdb.go:Batch", "db/ldb.go:Batch"]}
{"id": "C38", "title": "BatchWrite applies a prefix of the callbacks and counts it", "statement": "If callbacks that return false write nothing, BatchWrite has applied exactly the commands of the first j callbacks in order, for some j, and returns the number of those that returned true; it fails only with the error of a callback; without an error fewer than threshold accepted callbacks are missing, and none if the last callback returned true.", "quantifier": "every database stack, threshold, length and callback behaviour", "why_tests_cant": "all patterns of skipped entries", "anchors": ["db/types.go:BatchWrite"]}
{"id": "C39", "title": "ABI pack/unpack round trip", "statement": "Pack writes the head/tail encoding of the ABI specification, and Unpack(Pack(values)) returns the values, for every list of nested types whose bytesN have N at most 32 and whose array elements are not empty, and every list of in-range values of those types; two different value lists never pack to the same bytes.", "quantifier": "every such list of (nested) ABI types and every list of values of those types", "why_tests_cant": "head/tail offsets over arbitrarily nested dynamic types", "anchors": ["abi/argument.go:Pack", "abi/argument.go:UnpackValues", "abi/type.go:pack", "abi/unpack.go:toGoType", "abi/pack.go:packElement"]}
{"id": "C40", "title": "ABI unpacking never reads out of bounds", "statement": "Unpack on arbitrary data returns values of the requested types or an error and never slices outside the data, for every list of types with bytesN of at most 32 bytes.", "quantifier": "every such list of types and every byte string shorter than 2^63", "why_tests_cant": "adversarial offsets and lengths near 2^63 and 2^64", "anchors": ["abi/unpack.go:toGoType", "abi/unpack.go:lengthPrefixPointsTo", "abi/unpack.go:tuplePointsTo", "abi/unpack.go:forEachUnpack"]}
{"id": "C41", "title": "Packed length equals the declared type size for static types", "statement": "Packing a value of a static type (bytesN at most 32) yields exactly getTypeSize bytes, so head offsets are correct, and every packing is a multiple of 32 bytes.", "quantifier": "every static type and value", "why_tests_cant": "nested arrays and tuples", "anchors": ["abi/type.go:getTypeSize", "abi/type.go:pack", "abi/type.go:isDynamicType"]}
{"id": "C42", "title": "Event topics round trip", "statement": "A topic made by MakeTopics from a value of an indexable value type (integers, bool, address, bytesN) is parsed back to that value, except negative big integers; values of other types are hashed; topics of one type are equal only for equal values.", "quantifier": "every value of every supported static type", "why_tests_cant": "sign extension over all widths; all integers", "anchors": ["abi/topics.go:MakeTopics", "abi/topics.go:genIntType", "abi/topics.go:parseTopicWithSetter"]}
{"id": "C43", "title": "Events decode to their own values when the indexed arguments come first", "statement": "UnpackEvent and EventString give each argument of an emitted log its own value when the indexed arguments precede the others and have value types; as soon as an indexed argument follows one that is not, they never return values.", "quantifier": "every argument list, every indexed pattern, every log", "why_tests_cant": "all 2^n indexed patterns", "anchors": ["abi/abi.go:EventString", "abi/thinkium.go:UnpackEvent"]}
{"id": "C44", "title": "Selector parsing inverts rendering", "statement": "ParseSelector of the text of a well-formed signature returns its name and argument types; it accepts exactly the texts in which each separator is a byte that cannot continue the type before it (plus an optional trailing []), and it crashes exactly on a bare identifier.", "quantifier": "every signature; every string", "why_tests_cant": "recursive grammar, arbitrary strings", "anchors": ["abi/selector_parser.go:ParseSelector", "abi/selector_parser.go:parseCompositeType", "abi/selector_parser.go:parseElementaryType"]}
{"id": "C45", "title": "Name conflict resolution returns a fresh name", "statement": "ResolveNameConflict terminates for every finite set of used names and returns a name that is not used: the name itself if free, otherwise the name with the smallest decimal suffix that is free.", "quantifier": "every finite set of names", "why_tests_cant": "termination and freshness over all sets", "anchors": ["abi/utils.go:ResolveNameConflict"]}
{"id": "C46", "title": "256-bit arithmetic helpers", "statement": "U256 reduces modulo 2^256, S256 is the two's complement reading inverse to it on [-2^255,2^255), Exp computes base^exp modulo 2^256, PaddedBigBytes/ReadBits write the big-endian value, Byte selects the n-th byte.", "quantifier": "every integer, exponent and width", "why_tests_cant": "unbounded integers", "anchors": ["math/big.go:U256", "math/big.go:S256", "math/big.go:Exp", "math/big.go:PaddedBigBytes", "math/big.go:ReadBits", "math/big.go:Byte"]}
{"id": "C47", "title": "Overflow-checked uint64 arithmetic is exact", "statement": "SafeAdd, SafeSub and SafeMul report overflow exactly when the mathematical result does not fit in 64 bits, and otherwise return it.", "quantifier": "every pair of uint64", "why_tests_cant": "2^128 pairs", "anchors": ["math/integer.go:SafeAdd", "math/integer.go:SafeSub", "math/integer.go:SafeMul"]}
{"id": "C48", "title": "Hex encodings round trip and are canonical", "statement": "Decode, DecodeUint64 and DecodeBig accept a string exactly when its lower-case form is the encoding of some byte string, of a number below 2^64, or of a number below 2^256, and return that value. The UnmarshalText forms also read the empty string, as empty or zero; UnmarshalFixed yields exactly the requested number of bytes; the JSON forms are the text forms between double quotes; FromHex inverts both encodings.", "quantifier": "every input string and every value", "why_tests_cant": "all strings, including malformed ones", "anchors": ["hexutil/hexutil.go:Decode", "hexutil/hexutil.go:DecodeUint64", "hexutil/hexutil.go:DecodeBig", "hexutil/hexutil.go:EncodeBig", "hexutil/json.go:UnmarshalFixedText", "bytes.go:FromHex", "bytes.go:IsHex"]}
{"id": "C49", "title": "Heights decompose into epoch and block number", "statement": "For every block height, EpochNum and BlockNum are the unique quotient and remainder, converting back gives the height, and first/last height of an epoch bound exactly its heights.", "quantifier": "every height below the nil value", "why_tests_cant": "2^64 heights; boundary and nil handling", "anchors": ["basic.go:Height.Split", "basic.go:EpochNum.FirstHeight", "basic.go:EpochNum.LastHeight", "basic.go:ToHeight"]}
{"id": "C50", "title": "Height, epoch and chain comparisons are total orders", "statement": "Compare on Height, EpochNum, EraNum and ChainID is a total order in which the nil value is the smallest.", "quantifier": "every pair and triple of values", "why_tests_cant": "transitivity is a statement about all triples", "anchors": ["basic.go:Height.Compare", "basic.go:EpochNum.Compare", "chaininfo.go:ChainID.Compare"]}
{"id": "C51", "title": "Addresses are assigned to exactly one shard", "statement": "For 1 to 256 shards NewAccountShards keeps exactly the given shards whatever their order and sends every address to one of them; more are refused. For 2^k distinct shards (k<=7) two addresses share a shard exactly when their first k bits agree, for 256 shards when their second bytes agree, and in every case the shards partition the address space evenly. Pos returns each shard's position and -1 for other chains (the nil chain id not being a shard).", "quantifier": "every address and every list of shards", "why_tests_cant": "2^160 addresses", "anchors": ["shardinfo.go:shardTo", "shardinfo.go:index", "shardinfo.go:NewShardInfo", "shardinfo.go:AddressShard.IsIn"]}
{"id": "C52", "title": "The gas pool never over- or underflows", "statement": "SubGas fails and leaves the pool unchanged when the pool is too small; AddGas never wraps around; gas is conserved.", "quantifier": "every sequence of additions and subtractions", "why_tests_cant": "unbounded histories and 64-bit boundaries", "anchors": ["gaspool.go:AddGas", "gaspool.go:SubGas"]}
{"id": "C53", "title": "Service lifecycle runs its hooks in order", "statement": "Under any sequence of Init, Start and Close calls and any hook outcomes, the hooks that run are a prefix of init, start, close, init, start, close, ...; a call runs its hook exactly when it is next in that cycle, fails exactly when it is out of order or its hook fails, and an out-of-order call changes nothing.", "quantifier": "every call sequence and every hook outcome", "why_tests_cant": "unbounded call sequences", "anchors": ["types.go:AbstractService", "types.go:CheckInit", "types.go:CheckStart"]}
{"id": "C54", "title": "The LRU map keeps at most its capacity", "statement": "A map of capacity n never holds more than n entries; adding a key that is present is refused and changes nothing; adding a new key to a full map evicts exactly the key whose last use (addition or successful lookup) is earliest; all other calls behave as on an unbounded map.", "quantifier": "every history", "why_tests_cant": "unbounded histories", "anchors": ["types.go:LruMap"]}
{"id": "C55", "title": "Byte padding, concatenation and splitting helpers", "statement": "LeftPadBytes/RightPadBytes add exactly the missing zeros; SplitBytes succeeds exactly when the size divides the length, its parts have that size and concatenate to the input, and it inverts ConcatenateBytes, which concatenates; BytesIntersection returns the common strings once each; BytesSliceEqual is equality.", "quantifier": "every byte string and size", "why_tests_cant": "all lengths", "anchors": ["bytes.go:RightPadBytes", "bytes.go:LeftPadBytes", "bytes.go:SplitBytes", "bytes.go:ConcatenateBytes"]}
{"id": "C56", "title": "Bit extraction from byte strings", "statement": "SubBytes(bs, from, size) yields, in the fewest bytes, the size bits starting at bit from of the big-endian number, clipped to the string; nothing when from is beyond it; an error for a negative offset or a size below one.", "quantifier": "every byte string, offset and size", "why_tests_cant": "all lengths and offsets", "anchors": ["bytes.go:SubBytes", "bytes.go:ShiftBits"]}
{"id": "C57", "title": "Node id sets behave as sets until the second deletion", "statement": "For every history in which at most one member is deleted, a NodeIDSet never panics, Put, Delete, membership, Len and Get follow set semantics, GetNodeIDs lists the members in ascending order (after as many zero ids), and before any deletion GetIndex and Get are inverse. Union, Remove, Contains and Equal of NodeIDs are the set operations.", "quantifier": "every history with at most one effective deletion", "why_tests_cant": "unbounded histories", "anchors": ["basic.go:NodeIDSet", "basic.go:NodeIDs"]}
{"id": "C58", "title": "Chain structure construction and validation agree", "statement": "Every chain structure returned by NewChainStruct without error passes Validate, except a main chain given a parent and a stand-alone chain given none; NewChainStruct fails exactly on the documented invalid combinations.", "quantifier": "every pair of parameters", "why_tests_cant": "all parameter combinations", "anchors": ["chaininfo.go:NewChainStruct", "chaininfo.go:Validate"]}
{"id": "C59", "title": "Version numbers round trip", "statement": "NewNodeVersion(major,minor,patch) for components up to 999 can be decomposed again into the same components, and the numeric order is the lexicographic order.", "quantifier": "every triple of components", "why_tests_cant": "10^9 triples", "anchors": ["version.go:NewNodeVersion", "version.go:Major", "version.go:Minor", "version.go:Patch"]}
{"id": "C60", "title": "Structured logging fields", "statement": "log.WithField(k1,v1,...,kn,vn) attaches exactly the first ceil(n/2) pairs (a single pair is kept; from two pairs on the rest is lost).", "quantifier": "every argument list", "why_tests_cant": "number of pairs is unbounded", "anchors": ["log/log.go:WithField"]}
{"id": "C61", "title": "Proposal shares cover the epoch", "statement": "For every committee, the numbers of blocks each member should propose in an epoch sum to the number of blocks in an epoch.", "quantifier": "every committee size", "why_tests_cant": "all sizes", "anchors": ["basic.go:ShouldPropose"]}
{"id": "C62", "title": "Compressed Merkle proofs are lossless", "statement": "A MerkleProofs object built by any sequence of Append calls has exactly that sequence: ToItems/Iterate returns it, Len is its length and Get(i) its i-th element.", "quantifier": "every sequence of appended hashes and sides", "why_tests_cant": "run-length compression over unbounded sequences", "anchors": ["hash.go:MerkleProofs.Append", "hash.go:MoreTimes", "hash.go:MerkleProofs.Iterate", "hash.go:MerkleProofs.Get", "hash.go:MoreTimes.GetHashsIndex"]}
{"id": "C63", "title": "Merkle proofs are sound", "statement": "If a proof with the direction bits of index i leads from h to the Merkle root of a list, then h is element i of the list, unless two distinct strings hashed in the two computations collide.", "quantifier": "every list, index, value and sequence of sibling hashes", "why_tests_cant": "adversarial proofs; needs collision extraction", "anchors": ["hash.go:MerkleProofs.Proof", "hash.go:MerkleHashComplete", "hash.go:MerkleHash"]}
{"id": "C64", "title": "Address ranges", "statement": "AddressShard{index, value}.IsIn(addr) holds exactly when value and addr agree on their first index+1 bits (first index bits when index is a multiple of 8); an index beyond the address or the value contains no address.", "quantifier": "every address, index and value", "why_tests_cant": "2^160 addresses", "anchors": ["shardinfo.go:AddressShard", "shardinfo.go:Bits", "shardinfo.go:Mask"]}
{"id": "C65", "title": "Watched heights", "statement": "Under any history of Set, Get and compare-and-set calls on a LastBlockMap each call returns and leaves what the per-chain history determines; with compare-and-set only, the height of a chain is the largest ever reported for it.", "quantifier": "every history of calls", "why_tests_cant": "unbounded histories", "anchors": ["types.go:LastBlockMap"]}
{"id": "C66", "title": "A write that reports success was made, one that reports an error changed nothing", "statement": "On any stack of open databases, Put, Delete and the commit of an own batch that return no error have their full effect, and those that fail leave all contents unchanged.", "quantifier": "every stack of database wrappers, contents and operation", "why_tests_cant": "all combinations of wrappers", "anchors": ["db/ldb.go:Batch", "db/cacheddb.go:Put", "db/memdb.go:Put", "db/readonly.go:Put"]}
{"id": "C67", "title": "A read-only database reads like the one below and never changes it", "statement": "All reads through ReadOnly(db) return what db holds, all writes are refused, and the contents of db never change; GetNilError reports not-found exactly for absent or empty values.", "quantifier": "every history", "why_tests_cant": "unbounded histories", "anchors": ["db/readonly.go:ReadOnly", "db/types.go:GetNilError"]}
{"id": "C68", "title": "Batched puts are puts", "statement": "A BatchPutter with a modulus other than 0 leaves the trie as the same sequence of Put calls would, counts them, and leaves nothing to commit after every multiple of the modulus; modulus 0 panics.", "quantifier": "every history before and after, every list of puts, every modulus", "why_tests_cant": "commits and collapses in between depend on unbounded histories", "anchors": ["trie/utils.go:BatchPutter"]}
{"id": "C69", "title": "History proofs are accepted only for what is in the tree", "statement": "HistoryProof(height, hash) accepts the proofs GetProof gives, with the root as result. A proof made by anybody, with 64 siblings, that HistoryProof accepts for a height and a 32-byte hash and that leads to the root of a list of values, shows that the hash is the value at that height (or that the hash is the hash of the empty string and there is no such value), unless the hash function collides. The number of siblings is not checked, and without it the claim is false.", "quantifier": "every list of values, every proof object, every height and hash", "why_tests_cant": "a statement about all forged proofs", "anchors": ["trie/proof.go:ProofChain.HistoryProof", "trie/proof.go:ProofChain.BigKey", "trie/proof.go:ProofChain.Proof", "hash.go:MerkleProofs.BigKey"]}
{"id": "C70", "title": "Typed RLP encoding and decoding agree", "statement": "For every Go type built from bool, uints, big.Int, uint256.Int, strings, byte slices and arrays, slices, arrays, structs (with optional, tail and nil tags), pointers and interface{}: EncodeToBytes writes exactly the RLP encoding of the item the value stands for and fails for values that stand for none; DecodeBytes accepts exactly the canonical encodings of items that fit the type and returns the value the item stands for, and always ends; a value without nil pointers comes back (nil slices as empty ones); without optional fields decoded bytes are written back byte for byte; with optional fields writing back never lengthens the bytes and decodes to the same value.", "quantifier": "all types of any depth, all values of those types, all byte strings shorter than 2^64", "why_tests_cant": "types, values and inputs are unbounded trees; tests pick a few structs", "anchors": ["rlp/encode.go:EncodeToBytes", "rlp/encode.go:makeWriter", "rlp/encode.go:makeStructWriter", "rlp/encode.go:makePtrWriter", "rlp/decode.go:DecodeBytes", "rlp/decode.go:makeDecoder", "rlp/decode.go:makeStructDecoder", "rlp/decode.go:decodeListSlice", "rlp/decode.go:decodeByteArray", "rlp/decode.go:makeNilPtrDecoder", "rlp/internal/rlpstruct/rlpstruct.go:ProcessFields"]}
{"id": "C71", "title": "Worker pool", "statement": "A RoutinePool hands every posted event to workFunc: each queue delivers its events in the order they were posted, none lost, invented or repeated; workFunc is called exactly once for every event taken that is not nil; no more than poolSize calls are in progress at once, whatever the calls of Start and Stop; a worker takes a low-priority event only after it has found the high-priority queue empty since its previous event; when Stop has returned no call is in progress and no event is taken until the next Start; a waiting Stop can always return; nothing panics as long as Start took effect at most once; the count kept for a key is the number of workers handling an event with that key, and a key nobody handles has no entry; a running pool comes to rest only when every posted event has been handled, and a client posting to it is never stuck.", "quantifier": "every pool size, queue size (also 0), key function, number of clients with any sequence of Start, Stop, PostHigher and PostLower calls, and every interleaving of their steps with those of the workers", "why_tests_cant": "The outcome depends on the interleaving of goroutines and on the random choice of select; a test sees one schedule.", "anchors": ["routinepool.go:NewRoutinePool", "routinepool.go:Start", "routinepool.go:Stop", "routinepool.go:PostHigher", "routinepool.go:PostLower", "routinepool.go:work", "routinepool.go:event", "routinepool.go:KeyCount"]}
{"id": "C72", "title": "Databases under concurrent use", "statement": "However many threads call Get, Has, Put, Delete and Batch of one cached or temporary database, and however the calls overlap, every call answers as if all calls had been made one after the other on a single key-value store, each at some moment between its call and its return (linearizability): no stale value survives in the cache after a write, and no reader sees part of a batch. The only exception is Has of a cached database, which may answer true for an absent key. The same holds of the single-key calls of a memory database. No call deadlocks: without new calls, every schedule ends after boundedly many steps with all calls returned.", "quantifier": "every number of threads, every sequence of calls per thread, every interleaving of their accesses to lock, cache, map and database below, every cache size, every order of ranging over a map, every database below", "why_tests_cant": "The interleavings of lock operations and cache accesses are unbounded in number; a race test sees a few.", "anchors": ["db/cacheddb.go:Put", "db/cacheddb.go:Get", "db/cacheddb.go:Has", "db/cacheddb.go:Delete", "db/cacheddb.go:Batch", "db/readonly.go:Temporary", "db/readonly.go:Put", "db/readonly.go:Get", "db/readonly.go:Has", "db/readonly.go:Delete", "db/readonly.go:Batch", "db/memdb.go:Put", "db/memdb.go:Get", "db/memdb.go:Batch"]}
{"id": "C73", "title": "Process-wide tables under concurrent use", "statement": "Registrations and questions of the reserved-address registry made by any number of threads answer as if made one after the other; an address is reserved exactly if some earlier registration mentions it, a system contract exactly if it was registered as one, free of gas exactly if registered as a system contract without gas, unchecked exactly if registered so; nobody sees part of a registration, so whoever sees an address as system contract or unchecked also sees it as reserved. Set, Get and CAS of the watched heights are atomic in the same sense.", "quantifier": "every number of threads, every sequence of registrations, questions and updates, every interleaving of map accesses and lock operations", "why_tests_cant": "The tables are written entry by entry; whether a half-made registration is visible depends on the schedule.", "anchors": ["basic.go:RegisterReservedAddress", "basic.go:RegisterSystemContract", "basic.go:RegisterNoCheckAddress", "basic.go:IsReserved", "basic.go:NoCheck", "basic.go:IsSystemContract", "basic.go:IsNoGas", "basic.go:LastBlockMap"]}
{"id": "C74", "title": "Data nodes and auditors of a chain", "statement": "Starting from no data nodes or from a list in ascending order, every sequence of AddDataNode, RemoveDataNode, HasDataNode, Index, GetDataNodes and Sort answers as a set of node ids would: adding reports whether the node was new, removing reports whether it was there (or nothing was), the list is always ascending without duplicates. Sort makes any list without duplicates usable. GetAuditorIds is the ascending list without duplicates of genesis data nodes, data nodes and auditors, whatever order the map is walked in.", "quantifier": "every initial ascending list, every sequence of calls, every order of ranging over the map", "why_tests_cant": "The answers come from binary search in a list that every earlier call must have kept in order; a test tries a few histories.", "anchors": ["chaininfo.go:AddDataNode", "chaininfo.go:RemoveDataNode", "chaininfo.go:HasDataNode", "chaininfo.go:Index", "chaininfo.go:GetDataNodes", "chaininfo.go:GetAuditorIds", "chaininfo.go:GetAuditorMap", "chaininfo.go:Sort"]}
{"id": "C75", "title": "Boot nodes of a chain", "statement": "With boot nodes named by the lower-case hex string of their node id, every sequence of AddBootNode and RemoveBootNode from an empty list, and from a list of one chain after Sort, answers as a map from node ids to servers would: the first server of an id stays, adding reports whether the id was new, removing reports whether it was there (or nothing was), the list is in ascending order of the ids. Dataserver.Compare is a total preorder by chain and then name; it is 0 exactly for the same chain and name.", "quantifier": "every sequence of calls, every set of servers, every implementation of sort.Slice that keeps its promise", "why_tests_cant": "AddBootNode searches by string and RemoveBootNode by decoded bytes; that the two orders agree is a statement about all strings.", "anchors": ["chaininfo.go:AddBootNode", "chaininfo.go:RemoveBootNode", "chaininfo.go:Sort", "chaininfo.go:Dataserver.Compare", "chaininfo.go:Dataserver.hashSerialize"]}
{"id": "C76", "title": "Attributes of a chain", "statement": "ChainAttrs.Add fails exactly if one of the given strings is not an attribute, and then changes nothing; otherwise the list holds exactly the old and the given attributes, gains no duplicates, and is in ascending order if it was before, or if it was a non-empty list without duplicates and at least one attribute was given.", "quantifier": "every list, every sequence of attributes", "why_tests_cant": "The loop keeps order and absence of duplicates step by step; both depend on the whole list.", "anchors": ["chaininfo.go:ChainAttrs.Add", "chaininfo.go:ChainAttr.IsValid", "chaininfo.go:ChainAttrs.Contains"]}
{"id": "C77", "title": "ABI type descriptions and signatures", "statement": "NewType accepts every description of an ABI type (integers, bool, address, string, bytes, fixed bytes, function, tuples of any depth, arrays and slices of any depth) and gives the type described: same kind, sizes and components; its text is the canonical text of the type; a tuple keeps its component names and gets distinct exported Go field names. NewType never panics on any text, unless reflect cannot make a component type. Different types have different canonical texts, so two methods or events with the same signature have the same name and argument types. Parsing the textual selector of a method and making types of the parsed arguments gives the argument types, and the signature computed from them is the text again.", "quantifier": "every type of any nesting, every description of it, every method name, every text for the panics", "why_tests_cant": "The grammar is recursive; brackets are peeled from the end, tuples recurse through components, and the text is rebuilt on the way.", "anchors": ["abi/type.go:NewType", "abi/type.go:isValidFieldName", "abi/argument.go:ToCamelCase", "abi/utils.go:ResolveNameConflict", "abi/selector_parser.go:ParseSelector", "abi/method.go:NewMethod", "abi/event.go:NewEvent", "abi/error.go:NewError"]}
{"id": "C78", "title": "ABI built from its entries; calls, results, errors and lookups by id", "statement": "Reading the entries of an ABI succeeds exactly when all types are accepted, all kinds known, there is at most one fallback and one receive, and the receive is payable; it never panics (unless a type description does). The ABI then has one method per function entry and one event per event entry and no others, under pairwise different names: the entry's own name, or that name with the smallest free number if an earlier entry took it; signature and id come from the entry's name and types; later entries never change earlier ones; unnamed event and error arguments are called arg0, arg1, ... Pack by name yields the id and the encoded arguments; MethodById, in any map order, finds a method with that id, this very one if ids differ, and unpacking the rest gives the arguments back; ids differ unless signatures agree or the hash collides on its first four bytes. Results, event data, revert reasons and errors likewise read back what was written, and UnpackRevert never panics.", "quantifier": "every list of entries of any length and naming, every method and argument values, every map iteration order, every hash function of 32 bytes", "why_tests_cant": "Overload names depend on all earlier entries and map order is random; the round trips range over all types and values.", "anchors": ["abi/abi.go:JSON", "abi/abi.go:UnmarshalJSON", "abi/abi.go:Pack", "abi/abi.go:Unpack", "abi/abi.go:MethodById", "abi/abi.go:EventByID", "abi/abi.go:UnpackRevert", "abi/abi.go:PackEventArgs", "abi/abi.go:InputUnpack", "abi/abi.go:PackReturns", "abi/method.go:NewMethod", "abi/event.go:NewEvent", "abi/error.go:NewError", "abi/error.go:Unpack"]}
{"id": "C79", "title": "Arguments and the fields of structs", "statement": "When values are copied into a struct, or a tuple is packed from one, an argument is paired with the public field tagged with its name, else with the field of its camel case name, and with no other; no two arguments share a field; pairing succeeds exactly under stated conditions on tags and names. After a copy every value is in its argument's field and all other fields are as before, and packing a tuple with these names reads the same values back in order. For the struct made by NewType, packing by name and unpacking by position agree whenever the component names differ in camel case.", "quantifier": "every struct type (fields, tags), every list of argument names and values, every previous content of the struct", "why_tests_cant": "Tags, case conversion and name collisions interact; tests try a few structs.", "anchors": ["abi/reflect.go:mapArgNamesToStructFields", "abi/argument.go:copyTuple", "abi/thinkium.go:copyTupleEvent", "abi/type.go:pack"]}
{"id": "C80", "title": "Revertable history: commit, rollback, isolation and restart", "statement": "A revertable history tree answers as a committed list and a working list do: Append works on the working list only; Expecting, HashValue, Get and GetProof answer from the committed list, whatever was appended or pre-committed since; PreHashValue and PreCommit return the root of the working list; Commit and CommitAndHash make the working list the committed one; Rollback makes all later answers those of a tree that never saw the appends since the last commit; and every root handed out by PreCommit or CommitAndHash can be opened again at any later time, giving exactly the list it stood for. No call panics.", "quantifier": "every sequence of calls and restarts, of any length, on any keys and 32-byte values, for every hash without collisions on the strings hashed in it", "why_tests_cant": "Committed and working tree share nodes, caches and a database; only a refinement over all call sequences shows that they never influence each other.", "anchors": ["trie/revertable.go:RevertableHistoryTree"]}
{"id": "C81", "title": "Chop of a history tree", "statement": "Chop(k) of a history tree whose values have been committed succeeds exactly if the key k is in the tree, and gives a tree that answers Get, Expecting, HashValue, GetProof and Append, in any order, as a tree to which only the values of the keys 0..k were ever appended: keys after k are absent, the root is the one of the shorter list, proofs verify against it, the next key to append is k+1. The original tree, and all other trees on the same database, answer as if there had been no Chop, and appends to either do not show in the other. Once a value has been appended to the new tree, commits, collapses, clones and reopened roots of it work too. A key that is not in the tree is an error and changes nothing.", "quantifier": "every sequence of calls on a family of trees before the Chop, every key, every sequence of calls after it, of any length", "why_tests_cant": "Chop keeps some cached hashes and drops others by a rule on bit prefixes and shares collapsed children through the database; whether exactly the right ones stay depends on the key, the length and which hashes happen to be cached.", "anchors": ["trie/historytree.go:Chop", "trie/historytree.go:_chop", "trie/historytree.go:copy"]}
{"id": "C82", "title": "History tree restored from a proof", "statement": "RestoreTreeFromProofs, given the key, value and proof that GetProof of any history tree returned, succeeds on any database, also an empty one. The restored tree has the root of the original one and the value of that key. If the key is the last one, the restored tree carries on in place of the original: Expecting is the next key, appends are accepted and refused as there, Get finds the restored value and all values appended since, and HashValue after any appends is the root of the whole list, though the earlier values are not there.", "quantifier": "every sequence of calls on a family of trees, every tree and key of it, every database for the restored tree and every sequence of calls on it", "why_tests_cant": "The tree is rebuilt from the sibling hashes of the proof only, put at bit positions that depend on the key; whether they are enough for all roots that later appends lead to cannot be tried for all keys and lengths.", "anchors": ["trie/historytree.go:RestoreTreeFromProofs", "trie/historytree.go:_newNodeByHashItems", "trie/historytree.go:_mergeHashItems"]}
{"id": "C83", "title": "Integers in place", "statement": "Any sequence of statements that store the result of Add, Sub, Mul, Div, SetInt, MulRat, AddInts, SubIntNotLessZero or MustPositive in the variable they were called on, or that create or Clone values, gives the variables the values that integer arithmetic gives, with nil as 0: quotients are Euclidean, the only panic is division by 0, SubIntNotLessZero takes away the smaller of the two numbers and 0 unless both are positive. Each call changes no number in memory except its receiver, also when variables share one, and Clone and NewBigInt give numbers of their own. Sign, Positive, Negative, IsZero, Compare of numbers that are not negative, ToUint64 and HexString tell the value.", "quantifier": "every memory, all pointers into it (also equal ones and nil), every sequence of statements over any number of variables", "why_tests_cant": "Methods work in place on shared numbers, and which of them return the receiver, a new number or nil depends on the values; a test cannot try all ways variables share numbers nor all sequences of statements.", "anchors": ["math/big.go:BigInt", "math/big.go:NewBigInt", "math/big.go:AddBigInt", "math/big.go:CompareBigInt", "math/big.go:CopyBigInt", "math/big.go:MustBigInt", "math/big.go:MustPositiveInt"]}
{"id": "C84", "title": "Merging proofs", "statement": "A history tree restored from the proof of one key takes proofs of further keys: MergeProof succeeds exactly if the 64 siblings of the proof lead from the given 32-byte value along the bits of the key to the root of the tree, so a value is taken only if it is the value of that key in the list behind the root. After any sequence of such calls every key taken so far is read with its value and HashValue stays the root. The proofs that GetProof gives of the keys of a tree are all taken by a tree restored from one of them.", "quantifier": "every list of 32-byte values and every tree that represents it, every restored key, every sequence of MergeProof, Get and HashValue calls with proofs of 64 siblings, also wrong ones, as long as no key offered lies in the other block of 16 of a pair of blocks with a key that was taken", "why_tests_cant": "Which nodes are merged and which are made depends on all the keys merged before and on where their paths part; a test tries few keys and cannot try every wrong proof.", "anchors": ["trie/historytree.go:HistoryTree.MergeProof", "trie/historytree.go:TreeNode._mergeHashItems", "trie/historytree.go:_newNodeByHashItems", "trie/historytree.go:RestoreTreeFromProofs", "trie/historytree.go:HistoryTree.GetProof"]}
{"id": "C85", "title": "Numbers as text", "statement": "ParseUint64 and ParseBig256 give the number that the text denotes (empty text is 0, hexadecimal after 0x or 0X, else decimal, leading zeros allowed, for ParseBig256 a sign before the digits) if it fits in 64 or 256 bits, and refuse all other text. Every uint64 and every non-negative number below 2^256 printed by HexOrDecimal64 or HexOrDecimal256 and every number of absolute value below 2^256 printed by Decimal256 is read back as itself, and larger ones are refused. BigStringForPrint of any decimal number gives text that denotes the same number, so BigIntForPrint prints different numbers differently, and BigForPrint begins with the number in full.", "quantifier": "every byte string, every number", "why_tests_cant": "Overflow checks, prefixes, signs, leading and trailing zeros interact; a test tries a handful of strings.", "anchors": ["math/integer.go:ParseUint64", "math/integer.go:HexOrDecimal64", "math/big.go:ParseBig256", "math/big.go:HexOrDecimal256", "math/big.go:Decimal256", "math/big.go:BigStringForPrint", "math/big.go:BigIntForPrint", "math/big.go:BigForPrint"]}
{"id": "C86", "title": "Rounding of rationals", "statement": "A rational n/d becomes the nearest float64 first. RatToInt64 gives the smallest integer not below n/d whenever the numerator is below 2^53 in absolute value and, for every n/d up to 2^63 - 1024, that integer up to a relative error of 2^-53; RatToInt64Floor gives the largest integer not above n/d for non-negative numerators below 2^53; both report every number of absolute value 2^63 + 2048 or more as too large. Int64MulRat(i, n/d) is the smallest integer not below i*n/d whenever |i*n| is below 2^53.", "quantifier": "every rational with denominator up to 2^1022, every int64", "why_tests_cant": "The detour over float64 rounds to even at places that depend on the number; a test tries a few fractions.", "anchors": ["math/big.go:RatToInt64", "math/big.go:RatToInt64Floor", "math/big.go:Int64MulRat"]}
{"id": "C87", "title": "Addresses, hashes, seeds and node ids", "statement": "Every address (20 bytes), seed (20), hash (32) and node id (64) is read back from its bytes, its number and each of its texts: HexToAddress(a.Hex()) and HexToAddress(a.String()) are a whatever letters the checksum makes upper case, HexToHash(h.Hex()) is h, UnmarshalText undoes MarshalText and takes no other text but for upper and lower case, ParseNodeID undoes the printed form. Bytes, numbers and hexadecimal digits of any length become the value of the same big-endian number without what does not fit. IsHexAddress holds for exactly forty digits after an optional 0x. Node ids end to end are parsed and packed without loss, and refused exactly if the length is no multiple of 64. Comparison is a total order with nil first that agrees with the numbers. Contract addresses differ if creator and nonce, or creator, salt and code hash differ, and one kind never meets the other, unless the hash function collides on the two inputs.", "quantifier": "every byte string, number, text, list of node ids, every hash function", "why_tests_cant": "Padding, cropping, prefixes, odd lengths and letter case depend on lengths and on a hash; uniqueness of contract addresses is about all pairs.", "anchors": ["basic.go:BytesToAddress", "basic.go:Address.Hex", "basic.go:HexToAddress", "basic.go:IsHexAddress", "basic.go:BytesToHash", "basic.go:BigToHash", "basic.go:ParseNodeID", "basic.go:ParseBytesToNodeIds", "basic.go:PackNodeIdsToBytes", "basic.go:StringsToNodeIDs", "basic.go:Address.Cmp", "basic.go:CreateAddress", "basic.go:CreateAddress2", "basic.go:AddressFromPubSlice", "basic.go:Address.SetBytes"]}
{"id": "C88", "title": "Header hashes and hash comparison", "statement": "What HeaderIndexHash hashes contains chain id, height and index, so hashes of different header properties differ unless the hash function collides on the two inputs. HashSliceEquals and HashEquals hold exactly if the two hashes are equal when nil and empty count as the hash of nothing.", "quantifier": "every chain id, height and index, every pair of hashes, every hash function", "why_tests_cant": "Injectivity is about all pairs of positions; the comparison merges three values.", "anchors": ["hash.go:ToHeaderPosHashBuffer", "hash.go:HeaderIndexHash", "hash.go:HashSliceEquals", "hash.go:HashEquals", "hash.go:HashRipemd160"]}
{"id": "C89", "title": "The type cache of package rlp under concurrent use", "statement": "Encoding and decoding may be used for any types from any number of goroutines in any order, and a panic while a type is prepared may happen anywhere: a goroutine that got the functions of a supported type, recursive types included, never meets a function that is not made yet on any way down through the parts of the type. All goroutines get the same functions for a type and these never change afterwards. A type is refused only if it contains something that is not supported, and an unsupported type that is not recursive is always refused. One goroutine prepares types at a time, and no call is ever stuck.", "quantifier": "every set of types and their parts, every number of goroutines, every schedule, every point of a panic", "why_tests_cant": "The cache is read without a lock while another goroutine fills a copy; recursive types are looked up before they are finished. Tests see a few schedules and types.", "anchors": ["rlp/typecache.go:typeCache.info", "rlp/typecache.go:typeCache.generate", "rlp/typecache.go:typeCache.infoWhileGenerating", "rlp/typecache.go:structFields", "rlp/decode.go:makeDecoder", "rlp/encode.go:makeWriter"]}
{"id": "C90", "title": "Incremental encoding gives the encoding", "statement": "Whatever is written with the methods of an EncoderBuffer, with lists nested to any depth, ToBytes gives the concatenated encodings of what was written, AppendToBytes puts them behind its argument, and Flush writes them to the destination. Without raw bytes this is the RLP encoding of the tree of strings and lists. A destination that fails after r bytes has got the first r bytes, and there is an error just if there were more.", "quantifier": "every sequence of values and nested lists up to 2^64 bytes, every destination", "why_tests_cant": "The list headers are kept apart from the strings and mixed in at the end, in three places of the code; nesting is unbounded.", "anchors": ["rlp/encbuffer.go:EncoderBuffer.ToBytes", "rlp/encbuffer.go:EncoderBuffer.AppendToBytes", "rlp/encbuffer.go:EncoderBuffer.Flush", "rlp/encbuffer.go:encBuffer.writeTo", "rlp/encbuffer.go:EncoderBuffer.ListEnd"]}
{"id": "C91", "title": "Encoders that share the buffer pool do not disturb each other", "statement": "Any number of goroutines may make encoders and encoding readers, write, flush, reset and read in any order, while buffers pass from one to the other through the pool: if none works on a buffer after it gave it back, each gets exactly the answers it gets alone with fresh buffers. So an encoder, also through encoders derived from it, outputs exactly what was written to it, Reset throws away what was written and leaves the encoder usable, except for a derived one, where it panics, and a reader of EncodeToReader gives exactly the encoding and reports its end just when all was read.", "quantifier": "every number of goroutines, every schedule, every choice of the pool, every program that does not use a buffer after Flush", "why_tests_cant": "What the pool hands out depends on the scheduler and the garbage collector; a buffer in two hands shows only in rare schedules.", "anchors": ["rlp/encbuffer.go:NewEncoderBuffer", "rlp/encbuffer.go:EncoderBuffer.Reset", "rlp/encbuffer.go:EncoderBuffer.Flush", "rlp/encbuffer.go:encReader.Read", "rlp/encode.go:EncodeToReader", "rlp/encbuffer.go:getEncBuffer"]}
{"id": "C92", "title": "A dumped trie can be opened in the other database", "statement": "Dump of a trie opened at any committed root writes to the destination just copies of entries of the source. If it reports no error, a trie opened with the same root hash on the destination answers every Get as the contents at the commit, whatever the destination held before, and the value callback was called exactly once for each (non-empty) key, in key order, with the encoded value. It fails only if a write fails; the calls made are then the first of those. The trie that Rebase returns has the same root hash and reads the same contents on a database into which they were dumped.", "quantifier": "every history of calls on the tries of the source, every committed root, every destination and pattern of failing writes, every set of prefix-free keys", "why_tests_cant": "The copy must reach every node of trees of any shape while the walk itself expands and collapses them; one node that is missed shows only when its keys are read from the destination.", "anchors": ["trie/trie.go:Trie.Dump", "trie/trie.go:Trie.Rebase", "trie/iterator.go:nodeIterator.Next", "hash.go:InvalidHash"]}
{"id": "C93", "title": "The struct tags of package rlp mean what they say", "statement": "A struct is accepted exactly if the tags of its exported fields are in order: only the words -, nil, nilString, nilList, optional and tail, comma separated; nil words on pointers; tail on a slice that is the last exported field and not with optional; and all encoded fields behind an optional one are optional or tail. Then just the exported fields that are not ignored are encoded, in the order of the struct, each with what its tag says (the last nil word decides); their order is the one the encoder and decoder rely on. Fields that are not exported do not matter.", "quantifier": "every list of fields with any types and any tag bytes", "why_tests_cant": "Tags combine freely over fields, words, order and white space; a wrong combination that is accepted gives an encoding that cannot be decoded.", "anchors": ["rlp/internal/rlpstruct/rlpstruct.go:ProcessFields", "rlp/internal/rlpstruct/rlpstruct.go:parseTag", "rlp/internal/rlpstruct/rlpstruct.go:lastPublicField", "rlp/internal/rlpstruct/rlpstruct.go:Type.DefaultNilValue"]}
{"id": "C94", "title": "Code generated by rlpgen encodes and decodes like package rlp", "statement": "A generated EncodeRLP method writes exactly the bytes that EncodeToBytes writes for the value in which optional fields holding an empty slice are nil, and fails when that fails. For types without nil tags a generated DecodeRLP method accepts exactly the inputs that DecodeBytes accepts, returns the same value with nil slices for empty ones, and always ends; with nil tags it reads what DecodeBytes reads if no pointer with a nil tag is nil. What the generated encoder writes is read back by the generated decoder and by DecodeBytes, up to the difference between nil and empty slices.", "quantifier": "every type code is generated for, every value and every input bytes (encodings below 2^64 bytes)", "why_tests_cant": "Generated code and reflection are two implementations of one format; they must agree on every type, value and malformed input, and tests compare a few generated files with their expected text.", "anchors": ["rlp/rlpgen/gen.go:structOp", "rlp/rlpgen/gen.go:ptrOp", "rlp/rlpgen/gen.go:sliceOp", "rlp/rlpgen/gen.go:basicOp", "rlp/rlpgen/gen.go:byteArrayOp", "rlp/rlpgen/gen.go:bigIntOp", "rlp/rlpgen/gen.go:uint256Op", "rlp/rlpgen/types.go:nonZeroCheck", "rlp/decode.go:Stream.ReadBytes", "rlp/decode.go:Stream.MoreDataInList"]}
{"id": "C95", "title": "A header property proof shows that property of that header", "statement": "A proof is accepted for chain c and height h exactly if its type stands for a header property i and it carries the hash of (c, h, i); a summary proof exactly if it carries the hash of (c, h); no proof is accepted for two headers. If a chain that starts with such a proof verifies for v against the hash of a header (Merkle root over the keyed property hashes), then the header is at (c, h) and v is its property i, unless one of its property hashes is a hash computed on the path, which a path of the tree's height excludes. Likewise for lists of header summaries. The proof the code builds for a property or a summary is accepted and verifies.", "quantifier": "every hash function without a collision among the strings hashed, every header or summary list, every proof chain an adversary may present", "why_tests_cant": "Soundness ranges over all chains an adversary can construct; tests check only the chains the library builds.", "anchors": ["trie/proof.go:NodeProof.IsHeaderOf", "trie/proof.go:NodeProof.IsHeaderPropertyOf", "trie/proof.go:NodeProof.IsHdsSummaryOf", "trie/proof.go:ProofType.IsProofHeaderProperty", "trie/proof.go:NewHeaderPropertyProof", "trie/proof.go:NewHdsSummaryProof", "trie/proof.go:VerifyProofChain", "hash.go:ToHeaderPosHashBuffer", "hash.go:HeaderIndexHash"]}
{"id": "C96", "title": "A proof chain can be flattened into one Merkle proof and compared by value", "statement": "Turning a non-empty proof chain into a Merkle proof fails exactly if the chain cannot be walked; otherwise the Merkle proof takes the same steps, so it maps every hash to the root the chain maps it to, has as many steps as its length says, and stores equal neighbouring hashes once. For chains of Merkle-only proofs the position (BigKey) is kept. Two chains flatten to Equal Merkle proofs exactly if they take the same steps, and Equal on chains holds exactly of chains with the same proofs.", "quantifier": "every proof chain whose hashes are 32 bytes long, every hash to be proved", "why_tests_cant": "The claim is about all chains, including those an adversary presents and those with repeated hashes across proof boundaries; tests use random chains.", "anchors": ["trie/proof.go:ProofChain.ToMerkles", "trie/proof.go:ProofChain.Equal", "trie/proof.go:NodeProof.Equal", "trie/node.go:NodeHeader.Equal", "hash.go:MerkleProofs.Equal", "hash.go:MoreTimes.Equal", "math/big.go:CompareBigInt"]}
{"id": "C97", "title": "A trie shared by goroutines is a map", "statement": "Any number of goroutines may call Get, Put, PutValue, Delete, HashValue, Commit and CommitAndHash on one trie (or on a SyncTrie around it). Every call answers as a map does when the calls are made one after the other, in an order in which a call that returned before another was made comes first; HashValue and CommitAndHash answer the root hash of the contents at their moment. No call panics and, once no more calls are made, every call returns. Collapse is not protected: a Put that comes between its test and its effect is lost.", "quantifier": "every number of goroutines, every sequence of calls by each, every interleaving of their steps, every set of keys none of which is a proper prefix of another", "why_tests_cant": "The claim is about all schedules; tests run a handful.", "anchors": ["trie/trie.go:Trie.Get", "trie/trie.go:Trie.Put", "trie/trie.go:Trie.PutValue", "trie/trie.go:Trie.Delete", "trie/trie.go:Trie.HashValue", "trie/trie.go:Trie.Commit", "trie/trie.go:Trie.CommitAndHash", "trie/trie.go:Trie.Collapse", "trie/synctrie.go:SyncTrie"]}
{"id": "C98", "title": "A clone of a chain description is equal and independent; administrators are recognised exactly", "statement": "A clone of the description of a chain shows in every field what the original shows, with nil kept apart from empty. After that no write through the lists of one, or through the public keys in them, is seen through the other. PubIsAdmin answers true exactly for the non-empty keys in the list of administrators, AddrIsAdmin exactly for the addresses of uncompressed keys in it. The two agree on the keys that have an address as long as addresses do not collide. A nil description has no administrators.", "quantifier": "every description whose slices lie inside arrays that exist, with any sharing of arrays between its fields; every later state of the memory; every list of administrators, key and address", "why_tests_cant": "Sharing of memory shows only when somebody writes to the right place later; a test writes to a few places.", "anchors": ["chaininfo.go:ChainInfos.Clone", "chaininfo.go:ChainInfos.AddrIsAdmin", "chaininfo.go:ChainInfos.PubIsAdmin", "chaininfo.go:ChainAttrs.Clone", "basic.go:NodeIDs.Clone", "bytes.go:CopyBytesSlice", "bytes.go:CopyBytes"]}
{"id": "C99", "title": "Attribute lists of a chain in memory", "statement": "ChainAttrs.Add changes the list it is called on to the sorted union, whatever the capacity of the list and however append grows, and writes to no memory but the array of that list. FromMap answers the attributes of a map, each once and in ascending order, whatever the order in which Go ranges over the map; ToMap followed by FromMap sorts and removes duplicates. FromMap writes to no memory but the array of its receiver, and to none if the receiver is too small. It does overwrite the list it is called on when that is large enough, and Add disturbs a list that was assigned instead of cloned.", "quantifier": "every memory, every slice inside an array of it with any capacity, every growth strategy of append, every order of ranging over a map, every list of attributes", "why_tests_cant": "The order of ranging over a map and the capacity of a slice are not under the control of a test.", "anchors": ["chaininfo.go:ChainAttrs.Add", "chaininfo.go:ChainAttrs.FromMap", "chaininfo.go:ChainAttrs.ToMap", "chaininfo.go:ChainAttrs.Clone"]}
{"id": "C100", "title": "The list of data nodes in memory", "statement": "Any sequence of AddDataNode, RemoveDataNode, HasDataNode, Index, GetDataNodes and Sort on a chain description gives the answers a set of nodes gives, whatever the capacity of the list and however append grows, and writes to no memory that existed before but the array of the list. RemoveDataNode changes no list that anybody holds; neither does AddDataNode if the list has no room left. If there is room, AddDataNode changes the list that GetDataNodes answered before: it can show the new node and lack one that is still a data node.", "quantifier": "every sequence of calls, every memory and every slice inside an array of it with any capacity, every growth strategy of append", "why_tests_cant": "Whether a held list changes depends on the spare capacity the runtime left in it.", "anchors": ["chaininfo.go:ChainInfos.AddDataNode", "chaininfo.go:ChainInfos.RemoveDataNode", "chaininfo.go:ChainInfos.GetDataNodes", "chaininfo.go:ChainInfos.HasDataNode", "chaininfo.go:ChainInfos.Sort"]}
{"id": "C101", "title": "A clone of a proof chain is equal and independent", "statement": "A clone of a proof chain shows at every depth what the original shows, with nil kept apart from empty: the steps, their keys and value hashes, their Merkle proofs with hashes, path and repeats. After that nothing that is written to memory that existed before is seen through the clone, and nothing that is written to memory taken since is seen through the original. The same holds of a clone of one step, of a Merkle proof and of a big integer.", "quantifier": "every memory and every proof chain in it, with any sharing inside the chain; every later state of the memory", "why_tests_cant": "A shared array shows only when somebody writes to it; a test writes to a few places.", "anchors": ["trie/proof.go:ProofChain.Clone", "trie/proof.go:NodeProof.Clone", "trie/node.go:NodeHeader.Clone", "trie/node.go:KeyPart.Clone", "hash.go:MerkleProofs.Clone", "hash.go:MoreTimes.Clone", "math/big.go:CopyBigInt"]}
{"id": "C102", "title": "The hash of a binary node binds its children", "statement": "Two binary nodes whose children are nil or hashes have the same hash exactly if their left children count as the same and their right children count as the same, where nil counts as the hash of nothing; and none has the hash of a nil node. A nil child cannot be told from the hash of nothing, and children of other lengths cannot be told apart.", "quantifier": "every hash function with 32-byte results without a collision on the strings hashed, every two nodes", "why_tests_cant": "Tests compare a few nodes; the claim is about all pairs.", "anchors": ["trie/binarytree.go:BinaryNode.HashValue", "hash.go:HashPair"]}
{"id": "C103", "title": "A revertable history tree shared by goroutines is a committed and a working list", "statement": "Any number of goroutines may call the methods of one RevertableHistoryTree. There is an order of the calls, in which a call that returned before another was made comes first, such that every call answers as the committed list and the working list do when the calls are made one after the other in that order; no call panics. Once no more calls are made, every call returns.", "quantifier": "every number of goroutines, every sequence of calls by each, every interleaving of their steps, every hash function without a collision on the strings hashed", "why_tests_cant": "The claim is about all schedules; tests run a handful.", "anchors": ["trie/revertable.go:RevertableHistoryTree.Append", "trie/revertable.go:RevertableHistoryTree.Get", "trie/revertable.go:RevertableHistoryTree.PreCommit", "trie/revertable.go:RevertableHistoryTree.Commit", "trie/revertable.go:RevertableHistoryTree.Rollback"]}
