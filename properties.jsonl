{"id": "C01", "title": "Lookup returns the last acknowledged value of a stored key", "statement": "After any history, if the last acknowledged Finalize for key k stored value v and k was not deleted since, Lookup(k) returns (v truncated to 55 bits, true).", "quantifier": "every sequence of API calls (any number of clients, allocators and simultaneously open operations, each call taken as one step), every prefix-free key universe, every value", "why_tests_cant": "The tree shape depends on the whole history (path compression, node growth, node-256, merges, recycled memory); tests sample a few histories.", "anchors": ["radix.go:search", "radix.go:Tree.Lookup", "allocator.go:Allocator.Lookup", "update.go:Finalize", "delete.go:Finalize"]}
{"id": "C02", "title": "Lookup never invents a value", "statement": "If Lookup(k) returns (v, true) then v is the current value of some stored key k' (a candidate the caller must compare with k; the only other candidates are keys whose acknowledged delete overlapped another Finalize, see C36); if Lookup returns (_, false) then k is not stored; Lookup changes nothing.", "quantifier": "every sequence of API calls (any number of clients, allocators and simultaneously open operations, each call taken as one step), every prefix-free key universe, every value", "why_tests_cant": "Needs every absent key against every reachable tree.", "anchors": ["radix.go:search"]}
{"id": "C03", "title": "A successful update changes exactly one key", "statement": "Finalize(v) of an update operation prepared for key k that returns true makes the stored map equal to the old map with k bound to v mod 2^55; no other key's value changes; it returns false (write conflict) only if another client finalized a delete since the Prepare call, and then changes nothing.", "quantifier": "every sequence of API calls (any number of clients, allocators and simultaneously open operations, each call taken as one step), every prefix-free key universe, every value", "why_tests_cant": "The claim compares the whole map before and after for every tree shape.", "anchors": ["update.go:prepareUpdate", "update.go:Finalize"]}
{"id": "C04", "title": "A successful delete removes exactly one key", "statement": "Finalize of a delete operation prepared for key k (after the caller compared the fetched key with k) that returns true removes k and leaves every other binding unchanged.", "quantifier": "every sequence of API calls (any number of clients, allocators and simultaneously open operations, each call taken as one step), every prefix-free key universe, every value", "why_tests_cant": "The claim compares the whole map before and after for every tree shape, including node merges.", "anchors": ["delete.go:prepare", "delete.go:Finalize"]}
{"id": "C05", "title": "PrepareUpdate reports the right candidate", "statement": "PrepareUpdate(k) returns found=false only if k is not stored; if k is stored it returns found=true and op.Value is k's value; if found=true op.Value is the value of some stored key with the same first byte.", "quantifier": "every sequence of API calls (any number of clients, allocators and simultaneously open operations, each call taken as one step), every prefix-free key universe, every value", "why_tests_cant": "Must hold for every key against every reachable tree.", "anchors": ["update.go:prepareUpdate", "allocator.go:PrepareUpdate", "radix.go:Tree.PrepareUpdate"]}
{"id": "C06", "title": "PrepareDelete reports the right candidate", "statement": "PrepareDelete(k) returns found=false (and a nil operation, with nothing left locked or reserved) only if k is not stored; if k is stored it returns found=true with k's value.", "quantifier": "every sequence of API calls (any number of clients, allocators and simultaneously open operations, each call taken as one step), every prefix-free key universe, every value", "why_tests_cant": "Must hold for every key against every reachable tree.", "anchors": ["delete.go:prepare", "allocator.go:PrepareDelete", "radix.go:Tree.PrepareDelete"]}
{"id": "C07", "title": "Aborting an update changes nothing and releases everything", "statement": "Abort of an update operation leaves every stored binding unchanged, releases exactly the locks the prepare call took and the epoch reservation, and never panics.", "quantifier": "every sequence of API calls (any number of clients, allocators and simultaneously open operations, each call taken as one step), every prefix-free key universe, every value", "why_tests_cant": "Lock words are shared between nodes by address; every collision pattern matters.", "anchors": ["update.go:Abort", "locks.go:unlockNodes2"]}
{"id": "C08", "title": "Aborting a delete changes nothing and releases everything", "statement": "Abort of a delete operation leaves every stored binding unchanged, releases exactly the locks the prepare call took and the epoch reservation, and never panics.", "quantifier": "every sequence of API calls (any number of clients, allocators and simultaneously open operations, each call taken as one step), every prefix-free key universe, every value", "why_tests_cant": "Depends on operation kind, tree position and lock collisions.", "anchors": ["delete.go:Abort", "locks.go:unlockNodes3"]}
{"id": "C09", "title": "Values are truncated to exactly 55 bits", "statement": "For every key byte and every 64-bit value, the value read back from a leaf is the value modulo 2^55, and a leaf word is never confused with a node word or with an empty slot.", "quantifier": "all key bytes, all 64-bit values", "why_tests_cant": "2^72 combinations.", "anchors": ["utils.go:buildLeaf", "utils.go:getLeafValue", "utils.go:isLeaf", "utils.go:updateLeafKey"]}
{"id": "C10", "title": "Node words pack and unpack losslessly", "statement": "For every key byte, slot address below 2^39, child count 1..256 and prefix length, unpacking a packed node word gives back key, address, count and min(prefix length, 255). With each of the build tags (blocks of 2, 8 or 16 MiB) the address of any slot of any of the 65536 blocks is in this range, and the block and the offset in it are recovered.", "quantifier": "all field values in range", "why_tests_cant": "2^60 combinations; a wrong mask or shift shows only for some of them.", "anchors": ["utils.go:buildNode", "utils.go:explodeNode"]}
{"id": "C11", "title": "Compressed prefixes survive storage for every length", "statement": "A prefix of any length (including 254, 255, 256 and thousands of bytes) written into node memory is read back byte for byte, the number of slots skipped by readers equals the number reserved by the writer, and bytes outside the reserved slots are untouched.", "quantifier": "all prefixes, all prior memory contents", "why_tests_cant": "All lengths and all stale memory contents.", "anchors": ["unsafe.go:storePrefix", "unsafe.go:appendPrefix", "radix.go:allocateNodeWithPrefix", "prefix.go:storePrefixSafe", "prefix.go:loadPrefixSafe"]}
{"id": "C12", "title": "No API call panics for prefix-free keys", "statement": "If all keys come from a set of non-empty keys none of which is a prefix of another, then no Lookup, PrepareUpdate, PrepareDelete, Finalize or Abort call panics or writes outside its memory.", "quantifier": "every sequence of API calls (any number of clients, allocators and simultaneously open operations, each call taken as one step), every prefix-free key universe, every value", "why_tests_cant": "The panicking sizes and shapes are rare (e.g. a node of exactly 258 slots).", "anchors": ["allocator.go:recycle", "update.go:Finalize", "delete.go:Finalize"]}
{"id": "C13", "title": "Len counts the stored keys", "statement": "In every reachable state, Len equals the number of stored keys, whichever allocators performed the operations and whether or not their counters were flushed.", "quantifier": "every sequence of API calls (any number of clients, allocators and simultaneously open operations, each call taken as one step), every prefix-free key universe, every value", "why_tests_cant": "Counter bookkeeping is spread over all operation kinds and allocators.", "anchors": ["radix.go:Len", "allocator.go:FlushStats", "allocator.go:recycle"]}
{"id": "C14", "title": "Iteration yields all values in key order", "statement": "On an unchanging tree with n keys, the first n calls of Next on a full iterator return true and yield the values of all keys in strictly ascending lexicographic key order.", "quantifier": "every reachable tree of any size and depth", "why_tests_cant": "Batching (256 prefetched values) and resuming interact with every tree shape.", "anchors": ["iterator.go:Next", "iterator.go:storeResumePosition"]}
{"id": "C15", "title": "Iteration ends after the last value", "statement": "On an unchanging tree with n keys, call n+1 of Next on a full iterator returns false.", "quantifier": "every reachable tree", "why_tests_cant": "Only particular combinations of batch size and tree shape fail.", "anchors": ["iterator.go:Next", "iterator.go:storeResumePosition"]}
{"id": "C16", "title": "Prefix iteration and prefix counting return exactly the keys with the prefix", "statement": "NewIterator(p) on an unchanging tree yields exactly the values of the stored keys having prefix p, and Count(p) returns their number.", "quantifier": "every reachable tree, every prefix", "why_tests_cant": "Every prefix against every tree shape, including prefixes ending inside compressed paths.", "anchors": ["radix.go:partialSearch", "iterator.go:Next", "counter.go:Count"]}
{"id": "C17", "title": "MinKey returns the least key with the prefix", "statement": "MinKey(p) returns the value of the lexicographically least stored key with prefix p, and ok=false only if there is none.", "quantifier": "every reachable tree, every prefix", "why_tests_cant": "Every prefix against every tree shape and deletion history.", "anchors": ["radix.go:MinKey", "radix.go:partialSearch"]}
{"id": "C18", "title": "MaxKey returns the greatest key with the prefix", "statement": "MaxKey(p) returns the value of the lexicographically greatest stored key with prefix p, and ok=false only if there is none.", "quantifier": "every reachable tree, every prefix", "why_tests_cant": "Every prefix against every tree shape and deletion history.", "anchors": ["radix.go:MaxKey", "radix.go:partialSearch"]}
{"id": "C19", "title": "Count returns the number of leaves and nodes", "statement": "Count(nil) returns the number of stored keys as leaves and the number of inner nodes as nodes.", "quantifier": "every reachable tree", "why_tests_cant": "All tree shapes.", "anchors": ["counter.go:Count", "radix.go:Count"]}
{"id": "C20", "title": "Counter statistics describe each node once", "statement": "After Count, the entries of Counter.NodeSizes sum to the number of nodes and NodesWithPrefix is at most the number of nodes.", "quantifier": "every reachable tree", "why_tests_cant": "Nodes revisited after a subtree are counted again only in some shapes.", "anchors": ["counter.go:Count", "counter.go:Counter"]}
{"id": "C21", "title": "Live memory is never handed out again", "statement": "In every reachable state the memory ranges of all nodes reachable from the root, all recycled ranges and all unallocated space of every allocator are pairwise disjoint and inside allocated blocks, so a new node never overlaps a live one.", "quantifier": "every sequence of API calls (any number of clients, allocators and simultaneously open operations, each call taken as one step), every prefix-free key universe, every value", "why_tests_cant": "Depends on recycling, splitting and block changes over long histories.", "anchors": ["allocator.go:newNode", "allocator.go:allocateNode", "allocator.go:recycle", "radix.go:allocateNode"]}
{"id": "C22", "title": "Removed nodes become reusable memory", "statement": "Every node that a Finalize unlinks from the tree is recorded for reuse (if its size is below the recycling limit).", "quantifier": "every sequence of API calls (any number of clients, allocators and simultaneously open operations, each call taken as one step), every prefix-free key universe, every value", "why_tests_cant": "Leaks are invisible to functional tests.", "anchors": ["delete.go:Finalize", "update.go:Finalize", "allocator.go:recycle"]}
{"id": "C23", "title": "State written and loaded again gives the same index", "statement": "NewTreeFromState(WriteState(t)) of a stopped tree t gives a tree in which every Lookup, MinKey, MaxKey, Count and iteration gives the same answer as in t and in which later operations keep working, for every order in which the concurrent writers emit the blocks.", "quantifier": "every reachable state, every block order, every block codec that round-trips", "why_tests_cant": "All states and all worker schedules.", "anchors": ["state.go:writeState", "state.go:loadState", "allocator.go:writeState", "allocator.go:loadState"]}
{"id": "C24", "title": "Len survives persistence", "statement": "After WriteState on a stopped tree and NewTreeFromState, Len returns the same number as before.", "quantifier": "every reachable state", "why_tests_cant": "Depends on which allocators have flushed their counters.", "anchors": ["state.go:writeState", "state.go:loadState", "radix.go:Len"]}
{"id": "C25", "title": "A truncated state file is rejected", "statement": "NewTreeFromState on a strict prefix of a written state returns an error (a crash while writing cannot silently lose keys).", "quantifier": "every state, every cut position", "why_tests_cant": "Every crash point of every file.", "anchors": ["state.go:loadState"]}
{"id": "C26", "title": "Malformed state files are rejected without panicking", "statement": "NewTreeFromState never panics, whatever bytes it is given.", "quantifier": "every byte string", "why_tests_cant": "Infinite input space.", "anchors": ["state.go:loadState", "allocator.go:loadState"]}
{"id": "C27", "title": "WriteState writes every block in use", "statement": "After Stop returns, WriteState writes every block that holds tree nodes, for every scheduling of the block allocation goroutine.", "quantifier": "every schedule of the block allocator goroutine", "why_tests_cant": "A race window between handing out a block and publishing its number.", "anchors": ["radix.go:blockAllocator", "state.go:writeState", "allocator.go:allocateNode"]}
{"id": "C28", "title": "An allocator has at most one holder", "statement": "For any number of goroutines calling GetAllocator/ReleaseAllocator (and the Tree-level calls that take one internally), in every interleaving of the atomic steps no allocator is held by two of them.", "quantifier": "every interleaving, any number of goroutines and allocators", "why_tests_cant": "Exponentially many schedules.", "anchors": ["slots.go:get", "slots.go:put", "radix.go:GetAllocator", "radix.go:ReleaseAllocator"]}
{"id": "C29", "title": "Stop, Start and Len do not break allocator exclusivity", "statement": "C28 also holds when goroutines call Stop, Start and Len concurrently.", "quantifier": "every interleaving", "why_tests_cant": "Needs particular overlaps of Stop/Start/Len.", "anchors": ["radix.go:Stop", "radix.go:Start", "radix.go:Len"]}
{"id": "C30", "title": "Len does not restart a stopped tree", "statement": "Calling Len on a tree that was stopped with Stop leaves it stopped.", "quantifier": "every state", "why_tests_cant": "State machine property over call sequences.", "anchors": ["radix.go:Len", "radix.go:Stop", "radix.go:Start"]}
{"id": "C31", "title": "Node locks are mutually exclusive", "statement": "With any number of goroutines locking and unlocking pairs and triples of nodes (whose lock words may coincide), in every interleaving of the atomic steps no lock word is owned by two goroutines, a failed lock attempt leaves nothing locked, and unlocking what was locked never panics.", "quantifier": "every interleaving, every collision of lock words, any number of goroutines", "why_tests_cant": "Exponentially many schedules and address patterns.", "anchors": ["locks.go:lockNodes2", "locks.go:lockNodes3", "locks.go:unlockNodes2", "locks.go:unlockNodes3", "locks.go:lockNodes3"]}
{"id": "C32", "title": "A successful generation lock proves the node unchanged", "statement": "If lockNodes2 succeeds with generations read earlier, no goroutine has locked and unlocked the lock words of node and parent in between (until the 32-bit counter wraps).", "quantifier": "every interleaving", "why_tests_cant": "Exponentially many schedules.", "anchors": ["locks.go:lockNodes2", "locks.go:generation"]}
{"id": "C33", "title": "Readers never see recycled memory", "statement": "In every interleaving of readers and writers that use the epoch protocol, memory a reader may still access after its startOp is not reused before its endOp.", "quantifier": "every interleaving of startOp, reads, unlink, recycle, epoch increments, the multi-step minReservation scan and reuse; any number of goroutines", "why_tests_cant": "Exponentially many schedules.", "anchors": ["allocator.go:startOp", "allocator.go:endOp", "allocator.go:recycle", "allocator.go:newNode", "epoch.go:minReservation"]}
{"id": "C34", "title": "MinKey and MaxKey are protected against reuse", "statement": "MinKey and MaxKey running concurrently with updates return the value of some key that was stored during the call, or not found.", "quantifier": "every interleaving", "why_tests_cant": "Needs a long-delayed reader.", "anchors": ["radix.go:MinKey", "radix.go:MaxKey", "allocator.go:startOp"]}
{"id": "C35", "title": "Interleaved operations are serialisable", "statement": "For any interleaving of Prepare/Finalize/Abort/Lookup calls of any number of simultaneously open operations, the results and the stored map are those of applying each successful Finalize atomically when it is called, and every Lookup between two calls sees that map.", "quantifier": "every sequence of API calls (any number of clients, allocators and simultaneously open operations, each call taken as one step), every prefix-free key universe, every value", "why_tests_cant": "Open operations cache node addresses, positions and prefixes between the two phases.", "anchors": ["update.go:prepareUpdate", "update.go:Finalize", "delete.go:prepare", "delete.go:Finalize", "locks.go:lockNodes2", "locks.go:lockNodes3"]}
{"id": "C36", "title": "A delete that reports success is not lost", "statement": "If Finalize of a delete returns true, the key is no longer found afterwards (unless inserted again), whatever other operations ran between PrepareDelete and Finalize.", "quantifier": "every sequence of API calls (any number of clients, allocators and simultaneously open operations, each call taken as one step), every prefix-free key universe, every value", "why_tests_cant": "Only deletes in large nodes overlapping a path split expose it.", "anchors": ["delete.go:prepare", "delete.go:Finalize"]}
{"id": "C37", "title": "Merging deletes validate both generations", "statement": "In every interleaving of atomic steps, a delete that merges a node with its child detects that the node or its parent changed since it was read.", "quantifier": "every interleaving, every lock collision", "why_tests_cant": "Needs two nodes whose addresses collide modulo 4096 and a precise overlap.", "anchors": ["delete.go:prepare", "locks.go:lockNodes3"]}
{"id": "C38", "title": "WriteState returns even when the writer fails", "statement": "If the io.Writer returns an error, WriteState returns that error for every number of blocks.", "quantifier": "every number of blocks and workers, every failure point", "why_tests_cant": "Blocks only with more blocks than channel capacity.", "anchors": ["state.go:writeState"]}
{"id": "C39", "title": "A new tree can be used at once", "statement": "Lookup, PrepareDelete, Count and iteration right after NewTree work for every scheduling of the block allocation goroutine.", "quantifier": "every schedule of the block allocator goroutine", "why_tests_cant": "Race between NewTree returning and the goroutine's first step.", "anchors": ["radix.go:NewTree", "radix.go:blockAllocator", "radix.go:search", "radix.go:getNodeData"]}
{"id": "C40", "title": "An iterator does not repeat values when the tree shrinks", "statement": "If keys are only deleted while an iterator is open, no value is yielded twice.", "quantifier": "every tree and every interleaving of Next and delete calls", "why_tests_cant": "Needs a deletion between two prefetch batches.", "anchors": ["iterator.go:Next"]}
{"id": "C41", "title": "Prefix-freeness is only needed among stored keys", "statement": "Inserting a key that is neither a prefix of nor prefixed by any key currently stored never panics, whatever was stored and deleted before.", "quantifier": "every sequence of API calls (any number of clients, allocators and simultaneously open operations, each call taken as one step), every prefix-free key universe, every value", "why_tests_cant": "Depends on leftovers of deleted keys.", "anchors": ["update.go:prepareUpdate", "delete.go:Finalize", "radix.go:package doc"]}
{"id": "C42", "title": "Keys of any length are handled safely", "statement": "Two keys with a long common prefix are inserted without writing outside the tree's memory.", "quantifier": "every key length", "why_tests_cant": "Lengths above the block size.", "anchors": ["allocator.go:allocateNode", "radix.go:allocateNodeWithPrefix", "unsafe.go:storePrefix"]}
{"id": "C43", "title": "Recommended key encodings are prefix-free and order preserving", "statement": "Big-endian 8-byte encodings of uint64 are prefix-free and compare lexicographically like the numbers; strings without a zero byte, terminated by a zero byte, are prefix-free and keep their lexicographic order.", "quantifier": "all numbers, all strings", "why_tests_cant": "Infinite/2^128 pairs.", "anchors": ["radix.go:package doc", "README.md:Limitations"]}
{"id": "C44", "title": "Prepare, search and recycling loops terminate", "statement": "Lookup, PrepareUpdate, PrepareDelete, MinKey, MaxKey and Count terminate on every reachable tree when no other operation holds a lock.", "quantifier": "every reachable tree, every key", "why_tests_cant": "Non-termination cannot be tested for all inputs.", "anchors": ["radix.go:search", "radix.go:partialSearch", "radix.go:MaxKey", "radix.go:MinKey", "update.go:prepareUpdate", "delete.go:prepare", "counter.go:Count"]}
{"id": "C45", "title": "Epoch reservations of finished operations are cleared", "statement": "After Finalize, Abort, Lookup, or a PrepareDelete that finds nothing, the allocator used has no reservation; while an operation is open its reservation is not larger than the current epoch.", "quantifier": "every sequence of API calls (any number of clients, allocators and simultaneously open operations, each call taken as one step), every prefix-free key universe, every value", "why_tests_cant": "A forgotten endOp only shows as unbounded memory growth.", "anchors": ["allocator.go:startOp", "allocator.go:endOp", "update.go:Finalize", "update.go:Abort", "delete.go:Finalize", "delete.go:Abort"]}
{"id": "C46", "title": "Lookup accepts every key", "statement": "Lookup(k) returns for every byte string k, including the empty one, in every reachable state.", "quantifier": "every sequence of API calls (any number of clients, allocators and simultaneously open operations, each call taken as one step), every prefix-free key universe, every value", "why_tests_cant": "The empty key fails only on trees of one particular size.", "anchors": ["radix.go:search"]}
{"id": "C47", "title": "A Lookup candidate starts like the key", "statement": "If Lookup(k) returns (v, true), the key stored with v has the same first byte as k.", "quantifier": "every sequence of API calls (any number of clients, allocators and simultaneously open operations, each call taken as one step), every prefix-free key universe, every value", "why_tests_cant": "Tests look up stored keys; the candidate of an absent key is rarely inspected.", "anchors": ["radix.go:search"]}
{"id": "C48", "title": "Clients that take turns get an exact map", "statement": "If no two write operations are ever open at the same time, then after every history Lookup (with the candidate check) answers exactly like the map described by the calls, Len is the number of its keys, every Finalize returns true and every Prepare call returns without waiting.", "quantifier": "every sequence of API calls (any number of clients, allocators and simultaneously open operations, each call taken as one step), every prefix-free key universe, every value", "why_tests_cant": "Quantifies over all histories and all keys, present or absent.", "anchors": ["radix.go:Lookup", "radix.go:Len", "update.go:Finalize", "delete.go:Finalize"]}
{"id": "C49", "title": "Stop waits for every client", "statement": "When Stop has returned and the tree was not started again, no goroutine holds an allocator.", "quantifier": "every interleaving, any number of goroutines and allocators", "why_tests_cant": "Exponentially many schedules.", "anchors": ["radix.go:Stop", "slots.go:get"]}
{"id": "C50", "title": "GetAllocator finds a free allocator", "statement": "A goroutine that calls GetAllocator while some allocator is free, and is not interrupted, gets a free one after a bounded number of steps.", "quantifier": "every pool state, any number of allocators", "why_tests_cant": "Every combination of free and taken slots.", "anchors": ["slots.go:get", "radix.go:GetAllocator"]}
{"id": "C51", "title": "An update replaces exactly the value its Prepare reported", "statement": "If Finalize(v) of an update operation returns true, then at that moment the key still had the value (or was still absent) that PrepareUpdate reported, whatever other clients did between the two calls; afterwards it has value v.", "quantifier": "every sequence of API calls (any number of clients, allocators and simultaneously open operations, each call taken as one step), every prefix-free key universe, every value", "why_tests_cant": "A lost update needs another client's operation at the right moment between two calls.", "anchors": ["update.go:prepareUpdate", "update.go:Finalize", "locks.go"]}
{"id": "C52", "title": "A delete removes exactly the value its Prepare reported", "statement": "If Finalize of a delete operation returns true, then at that moment the key still had the value that PrepareDelete reported, and afterwards it is gone.", "quantifier": "every sequence of API calls (any number of clients, allocators and simultaneously open operations, each call taken as one step), every prefix-free key universe, every value", "why_tests_cant": "As C51.", "anchors": ["delete.go:prepare", "delete.go:Finalize", "locks.go"]}
{"id": "C53", "title": "Interrupted calls neither fail nor get stuck", "statement": "However Lookup, PrepareUpdate and PrepareDelete are interrupted between two memory accesses, none of them panics, and each of them always has a next step; Finalize and Abort after them fail only when memory is exhausted (or as in C12).", "quantifier": "every interleaving of the single shared-memory accesses of Lookup, PrepareUpdate and PrepareDelete of any number of clients with each other and with whole Finalize, Abort, FlushStats calls; every prefix-free key universe, every value", "why_tests_cant": "Exponentially many interleavings; the tree changes under the reader, node memory is recycled.", "anchors": ["radix.go:search", "update.go:prepareUpdate", "delete.go:prepare", "locks.go", "epoch.go"]}
{"id": "C54", "title": "Answers of interrupted calls were true at some moment", "statement": "If an interrupted Lookup, PrepareUpdate or PrepareDelete of key k returns value v, then v was the value of its key at some moment between start and return; if it returns not found, or a candidate with another key, then k was absent at some moment between start and return.", "quantifier": "every interleaving of the single shared-memory accesses of Lookup, PrepareUpdate and PrepareDelete of any number of clients with each other and with whole Finalize, Abort, FlushStats calls; every prefix-free key universe, every value", "why_tests_cant": "Exponentially many interleavings.", "anchors": ["radix.go:search", "update.go:prepareUpdate", "delete.go:prepare"]}
{"id": "C55", "title": "Interrupted Prepare calls lose no update", "statement": "At every moment of an interleaved history the tree holds exactly the bindings of the acknowledged calls; a Finalize after an interrupted Prepare changes exactly its key, or changes nothing and returns false.", "quantifier": "every interleaving of the single shared-memory accesses of Lookup, PrepareUpdate and PrepareDelete of any number of clients with each other and with whole Finalize, Abort, FlushStats calls; every prefix-free key universe, every value", "why_tests_cant": "Exponentially many interleavings.", "anchors": ["update.go:prepareUpdate", "update.go:Finalize", "delete.go:prepare", "delete.go:Finalize", "locks.go"]}
{"id": "C56", "title": "Interrupted calls leave counters, memory, locks and reservations in order", "statement": "At every moment of an interleaved history Len is the number of keys, live nodes occupy disjoint memory that is not free, an allocator has a reservation not above the epoch exactly while it has an operation open, and when no operation is open no lock is held.", "quantifier": "every interleaving of the single shared-memory accesses of Lookup, PrepareUpdate and PrepareDelete of any number of clients with each other and with whole Finalize, Abort, FlushStats calls; every prefix-free key universe, every value", "why_tests_cant": "Exponentially many interleavings.", "anchors": ["update.go", "delete.go", "allocator.go", "locks.go", "epoch.go"]}
{"id": "C57", "title": "Read-modify-write is atomic when calls are interrupted", "statement": "C51 and C52 when the Prepare calls are interrupted between any two memory accesses.", "quantifier": "every interleaving of the single shared-memory accesses of Lookup, PrepareUpdate and PrepareDelete of any number of clients with each other and with whole Finalize, Abort, FlushStats calls; every prefix-free key universe, every value", "why_tests_cant": "Exponentially many interleavings.", "anchors": ["update.go", "delete.go", "locks.go"]}
{"id": "C58", "title": "An acknowledged insert is never lost", "statement": "After Finalize of an insert returned true, Lookup finds the key until somebody deletes it, also when lock words are shared by several nodes (a block has 4096 lock words for 262144 slots).", "quantifier": "every interleaving of the single shared-memory accesses of Lookup, PrepareUpdate and PrepareDelete of any number of clients with each other and with whole Finalize, Abort, FlushStats calls; every prefix-free key universe, every value", "why_tests_cant": "Needs two nodes 4096 slots apart that are parent and child, and a certain interleaving of three operations.", "anchors": ["delete.go:prepare", "locks.go:lockNodes3"]}
{"id": "C59", "title": "The memory of a node in the tree is never recycled", "statement": "No interleaving makes a delete recycle a node that is still in the tree.", "quantifier": "every interleaving of the single shared-memory accesses of Lookup, PrepareUpdate and PrepareDelete of any number of clients with each other and with whole Finalize, Abort, FlushStats calls; every prefix-free key universe, every value", "why_tests_cant": "As C58; the damage shows only when the memory is used again.", "anchors": ["delete.go:prepare", "delete.go:Finalize", "locks.go:lockNodes3"]}
{"id": "C60", "title": "In small trees interrupted Lookup and Prepare calls are safe without any condition on locks", "statement": "As long as every block still belongs to an allocator that has handed out only its first 4096 words, and fewer than 2^31 calls were finalized or aborted, no interrupted Lookup, PrepareUpdate or PrepareDelete fails or gets stuck, and every acknowledged binding is in the tree at every moment, provided Finalize and Abort are not interrupted (otherwise see C67).", "quantifier": "every interleaving of the single shared-memory accesses of Lookup, PrepareUpdate and PrepareDelete of any number of clients with each other and with whole Finalize, Abort, FlushStats calls; every prefix-free key universe, every value", "why_tests_cant": "Interleavings between single memory accesses cannot be enumerated by tests.", "anchors": ["locks.go:lockNodes3", "delete.go:prepare", "allocator.go:newNode"]}
{"id": "C61", "title": "Lookup is wait-free", "statement": "A Lookup that is interrupted between any two memory accesses never starts again, and makes at most 130 + 129 * len(key) accesses to shared memory, whatever other clients do meanwhile.", "quantifier": "every interleaving of the single shared-memory accesses of Lookup, PrepareUpdate and PrepareDelete of any number of clients with each other and with whole Finalize, Abort, FlushStats calls; every prefix-free key universe, every value", "why_tests_cant": "A bound for all interleavings; a test that finishes says nothing about the next schedule.", "anchors": ["radix.go:search", "allocator.go:Lookup"]}
{"id": "C62", "title": "Lookup disturbs nobody", "statement": "Between its reservation and its return a Lookup changes no word of the tree, no lock word and no reservation.", "quantifier": "every interleaving of the single shared-memory accesses of Lookup, PrepareUpdate and PrepareDelete of any number of clients with each other and with whole Finalize, Abort, FlushStats calls; every prefix-free key universe, every value", "why_tests_cant": "Concerns every access of every interleaving.", "anchors": ["radix.go:search", "allocator.go:Lookup"]}
{"id": "C63", "title": "PrepareUpdate and PrepareDelete start again only when another client was in the way", "statement": "One attempt (from the reservation or a jump to label S to the next jump or the return) makes a number of memory accesses bounded by the length of the key. If it ends in a jump to label S, then during it another client's Finalize or Abort took place, or another client held a lock.", "quantifier": "every interleaving of the single shared-memory accesses of Lookup, PrepareUpdate and PrepareDelete of any number of clients with each other and with whole Finalize, Abort, FlushStats calls; every prefix-free key universe, every value", "why_tests_cant": "A needless retry shows only as lost time, and a livelock only in schedules that tests do not produce.", "anchors": ["update.go:prepareUpdate", "delete.go:prepare", "locks.go"]}
{"id": "C64", "title": "A call that runs alone returns", "statement": "If no other client holds a lock, then a Lookup, PrepareUpdate or PrepareDelete in progress, whatever it has read so far, returns after a number of its own steps bounded by the length of its key, provided the other clients pause.", "quantifier": "every interleaving of the single shared-memory accesses of Lookup, PrepareUpdate and PrepareDelete of any number of clients with each other and with whole Finalize, Abort, FlushStats calls; every prefix-free key universe, every value", "why_tests_cant": "Starts from every state of every interleaving.", "anchors": ["radix.go:search", "update.go:prepareUpdate", "delete.go:prepare", "locks.go"]}
{"id": "C65", "title": "An iterator returns only values that were stored", "statement": "However the tree changes between the calls of Next, each value Next returns was the stored value of its key at that call or an earlier one of the same iteration; and no call panics unless a node ends at the last word of a block.", "quantifier": "all sequences of reachable states at the calls of Next, all prefixes", "why_tests_cant": "The resume key of an iterator may fit nothing in the tree by the time it is used; tests change the tree in few ways.", "anchors": ["iterator.go:Next", "iterator.go:storeResumePosition"]}
{"id": "C66", "title": "Keys that stay in the tree are returned by an iteration that runs while other keys change", "statement": "A key that is in the tree from the creation of an iterator until Next returns false, and has the iterator's prefix, is returned.", "quantifier": "all histories of calls between the calls of Next", "why_tests_cant": "Needs more than 256 keys and a change between two calls of Next that reshapes a node on the path of the resume key.", "anchors": ["iterator.go:Next", "iterator.go:storeResumePosition"]}
{"id": "C67", "title": "An acknowledged insert is found, also when Finalize is interrupted", "statement": "In a history of inserts of different keys in which all calls are interrupted between any two memory accesses, every key whose Finalize returned true is found once all calls have returned, and stays there as long as no call names it.", "quantifier": "every interleaving of the single shared-memory accesses of Lookup, PrepareUpdate, PrepareDelete, Finalize and Abort of any number of clients; every key universe, every value", "why_tests_cant": "Needs a walk paused between two loads while another client's Finalize is paused between its store and its unlock and a third client replaces the node below.", "anchors": ["update.go:prepareUpdate", "update.go:Finalize", "delete.go:prepare", "locks.go:generation"]}
{"id": "C68", "title": "An acknowledged delete removes the key, also while another Finalize is in progress", "statement": "If PrepareDelete and Finalize of a delete run without interruption and Finalize returns true, the key is not found afterwards unless it is inserted again, also when another client's Finalize is in progress.", "quantifier": "every interleaving of the single shared-memory accesses of Lookup, PrepareUpdate, PrepareDelete, Finalize and Abort of any number of clients; every key universe, every value", "why_tests_cant": "Needs a delete from a node with 256 slots at the moment another client copies that node.", "anchors": ["delete.go:prepare", "delete.go:Finalize", "update.go:Finalize"]}
{"id": "C69", "title": "Locks are kept in order when all calls are interrupted", "statement": "In every interleaving no unlock panics, operations of different clients between Prepare and Finalize have no locked node in common, and when no call is in progress and no operation is open nothing is locked. This holds whatever the memory of the tree contains, except that no delete may be aborted whose Prepare found a child node at address 0 to merge with (which only a damaged tree contains).", "quantifier": "every interleaving of the single shared-memory accesses of Lookup, PrepareUpdate, PrepareDelete, Finalize and Abort of any number of clients; every key universe, every value", "why_tests_cant": "Exponentially many interleavings.", "anchors": ["locks.go", "update.go", "delete.go"]}
{"id": "C70", "title": "Len counts the acknowledged calls when all calls are interrupted", "statement": "In every interleaving, when no call is in progress and no operation is open, Len is the number of acknowledged inserts of keys that PrepareUpdate had not found minus the number of acknowledged deletes (minus what restarts lost, C24), with the exception of C69.", "quantifier": "every interleaving of the single shared-memory accesses of Lookup, PrepareUpdate, PrepareDelete, Finalize and Abort of any number of clients; every key universe, every value", "why_tests_cant": "Exponentially many interleavings.", "anchors": ["update.go:Finalize", "delete.go:Finalize", "allocator.go:FlushStats", "radix.go:Len"]}
{"id": "C71", "title": "Finalize and Abort are wait-free", "statement": "A Finalize or Abort makes at most 1048876 accesses to shared memory, plus two for each allocator, whatever the other clients do.", "quantifier": "every interleaving of the single shared-memory accesses of Lookup, PrepareUpdate, PrepareDelete, Finalize and Abort of any number of clients; every key universe, every value", "why_tests_cant": "A bound on all schedules and all contents of memory.", "anchors": ["update.go:Finalize", "update.go:Abort", "delete.go:Finalize", "delete.go:Abort", "allocator.go:newNode", "epoch.go:minReservation"]}
{"id": "C72", "title": "Interrupted iterations and counts do not fail", "statement": "A Next or Count that is interrupted between any two memory accesses by other clients does not panic (a Next only if a node ends where its block ends), never has to start again, and changes nothing in the tree.", "quantifier": "every interleaving of the single shared-memory accesses of Next, Count, Lookup, PrepareUpdate and PrepareDelete of any number of clients, with uninterrupted Finalize and Abort; every key universe, every prefix, every state of the iterator", "why_tests_cant": "Interleavings between single memory accesses cannot be enumerated by tests; the nodes an iterator holds may have left the tree.", "anchors": ["iterator.go:Next", "counter.go:Count", "radix.go:partialSearch"]}
{"id": "C73", "title": "Count lies between the keys that stay and the keys that are there at some moment", "statement": "If other clients insert and delete while Count(p) runs, it returns at least the number of keys with prefix p that are there during the whole call, and at most the number of keys with prefix p that are there at some moment of the call (or 1, C16).", "quantifier": "every interleaving of the single shared-memory accesses of Next, Count, Lookup, PrepareUpdate and PrepareDelete of any number of clients, with uninterrupted Finalize and Abort; every key universe, every prefix, every state of the iterator", "why_tests_cant": "Needs changes at chosen places between two loads of a call.", "anchors": ["counter.go:Count", "radix.go:partialSearch"]}
{"id": "C74", "title": "Next returns keys in order while other clients change the tree", "statement": "If other clients insert and delete while Next runs, the values it prefetches are in order of their keys and each was bound to its key at some moment of the call; the first Next of an iteration prefetches every key with the prefix that is there during the whole call, or all of them up to some key if there are more than 256. The following calls return the prefetched values one by one.", "quantifier": "every interleaving of the single shared-memory accesses of Next, Count, Lookup, PrepareUpdate and PrepareDelete of any number of clients, with uninterrupted Finalize and Abort; every key universe, every prefix, every state of the iterator", "why_tests_cant": "Needs changes at chosen places between two loads of a call.", "anchors": ["iterator.go:Next", "iterator.go:storeResumePosition", "radix.go:partialSearch"]}
{"id": "C75", "title": "Count is the number of keys at some moment", "statement": "The number Count returns is the number of keys with the prefix at some moment between its start and its return.", "quantifier": "every interleaving of the single shared-memory accesses of Next, Count, Lookup, PrepareUpdate and PrepareDelete of any number of clients, with uninterrupted Finalize and Abort; every key universe, every prefix, every state of the iterator", "why_tests_cant": "Needs an insert before and a delete after the position of the count, during the call.", "anchors": ["counter.go:Count"]}
{"id": "C76", "title": "Iterations and counts disturb nobody", "statement": "While some clients iterate and count, calls of the other clients do not fail, return what was true at some moment of the call, and acknowledged bindings, Len and the live memory are as without the iterations.", "quantifier": "every interleaving of the single shared-memory accesses of Next, Count, Lookup, PrepareUpdate and PrepareDelete of any number of clients, with uninterrupted Finalize and Abort; every key universe, every prefix, every state of the iterator", "why_tests_cant": "Concerns every interleaving.", "anchors": ["iterator.go:Next", "counter.go:Count", "epoch.go", "allocator.go:recycle"]}
{"id": "C77", "title": "With one Finalize at a time the tree is linearizable", "statement": "If all calls are interrupted between any two memory accesses but at most one Finalize or Abort is in progress at a time, every Finalize and Abort takes effect at one of its own steps before it returns; with these moments as the order of the writes, every Lookup, PrepareUpdate and PrepareDelete answers as the finite map did at some moment between its start and its return, every Finalize returns what it should, and when none is in progress the tree holds the finite map and Len is its size.", "quantifier": "every interleaving of the single shared-memory accesses of Lookup, PrepareUpdate, PrepareDelete, Finalize and Abort of any number of clients; every key universe, every value", "why_tests_cant": "Concerns every interleaving of single memory accesses of readers with the stores of a Finalize.", "anchors": ["update.go:Finalize", "delete.go:Finalize", "update.go:prepareUpdate", "delete.go:prepare", "radix.go:search"]}
{"id": "C78", "title": "With one Finalize at a time no call fails or gets stuck", "statement": "In the histories of C77 no call in progress is about to panic, except a Finalize when all memory is in use, and every call in progress can go on.", "quantifier": "every interleaving of the single shared-memory accesses of Lookup, PrepareUpdate, PrepareDelete, Finalize and Abort of any number of clients; every key universe, every value", "why_tests_cant": "As C77.", "anchors": ["update.go:Finalize", "delete.go:Finalize", "update.go:prepareUpdate", "delete.go:prepare", "radix.go:search"]}
{"id": "C79", "title": "One writer and any number of readers", "statement": "If one client makes all updates and deletes and any number of clients look up keys, all of them interrupted between any two memory accesses, every write succeeds and takes effect at one of its own steps, every Lookup answers as the finite map did at some moment during the Lookup, when no Finalize is in progress the tree holds exactly the finite map and Len is its size, no call panics (except when all memory is in use) and none is stuck. Keys have at most 9 bytes.", "quantifier": "every interleaving of the single shared-memory accesses of Lookup, PrepareUpdate, PrepareDelete, Finalize and Abort of any number of clients; every key universe, every value", "why_tests_cant": "As C77; the most common way to use the tree, and no schedule of a test covers all places where a reader can be interrupted.", "anchors": ["update.go:Finalize", "delete.go:Finalize", "update.go:prepareUpdate", "delete.go:prepare", "radix.go:search", "allocator.go:Lookup"]}
{"id": "C80", "title": "Admin root shows the root of the tree as it is", "statement": "In every state, Admin \"root\" prints the root and a line for each child, in their places; the prefix it prints begins every stored key; the values printed for leaves are values of stored keys; it prints \"Index is empty\" only if no key is stored.", "quantifier": "every sequence of API calls (any number of clients, allocators and simultaneously open operations, each call taken as one step), every prefix-free key universe, every value", "why_tests_cant": "Depends on the shape of the tree.", "anchors": ["admin.go:Admin", "admin.go:debugPrintNode"]}
{"id": "C81", "title": "Admin does not panic", "statement": "Whatever arguments Admin is given, it does not panic.", "quantifier": "every reachable state, every list of arguments", "why_tests_cant": "Infinite input space.", "anchors": ["admin.go:Admin", "admin.go:debugPrintNode"]}
{"id": "C82", "title": "Admin node shows the node with the given number", "statement": "The number Admin prints for a node or leaf of the tree, given to Admin \"node\", shows that node with its children, or that leaf.", "quantifier": "every sequence of API calls (any number of clients, allocators and simultaneously open operations, each call taken as one step), every prefix-free key universe, every value", "why_tests_cant": "Fails only for nodes with 256 slots.", "anchors": ["admin.go:Admin", "admin.go:debugPrintNode"]}
{"id": "C83", "title": "Admin blocks and Stats count all memory in use", "statement": "Every node of the tree lies in a block that Admin \"blocks\" lists as in use and that Stats counts in blocks_allocated and bytes_allocated.", "quantifier": "every sequence of API calls (any number of clients, allocators and simultaneously open operations, each call taken as one step), every prefix-free key universe, every value", "why_tests_cant": "Depends on which blocks were handed out.", "anchors": ["admin.go:Admin", "stats.go:Stats", "allocator.go:newNode"]}
{"id": "C84", "title": "Admin allocators returns", "statement": "Admin \"allocators\" returns when no client keeps an allocator for ever.", "quantifier": "every interleaving of atomic operations of the allocator pool", "why_tests_cant": "Needs two operators at the same moment, or a stopped tree.", "anchors": ["admin.go:Admin", "slots.go:get", "radix.go:Stop"]}
{"id": "C85", "title": "Iterations and counts beside a half-done Finalize", "statement": "If all calls, Next and Count too, are interrupted between any two memory accesses and at most one Finalize or Abort is in progress at a time, there is an order of the writes, each at one of its own steps, in which every Count returns the number of values of a list in key order, each bound to its key at some moment of the call, that has every key with the prefix that is there during the whole call, and every Next that has to search fetches such a list (or more than 256 values of it from the first on) and returns its first value; the other calls answer as in C77.", "quantifier": "every interleaving of the single shared-memory accesses of all calls of any number of clients, with one Finalize or Abort in progress at a time; every key universe, every prefix, every state of the iterator", "why_tests_cant": "The loads of an iteration fall between any two stores of a Finalize.", "anchors": ["iterator.go:Next", "counter.go:Count", "radix.go:partialSearch", "update.go:Finalize", "delete.go:Finalize"]}
{"id": "C86", "title": "Beside iterations and counts no call fails or gets stuck", "statement": "In the histories of C85 no call in progress is about to panic, except a Finalize when all memory is in use and a Next if a node ends where its block ends, and every call in progress can go on.", "quantifier": "every interleaving of the single shared-memory accesses of all calls of any number of clients, with one Finalize or Abort in progress at a time; every key universe, every prefix, every state of the iterator", "why_tests_cant": "As C85.", "anchors": ["iterator.go:Next", "counter.go:Count", "radix.go:partialSearch", "update.go:Finalize", "delete.go:Finalize"]}
{"id": "C87", "title": "One writer and any number of readers that iterate and count", "statement": "If one client makes all updates and deletes and any number of clients look up keys, iterate and count, all interrupted between any two memory accesses, every write succeeds and takes effect at one of its own steps; Lookup, Next and Count return keys with values the finite map had at some moment of the call, in order, and miss no key that is there during the whole call; when no Finalize is in progress the tree holds exactly the finite map and Len is its size.", "quantifier": "every interleaving of the single shared-memory accesses of all calls of any number of clients, with one Finalize or Abort in progress at a time; every key universe, every prefix, every state of the iterator", "why_tests_cant": "As C85.", "anchors": ["iterator.go:Next", "counter.go:Count", "update.go:Finalize", "delete.go:Finalize", "allocator.go:Lookup"]}
{"id": "C88", "title": "Counter statistics are exact sums over visits", "statement": "After Count(nil), NodesWithPrefix, NodeSizes, TotalPrefixLength, TotalPrefixBytes and LargePrefixes are the sums over all inner nodes of what each node contributes (a stored prefix or not, its slots, its prefix length, the bytes its prefix takes in memory, a prefix of 255 bytes or more or not), where a node is taken once, and once more for each of its children that is an inner node and not its last child.", "quantifier": "every reachable tree", "why_tests_cant": "All tree shapes and prefix lengths; nodes revisited after a subtree are counted again.", "anchors": ["counter.go:Count", "counter.go:Counter"]}
{"id": "C89", "title": "debugSearch finds what Lookup finds", "statement": "In every reachable state debugSearch(key), for a non-empty key, neither panics nor loops for ever and returns the value Lookup(key) returns (0 if Lookup finds nothing); in a tree that is not empty it prints nothing if the root is a leaf, and otherwise the root, then a child of it, and so on downwards, each with its children as they are.", "quantifier": "every reachable tree, every non-empty key", "why_tests_cant": "All tree shapes and keys; no test calls it.", "anchors": ["radix.go:debugSearch", "admin.go:debugPrintNode", "allocator.go:Lookup"]}
