#!/usr/bin/env python3
"""Writes /verif/properties.jsonl (the list lives here so that it stays readable)."""
import json
P = []
def p(id, title, statement, quantifier, why, anchors):
    P.append(dict(id=id, title=title, statement=statement, quantifier=quantifier,
                  why_tests_cant=why, anchors=anchors))

HIST = "every sequence of API calls (any number of clients, allocators and simultaneously open operations, each call taken as one step), every prefix-free key universe, every value"
p("C01", "Lookup returns the last acknowledged value of a stored key",
  "After any history, if the last acknowledged Finalize for key k stored value v and k was not deleted since, Lookup(k) returns (v truncated to 55 bits, true).",
  HIST, "The tree shape depends on the whole history (path compression, node growth, node-256, merges, recycled memory); tests sample a few histories.",
  ["radix.go:search", "radix.go:Tree.Lookup", "allocator.go:Allocator.Lookup", "update.go:Finalize", "delete.go:Finalize"])
p("C02", "Lookup never invents a value",
  "If Lookup(k) returns (v, true) then v is the current value of some stored key k' (a candidate the caller must compare with k; the only other candidates are keys whose acknowledged delete overlapped another Finalize, see C36); if Lookup returns (_, false) then k is not stored; Lookup changes nothing.",
  HIST, "Needs every absent key against every reachable tree.",
  ["radix.go:search"])
p("C03", "A successful update changes exactly one key",
  "Finalize(v) of an update operation prepared for key k that returns true makes the stored map equal to the old map with k bound to v mod 2^55; no other key's value changes; it returns false (write conflict) only if another client finalized a delete since the Prepare call, and then changes nothing.",
  HIST, "The claim compares the whole map before and after for every tree shape.",
  ["update.go:prepareUpdate", "update.go:Finalize"])
p("C04", "A successful delete removes exactly one key",
  "Finalize of a delete operation prepared for key k (after the caller compared the fetched key with k) that returns true removes k and leaves every other binding unchanged.",
  HIST, "The claim compares the whole map before and after for every tree shape, including node merges.",
  ["delete.go:prepare", "delete.go:Finalize"])
p("C05", "PrepareUpdate reports the right candidate",
  "PrepareUpdate(k) returns found=false only if k is not stored; if k is stored it returns found=true and op.Value is k's value; if found=true op.Value is the value of some stored key with the same first byte.",
  HIST, "Must hold for every key against every reachable tree.",
  ["update.go:prepareUpdate", "allocator.go:PrepareUpdate", "radix.go:Tree.PrepareUpdate"])
p("C06", "PrepareDelete reports the right candidate",
  "PrepareDelete(k) returns found=false (and a nil operation, with nothing left locked or reserved) only if k is not stored; if k is stored it returns found=true with k's value.",
  HIST, "Must hold for every key against every reachable tree.",
  ["delete.go:prepare", "allocator.go:PrepareDelete", "radix.go:Tree.PrepareDelete"])
p("C07", "Aborting an update changes nothing and releases everything",
  "Abort of an update operation leaves every stored binding unchanged, releases exactly the locks the prepare call took and the epoch reservation, and never panics.",
  HIST, "Lock words are shared between nodes by address; every collision pattern matters.",
  ["update.go:Abort", "locks.go:unlockNodes2"])
p("C08", "Aborting a delete changes nothing and releases everything",
  "Abort of a delete operation leaves every stored binding unchanged, releases exactly the locks the prepare call took and the epoch reservation, and never panics.",
  HIST, "Depends on operation kind, tree position and lock collisions.",
  ["delete.go:Abort", "locks.go:unlockNodes3"])
p("C09", "Values are truncated to exactly 55 bits",
  "For every key byte and every 64-bit value, the value read back from a leaf is the value modulo 2^55, and a leaf word is never confused with a node word or with an empty slot.",
  "all key bytes, all 64-bit values", "2^72 combinations.",
  ["utils.go:buildLeaf", "utils.go:getLeafValue", "utils.go:isLeaf", "utils.go:updateLeafKey"])
p("C10", "Node words pack and unpack losslessly",
  "For every key byte, slot address below 2^39, child count 1..256 and prefix length, unpacking a packed node word gives back key, address, count and min(prefix length, 255). With each of the build tags (blocks of 2, 8 or 16 MiB) the address of any slot of any of the 65536 blocks is in this range, and the block and the offset in it are recovered.",
  "all field values in range", "2^60 combinations; a wrong mask or shift shows only for some of them.",
  ["utils.go:buildNode", "utils.go:explodeNode"])
p("C11", "Compressed prefixes survive storage for every length",
  "A prefix of any length (including 254, 255, 256 and thousands of bytes) written into node memory is read back byte for byte, the number of slots skipped by readers equals the number reserved by the writer, and bytes outside the reserved slots are untouched.",
  "all prefixes, all prior memory contents", "All lengths and all stale memory contents.",
  ["unsafe.go:storePrefix", "unsafe.go:appendPrefix", "radix.go:allocateNodeWithPrefix", "prefix.go:storePrefixSafe", "prefix.go:loadPrefixSafe"])
p("C12", "No API call panics for prefix-free keys",
  "If all keys come from a set of non-empty keys none of which is a prefix of another, then no Lookup, PrepareUpdate, PrepareDelete, Finalize or Abort call panics or writes outside its memory.",
  HIST, "The panicking sizes and shapes are rare (e.g. a node of exactly 258 slots).",
  ["allocator.go:recycle", "update.go:Finalize", "delete.go:Finalize"])
p("C13", "Len counts the stored keys",
  "In every reachable state, Len equals the number of stored keys, whichever allocators performed the operations and whether or not their counters were flushed.",
  HIST, "Counter bookkeeping is spread over all operation kinds and allocators.",
  ["radix.go:Len", "allocator.go:FlushStats", "allocator.go:recycle"])
p("C14", "Iteration yields all values in key order",
  "On an unchanging tree with n keys, the first n calls of Next on a full iterator return true and yield the values of all keys in strictly ascending lexicographic key order.",
  "every reachable tree of any size and depth", "Batching (256 prefetched values) and resuming interact with every tree shape.",
  ["iterator.go:Next", "iterator.go:storeResumePosition"])
p("C15", "Iteration ends after the last value",
  "On an unchanging tree with n keys, call n+1 of Next on a full iterator returns false.",
  "every reachable tree", "Only particular combinations of batch size and tree shape fail.",
  ["iterator.go:Next", "iterator.go:storeResumePosition"])
p("C16", "Prefix iteration and prefix counting return exactly the keys with the prefix",
  "NewIterator(p) on an unchanging tree yields exactly the values of the stored keys having prefix p, and Count(p) returns their number.",
  "every reachable tree, every prefix", "Every prefix against every tree shape, including prefixes ending inside compressed paths.",
  ["radix.go:partialSearch", "iterator.go:Next", "counter.go:Count"])
p("C17", "MinKey returns the least key with the prefix",
  "MinKey(p) returns the value of the lexicographically least stored key with prefix p, and ok=false only if there is none.",
  "every reachable tree, every prefix", "Every prefix against every tree shape and deletion history.",
  ["radix.go:MinKey", "radix.go:partialSearch"])
p("C18", "MaxKey returns the greatest key with the prefix",
  "MaxKey(p) returns the value of the lexicographically greatest stored key with prefix p, and ok=false only if there is none.",
  "every reachable tree, every prefix", "Every prefix against every tree shape and deletion history.",
  ["radix.go:MaxKey", "radix.go:partialSearch"])
p("C19", "Count returns the number of leaves and nodes",
  "Count(nil) returns the number of stored keys as leaves and the number of inner nodes as nodes.",
  "every reachable tree", "All tree shapes.",
  ["counter.go:Count", "radix.go:Count"])
p("C20", "Counter statistics describe each node once",
  "After Count, the entries of Counter.NodeSizes sum to the number of nodes and NodesWithPrefix is at most the number of nodes.",
  "every reachable tree", "Nodes revisited after a subtree are counted again only in some shapes.",
  ["counter.go:Count", "counter.go:Counter"])
p("C21", "Live memory is never handed out again",
  "In every reachable state the memory ranges of all nodes reachable from the root, all recycled ranges and all unallocated space of every allocator are pairwise disjoint and inside allocated blocks, so a new node never overlaps a live one.",
  HIST, "Depends on recycling, splitting and block changes over long histories.",
  ["allocator.go:newNode", "allocator.go:allocateNode", "allocator.go:recycle", "radix.go:allocateNode"])
p("C22", "Removed nodes become reusable memory",
  "Every node that a Finalize unlinks from the tree is recorded for reuse (if its size is below the recycling limit).",
  HIST, "Leaks are invisible to functional tests.",
  ["delete.go:Finalize", "update.go:Finalize", "allocator.go:recycle"])
p("C23", "State written and loaded again gives the same index",
  "NewTreeFromState(WriteState(t)) of a stopped tree t gives a tree in which every Lookup, MinKey, MaxKey, Count and iteration gives the same answer as in t and in which later operations keep working, for every order in which the concurrent writers emit the blocks.",
  "every reachable state, every block order, every block codec that round-trips", "All states and all worker schedules.",
  ["state.go:writeState", "state.go:loadState", "allocator.go:writeState", "allocator.go:loadState"])
p("C24", "Len survives persistence",
  "After WriteState on a stopped tree and NewTreeFromState, Len returns the same number as before.",
  "every reachable state", "Depends on which allocators have flushed their counters.",
  ["state.go:writeState", "state.go:loadState", "radix.go:Len"])
p("C25", "A truncated state file is rejected",
  "NewTreeFromState on a strict prefix of a written state returns an error (a crash while writing cannot silently lose keys).",
  "every state, every cut position", "Every crash point of every file.",
  ["state.go:loadState"])
p("C26", "Malformed state files are rejected without panicking",
  "NewTreeFromState never panics, whatever bytes it is given.",
  "every byte string", "Infinite input space.",
  ["state.go:loadState", "allocator.go:loadState"])
p("C27", "WriteState writes every block in use",
  "After Stop returns, WriteState writes every block that holds tree nodes, for every scheduling of the block allocation goroutine.",
  "every schedule of the block allocator goroutine", "A race window between handing out a block and publishing its number.",
  ["radix.go:blockAllocator", "state.go:writeState", "allocator.go:allocateNode"])
p("C28", "An allocator has at most one holder",
  "For any number of goroutines calling GetAllocator/ReleaseAllocator (and the Tree-level calls that take one internally), in every interleaving of the atomic steps no allocator is held by two of them.",
  "every interleaving, any number of goroutines and allocators", "Exponentially many schedules.",
  ["slots.go:get", "slots.go:put", "radix.go:GetAllocator", "radix.go:ReleaseAllocator"])
p("C29", "Stop, Start and Len do not break allocator exclusivity",
  "C28 also holds when goroutines call Stop, Start and Len concurrently.",
  "every interleaving", "Needs particular overlaps of Stop/Start/Len.",
  ["radix.go:Stop", "radix.go:Start", "radix.go:Len"])
p("C30", "Len does not restart a stopped tree",
  "Calling Len on a tree that was stopped with Stop leaves it stopped.",
  "every state", "State machine property over call sequences.",
  ["radix.go:Len", "radix.go:Stop", "radix.go:Start"])
p("C31", "Node locks are mutually exclusive",
  "With any number of goroutines locking and unlocking pairs and triples of nodes (whose lock words may coincide), in every interleaving of the atomic steps no lock word is owned by two goroutines, a failed lock attempt leaves nothing locked, and unlocking what was locked never panics.",
  "every interleaving, every collision of lock words, any number of goroutines", "Exponentially many schedules and address patterns.",
  ["locks.go:lockNodes2", "locks.go:lockNodes3", "locks.go:unlockNodes2", "locks.go:unlockNodes3", "locks.go:lockNodes3"])
p("C32", "A successful generation lock proves the node unchanged",
  "If lockNodes2 succeeds with generations read earlier, no goroutine has locked and unlocked the lock words of node and parent in between (until the 32-bit counter wraps).",
  "every interleaving", "Exponentially many schedules.",
  ["locks.go:lockNodes2", "locks.go:generation"])
p("C33", "Readers never see recycled memory",
  "In every interleaving of readers and writers that use the epoch protocol, memory a reader may still access after its startOp is not reused before its endOp.",
  "every interleaving of startOp, reads, unlink, recycle, epoch increments, the multi-step minReservation scan and reuse; any number of goroutines", "Exponentially many schedules.",
  ["allocator.go:startOp", "allocator.go:endOp", "allocator.go:recycle", "allocator.go:newNode", "epoch.go:minReservation"])
p("C34", "MinKey and MaxKey are protected against reuse",
  "MinKey and MaxKey running concurrently with updates return the value of some key that was stored during the call, or not found.",
  "every interleaving", "Needs a long-delayed reader.",
  ["radix.go:MinKey", "radix.go:MaxKey", "allocator.go:startOp"])
p("C35", "Interleaved operations are serialisable",
  "For any interleaving of Prepare/Finalize/Abort/Lookup calls of any number of simultaneously open operations, the results and the stored map are those of applying each successful Finalize atomically when it is called, and every Lookup between two calls sees that map.",
  HIST, "Open operations cache node addresses, positions and prefixes between the two phases.",
  ["update.go:prepareUpdate", "update.go:Finalize", "delete.go:prepare", "delete.go:Finalize", "locks.go:lockNodes2", "locks.go:lockNodes3"])
p("C36", "A delete that reports success is not lost",
  "If Finalize of a delete returns true, the key is no longer found afterwards (unless inserted again), whatever other operations ran between PrepareDelete and Finalize.",
  HIST, "Only deletes in large nodes overlapping a path split expose it.",
  ["delete.go:prepare", "delete.go:Finalize"])
p("C37", "Merging deletes validate both generations",
  "In every interleaving of atomic steps, a delete that merges a node with its child detects that the node or its parent changed since it was read.",
  "every interleaving, every lock collision", "Needs two nodes whose addresses collide modulo 4096 and a precise overlap.",
  ["delete.go:prepare", "locks.go:lockNodes3"])
p("C38", "WriteState returns even when the writer fails",
  "If the io.Writer returns an error, WriteState returns that error for every number of blocks.",
  "every number of blocks and workers, every failure point", "Blocks only with more blocks than channel capacity.",
  ["state.go:writeState"])
p("C39", "A new tree can be used at once",
  "Lookup, PrepareDelete, Count and iteration right after NewTree work for every scheduling of the block allocation goroutine.",
  "every schedule of the block allocator goroutine", "Race between NewTree returning and the goroutine's first step.",
  ["radix.go:NewTree", "radix.go:blockAllocator", "radix.go:search", "radix.go:getNodeData"])
p("C40", "An iterator does not repeat values when the tree shrinks",
  "If keys are only deleted while an iterator is open, no value is yielded twice.",
  "every tree and every interleaving of Next and delete calls", "Needs a deletion between two prefetch batches.",
  ["iterator.go:Next"])
p("C41", "Prefix-freeness is only needed among stored keys",
  "Inserting a key that is neither a prefix of nor prefixed by any key currently stored never panics, whatever was stored and deleted before.",
  HIST, "Depends on leftovers of deleted keys.",
  ["update.go:prepareUpdate", "delete.go:Finalize", "radix.go:package doc"])
p("C42", "Keys of any length are handled safely",
  "Two keys with a long common prefix are inserted without writing outside the tree's memory.",
  "every key length", "Lengths above the block size.",
  ["allocator.go:allocateNode", "radix.go:allocateNodeWithPrefix", "unsafe.go:storePrefix"])
p("C43", "Recommended key encodings are prefix-free and order preserving",
  "Big-endian 8-byte encodings of uint64 are prefix-free and compare lexicographically like the numbers; strings without a zero byte, terminated by a zero byte, are prefix-free and keep their lexicographic order.",
  "all numbers, all strings", "Infinite/2^128 pairs.",
  ["radix.go:package doc", "README.md:Limitations"])
p("C44", "Prepare, search and recycling loops terminate",
  "Lookup, PrepareUpdate, PrepareDelete, MinKey, MaxKey and Count terminate on every reachable tree when no other operation holds a lock.",
  "every reachable tree, every key", "Non-termination cannot be tested for all inputs.",
  ["radix.go:search", "radix.go:partialSearch", "radix.go:MaxKey", "radix.go:MinKey", "update.go:prepareUpdate", "delete.go:prepare", "counter.go:Count"])
p("C45", "Epoch reservations of finished operations are cleared",
  "After Finalize, Abort, Lookup, or a PrepareDelete that finds nothing, the allocator used has no reservation; while an operation is open its reservation is not larger than the current epoch.",
  HIST, "A forgotten endOp only shows as unbounded memory growth.",
  ["allocator.go:startOp", "allocator.go:endOp", "update.go:Finalize", "update.go:Abort", "delete.go:Finalize", "delete.go:Abort"])
p("C46", "Lookup accepts every key",
  "Lookup(k) returns for every byte string k, including the empty one, in every reachable state.",
  HIST, "The empty key fails only on trees of one particular size.",
  ["radix.go:search"])

p("C47", "A Lookup candidate starts like the key",
  "If Lookup(k) returns (v, true), the key stored with v has the same first byte as k.",
  HIST, "Tests look up stored keys; the candidate of an absent key is rarely inspected.",
  ["radix.go:search"])
p("C48", "Clients that take turns get an exact map",
  "If no two write operations are ever open at the same time, then after every history Lookup (with the candidate check) answers exactly like the map described by the calls, Len is the number of its keys, every Finalize returns true and every Prepare call returns without waiting.",
  HIST, "Quantifies over all histories and all keys, present or absent.",
  ["radix.go:Lookup", "radix.go:Len", "update.go:Finalize", "delete.go:Finalize"])

p("C49", "Stop waits for every client",
  "When Stop has returned and the tree was not started again, no goroutine holds an allocator.",
  "every interleaving, any number of goroutines and allocators", "Exponentially many schedules.",
  ["radix.go:Stop", "slots.go:get"])
p("C50", "GetAllocator finds a free allocator",
  "A goroutine that calls GetAllocator while some allocator is free, and is not interrupted, gets a free one after a bounded number of steps.",
  "every pool state, any number of allocators", "Every combination of free and taken slots.",
  ["slots.go:get", "radix.go:GetAllocator"])

FINE = "every interleaving of the single shared-memory accesses of Lookup, PrepareUpdate and PrepareDelete of any number of clients with each other and with whole Finalize, Abort, FlushStats calls; every prefix-free key universe, every value"
p("C51", "An update replaces exactly the value its Prepare reported",
  "If Finalize(v) of an update operation returns true, then at that moment the key still had the value (or was still absent) that PrepareUpdate reported, whatever other clients did between the two calls; afterwards it has value v.",
  HIST, "A lost update needs another client's operation at the right moment between two calls.",
  ["update.go:prepareUpdate", "update.go:Finalize", "locks.go"])
p("C52", "A delete removes exactly the value its Prepare reported",
  "If Finalize of a delete operation returns true, then at that moment the key still had the value that PrepareDelete reported, and afterwards it is gone.",
  HIST, "As C51.",
  ["delete.go:prepare", "delete.go:Finalize", "locks.go"])
p("C53", "Interrupted calls neither fail nor get stuck",
  "However Lookup, PrepareUpdate and PrepareDelete are interrupted between two memory accesses, none of them panics, and each of them always has a next step; Finalize and Abort after them fail only when memory is exhausted (or as in C12).",
  FINE, "Exponentially many interleavings; the tree changes under the reader, node memory is recycled.",
  ["radix.go:search", "update.go:prepareUpdate", "delete.go:prepare", "locks.go", "epoch.go"])
p("C54", "Answers of interrupted calls were true at some moment",
  "If an interrupted Lookup, PrepareUpdate or PrepareDelete of key k returns value v, then v was the value of its key at some moment between start and return; if it returns not found, or a candidate with another key, then k was absent at some moment between start and return.",
  FINE, "Exponentially many interleavings.",
  ["radix.go:search", "update.go:prepareUpdate", "delete.go:prepare"])
p("C55", "Interrupted Prepare calls lose no update",
  "At every moment of an interleaved history the tree holds exactly the bindings of the acknowledged calls; a Finalize after an interrupted Prepare changes exactly its key, or changes nothing and returns false.",
  FINE, "Exponentially many interleavings.",
  ["update.go:prepareUpdate", "update.go:Finalize", "delete.go:prepare", "delete.go:Finalize", "locks.go"])
p("C56", "Interrupted calls leave counters, memory, locks and reservations in order",
  "At every moment of an interleaved history Len is the number of keys, live nodes occupy disjoint memory that is not free, an allocator has a reservation not above the epoch exactly while it has an operation open, and when no operation is open no lock is held.",
  FINE, "Exponentially many interleavings.",
  ["update.go", "delete.go", "allocator.go", "locks.go", "epoch.go"])
p("C57", "Read-modify-write is atomic when calls are interrupted",
  "C51 and C52 when the Prepare calls are interrupted between any two memory accesses.",
  FINE, "Exponentially many interleavings.",
  ["update.go", "delete.go", "locks.go"])
p("C58", "An acknowledged insert is never lost",
  "After Finalize of an insert returned true, Lookup finds the key until somebody deletes it, also when lock words are shared by several nodes (a block has 4096 lock words for 262144 slots).",
  FINE, "Needs two nodes 4096 slots apart that are parent and child, and a certain interleaving of three operations.",
  ["delete.go:prepare", "locks.go:lockNodes3"])
p("C59", "The memory of a node in the tree is never recycled",
  "No interleaving makes a delete recycle a node that is still in the tree.",
  FINE, "As C58; the damage shows only when the memory is used again.",
  ["delete.go:prepare", "delete.go:Finalize", "locks.go:lockNodes3"])
p("C60", "In small trees interrupted Lookup and Prepare calls are safe without any condition on locks",
  "As long as every block still belongs to an allocator that has handed out only its first 4096 words, and fewer than 2^31 calls were finalized or aborted, no interrupted Lookup, PrepareUpdate or PrepareDelete fails or gets stuck, and every acknowledged binding is in the tree at every moment, provided Finalize and Abort are not interrupted (otherwise see C67).",
  FINE, "Interleavings between single memory accesses cannot be enumerated by tests.",
  ["locks.go:lockNodes3", "delete.go:prepare", "allocator.go:newNode"])

p("C61", "Lookup is wait-free",
  "A Lookup that is interrupted between any two memory accesses never starts again, and makes at most 130 + 129 * len(key) accesses to shared memory, whatever other clients do meanwhile.",
  FINE, "A bound for all interleavings; a test that finishes says nothing about the next schedule.",
  ["radix.go:search", "allocator.go:Lookup"])
p("C62", "Lookup disturbs nobody",
  "Between its reservation and its return a Lookup changes no word of the tree, no lock word and no reservation.",
  FINE, "Concerns every access of every interleaving.",
  ["radix.go:search", "allocator.go:Lookup"])
p("C63", "PrepareUpdate and PrepareDelete start again only when another client was in the way",
  "One attempt (from the reservation or a jump to label S to the next jump or the return) makes a number of memory accesses bounded by the length of the key. If it ends in a jump to label S, then during it another client's Finalize or Abort took place, or another client held a lock.",
  FINE, "A needless retry shows only as lost time, and a livelock only in schedules that tests do not produce.",
  ["update.go:prepareUpdate", "delete.go:prepare", "locks.go"])
p("C64", "A call that runs alone returns",
  "If no other client holds a lock, then a Lookup, PrepareUpdate or PrepareDelete in progress, whatever it has read so far, returns after a number of its own steps bounded by the length of its key, provided the other clients pause.",
  FINE, "Starts from every state of every interleaving.",
  ["radix.go:search", "update.go:prepareUpdate", "delete.go:prepare", "locks.go"])

p("C65", "An iterator returns only values that were stored",
  "However the tree changes between the calls of Next, each value Next returns was the stored value of its key at that call or an earlier one of the same iteration; and no call panics unless a node ends at the last word of a block.",
  "all sequences of reachable states at the calls of Next, all prefixes",
  "The resume key of an iterator may fit nothing in the tree by the time it is used; tests change the tree in few ways.",
  ["iterator.go:Next", "iterator.go:storeResumePosition"])
p("C66", "Keys that stay in the tree are returned by an iteration that runs while other keys change",
  "A key that is in the tree from the creation of an iterator until Next returns false, and has the iterator's prefix, is returned.",
  "all histories of calls between the calls of Next",
  "Needs more than 256 keys and a change between two calls of Next that reshapes a node on the path of the resume key.",
  ["iterator.go:Next", "iterator.go:storeResumePosition"])

STEPS = "every interleaving of the single shared-memory accesses of Lookup, PrepareUpdate, PrepareDelete, Finalize and Abort of any number of clients; every key universe, every value"
p("C67", "An acknowledged insert is found, also when Finalize is interrupted",
  "In a history of inserts of different keys in which all calls are interrupted between any two memory accesses, every key whose Finalize returned true is found once all calls have returned, and stays there as long as no call names it.",
  STEPS, "Needs a walk paused between two loads while another client's Finalize is paused between its store and its unlock and a third client replaces the node below.",
  ["update.go:prepareUpdate", "update.go:Finalize", "delete.go:prepare", "locks.go:generation"])
p("C68", "An acknowledged delete removes the key, also while another Finalize is in progress",
  "If PrepareDelete and Finalize of a delete run without interruption and Finalize returns true, the key is not found afterwards unless it is inserted again, also when another client's Finalize is in progress.",
  STEPS, "Needs a delete from a node with 256 slots at the moment another client copies that node.",
  ["delete.go:prepare", "delete.go:Finalize", "update.go:Finalize"])
p("C69", "Locks are kept in order when all calls are interrupted",
  "In every interleaving no unlock panics, operations of different clients between Prepare and Finalize have no locked node in common, and when no call is in progress and no operation is open nothing is locked. This holds whatever the memory of the tree contains, except that no delete may be aborted whose Prepare found a child node at address 0 to merge with (which only a damaged tree contains).",
  STEPS, "Exponentially many interleavings.",
  ["locks.go", "update.go", "delete.go"])
p("C70", "Len counts the acknowledged calls when all calls are interrupted",
  "In every interleaving, when no call is in progress and no operation is open, Len is the number of acknowledged inserts of keys that PrepareUpdate had not found minus the number of acknowledged deletes (minus what restarts lost, C24), with the exception of C69.",
  STEPS, "Exponentially many interleavings.",
  ["update.go:Finalize", "delete.go:Finalize", "allocator.go:FlushStats", "radix.go:Len"])
p("C71", "Finalize and Abort are wait-free",
  "A Finalize or Abort makes at most 1048876 accesses to shared memory, plus two for each allocator, whatever the other clients do.",
  STEPS, "A bound on all schedules and all contents of memory.",
  ["update.go:Finalize", "update.go:Abort", "delete.go:Finalize", "delete.go:Abort", "allocator.go:newNode", "epoch.go:minReservation"])

OBS = "every interleaving of the single shared-memory accesses of Next, Count, Lookup, PrepareUpdate and PrepareDelete of any number of clients, with uninterrupted Finalize and Abort; every key universe, every prefix, every state of the iterator"
p("C72", "Interrupted iterations and counts do not fail",
  "A Next or Count that is interrupted between any two memory accesses by other clients does not panic (a Next only if a node ends where its block ends), never has to start again, and changes nothing in the tree.",
  OBS, "Interleavings between single memory accesses cannot be enumerated by tests; the nodes an iterator holds may have left the tree.",
  ["iterator.go:Next", "counter.go:Count", "radix.go:partialSearch"])
p("C73", "Count lies between the keys that stay and the keys that are there at some moment",
  "If other clients insert and delete while Count(p) runs, it returns at least the number of keys with prefix p that are there during the whole call, and at most the number of keys with prefix p that are there at some moment of the call (or 1, C16).",
  OBS, "Needs changes at chosen places between two loads of a call.",
  ["counter.go:Count", "radix.go:partialSearch"])
p("C74", "Next returns keys in order while other clients change the tree",
  "If other clients insert and delete while Next runs, the values it prefetches are in order of their keys and each was bound to its key at some moment of the call; the first Next of an iteration prefetches every key with the prefix that is there during the whole call, or all of them up to some key if there are more than 256. The following calls return the prefetched values one by one.",
  OBS, "Needs changes at chosen places between two loads of a call.",
  ["iterator.go:Next", "iterator.go:storeResumePosition", "radix.go:partialSearch"])
p("C75", "Count is the number of keys at some moment",
  "The number Count returns is the number of keys with the prefix at some moment between its start and its return.",
  OBS, "Needs an insert before and a delete after the position of the count, during the call.",
  ["counter.go:Count"])
p("C76", "Iterations and counts disturb nobody",
  "While some clients iterate and count, calls of the other clients do not fail, return what was true at some moment of the call, and acknowledged bindings, Len and the live memory are as without the iterations.",
  OBS, "Concerns every interleaving.",
  ["iterator.go:Next", "counter.go:Count", "epoch.go", "allocator.go:recycle"])

p("C77", "With one Finalize at a time the tree is linearizable",
  "If all calls are interrupted between any two memory accesses but at most one Finalize or Abort is in progress at a time, every Finalize and Abort takes effect at one of its own steps before it returns; with these moments as the order of the writes, every Lookup, PrepareUpdate and PrepareDelete answers as the finite map did at some moment between its start and its return, every Finalize returns what it should, and when none is in progress the tree holds the finite map and Len is its size.",
  STEPS, "Concerns every interleaving of single memory accesses of readers with the stores of a Finalize.",
  ["update.go:Finalize", "delete.go:Finalize", "update.go:prepareUpdate", "delete.go:prepare", "radix.go:search"])
p("C78", "With one Finalize at a time no call fails or gets stuck",
  "In the histories of C77 no call in progress is about to panic, except a Finalize when all memory is in use, and every call in progress can go on.",
  STEPS, "As C77.",
  ["update.go:Finalize", "delete.go:Finalize", "update.go:prepareUpdate", "delete.go:prepare", "radix.go:search"])
p("C79", "One writer and any number of readers",
  "If one client makes all updates and deletes and any number of clients look up keys, all of them interrupted between any two memory accesses, every write succeeds and takes effect at one of its own steps, every Lookup answers as the finite map did at some moment during the Lookup, when no Finalize is in progress the tree holds exactly the finite map and Len is its size, no call panics (except when all memory is in use) and none is stuck. Keys have at most 9 bytes.",
  STEPS, "As C77; the most common way to use the tree, and no schedule of a test covers all places where a reader can be interrupted.",
  ["update.go:Finalize", "delete.go:Finalize", "update.go:prepareUpdate", "delete.go:prepare", "radix.go:search", "allocator.go:Lookup"])

p("C80", "Admin root shows the root of the tree as it is",
  "In every state, Admin \"root\" prints the root and a line for each child, in their places; the prefix it prints begins every stored key; the values printed for leaves are values of stored keys; it prints \"Index is empty\" only if no key is stored.",
  HIST, "Depends on the shape of the tree.", ["admin.go:Admin", "admin.go:debugPrintNode"])
p("C81", "Admin does not panic",
  "Whatever arguments Admin is given, it does not panic.",
  "every reachable state, every list of arguments", "Infinite input space.", ["admin.go:Admin", "admin.go:debugPrintNode"])
p("C82", "Admin node shows the node with the given number",
  "The number Admin prints for a node or leaf of the tree, given to Admin \"node\", shows that node with its children, or that leaf.",
  HIST, "Fails only for nodes with 256 slots.", ["admin.go:Admin", "admin.go:debugPrintNode"])
p("C83", "Admin blocks and Stats count all memory in use",
  "Every node of the tree lies in a block that Admin \"blocks\" lists as in use and that Stats counts in blocks_allocated and bytes_allocated.",
  HIST, "Depends on which blocks were handed out.", ["admin.go:Admin", "stats.go:Stats", "allocator.go:newNode"])
p("C84", "Admin allocators returns",
  "Admin \"allocators\" returns when no client keeps an allocator for ever.",
  "every interleaving of atomic operations of the allocator pool", "Needs two operators at the same moment, or a stopped tree.", ["admin.go:Admin", "slots.go:get", "radix.go:Stop"])

XOBS = "every interleaving of the single shared-memory accesses of all calls of any number of clients, with one Finalize or Abort in progress at a time; every key universe, every prefix, every state of the iterator"
p("C85", "Iterations and counts beside a half-done Finalize",
  "If all calls, Next and Count too, are interrupted between any two memory accesses and at most one Finalize or Abort is in progress at a time, there is an order of the writes, each at one of its own steps, in which every Count returns the number of values of a list in key order, each bound to its key at some moment of the call, that has every key with the prefix that is there during the whole call, and every Next that has to search fetches such a list (or more than 256 values of it from the first on) and returns its first value; the other calls answer as in C77.",
  XOBS, "The loads of an iteration fall between any two stores of a Finalize.",
  ["iterator.go:Next", "counter.go:Count", "radix.go:partialSearch", "update.go:Finalize", "delete.go:Finalize"])
p("C86", "Beside iterations and counts no call fails or gets stuck",
  "In the histories of C85 no call in progress is about to panic, except a Finalize when all memory is in use and a Next if a node ends where its block ends, and every call in progress can go on.",
  XOBS, "As C85.", ["iterator.go:Next", "counter.go:Count", "radix.go:partialSearch", "update.go:Finalize", "delete.go:Finalize"])
p("C87", "One writer and any number of readers that iterate and count",
  "If one client makes all updates and deletes and any number of clients look up keys, iterate and count, all interrupted between any two memory accesses, every write succeeds and takes effect at one of its own steps; Lookup, Next and Count return keys with values the finite map had at some moment of the call, in order, and miss no key that is there during the whole call; when no Finalize is in progress the tree holds exactly the finite map and Len is its size.",
  XOBS, "As C85.", ["iterator.go:Next", "counter.go:Count", "update.go:Finalize", "delete.go:Finalize", "allocator.go:Lookup"])
p("C88", "Counter statistics are exact sums over visits",
  "After Count(nil), NodesWithPrefix, NodeSizes, TotalPrefixLength, TotalPrefixBytes and LargePrefixes are the sums over all inner nodes of what each node contributes (a stored prefix or not, its slots, its prefix length, the bytes its prefix takes in memory, a prefix of 255 bytes or more or not), where a node is taken once, and once more for each of its children that is an inner node and not its last child.",
  "every reachable tree", "All tree shapes and prefix lengths; nodes revisited after a subtree are counted again.",
  ["counter.go:Count", "counter.go:Counter"])
p("C89", "debugSearch finds what Lookup finds",
  "In every reachable state debugSearch(key), for a non-empty key, neither panics nor loops for ever and returns the value Lookup(key) returns (0 if Lookup finds nothing); in a tree that is not empty it prints nothing if the root is a leaf, and otherwise the root, then a child of it, and so on downwards, each with its children as they are.",
  "every reachable tree, every non-empty key", "All tree shapes and keys; no test calls it.",
  ["radix.go:debugSearch", "admin.go:debugPrintNode", "allocator.go:Lookup"])

with open("/verif/properties.jsonl", "w") as f:
    for x in P:
        f.write(json.dumps(x) + "\n")
print(len(P))
