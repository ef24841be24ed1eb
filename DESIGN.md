# A machine-checked model of jayloop/radix

The code in `/repo` (Go) implements a concurrent radix tree over an arena of 2 MiB
blocks.  `rocq/theories` contains an executable model of that code, an independent
specification, and proofs relating the two.

## Files

Model (transcribed from the Go code, one definition per function, each with a citation):

| file | Go source |
|---|---|
| `Words.v` | `utils.go`: packing of nodes and leaves in 64-bit words |
| `Mem.v` | the arena (`nodeBlock.data`, `nodeBlock.locks`) as sparse total memory |
| `State.v` | `radix.go` (records, `allocateNode*`), `unsafe.go` (prefixes), `locks.go`, `epoch.go`, `allocator.go` (start/endOp, recycle, newNode, allocateNode) |
| `Search.v` | `radix.go`: search, Lookup, partialSearch, MinKey, MaxKey, Len |
| `Update.v` | `update.go` |
| `Delete.v` | `delete.go` |
| `Iter.v` | `iterator.go`, `counter.go` |
| `Persist.v` | `state.go`, `allocator.go` writeState/loadState, `radix.go` NewTreeFromState: files as lists of bytes |
| `Keys.v` | README and example_test.go: recommended key encodings |
| `Api.v` | the calls of `allocator.go`, `radix.go` as steps of a system of clients with open operations; `proper` is the documented protocol; a restart (Stop, WriteState, NewTreeFromState) is one of the calls |
| `Pool.v` | `slots.go`, `radix.go` Stop/Start/Len/GetAllocator/ReleaseAllocator; one atomic operation per step, any number of goroutines |
| `LockModel.v` | `locks.go` (node locks); one atomic operation per step, any number of goroutines |
| `Epoch.v` | `epoch.go`, `allocator.go` startOp/endOp/recycle/newNode; one atomic operation per step, any number of clients, abstract memory |
| `WriterModel.v` | `state.go` 43-102: the channels and goroutines of WriteState, one channel operation or one call of Write per step |
| `BlockRace.v` | `radix.go` blockAllocator, NewTree, NewTreeFromState: the goroutine that creates blocks, one assignment or rendezvous per step; Lookup and WriteState beside it |
| `Fine.v` | `radix.go` search, `update.go` prepareUpdate, `delete.go` prepareDelete, `locks.go` as programs whose steps are single accesses to shared memory |
| `FineRun.v` | `allocator.go` Lookup, PrepareUpdate, PrepareDelete, startOp, endOp: histories in which these programs of any number of clients interleave step by step with each other and with Finalize, Abort, FlushStats and restarts (one step each) |
| `StepFin.v` | `update.go` Finalize and Abort, `delete.go` Finalize and Abort, newNode, recycle, unlock: programs whose steps are single accesses to shared memory |
| `StepRun.v` | histories in which these programs and those of `Fine.v` interleave step by step (FlushStats and restarts are one step) |
| `FineObs.v` | `iterator.go` Next, `counter.go` Count, `radix.go` partialSearch as such programs, and histories in which they interleave with those of `FineRun.v` |
| `StepObs.v` | histories in which the programs of `Fine.v`, `StepFin.v` and `FineObs.v` all interleave step by step |
| `Admin.v` | `admin.go`, `stats.go`, `allocator.go` printStats, `radix.go` debugSearch (what is printed, without its formatting) |
| `Unprot.v` | `radix.go` MinKey, each round of the loop in another state |
| `Script.v`, `FineScript.v`, `StepScript.v` | run scripted clients on the models (for witnesses and examples) |

Specification:

| file | content |
|---|---|
| `Spec.v` | `replay`: the finite map and the set of open operations described by a history of calls and replies; `get`: what a client sees of a key; `reachable` |
| `Live.v` (top) | nodes reachable from the root, read off the memory words |
| `Seq.v` (top) | histories in which clients take turns |

Proofs: `*Facts.v`, `Trie.v`, `Occ.v`, `Core.v` (ghost trie, representation), `PrepFacts.v`,
`DelPrep.v`, `PrepTop.v` (Prepare calls), `Change.v`, `FinTools.v`, `Scan.v` (Finalize with given results for the scans of the reservations),
`FinU.v`, `FinD.v`
(Finalize), `Order.v`, `Inv.v`, `Step.v` (the invariant; `step_ok`: every call keeps it),
`ApiProps.v`, `LookupPath.v`, `ApiTop.v` (consequences), `Witness.v`, `Examples.v`, `CandExample.v`; for the queries `Kids.v`,
`PSearch.v`, `MinMax.v`, `CountFacts.v`, `IterFacts.v`, `Query.v` (loops on the ghost trie),
`QueryTop.v` (every reachable state), `CountStats.v`, `QWitness.v`; `PoolFacts.v`, `LockModelFacts.v`, `EpochFacts.v`, `UnprotFacts.v`;
`PText.v`, `PSeg.v`, `PWrite.v`, `Restart.v` (a written file is read back), `Same.v` (queries depend on
memory words only), `PersistTop.v`, `PWitness.v`; `Recycled.v`, `LeakWitness.v` (memory of removed nodes), `LongKeys.v`; `WriterFacts.v`, `BlockRaceFacts.v`;
`Rmw.v`, `RmwExamples.v`; for interrupted calls `FineExec.v` (run without interruption, the programs of `Fine.v` compute what
`Search.v`, `Update.v` and `Delete.v` compute), `FineInv.v`, `FineStep.v`, `FineRead.v`, `FinePin.v`, `FineLook.v`, `FineLock.v`, `FineUpd.v`, `FineDel.v`,
`FineTop.v` (the invariant and what a client knows at each of its steps), `FineProps.v`, `FineWitness.v`, `FineExamples.v`;
`FineProg.v`, `ProgExamples.v` (step bounds, causes of retries, calls that run alone); for iterations while the tree changes
`IterAlong.v` (resume keys that fit nothing), `IterGrow.v` (paths survive inserts), `IterWitness.v`, `IterExamples.v`;
for interrupted Finalize and Abort `StepExec.v` (run without interruption, the programs of `StepFin.v` compute what `Update.v` and `Delete.v` compute),
`StepPath.v` (the same when the scans of the reservations read given values),
`StepLocks.v`, `StepFinish.v` (which locks a program holds at each step and what it adds to the item counter, whatever its loads return), `StepInv.v`,
`StepProg.v` (bounds on the accesses of all calls), `StepWitness.v`, `StepExamples.v`;
for interrupted Next and Count `FineObsExec.v` (run without interruption, the programs of `FineObs.v` compute what `Iter.v` computes), `FineObsRead.v`,
`FineObsTop.v` (the invariant of `FineTop.v` with a Lookup in place of each Next and Count), `FineObsProps.v`, `FineObsSim.v` (such a history with the Lookups made real), `FineObsOthers.v`,
`FineObsScript.v`, `FineObsExamples.v`;
for one interrupted Finalize at a time `StepPhase.v` (the program of a Finalize before, at and after the step at which it takes effect), `StepEarly.v` (its steps before, which change nothing
that is reachable), `StepRest.v` (its steps after), `FineWake.v` (the order in which a Finalize gives back its locks: while it does so a node that was cut off is locked as long as it can be reached), `StepPlace.v` (what such histories are and where the calls take effect), `StepSim.v`, `StepLin.v` (each such history is followed by a history of `FineRun.v`
in which the Finalize is one step, placed at that moment), `StepAnswer.v`, `StepWriter.v` (one client writes), `StepOneExamples.v`;
with Next and Count `StepObsSim.v`, `StepObsProps.v`, `StepObsWriter.v`, `StepObsExamples.v`;
`AdminFacts.v`, `AdminWitness.v`, `PoolAdmin.v`, `DebugSearch.v`.

Property theorems: `PropsWords.v`, `PropsApi.v`, `PropsQuery.v`, `PropsPool.v`, `PropsLocks.v`, `PropsEpoch.v`,
`PropsMemory.v`, `PropsPersist.v`, `PropsWriter.v`, `PropsBlocks.v`, `PropsRmw.v`, `PropsFine.v`, `PropsProg.v`, `PropsIter.v`, `PropsSteps.v`, `PropsObs.v`, `PropsStepOne.v`, `PropsStepObs.v`, `PropsAdmin.v` (nothing else in these files).

`Pool.v`, `LockModel.v`, `Epoch.v`, `WriterModel.v` and `BlockRace.v` are finer grained than the API model and about one
concurrent mechanism each.

## Modelling choices

* Go `uint64` = `N` with explicit wrap-around; lock words are 32-bit patterns; lengths,
  counts and indices are `nat`; slot addresses are `N`.
* Every Go operation that can panic (index, slice expression, nil block, explicit panic)
  is a checked operation of the model and yields `Panic why`.  The unsafe `memmove`
  of `unsafe.go` yields `Panic UnsafeOverrun` if it would leave the block.
* In the sequential/API-level model one API call (`Lookup`, `PrepareUpdate`, `Finalize`,
  `Abort`, ...) is one step; any number of operations may be open between their
  `Prepare` and `Finalize`.  `goto S` (retry) is `Retry`: in one step it would spin until
  another operation unlocks.  Interleavings *inside* a call are the subject of the
  fine-grained models (locks, allocator pool, epochs, block hand-out, state writer, and
  `Fine.v` for Lookup and the Prepare calls).
* `Fine.v`: a step is one access to the root, to a slot, to a lock word, to the root lock or to the table of
  blocks.  The prefix of a node and its bytes are read slot by slot.  Finalize and Abort are still single steps: they run under the
  locks taken by Prepare, but their stores are not interleaved with the reads of other clients, and neither is
  the scan of the reservations in newNode.  That is a real restriction: with Finalize interrupted, C55 and C60 fail (C67, C68).
* `StepFin.v`, `StepRun.v`: every call that touches the tree is interrupted.  A step is one load or store of a slot, one
  compare-and-swap, one addition to a lock word, one load of a reservation, one access to the epoch.  Still one step each: what concerns
  only the client's own allocator (recycler, bump pointer, counters), the hand-over of a block, the memmove of a prefix into a new node,
  FlushStats and restarts.  `copy` reads all words before it writes them.
* `FineObs.v`: Next and Count between `startOp` and `endOp`, one load per step, on top of `FineRun.v` (so Finalize and Abort
  are single steps).  The loops get a number of rounds as an argument (`fuel`), because with other clients at work the code has no bound;
  a call that has used it up stands still.  A Next that has a value left returns it before `startOp` in the code; in the model it makes a reservation
  all the same.  The condition `calm` (fewer than 2^31 calls during one attempt) also counts a Next or Count as one attempt.
* Go's sync/atomic operations are sequentially consistent; plain accesses are to data
  that is not concurrently written (allocator fields) - not checked by the model.
* `sync.Pool` reuse of operation structs: a pooled struct has stale fields, all fields
  read by a kind are written by the prepare call of that kind (by inspection).
* In `Epoch.v` the writers are abstract: they take memory, fill it, change one pointer of the
  tree and recycle memory that left the tree.  That the Go code keeps to these rules is
  proved at the level of whole API calls (C13, C21), not for interleavings inside calls.
* A slot of the arena holds a 64-bit word: reading is modulo 2^64 (`mget`); lock words are read
  as stored (`lget`) and wrapped by the lock operations.
* `Persist.v`: the block compression (golang/snappy) is a parameter that must round-trip
  (`codec`); the reader only ends, it does not fail otherwise; allocations below 2^48 bytes
  succeed; `int(v)` of the allocator's block number is kept unsigned; a block of the file with
  too much data is left zero-filled as in Go.  The order in which the blocks are written is a
  parameter.  A restart needs no open operation and `liveObjects` below 2^63.  `h_off` in
  `Spec.v` is the amount Len lost in restarts (C24); it is 0 in histories without restarts.
* `Admin.v`: each command is one step, also when other clients are at work; a Go map of statistics is a record; the quotient bytes_per_key
  is not computed.
* `blockMap`, `Elapsed`, and the formatting of output are not modelled.  The blocksize8/16 build tags
  are modelled only as far as node words go (`BuildTags.v`, C10); all else is about blocks of 2 MiB.

## Trusted base

Coq 8.16.1's kernel (and `vm_compute` for the closed witnesses); what
`Print Assumptions` lists under each theorem; the reading of the Go code into the model
files above; no axioms of our own.  All theorems so far are "Closed under the global
context".  Loading std++ also loads Coq's own `ssr` library, whose module
`Coq.ssr.ssrunder.Under_rel` declares seven axioms (`Under_rel`, `Under_rel_from_rel`,
`Under_relE`, `Over_rel`, `over_rel`, `over_rel_done`, `under_rel_done`); no theorem uses
them.

Assumptions built into the API theorems (`reachable`, `proper`):

* keys come from a set in which no key is a prefix of another, are not empty and are
  shorter than 2,000,000 bytes (a node must fit into a block, see C42); Lookup and
  PrepareDelete accept any non-empty byte string;
* the client's storage is immutable: `fetch v` is the key of the object at `v`;
* an allocator has one operation open at a time (allocator.go:26);
* fewer than 2^64 - 1 calls (the epoch counter does not wrap);
* for interrupted calls (`freachable`): fewer than 2^31 calls of other clients during one attempt of a Prepare call (the
  generation in a lock word does not come round, `calm`), and no open delete merges a node into a child node whose lock word is also
  the lock word of the node or of its parent (`unshared`; C58 and C59 refute the claims without this; C60 shows that it always holds in trees that use only the
  first 4096 words of each block);
* for C69 and C70 (`child_known`): no delete that merges a node with a child at address 0 is aborted; nothing else is assumed, not even
  that the key universe is prefix-free;
* the goroutine that hands out blocks ran once after NewTree (without this see C39).

## Plan per property

The proofs use a ghost trie `trie` (leaves with full keys, nodes with prefix and
children), a representation predicate relating it to memory words, and an invariant for
reachable states (disjoint live/free memory, locks held exactly by open operations,
open operations still valid).  The specification is a finite map from keys to values.

| property | model | plan |
|---|---|---|
| C01-C06 | Search/Update/Delete | simulation between the API-level model and a finite map, for all histories |
| C07, C45 | Update | frame proof on locks and reservations |
| C08 | Delete | false for the merge kind (swapped arguments, delete.go:344): witness; proved for other kinds |
| C09, C10 | Words, BuildTags | bit-level proofs |
| C11 | State | byte-level memory proofs, both unsafe and safe variants |
| C12 | all | false: recycling exactly 258 slots panics (witness); proved when nodes stay smaller (e.g. keys up to 9 bytes) |
| C13 | all | invariant |
| C14-C16 | Iter | C14 proved (except when the root node ends exactly at the end of block 0); C15 false for some trees larger than 256 (witness), proved otherwise; C16 false (a candidate leaf is not checked), exact up to that candidate |
| C17, C18 | Search | false with emptied node-256 (witness) and for the unchecked candidate; proved otherwise |
| C19, C20 | Iter | C19 proved; C20 false (witness) |
| C21 | State | invariant |
| C22 | Delete | false: delete.go:295 recycles the child only (witness); proved for all other nodes |
| C23-C27 | Persist, BlockRace | text format with a codec for blocks that round-trips; witnesses for C24-C27 |
| C28-C30, C49, C50 | Pool | interleaving model of slots.go and Stop/Start/Len |
| C31, C32, C37 | LockModel | interleaving model of locks.go at the level of single atomic operations |
| C33, C34 | Epoch | interleaving model of the epoch protocol |
| C35, C36 | Api | any interleaving of API calls; C36 false for node-256 (witness) |
| C38 | WriterModel | channel pipeline of state.go; false when too many blocks follow the failing write (witness), proved otherwise |
| C39 | BlockRace | model of the block allocation goroutine; false before its first step (witness), proved afterwards |
| C40 | Iter | witness |
| C41, C42, C46 | Update/Search | witnesses |
| C43 | Keys | arithmetic and list proofs |
| C44 | Search/Update/Delete/Iter | fuel bounds |
| C45, C48 | Api | invariant |
| C47 | Search | false (witness); the bytes that the search compares are those at which stored keys part (`_partial`) |
| C51, C52 | Api | invariant of open operations: the word they will replace is the word they read |
| C53-C57 | Fine, FineRun | every step of an interrupted call keeps the API-level invariant; what the client has read stays valid or the lock check fails |
| C58, C59 | Fine, FineRun | false: two nodes with the same lock word are checked with one of the two generations read (witnesses) |
| C60 | Fine, FineRun | C53-C57 with no condition on locks while every block in use belongs to an allocator that has handed out at most its first 4096 words (`compact`) |
| C61 | Fine, FineRun | Lookup never starts again and makes at most 130 + 129·len(key) accesses, in all interleaved histories |
| C62 | Fine, FineRun | the accesses of a Lookup change nothing, in all interleaved histories |
| C63 | Fine, FineRun | bound for one attempt in all interleaved histories; an attempt is repeated only after another client's Finalize or Abort, or while another client holds a lock (`_partial`: `unshared`, `calm`) |
| C64 | Fine, FineRun | a call in progress that runs alone while nobody else holds a lock returns within a bounded number of steps (`_partial`: as C63) |
| C65 | Iter | any reachable tree at each call of Next; the walk along the resume key ends at some node, whatever the key |
| C66 | Iter, Api | inserts keep every path of the trie, so a resume key stays a path (`_partial`: whole tree, no deletes); false with deletes or with a prefix (witnesses) |
| C67, C68 | StepFin, StepRun | false: an odd generation that has not changed is taken for a sign that nothing happened; deletes from 256-slot nodes are not locked out while the node is copied (witnesses) |
| C69, C70 | StepFin, StepRun | ghost map from clients to the locks they hold and what they added to the counter; all programs are followed through all values their loads may return, so nothing is assumed about the memory |
| C71 | StepFin, StepRun | bound on the length of the programs, for all values of the loads; slices never exceed a block |
| C72 | FineObs | each step of Next and Count keeps what it knows of the nodes it holds (the reservation protects their memory, C13), so each load is inside a block (`_partial`: as C53, and a node that ends where its block ends, C14) |
| C73, C74 | FineObs | ghost list of values found so far, with the moments at which they were bound, and a lower bound of the keys not visited yet; keys that stay are never passed over (`_partial`: as C53) |
| C75 | FineObs | false: Count is not a snapshot (witness) |
| C76 | FineObs, FineRun | the accesses of Next and Count only read, so they can be replaced by those of a Lookup just before the return (`_partial`: as C53) |
| C77, C78 | StepFin, StepRun | simulation by the histories of C53-C57: the stores of a Finalize before the one that links the new node change only memory nobody else can reach, so it can be moved to that one step; the locks given back after it go from parent to child, so a node that was cut off is never reached through an unlocked one (FineWake) (`_partial`: see MANIFEST) |
| C79 | StepFin, StepRun | the same when one client writes; the others take no locks, so the conditions on locks hold |
| C80-C83 | Admin | every reachable tree, read off the ghost trie; false for "node" with numbers of no node, and of nodes with 256 slots (witnesses) |
| C84 | Pool | false: two calls at once, or one on a stopped tree, are stuck in every continuation (witnesses); proved for a call alone |
| C85, C86 | StepObs | the simulation of C77 with a Lookup in place of each Next and Count; what these load is what they would load if the Finalize were one step (`_partial`: see MANIFEST) |
| C87 | StepObs | the same when one client writes |
| C88 | Iter | the loop of Count keeps, for each statistic, a sum over the ghost trie (CountStats) |
| C89 | Admin | the loop of debugSearch beside the loop of search, on the ghost trie (DebugSearch) |
