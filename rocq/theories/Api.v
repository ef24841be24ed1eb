(** * Api: histories of API calls on one tree.  One API call is one step; every allocator
    has at most one operation open (allocator.go:26 "not safe for concurrent use"), so the
    operations of different clients interleave at the granularity of API calls. *)
From stdpp Require Export gmap.
From Verif Require Export Delete Persist Trie.

(** What a client holds between Prepare and Finalize/Abort: allocator.go:129-132
    ([found], the operation) and allocator.go:160-168 (the operation, and the key it asked
    for, to compare with the fetched key).  [HP]: a Lookup or Prepare that has begun and not
    returned yet, with the lock words it has locked so far; the calls below never create it (a
    call is one step), it is for the finer steps of Fine.v. *)
Inductive handle :=
| HU (found : bool) (op : uop)
| HD (key : list N) (op : dop)
| HP (locks : list N) (rootLock : bool).

(** The tree and the open operations by allocator id. *)
Record sys := Sys { sy_tree : tree; sy_open : gmap nat handle }.

(** radix.go:99-119 [NewTree]. *)
Definition init (n : nat) : sys := Sys (newTree n) ∅.

(** The calls of allocator.go:75-168 (and their Tree-level variants radix.go:257-282),
    update.go:265 and 427, delete.go:268 and 337.  [CFinU] carries the fields
    [FetchedKey] and [Match] set by the client.  [CRestart] is a restart of the program: Stop
    and WriteState (radix.go:150, 178) on the old tree, then NewTreeFromState (radix.go:122); its
    arguments are the block compression and the order in which the blocks were written. *)
Inductive call :=
| CLookup (aid : nat) (key : list N)
| CPrepU (aid : nat) (key : list N)
| CFinU (aid : nat) (fetched : list N) (mtch : bool) (value : N)
| CAbortU (aid : nat)
| CPrepD (aid : nat) (key : list N)
| CFinD (aid : nat)
| CAbortD (aid : nat)
| CFlush (aid : nat)
| CRestart (pack : list N -> list N) (unpack : list N -> option (list N)) (order : list N).

Inductive reply :=
| RLookup (v : N) (found : bool)
| RPrepU (found : bool) (v : N)
| RPrepD (v : option N)
| RBool (b : bool)
| RUnit
| RRestart (lost : Z). (* how far Len went down, for the bookkeeping of [hist] *)

(** One call.  Calls on handles that do not exist cannot be written in Go; they are
    excluded by [proper] below and given an arbitrary outcome here. *)
Definition api (y : sys) (c : call) : res (reply * sys) :=
  let s := sy_tree y in
  let o := sy_open y in
  match c with
  | CLookup aid key =>
    do (v, found, s1) <- Search.lookup s aid key;
    Ok (RLookup v found, Sys s1 o)
  | CPrepU aid key =>
    do (found, op, s1) <- prepare_update s aid key;
    Ok (RPrepU found (u_value op), Sys s1 (<[aid := HU found op]> o))
  | CFinU aid fk m value =>
    match o !! aid with
    | Some (HU _ op) =>
      do (u, s1) <- finalize_update s op fk m value;
      Ok (RBool u, Sys s1 (delete aid o))
    | _ => NoFuel
    end
  | CAbortU aid =>
    match o !! aid with
    | Some (HU _ op) =>
      do s1 <- abort_update s op;
      Ok (RUnit, Sys s1 (delete aid o))
    | _ => NoFuel
    end
  | CPrepD aid key =>
    do (r, s1) <- prepare_delete s aid key;
    match r with
    | Some op => Ok (RPrepD (Some (d_value op)), Sys s1 (<[aid := HD key op]> o))
    | None => Ok (RPrepD None, Sys s1 o)
    end
  | CFinD aid =>
    match o !! aid with
    | Some (HD _ op) =>
      do (u, s1) <- finalize_delete s op;
      Ok (RBool u, Sys s1 (delete aid o))
    | _ => NoFuel
    end
  | CAbortD aid =>
    match o !! aid with
    | Some (HD _ op) =>
      do s1 <- abort_delete s op;
      Ok (RUnit, Sys s1 (delete aid o))
    | _ => NoFuel
    end
  | CFlush aid =>
    do s1 <- flush_stats s aid;
    Ok (RUnit, Sys s1 o)
  | CRestart pack unpack order =>
    match new_tree_from_state unpack (write_state pack s order) with
    | Loaded (s1, _) => Ok (RRestart (len s - len s1), Sys s1 ∅)
    | Crashed w => Panic w
    | Rejected => NoFuel (* an error; proved not to happen *)
    end
  end.

Definition naids (y : sys) : nat := length (t_allocs (sy_tree y)).

(** A delete that merges the root node with its only remaining child.  Aborting it is the
    subject of C08 (delete.go:344 passes its arguments in the wrong order). *)
Definition root_merge (op : dop) : Prop := d_kind op = replaceNodeWithNode /\ d_parent op = 0.

(** The documented client protocol (allocator.go:95-159).  [K]: the keys in use;
    [fetch v]: the key of the object stored at [v] on the client's storage. *)
Definition proper (K : list N -> Prop) (fetch : N -> list N) (y : sys) (c : call) : Prop :=
  match c with
  | CLookup aid key | CPrepD aid key =>
    (aid < naids y)%nat /\ sy_open y !! aid = None /\ bytes key /\ key <> []
  | CPrepU aid key =>
    (aid < naids y)%nat /\ sy_open y !! aid = None /\ K key
  | CFinU aid fk m value =>
    exists found op, sy_open y !! aid = Some (HU found op) /\
      fetch (value mod 2 ^ 55) = u_key op /\
      (found = true -> fk = fetch (u_value op) /\ (m = true <-> fk = u_key op))
  | CAbortU aid => exists found op, sy_open y !! aid = Some (HU found op)
  | CFinD aid => exists op, sy_open y !! aid = Some (HD (fetch (d_value op)) op)
  | CAbortD aid => exists key op, sy_open y !! aid = Some (HD key op) /\ ~ root_merge op
  | CFlush aid => (aid < naids y)%nat
  | CRestart pack unpack order =>
    (* a tree with that many allocators can only exist when they fit in memory (slots.go:24) *)
    sy_open y = ∅ /\ codec pack unpack /\ all_written (sy_tree y) order /\
    (t_live (sy_tree y) < 2 ^ 63)%Z /\ 72 * N.of_nat (naids y) <= maxAlloc
  end.

(** Histories: the calls made so far with their results. *)
Inductive runs (K : list N -> Prop) (fetch : N -> list N) (n : nat) : list (call * reply) -> sys -> Prop :=
| runs_nil : runs K fetch n [] (init n)
| runs_snoc tr y c r y' :
    runs K fetch n tr y -> proper K fetch y c -> api y c = Ok (r, y') ->
    runs K fetch n (tr ++ [(c, r)]) y'.
