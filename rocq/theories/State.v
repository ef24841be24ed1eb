(** * State: the tree record, checked memory access, prefixes, locks, and the
    allocator (models of /repo/radix.go, unsafe.go, locks.go, epoch.go,
    allocator.go, blocksize.go). *)
From Verif Require Export Mem.

(** ** Outcomes *)

(** Why a Go panic (or undefined behaviour) happens. *)
Inductive why :=
| OutOfRange       (* slice or array index out of range *)
| NilBlock         (* dereference of a nil block *)
| UnsafeOverrun    (* memmove past the end of a slice: memory corruption *)
| PrefixViolation  (* panic("Prefix violation") *)
| BadUnlock        (* panic("Unlock of unlocked ...") *)
| OutOfBlocks.     (* idx.blocks[65536]: index out of range in blockAllocator *)

(** [Retry] is the [goto S] of the prepare loops: in a model where one API call
    is one step a retry reads the same state again, so it stands for "spins
    until another operation releases its locks".  [NoFuel] is an artefact of
    the fuelled loops; theorems exclude it explicitly. *)
Inductive res (A : Type) :=
| Ok (a : A)
| Panic (w : why)
| Retry
| NoFuel.
Arguments Ok {A} a.
Arguments Panic {A} w.
Arguments Retry {A}.
Arguments NoFuel {A}.

Definition bind {A B} (r : res A) (k : A -> res B) : res B :=
  match r with
  | Ok a => k a
  | Panic w => Panic w
  | Retry => Retry
  | NoFuel => NoFuel
  end.
Notation "'do' x <- e ; k" := (bind e (fun x => k))
  (at level 200, x pattern, e at level 100, k at level 200, right associativity).

(** ** Constants *)

(** blocksize.go:8 [blockSizeShift] (default build; the blocksize8/blocksize16
    build tags only change this number and are not modelled). *)
Definition blockSizeShift : N := 21.
(** radix.go:36 [blockSize] (bytes). *)
Definition blockSize : N := 2097152.
(** radix.go:38 [blockSlotsShift]. *)
Definition blockSlotsShift : N := 18.
(** Number of 8-byte slots per block: [blockSize>>3], radix.go:186. *)
Definition blockSlots : N := 262144.
(** radix.go:42 [lockOffsetMask]; [locksShift] = 21 - 9 = 12. *)
Definition lockOffsetMask : N := 4095.
(** radix.go:43 [locksPerBlock]. *)
Definition locksPerBlock : N := 4096.
(** radix.go:45 [fullAllocFrom]. *)
Definition fullAllocFrom : nat := 128.
(** radix.go:46 [fullAllocAfter]. *)
Definition fullAllocAfter : nat := 127.
(** blocksize.go:10 [maxBlockCount]. *)
Definition maxBlockCount : N := 65536.
(** epoch.go:6 [maxUint64]. *)
Definition maxUint64 : N := 18446744073709551615.
(** allocator.go:69 [make([][]recycledItem, 258)]. *)
Definition recyclerLen : nat := 258.

(** ** The records *)

(** allocator.go:27-49 [Allocator].  The [id] is the index in [t_allocs];
    [reserveSlot] is the entry of [t_resv] with that index; the constant
    [blockSize] field and the [newBlocks] channel are left out (see
    [receive_block]). A recycled item (allocator.go:51-54) is [(n, e)]. *)
Record allocator := Alloc {
  al_empty : bool;
  al_nextFree : N;
  al_block : N;
  al_offset : N;
  al_recycler : list (list (N * N));
  al_counter : N;
  al_items : Z
}.

(** radix.go:68-90 [Tree].  [t_mem] is the content of all blocks, [t_locks] all
    lock words, keyed by [lock_id].  Blocks below [t_nextFreeBlock] were handed to
    allocators by the goroutine [blockAllocator] (radix.go:182-196) and are not
    nil; no operation may touch another block, except block 0, where the empty
    tree has its root node.  That block 0 exists and that [nextFreeBlock] is up
    to date depends on the goroutine, see [BlockRace.v].  The allocator pool and [stopped] are
    modelled in [Pool.v]; [blockMap] is write-only in the Go code. *)
Record tree := Tree {
  t_mem : mem;
  t_locks : mem;
  t_nextFreeBlock : N;
  t_root : N;
  t_rootLock : N;
  t_epoch : N;
  t_resv : list N;
  t_allocs : list allocator;
  t_live : Z
}.

Definition set_mem (s : tree) (x : mem) : tree :=
  Tree x (t_locks s) (t_nextFreeBlock s) (t_root s) (t_rootLock s) (t_epoch s) (t_resv s) (t_allocs s) (t_live s).
Definition set_locks (s : tree) (x : mem) : tree :=
  Tree (t_mem s) x (t_nextFreeBlock s) (t_root s) (t_rootLock s) (t_epoch s) (t_resv s) (t_allocs s) (t_live s).
Definition set_nextFreeBlock (s : tree) (x : N) : tree :=
  Tree (t_mem s) (t_locks s) x (t_root s) (t_rootLock s) (t_epoch s) (t_resv s) (t_allocs s) (t_live s).
Definition set_root (s : tree) (x : N) : tree :=
  Tree (t_mem s) (t_locks s) (t_nextFreeBlock s) x (t_rootLock s) (t_epoch s) (t_resv s) (t_allocs s) (t_live s).
Definition set_rootLock (s : tree) (x : N) : tree :=
  Tree (t_mem s) (t_locks s) (t_nextFreeBlock s) (t_root s) x (t_epoch s) (t_resv s) (t_allocs s) (t_live s).
Definition set_epoch (s : tree) (x : N) : tree :=
  Tree (t_mem s) (t_locks s) (t_nextFreeBlock s) (t_root s) (t_rootLock s) x (t_resv s) (t_allocs s) (t_live s).
Definition set_resv (s : tree) (x : list N) : tree :=
  Tree (t_mem s) (t_locks s) (t_nextFreeBlock s) (t_root s) (t_rootLock s) (t_epoch s) x (t_allocs s) (t_live s).
Definition set_allocs (s : tree) (x : list allocator) : tree :=
  Tree (t_mem s) (t_locks s) (t_nextFreeBlock s) (t_root s) (t_rootLock s) (t_epoch s) (t_resv s) x (t_live s).
Definition set_live (s : tree) (x : Z) : tree :=
  Tree (t_mem s) (t_locks s) (t_nextFreeBlock s) (t_root s) (t_rootLock s) (t_epoch s) (t_resv s) (t_allocs s) x.

(** allocator.go:56-72 [newAllocator]. *)
Definition newAllocator : allocator :=
  Alloc true blockSize 0 0 (replicate recyclerLen []) 0 0%Z.

(** radix.go:99-119 [NewTree] with [NumAllocators = n] (epoch.go:22-37 sets every
    reservation to [maxUint64]). *)
Definition newTree (n : nat) : tree :=
  Tree mempty mempty 0 0 0 0 (replicate n maxUint64) (replicate n newAllocator) 0%Z.

(** ** Slices of block data *)

(** The Go slice [idx.blocks[b].data[offset:]] and its re-slicings: the address
    of its first slot and its length; length and capacity always end at the end
    of the block. *)
Record slice := Slice { sl_base : N; sl_len : N }.

(** [node >> blockSlotsShift]. *)
Definition block_of (node : N) : N := N.shiftr node blockSlotsShift.
(** [node & blockSlotsOffsetMask]. *)
Definition offset_of (node : N) : N := N.land node (blockSlots - 1).

(** [idx.blocks[block].data[offset:]], e.g. radix.go:284-291, update.go:159-161.
    [idx.blocks] has 65536 entries; only block 0 and those below
    [t_nextFreeBlock] are counted on. *)
Definition node_data (s : tree) (node : N) : res slice :=
  if maxBlockCount <=? block_of node then Panic OutOfRange
  else if N.max 1 (t_nextFreeBlock s) <=? block_of node then Panic NilBlock
  else Ok (Slice node (blockSlots - offset_of node)).

(** [data[i]] (read). *)
Definition sl_get (m : mem) (d : slice) (i : nat) : res N :=
  if N.of_nat i <? sl_len d then Ok (mget m (sl_base d + N.of_nat i)) else Panic OutOfRange.

(** [data[i] = w]. *)
Definition sl_set (m : mem) (d : slice) (i : nat) (w : N) : res mem :=
  if N.of_nat i <? sl_len d then Ok (mset m (sl_base d + N.of_nat i) w) else Panic OutOfRange.

(** [data[i:]]. *)
Definition sl_from (d : slice) (i : nat) : res slice :=
  if N.of_nat i <=? sl_len d then Ok (Slice (sl_base d + N.of_nat i) (sl_len d - N.of_nat i)) else Panic OutOfRange.

(** [data[:n]] used only for its bounds check. *)
Definition sl_upto (d : slice) (n : nat) : res unit :=
  if N.of_nat n <=? sl_len d then Ok tt else Panic OutOfRange.

(** [copy(dst, src[i:i+n])]; the slice expression is bounds checked, the copy is
    cut at the length of [dst].  Source and destination never overlap at the
    call sites, so reading first is the same as Go's memmove semantics anyway. *)
Definition sl_copy (m : mem) (dst src : slice) (i n : nat) : res mem :=
  if N.of_nat (i + n) <=? sl_len src
  then Ok (mwrite m (sl_base dst)
             (take (N.to_nat (sl_len dst) `min` n) (mread m (sl_base src + N.of_nat i) n)))
  else Panic OutOfRange.

(** ** Node prefixes (unsafe.go) *)

(** Byte [j] of the little-endian memory image starting at slot [a]. *)
Definition get_byte (m : mem) (a : N) (j : nat) : N :=
  to_byte (N.shiftr (mget m (a + N.of_nat (j / 8))) (8 * N.of_nat (j mod 8))).

(** Overwrite that byte. *)
Definition set_byte (m : mem) (a : N) (j : nat) (b : N) : mem :=
  let w := mget m (a + N.of_nat (j / 8)) in
  let sh := 8 * N.of_nat (j mod 8) in
  mset m (a + N.of_nat (j / 8)) (N.lor (N.ldiff w (N.shiftl 255 sh)) (N.shiftl b sh)).

(** [memmove(&dst[0], &prefix[0], len)] of unsafe.go:26. *)
Fixpoint store_bytes (m : mem) (a : N) (j : nat) (l : list N) : mem :=
  match l with
  | [] => m
  | b :: l' => store_bytes (set_byte m a j b) a (S j) l'
  end.

(** [memmove(&dst[l], &src[0], length)] of unsafe.go:54. *)
Definition load_bytes (m : mem) (a : N) (n : nat) : list N :=
  map (get_byte m a) (seq 0 n).

(** Number of slots used by a prefix, radix.go:213-216 and 228-231. *)
Definition prefix_slots (prefixLen : nat) : nat :=
  ((prefixLen + 7) / 8 + (if (255 <=? prefixLen)%nat then 1 else 0))%nat.

(** unsafe.go:21-27 [storePrefix].  [&dst[0]] and [&prefix[0]] are bounds checked;
    the memmove is not. *)
Definition store_prefix (m : mem) (dst : slice) (prefix : list N) : res mem :=
  do (m1, d1) <-
    (if (255 <=? length prefix)%nat
     then do m' <- sl_set m dst 0 (N.of_nat (length prefix)); do d' <- sl_from dst 1; Ok (m', d')
     else Ok (m, dst));
  if (length prefix =? 0)%nat then Panic OutOfRange
  else if sl_len d1 =? 0 then Panic OutOfRange
  else if 8 * sl_len d1 <? N.of_nat (length prefix) then Panic UnsafeOverrun
  else Ok (store_bytes m1 (sl_base d1) 0 prefix).

(** unsafe.go:30-56 [appendPrefix] with an empty [dst] (callers append the result
    themselves): the prefix bytes and the number of slots used. *)
Definition append_prefix (m : mem) (src : slice) (len : nat) : res (list N * nat) :=
  match len with
  | O => Ok ([], O)
  | _ =>
    do (n, slots, s1) <-
      (if (len =? 255)%nat
       then do w <- sl_get m src 0;
            do s' <- sl_from src 1;
            Ok (N.to_nat w, (N.to_nat w + 15) / 8, s')%nat
       else Ok (len, (len + 7) / 8, src)%nat);
    if (n =? 0)%nat then Panic OutOfRange
    else if sl_len s1 =? 0 then Panic OutOfRange
    else if 8 * sl_len s1 <? N.of_nat n then Panic UnsafeOverrun
    else Ok (load_bytes m (sl_base s1) n, slots)
  end.

(** The inlined "skip the prefix" code of search, MaxKey, MinKey, delete, iterator
    and counter (e.g. radix.go:523-534): real prefix length, slots skipped, rest. *)
Definition skip_prefix (m : mem) (d : slice) (len : nat) : res (nat * nat * slice) :=
  match len with
  | O => Ok (O, O, d)
  | _ =>
    do (n, slots) <-
      (if (len =? 255)%nat
       then do w <- sl_get m d 0; Ok (N.to_nat w, (N.to_nat w + 15) / 8)%nat
       else Ok (len, (len + 7) / 8)%nat);
    do d' <- sl_from d slots;
    Ok (n, slots, d')
  end.

(** The search loop over a variable sized node, e.g. radix.go:555-561: visits the
    children from index [i], stops at the first with byte >= [k]; returns whether
    it broke out, the index and the word last examined. *)
Fixpoint scan (m : mem) (base : N) (k : N) (i : nat) (n : nat) (last : nat * N) : bool * nat * N :=
  match n with
  | O => (false, fst last, snd last)
  | S n' =>
    let a := mget m (base + N.of_nat i) in
    if k <=? to_byte a then (true, i, a) else scan m base k (S i) n' (i, a)
  end.

(** ** Pointers to tree words: [*uint64] fields [nodePtr], [leafPtr]. *)
Inductive ptr := PRoot | PSlot (a : N).

Definition pget (s : tree) (p : ptr) : N :=
  match p with PRoot => t_root s | PSlot a => mget (t_mem s) a end.
Definition pset (s : tree) (p : ptr) (w : N) : tree :=
  match p with PRoot => set_root s w | PSlot a => set_mem s (mset (t_mem s) a w) end.

(** ** Locks (locks.go) *)

(** Lock words are int32 bit patterns; arithmetic wraps modulo 2^32. *)
Definition i32 (x : N) : N := x mod 4294967296.
Definition gen_inc (g : N) : N := i32 (g + 1).
Definition gen_dec (g : N) : N := i32 (g + 4294967295).
Definition gen_odd (g : N) : bool := N.odd g.

(** Index of the lock word of a node: locks.go:29-31 ([block], [node & mask]). *)
Definition lock_id (node : N) : N := block_of node * locksPerBlock + N.land node lockOffsetMask.

(** locks.go:28-32 [generation]; the nil-block check is part of it. *)
Definition generation (s : tree) (node : N) : res N :=
  if maxBlockCount <=? block_of node then Panic OutOfRange
  else if N.max 1 (t_nextFreeBlock s) <=? block_of node then Panic NilBlock
  else Ok (lget (t_locks s) (lock_id node)).

(** locks.go:13-22 [lockLeafRoot]. *)
Definition lock_leaf_root (s : tree) (expected : N) : option tree :=
  if t_rootLock s =? 0
  then if t_root s =? expected then Some (set_rootLock s 1) else None
  else None.

(** locks.go:24-26 [unlockRoot]. *)
Definition unlock_root (s : tree) : tree := set_rootLock s (gen_dec (t_rootLock s)).

(** CompareAndSwapInt32 on a lock word. *)
Definition lock_cas (l : mem) (i old new : N) : option mem :=
  if lget l i =? old then Some (mset l i new) else None.

(** locks.go:165-172 [lockNode]. *)
Definition lock_node (l : mem) (node gen : N) : option mem :=
  if gen_odd gen then None else lock_cas l (lock_id node) gen (gen_inc gen).

(** locks.go:115-140 [lockNodes2].  On failure of the second CAS the first lock word
    is decremented again (locks.go:135), so no state change is visible: [None]. *)
Definition lock_nodes2 (l : mem) (node nodeGen parent parentGen : N) : option mem :=
  if parent =? 0 then lock_node l node nodeGen
  else if gen_odd nodeGen || gen_odd parentGen then None
  else match lock_cas l (lock_id node) nodeGen (gen_inc nodeGen) with
       | None => None
       | Some l1 =>
         if lock_id parent =? lock_id node then Some l1
         else lock_cas l1 (lock_id parent) parentGen (gen_inc parentGen)
       end.

(** locks.go:42-80 [lockNodes3]; failure again leaves no trace. *)
Definition lock_nodes3 (l : mem) (child childGen node nodeGen parent parentGen : N) : option mem :=
  if parent =? 0 then lock_nodes2 l child childGen node nodeGen
  else if gen_odd childGen || gen_odd nodeGen || gen_odd parentGen then None
  else match lock_cas l (lock_id child) childGen (gen_inc childGen) with
       | None => None
       | Some l1 =>
         match (if lock_id node =? lock_id child then Some l1
                else lock_cas l1 (lock_id node) nodeGen (gen_inc nodeGen)) with
         | None => None
         | Some l2 =>
           if (lock_id parent =? lock_id child) || (lock_id parent =? lock_id node) then Some l2
           else lock_cas l2 (lock_id parent) parentGen (gen_inc parentGen)
         end
       end.

(** [atomic.AddInt32(&lock, 1)&1 != 0 => panic], e.g. locks.go:178-180. *)
Definition unlock_word (l : mem) (i : N) : res mem :=
  let g := gen_inc (lget l i) in
  if gen_odd g then Panic BadUnlock else Ok (mset l i g).

(** locks.go:175-181 [unlockNode]. *)
Definition unlock_node (l : mem) (node : N) : res mem := unlock_word l (lock_id node).

(** locks.go:143-162 [unlockNodes2]. *)
Definition unlock_nodes2 (l : mem) (node parent : N) : res mem :=
  if parent =? 0 then unlock_node l node
  else do l1 <- unlock_word l (lock_id parent);
       if lock_id node =? lock_id parent then Ok l1 else unlock_word l1 (lock_id node).

(** locks.go:84-111 [unlockNodes3]. *)
Definition unlock_nodes3 (l : mem) (child node parent : N) : res mem :=
  if parent =? 0 then unlock_nodes2 l child node
  else do l1 <- unlock_word l (lock_id parent);
       do l2 <- (if lock_id node =? lock_id parent then Ok l1 else unlock_word l1 (lock_id node));
       if (lock_id child =? lock_id parent) || (lock_id child =? lock_id node) then Ok l2
       else unlock_word l2 (lock_id child).

(** ** Epochs and reservations (epoch.go, allocator.go:170-178) *)

(** allocator.go:171-173 [startOp]. *)
Definition start_op (s : tree) (aid : nat) : tree := set_resv s (<[aid := t_epoch s]> (t_resv s)).
(** allocator.go:176-178 [endOp]. *)
Definition end_op (s : tree) (aid : nat) : tree := set_resv s (<[aid := maxUint64]> (t_resv s)).
(** epoch.go:39-48 [minReservation]. *)
Definition min_reservation (s : tree) : N :=
  fold_left (fun m r => if r <? m then r else m) (t_resv s) maxUint64.

(** ** Allocation (allocator.go) *)

Definition get_alloc (s : tree) (aid : nat) : res allocator :=
  match t_allocs s !! aid with Some a => Ok a | None => Panic OutOfRange end.
Definition put_alloc (s : tree) (aid : nat) (a : allocator) : tree :=
  set_allocs s (<[aid := a]> (t_allocs s)).

Definition al_set_recycler (a : allocator) (r : list (list (N * N))) : allocator :=
  Alloc (al_empty a) (al_nextFree a) (al_block a) (al_offset a) r (al_counter a) (al_items a).
Definition al_add_items (a : allocator) (d : Z) : allocator :=
  Alloc (al_empty a) (al_nextFree a) (al_block a) (al_offset a) (al_recycler a) (al_counter a) (al_items a + d)%Z.

(** [op.allocator.itemCounter++] / [--]. *)
Definition add_items (s : tree) (aid : nat) (d : Z) : res tree :=
  do a <- get_alloc s aid; Ok (put_alloc s aid (al_add_items a d)).

(** allocator.go:75-78 [FlushStats]. *)
Definition flush_stats (s : tree) (aid : nat) : res tree :=
  do a <- get_alloc s aid;
  Ok (set_live (put_alloc s aid (al_add_items a (- al_items a)%Z)) (t_live s + al_items a)%Z).

(** First recycled item with epoch below the bound (allocator.go:214-215): its
    index and the item. *)
Fixpoint find_item (minr : N) (i : nat) (l : list (N * N)) : option (nat * (N * N)) :=
  match l with
  | [] => None
  | it :: l' => if snd it <? minr then Some (i, it) else find_item minr (S i) l'
  end.

(** allocator.go:218-219: overwrite entry [i] by the last one and drop the last. *)
Definition swap_remove (i : nat) (l : list (N * N)) : list (N * N) :=
  match last l with
  | None => l
  | Some x => take (length l - 1) (<[i := x]> l)
  end.

(** allocator.go:211-236: size classes [slots], [slots+2], [slots+3], ... below 258
    (the loop skips [slots+1]). *)
Definition size_classes (slots : nat) : list nat :=
  if (slots <? recyclerLen)%nat then slots :: seq (slots + 2) (recyclerLen - (slots + 2)) else [].

(** allocator.go:213-231: the first suitable recycled item: size class and item. *)
Fixpoint find_recycled (r : list (list (N * N))) (minr : N) (ts : list nat) : option (nat * nat * (N * N)) :=
  match ts with
  | [] => None
  | t :: ts' =>
    match r !! t with
    | None => None
    | Some l =>
      match find_item minr 0 l with
      | Some (i, it) => Some (t, i, it)
      | None => find_recycled r minr ts'
      end
    end
  end.

(** append to one size class. *)
Definition push_item (r : list (list (N * N))) (t : nat) (it : N * N) : list (list (N * N)) :=
  alter (fun l => l ++ [it]) t r.

(** [<-a.newBlocks], allocator.go:246 with radix.go:182-196: hands out block
    [nextFreeBlock]; the goroutine then creates block [nextFreeBlock+1], which
    panics when the block array is exhausted. *)
Definition receive_block (s : tree) : res (N * tree) :=
  let b := t_nextFreeBlock s in
  if b + 1 <? maxBlockCount then Ok (b, set_nextFreeBlock s (b + 1)) else Panic OutOfBlocks.

(** allocator.go:241-258 [Allocator.allocateNode]. *)
Definition bump_alloc (s : tree) (aid : nat) (slots : nat) : res (N * tree) :=
  do a <- get_alloc s aid;
  let n := N.shiftr (al_offset a + al_nextFree a) 3 in
  let nf := al_nextFree a + N.of_nat slots * 8 in
  if blockSize <=? nf
  then do (b, s1) <- receive_block s;
       let off := b * blockSize in
       let off := if off =? 0 then 8 else off in
       Ok (N.shiftr off 3,
           put_alloc s1 aid (Alloc false (N.of_nat slots * 8) b off (al_recycler a) (al_counter a) (al_items a)))
  else Ok (n, put_alloc s aid (Alloc (al_empty a) nf (al_block a) (al_offset a) (al_recycler a) (al_counter a) (al_items a))).

(** allocator.go:209-238 [newNode]. *)
Definition new_node (s : tree) (aid : nat) (slots : nat) : res (N * tree) :=
  do a <- get_alloc s aid;
  match find_recycled (al_recycler a) (min_reservation s) (size_classes slots) with
  | Some (t, i, (n, e)) =>
    let r1 := alter (swap_remove i) t (al_recycler a) in
    let r2 := if (2 <=? t - slots)%nat then push_item r1 (t - slots) (n + N.of_nat slots, e) else r1 in
    Ok (n, put_alloc s aid (al_set_recycler a r2))
  | None => bump_alloc s aid slots
  end.

(** allocator.go:180-193 [recycle].  The guard compares with [>], so [slots = 258]
    indexes one past the end of the recycler. *)
Definition recycle (s : tree) (aid : nat) (node : N) (slots : nat) : res tree :=
  if (recyclerLen <? slots)%nat then Ok s
  else if (recyclerLen <=? slots)%nat then Panic OutOfRange
  else
    do a <- get_alloc s aid;
    let r := push_item (al_recycler a) slots (node, t_epoch s) in
    let c := al_counter a + 1 in
    if 1000 <=? c
    then flush_stats
           (set_epoch
              (put_alloc s aid (Alloc (al_empty a) (al_nextFree a) (al_block a) (al_offset a) r 0 (al_items a)))
              (u64 (t_epoch s + 1))) aid
    else Ok (put_alloc s aid (Alloc (al_empty a) (al_nextFree a) (al_block a) (al_offset a) r c (al_items a))).

(** radix.go:212-223 [Tree.allocateNode]: node, its data, new state. *)
Definition allocate_node (s : tree) (aid : nat) (count prefixLen : nat) : res (N * slice * tree) :=
  do (n, s1) <- new_node s aid (count + prefix_slots prefixLen);
  do d <- node_data s1 n;
  Ok (n, d, s1).

(** radix.go:226-242 [Tree.allocateNodeWithPrefix]: data is positioned after the prefix. *)
Definition allocate_node_with_prefix (s : tree) (aid : nat) (count : nat) (prefix : list N) : res (N * slice * tree) :=
  do (n, s1) <- new_node s aid (count + prefix_slots (length prefix));
  do d <- node_data s1 n;
  match prefix with
  | [] => Ok (n, d, s1)
  | _ =>
    do m <- store_prefix (t_mem s1) d prefix;
    do d' <- sl_from d (prefix_slots (length prefix));
    Ok (n, d', set_mem s1 m)
  end.

(** update.go:473-481 [addSortedChildren]. *)
Definition add_sorted_children (m : mem) (d : slice) (a b : N) : res mem :=
  if to_byte a <? to_byte b
  then do m1 <- sl_set m d 0 a; sl_set m1 d 1 b
  else do m1 <- sl_set m d 0 b; sl_set m1 d 1 a.
