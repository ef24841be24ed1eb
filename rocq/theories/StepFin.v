(** * StepFin: Finalize and Abort as sequences of single memory accesses.
    In Fine.v Finalize and Abort are one step.  Here they are programs too: every load and store of a
    word of the tree, every compare-and-swap, every addition to a lock word, every load of a
    reservation and every access to the epoch is a separate step.  StepExec.v proves that run without
    interruption they are [finalize_update], [finalize_delete] and the two aborts. *)
From Verif Require Export FineRun.

(** ** Accesses *)

(** [WLoad], [WSet]: a word of the old node is read, a word of the new node is written (copy, update.go:328,
    350-356, delete.go:289, 302-304).  [WBytes]: the memmove of a prefix into the new node (unsafe.go:26).
    [WPub]: StoreUint64 of the word that links the new node (update.go:336, 359, delete.go:271-306).  [WSwap]:
    CompareAndSwapUint64 (update.go:269-413, delete.go:317).  [WResv]: epoch.go:42.  [WTake]: the rest
    of newNode, which uses only the allocator of the caller and possibly receives a block
    (allocator.go:211-258).  [WBlock]: the nil check of [idx.blocks[block]] (radix.go:220).  [WUnlock]:
    AddInt32(1) with the check of locks.go:92-180.  [WUnlockRoot]: locks.go:25.  [WEpoch], [WTick]:
    allocator.go:184 and 188.  [WKeep]: the append to the recycler and the counter (allocator.go:185-189); it
    returns 1 when the counter has reached 1000.  [WFlush]: allocator.go:75-78.  [WItems]: the
    itemCounter of the caller's allocator.  [WEnd]: endOp. *)
Inductive wact :=
| WLoad (p : ptr)
| WSet (d : slice) (i : nat) (w : N)
| WBytes (d : slice) (prefix : list N)
| WPub (p : ptr) (w : N)
| WSwap (p : ptr) (old new : N)
| WResv (i : nat)
| WTake (aid slots : nat) (minr : N)
| WBlock (node : N)
| WUnlock (i : N)
| WUnlockRoot
| WEpoch
| WKeep (aid : nat) (node : N) (slots : nat) (e : N)
| WTick
| WFlush (aid : nat)
| WItems (aid : nat) (d : Z)
| WEnd (aid : nat).

(** allocator.go:209-238 [newNode] with the smallest reservation already computed. *)
Definition take_node (s : tree) (aid : nat) (slots : nat) (minr : N) : res (N * tree) :=
  do a <- get_alloc s aid;
  match find_recycled (al_recycler a) minr (size_classes slots) with
  | Some (t, i, (n, e)) =>
    let r1 := alter (swap_remove i) t (al_recycler a) in
    let r2 := if (2 <=? t - slots)%nat then push_item r1 (t - slots) (n + N.of_nat slots, e) else r1 in
    Ok (n, put_alloc s aid (al_set_recycler a r2))
  | None => bump_alloc s aid slots
  end.

(** allocator.go:185-189 [recycle] with the epoch already loaded. *)
Definition keep_node (s : tree) (aid : nat) (node : N) (slots : nat) (e : N) : res (N * tree) :=
  do a <- get_alloc s aid;
  let r := push_item (al_recycler a) slots (node, e) in
  let c := al_counter a + 1 in
  let full := 1000 <=? c in
  Ok ((if full then 1 else 0),
      put_alloc s aid (Alloc (al_empty a) (al_nextFree a) (al_block a) (al_offset a) r (if full then 0 else c) (al_items a))).

Definition do_wact (s : tree) (a : wact) : res (N * tree) :=
  match a with
  | WLoad p => Ok (pget s p, s)
  | WSet d i w => do m <- sl_set (t_mem s) d i w; Ok (0, set_mem s m)
  | WBytes d prefix => do m <- store_prefix (t_mem s) d prefix; Ok (0, set_mem s m)
  | WPub p w => Ok (0, pset s p w)
  | WSwap p old new => let '(u, s1) := pcas s p old new in Ok ((if u : bool then 1 else 0), s1)
  | WResv i => match t_resv s !! i with Some r => Ok (r, s) | None => Panic OutOfRange end
  | WTake aid slots minr => take_node s aid slots minr
  | WBlock node => do _ <- node_data s node; Ok (0, s)
  | WUnlock i => do l <- unlock_word (t_locks s) i; Ok (0, set_locks s l)
  | WUnlockRoot => Ok (0, unlock_root s)
  | WEpoch => Ok (t_epoch s, s)
  | WKeep aid node slots e => keep_node s aid node slots e
  | WTick => Ok (0, set_epoch s (u64 (t_epoch s + 1)))
  | WFlush aid => do s1 <- flush_stats s aid; Ok (0, s1)
  | WItems aid d => do s1 <- add_items s aid d; Ok (0, s1)
  | WEnd aid => Ok (0, end_op s aid)
  end.

(** ** Programs *)

Inductive wprog (A : Type) :=
| WRet (a : A)
| WStop (e : stop)
| WDo (a : wact) (k : N -> wprog A).
Arguments WRet {A} a.
Arguments WStop {A} e.
Arguments WDo {A} a k.

Fixpoint wbind {A B} (p : wprog A) (k : A -> wprog B) : wprog B :=
  match p with
  | WRet a => k a
  | WStop e => WStop e
  | WDo a c => WDo a (fun v => wbind (c v) k)
  end.
Notation "'go' x <- e ; k" := (wbind e (fun x => k))
  (at level 200, x pattern, e at level 100, k at level 200, right associativity).

Definition w_res {A} (r : res A) : wprog A :=
  match r with
  | Ok a => WRet a
  | Panic w => WStop (Crash w)
  | Retry => WStop Again
  | NoFuel => WStop Fuel
  end.

(** The whole program at once. *)
Fixpoint wexec {A} (p : wprog A) (s : tree) : res (A * tree) :=
  match p with
  | WRet a => Ok (a, s)
  | WStop (Crash w) => Panic w
  | WStop Again => Retry
  | WStop Fuel => NoFuel
  | WDo a k => do (v, s1) <- do_wact s a; wexec (k v) s1
  end.

Definition w_do (a : wact) : wprog N := WDo a WRet.

(** ** Building blocks *)

(** epoch.go:39-48 [minReservation] over the reservations [i], [i+1], ... *)
Fixpoint w_min (i n : nat) (m : N) : wprog N :=
  match n with
  | O => WRet m
  | S n' => go r <- w_do (WResv i); w_min (S i) n' (if r <? m then r else m)
  end.

(** allocator.go:209 [newNode]; [n] is the number of allocators. *)
Definition w_new (n aid slots : nat) : wprog N :=
  go m <- w_min 0 n maxUint64; w_do (WTake aid slots m).

Definition w_data (node : N) : wprog slice :=
  go _ <- w_do (WBlock node); WRet (Slice node (blockSlots - offset_of node)).

(** radix.go:212-223. *)
Definition w_allocate (n aid count prefixLen : nat) : wprog (N * slice) :=
  go x <- w_new n aid (count + prefix_slots prefixLen);
  go d <- w_data x;
  WRet (x, d).

(** radix.go:226-242. *)
Definition w_allocate_prefix (n aid count : nat) (prefix : list N) : wprog (N * slice) :=
  go x <- w_new n aid (count + prefix_slots (length prefix));
  go d <- w_data x;
  match prefix with
  | [] => WRet (x, d)
  | _ =>
    go _ <- w_do (WBytes d prefix);
    go d' <- w_res (sl_from d (prefix_slots (length prefix)));
    WRet (x, d')
  end.

(** update.go:473-481. *)
Definition w_children (d : slice) (a b : N) : wprog unit :=
  if to_byte a <? to_byte b
  then go _ <- w_do (WSet d 0 a); go _ <- w_do (WSet d 1 b); WRet tt
  else go _ <- w_do (WSet d 0 b); go _ <- w_do (WSet d 1 a); WRet tt.

Fixpoint w_words (base : N) (n : nat) : wprog (list N) :=
  match n with
  | O => WRet []
  | S n' => go w <- w_do (WLoad (PSlot base)); go ws <- w_words (base + 1) n'; WRet (w :: ws)
  end.

(** Unchecked stores of consecutive words: [copy] cuts its arguments to the shorter length. *)
Fixpoint w_write (base : N) (ws : list N) : wprog unit :=
  match ws with
  | [] => WRet tt
  | w :: ws' => go _ <- w_do (WPub (PSlot base) w); w_write (base + 1) ws'
  end.

(** [copy(dst, src[i:i+n])] *)
Definition w_copy (dst src : slice) (i n : nat) : wprog unit :=
  if N.of_nat (i + n) <=? sl_len src
  then go ws <- w_words (sl_base src + N.of_nat i) n;
       w_write (sl_base dst) (take (N.to_nat (sl_len dst) `min` n) ws)
  else WStop (Crash OutOfRange).

Fixpoint w_scatter (d : slice) (ws : list N) : wprog unit :=
  match ws with
  | [] => WRet tt
  | a :: ws' => go _ <- w_do (WSet d (N.to_nat (to_byte a)) a); w_scatter d ws'
  end.

(** locks.go:175-181, 143-162, 84-111. *)
Definition w_unlock (i : N) : wprog unit := go _ <- w_do (WUnlock i); WRet tt.
Definition w_unlock2 (node parent : N) : wprog unit :=
  if parent =? 0 then w_unlock (lock_id node)
  else go _ <- w_unlock (lock_id parent);
       if lock_id node =? lock_id parent then WRet tt else w_unlock (lock_id node).
Definition w_unlock3 (child node parent : N) : wprog unit :=
  if parent =? 0 then w_unlock2 child node
  else go _ <- w_unlock (lock_id parent);
       go _ <- (if lock_id node =? lock_id parent then WRet tt else w_unlock (lock_id node));
       if (lock_id child =? lock_id parent) || (lock_id child =? lock_id node) then WRet tt
       else w_unlock (lock_id child).
Definition w_unlock_root : wprog unit := go _ <- w_do WUnlockRoot; WRet tt.

(** allocator.go:180-193. *)
Definition w_recycle (aid : nat) (node : N) (slots : nat) : wprog unit :=
  if (recyclerLen <? slots)%nat then WRet tt
  else if (recyclerLen <=? slots)%nat then WStop (Crash OutOfRange)
  else
    go e <- w_do WEpoch;
    go full <- w_do (WKeep aid node slots e);
    if full =? 0 then WRet tt
    else go _ <- w_do WTick; go _ <- w_do (WFlush aid); WRet tt.

Definition w_items (aid : nat) (d : Z) : wprog unit := go _ <- w_do (WItems aid d); WRet tt.
Definition w_count_if (u : bool) (aid : nat) : wprog unit := if u then w_items aid 1 else WRet tt.
Definition w_swap (p : ptr) (old new : N) : wprog bool := go v <- w_do (WSwap p old new); WRet (negb (v =? 0)).
Definition w_pub (p : ptr) (w : N) : wprog unit := go _ <- w_do (WPub p w); WRet tt.
Definition w_end (aid : nat) : wprog unit := go _ <- w_do (WEnd aid); WRet tt.

(** ** The calls *)

Definition w_unlock_uop (op : uop) : wprog unit := w_unlock2 (u_node op) (u_parent op).

(** update.go:265-416: the switch of [Finalize]; [n] is the number of allocators. *)
Definition w_finalize_update_body (n : nat) (op : uop) (fetched : list N) (mtch : bool) (value : N) : wprog bool :=
  let aid := u_alloc op in
  match u_kind op with
  | replaceEmptyRootWithLeaf =>
    go u <- w_swap PRoot 0 (buildLeaf (u_k op) value);
    go _ <- w_unlock_root;
    go _ <- w_count_if u aid;
    WRet u

  | replaceLeafRootWithNode =>
    go (x, d) <- w_allocate n aid 2 0;
    go _ <- w_children d (u_currentLeaf op) (buildLeaf (u_k op) value);
    go u <- w_swap PRoot (u_currentLeaf op) (buildNode 0 x 2 0);
    go _ <- w_unlock_root;
    go _ <- w_count_if u aid;
    WRet u

  | rootLeafUpdate =>
    if mtch then
      go u <- w_swap PRoot (u_currentLeaf op) (buildLeaf (u_k op) value);
      go _ <- w_unlock_root;
      WRet u
    else
      go pl <- w_res (common_prefix_root (u_key op) fetched 0);
      go (x, d) <- w_allocate_prefix n aid 2 (take pl (u_key op));
      go ka <- w_res (key_at (u_key op) pl);
      go kb <- w_res (key_at fetched pl);
      go _ <- w_children d (buildLeaf ka value) (updateLeafKey (u_currentLeaf op) kb);
      go u <- w_swap PRoot (u_currentLeaf op) (buildNode 0 x 2 pl);
      go _ <- w_count_if u aid;
      go _ <- w_unlock_root;
      WRet u

  | nodePrefixMiss =>
    go a <- w_res (key_at (u_key op) (u_depth op + u_mismatch op));
    go b <- w_res (key_at (u_prefix op) (u_mismatch op));
    let pl := (length (u_prefix op) - u_mismatch op - 1)%nat in
    go (updated, dst) <- w_allocate_prefix n aid (u_count op) (drop (S (u_mismatch op)) (u_prefix op));
    go src <- w_res (sl_from (u_data op) (u_prefixSlots op));
    go _ <- w_copy dst src 0 (u_count op);
    go (x, d) <- w_allocate_prefix n aid 2 (take (u_mismatch op) (drop (u_depth op) (u_key op)));
    go _ <- w_children d (buildLeaf a value) (buildNode b updated (u_count op) pl);
    go _ <- w_pub (u_nodePtr op) (buildNode (to_byte (u_raw op)) x 2 (u_mismatch op));
    go _ <- w_unlock_uop op;
    go _ <- w_recycle aid (u_node op) (u_count op + u_prefixSlots op);
    go _ <- w_items aid 1;
    WRet true

  | nodeLeafInsert256 =>
    go u <- w_swap (u_leafPtr op) 0 (buildLeaf (u_k op) value);
    go _ <- w_count_if u aid;
    go _ <- w_unlock_uop op;
    WRet u

  | nodeLeafInsert =>
    if (u_count op <? fullAllocAfter)%nat then
      go (x, dst) <- w_allocate n aid (u_count op + 1) (length (u_prefix op));
      let split := (u_prefixSlots op + u_position op)%nat in
      go _ <- w_copy dst (u_data op) 0 split;
      go _ <- w_do (WSet dst split (buildLeaf (u_k op) value));
      go dst' <- w_res (sl_from dst (split + 1));
      go _ <- w_copy dst' (u_data op) split (u_count op - u_position op);
      go _ <- w_pub (u_nodePtr op) (buildNode (to_byte (u_raw op)) x (u_count op + 1) (length (u_prefix op)));
      go _ <- w_unlock_uop op;
      go _ <- w_recycle aid (u_node op) (u_count op + u_prefixSlots op);
      go _ <- w_items aid 1;
      WRet true
    else
      go (x, dst) <- w_allocate_prefix n aid 256 (u_prefix op);
      go _ <- w_res (sl_upto dst 256);
      go _ <- w_write (sl_base dst) (replicate 256 0);
      go src <- w_res (sl_from (u_data op) (u_prefixSlots op));
      go _ <- w_res (sl_upto src (u_count op));
      go _ <- w_do (WSet dst (N.to_nat (u_k op)) (buildLeaf (u_k op) value));
      go ws <- w_words (sl_base src) (u_count op);
      go _ <- w_scatter dst ws;
      go _ <- w_pub (u_nodePtr op) (buildNode (to_byte (u_raw op)) x 256 (length (u_prefix op)));
      go _ <- w_unlock_uop op;
      go _ <- w_recycle aid (u_node op) (u_count op + u_prefixSlots op);
      go _ <- w_items aid 1;
      WRet true

  | nodeLeafUpdate | nodeLeafUpdate256 =>
    if mtch then
      go u <- w_swap (u_leafPtr op) (u_currentLeaf op) (buildLeaf (u_k op) value);
      go _ <- w_unlock_uop op;
      WRet u
    else
      let d1 := (u_depth op + 1)%nat in
      let pl := common_prefix (drop d1 (u_key op)) (drop d1 fetched) in
      go a <- w_res (key_at (u_key op) (d1 + pl));
      go b <- w_res (key_at fetched (d1 + pl));
      go (x, d) <- w_allocate_prefix n aid 2 (take pl (drop d1 (u_key op)));
      go _ <- w_children d (buildLeaf a value) (updateLeafKey (u_currentLeaf op) b);
      go u <- w_swap (u_leafPtr op) (u_currentLeaf op) (buildNode (u_k op) x 2 pl);
      go _ <- w_count_if u aid;
      go _ <- w_unlock_uop op;
      WRet u
  end.

(** update.go:265-423. *)
Definition w_finalize_update (n : nat) (op : uop) (fetched : list N) (mtch : bool) (value : N) : wprog bool :=
  go u <- w_finalize_update_body n op fetched mtch value;
  go _ <- w_end (u_alloc op);
  WRet u.

(** update.go:427-439. *)
Definition w_abort_update (op : uop) : wprog unit :=
  go _ <- match u_kind op with
          | replaceEmptyRootWithLeaf | replaceLeafRootWithNode | rootLeafUpdate => w_unlock_root
          | _ => w_unlock_uop op
          end;
  w_end (u_alloc op).

Definition w_unlock_dop (op : dop) : wprog unit := w_unlock2 (d_node op) (d_parent op).

(** delete.go:268-326: the switch of [Finalize]. *)
Definition w_finalize_delete_body (n : nat) (op : dop) : wprog bool :=
  let aid := d_alloc op in
  match d_kind op with
  | notFound => WRet false

  | deleteRoot =>
    go _ <- w_pub PRoot 0;
    go _ <- w_unlock_root;
    go _ <- w_items aid (-1);
    WRet true

  | replaceNodeWithLeaf =>
    go _ <- w_pub (d_nodePtr op) (d_newLeaf op);
    go _ <- w_unlock_dop op;
    go _ <- w_recycle aid (d_node op) (d_count op + d_prefixSlots op);
    go _ <- w_items aid (-1);
    WRet true

  | replaceNodeWithNode =>
    go (x, dst) <- w_allocate_prefix n aid (d_count op) (d_prefix op);
    go _ <- w_copy dst (d_data op) (d_prefixSlots op) (d_count op);
    go _ <- w_pub (d_nodePtr op) (buildNode (to_byte (d_raw op)) x (d_count op) (length (d_prefix op)));
    go _ <- w_unlock3 (d_child op) (d_node op) (d_parent op);
    go _ <- w_recycle aid (d_child op) (d_count op + d_prefixSlots op);
    go _ <- w_items aid (-1);
    WRet true

  | deleteLeaf =>
    go (x, dst) <- w_allocate n aid (d_count op - 1) (d_prefixLen op);
    let split := (d_prefixSlots op + d_leafPosition op)%nat in
    go _ <- w_res (sl_upto (d_data op) (d_count op + d_prefixSlots op));
    go _ <- w_copy dst (d_data op) 0 split;
    go dst' <- w_res (sl_from dst split);
    go _ <- w_copy dst' (d_data op) (split + 1) (d_count op + d_prefixSlots op - (split + 1));
    go _ <- w_pub (d_nodePtr op) (buildNode (to_byte (d_raw op)) x (d_count op - 1) (d_prefixLen op));
    go _ <- w_unlock_dop op;
    go _ <- w_recycle aid (d_node op) (d_count op + d_prefixSlots op);
    go _ <- w_items aid (-1);
    WRet true

  | deleteLeaf256 =>
    go u <- w_swap (d_leafPtr op) (d_raw op) 0;
    go _ <- (if u : bool then w_items aid (-1) else WRet tt);
    WRet u
  end.

(** delete.go:268-333. *)
Definition w_finalize_delete (n : nat) (op : dop) : wprog bool :=
  go u <- w_finalize_delete_body n op;
  go _ <- w_end (d_alloc op);
  WRet u.

(** delete.go:337-351. *)
Definition w_abort_delete (op : dop) : wprog unit :=
  go _ <- match d_kind op with
          | deleteRoot => w_unlock_root
          | deleteLeaf | replaceNodeWithLeaf => w_unlock_dop op
          | replaceNodeWithNode => w_unlock3 (d_parent op) (d_node op) (d_child op)
          | _ => WRet tt
          end;
  w_end (d_alloc op).
