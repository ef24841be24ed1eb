(** * Update: PrepareUpdate / Finalize / Abort (model of /repo/update.go). *)
From Verif Require Export Search.

(** update.go:10-20 *)
Inductive ukind :=
| replaceEmptyRootWithLeaf | replaceLeafRootWithNode | rootLeafUpdate
| nodePrefixMiss | nodeLeafInsert | nodeLeafInsert256 | nodeLeafUpdate | nodeLeafUpdate256.

(** update.go:35-81 [UpdateOperation] after [prepareUpdate].  [Match] and [FetchedKey]
    are set by the caller and passed to [finalize_update]; [u_data] is the data slice
    of the node, [u_alloc] the id of the allocator.  Fields not used by the kind are
    irrelevant (in Go they hold stale values from the pooled struct). *)
Record uop := Uop {
  u_key : list N;
  u_value : N;
  u_alloc : nat;
  u_kind : ukind;
  u_k : N;
  u_position : nat;
  u_node : N;
  u_parent : N;
  u_count : nat;
  u_depth : nat;
  u_prefix : list N;
  u_mismatch : nat;
  u_nodePtr : ptr;
  u_data : slice;
  u_prefixSlots : nat;
  u_leafPtr : ptr;
  u_currentLeaf : N;
  u_raw : N
}.

Definition no_slice := Slice 0 0.

(** The operation on a leaf or empty root (update.go:107-135). *)
Definition root_op (key : list N) (aid : nat) (kind : ukind) (k value currentLeaf : N) : uop :=
  Uop key value aid kind k 0 0 0 0 0 [] 0 PRoot no_slice 0 PRoot currentLeaf 0.

(** [op.lock()] update.go:454-456 and the "Gosched, goto S" on failure. *)
Definition with_lock {A} (s : tree) (node ng parent pg : N) (k : tree -> res A) : res A :=
  match lock_nodes2 (t_locks s) node ng parent pg with
  | Some l => k (set_locks s l)
  | None => Retry
  end.

(** update.go:144-258: the search loop of [prepareUpdate].  [fuel] as in [search_loop]. *)
Fixpoint pu_loop (fuel : nat) (s : tree) (aid : nat) (key : list N)
    (raw : N) (np : ptr) (parent parentGen : N) (depth : nat) : res (bool * uop * tree) :=
  match fuel with
  | O => NoFuel
  | S fuel' =>
    let '(_, node, count, prefixLen) := explodeNode raw in
    do nodeGen <- generation s node;
    if negb (pget s np =? raw) then Retry else
    do pg <- (if parent =? 0 then Ok parentGen else generation s parent);
    if negb (pg =? parentGen) then Retry else
    do data <- node_data s node;
    do (prefix, pslots) <- append_prefix (t_mem s) data prefixLen;
    match prefix_cmp key depth prefix 0 with
    | PExhausted => Panic OutOfRange
    | PMismatch i =>
      do k <- key_at key depth;
      with_lock s node nodeGen parent parentGen (fun s1 =>
        Ok (false,
            Uop key 0 aid nodePrefixMiss k 0 node parent count depth prefix i np data pslots PRoot 0 raw,
            s1))
    | PMatch =>
      do data1 <- sl_from data pslots;
      let depth := (depth + length prefix)%nat in
      do k <- key_at key depth;
      if (fullAllocFrom <=? count)%nat then
        do a <- sl_get (t_mem s) data1 (N.to_nat k);
        let p := PSlot (sl_base data1 + k) in
        if a =? 0 then
          with_lock s node nodeGen parent parentGen (fun s1 =>
            Ok (false,
                Uop key 0 aid nodeLeafInsert256 k 0 node parent count depth prefix 0 np data pslots p 0 raw,
                s1))
        else if isLeaf a then
          with_lock s node nodeGen parent parentGen (fun s1 =>
            Ok (true,
                Uop key (getLeafValue a) aid nodeLeafUpdate256 k 0 node parent count depth prefix 0 np data pslots p a raw,
                s1))
        else pu_loop fuel' s aid key a p node nodeGen (S depth)
      else
        do _ <- sl_upto data1 count;
        let '(brk, i, a) := scan (t_mem s) (sl_base data1) k 0 count (O, 0) in
        let position := if brk : bool then i else count in
        let p := PSlot (sl_base data1 + N.of_nat i) in
        if to_byte a =? k then
          if isLeaf a then
            with_lock s node nodeGen parent parentGen (fun s1 =>
              Ok (true,
                  Uop key (getLeafValue a) aid nodeLeafUpdate k position node parent count depth prefix 0 np data pslots p a raw,
                  s1))
          else pu_loop fuel' s aid key a p node nodeGen (S depth)
        else
          with_lock s node nodeGen parent parentGen (fun s1 =>
            Ok (false,
                Uop key 0 aid nodeLeafInsert k position node parent count depth prefix 0 np data pslots PRoot 0 raw,
                s1))
    end
  end.

(** update.go:99-259 [prepareUpdate]; used by allocator.go:129-132
    [Allocator.PrepareUpdate] and radix.go:266-270 [Tree.PrepareUpdate]. *)
Definition prepare_update (s0 : tree) (aid : nat) (key : list N) : res (bool * uop * tree) :=
  let s := start_op s0 aid in
  let root := t_root s in
  if root =? 0 then
    match lock_leaf_root s root with
    | None => Retry
    | Some s1 =>
      do k <- key_at key 0;
      Ok (false, root_op key aid replaceEmptyRootWithLeaf k 0 0, s1)
    end
  else if isLeaf root then
    match lock_leaf_root s root with
    | None => Retry
    | Some s1 =>
      do k <- key_at key 0;
      if to_byte root =? k
      then Ok (true, root_op key aid rootLeafUpdate k (getLeafValue root) root, s1)
      else Ok (false, root_op key aid replaceLeafRootWithNode k 0 root, s1)
    end
  else pu_loop (S (length key)) s aid key root PRoot 0 0 0.

(** CompareAndSwapUint64 through a pointer. *)
Definition pcas (s : tree) (p : ptr) (old new : N) : bool * tree :=
  if pget s p =? old then (true, pset s p new) else (false, s).

(** update.go:290-297: length of the common prefix in [rootLeafUpdate]; both index
    expressions are bounds checked, and reaching the end of a key panics. *)
Fixpoint common_prefix_root (a b : list N) (n : nat) : res nat :=
  match a, b with
  | x :: a', y :: b' =>
    if x =? y then
      match a', b' with
      | [], _ => Panic PrefixViolation
      | _, [] => Panic PrefixViolation
      | _, _ => common_prefix_root a' b' (S n)
      end
    else Ok n
  | _, _ => Panic OutOfRange
  end.

(** update.go:397-401: the common prefix below a leaf stops at the end of either key. *)
Fixpoint common_prefix (a b : list N) : nat :=
  match a, b with
  | x :: a', y :: b' => if x =? y then S (common_prefix a' b') else O
  | _, _ => O
  end.

(** [if updated { itemCounter++ }] *)
Definition count_if (u : bool) (s : tree) (aid : nat) : res tree :=
  if u then add_items s aid 1 else Ok s.

(** update.go:375-378: scatter the children of a node over a node-256. *)
Fixpoint scatter (m : mem) (d : slice) (ws : list N) : res mem :=
  match ws with
  | [] => Ok m
  | a :: ws' => do m1 <- sl_set m d (N.to_nat (to_byte a)) a; scatter m1 d ws'
  end.

Definition unlock_uop (s : tree) (op : uop) : res tree :=
  do l <- unlock_nodes2 (t_locks s) (u_node op) (u_parent op); Ok (set_locks s l).

(** update.go:265-416: the switch of [Finalize]. *)
Definition finalize_update_body (s : tree) (op : uop) (fetched : list N) (mtch : bool) (value : N)
  : res (bool * tree) :=
  let aid := u_alloc op in
  match u_kind op with
  | replaceEmptyRootWithLeaf =>
    let '(u, s1) := pcas s PRoot 0 (buildLeaf (u_k op) value) in
    do s2 <- count_if u (unlock_root s1) aid;
    Ok (u, s2)

  | replaceLeafRootWithNode =>
    do (n, d, s1) <- allocate_node s aid 2 0;
    do m <- add_sorted_children (t_mem s1) d (u_currentLeaf op) (buildLeaf (u_k op) value);
    let '(u, s2) := pcas (set_mem s1 m) PRoot (u_currentLeaf op) (buildNode 0 n 2 0) in
    do s3 <- count_if u (unlock_root s2) aid;
    Ok (u, s3)

  | rootLeafUpdate =>
    if mtch then
      let '(u, s1) := pcas s PRoot (u_currentLeaf op) (buildLeaf (u_k op) value) in
      Ok (u, unlock_root s1)
    else
      do pl <- common_prefix_root (u_key op) fetched 0;
      do (n, d, s1) <- allocate_node_with_prefix s aid 2 (take pl (u_key op));
      do ka <- key_at (u_key op) pl;
      do kb <- key_at fetched pl;
      do m <- add_sorted_children (t_mem s1) d (buildLeaf ka value) (updateLeafKey (u_currentLeaf op) kb);
      let '(u, s2) := pcas (set_mem s1 m) PRoot (u_currentLeaf op) (buildNode 0 n 2 pl) in
      do s3 <- count_if u s2 aid;
      Ok (u, unlock_root s3)

  | nodePrefixMiss =>
    do a <- key_at (u_key op) (u_depth op + u_mismatch op);
    do b <- key_at (u_prefix op) (u_mismatch op);
    let pl := (length (u_prefix op) - u_mismatch op - 1)%nat in
    do (updated, dst, s1) <- allocate_node_with_prefix s aid (u_count op) (drop (S (u_mismatch op)) (u_prefix op));
    do src <- sl_from (u_data op) (u_prefixSlots op);
    do m1 <- sl_copy (t_mem s1) dst src 0 (u_count op);
    do (n, d, s2) <- allocate_node_with_prefix (set_mem s1 m1) aid 2
                       (take (u_mismatch op) (drop (u_depth op) (u_key op)));
    do m2 <- add_sorted_children (t_mem s2) d (buildLeaf a value) (buildNode b updated (u_count op) pl);
    let s3 := pset (set_mem s2 m2) (u_nodePtr op) (buildNode (to_byte (u_raw op)) n 2 (u_mismatch op)) in
    do s4 <- unlock_uop s3 op;
    do s5 <- recycle s4 aid (u_node op) (u_count op + u_prefixSlots op);
    do s6 <- add_items s5 aid 1;
    Ok (true, s6)

  | nodeLeafInsert256 =>
    let '(u, s1) := pcas s (u_leafPtr op) 0 (buildLeaf (u_k op) value) in
    do s2 <- count_if u s1 aid;
    do s3 <- unlock_uop s2 op;
    Ok (u, s3)

  | nodeLeafInsert =>
    if (u_count op <? fullAllocAfter)%nat then
      do (n, dst, s1) <- allocate_node s aid (u_count op + 1) (length (u_prefix op));
      let split := (u_prefixSlots op + u_position op)%nat in
      do m1 <- sl_copy (t_mem s1) dst (u_data op) 0 split;
      do m2 <- sl_set m1 dst split (buildLeaf (u_k op) value);
      do dst' <- sl_from dst (split + 1);
      do m3 <- sl_copy m2 dst' (u_data op) split (u_count op - u_position op);
      let v := buildNode (to_byte (u_raw op)) n (u_count op + 1) (length (u_prefix op)) in
      do s2 <- unlock_uop (pset (set_mem s1 m3) (u_nodePtr op) v) op;
      do s3 <- recycle s2 aid (u_node op) (u_count op + u_prefixSlots op);
      do s4 <- add_items s3 aid 1;
      Ok (true, s4)
    else
      do (n, dst, s1) <- allocate_node_with_prefix s aid 256 (u_prefix op);
      do _ <- sl_upto dst 256;
      let m1 := mwrite (t_mem s1) (sl_base dst) (replicate 256 0) in
      do src <- sl_from (u_data op) (u_prefixSlots op);
      do _ <- sl_upto src (u_count op);
      do m2 <- sl_set m1 dst (N.to_nat (u_k op)) (buildLeaf (u_k op) value);
      do m3 <- scatter m2 dst (mread m2 (sl_base src) (u_count op));
      let v := buildNode (to_byte (u_raw op)) n 256 (length (u_prefix op)) in
      do s2 <- unlock_uop (pset (set_mem s1 m3) (u_nodePtr op) v) op;
      do s3 <- recycle s2 aid (u_node op) (u_count op + u_prefixSlots op);
      do s4 <- add_items s3 aid 1;
      Ok (true, s4)

  | nodeLeafUpdate | nodeLeafUpdate256 =>
    if mtch then
      let '(u, s1) := pcas s (u_leafPtr op) (u_currentLeaf op) (buildLeaf (u_k op) value) in
      do s2 <- unlock_uop s1 op;
      Ok (u, s2)
    else
      let d1 := (u_depth op + 1)%nat in
      let pl := common_prefix (drop d1 (u_key op)) (drop d1 fetched) in
      do a <- key_at (u_key op) (d1 + pl);
      do b <- key_at fetched (d1 + pl);
      do (n, d, s1) <- allocate_node_with_prefix s aid 2 (take pl (drop d1 (u_key op)));
      do m <- add_sorted_children (t_mem s1) d (buildLeaf a value) (updateLeafKey (u_currentLeaf op) b);
      let '(u, s2) := pcas (set_mem s1 m) (u_leafPtr op) (u_currentLeaf op) (buildNode (u_k op) n 2 pl) in
      do s3 <- count_if u s2 aid;
      do s4 <- unlock_uop s3 op;
      Ok (u, s4)
  end.

(** update.go:265-423 [Finalize] (the allocator release is in [Pool.v]). *)
Definition finalize_update (s : tree) (op : uop) (fetched : list N) (mtch : bool) (value : N) : res (bool * tree) :=
  do (u, s1) <- finalize_update_body s op fetched mtch value;
  Ok (u, end_op s1 (u_alloc op)).

(** update.go:427-439 [Abort]. *)
Definition abort_update (s : tree) (op : uop) : res tree :=
  do s1 <- match u_kind op with
           | replaceEmptyRootWithLeaf | replaceLeafRootWithNode | rootLeafUpdate => Ok (unlock_root s)
           | _ => unlock_uop s op
           end;
  Ok (end_op s1 (u_alloc op)).
