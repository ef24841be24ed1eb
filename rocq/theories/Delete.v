(** * Delete: PrepareDelete / Finalize / Abort (model of /repo/delete.go). *)
From Verif Require Export Update.

(** delete.go:10-17 *)
Inductive dkind :=
| notFound | deleteRoot | deleteLeaf | deleteLeaf256 | replaceNodeWithLeaf | replaceNodeWithNode.

(** delete.go:30-59 [DeleteOperation] after [prepare]. *)
Record dop := Dop {
  d_value : N;
  d_alloc : nat;
  d_kind : dkind;
  d_raw : N;
  d_leafPtr : ptr;
  d_nodePtr : ptr;
  d_parent : N;
  d_node : N;
  d_child : N;
  d_data : slice;
  d_newLeaf : N;
  d_count : nat;
  d_prefixLen : nat;
  d_prefixSlots : nat;
  d_leafPosition : nat;
  d_prefix : list N
}.

Definition nil_dop (aid : nat) : dop :=
  Dop 0 aid notFound 0 PRoot PRoot 0 0 0 no_slice 0 0 0 0 0 [].

(** delete.go:107-262: the search loop of [prepare].  [root] is the root word read at
    the start; [depth] counts consumed key bytes. *)
Fixpoint pd_loop (fuel : nat) (s : tree) (aid : nat) (key : list N) (root : N)
    (raw : N) (np : ptr) (parent parentGen : N) (depth : nat) : res (option dop * tree) :=
  match fuel with
  | O => NoFuel
  | S fuel' =>
    let '(_, node, count, prefixLen) := explodeNode raw in
    do nodeGen <- generation s node;
    if negb (pget s np =? raw) then Retry else
    do pg <- (if parent =? 0 then Ok parentGen else generation s parent);
    if negb (pg =? parentGen) then Retry else
    do data <- node_data s node;
    do (plen, pslots, data1) <- skip_prefix (t_mem s) data prefixLen;
    let depth := (depth + plen)%nat in
    if (length key <=? depth)%nat then Ok (None, s)
    else
      do k <- key_at key depth;
      if (fullAllocFrom <=? count)%nat then
        do a <- sl_get (t_mem s) data1 (N.to_nat k);
        let p := PSlot (sl_base data1 + k) in
        if a =? 0 then Ok (None, s)
        else if isLeaf a then
          Ok (Some (Dop (getLeafValue a) aid deleteLeaf256 a p np parent node 0 data 0 count plen pslots 0 []), s)
        else pd_loop fuel' s aid key root a p node nodeGen (S depth)
      else
        do _ <- sl_upto data1 count;
        let '(_, i, a) := scan (t_mem s) (sl_base data1) k 0 count (O, 0) in
        let p := PSlot (sl_base data1 + N.of_nat i) in
        if to_byte a =? k then
          if isLeaf a then
            if (count =? 2)%nat then
              do other <- sl_get (t_mem s) data1 (1 - i);
              if isLeaf other then
                with_lock s node nodeGen parent parentGen (fun s1 =>
                  do newLeaf <-
                    (if raw =? root then
                       if (0 <? plen)%nat then do k0 <- key_at key 0; Ok (updateLeafKey other k0)
                       else Ok (updateLeafKey other (to_byte other))
                     else do kb <- key_at key (depth - plen - 1); Ok (updateLeafKey other kb));
                  Ok (Some (Dop (getLeafValue a) aid replaceNodeWithLeaf raw PRoot np parent node 0 data newLeaf
                              count plen pslots i []), s1))
              else
                let '(childKey, child, ccount, cplen) := explodeNode other in
                do childGen <- generation s child;
                match lock_nodes3 (t_locks s) child childGen node nodeGen parent parentGen with
                | None => Retry
                | Some l =>
                  let s1 := set_locks s l in
                  do (prefix, _) <- append_prefix (t_mem s1) data prefixLen;
                  do cdata <- node_data s1 child;
                  do (cprefix, cslots) <- append_prefix (t_mem s1) cdata cplen;
                  Ok (Some (Dop (getLeafValue a) aid replaceNodeWithNode raw PRoot np parent node child cdata 0
                              ccount plen cslots i (prefix ++ [childKey] ++ cprefix)), s1)
                end
            else
              with_lock s node nodeGen parent parentGen (fun s1 =>
                Ok (Some (Dop (getLeafValue a) aid deleteLeaf raw PRoot np parent node 0 data 0
                            count plen pslots i []), s1))
          else pd_loop fuel' s aid key root a p node nodeGen (S depth)
        else Ok (None, s)
  end.

(** delete.go:75-263 [prepare]. *)
Definition prepare_delete_raw (s0 : tree) (aid : nat) (key : list N) : res (option dop * tree) :=
  let s := start_op s0 aid in
  let root := t_root s in
  if root =? 0 then Ok (None, s)
  else if isLeaf root then
    do k <- key_at key 0;
    if to_byte root =? k then
      match lock_leaf_root s root with
      | None => Retry
      | Some s1 =>
        Ok (Some (Dop (getLeafValue root) aid deleteRoot root PRoot PRoot 0 0 0 no_slice 0 0 0 0 0 []), s1)
      end
    else Ok (None, s)
  else pd_loop (S (length key)) s aid key root root PRoot 0 0 0.

(** allocator.go:160-168 [Allocator.PrepareDelete] / radix.go:274-282: when nothing is
    found the operation is aborted at once (kind [notFound]: no locks) and nil returned. *)
Definition prepare_delete (s : tree) (aid : nat) (key : list N) : res (option dop * tree) :=
  do (r, s1) <- prepare_delete_raw s aid key;
  match r with
  | Some op => Ok (Some op, s1)
  | None => Ok (None, end_op s1 aid)
  end.

Definition unlock_dop (s : tree) (op : dop) : res tree :=
  do l <- unlock_nodes2 (t_locks s) (d_node op) (d_parent op); Ok (set_locks s l).

(** delete.go:268-326: the switch of [Finalize]. *)
Definition finalize_delete_body (s : tree) (op : dop) : res (bool * tree) :=
  let aid := d_alloc op in
  match d_kind op with
  | notFound => Ok (false, s)

  | deleteRoot =>
    do s1 <- add_items (unlock_root (set_root s 0)) aid (-1);
    Ok (true, s1)

  | replaceNodeWithLeaf =>
    do s1 <- unlock_dop (pset s (d_nodePtr op) (d_newLeaf op)) op;
    do s2 <- recycle s1 aid (d_node op) (d_count op + d_prefixSlots op);
    do s3 <- add_items s2 aid (-1);
    Ok (true, s3)

  | replaceNodeWithNode =>
    do (n, dst, s1) <- allocate_node_with_prefix s aid (d_count op) (d_prefix op);
    do m <- sl_copy (t_mem s1) dst (d_data op) (d_prefixSlots op) (d_count op);
    let v := buildNode (to_byte (d_raw op)) n (d_count op) (length (d_prefix op)) in
    let s2 := pset (set_mem s1 m) (d_nodePtr op) v in
    do l <- unlock_nodes3 (t_locks s2) (d_child op) (d_node op) (d_parent op);
    do s3 <- recycle (set_locks s2 l) aid (d_child op) (d_count op + d_prefixSlots op);
    do s4 <- add_items s3 aid (-1);
    Ok (true, s4)

  | deleteLeaf =>
    do (n, dst, s1) <- allocate_node s aid (d_count op - 1) (d_prefixLen op);
    let split := (d_prefixSlots op + d_leafPosition op)%nat in
    do _ <- sl_upto (d_data op) (d_count op + d_prefixSlots op);
    do m1 <- sl_copy (t_mem s1) dst (d_data op) 0 split;
    do dst' <- sl_from dst split;
    do m2 <- sl_copy m1 dst' (d_data op) (split + 1) (d_count op + d_prefixSlots op - (split + 1));
    let v := buildNode (to_byte (d_raw op)) n (d_count op - 1) (d_prefixLen op) in
    do s2 <- unlock_dop (pset (set_mem s1 m2) (d_nodePtr op) v) op;
    do s3 <- recycle s2 aid (d_node op) (d_count op + d_prefixSlots op);
    do s4 <- add_items s3 aid (-1);
    Ok (true, s4)

  | deleteLeaf256 =>
    let '(u, s1) := pcas s (d_leafPtr op) (d_raw op) 0 in
    do s2 <- (if u then add_items s1 aid (-1) else Ok s1);
    Ok (u, s2)
  end.

(** delete.go:268-333 [Finalize]. *)
Definition finalize_delete (s : tree) (op : dop) : res (bool * tree) :=
  do (u, s1) <- finalize_delete_body s op;
  Ok (u, end_op s1 (d_alloc op)).

(** delete.go:337-351 [Abort].  Note the argument order at delete.go:344:
    [unlockNodes3(op.parent, op.node, op.child)], whose parameters are
    (child, node, parent). *)
Definition abort_delete (s : tree) (op : dop) : res tree :=
  do s1 <- match d_kind op with
           | deleteRoot => Ok (unlock_root s)
           | deleteLeaf | replaceNodeWithLeaf => unlock_dop s op
           | replaceNodeWithNode =>
             do l <- unlock_nodes3 (t_locks s) (d_parent op) (d_node op) (d_child op);
             Ok (set_locks s l)
           | _ => Ok s
           end;
  Ok (end_op s1 (d_alloc op)).
