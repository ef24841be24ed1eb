(** * Search: read-only operations (models of /repo/radix.go:254-572 and
    allocator.go:88-93). *)
From Verif Require Export State.

(** [key[i]] *)
Definition key_at (key : list N) (i : nat) : res N :=
  match key !! i with Some b => Ok b | None => Panic OutOfRange end.

(** radix.go:518-571: the loop of [search].  [fuel] bounds the number of nodes
    visited; every round increases [depth], so [length key + 1] rounds suffice
    (theorem [search_no_fuel] in the proofs). *)
Fixpoint search_loop (fuel : nat) (s : tree) (key : list N) (node : N) (count prefixLen depth : nat)
  : res (N * bool) :=
  match fuel with
  | O => NoFuel
  | S fuel' =>
    do data <- node_data s node;
    do (plen, _, data1) <- skip_prefix (t_mem s) data prefixLen;
    let depth := (depth + plen)%nat in
    if (length key <=? depth)%nat then Ok (0, false)
    else
      do k <- key_at key depth;
      if (fullAllocFrom <=? count)%nat then
        do a <- sl_get (t_mem s) data1 (N.to_nat k);
        if a =? 0 then Ok (0, false)
        else if isLeaf a then Ok (getLeafValue a, true)
        else let '(_, node', count', prefixLen') := explodeNode a in
             search_loop fuel' s key node' count' prefixLen' (S depth)
      else
        do _ <- sl_upto data1 count;
        let '(_, _, a) := scan (t_mem s) (sl_base data1) k 0 count (O, 0) in
        if to_byte a =? k then
          if isLeaf a then Ok (getLeafValue a, true)
          else let '(_, node', count', prefixLen') := explodeNode a in
               search_loop fuel' s key node' count' prefixLen' (S depth)
        else Ok (0, false)
  end.

(** radix.go:508-572 [search]. *)
Definition search (s : tree) (key : list N) : res (N * bool) :=
  let root := t_root s in
  if isLeaf root then
    do k <- key_at key 0;
    if to_byte root =? k then Ok (getLeafValue root, true) else Ok (0, false)
  else
    let '(_, node, count, prefixLen) := explodeNode root in
    search_loop (S (length key)) s key node count prefixLen 0.

(** allocator.go:88-93 [Allocator.Lookup] (and radix.go:257-262 [Tree.Lookup], which
    picks the allocator from the pool). *)
Definition lookup (s : tree) (aid : nat) (key : list N) : res (N * bool * tree) :=
  let s1 := start_op s aid in
  do (v, found) <- search s1 key;
  Ok (v, found, end_op s1 aid).

(** radix.go:337-346: compare the node prefix with the search prefix. *)
Inductive pcmp := PExhausted | PMismatch (i : nat) | PMatch.
Fixpoint prefix_cmp (key : list N) (depth : nat) (buf : list N) (i : nat) : pcmp :=
  match buf with
  | [] => PMatch
  | b :: buf' =>
    match key !! (depth + i)%nat with
    | None => PExhausted
    | Some c => if c =? b then prefix_cmp key depth buf' (S i) else PMismatch i
    end
  end.

(** radix.go:327-388: the loop of [partialSearch]. *)
Fixpoint partial_loop (fuel : nat) (s : tree) (sp : list N) (raw : N) (depth : nat) : res (N * nat) :=
  match fuel with
  | O => NoFuel
  | S fuel' =>
    let '(_, node, count, prefixLen) := explodeNode raw in
    if (length sp <=? depth)%nat then Ok (raw, depth)
    else
      do data <- node_data s node;
      do (buf, slots) <- append_prefix (t_mem s) data prefixLen;
      do data1 <- sl_from data slots;
      match prefix_cmp sp depth buf 0 with
      | PExhausted => Ok (raw, depth)
      | PMismatch _ => Ok (0, O)
      | PMatch =>
        if (length sp <=? depth + length buf)%nat then Ok (raw, depth)
        else
          let depth := (depth + length buf)%nat in
          do k <- key_at sp depth;
          if (fullAllocFrom <=? count)%nat then
            do a <- sl_get (t_mem s) data1 (N.to_nat k);
            if a =? 0 then Ok (0, O)
            else if isLeaf a then Ok (a, depth)
            else partial_loop fuel' s sp a (S depth)
          else
            do _ <- sl_upto data1 count;
            let '(_, _, a) := scan (t_mem s) (sl_base data1) k 0 count (O, 0) in
            if to_byte a =? k then
              if isLeaf a then Ok (a, depth) else partial_loop fuel' s sp a (S depth)
            else Ok (0, depth)
      end
  end.

(** radix.go:314-389 [partialSearch]. *)
Definition partial_search (s : tree) (sp : list N) : res (N * nat) :=
  let root := t_root s in
  match sp with
  | [] => Ok (root, O)
  | c :: _ =>
    if isLeaf root then (if to_byte root =? c then Ok (root, O) else Ok (0, O))
    else partial_loop (S (length sp)) s sp root 0
  end.

(** radix.go:424-433: first non-zero child of a node-256 from the top. *)
Fixpoint find_down (m : mem) (base : N) (k : nat) : option N :=
  let a := mget m (base + N.of_nat k) in
  if a =? 0 then match k with O => None | S k' => find_down m base k' end else Some a.

(** radix.go:476-485: first non-zero child of a node-256 from the bottom. *)
Fixpoint find_up (m : mem) (base : N) (k n : nat) : option N :=
  match n with
  | O => None
  | S n' =>
    let a := mget m (base + N.of_nat k) in
    if a =? 0 then find_up m base (S k) n' else Some a
  end.

(** radix.go:407-443: the descent loop of [MaxKey].  Its number of rounds is the
    height of the tree, which no argument bounds: [fuel] is explicit. *)
Fixpoint max_loop (fuel : nat) (s : tree) (raw : N) : res (N * bool) :=
  match fuel with
  | O => NoFuel
  | S fuel' =>
    let '(_, node, count, prefixLen) := explodeNode raw in
    do data <- node_data s node;
    do (_, _, data1) <- skip_prefix (t_mem s) data prefixLen;
    if (fullAllocFrom <=? count)%nat then
      do _ <- sl_upto data1 256;
      match find_down (t_mem s) (sl_base data1) 255 with
      | None => Ok (0, false)
      | Some a => if isLeaf a then Ok (getLeafValue a, true) else max_loop fuel' s a
      end
    else
      do a <- sl_get (t_mem s) data1 (count - 1);
      if isLeaf a then Ok (getLeafValue a, true) else max_loop fuel' s a
  end.

(** radix.go:397-444 [MaxKey]. *)
Definition max_key (fuel : nat) (s : tree) (sp : list N) : res (N * bool) :=
  do (raw, _) <- partial_search s sp;
  if raw =? 0 then Ok (0, false)
  else if isLeaf raw then Ok (getLeafValue raw, true)
  else max_loop fuel s raw.

(** radix.go:459-495: the descent loop of [MinKey]. *)
Fixpoint min_loop (fuel : nat) (s : tree) (raw : N) : res (N * bool) :=
  match fuel with
  | O => NoFuel
  | S fuel' =>
    let '(_, node, count, prefixLen) := explodeNode raw in
    do data <- node_data s node;
    do (_, _, data1) <- skip_prefix (t_mem s) data prefixLen;
    if (fullAllocFrom <=? count)%nat then
      do _ <- sl_upto data1 count;
      match find_up (t_mem s) (sl_base data1) 0 count with
      | None => Ok (0, false)
      | Some a => if isLeaf a then Ok (getLeafValue a, true) else min_loop fuel' s a
      end
    else
      do a <- sl_get (t_mem s) data1 0;
      if isLeaf a then Ok (getLeafValue a, true) else min_loop fuel' s a
  end.

(** radix.go:449-496 [MinKey]. *)
Definition min_key (fuel : nat) (s : tree) (sp : list N) : res (N * bool) :=
  do (raw, _) <- partial_search s sp;
  if raw =? 0 then Ok (0, false)
  else if isLeaf raw then Ok (getLeafValue raw, true)
  else min_loop fuel s raw.

(** radix.go:137-145 [Len], counting part (the stop/start part is in [Pool.v]). *)
Definition len (s : tree) : Z := fold_left Z.add (map al_items (t_allocs s)) (t_live s).
