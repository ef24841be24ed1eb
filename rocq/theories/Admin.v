(** * Admin: what the tree tells an operator (models of /repo/admin.go and /repo/stats.go).
    The model gives what is printed as a value; the formatting of lines and tables is left out.  [Admin] prints while
    other clients may be at work; here each command is one step. *)
From Coq Require Import Ascii String.
From Verif Require Export Search Persist.

(** admin.go:109-119, 133-136: a line for a child. *)
Inductive line :=
| LLeaf (word key value : N)
| LNode (word key data : N) (count prefixLen : nat).

(** admin.go:82-120: what [debugPrintNode] prints. *)
Inductive dump :=
| DInvalid
| DLeaf (l : line)
| DNode (l : line) (prefix : list N) (children : list line).

Definition leaf_line (w : N) : line := LLeaf w (to_byte w) (getLeafValue w).
Definition node_line (w : N) : line :=
  let '(key, data, count, prefixLen) := explodeNode w in LNode w key data count prefixLen.
(** admin.go:110-118 *)
Definition child_line (w : N) : line := if isLeaf w then leaf_line w else node_line w.

(** admin.go:82-120 [debugPrintNode]. *)
Definition debug_print_node (s : tree) (node : N) : res dump :=
  if isLeaf node then Ok (DLeaf (leaf_line node))
  else
    let '(key, value, count, prefixLen) := explodeNode node in
    if maxBlockCount <? block_of value then Ok DInvalid
    else
      do data <- node_data s value;
      do (prefix, slots) <- (if (0 <? prefixLen)%nat then append_prefix (t_mem s) data prefixLen else Ok ([], O));
      do data1 <- sl_from data slots;
      do _ <- sl_upto data1 count;
      Ok (DNode (node_line node) prefix (map child_line (mread (t_mem s) (sl_base data1) count))).

(** stats.go:8-24; [si_per_key] is the quotient of [si_bytes] by [si_objects] as a float, if it is computed. *)
Record stats := Stats {
  si_objects : Z; si_blocks : N; si_bytes : N; si_per_key : option (N * Z);
  si_allocators : nat; si_root : N; si_epoch : N }.
Definition tree_stats (s : tree) : stats :=
  let b := t_nextFreeBlock s + 1 in
  Stats (t_live s) b (b * blockSize) (if (0 <? t_live s)%Z then Some (b * blockSize, t_live s) else None)
    (length (t_allocs s)) (t_root s) (t_epoch s).

(** allocator.go:195-206 [printStats]: the block (with the offset and the next free position) if the allocator has one, and
    the lengths of the recycler's lists. *)
Definition print_stats (a : allocator) : option (N * N * N) * list nat :=
  ((if al_empty a then None else Some (al_block a, al_offset a, al_nextFree a)), map length (al_recycler a)).

Inductive answer :=
| AHelp | AUsage | AUnknown | AEmpty | ANothing
| AInfo (i : stats)
| ABlocks (next : N)                    (* rows 0 .. next-1 "in use" and row next "allocated" *)
| AAllocators (l : list (option (N * N * N) * list nat))
| ADump (d : dump).

(** uint64(n) of an int. *)
Definition uint64 (z : Z) : N := Z.to_N (z mod 18446744073709551616).

(** admin.go:14-80 [Admin].  "allocators" takes all allocators out of the pool first and waits for them; that is the
    subject of Pool.v (C82), here they are there. *)
Definition admin (s : tree) (argv : list (list N)) : res answer :=
  match argv with
  | [] => Ok AHelp
  | c :: args =>
    if bytes_eqb c (str "info") then Ok (AInfo (tree_stats s))
    else if bytes_eqb c (str "allocators") then
      Ok (match args with [] => AAllocators (map print_stats (t_allocs s)) | _ => ANothing end)
    else if bytes_eqb c (str "blocks") then Ok (ABlocks (t_nextFreeBlock s))
    else if bytes_eqb c (str "root") then
      if t_root s =? 0 then Ok AEmpty else do d <- debug_print_node s (t_root s); Ok (ADump d)
    else if bytes_eqb c (str "node") then
      match args with
      | [id] => do d <- debug_print_node s (uint64 (atoi id)); Ok (ADump d)
      | _ => Ok AUsage
      end
    else Ok AUnknown
  end.

(** radix.go:584-640: the loop of [debugSearch]; the dumps it prints, and its result.  It differs from the loop of [search]
    in what it prints and in that it returns no flag.  Every round increases [depth]. *)
Fixpoint debug_loop (fuel : nat) (s : tree) (key : list N) (raw : N) (depth : nat) : res (list dump * N) :=
  match fuel with
  | O => NoFuel
  | S fuel' =>
    do d <- debug_print_node s raw;
    let '(_, node, count, prefixLen) := explodeNode raw in
    do data <- node_data s node;
    do (plen, _, data1) <- skip_prefix (t_mem s) data prefixLen;
    let depth := (depth + plen)%nat in
    if (length key <=? depth)%nat then Ok ([d], 0)
    else
      do k <- key_at key depth;
      if (fullAllocFrom <=? count)%nat then
        do a <- sl_get (t_mem s) data1 (N.to_nat k);
        if a =? 0 then Ok ([d], 0)
        else if isLeaf a then Ok ([d], getLeafValue a)
        else do (ds, v) <- debug_loop fuel' s key a (S depth); Ok (d :: ds, v)
      else
        do _ <- sl_upto data1 count;
        let '(_, _, a) := scan (t_mem s) (sl_base data1) k 0 count (O, 0) in
        if to_byte a =? k then
          if isLeaf a then Ok ([d], getLeafValue a)
          else do (ds, v) <- debug_loop fuel' s key a (S depth); Ok (d :: ds, v)
        else Ok ([d], 0)
  end.

(** radix.go:574-640 [debugSearch]; the headline it prints is left out. *)
Definition debug_search (s : tree) (key : list N) : res (list dump * N) :=
  let root := t_root s in
  if isLeaf root then
    do k <- key_at key 0;
    if to_byte root =? k then Ok ([], getLeafValue root) else Ok ([], 0)
  else debug_loop (S (length key)) s key root 0.
