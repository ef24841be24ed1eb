(** * BlockRace: the goroutine that creates blocks (model of /repo/radix.go:117-133, 182-196).

    NewTree and NewTreeFromState start the goroutine and return at once.  One assignment, one atomic
    operation or one rendezvous is one step. *)
From Verif Require Export Api MemFacts.

(** radix.go:182-196: before line 183; before line 185 (create block [next]); before line 188
    (publish [next]); in the select of lines 189-193; returned; dead (index out of range). *)
Inductive bpc := BLoad | BMake (next : N) | BStore (next : N) | BSelect (next : N) | BExit | BDead.

Record bst := BSt {
  b_pc : bpc;
  b_blocks : list N;   (* entries of idx.blocks that are not nil *)
  b_word : N;          (* idx.nextFreeBlock *)
  b_given : list N;    (* blocks allocators have received, or that were loaded, oldest first *)
  b_closed : bool      (* idx.done is closed (Close) *)
}.

(** A tree with [n] blocks, 0 for NewTree (radix.go:100-119, 122-133). *)
Definition binit (n : nat) : bst := BSt BLoad (seqN 0 n) (N.of_nat n) (seqN 0 n) false.

Inductive bstep : bst -> bst -> Prop :=
| bs_load bl w g c :                        (* line 183 *)
    bstep (BSt BLoad bl w g c) (BSt (BMake w) bl w g c)
| bs_make next bl w g c :                   (* lines 185-187 *)
    next < maxBlockCount ->
    bstep (BSt (BMake next) bl w g c) (BSt (BStore next) (next :: bl) w g c)
| bs_dead next bl w g c :                   (* line 185, no such entry *)
    maxBlockCount <= next ->
    bstep (BSt (BMake next) bl w g c) (BSt BDead bl w g c)
| bs_store next bl w g c :                  (* line 188 *)
    bstep (BSt (BStore next) bl w g c) (BSt (BSelect next) bl next g c)
| bs_give next bl w g c :                   (* lines 192, 194 with allocator.go:246 *)
    bstep (BSt (BSelect next) bl w g c) (BSt (BMake (next + 1)) bl w (g ++ [next]) c)
| bs_exit next bl w g :                     (* line 190 *)
    bstep (BSt (BSelect next) bl w g true) (BSt BExit bl w g true)
| bs_close pc bl w g :                      (* radix.go:174 *)
    bstep (BSt pc bl w g false) (BSt pc bl w g true).

Inductive bruns (n : nat) : bst -> Prop :=
| br_init : bruns n (binit n)
| br_step st st' : bruns n st -> bstep st st' -> bruns n st'.

(** The goroutine while the tree is [y]: the blocks handed out are those that [y] counts. *)
Definition beside (y : sys) (st : bst) : Prop :=
  (exists n, bruns n st) /\ N.of_nat (length (b_given st)) = t_nextFreeBlock (sy_tree y).

(** [idx.blocks[block].data[offset:]] with the entries that are nil at that moment. *)
Definition node_data_at (bl : list N) (node : N) : res slice :=
  if maxBlockCount <=? block_of node then Panic OutOfRange
  else if bool_decide (block_of node ∈ bl) then Ok (Slice node (blockSlots - offset_of node))
  else Panic NilBlock.

(** radix.go:508-572 [search], as in Search.v, with [node_data_at]. *)
Fixpoint search_loop_at (bl : list N) (fuel : nat) (s : tree) (key : list N) (node : N) (count prefixLen depth : nat)
  : res (N * bool) :=
  match fuel with
  | O => NoFuel
  | S fuel' =>
    do data <- node_data_at bl node;
    do (plen, _, data1) <- skip_prefix (t_mem s) data prefixLen;
    let depth := (depth + plen)%nat in
    if (length key <=? depth)%nat then Ok (0, false)
    else
      do k <- key_at key depth;
      if (fullAllocFrom <=? count)%nat then
        do a <- sl_get (t_mem s) data1 (N.to_nat k);
        if a =? 0 then Ok (0, false)
        else if isLeaf a then Ok (getLeafValue a, true)
        else let '(_, node', count', prefixLen') := explodeNode a in
             search_loop_at bl fuel' s key node' count' prefixLen' (S depth)
      else
        do _ <- sl_upto data1 count;
        let '(_, _, a) := scan (t_mem s) (sl_base data1) k 0 count (O, 0) in
        if to_byte a =? k then
          if isLeaf a then Ok (getLeafValue a, true)
          else let '(_, node', count', prefixLen') := explodeNode a in
               search_loop_at bl fuel' s key node' count' prefixLen' (S depth)
        else Ok (0, false)
  end.

Definition search_at (bl : list N) (s : tree) (key : list N) : res (N * bool) :=
  let root := t_root s in
  if isLeaf root then
    do k <- key_at key 0;
    if to_byte root =? k then Ok (getLeafValue root, true) else Ok (0, false)
  else
    let '(_, node, count, prefixLen) := explodeNode root in
    search_loop_at bl (S (length key)) s key node count prefixLen 0.

(** state.go:18-102 [writeState] when the goroutine is in state [st1] as line 22 reads
    nextFreeBlock and in state [st2] as line 91 reads it. *)
Definition write_state_at (pack : list N -> list N) (s : tree) (st1 : bst) (order : list N) : list N :=
  write_state pack (set_nextFreeBlock s (b_word st1)) order.
Definition written_at (st2 : bst) (order : list N) : Prop :=
  NoDup order /\ forall b, b ∈ order <-> b < b_word st2.
