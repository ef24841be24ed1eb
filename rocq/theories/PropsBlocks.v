(** * PropsBlocks: the goroutine that creates blocks (C27, C39). *)
From Verif Require Import BlockRaceFacts.

(** C27: a stopped tree with three keys; the goroutine has handed out block 0 and not yet
    published that the next free block is 1.  WriteState writes no block, and the loaded tree
    does not find a key that was stored. *)
Theorem C27_block_lost_refuted : exists tr y st pack unpack order s' bs k v,
  reachable (fixed 2) f2 2 tr y /\ sy_open y = ∅ /\ codec pack unpack /\
  beside y st /\ written_at st order /\
  new_tree_from_state unpack (write_state_at pack (sy_tree y) st order) = Loaded (s', bs) /\
  h_map (replay tr) !! k = Some v /\ search (sy_tree y) k = Ok (v, true) /\ search s' k = Ok (0, false).
Proof. exact c27_lost. Qed.
Print Assumptions C27_block_lost_refuted.

(** C27 (partial): when the goroutine waits in its select, or has ended, the file is the one of
    C23 and contains every block in use.  Missing: C27_block_lost_refuted. *)
Theorem C27_waiting_partial : forall y st pack order,
  beside y st -> (match b_pc st with BSelect _ | BExit => True | _ => False end) ->
  write_state_at pack (sy_tree y) st order = write_state pack (sy_tree y) order /\
  (written_at st order <-> all_written (sy_tree y) order).
Proof. exact c27_waiting. Qed.
Print Assumptions C27_waiting_partial.

(** C27: in every other state at most one block is missing, the one handed out last. *)
Theorem C27_last_block : forall y st order, beside y st -> written_at st order ->
  forall b, b < t_nextFreeBlock (sy_tree y) -> b ∉ order -> b = t_nextFreeBlock (sy_tree y) - 1.
Proof. exact c27_missing. Qed.
Print Assumptions C27_last_block.

Example C27_example : exists tr y, reachable (fixed 2) f2 2 tr y /\ beside y waiting /\ beside y just_given /\ sy_open y = ∅ /\
  written_at waiting [0] /\ written_at just_given [] /\ size (h_map (replay tr)) = 3%nat.
Proof. exact ex_beside. Qed.

(** C39: before the goroutine has made a step, block 0 is nil and every Lookup in a new tree
    dereferences it. *)
Theorem C39_nil_block_refuted : exists st, bruns 0 st /\ forall n key, beside (init n) st /\
  search_at (b_blocks st) (newTree n) key = Panic NilBlock.
Proof. exact c39_nil. Qed.
Print Assumptions C39_nil_block_refuted.

(** C39 (partial): as soon as block 0 exists, and in every tree to which a block was handed out,
    no node data and no lock word of a nil block is touched, whatever the goroutine is doing;
    Lookup gives the result it has in a tree with all blocks.
    Missing: C39_nil_block_refuted. *)
Theorem C39_started_partial : forall K fetch n tr y st key, reachable K fetch n tr y -> beside y st ->
  0 < t_nextFreeBlock (sy_tree y) \/ 0 ∈ b_blocks st -> bytes key -> key <> [] ->
  (forall node d, node_data (sy_tree y) node = Ok d -> block_of node ∈ b_blocks st) /\
  (forall node g, generation (sy_tree y) node = Ok g -> block_of node ∈ b_blocks st) /\
  exists v f, search (sy_tree y) key = Ok (v, f) /\ search_at (b_blocks st) (sy_tree y) key = Ok (v, f).
Proof. exact c39_started. Qed.
Print Assumptions C39_started_partial.

Example C39_example : exists tr y, reachable (fixed 2) f2 2 tr y /\ beside y just_given /\ 0 ∈ b_blocks just_given /\
  size (h_map (replay tr)) = 3%nat.
Proof. destruct ex_beside as (tr & y & H1 & _ & H2 & _ & _ & _ & H3). exists tr, y. split_and!; try done. left. Qed.

(** A block that was handed out is never nil, is handed out once, and is never created again. *)
Theorem C39_blocks_kept : forall n st, bruns n st ->
  (forall b, b ∈ b_given st -> b ∈ b_blocks st) /\ NoDup (b_given st) /\
  (forall next, b_pc st = BMake next -> next ∉ b_given st).
Proof. exact given_kept. Qed.
Print Assumptions C39_blocks_kept.
