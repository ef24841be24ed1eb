(** * PropsPersist: the properties of the state file (C23 to C26). *)
From Coq Require Import String.
From Verif Require Import PWitness.

(** C23: a stopped index that is written and loaded again answers every Lookup, MinKey,
    MaxKey, Count and iterator step as before, and is again a reachable state with the same map, so
    all theorems about reachable states hold for what the clients do next.  [order] is the order
    in which the concurrent writers emitted the blocks; all blocks in use are in the file. *)
Theorem C23_same_index : forall K fetch n tr y pack unpack order,
  reachable K fetch n tr y -> proper K fetch y (CRestart pack unpack order) ->
  exists s', new_tree_from_state unpack (write_state pack (sy_tree y) order) = Loaded (s', rev order) /\
  (forall b, b < t_nextFreeBlock s' <-> b ∈ rev order) /\
  (forall aid key, (do (v, found, _) <- Search.lookup s' aid key; Ok (v, found)) =
                   (do (v, found, _) <- Search.lookup (sy_tree y) aid key; Ok (v, found))) /\
  (forall fuel key, min_key fuel s' key = min_key fuel (sy_tree y) key) /\
  (forall fuel key, max_key fuel s' key = max_key fuel (sy_tree y) key) /\
  (forall fuel key, count fuel s' key = count fuel (sy_tree y) key) /\
  (forall fuel it, it_next fuel s' it = it_next fuel (sy_tree y) it) /\
  (forall tr', tr' = tr ++ [(CRestart pack unpack order, RRestart (len (sy_tree y) - len s'))] ->
     N.of_nat (length tr') < maxUint64 ->
     reachable K fetch n tr' (Sys s' ∅) /\ h_map (replay tr') = h_map (replay tr)).
Proof. exact c23_same. Qed.
Print Assumptions C23_same_index.

Example C23_example : exists tr y, reachable (fixed 2) f2 2 tr y /\ proper (fixed 2) f2 y (CRestart idpack idunpack [0]) /\
  size (h_map (replay tr)) = 3%nat.
Proof. destruct ex_file as (tr & y & H1 & H2 & H3 & _). by exists tr, y. Qed.

(** C24: Len does not survive: one stored key whose allocator has not called FlushStats, Len is 1
    before and 0 after (allocator.go:319-372 does not write itemCounter). *)
Theorem C24_len_refuted : exists tr y pack unpack order s' bs, reachable (fixed 1) f1 2 tr y /\
  proper (fixed 1) f1 y (CRestart pack unpack order) /\
  new_tree_from_state unpack (write_state pack (sy_tree y) order) = Loaded (s', bs) /\ len (sy_tree y) = 1%Z /\ len s' = 0%Z.
Proof. exact len_lost. Qed.
Print Assumptions C24_len_refuted.

(** C24: deleting that key after the restart leaves a negative Len. *)
Theorem C24_negative_len_refuted : exists tr y, reachable (fixed 1) f1 2 tr y /\ sequential tr /\
  len (sy_tree y) = (-1)%Z /\ h_map (replay tr) = ∅.
Proof. exact len_negative. Qed.
Print Assumptions C24_negative_len_refuted.

(** C24: what a restart makes of Len: the private counters of the allocators are lost, and a
    negative number becomes 0. *)
Theorem C24_len_after : forall K fetch n tr y pack unpack order,
  reachable K fetch n tr y -> proper K fetch y (CRestart pack unpack order) ->
  exists s' bs, new_tree_from_state unpack (write_state pack (sy_tree y) order) = Loaded (s', bs) /\
  len s' = Z.max 0 (len (sy_tree y) - fold_left Z.add (map al_items (t_allocs (sy_tree y))) 0)%Z.
Proof. exact c24_len. Qed.
Print Assumptions C24_len_after.

(** C24 (partial): Len survives when FlushStats was called on every allocator first.
    Missing: C24_len_refuted. *)
Theorem C24_flushed_partial : forall K fetch n tr y pack unpack order,
  reachable K fetch n tr y -> proper K fetch y (CRestart pack unpack order) ->
  N.of_nat (length tr + naids y) < maxUint64 -> (0 <= len (sy_tree y) < 2 ^ 63)%Z ->
  exists y1 s' bs, reachable K fetch n (tr ++ flushes (naids y)) y1 /\
  new_tree_from_state unpack (write_state pack (sy_tree y1) order) = Loaded (s', bs) /\ len s' = len (sy_tree y).
Proof. exact c24_flushed. Qed.
Print Assumptions C24_flushed_partial.

Example C24_example : exists tr y, reachable (fixed 2) f2 2 tr y /\ proper (fixed 2) f2 y (CRestart idpack idunpack [0]) /\
  N.of_nat (length tr + naids y) < maxUint64 /\ (0 <= len (sy_tree y) < 2 ^ 63)%Z.
Proof.
  destruct ex_file as (tr & y & H1 & H2 & _ & H3 & H4 & H5). exists tr, y. split; [done|]. split; [done|]. split; [|done].
  rewrite H4, H5. by vm_compute.
Qed.

(** C25: a file that was cut short is accepted as an index that has lost its key. *)
Theorem C25_truncated_refuted : exists tr y pack unpack order k s' bs, reachable (fixed 1) f1 2 tr y /\
  proper (fixed 1) f1 y (CRestart pack unpack order) /\ (k < length (write_state pack (sy_tree y) order))%nat /\
  new_tree_from_state unpack (take k (write_state pack (sy_tree y) order)) = Loaded (s', bs) /\
  search (sy_tree y) (f1 7) = Ok (7, true) /\ search s' (f1 7) = Ok (0, false).
Proof. exact cut_root. Qed.
Print Assumptions C25_truncated_refuted.

(** C25: for every state, a file without its last blocks is accepted, and the loaded index keeps
    the root of the complete one although only the blocks [o1] exist. *)
Theorem C25_missing_blocks : forall K fetch n tr y pack unpack order,
  reachable K fetch n tr y -> proper K fetch y (CRestart pack unpack order) -> forall o1 o2, order = o1 ++ o2 ->
  (exists rest, write_state pack (sy_tree y) order = write_state pack (sy_tree y) o1 ++ rest /\ (o2 <> [] -> rest <> [])) /\
  exists s', new_tree_from_state unpack (write_state pack (sy_tree y) o1) = Loaded (s', rev o1) /\
    t_root s' = t_root (sy_tree y) /\ t_nextFreeBlock s' = t_nextFreeBlock (sy_tree y).
Proof. exact c25_missing. Qed.
Print Assumptions C25_missing_blocks.

(** C25 (partial): a file that ends inside an allocator section is rejected.
    Missing: files cut elsewhere, see C25_truncated_refuted and C25_missing_blocks. *)
Theorem C25_allocator_partial : forall K fetch n tr y pack unpack order,
  reachable K fetch n tr y -> proper K fetch y (CRestart pack unpack order) -> forall i a k,
  t_allocs (sy_tree y) !! i = Some a -> (k < length (alloc_text a))%nat ->
  new_tree_from_state unpack (header (sy_tree y) ++ allocs_text 0 (take i (t_allocs (sy_tree y))) ++
    str "allocator " ++ dec (N.of_nat i) ++ nl :: take k (alloc_text a)) = Rejected.
Proof. exact c25_alloc. Qed.
Print Assumptions C25_allocator_partial.

(** C25 (partial): a file that ends inside a compressed block is rejected. *)
Theorem C25_block_partial : forall K fetch n tr y pack unpack order,
  reachable K fetch n tr y -> proper K fetch y (CRestart pack unpack order) -> forall o1 b o2 k, order = o1 ++ b :: o2 ->
  let buf := pack (block_bytes (block_words (t_mem (sy_tree y)) b)) in
  (k < length buf)%nat ->
  new_tree_from_state unpack (write_state pack (sy_tree y) o1 ++ str "block " ++ dec b ++ nl :: str "compression snappy" ++ nl ::
    str "size " ++ dec (N.of_nat (length buf)) ++ nl :: take k buf) = Rejected.
Proof. exact c25_block. Qed.
Print Assumptions C25_block_partial.

Example C25_example : exists tr y a, reachable (fixed 2) f2 2 tr y /\ proper (fixed 2) f2 y (CRestart idpack idunpack [0]) /\
  t_allocs (sy_tree y) !! 1%nat = Some a /\ (3 < length (alloc_text a))%nat.
Proof.
  destruct ex_file as (tr & y & H1 & H2 & _ & _ & _ & H5). unfold naids in H5.
  destruct (lookup_lt_is_Some_2 (t_allocs (sy_tree y)) 1) as [a Ha]; [lia|]. exists tr, y, a. split; [done|]. split; [done|]. split; [done|].
  unfold alloc_text. rewrite app_length. change (length (str "empty ")) with 6%nat. lia.
Qed.

(** C26: files the loader panics on: a line without a space (state.go:128), an epoch before the
    allocators (state.go:142), a size class of 258 (allocator.go:301), too many blocks
    (radix.go:185, in the goroutine started by NewTreeFromState). *)
Theorem C26_panics_refuted : exists l1 l2 l3 l4, forall unpack,
  new_tree_from_state unpack l1 = Crashed OutOfRange /\ new_tree_from_state unpack l2 = Crashed NilBlock /\
  new_tree_from_state unpack l3 = Crashed OutOfRange /\ new_tree_from_state unpack l4 = Crashed OutOfRange.
Proof. exact (ex_intro _ _ (ex_intro _ _ (ex_intro _ _ (ex_intro _ _ bad_files)))). Qed.
Print Assumptions C26_panics_refuted.

(** C26 (partial): no part of a file written by WriteState makes the loader panic.
    Missing: other files, see C26_panics_refuted. *)
Theorem C26_written_partial : forall K fetch n tr y pack unpack order,
  reachable K fetch n tr y -> proper K fetch y (CRestart pack unpack order) -> forall k,
  (k < length (write_state pack (sy_tree y) order))%nat ->
  forall w, new_tree_from_state unpack (take k (write_state pack (sy_tree y) order)) <> Crashed w.
Proof. exact c26_written. Qed.
Print Assumptions C26_written_partial.

Example C26_example : exists tr y, reachable (fixed 2) f2 2 tr y /\ proper (fixed 2) f2 y (CRestart idpack idunpack [0]) /\
  (3 < length (write_state idpack (sy_tree y) [0%N]))%nat.
Proof.
  destruct ex_file as (tr & y & H1 & H2 & _). exists tr, y. split; [done|]. split; [done|].
  unfold write_state, header. rewrite !app_length. change (length (str "objects ")) with 8%nat. lia.
Qed.
