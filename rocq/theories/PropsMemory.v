(** * PropsMemory: what becomes of the memory of removed nodes, and of very long prefixes. *)
From Verif Require Import LeakWitness LongKeys ApiTop.

(** C22 (partial): a node that is in the tree before a call is still in the tree after it, or
    it is among the recycled ranges of the allocators if its size allows that (less than 258
    slots).  Missing: the node that a delete merges with its only remaining child, for which the claim is
    false (C22_leak_refuted); its child is covered. *)
Theorem C22_recycled_partial : forall K fetch n tr y c rep y' p w r,
  reachable K fetch n tr y -> proper K fetch y c -> api y c = Ok (rep, y') ->
  live (sy_tree y) p w -> node_reg (sy_tree y) w r ->
  (exists p' w' r', live (sy_tree y') p' w' /\ node_reg (sy_tree y') w' r' /\ r'.1 = r.1) \/
  ((r.2 < 258)%nat -> r ∈ map ireg (all_items (sy_tree y'))) \/
  (exists aid key op, c = CFinD aid /\ sy_open y !! aid = Some (HD key op) /\ d_kind op = replaceNodeWithNode /\ r.1 = d_node op).
Proof. exact c22_recycled. Qed.
Print Assumptions C22_recycled_partial.

(** The second case occurs. *)
Example C22_example : exists tr y y' w r, reachable (fixed 2) f2 2 tr y /\ proper (fixed 2) f2 y (CFinD 0) /\
  api y (CFinD 0) = Ok (RBool true, y') /\ live (sy_tree y) [0%nat] w /\ node_reg (sy_tree y) w r /\
  (forall p' w' r', live (sy_tree y') p' w' -> node_reg (sy_tree y') w' r' -> r'.1 <> r.1) /\
  r ∈ map ireg (all_items (sy_tree y')).
Proof. exact recycled_example. Qed.

(** C22: deleting one of the two children of the root, when the other one is a node: the old
    root node has left the tree, is small enough for the recycler, and belongs to the free
    memory of no allocator (delete.go:285-299 recycles the child only). *)
Theorem C22_leak_refuted : exists tr y y' w r, reachable (fixed 2) f2 2 tr y /\ proper (fixed 2) f2 y (CFinD 0) /\
  api y (CFinD 0) = Ok (RBool true, y') /\
  live (sy_tree y) [] w /\ node_reg (sy_tree y) w r /\ (0 < r.2 < 258)%nat /\
  (forall p' w' r', live (sy_tree y') p' w' -> node_reg (sy_tree y') w' r' -> r'.1 <> r.1) /\
  (forall x, x ∈ seqN r.1 r.2 -> x ∉ cover (free_regs (sy_tree y'))).
Proof. exact leak_witness. Qed.
Print Assumptions C22_leak_refuted.

(** C42 (partial): with keys shorter than 2000000 bytes no call reads or writes outside the
    memory of its node.  Missing: longer keys, for which it is false (C42_long_prefix_refuted). *)
Theorem C42_inside_block_partial : forall K fetch n tr y c,
  reachable K fetch n tr y -> proper K fetch y c -> api y c <> Panic UnsafeOverrun.
Proof. exact c42_inside. Qed.
Print Assumptions C42_inside_block_partial.

Example C42_example : exists tr y c, reachable (fixed 3) f3 2 tr y /\ proper (fixed 3) f3 y c.
Proof. destruct ex_busy as (tr & y & y1 & y0 & H1 & _ & _ & H2 & _). by exists tr, y, (CFinD 0). Qed.

(** C42: two keys with 2^21 equal bytes in front: storePrefix writes behind the end of the block. *)
Theorem C42_long_prefix_refuted : exists (K : list N -> Prop) (fetch : N -> list N) tr y c,
  (forall k, K k -> bytes k /\ k <> []) /\ (forall k k', K k -> K k' -> k `prefix_of` k' -> k = k') /\
  runs K fetch 1 tr y /\ proper K fetch y c /\ api y c = Panic UnsafeOverrun.
Proof. exact long_witness. Qed.
Print Assumptions C42_long_prefix_refuted.
