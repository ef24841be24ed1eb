(** * PropsQuery: iterators, counters, MinKey and MaxKey on a tree that does not change during
    the call, in every reachable state.  [listing y sp vs] says that [vs] are the values of
    exactly the stored keys with prefix [sp], in strictly ascending key order;
    [returns f x] that [f] with enough loop rounds is [x]. *)
From Verif Require Import QWitness CountStats.

(** C14 (partial): the first n calls of Next return the values of all n keys in ascending key
    order, if the root node ends before the end of its memory block, or its greatest child is a
    leaf, or there are at most 256 keys.
    Missing: a root node that ends exactly at the end of block 0 and whose last child is a node;
    storeResumePosition (iterator.go:257) then reads behind the block and panics. *)
Theorem C14_iteration_in_order_partial : forall K fetch n tr y, reachable K fetch n tr y ->
  exists vs, listing K fetch y [] vs /\
    forall calls, (calls <= length vs)%nat -> root_room (sy_tree y) \/ last_leaf (sy_tree y) \/ (length vs <= 256)%nat ->
      iterates y [] calls (take calls vs) false.
Proof. exact c14_iter. Qed.
Print Assumptions C14_iteration_in_order_partial.

Example C14_example : exists tr y, reachable (fixed 2) f2 2 tr y /\ size (h_map (replay tr)) = 401%nat /\ root_room (sy_tree y).
Proof. destruct ex_many as (tr & y & H1 & H2 & H3 & _). by exists tr, y. Qed.

(** C15 (partial): with n keys, call n+1 of Next returns false, if n is at most 256 or the
    greatest child of the root node is a leaf.
    Missing: all other trees, for which it is false (C15_iteration_restarts_refuted). *)
Theorem C15_iteration_ends_partial : forall K fetch n tr y, reachable K fetch n tr y ->
  exists vs, listing K fetch y [] vs /\
    forall calls, (length vs < calls)%nat -> (length vs <= 256)%nat \/ last_leaf (sy_tree y) -> iterates y [] calls vs true.
Proof. exact c15_iter. Qed.
Print Assumptions C15_iteration_ends_partial.

Example C15_example : exists tr y, reachable (fixed 2) f2 2 tr y /\ size (h_map (replay tr)) = 401%nat /\ last_leaf (sy_tree y).
Proof. destruct ex_many as (tr & y & H1 & H2 & _ & H3). by exists tr, y. Qed.

(** C15: 400 keys, and 1000 calls of Next that all return true; call 401 returns the value of
    the first key again. *)
Theorem C15_iteration_restarts_refuted : exists tr y vs, reachable (fixed 2) f2 2 tr y /\
  size (h_map (replay tr)) = 400%nat /\ h_susp (replay tr) = ∅ /\ sy_open y = ∅ /\
  iterates y [] 1000 vs false /\ vs !! 400%nat = vs !! 0%nat /\ length vs = 1000%nat.
Proof. exact iter_restarts. Qed.
Print Assumptions C15_iteration_restarts_refuted.

(** C16 (partial): an iterator with prefix [sp] returns exactly the values of the keys with the
    prefix, in order; or no stored key has the prefix and it returns one value of another key.
    Missing: the end of the iteration with more than 256 values, and the prefix check of a
    single candidate; both are false (C15, C16_prefix_ignored_refuted). *)
Theorem C16_prefix_iteration_partial : forall K fetch n tr y sp, reachable K fetch n tr y -> bytes sp ->
  (exists vs, listing K fetch y sp vs /\
    (forall calls, (calls <= length vs)%nat -> room (sy_tree y) \/ (length vs <= 256)%nat -> iterates y sp calls (take calls vs) false) /\
    (forall calls, (length vs < calls)%nat -> (length vs <= 256)%nat -> iterates y sp calls vs true)) \/
  (exists v, stray K fetch y sp v /\ forall calls, (1 < calls)%nat -> iterates y sp calls [v] true).
Proof. exact c16_iter. Qed.
Print Assumptions C16_prefix_iteration_partial.

(** C16 (partial): Count with prefix [sp] returns the number of keys with the prefix, or no
    stored key has the prefix and it returns 1. *)
Theorem C16_prefix_count_partial : forall K fetch n tr y sp, reachable K fetch n tr y -> bytes sp ->
  exists nodes leaves c, returns (fun n => count n (sy_tree y) sp) (nodes, leaves, c) /\
    ((exists vs, listing K fetch y sp vs /\ leaves = length vs) \/ (leaves = 1%nat /\ exists v, stray K fetch y sp v)).
Proof. exact c16_count. Qed.
Print Assumptions C16_prefix_count_partial.

Example C16_example : exists tr y, reachable (fixed 2) f2 2 tr y /\ bytes [1] /\ h_map (replay tr) !! f2 300 = Some 300 /\ [1] `prefix_of` f2 300.
Proof.
  destruct ex_quiet as (tr & y & H1 & _ & _ & _ & _ & H2 & _). exists tr, y. split_and!; [done|by repeat constructor|done|].
  by exists [44].
Qed.

(** C16, C17, C18: the only stored key is [0;1]; all four queries with prefix [0;9] return it. *)
Theorem C16_prefix_ignored_refuted : exists tr y v c, reachable (fixed 2) f2 2 tr y /\ h_map (replay tr) = {[ [0; 1] := v ]} /\ sy_open y = ∅ /\
  returns (fun n => min_key n (sy_tree y) [0; 9]) (v, true) /\ returns (fun n => max_key n (sy_tree y) [0; 9]) (v, true) /\
  returns (fun n => count n (sy_tree y) [0; 9]) (O, 1%nat, c) /\ iterates y [0; 9] 2 [v] true.
Proof. exact stray_replies. Qed.
Print Assumptions C16_prefix_ignored_refuted.

(** C17 (partial): MinKey returns the value of the least key with the prefix; or no stored key
    has the prefix and it returns the value of another key; or it returns not found although a
    key has the prefix, which needs a node of the tree whose 256 slots are all empty.
    Missing: the last two cases, in which it is wrong. *)
Theorem C17_min_key_partial : forall K fetch n tr y sp, reachable K fetch n tr y -> bytes sp ->
  exists v found vs, returns (fun n => min_key n (sy_tree y) sp) (v, found) /\ listing K fetch y sp vs /\
    if found : bool then head vs = Some v \/ stray K fetch y sp v else v = 0 /\ (vs = [] \/ emptied (sy_tree y)).
Proof. exact c17_min. Qed.
Print Assumptions C17_min_key_partial.

Example C17_example : exists tr y, reachable (fixed 2) f2 2 tr y /\ bytes [1] /\ h_map (replay tr) !! f2 300 = Some 300.
Proof. destruct ex_quiet as (tr & y & H1 & _ & _ & _ & _ & H2 & _). exists tr, y. split_and!; [done|by repeat constructor|done]. Qed.

(** C17: 190 keys [0;b] and two keys [1;b] are stored, the 190 are deleted: MinKey finds nothing. *)
Theorem C17_min_key_misses_refuted : exists tr y, reachable (fixed 2) f2 2 tr y /\ h_map (replay tr) !! f2 256 = Some 256 /\
  h_susp (replay tr) = ∅ /\ sy_open y = ∅ /\ returns (fun n => min_key n (sy_tree y) []) (0, false).
Proof. exact min_misses. Qed.
Print Assumptions C17_min_key_misses_refuted.

(** C18 (partial): the same for MaxKey. *)
Theorem C18_max_key_partial : forall K fetch n tr y sp, reachable K fetch n tr y -> bytes sp ->
  exists v found vs, returns (fun n => max_key n (sy_tree y) sp) (v, found) /\ listing K fetch y sp vs /\
    if found : bool then last vs = Some v \/ stray K fetch y sp v else v = 0 /\ (vs = [] \/ emptied (sy_tree y)).
Proof. exact c18_max. Qed.
Print Assumptions C18_max_key_partial.

Example C18_example : exists tr y, reachable (fixed 2) f2 2 tr y /\ bytes [1] /\ h_map (replay tr) !! f2 300 = Some 300.
Proof. exact C17_example. Qed.

Theorem C18_max_key_misses_refuted : exists tr y, reachable (fixed 2) f2 2 tr y /\ h_map (replay tr) !! f2 1 = Some 1 /\
  h_susp (replay tr) = ∅ /\ sy_open y = ∅ /\ returns (fun n => max_key n (sy_tree y) []) (0, false).
Proof. exact max_misses. Qed.
Print Assumptions C18_max_key_misses_refuted.

(** C19: Count without prefix returns the number of stored keys and the number of inner nodes
    (the places of the tree, read off the memory words, that hold a node word). *)
Theorem C19_count : forall K fetch n tr y, reachable K fetch n tr y -> exists nodes leaves c vs ps,
  returns (fun n => count n (sy_tree y) []) (nodes, leaves, c) /\ listing K fetch y [] vs /\ leaves = length vs /\
  node_places (sy_tree y) ps /\ nodes = length ps.
Proof. exact c19_count. Qed.
Print Assumptions C19_count.

Example C19_example : exists tr y, reachable (fixed 2) f2 2 tr y /\ size (h_map (replay tr)) = 401%nat.
Proof. destruct ex_many as (tr & y & H1 & H2 & _). by exists tr, y. Qed.

(** C20 (partial): the entries of NodeSizes sum to at least the number of nodes.
    Missing: equality, which is false. *)
Theorem C20_statistics_partial : forall K fetch n tr y sp, reachable K fetch n tr y -> bytes sp -> exists nodes leaves c,
  returns (fun n => count n (sy_tree y) sp) (nodes, leaves, c) /\ (nodes <= visits c)%nat.
Proof. exact c20_count. Qed.
Print Assumptions C20_statistics_partial.

Example C20_example : exists tr y, reachable (fixed 2) f2 2 tr y /\ bytes [] /\ size (h_map (replay tr)) = 401%nat.
Proof. destruct ex_many as (tr & y & H1 & H2 & _). exists tr, y. split_and!; [done|constructor|done]. Qed.

(** C20: two nodes, but NodeSizes sums to three: the root is counted again after each child. *)
Theorem C20_overcount_refuted : exists tr y c, reachable (fixed 2) f2 2 tr y /\
  returns (fun n => count n (sy_tree y) []) (2%nat, 3%nat, c) /\ visits c = 3%nat.
Proof. exact overcount. Qed.
Print Assumptions C20_overcount_refuted.

(** C88: the statistics exactly.  [es] lists every inner node once, with its word and the slots
    that Count comes back from ([ns_of]).  Each statistic is the sum over the nodes of what the
    node's word and memory say about it, with one term more for each of these slots. *)
Theorem C88_statistics_exact : forall K fetch n tr y, reachable K fetch n tr y -> exists nodes leaves c es,
  returns (fun n => count n (sy_tree y) []) (nodes, leaves, c) /\ node_places (sy_tree y) (map ns_place es) /\
  Forall (ns_of (sy_tree y)) es /\ stats_are (sy_tree y) c es.
Proof. exact c88_count. Qed.
Print Assumptions C88_statistics_exact.

Example C88_example : exists tr y, reachable (fixed 2) f2 2 tr y /\ size (h_map (replay tr)) = 401%nat.
Proof. destruct ex_many as (tr & y & H1 & H2 & _). by exists tr, y. Qed.

(** C40 (partial): if at most 256 keys have the prefix at the first call of Next, the iterator
    returns exactly their values, each once, and then ends, whatever happens to the tree after
    the first call ([trees] are the trees at the later calls, without any restriction).
    Missing: more than 256 keys, for which it is false. *)
Theorem C40_iterator_snapshot_partial : forall K fetch n tr y sp, reachable K fetch n tr y -> bytes sp ->
  (exists vs, listing K fetch y sp vs /\ ((length vs <= 256)%nat -> exists n0, forall n, (n0 <= n)%nat -> forall trees,
      it_along n (sy_tree y :: trees) (new_iter sp) = Ok (take (S (length trees)) vs, bool_decide (length vs <= length trees)%nat))) \/
  (exists v, stray K fetch y sp v /\ forall n trees, it_along n (sy_tree y :: trees) (new_iter sp) = Ok ([v], bool_decide (1 <= length trees)%nat)).
Proof. exact c40_snapshot. Qed.
Print Assumptions C40_iterator_snapshot_partial.

Example C40_example : exists tr y, reachable (fixed 2) f2 2 tr y /\ bytes [] /\ size (h_map (replay tr)) = 3%nat.
Proof. destruct ex_quiet as (tr & y & H1 & _ & _ & _ & _ & _ & H2 & _). exists tr, y. split_and!; [done|constructor|done]. Qed.

(** C40: 348 keys; after 261 calls of Next all keys but one are deleted; the next two calls
    return the remaining value and then an old value again (iterator.go:84-91 keeps the old
    buffer and sets its position to 0). *)
Theorem C40_iterator_repeats_refuted : exists tr y tr2 y2 vs, reachable (fixed 2) f2 2 tr y /\ reachable (fixed 2) f2 2 (tr ++ tr2) y2 /\
  Forall (fun e => is_delete e = true) tr2 /\
  (exists n0, forall n, (n0 <= n)%nat -> it_along n (replicate 261 (sy_tree y) ++ replicate 2 (sy_tree y2)) (new_iter []) = Ok (vs, false)) /\
  ~ NoDup vs.
Proof. exact iter_repeats. Qed.
Print Assumptions C40_iterator_repeats_refuted.

(** C44: MinKey, MaxKey and Count end without panic in every reachable state, for every prefix
    (with C44_calls_return for the other calls). *)
Theorem C44_queries_return : forall K fetch n tr y sp, reachable K fetch n tr y -> bytes sp ->
  (exists x, returns (fun n => min_key n (sy_tree y) sp) x) /\ (exists x, returns (fun n => max_key n (sy_tree y) sp) x) /\
  (exists x, returns (fun n => count n (sy_tree y) sp) x).
Proof. exact c44_queries. Qed.
Print Assumptions C44_queries_return.

Example C44_queries_example : exists tr y, reachable (fixed 2) f2 2 tr y /\ bytes [1] /\ h_map (replay tr) !! f2 300 = Some 300.
Proof. exact C17_example. Qed.
