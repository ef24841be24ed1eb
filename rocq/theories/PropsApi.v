(** * PropsApi: properties of the write and lookup calls, for every history of calls of any
    number of clients, each following the documented protocol ([proper]); keys come from any
    prefix-free set of byte strings shorter than 2,000,000 bytes. *)
From Verif Require Import Examples CandExample.

(** C01: Lookup returns the value of the last acknowledged Finalize of the key. *)
Theorem C01_lookup_last_value : forall K fetch n tr y aid k v,
  reachable K fetch n tr y -> proper K fetch y (CLookup aid k) -> h_map (replay tr) !! k = Some v ->
  api y (CLookup aid k) = Ok (RLookup v true, y).
Proof. exact c01_lookup. Qed.
Print Assumptions C01_lookup_last_value.

Example C01_example : exists tr y, reachable (fixed 2) f2 2 tr y /\ proper (fixed 2) f2 y (CLookup 1 (f2 300)) /\
  h_map (replay tr) !! f2 300 = Some 300.
Proof.
  destruct ex_quiet as (tr & y & Hr & Ho & Hn & _ & _ & Hm & _). exists tr, y. split_and!; [done| |done].
  cbn [proper]. rewrite Ho, Hn. split_and!; [lia|done|repeat constructor|done].
Qed.

(** C02: Lookup never fails, changes nothing, and returns either a candidate that is the
    current value of a stored key, or not found, which implies that the key is not stored.
    ([h_susp] is not empty only after deletes that overlapped another Finalize, see C36.) *)
Theorem C02_lookup_candidate : forall K fetch n tr y aid k,
  reachable K fetch n tr y -> proper K fetch y (CLookup aid k) ->
  exists v found, api y (CLookup aid k) = Ok (RLookup v found, y) /\
    (get fetch y k = if found then (if decide (fetch v = k) then Some v else None) else None) /\
    (if found then get fetch y (fetch v) = Some v /\
       (h_map (replay tr) !! fetch v = Some v \/ (h_map (replay tr) !! fetch v = None /\ fetch v ∈ h_susp (replay tr)))
     else v = 0 /\ h_map (replay tr) !! k = None).
Proof. exact c02_lookup. Qed.
Print Assumptions C02_lookup_candidate.

Example C02_example : exists tr y, reachable (fixed 2) f2 2 tr y /\ proper (fixed 2) f2 y (CLookup 0 [7; 8; 9]).
Proof.
  destruct ex_quiet as (tr & y & Hr & Ho & Hn & _). exists tr, y. split_and!; [done|].
  cbn [proper]. rewrite Ho, Hn. split_and!; [lia|done|repeat constructor|done].
Qed.

(** C03: an update whose Finalize returns true binds its key to the value modulo 2^55 and
    changes no other key; it returns false only if a delete was finalized since the Prepare
    call, and then changes nothing. *)
Theorem C03_update_one_key : forall K fetch n tr y aid fk m value b y',
  reachable K fetch n tr y -> proper K fetch y (CFinU aid fk m value) ->
  api y (CFinU aid fk m value) = Ok (RBool b, y') ->
  exists p, h_pend (replay tr) !! aid = Some p /\ (b = false -> p_del p = true) /\
    forall k, bytes k -> k <> [] ->
      get fetch y' k = if b then (if decide (k = p_key p) then Some (value mod 2 ^ 55) else get fetch y k) else get fetch y k.
Proof. exact c03_update. Qed.
Print Assumptions C03_update_one_key.

Example C03_example : exists tr y y1, reachable (fixed 3) f3 2 tr y /\ proper (fixed 3) f3 y (CFinU 1 (f3 1) true 1) /\
  api y (CFinU 1 (f3 1) true 1) = Ok (RBool true, y1).
Proof. destruct ex_busy as (tr & y & y1 & y0 & H1 & H2 & H3 & _). by exists tr, y, y1. Qed.

Example C03_example_conflict : exists tr y y1, reachable (fixed 2) f2 2 tr y /\ proper (fixed 2) f2 y (CFinU 1 (f2 5) true 5) /\
  api y (CFinU 1 (f2 5) true 5) = Ok (RBool false, y1).
Proof. destruct ex_conflict as (tr & y & y1 & H1 & H2 & H3 & _). by exists tr, y, y1. Qed.

(** C04 (partial): a delete whose Finalize returns true removes its key, unless another
    Finalize came between Prepare and Finalize (see C36); no other key changes.  It returns
    false only if another Finalize came in between, and then changes nothing.
    Missing: removal in the overlapping case, which is false (C36_lost_delete_refuted). *)
Theorem C04_delete_one_key_partial : forall K fetch n tr y aid b y',
  reachable K fetch n tr y -> proper K fetch y (CFinD aid) -> api y (CFinD aid) = Ok (RBool b, y') ->
  exists p, h_pend (replay tr) !! aid = Some p /\ (b = false -> p_over p = true) /\
    (forall k, bytes k -> k <> [] -> k <> p_key p -> get fetch y' k = get fetch y k) /\
    (b = true -> get fetch y' (p_key p) = None \/ (p_over p = true /\ get fetch y' (p_key p) = get fetch y (p_key p))) /\
    (b = false -> get fetch y' (p_key p) = get fetch y (p_key p)).
Proof. exact c04_delete. Qed.
Print Assumptions C04_delete_one_key_partial.

Example C04_example : exists tr y y0, reachable (fixed 3) f3 2 tr y /\ proper (fixed 3) f3 y (CFinD 0) /\
  api y (CFinD 0) = Ok (RBool true, y0) /\ get f3 y (f3 65537) = Some 65537 /\ get f3 y0 (f3 65537) = None.
Proof. destruct ex_busy as (tr & y & y1 & y0 & H1 & _ & _ & H2 & H3 & _ & _ & _ & H4 & H5). by exists tr, y, y0. Qed.

(** C36: a delete that reports success can be lost: another client's insert copies the
    node-256 while the delete is open (delete.go:152-164 takes no lock, delete.go:318-325
    clears the slot of the old copy). *)
Theorem C36_lost_delete_refuted : exists tr y y',
  reachable (fixed 2) f2 2 tr y /\ proper (fixed 2) f2 y (CFinD 0) /\
  api y (CFinD 0) = Ok (RBool true, y') /\ h_pend (replay tr) !! 0%nat = Some (Pend (f2 5) true false) /\
  get f2 y' (f2 5) = Some 5 /\ len (sy_tree y') = 190%Z /\ size (h_map (replay tr)) = 191%nat.
Proof. exact lost_delete. Qed.
Print Assumptions C36_lost_delete_refuted.

(** C05: PrepareUpdate reports the stored value of the key if it is stored; any candidate is
    the current value of a stored key with the same first byte; nothing changes. *)
Theorem C05_prepare_update : forall K fetch n tr y aid k found v y',
  reachable K fetch n tr y -> proper K fetch y (CPrepU aid k) ->
  api y (CPrepU aid k) = Ok (RPrepU found v, y') ->
  (forall w, get fetch y k = Some w -> found = true /\ v = w) /\
  (if found then get fetch y (fetch v) = Some v /\ K (fetch v) /\ head (fetch v) = head k else v = 0) /\
  (forall k', bytes k' -> k' <> [] -> get fetch y' k' = get fetch y k').
Proof. exact c05_prepare. Qed.
Print Assumptions C05_prepare_update.

Example C05_example : exists tr y, reachable (fixed 2) f2 2 tr y /\ proper (fixed 2) f2 y (CPrepU 0 (f2 300)) /\
  (exists r, api y (CPrepU 0 (f2 300)) = Ok r) /\ get f2 y (f2 300) = Some 300.
Proof.
  destruct ex_quiet as (tr & y & Hr & Ho & Hn & _ & _ & Hm & _ & _ & Hg & _).
  assert (Hp : proper (fixed 2) f2 y (CPrepU 0 (f2 300))) by (cbn [proper]; rewrite Ho, Hn; split_and!; [lia|done|done]).
  exists tr, y. split_and!; [done|done| |done].
  destruct (c44_api _ _ _ _ _ _ Hr Hp Ho I) as (r & y' & E). eauto.
Qed.

(** C06: PrepareDelete reports the stored value of the key if it is stored; not found leaves
    the whole state (locks, reservations) as it was; any candidate is the current value of a
    stored key. *)
Theorem C06_prepare_delete : forall K fetch n tr y aid k ov y',
  reachable K fetch n tr y -> proper K fetch y (CPrepD aid k) ->
  api y (CPrepD aid k) = Ok (RPrepD ov, y') ->
  (forall w, get fetch y k = Some w -> ov = Some w) /\
  match ov with
  | Some v => get fetch y (fetch v) = Some v /\ K (fetch v)
  | None => y' = y
  end /\
  (forall k', bytes k' -> k' <> [] -> get fetch y' k' = get fetch y k').
Proof. exact c06_prepare. Qed.
Print Assumptions C06_prepare_delete.

Example C06_example : exists tr y, reachable (fixed 2) f2 2 tr y /\ proper (fixed 2) f2 y (CPrepD 0 (f2 300)) /\
  (exists r, api y (CPrepD 0 (f2 300)) = Ok r) /\ get f2 y (f2 300) = Some 300.
Proof.
  destruct ex_quiet as (tr & y & Hr & Ho & Hn & _ & _ & Hm & _ & _ & Hg & _).
  assert (Hp : proper (fixed 2) f2 y (CPrepD 0 (f2 300))) by (cbn [proper]; rewrite Ho, Hn; split_and!; [lia|done|repeat constructor|done]).
  exists tr, y. split_and!; [done|done| |done].
  destruct (c44_api _ _ _ _ _ _ Hr Hp Ho I) as (r & y' & E). eauto.
Qed.

(** C07: aborting an update, any number of calls after its Prepare call [y -> y1], never
    panics, changes neither memory nor any binding nor any counter, and releases exactly the
    locks that the Prepare call took and the reservation. *)
Theorem C07_abort_update : forall K fetch n tr y aid k r y1 n2 tr2 y2,
  reachable K fetch n tr y -> proper K fetch y (CPrepU aid k) -> api y (CPrepU aid k) = Ok (r, y1) ->
  reachable K fetch n2 tr2 y2 -> sy_open y2 !! aid = sy_open y1 !! aid ->
  exists y3, api y2 (CAbortU aid) = Ok (RUnit, y3) /\
    same_store y2 y3 /\ sy_open y3 = delete aid (sy_open y2) /\
    (forall k, bytes k -> k <> [] -> get fetch y3 k = get fetch y2 k) /\
    (forall i, locked y3 i <-> locked y2 i /\ ~ (locked y1 i /\ ~ locked y i)) /\
    (t_rootLock (sy_tree y3) = t_rootLock (sy_tree y2) - (t_rootLock (sy_tree y1) - t_rootLock (sy_tree y))) /\
    t_resv (sy_tree y3) = <[aid := maxUint64]> (t_resv (sy_tree y2)).
Proof. exact c07_full. Qed.
Print Assumptions C07_abort_update.

Example C07_example : exists tr y, reachable (fixed 3) f3 2 tr y /\ proper (fixed 3) f3 y (CAbortU 1) /\ exists i, locked y i.
Proof. destruct ex_busy as (tr & y & y1 & y0 & H1 & _ & _ & _ & _ & H2 & _ & H3 & _). by exists tr, y. Qed.

(** C08 (partial): the same for a delete.  Missing: operations that merge the root node with
    its remaining child ([proper] excludes their Abort), for which it is false. *)
Theorem C08_abort_delete_partial : forall K fetch n tr y aid k v y1 n2 tr2 y2,
  reachable K fetch n tr y -> proper K fetch y (CPrepD aid k) ->
  api y (CPrepD aid k) = Ok (RPrepD (Some v), y1) ->
  reachable K fetch n2 tr2 y2 -> sy_open y2 !! aid = sy_open y1 !! aid -> proper K fetch y2 (CAbortD aid) ->
  exists y3, api y2 (CAbortD aid) = Ok (RUnit, y3) /\
    same_store y2 y3 /\ sy_open y3 = delete aid (sy_open y2) /\
    (forall k, bytes k -> k <> [] -> get fetch y3 k = get fetch y2 k) /\
    (forall i, locked y3 i <-> locked y2 i /\ ~ (locked y1 i /\ ~ locked y i)) /\
    (t_rootLock (sy_tree y3) = t_rootLock (sy_tree y2) - (t_rootLock (sy_tree y1) - t_rootLock (sy_tree y))) /\
    t_resv (sy_tree y3) = <[aid := maxUint64]> (t_resv (sy_tree y2)).
Proof. exact c08_full. Qed.
Print Assumptions C08_abort_delete_partial.

Example C08_example : exists tr y, reachable (fixed 3) f3 2 tr y /\ proper (fixed 3) f3 y (CAbortD 0) /\ exists i, locked y i.
Proof. destruct ex_busy as (tr & y & y1 & y0 & H1 & _ & _ & _ & _ & _ & H2 & H3 & _). by exists tr, y. Qed.

(** C08: aborting a delete that merges the root node with its remaining child panics
    (delete.go:344 swaps the arguments of unlockNodes3). *)
Theorem C08_abort_root_merge_refuted : exists tr y key op,
  reachable (fixed 2) f2 2 tr y /\ sy_open y !! 0%nat = Some (HD key op) /\ api y (CAbortD 0) = Panic BadUnlock.
Proof. exact root_merge_abort. Qed.
Print Assumptions C08_abort_root_merge_refuted.

(** C12 (partial): no call panics, reads or writes outside its memory or loops, except:
    Prepare asks for a retry only while another operation is open; Finalize panics when the
    tree's 2^21 blocks are used up, and when it recycles a node of exactly 258 slots.
    Missing: the 258 slot case, which is false (C12_recycle_refuted). *)
Theorem C12_no_panic_partial : forall K fetch n tr y c,
  reachable K fetch n tr y -> proper K fetch y c ->
  match api y c with
  | Ok _ => True
  | Retry => (match c with CPrepU _ _ | CPrepD _ _ => True | _ => False end) /\ sy_open y <> ∅
  | Panic OutOfBlocks => match c with CFinU _ _ _ _ | CFinD _ => True | _ => False end
  | Panic OutOfRange => exists aid hd, (match c with CFinU a _ _ _ => a = aid | CFinD a => a = aid | _ => False end) /\
      sy_open y !! aid = Some hd /\ fin_size hd = 258%nat
  | _ => False
  end.
Proof. exact c12_outcomes. Qed.
Print Assumptions C12_no_panic_partial.

(** C12 for keys of at most 9 bytes (which covers 64-bit integers): no exception but
    exhaustion of the blocks. *)
Theorem C12_no_panic_short_keys : forall (K : list N -> Prop) fetch n tr y c,
  (forall k, K k -> (length k <= 9)%nat) -> reachable K fetch n tr y -> proper K fetch y c ->
  match api y c with
  | Ok _ => True
  | Retry => (match c with CPrepU _ _ | CPrepD _ _ => True | _ => False end) /\ sy_open y <> ∅
  | Panic OutOfBlocks => match c with CFinU _ _ _ _ | CFinD _ => True | _ => False end
  | _ => False
  end.
Proof. exact c12_short. Qed.
Print Assumptions C12_no_panic_short_keys.

Example C12_example : (forall k, fixed 3 k -> (length k <= 9)%nat) /\
  exists tr y, reachable (fixed 3) f3 2 tr y /\ proper (fixed 3) f3 y (CFinD 0).
Proof.
  split.
  - intros k Hk. unfold fixed, fixedb in Hk. apply andb_prop in Hk as [Hk _]. apply Nat.eqb_eq in Hk. lia.
  - destruct ex_busy as (tr & y & y1 & y0 & H1 & _ & _ & H2 & _). by exists tr, y.
Qed.

(** C12: a node-256 with a prefix of 8 bytes has 258 slots; recycling it panics
    (allocator.go:181 tests [slots > len(recycler)]). *)
Theorem C12_recycle_refuted : exists tr y,
  reachable (fixed 10) f10 2 tr y /\ proper (fixed 10) f10 y (CFinU 0 [] false 256) /\
  api y (CFinU 0 [] false 256) = Panic OutOfRange.
Proof. exact recycle_panics. Qed.
Print Assumptions C12_recycle_refuted.

(** C13 (partial): as long as the tree has not been written and loaded again, Len differs from
    the number of stored keys by at most the number of acknowledged deletes that overlapped
    another Finalize.
    Missing: equality in that case, which is false (C36_lost_delete_refuted). *)
Theorem C13_len_partial : forall K fetch n tr y, reachable K fetch n tr y -> unrestarted tr ->
  (Z.of_nat (size (h_map (replay tr))) - Z.of_nat (h_nsusp (replay tr)) <= len (sy_tree y) <=
   Z.of_nat (size (h_map (replay tr))) + Z.of_nat (h_nsusp (replay tr)))%Z.
Proof. exact c13_len_same. Qed.
Print Assumptions C13_len_partial.

(** C13: with restarts, the difference is in addition what the restarts took off Len. *)
Theorem C13_len_restarts : forall K fetch n tr y, reachable K fetch n tr y ->
  (Z.of_nat (size (h_map (replay tr))) - Z.of_nat (h_nsusp (replay tr)) <= len (sy_tree y) + h_off (replay tr) <=
   Z.of_nat (size (h_map (replay tr))) + Z.of_nat (h_nsusp (replay tr)))%Z.
Proof. exact c13_len. Qed.
Print Assumptions C13_len_restarts.

Example C13_example : exists tr y, reachable (fixed 2) f2 2 tr y /\ size (h_map (replay tr)) = 3%nat /\ h_susp (replay tr) = ∅.
Proof. destruct ex_quiet as (tr & y & Hr & _ & _ & _ & _ & _ & H1 & H2 & _). by exists tr, y. Qed.

(** C21: the nodes reachable from the root (read off the memory words), the recycled ranges
    and the unused rest of every allocator's block are pairwise disjoint and inside the
    allocated blocks. *)
Theorem C21_live_memory : forall K fetch n tr y, reachable K fetch n tr y ->
  Forall (region_ok (t_nextFreeBlock (sy_tree y))) (free_regs (sy_tree y)) /\ NoDup (cover (free_regs (sy_tree y))) /\
  forall p w r, live (sy_tree y) p w -> node_reg (sy_tree y) w r ->
    region_ok (t_nextFreeBlock (sy_tree y)) r /\ (forall x, x ∈ seqN r.1 r.2 -> x ∉ cover (free_regs (sy_tree y))) /\
    (forall p' w' r', live (sy_tree y) p' w' -> node_reg (sy_tree y) w' r' -> p <> p' -> rdisj r r').
Proof. exact c21_live. Qed.
Print Assumptions C21_live_memory.

(** C21: hence a new node never overlaps a live one. *)
Theorem C21_new_node : forall K fetch n tr y aid slots a s', reachable K fetch n tr y -> (aid < naids y)%nat ->
  (1 <= slots)%nat -> N.of_nat slots <= 262142 -> new_node (sy_tree y) aid slots = Ok (a, s') ->
  forall p w r, live (sy_tree y) p w -> node_reg (sy_tree y) w r -> rdisj r (a, slots).
Proof. exact c21_new. Qed.
Print Assumptions C21_new_node.

Example C21_example : exists tr y w r w1 r1, reachable (fixed 3) f3 2 tr y /\
  live (sy_tree y) [] w /\ node_reg (sy_tree y) w r /\ live (sy_tree y) [0%nat] w1 /\ node_reg (sy_tree y) w1 r1.
Proof. exact ex_live. Qed.

(** C35 (partial): at every moment, whatever operations of other clients are open, the
    bindings a client can observe are those of the map described by the acknowledged calls.
    Missing: keys whose last acknowledged delete overlapped another Finalize may still be
    found, see C36_lost_delete_refuted. *)
Theorem C35_serialisable_partial : forall K fetch n tr y k, reachable K fetch n tr y -> bytes k -> k <> [] ->
  (forall v, h_map (replay tr) !! k = Some v -> get fetch y k = Some v) /\
  (forall v, get fetch y k = Some v -> h_map (replay tr) !! k = Some v \/ (h_map (replay tr) !! k = None /\ k ∈ h_susp (replay tr))) /\
  (k ∉ h_susp (replay tr) -> get fetch y k = h_map (replay tr) !! k).
Proof. exact c35_map. Qed.
Print Assumptions C35_serialisable_partial.

Example C35_example : exists tr y, reachable (fixed 3) f3 2 tr y /\ (exists i, locked y i) /\ bytes (f3 1) /\ f3 1 <> [].
Proof. destruct ex_busy as (tr & y & y1 & y0 & H1 & _ & _ & _ & _ & _ & _ & H2 & _). exists tr, y. split_and!; [done|done|repeat constructor|done]. Qed.

(** C41: after a set of keys was stored and deleted again, inserting a key that is a prefix
    of one of them panics, although no key is stored. *)
Theorem C41_emptied_node_refuted : exists tr y, reachable (fixed 2) f2 2 tr y /\ h_map (replay tr) = ∅ /\ h_susp (replay tr) = ∅ /\
  sy_open y = ∅ /\ api y (CPrepU 0 [0]) = Panic OutOfRange.
Proof. exact emptied_tree. Qed.
Print Assumptions C41_emptied_node_refuted.

(** C44: with no other operation open, Lookup, PrepareUpdate and PrepareDelete return.  For
    MinKey, MaxKey and Count see C44_queries_return. *)
Theorem C44_calls_return : forall K fetch n tr y c, reachable K fetch n tr y -> proper K fetch y c -> sy_open y = ∅ ->
  (match c with CLookup _ _ | CPrepU _ _ | CPrepD _ _ => True | _ => False end) -> exists r y', api y c = Ok (r, y').
Proof. exact c44_api. Qed.
Print Assumptions C44_calls_return.

Example C44_example : exists tr y, reachable (fixed 2) f2 2 tr y /\ sy_open y = ∅ /\ proper (fixed 2) f2 y (CPrepU 1 (f2 9)).
Proof.
  destruct ex_quiet as (tr & y & Hr & Ho & Hn & _). exists tr, y. split_and!; [done|done|].
  cbn [proper]. rewrite Ho, Hn. split_and!; [lia|done|done].
Qed.

(** C45: an allocator has a reservation exactly while it has an open operation, and then one
    that is not larger than the current epoch. *)
Theorem C45_reservations : forall K fetch n tr y aid, reachable K fetch n tr y -> (aid < naids y)%nat ->
  exists r, t_resv (sy_tree y) !! aid = Some r /\
    match sy_open y !! aid with None => r = maxUint64 | Some _ => r <= t_epoch (sy_tree y) end.
Proof. exact c45_resv. Qed.
Print Assumptions C45_reservations.

(** C45: when no operation is open, nothing is locked or reserved. *)
Theorem C45_idle : forall K fetch n tr y, reachable K fetch n tr y -> sy_open y = ∅ ->
  (forall i, ~ locked y i) /\ t_rootLock (sy_tree y) = 0 /\ (forall aid, ~ reserved y aid).
Proof. exact c45_idle. Qed.
Print Assumptions C45_idle.

Example C45_example : exists tr y, reachable (fixed 2) f2 2 tr y /\ sy_open y = ∅ /\ (1 < naids y)%nat.
Proof. destruct ex_quiet as (tr & y & Hr & Ho & Hn & _). exists tr, y. split_and!; [done|done|lia]. Qed.

(** C46: Lookup and PrepareDelete of the empty key panic when the root is a leaf
    (radix.go:512, delete.go:86). For all other keys C02 and C12 show that they return. *)
Theorem C46_empty_key_refuted : exists tr y, reachable (fixed 1) f1 2 tr y /\ api y (CLookup 1 []) = Panic OutOfRange /\
  api y (CPrepD 1 []) = Panic OutOfRange.
Proof. exact empty_key. Qed.
Print Assumptions C46_empty_key_refuted.

(** C47: the candidate Lookup returns need not share any byte with the key before the one
    the tree branched on: prefixes are skipped, not compared. *)
Theorem C47_far_candidate_refuted : exists tr y v, reachable (fixed 2) f2 2 tr y /\ proper (fixed 2) f2 y (CLookup 1 [9; 1]) /\
  api y (CLookup 1 [9; 1]) = Ok (RLookup v true, y) /\ f2 v = [0; 1].
Proof. exact far_candidate. Qed.
Print Assumptions C47_far_candidate_refuted.

(** C47 (partial): the key has the same byte as the candidate wherever two stored keys that begin
    like the candidate part.  In particular, if two stored keys have different first bytes, every
    candidate has the same first byte as the key (m = 0).
    Missing: bytes before which no two stored keys part, for which it is false. *)
Theorem C47_branches_partial : forall K fetch n tr y aid key v y', reachable K fetch n tr y -> proper K fetch y (CLookup aid key) ->
  api y (CLookup aid key) = Ok (RLookup v true, y') -> forall m k1 v1 k2 v2, K k1 -> get fetch y k1 = Some v1 -> K k2 -> get fetch y k2 = Some v2 ->
  take m k1 = take m (fetch v) -> take m k2 = take m (fetch v) -> k1 !! m <> k2 !! m -> key !! m = fetch v !! m.
Proof. exact c47_branches. Qed.
Print Assumptions C47_branches_partial.

Example C47_example : exists tr y v, reachable (fixed 2) f2 2 tr y /\ proper (fixed 2) f2 y (CLookup 1 [9; 1]) /\
  api y (CLookup 1 [9; 1]) = Ok (RLookup v true, y) /\ f2 v = [0; 1] /\ get f2 y [0; 0] = Some 0 /\ get f2 y [0; 1] = Some 1.
Proof. exact near_candidate. Qed.

(** C48: clients that never have two operations open at the same time get an exact map.
    [h_off] is what restarts took off Len (C24); it is 0 if there was none. *)
Theorem C48_sequential_map : forall K fetch n tr y, reachable K fetch n tr y -> sequential tr ->
  (forall k, bytes k -> k <> [] -> get fetch y k = h_map (replay tr) !! k) /\
  len (sy_tree y) = (Z.of_nat (size (h_map (replay tr))) - h_off (replay tr))%Z /\
  (unrestarted tr -> len (sy_tree y) = Z.of_nat (size (h_map (replay tr)))) /\
  (forall aid fk m v b y', proper K fetch y (CFinU aid fk m v) -> api y (CFinU aid fk m v) = Ok (RBool b, y') -> b = true) /\
  (forall aid b y', proper K fetch y (CFinD aid) -> api y (CFinD aid) = Ok (RBool b, y') -> b = true) /\
  (forall aid k, proper K fetch y (CPrepU aid k) -> sy_open y = ∅ -> exists r y', api y (CPrepU aid k) = Ok (r, y')) /\
  (forall aid k, proper K fetch y (CPrepD aid k) -> sy_open y = ∅ -> exists r y', api y (CPrepD aid k) = Ok (r, y')).
Proof. exact c48_sequential. Qed.
Print Assumptions C48_sequential_map.

Example C48_example : exists tr y, reachable (fixed 2) f2 2 tr y /\ sequential tr /\ sy_open y = ∅ /\ size (h_map (replay tr)) = 3%nat.
Proof. exact ex_sequential. Qed.
