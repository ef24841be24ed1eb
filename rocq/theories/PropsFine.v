(** * PropsFine: properties of every history in which Lookup, PrepareUpdate and PrepareDelete of any number of
    clients are interrupted between any two accesses to shared memory (FineRun.v).  Finalize, Abort and
    FlushStats are single steps.  [freachable] excludes deletes that merge a node into another node that has
    the same lock word as the removed node or its parent ([unshared]; C58 and C59 show what those do), and
    2^31 or more calls during one attempt of a Prepare call ([calm]). *)
From Verif Require Import FineExamples.

(** C53 (partial): no interrupted call fails, and none gets stuck: it always has a next step. *)
Theorem C53_interrupted_calls_go_on_partial : forall K fetch n tr x,
  freachable K fetch n tr x ->
  ~ crashing x /\
  forall aid jb, fs_jobs x !! aid = Some jb -> exists e x', fstep K fetch x e x' /\ by_client aid e.
Proof. exact (fun K fetch n tr x H => conj (f_no_crash K fetch n tr x H) (fun aid jb => f_goes_on K fetch n tr x aid jb H)). Qed.
Print Assumptions C53_interrupted_calls_go_on_partial.

Example C53_example : exists tr x, freachable (fixed 3) f3 2 tr x /\ (exists i, locked (fs_sys x) i) /\
  (exists p, fs_jobs x !! 0%nat = Some (Running (CPrepU 0 (f3 4)) p)) /\ (exists p, fs_jobs x !! 1%nat = Some (Running (CLookup 1 (f3 2)) p)).
Proof. exact ex_mid. Qed.

(** C53 (partial): a Finalize, Abort or FlushStats in such a history fails only when all memory blocks are in
    use, or when it recycles a node of exactly 258 slots (C12). *)
Theorem C53_single_steps_partial : forall K fetch n tr x c,
  freachable K fetch n tr x -> job_of c = None -> proper K fetch (fs_sys x) c ->
  match api (fs_sys x) c with
  | Ok _ => True
  | Panic OutOfBlocks => match c with CFinU _ _ _ _ | CFinD _ => True | _ => False end
  | Panic OutOfRange => exists aid hd, (match c with CFinU a _ _ _ => a = aid | CFinD a => a = aid | _ => False end) /\
      sy_open (fs_sys x) !! aid = Some hd /\ fin_size hd = 258%nat
  | _ => False
  end.
Proof. exact f_outcomes. Qed.
Print Assumptions C53_single_steps_partial.

Theorem C53_short_keys_partial : forall (K : list N -> Prop) fetch n tr x c,
  (forall k, K k -> (length k <= 9)%nat) -> freachable K fetch n tr x -> job_of c = None -> proper K fetch (fs_sys x) c ->
  match api (fs_sys x) c with
  | Ok _ => True
  | Panic OutOfBlocks => match c with CFinU _ _ _ _ | CFinD _ => True | _ => False end
  | _ => False
  end.
Proof. exact f_short. Qed.
Print Assumptions C53_short_keys_partial.

Example C53_example_single : exists tr x x', freachable (fixed 3) f3 2 tr x /\
  fstep (fixed 3) f3 x (ECall (CFinU 0 (f3 1) true 16777217) (RBool true)) x' /\ (forall k, fixed 3 k -> (length k <= 9)%nat).
Proof.
  destruct ex_rmw_u as (tr1 & tr2 & x & x' & H1 & _ & _ & _ & H2). exists (tr1 ++ EReturn 0 (CPrepU 0 (f3 1)) (RPrepU true 1) :: tr2), x, x'. split_and!; try done.
  unfold fixed, fixedb. intros k Hk. apply andb_prop in Hk as [Hk _]. apply Nat.eqb_eq in Hk. lia.
Qed.

(** C54 (partial): what an interrupted Lookup, PrepareUpdate or PrepareDelete returns was true at some moment
    between its start and its return: if it returns value v, then v was bound to its key at some moment; if
    the key of v is not the key asked for, or nothing was found, then the key asked for was absent at some moment. *)
Theorem C54_answers_were_true_partial : forall K fetch n tr x aid c r,
  freachable K fetch n (tr ++ [EReturn aid c r]) x ->
  exists tr1 tr2, tr = tr1 ++ EResv c :: tr2 /\ job_of c = Some aid /\ Forall (fun e => ~ borders aid e) tr2 /\
    let (v, f) := answer r in
    (if f then v < 2 ^ 55 /\ sometime tr1 c tr2 (binds (fetch v) v) else v = 0) /\
    ((f = true /\ fetch v = job_key c) \/ sometime tr1 c tr2 (fun h => h_map h !! job_key c = None)).
Proof. exact f_answer. Qed.
Print Assumptions C54_answers_were_true_partial.

(** The Lookup in this history returns a value that has been replaced before it returns. *)
Example C54_example : exists tr x, freachable (fixed 3) f3 2 (tr ++ [EReturn 0 (CLookup 0 (f3 1)) (RLookup 1 true)]) x /\
  h_map (freplay tr) !! f3 1 = Some 16777217.
Proof. exact ex_stale. Qed.

(** C55 (partial): at every moment of such a history the tree holds exactly the bindings described by the
    acknowledged calls (up to keys whose delete overlapped another Finalize, C36). *)
Theorem C55_map_partial : forall K fetch n tr x k,
  freachable K fetch n tr x -> bytes k -> k <> [] ->
  (forall v, h_map (freplay tr) !! k = Some v -> get fetch (fs_sys x) k = Some v) /\
  (forall v, get fetch (fs_sys x) k = Some v -> binds k v (freplay tr)) /\
  (k ∉ h_susp (freplay tr) -> get fetch (fs_sys x) k = h_map (freplay tr) !! k).
Proof. exact f_map. Qed.
Print Assumptions C55_map_partial.

(** C55 (partial): a Finalize of an update binds one key, or changes nothing and returns false. *)
Theorem C55_update_partial : forall K fetch n tr x aid fk m value b x',
  freachable K fetch n tr x -> fstep K fetch x (ECall (CFinU aid fk m value) (RBool b)) x' ->
  exists p, h_pend (freplay tr) !! aid = Some p /\ (b = false -> p_del p = true) /\
    forall k, bytes k -> k <> [] -> get fetch (fs_sys x') k =
      if b then (if decide (k = p_key p) then Some (value mod 2 ^ 55) else get fetch (fs_sys x) k) else get fetch (fs_sys x) k.
Proof. exact f_update. Qed.
Print Assumptions C55_update_partial.

(** C55 (partial): a Finalize of a delete removes one key (unless another Finalize overlapped), or changes nothing and returns false. *)
Theorem C55_delete_partial : forall K fetch n tr x aid b x',
  freachable K fetch n tr x -> fstep K fetch x (ECall (CFinD aid) (RBool b)) x' ->
  exists p, h_pend (freplay tr) !! aid = Some p /\ (b = false -> p_over p = true) /\
    (forall k, bytes k -> k <> [] -> k <> p_key p -> get fetch (fs_sys x') k = get fetch (fs_sys x) k) /\
    (b = true -> get fetch (fs_sys x') (p_key p) = None \/
      (p_over p = true /\ get fetch (fs_sys x') (p_key p) = get fetch (fs_sys x) (p_key p))) /\
    (b = false -> get fetch (fs_sys x') (p_key p) = get fetch (fs_sys x) (p_key p)).
Proof. exact f_delete. Qed.
Print Assumptions C55_delete_partial.

Example C55_example : exists tr x x', freachable (fixed 3) f3 2 tr x /\
  fstep (fixed 3) f3 x (ECall (CFinU 0 (f3 1) true 16777217) (RBool true)) x'.
Proof. destruct ex_rmw_u as (tr1 & tr2 & x & x' & H1 & _ & _ & _ & H2). by eexists _, x, x'. Qed.

Example C55_example_delete : exists tr x x', freachable (fixed 3) f3 2 tr x /\ fstep (fixed 3) f3 x (ECall (CFinD 0) (RBool true)) x'.
Proof. destruct ex_rmw_d as (tr1 & tr2 & x & x' & H1 & _ & _ & H2 & _). by eexists _, x, x'. Qed.

(** C56 (partial): at every moment of such a history the number of keys, the live memory, the reservations and
    the locks are in order. *)
Theorem C56_len_partial : forall K fetch n tr x,
  freachable K fetch n tr x ->
  (Z.of_nat (size (h_map (freplay tr))) - Z.of_nat (h_nsusp (freplay tr)) <= len (sy_tree (fs_sys x)) + h_off (freplay tr) <=
   Z.of_nat (size (h_map (freplay tr))) + Z.of_nat (h_nsusp (freplay tr)))%Z.
Proof. exact f_len. Qed.
Print Assumptions C56_len_partial.

Theorem C56_live_memory_partial : forall K fetch n tr x, freachable K fetch n tr x -> live_memory (sy_tree (fs_sys x)).
Proof. exact f_live. Qed.
Print Assumptions C56_live_memory_partial.

Theorem C56_reservations_partial : forall K fetch n tr x aid,
  freachable K fetch n tr x -> (aid < naids (fs_sys x))%nat ->
  exists r, t_resv (sy_tree (fs_sys x)) !! aid = Some r /\
    match sy_open (fs_sys x) !! aid with None => r = maxUint64 | Some _ => r <= t_epoch (sy_tree (fs_sys x)) end.
Proof. exact f_resv. Qed.
Print Assumptions C56_reservations_partial.

Theorem C56_idle_partial : forall K fetch n tr x,
  freachable K fetch n tr x -> sy_open (fs_sys x) = ∅ ->
  (forall i, ~ locked (fs_sys x) i) /\ t_rootLock (sy_tree (fs_sys x)) = 0 /\ (forall aid, ~ reserved (fs_sys x) aid).
Proof. exact f_idle. Qed.
Print Assumptions C56_idle_partial.

Example C56_example : exists tr x, freachable (fixed 3) f3 2 tr x /\ sy_open (fs_sys x) = ∅ /\ size (h_map (freplay tr)) = 8%nat.
Proof. exact ex_done. Qed.

(** C57 (partial): C51 and C52 for interrupted Prepare calls. *)
Theorem C57_update_partial : forall K fetch n tr1 aid key found v tr2 x fk m value x',
  freachable K fetch n (tr1 ++ EReturn aid (CPrepU aid key) (RPrepU found v) :: tr2) x ->
  Forall (fun e => fclient e <> Some aid) tr2 ->
  fstep K fetch x (ECall (CFinU aid fk m value) (RBool true)) x' ->
  get fetch (fs_sys x) key = (if found then (if decide (fetch v = key) then Some v else None) else None) /\
  get fetch (fs_sys x') key = Some (value mod 2 ^ 55).
Proof. exact f_rmw_update. Qed.
Print Assumptions C57_update_partial.

Example C57_example : exists tr1 tr2 x x', freachable (fixed 3) f3 2 (tr1 ++ EReturn 0 (CPrepU 0 (f3 1)) (RPrepU true 1) :: tr2) x /\
  Forall (fun e => fclient e <> Some 0%nat) tr2 /\ Exists (fun e => eacked e = true) tr2 /\ EAgain 1 ∈ tr2 /\
  fstep (fixed 3) f3 x (ECall (CFinU 0 (f3 1) true 16777217) (RBool true)) x'.
Proof. exact ex_rmw_u. Qed.

Theorem C57_delete_partial : forall K fetch n tr1 aid key v tr2 tr3 x x',
  freachable K fetch n (tr1 ++ EResv (CPrepD aid key) :: tr2 ++ EReturn aid (CPrepD aid key) (RPrepD (Some v)) :: tr3) x ->
  Forall (fun e => ~ borders aid e) tr2 -> Forall (fun e => fclient e <> Some aid) tr3 ->
  fstep K fetch x (ECall (CFinD aid) (RBool true)) x' ->
  (get fetch (fs_sys x) key = Some v /\ get fetch (fs_sys x') key = None) \/
  (Exists (fun e => eacked e = true) (tr2 ++ tr3) /\ get fetch (fs_sys x') key = get fetch (fs_sys x) key).
Proof. exact f_rmw_delete. Qed.
Print Assumptions C57_delete_partial.

Example C57_example_delete : exists tr1 tr2 x x',
  freachable (fixed 3) f3 2 (tr1 ++ EResv (CPrepD 0 (f3 65537)) :: tr2 ++ EReturn 0 (CPrepD 0 (f3 65537)) (RPrepD (Some 65537)) :: []) x /\
  Forall (fun e => ~ borders 0 e) tr2 /\ Exists (fun e => eacked e = true) tr2 /\
  fstep (fixed 3) f3 x (ECall (CFinD 0) (RBool true)) x' /\ get f3 (fs_sys x) (f3 65537) = Some 65537.
Proof. exact ex_rmw_d. Qed.

(** C58 (refuted): an acknowledged insert stays.  Two clients; the root node and its child use the same lock
    word; a PrepareDelete that was interrupted removes a subtree that has gained a key meanwhile. *)
Theorem C58_acknowledged_insert_lost_refuted : exists tr x, freach_any (fixed 4) f4 2 tr x /\ fs_jobs x = ∅ /\ sy_open (fs_sys x) = ∅ /\
  h_map (freplay tr) !! [2; 0; 0; 0] = Some 33554432 /\ get f4 (fs_sys x) [2; 0; 0; 0] = None.
Proof. exact clash_loses. Qed.
Print Assumptions C58_acknowledged_insert_lost_refuted.

(** C59 (refuted): memory of live nodes is not reused.  A node and its grandchild use the same lock word; an
    interrupted delete recycles a node that is still in the tree; later the slots are used again and a key
    that no delete was ever prepared for vanishes. *)
Theorem C59_live_node_recycled_refuted : exists tr x, freach_any (fixed 4) f4 2 tr x /\ fs_jobs x = ∅ /\ sy_open (fs_sys x) = ∅ /\
  h_map (freplay tr) !! [0; 0; 5; 0] = Some 1280 /\ [0; 0; 5; 0] ∉ h_susp (freplay tr) /\
  get f4 (fs_sys x) [0; 0; 5; 0] = None.
Proof. exact clash_corrupts. Qed.
Print Assumptions C59_live_node_recycled_refuted.

(** C60: histories in which all memory handed out is in the first 4096 words of its block, and with fewer than 2^31
    Finalize, Abort and FlushStats calls: C53 to C57 hold of them, with no condition on locks. *)
Theorem C60_small_trees : forall K fetch n tr x,
  universe K -> fruns K fetch compact n tr x -> ncalls tr < 2 ^ 31 -> freachable K fetch n tr x.
Proof. exact compact_freach. Qed.
Print Assumptions C60_small_trees.

(** C60: in such a history no call fails or gets stuck, and all acknowledged bindings are there. *)
Theorem C60_small_trees_hold : forall K fetch n tr x,
  universe K -> fruns K fetch compact n tr x -> ncalls tr < 2 ^ 31 ->
  ~ crashing x /\
  (forall aid jb, fs_jobs x !! aid = Some jb -> exists e x', fstep K fetch x e x' /\ by_client aid e) /\
  forall k, bytes k -> k <> [] ->
    (forall v, h_map (freplay tr) !! k = Some v -> get fetch (fs_sys x) k = Some v) /\
    (k ∉ h_susp (freplay tr) -> get fetch (fs_sys x) k = h_map (freplay tr) !! k).
Proof. exact compact_holds. Qed.
Print Assumptions C60_small_trees_hold.

Example C60_example : exists tr x, universe (fixed 3) /\ fruns (fixed 3) f3 compact 2 tr x /\ ncalls tr < 2 ^ 31 /\
  (exists op, sy_open (fs_sys x) !! 0%nat = Some (HD (f3 65537) op) /\ d_kind op = replaceNodeWithNode) /\
  (exists p, fs_jobs x !! 1%nat = Some (Running (CPrepU 1 (f3 5)) p)).
Proof. exact ex_compact. Qed.
