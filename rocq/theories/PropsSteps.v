(** * PropsSteps: all calls, Finalize and Abort included, are interrupted between any two accesses to shared memory. *)
From Verif Require Import StepExamples.

(** C67: in a history of inserts of different keys, an insert is acknowledged and its key is not found once all calls have
    returned: a walk that passed a node locked by another client takes the unchanged, odd generation for a sign that
    nothing happened, although the node has been replaced. *)
Theorem C67_acknowledged_insert_lost_refuted : exists tr x k v, wruns (fixed 4) f4 child_known 3 tr x /\ idle x /\ only_inserts tr /\ NoDup (upd_keys tr) /\
  h_map (wreplay tr) !! k = Some v /\ get f4 (fs_sys (ws_f x)) k = None.
Proof. exact insert_lost. Qed.
Print Assumptions C67_acknowledged_insert_lost_refuted.

(** C67: later the memory of a node in the tree is used for other nodes: a key is no longer found, although it was inserted
    and acknowledged, and no other call with that key was ever made. *)
Theorem C67_untouched_key_lost_refuted : exists tr x k v, wruns (fixed 4) f4 child_known 3 tr x /\ idle x /\
  (forall e1 e2 i j, tr !! i = Some e1 -> tr !! j = Some e2 -> writes_key k e1 -> writes_key k e2 -> i = j) /\
  h_map (wreplay tr) !! k = Some v /\ get f4 (fs_sys (ws_f x)) k = None.
Proof. exact untouched_key_lost. Qed.
Print Assumptions C67_untouched_key_lost_refuted.

(** C68: a delete (all its steps in a row, no other client in between) is acknowledged, and its key is still found once all
    calls have returned, although it was inserted only once, before the delete.  Another client was copying the
    256-slot node of the key. *)
Theorem C68_uninterrupted_delete_lost_refuted : exists tr1 tr2 tr3 x k v,
  wruns (fixed 4) f4 child_known 3 (tr1 ++ [WF (EBegin (CPrepD 1%nat k))] ++ tr2 ++ [WReturn 1 (CFinD 1%nat) (RBool true)] ++ tr3) x /\ idle x /\
  Forall (steps_of 1) tr2 /\ h_map (wreplay tr1) !! k = Some v /\
  NoDup (upd_keys (tr1 ++ [WF (EBegin (CPrepD 1%nat k))] ++ tr2 ++ [WReturn 1 (CFinD 1%nat) (RBool true)] ++ tr3)) /\
  get f4 (fs_sys (ws_f x)) k = Some v.
Proof. exact delete_lost. Qed.
Print Assumptions C68_uninterrupted_delete_lost_refuted.

(** C69: no unlock fails ("unlock of unlocked node"), in any history. *)
Theorem C69_unlocks_succeed : forall K fetch n tr x aid c i k, wruns K fetch child_known n tr x ->
  ws_fin x !! aid = Some (c, WDo (WUnlock i) k) -> exists r, do_wact (sy_tree (fs_sys (ws_f x))) (WUnlock i) = Ok r.
Proof. exact unlock_fine. Qed.
Print Assumptions C69_unlocks_succeed.

Example C69_unlock_example : exists tr x c i k, wruns (fixed 4) f4 child_known 3 tr x /\ ws_fin x !! 0%nat = Some (c, WDo (WUnlock i) k).
Proof. exact ex_unlock. Qed.

(** C69: operations of different clients that wait for their Finalize or Abort have no node in common, and at most
    one of them has the root leaf. *)
Theorem C69_exclusive : forall K fetch n tr x a1 h1 a2 h2, wruns K fetch child_known n tr x -> parked x a1 h1 -> parked x a2 h2 -> a1 <> a2 ->
  (forall nd, holds h1 nd -> ~ holds h2 nd) /\ (holds_root h1 -> ~ holds_root h2).
Proof. exact parked_exclusive. Qed.
Print Assumptions C69_exclusive.

Example C69_exclusive_example : exists tr x h0 h1, wruns (fixed 4) f4 child_known 3 tr x /\ parked x 0 h0 /\ parked x 1 h1 /\
  holds h0 4 /\ holds h0 10 /\ holds h1 17 /\ holds h1 20.
Proof. exact ex_parked. Qed.

(** C69: when all calls have returned and no operation is open, nothing is locked. *)
Theorem C69_nothing_stays_locked : forall K fetch n tr x, wruns K fetch child_known n tr x -> idle x ->
  (forall i, locked (fs_sys (ws_f x)) i -> False) /\ t_rootLock (sy_tree (fs_sys (ws_f x))) = 0.
Proof. exact quiescent. Qed.
Print Assumptions C69_nothing_stays_locked.

(** C70: when all calls have returned and no operation is open, Len is the number of acknowledged inserts of keys that
    Prepare had not found, minus the number of acknowledged deletes. *)
Theorem C70_len_is_acknowledged : forall K fetch n tr x, wruns K fetch child_known n tr x -> idle x ->
  len (sy_tree (fs_sys (ws_f x))) = (tally tr).2.
Proof. exact len_acknowledged. Qed.
Print Assumptions C70_len_is_acknowledged.

Example C70_example : exists tr x, wruns (fixed 4) f4 child_known 3 tr x /\ idle x /\ (tally tr).2 = 7%Z.
Proof. exact ex_quiet. Qed.

(** C61, C62 and C63 also hold when Finalize and Abort are interrupted: a Lookup never starts again and the number of its
    accesses is bounded, it changes nothing, and an attempt of any call is bounded. *)
Theorem C61_lookup_wait_free_steps : forall K fetch P n tr1 aid key tr2 x,
  wruns K fetch P n (tr1 ++ WF (EResv (CLookup aid key)) :: tr2) x -> Forall (fun e => ~ wborders aid e) tr2 ->
  WF (EAgain aid) ∉ tr2 /\ wnacts aid tr2 <= 1 + 129 * (1 + N.of_nat (length key)) /\
  exists p, fs_jobs (ws_f x) !! aid = Some (Running (CLookup aid key) p).
Proof. exact w_lookup_waitfree. Qed.
Print Assumptions C61_lookup_wait_free_steps.

Example C61_steps_example : exists tr1 tr2 x, wruns (fixed 4) f4 any 3 (tr1 ++ WF (EResv (CLookup 0 (f4 1))) :: tr2) x /\
  Forall (fun e => ~ wborders 0 e) tr2 /\ wnacts 0 tr2 = 7 /\ fnacts 1 tr2 = 3.
Proof. exact ex_wlook. Qed.

Theorem C62_lookup_only_reads_steps : forall K fetch P n tr x aid key p a x',
  wruns K fetch P n tr x -> fs_jobs (ws_f x) !! aid = Some (Running (CLookup aid key) p) -> wstep K fetch x (WF (EAct aid a)) x' ->
  sy_tree (fs_sys (ws_f x')) = sy_tree (fs_sys (ws_f x)) /\ sy_open (fs_sys (ws_f x')) = sy_open (fs_sys (ws_f x)) /\ ws_fin x' = ws_fin x.
Proof. exact w_lookup_reads. Qed.
Print Assumptions C62_lookup_only_reads_steps.

Example C62_steps_example : exists tr x, wruns (fixed 4) f4 any 3 tr x /\
  (exists p, fs_jobs (ws_f x) !! 0%nat = Some (Running (CLookup 0 (f4 1)) p)) /\ (exists q, ws_fin x !! 1%nat = Some q).
Proof. exact ex_wmid. Qed.

Theorem C63_attempts_bounded_steps : forall K fetch P n tr1 e tr2 x aid,
  wruns K fetch P n (tr1 ++ e :: tr2) x -> wstarts aid e -> Forall (fun e => ~ wends aid e) tr2 ->
  exists c p, fs_jobs (ws_f x) !! aid = Some (Running c p) /\ wnacts aid tr2 <= 1 + 524434 * (1 + N.of_nat (length (job_key c))).
Proof. exact w_attempt_short. Qed.
Print Assumptions C63_attempts_bounded_steps.

Example C63_steps_example : exists tr1 tr2 x, wruns (fixed 4) f4 any 3 (tr1 ++ WF (EResv (CPrepU 2 (f4 16777218))) :: tr2) x /\
  Forall (fun e => ~ wends 2 e) tr2 /\ wnacts 2 tr2 = 19 /\ fnacts 1 tr2 = 3.
Proof. exact ex_wupd. Qed.

(** C71: Finalize and Abort make a bounded number of accesses to shared memory, whatever other clients do: they read the
    reservation of each allocator at most twice, and the rest is bounded by the size of a block. *)
Theorem C71_finalize_wait_free : forall K fetch P n tr1 c tr2 x aid,
  wruns K fetch P n (tr1 ++ WBegin c :: tr2) x -> fin_client c = Some aid -> Forall (fun e => ~ wreturns aid e) tr2 ->
  (exists p, ws_fin x !! aid = Some (c, p)) /\ fnacts aid tr2 <= 1048876 + 2 * N.of_nat (nresv x).
Proof. exact w_finish_short. Qed.
Print Assumptions C71_finalize_wait_free.

Example C71_example : exists tr1 fk m tr2 x, wruns (fixed 4) f4 any 3 (tr1 ++ WBegin (CFinU 1 fk m 3) :: tr2) x /\
  Forall (fun e => ~ wreturns 1 e) tr2 /\ fnacts 1 tr2 = 9 /\ wnacts 0 tr2 = 7.
Proof. exact ex_wfin. Qed.
