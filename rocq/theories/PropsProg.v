(** * PropsProg: properties C61 to C64: how long interrupted calls take.
    C61, C62 and the first part of C63 hold of all histories, also of those left out in C53 to C57. *)
From Verif Require Export ProgExamples.

(** C61: from its reservation to its return a Lookup never starts again and makes at most 129 accesses to shared
    memory for each byte of the key, plus 130, whatever other clients do. *)
Theorem C61_lookup_wait_free : forall K fetch P n tr1 aid key tr2 x,
  fruns K fetch P n (tr1 ++ EResv (CLookup aid key) :: tr2) x -> Forall (fun e => ~ borders aid e) tr2 ->
  EAgain aid ∉ tr2 /\ nacts aid tr2 <= 1 + 129 * (1 + N.of_nat (length key)) /\
  exists p, fs_jobs x !! aid = Some (Running (CLookup aid key) p).
Proof. exact f_lookup_waitfree. Qed.
Print Assumptions C61_lookup_wait_free.

Example C61_example : exists tr1 tr2 x, freachable (fixed 3) f3 2 (tr1 ++ EResv (CLookup 0 (f3 1)) :: tr2) x /\
  Forall (fun e => ~ borders 0 e) tr2 /\ Exists (fun e => eacked e = true) tr2 /\ nacts 0 tr2 = 6.
Proof. exact ex_waitfree. Qed.

(** C62: between its reservation and its return a Lookup changes nothing: no word, no lock, no reservation. *)
Theorem C62_lookup_only_reads : forall K fetch P n tr x aid key p a x',
  fruns K fetch P n tr x -> fs_jobs x !! aid = Some (Running (CLookup aid key) p) -> fstep K fetch x (EAct aid a) x' ->
  sy_tree (fs_sys x') = sy_tree (fs_sys x) /\ sy_open (fs_sys x') = sy_open (fs_sys x).
Proof. exact f_lookup_reads. Qed.
Print Assumptions C62_lookup_only_reads.

Example C62_example : exists tr x, freachable (fixed 3) f3 2 tr x /\ (exists i, locked (fs_sys x) i) /\
  (exists p, fs_jobs x !! 0%nat = Some (Running (CPrepU 0 (f3 4)) p)) /\ (exists p, fs_jobs x !! 1%nat = Some (Running (CLookup 1 (f3 2)) p)).
Proof. exact ex_mid. Qed.

(** C63: each attempt of a call is bounded in its accesses. *)
Theorem C63_attempts_bounded : forall K fetch P n tr1 e tr2 x aid,
  fruns K fetch P n (tr1 ++ e :: tr2) x -> starts aid e -> Forall (fun e => ~ ends aid e) tr2 ->
  exists c p, fs_jobs x !! aid = Some (Running c p) /\ nacts aid tr2 <= 1 + 524434 * (1 + N.of_nat (length (job_key c))).
Proof. exact f_attempt_short. Qed.
Print Assumptions C63_attempts_bounded.

(** C63: an attempt is repeated only if during it another client's Finalize or Abort took place, or another client
    held a lock. *)
Theorem C63_repeats_have_a_cause_partial : forall K fetch n tr1 e tr2 x aid,
  freachable K fetch n (tr1 ++ e :: tr2 ++ [EAgain aid]) x -> starts aid e -> Forall (fun e => ~ ends aid e) tr2 ->
  Exists disturbs tr2 \/
  exists tr3 x3 j, tr3 `prefix_of` tr2 /\ freachable K fetch n ((tr1 ++ [e]) ++ tr3) x3 /\ j <> aid /\ holds_lock (fs_sys x3) j.
Proof. exact f_retry. Qed.
Print Assumptions C63_repeats_have_a_cause_partial.

Example C63_example : exists tr1 tr2 x, freachable (fixed 3) f3 2 (tr1 ++ EResv (CPrepU 1 (f3 4)) :: tr2 ++ [EAgain 1]) x /\
  Forall (fun e => ~ ends 1 e) tr2 /\ nacts 1 tr2 = 22.
Proof. exact ex_again. Qed.

(** C64: a call in progress returns, if no other client holds a lock and it runs alone from here; the number of steps is
    bounded by the length of its key. *)
Theorem C64_alone_calls_return_partial : forall K fetch n tr x aid jb,
  freachable K fetch n tr x -> fs_jobs x !! aid = Some jb -> (forall j, j <> aid -> ~ holds_lock (fs_sys x) j) ->
  exists tr' x1 c r x2, freachable K fetch n (tr ++ tr') x1 /\ Forall (by_client aid) tr' /\
    N.of_nat (length tr') <= 3 + 1048868 * (1 + N.of_nat (length (job_key c))) /\ fstep K fetch x1 (EReturn aid c r) x2.
Proof. exact f_solo. Qed.
Print Assumptions C64_alone_calls_return_partial.

Example C64_example : exists tr x p, freachable (fixed 3) f3 2 tr x /\ fs_jobs x !! 0%nat = Some (Running (CPrepU 0 (f3 4)) p) /\
  (forall j, j <> 0%nat -> ~ holds_lock (fs_sys x) j) /\ (exists q, fs_jobs x !! 1%nat = Some (Running (CLookup 1 (f3 2)) q)) /\
  forall i, ~ locked (fs_sys x) i.
Proof. exact ex_alone. Qed.
