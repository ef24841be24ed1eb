(** * PropsLocks: the node locks, in every interleaving of single atomic operations.
    [lreach m s]: [s] is reached by some interleaving of [m] goroutines that lock any nodes with
    any expected generations and unlock what they locked; [lholds s t w]: goroutine [t] has
    locked a node whose lock word is [w]; [lk_done s w]: number of unlocks of [w] so far. *)
From Verif Require Import LockModelFacts.
Local Open Scope N_scope.

(** C31: no lock word is held by two goroutines, nor twice by one; no goroutine panics in an
    unlock call; when no call is in progress a word is odd exactly if somebody holds it, so
    failed lock calls leave nothing locked. *)
Theorem C31_mutual_exclusion : forall m s, lreach m s ->
  (forall t t' w, lholds s t w -> lholds s t' w -> t = t') /\
  (forall t g i j r r' w, lk_gors s !! t = Some g -> l_held g !! i = Some r -> l_held g !! j = Some r' ->
     w ∈ lwords r -> w ∈ lwords r' -> i = j) /\
  (forall t g, lk_gors s !! t = Some g -> l_pc g <> LPanic) /\
  (forall t w, lholds s t w -> gen_odd (lget (lk_mem s) w) = true) /\
  (quiet s -> forall w, gen_odd (lget (lk_mem s) w) = true -> exists t, lholds s t w).
Proof. exact locks_all. Qed.
Print Assumptions C31_mutual_exclusion.

Example C31_example : exists s, lreach 3 s /\ lholds s 0 (lock_id 50) /\ lholds s 0 (lock_id 8) /\
  (exists g, lk_gors s !! 1%nat = Some g /\ l_pc g = LBack [lock_id 77]) /\
  (exists g, lk_gors s !! 2%nat = Some g /\ l_pc g = LUnlock [lock_id 99]).
Proof. exact lock_ex. Qed.

(** C31: a lock call that is not interrupted has the effect of the one-step definitions used in
    the API model. *)
Theorem C31_uninterrupted : forall m s t g r, lreach m s -> lk_gors s !! t = Some g -> l_pc g = LIdle ->
  exists k l' held', lrun s (replicate k (t, CLock r)) = Some (LSys l' (lk_done s) (<[t := LGor LIdle held']> (lk_gors s))) /\
    match lock_req (lk_mem s) r with
    | Some l1 => held' = r :: l_held g /\ l' = l1
    | None => held' = l_held g /\ forall w, lget l' w = lget (lk_mem s) w
    end.
Proof. exact lock_alone. Qed.
Print Assumptions C31_uninterrupted.

Example C31_example_uninterrupted : exists s g, lreach 2 s /\ lk_gors s !! 0%nat = Some g /\
  L3 99 0 77 0 50 0 ∈ l_held g /\ NoDup [lock_id 99; lock_id 77; lock_id 50].
Proof. exact lock_ex3. Qed.

(** C32 (partial): lockNodes2 succeeded with a node generation that was read in an earlier state
    [s]: the number of unlocks of that lock word since [s] is a multiple of 2^31 (so it is 0
    unless the counter wrapped).  The same for the parent if its lock word is another one.
    Missing: a parent that shares the lock word of the node, for which it is false. *)
Theorem C32_unchanged_partial : forall m s s' t g n ng p pg, lreach m s -> lsteps s s' ->
  lk_gors s' !! t = Some g -> L2 n ng p pg ∈ l_held g ->
  (lget (lk_mem s) (lock_id n) = ng -> exists k, lget (lk_done s') (lock_id n) = lget (lk_done s) (lock_id n) + k * 2147483648) /\
  (p <> 0 -> lock_id p <> lock_id n -> lget (lk_mem s) (lock_id p) = pg ->
     exists k, lget (lk_done s') (lock_id p) = lget (lk_done s) (lock_id p) + k * 2147483648).
Proof. exact lockNodes2_both. Qed.
Print Assumptions C32_unchanged_partial.

Example C32_example : exists s s' g, lreach 2 s /\ lsteps s s' /\ lk_gors s' !! 0%nat = Some g /\ L2 77 4 50 0 ∈ l_held g /\
  lget (lk_mem s) (lock_id 77) = 4 /\ lget (lk_mem s) (lock_id 50) = 0 /\ lock_id 50 <> lock_id 77.
Proof. exact lock_ex2. Qed.

(** C32: node and parent share a lock word.  The parent's generation is read in [s1]; another
    goroutine locks and unlocks that word; the node's generation is read in [s2]; lockNodes2
    succeeds. *)
Theorem C32_shared_word_refuted : exists s1 s2 s3 n p ng pg g,
  lreach 2 s1 /\ lsteps s1 s2 /\ lsteps s2 s3 /\ n <> p /\ p <> 0 /\ lock_id n = lock_id p /\
  lget (lk_mem s1) (lock_id p) = pg /\ lget (lk_mem s2) (lock_id n) = ng /\
  lk_gors s3 !! 0%nat = Some g /\ L2 n ng p pg ∈ l_held g /\
  lget (lk_done s1) (lock_id p) = 0 /\ lget (lk_done s2) (lock_id p) = 1 /\ lget (lk_done s3) (lock_id p) = 1.
Proof. exact shared2_witness. Qed.
Print Assumptions C32_shared_word_refuted.

(** C37 (partial): if the three lock words are different, a successful lockNodes3 shows that
    child, node and parent were not unlocked since their generations were read (up to a multiple
    of 2^31).
    Missing: coinciding lock words, for which it is false. *)
Theorem C37_unchanged_partial : forall m s s' t g c cg n ng p pg x xg, lreach m s -> lsteps s s' ->
  p <> 0 -> NoDup [lock_id c; lock_id n; lock_id p] -> (x, xg) ∈ [(c, cg); (n, ng); (p, pg)] ->
  lget (lk_mem s) (lock_id x) = xg -> lk_gors s' !! t = Some g -> L3 c cg n ng p pg ∈ l_held g ->
  exists k, lget (lk_done s') (lock_id x) = lget (lk_done s) (lock_id x) + k * 2147483648.
Proof. exact lockNodes3_all. Qed.
Print Assumptions C37_unchanged_partial.

Example C37_example : exists s g, lreach 2 s /\ lk_gors s !! 0%nat = Some g /\ L3 99 0 77 0 50 0 ∈ l_held g /\
  NoDup [lock_id 99; lock_id 77; lock_id 50].
Proof. exact lock_ex3. Qed.

(** C37: the node shares the lock word of its child and was changed after its generation was
    read; lockNodes3 succeeds. *)
Theorem C37_node_changed_refuted : exists s1 s2 s3 c n p cg ng pg g,
  lreach 2 s1 /\ lsteps s1 s2 /\ lsteps s2 s3 /\ NoDup [c; n; p] /\ p <> 0 /\ lock_id c = lock_id n /\
  lget (lk_mem s1) (lock_id p) = pg /\ lget (lk_mem s1) (lock_id n) = ng /\ lget (lk_mem s2) (lock_id c) = cg /\
  lk_gors s3 !! 0%nat = Some g /\ L3 c cg n ng p pg ∈ l_held g /\
  lget (lk_done s1) (lock_id n) = 0 /\ lget (lk_done s2) (lock_id n) = 1 /\ lget (lk_done s3) (lock_id n) = 1.
Proof. exact shared3_node_witness. Qed.
Print Assumptions C37_node_changed_refuted.

(** C37: the same for the parent, if it shares the lock word of the child. *)
Theorem C37_parent_changed_refuted : exists s1 s2 s3 c n p cg ng pg g,
  lreach 2 s1 /\ lsteps s1 s2 /\ lsteps s2 s3 /\ NoDup [c; n; p] /\ p <> 0 /\ lock_id c = lock_id p /\
  lget (lk_mem s1) (lock_id p) = pg /\ lget (lk_mem s1) (lock_id n) = ng /\ lget (lk_mem s2) (lock_id c) = cg /\
  lk_gors s3 !! 0%nat = Some g /\ L3 c cg n ng p pg ∈ l_held g /\
  lget (lk_done s1) (lock_id p) = 0 /\ lget (lk_done s2) (lock_id p) = 1 /\ lget (lk_done s3) (lock_id p) = 1.
Proof. exact shared3_parent_witness. Qed.
Print Assumptions C37_parent_changed_refuted.
