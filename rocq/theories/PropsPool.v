(** * PropsPool: the allocator pool, in every interleaving of single atomic operations.
    [preach adm n m s]: [s] is reached by some interleaving of [m] goroutines over [n]
    allocators in which goroutine [t] starts the call [c] only if [adm t c]. *)
From Verif Require Import PoolFacts.

(** C28: with any number of goroutines that only get and release allocators, no allocator is
    ever held twice. *)
Theorem C28_one_holder : forall n m s, preach (fun _ c => client c) n m s -> exclusive s.
Proof. exact pool_clients. Qed.
Print Assumptions C28_one_holder.

Example C28_example : exists s, preach (fun _ c => client c) 2 3 s /\ holds s 0 0 /\ holds s 2 1 /\
  exists g, p_gors s !! 1 = Some g /\ g_pc g = PCas 0 KClient.
Proof. exact pool_ex_clients. Qed.

(** C29 (partial): the same when goroutine [a], and no other, also calls Stop, Start and Len.
    Missing: two goroutines that call them, for which it is false. *)
Theorem C29_one_administrator_partial : forall a n m s, preach (one_admin a) n m s -> exclusive s.
Proof. exact pool_one_admin. Qed.
Print Assumptions C29_one_administrator_partial.

Example C29_example : exists s, preach (one_admin 1) 2 3 s /\ p_stopped s = true /\ collecting s 1 /\ holds s 0 0.
Proof. exact pool_ex_admin. Qed.

(** C29: two goroutines in Len at the same time put one allocator in the hands of two clients. *)
Theorem C29_concurrent_len_refuted : exists s t t' i,
  preach (fun _ c => match c with QLen => True | c => client c end) 1 4 s /\ t <> t' /\ holds s t i /\ holds s t' i.
Proof. exact pool_two_lens. Qed.
Print Assumptions C29_concurrent_len_refuted.

(** C29: so does Start while another goroutine is in Stop. *)
Theorem C29_start_during_stop_refuted : exists s t t' i,
  preach (fun _ c => match c with QLen => False | _ => True end) 1 4 s /\ t <> t' /\ holds s t i /\ holds s t' i.
Proof. exact pool_stop_start. Qed.
Print Assumptions C29_start_during_stop_refuted.

(** C30: Stop, then Len, by one goroutine: the tree runs again and allocators can be taken. *)
Theorem C30_len_restarts_refuted : exists s s' s'', preach (one_admin 0) 1 1 s /\ idle s 0 /\ p_stopped s = true /\
  prun s (replicate 6 (0, QLen)) = Some s' /\ idle s' 0 /\ p_stopped s' = false /\
  prun s' (replicate 3 (0, QGet)) = Some s'' /\ holds s'' 0 0.
Proof. exact pool_len_restarts. Qed.
Print Assumptions C30_len_restarts_refuted.

(** C30 (partial): when Len (or Start) of the only administrator returns, the tree runs: Len on
    a running tree leaves it running.
    Missing: Len on a stopped tree, for which the property is false. *)
Theorem C30_len_keeps_running_partial : forall a n m s c s', preach (one_admin a) n m s ->
  in_start s a -> pstep s a c = Some s' -> idle s' a -> p_stopped s' = false.
Proof. exact pool_len_runs. Qed.
Print Assumptions C30_len_keeps_running_partial.

Example C30_example : exists s s', preach (one_admin 1) 2 3 s /\ in_start s 1 /\ pstep s 1 QLen = Some s' /\ idle s' 1.
Proof. exact pool_ex_len. Qed.

(** C49 (partial): with one administrator, while the tree is stopped and Stop is not still
    collecting, nobody holds an allocator.
    Missing: several goroutines calling Stop, for which it is false. *)
Theorem C49_stopped_partial : forall a n m s, preach (one_admin a) n m s -> p_stopped s = true -> ~ collecting s a ->
  forall t i, ~ holds s t i.
Proof. exact pool_stopped. Qed.
Print Assumptions C49_stopped_partial.

Example C49_example : exists s, preach (one_admin 1) 2 3 s /\ p_stopped s = true /\ ~ collecting s 1 /\ idle s 1 /\
  exists g, p_gors s !! 0 = Some g /\ g_pc g = PLoad 1 KClient.
Proof. exact pool_ex_stopped. Qed.

(** C49: a second Stop returns while goroutine 0 holds an allocator. *)
Theorem C49_stop_returns_early_refuted : exists s s' t, preach (fun _ _ => True) 1 3 s /\
  p_gors s !! t = Some (Gor (PStop false) [] []) /\ pstep s t QStop = Some s' /\ idle s' t /\ p_stopped s' = true /\ holds s' 0 0.
Proof. exact pool_stop_early. Qed.
Print Assumptions C49_stop_returns_early_refuted.

(** C50: a goroutine that calls GetAllocator when some allocator is free, and is not
    interrupted, has an allocator (one that was free) after at most 2n+3 atomic steps. *)
Theorem C50_get_returns : forall s t g j, p_gors s !! t = Some g -> g_pc g = PIdle -> p_slots s !! j = Some false ->
  exists k s' i, k <= 2 * length (p_slots s) + 3 /\ prun s (replicate k (t, QGet)) = Some s' /\ idle s' t /\
    p_slots s !! i = Some false /\ p_slots s' = <[i := true]> (p_slots s) /\ holds s' t i.
Proof. exact pool_get_returns. Qed.
Print Assumptions C50_get_returns.

Example C50_example : exists s g, p_gors s !! 1 = Some g /\ g_pc g = PIdle /\ p_slots s !! 2 = Some false /\ p_slots s !! 0 = Some true.
Proof. exists (Pool [true; true; false] false [Gor PIdle [0; 1] []; Gor PIdle [] []]). eexists. repeat split. Qed.
