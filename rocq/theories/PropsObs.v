(** * PropsObs: properties C72 to C76 of Iterator.Next and Counter.Count when they are interrupted between any two
    accesses to shared memory, as Lookup, PrepareUpdate and PrepareDelete are (FineRun.v, FineObs.v).  Finalize, Abort and
    FlushStats are single steps.  [oreachable] has the conditions of [freachable], see PropsFine.v. *)
From Verif Require Import FineObsExamples.

(** C72 (partial): a Next or Count in progress can make its next access, which changes nothing.  Only a Next can fail,
    with an index out of range, and only if some block is used beyond its first 4096 words (then a node may end where its
    block ends, C14).  None ever starts again.  A call that has used up the rounds it was given ([Stop Fuel]) is the
    model's limit, not the code's. *)
Theorem C72_interrupted_iterations_go_on_partial : forall K fetch n tr x aid c p,
  oreachable K fetch n tr x -> os_obs x !! aid = Some (ORunning c p) ->
  match p with
  | Ret _ | Stop Fuel => True
  | Act a _ => exists v, do_act (sy_tree (os_sys x)) a = Ok (v, sy_tree (os_sys x))
  | Stop (Crash y) => y = OutOfRange /\ (exists fuel it, c = ONext fuel it) /\ ~ compact (os_sys x)
  | Stop Again => False
  end.
Proof. exact o_goes_on. Qed.
Print Assumptions C72_interrupted_iterations_go_on_partial.

(** C72: in small trees (as in C60) they do not fail at all. *)
Theorem C72_small_trees : forall (K : list N -> Prop) fetch n tr x aid c p,
  universe K -> oruns K fetch compact n tr x -> ncalls (lookups tr) < 2 ^ 31 -> os_obs x !! aid = Some (ORunning c p) ->
  match p with
  | Ret _ | Stop Fuel => True
  | Act a _ => exists v, do_act (sy_tree (os_sys x)) a = Ok (v, sy_tree (os_sys x))
  | Stop _ => False
  end.
Proof. exact o_small. Qed.
Print Assumptions C72_small_trees.

Example C72_example : exists tr x a k, universe (fixed 3) /\ oruns (fixed 3) f3 compact 2 tr x /\ ncalls (lookups tr) < 2 ^ 31 /\
  os_obs x !! 1%nat = Some (ORunning (ONext 100 (new_iter [])) (Act a k)) /\
  (exists op, sy_open (os_sys x) !! 0%nat = Some (HD (f3 65537) op) /\ d_kind op = replaceNodeWithNode).
Proof. exact ex_obs_mid. Qed.

(** C73 (partial): Count returns the length of a list of values in order of their keys, each of which was bound to its key
    at some moment of the call, under the prefix (or it is a single value whose key shares the first byte of the prefix,
    C16).  The list has every key that was there during the whole call. *)
Theorem C73_count_partial : forall K fetch n tr aid fuel sp nodes leaves cnt x,
  oreachable K fetch n (tr ++ [OReturn aid (OCount fuel sp) (RCount nodes leaves cnt)]) x ->
  exists tr1 tr2 vis, oduring tr aid (OCount fuel sp) tr1 tr2 /\ found_in fetch tr1 aid (OCount fuel sp) tr2 sp vis /\ leaves = length vis /\
    forall k, sp `prefix_of` k -> othroughout tr1 aid (OCount fuel sp) tr2 (bound k) -> k ∈ map fetch vis.
Proof. exact o_count. Qed.
Print Assumptions C73_count_partial.

(** C73 (partial): so it is at least the number of keys that were there during the whole call, and at most the number of
    keys that were there at some moment (or 1). *)
Theorem C73_count_bounds_partial : forall K fetch n tr aid fuel sp nodes leaves cnt x,
  oreachable K fetch n (tr ++ [OReturn aid (OCount fuel sp) (RCount nodes leaves cnt)]) x ->
  exists tr1 tr2, oduring tr aid (OCount fuel sp) tr1 tr2 /\
    (forall ks, NoDup ks -> (forall k, k ∈ ks -> sp `prefix_of` k /\ othroughout tr1 aid (OCount fuel sp) tr2 (bound k)) -> (length ks <= leaves)%nat) /\
    (forall ks, (forall k v, sp `prefix_of` k -> osometime tr1 aid (OCount fuel sp) tr2 (binds k v) -> k ∈ ks) -> (leaves <= max 1 (length ks))%nat).
Proof. exact o_count_bounds. Qed.
Print Assumptions C73_count_bounds_partial.

Example C73_example : exists tr1 tr2 nodes cnt x,
  oreachable (fixed 3) f3 2 ((tr1 ++ OResv 1 (OCount 100 []) :: tr2) ++ [OReturn 1 (OCount 100 []) (RCount nodes 7 cnt)]) x /\
  oduring (tr1 ++ OResv 1 (OCount 100 []) :: tr2) 1 (OCount 100 []) tr1 tr2 /\
  othroughout tr1 1 (OCount 100 []) tr2 (bound (f3 1)) /\ othroughout tr1 1 (OCount 100 []) tr2 (bound (f3 65539)).
Proof. exact ex_count. Qed.

(** C74 (partial): a Next that has to search fetches values in order of their keys, each bound to its key at some moment
    of the call, and returns the first of them (false if there is none).  The first Next of an iteration fetches every
    key with the prefix that was there during the whole call, or all of these up to some key if there are more than 256. *)
Theorem C74_next_partial : forall K fetch n tr aid fuel it more it' x,
  oreachable K fetch n (tr ++ [OReturn aid (ONext fuel it) (RNext more it')]) x ->
  it_prefetched it !! it_pp it = None -> it_done it = false ->
  exists tr1 tr2 vis, oduring tr aid (ONext fuel it) tr1 tr2 /\ found_in fetch tr1 aid (ONext fuel it) tr2 (it_prefix it) vis /\
    it_prefix it' = it_prefix it /\ (it_done it' = false -> (256 < length vis)%nat) /\
    match vis with
    | [] => more = false
    | v :: _ => more = true /\ it_value it' = v /\
       ((it_prefetched it' = vis /\ it_pp it' = 1%nat) \/ (vis = [v] /\ it_done it' = true /\ it_prefetched it' = it_prefetched it /\ it_pp it' = O))
    end /\
    (it_resume it = [] -> forall k, it_prefix it `prefix_of` k -> othroughout tr1 aid (ONext fuel it) tr2 (bound k) ->
       k ∈ map fetch vis \/ (it_done it' = false /\ forall v, v ∈ vis -> lex_lt (fetch v) k)).
Proof. exact o_next. Qed.
Print Assumptions C74_next_partial.

Example C74_example : exists tr1 tr2 it' x,
  oreachable (fixed 3) f3 2 ((tr1 ++ OResv 1 (ONext 100 (new_iter [])) :: tr2) ++ [OReturn 1 (ONext 100 (new_iter [])) (RNext true it')]) x /\
  oduring (tr1 ++ OResv 1 (ONext 100 (new_iter [])) :: tr2) 1 (ONext 100 (new_iter [])) tr1 tr2 /\
  it_prefetched it' = [1; 2; 3; 257; 65537; 65538; 65539] /\ it_value it' = 1 /\ it_done it' = true /\
  othroughout tr1 1 (ONext 100 (new_iter [])) tr2 (bound (f3 1)) /\ othroughout tr1 1 (ONext 100 (new_iter [])) tr2 (bound (f3 65539)).
Proof. exact ex_next. Qed.

(** C74 (partial): a first Next that returns false: no key with the prefix was there during the whole call. *)
Theorem C74_nothing_found_partial : forall K fetch n tr aid fuel it it' x,
  oreachable K fetch n (tr ++ [OReturn aid (ONext fuel it) (RNext false it')]) x ->
  it_prefetched it !! it_pp it = None -> it_done it = false -> it_resume it = [] ->
  exists tr1 tr2, oduring tr aid (ONext fuel it) tr1 tr2 /\
    forall k, it_prefix it `prefix_of` k -> ~ othroughout tr1 aid (ONext fuel it) tr2 (bound k).
Proof. exact o_next_none. Qed.
Print Assumptions C74_nothing_found_partial.

Example C74_example_none : exists tr1 tr2 it' x,
  oreachable (fixed 3) f3 2 ((tr1 ++ OResv 1 (ONext 100 (new_iter [2])) :: tr2) ++ [OReturn 1 (ONext 100 (new_iter [2])) (RNext false it')]) x.
Proof. exact ex_next_none. Qed.

(** C74 (partial): the calls of Next that follow return the fetched values one after the other, and false after the last. *)
Theorem C74_next_fetched_partial : forall K fetch n tr aid fuel it more it' x,
  oreachable K fetch n (tr ++ [OReturn aid (ONext fuel it) (RNext more it')]) x ->
  match it_prefetched it !! it_pp it with
  | Some v => more = true /\ it_value it' = v /\ it_prefetched it' = it_prefetched it /\ it_pp it' = S (it_pp it) /\ it_done it' = it_done it /\
      it_prefix it' = it_prefix it /\ it_resume it' = it_resume it
  | None => it_done it = true -> more = false /\ it' = it
  end.
Proof. exact o_next_ready. Qed.
Print Assumptions C74_next_fetched_partial.

Example C74_example_fetched : exists tr it it' x,
  oreachable (fixed 3) f3 2 (tr ++ [OReturn 1 (ONext 100 it) (RNext true it')]) x /\ it_prefetched it !! it_pp it = Some 2.
Proof. exact ex_next_ready. Qed.

(** C75 (refuted): Count returns the number of keys at some moment of the call.  It returns 7, and there were 8 or 9 keys
    all the time. *)
Theorem C75_count_at_no_moment_refuted : exists fuel tr1 tr2 nodes leaves cnt x,
  oreachable (fixed 3) f3 2 ((tr1 ++ OResv 1 (OCount fuel []) :: tr2) ++ [OReturn 1 (OCount fuel []) (RCount nodes leaves cnt)]) x /\
  oduring (tr1 ++ OResv 1 (OCount fuel []) :: tr2) 1 (OCount fuel []) tr1 tr2 /\
  othroughout tr1 1 (OCount fuel []) tr2 (fun h => size (h_map h) <> leaves).
Proof. exact count_between. Qed.
Print Assumptions C75_count_at_no_moment_refuted.

(** C76 (partial): a history with interrupted iterations and counts is, for everybody else, a history with Lookups
    instead: C53 to C64 speak about the same tree, the same bindings and the same calls in progress. *)
Theorem C76_as_lookups_partial : forall K fetch n tr x,
  oreachable K fetch n tr x ->
  exists tr' js, freachable K fetch n tr' (FSys (os_sys x) js) /\ freplay tr' = oreplay tr /\
    (forall aid jb, fs_jobs (os_f x) !! aid = Some jb -> js !! aid = Some jb) /\
    (forall e, OF e ∈ tr -> e ∈ tr') /\ ncalls tr' = ncalls (lookups tr).
Proof. exact o_freach. Qed.
Print Assumptions C76_as_lookups_partial.

(** C76 (partial): in particular no other call fails, the bindings are there, and Len and the live memory are in order. *)
Theorem C76_others_partial : forall K fetch n tr x,
  oreachable K fetch n tr x ->
  ~ crashing (os_f x) /\
  (forall k, bytes k -> k <> [] ->
    (forall v, h_map (oreplay tr) !! k = Some v -> get fetch (os_sys x) k = Some v) /\
    (forall v, get fetch (os_sys x) k = Some v -> binds k v (oreplay tr)) /\
    (k ∉ h_susp (oreplay tr) -> get fetch (os_sys x) k = h_map (oreplay tr) !! k)) /\
  (Z.of_nat (size (h_map (oreplay tr))) - Z.of_nat (h_nsusp (oreplay tr)) <= len (sy_tree (os_sys x)) + h_off (oreplay tr) <=
   Z.of_nat (size (h_map (oreplay tr))) + Z.of_nat (h_nsusp (oreplay tr)))%Z /\
  live_memory (sy_tree (os_sys x)).
Proof.
  exact (fun K fetch n tr x H => conj (o_others_go_on K fetch n tr x H) (conj (fun k => o_map K fetch n tr x k H)
    (conj (o_len K fetch n tr x H) (o_live K fetch n tr x H)))).
Qed.
Print Assumptions C76_others_partial.

(** C76 (partial): and what Lookup, PrepareUpdate and PrepareDelete return was true at some moment, as in C54. *)
Theorem C76_answers_were_true_partial : forall K fetch n tr x aid c r,
  oreachable K fetch n (tr ++ [OF (EReturn aid c r)]) x ->
  exists tr1 tr2, tr = tr1 ++ OF (EResv c) :: tr2 /\ job_of c = Some aid /\ Forall (fun e => forall e', e = OF e' -> ~ borders aid e') tr2 /\
    let moment P := exists tr3, tr3 `prefix_of` tr2 /\ P (oreplay (tr1 ++ OF (EResv c) :: tr3)) in
    let (v, f) := answer r in
    (if f then v < 2 ^ 55 /\ moment (binds (fetch v) v) else v = 0) /\
    ((f = true /\ fetch v = job_key c) \/ moment (fun h => h_map h !! job_key c = None)).
Proof. exact o_answer. Qed.
Print Assumptions C76_answers_were_true_partial.

Example C76_example : exists tr x p, oreachable (fixed 3) f3 2 (tr ++ [OF (EReturn 0 (CLookup 0 (f3 2)) (RLookup 2 true))]) x /\
  os_obs x !! 1%nat = Some (ORunning (OCount 100 []) p).
Proof. exact ex_obs_answer. Qed.
