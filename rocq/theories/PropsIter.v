(** * PropsIter: iterations that run while the tree changes.  The iterator's calls of Next are single steps; between
    them any number of calls of other clients take place. *)
From Verif Require Import IterExamples.

(** C65: every value that Next returns was the stored value of its key at that call or an earlier one of the same
    iteration (the iterator reads up to 512 values ahead), and the key has the prefix, or no key had it then (C16).
    [ys] are the states at the calls; they can be any reachable states. *)
Theorem C65_values_were_stored : forall K fetch ys sp fuel vs e, Forall (fun y => exists n tr, reachable K fetch n tr y) ys -> bytes sp ->
  it_along fuel (map sy_tree ys) (new_iter sp) = Ok (vs, e) -> forall i v, vs !! i = Some v ->
  exists j y, (j <= i)%nat /\ ys !! j = Some y /\ K (fetch v) /\ get fetch y (fetch v) = Some v /\ (sp `prefix_of` fetch v \/ stray K fetch y sp v).
Proof. exact iter_stored. Qed.
Print Assumptions C65_values_were_stored.

(** C65: Next returns without panic at every call, whatever the tree looks like at the other calls, if no node ends at
    the last word of a block. *)
Theorem C65_next_returns : forall K fetch ys sp, Forall (fun y => (exists n tr, reachable K fetch n tr y) /\ room (sy_tree y)) ys -> bytes sp ->
  exists x, returns (fun n => it_along n (map sy_tree ys) (new_iter sp)) x.
Proof. exact iter_returns. Qed.
Print Assumptions C65_next_returns.

Example C65_example : exists y y2 vs, Forall (fun z => (exists n tr, reachable (fixed 4) k4 n tr z) /\ room (sy_tree z)) (replicate 100 y ++ replicate 171 y2) /\
  it_along 100 (map sy_tree (replicate 100 y ++ replicate 171 y2)) (new_iter []) = Ok (vs, true) /\
  get k4 y [2; 0; 0; 0] = None /\ at4 2 0 0 0 ∈ vs.
Proof. exact ex_stored. Qed.

(** C66 (partial): an iterator over the whole tree.  While it runs, other clients insert and replace, but no delete is
    acknowledged and the tree is not restarted.  A key that was in the tree when the iterator was created is returned
    before Next returns false; before that, all keys returned are in order and the key is greater than them.
    [l] are the moments of the calls of Next, each with the calls since the moment before.
    Missing: deletes, and iterators with a prefix; both are refuted below. *)
Theorem C66_stable_keys_returned_partial : forall K fetch n tr y l fuel vs e k v0, reachable K fetch n tr y -> meanwhile K fetch n tr l ->
  it_along fuel (map (fun x => sy_tree x.2) l) (new_iter []) = Ok (vs, e) ->
  K k -> get fetch y k = Some v0 ->
  k ∈ map fetch vs \/ (e = false /\ StronglySorted lex_lt (map fetch vs) /\ Forall (fun v => lex_lt (fetch v) k) vs).
Proof. exact iter_stable. Qed.
Print Assumptions C66_stable_keys_returned_partial.

(** C66 (partial): if moreover the greatest child of the root is a leaf at every call (see C15), all keys are returned
    in order and none twice. *)
Theorem C66_in_order_partial : forall K fetch n tr y l fuel vs e, reachable K fetch n tr y -> meanwhile K fetch n tr l ->
  Forall (fun x => last_leaf (sy_tree x.2)) l ->
  it_along fuel (map (fun x => sy_tree x.2) l) (new_iter []) = Ok (vs, e) -> StronglySorted lex_lt (map fetch vs).
Proof. exact iter_ordered. Qed.
Print Assumptions C66_in_order_partial.

Example C66_example : exists tr y tr2 y2 vs, reachable (fixed 4) k4 2 tr y /\ Exists (fun e => acked e.2 = true) tr2 /\
  meanwhile (fixed 4) k4 2 tr (replicate 100 ([], y) ++ (tr2, y2) :: replicate 170 ([], y2)) /\
  Forall (fun x => last_leaf (sy_tree x.2) /\ room (sy_tree x.2)) (replicate 100 ([] : list (call * reply), y) ++ (tr2, y2) :: replicate 170 ([], y2)) /\
  it_along 100 (map (fun x => sy_tree x.2) (replicate 100 ([] : list (call * reply), y) ++ (tr2, y2) :: replicate 170 ([], y2))) (new_iter []) = Ok (vs, true) /\
  get k4 y [1; 9; 0; 0] = Some (at4 1 9 0 0) /\ at4 1 9 0 0 ∈ vs /\ get k4 y [2; 0; 0; 0] = None /\ at4 2 0 0 0 ∈ vs.
Proof. exact ex_during. Qed.

(** C66: other keys are deleted, after they have been returned; a key that stays in the tree all the time is never
    returned.  The node that held the deleted keys is gone, and Next takes the resume key's second byte for the
    compressed prefix of the node that is now at its place. *)
Theorem C66_delete_hides_key_refuted : exists tr y tr2 y2 vs k, reachable (fixed 4) k4 2 tr y /\ reachable (fixed 4) k4 2 (tr ++ tr2) y2 /\
  Forall (fun e => is_delete e = true /\ spares k e = true) tr2 /\
  (exists n0, forall n, (n0 <= n)%nat -> it_along n (replicate 261 (sy_tree y) ++ replicate 2 (sy_tree y2)) (new_iter []) = Ok (vs, true)) /\
  (exists v, h_map (replay tr) !! k = Some v /\ h_map (replay (tr ++ tr2)) !! k = Some v) /\ k ∉ map k4 vs.
Proof. exact iter_misses. Qed.
Print Assumptions C66_delete_hides_key_refuted.

(** C66: with an iterator over the keys with prefix [1;2], one insertion of another key is enough. *)
Theorem C66_insert_hides_key_refuted : exists tr y aid v0 fk tr2 y2 vs k, reachable (fixed 5) k5 2 tr y /\ reachable (fixed 5) k5 2 (tr ++ tr2) y2 /\
  map fst tr2 = [CPrepU aid (k5 v0); CFinU aid fk false v0] /\ k <> k5 v0 /\ [1; 2] `prefix_of` k /\
  (exists n0, forall n, (n0 <= n)%nat -> it_along n (replicate 260 (sy_tree y) ++ replicate 2 (sy_tree y2)) (new_iter [1; 2]) = Ok (vs, true)) /\
  (exists v, h_map (replay tr) !! k = Some v /\ h_map (replay (tr ++ tr2)) !! k = Some v) /\ k ∉ map k5 vs.
Proof. exact iter_insert_misses. Qed.
Print Assumptions C66_insert_hides_key_refuted.
