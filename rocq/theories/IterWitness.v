(** * IterWitness: iterations that run while the tree changes. *)
From Verif Require Export QWitness.

Definition k4 (v : N) : list N := be 4 v.
Definition at4 (a b c d : N) : N := ((a * 256 + b) * 256 + c) * 256 + d.

(** Does the call name another key than [k], or none? *)
Definition spares (k : list N) (e : call * reply) : bool :=
  match e.1 with CPrepU _ k' | CPrepD _ k' => negb (bool_decide (k' = k)) | _ => true end.

(** 260 keys below [1;5], deleted after they have been returned: the walk along the resume key
    [1;5;3] then reads its byte 5 as the prefix [9] of the merged node, and skips [1;9;0;0]. *)
Definition low5 : list N :=
  map (at4 1 5 0) (seqN 0 100) ++ map (at4 1 5 1) (seqN 0 100) ++ map (at4 1 5 2) (seqN 0 60) ++ [at4 1 5 3 0].
Definition fives : list act := puts k4 0 ([0] ++ low5 ++ [at4 1 9 0 0; at4 1 9 3 0]).
Definition nofives : list act := low5 ≫= fun v => del 0 (k4 v).

Lemma iter_misses : exists tr y tr2 y2 vs k, reachable (fixed 4) k4 2 tr y /\ reachable (fixed 4) k4 2 (tr ++ tr2) y2 /\
  Forall (fun e => is_delete e = true /\ spares k e = true) tr2 /\
  (exists n0, forall n, (n0 <= n)%nat -> it_along n (replicate 261 (sy_tree y) ++ replicate 2 (sy_tree y2)) (new_iter []) = Ok (vs, true)) /\
  (exists v, h_map (replay tr) !! k = Some v /\ h_map (replay (tr ++ tr2)) !! k = Some v) /\ k ∉ map k4 vs.
Proof.
  set (k := [1; 9; 0; 0]).
  destruct (after_reachable 4 k4 fives (fun tr y =>
    match play (fixedb 4) k4 y nofives with
    | Some (tr2, y2) => forallb (fun e => is_delete e && spares k e) tr2 && (N.of_nat (length (tr ++ tr2)) <? 100000) &&
        match it_along 100 (replicate 261 (sy_tree y) ++ replicate 2 (sy_tree y2)) (new_iter []) with
        | Ok (vs, true) => bool_decide (k ∉ map k4 vs)
        | _ => false
        end && bool_decide (h_map (replay tr) !! k = Some (at4 1 9 0 0)) && bool_decide (h_map (replay (tr ++ tr2)) !! k = Some (at4 1 9 0 0))
    | None => false
    end)) as (tr & y & Hr & H); [lia|by vm_compute|by vm_compute|].
  destruct (play (fixedb 4) k4 y nofives) as [[tr2 y2]|] eqn:Ep; [|done]. apply andb_prop in H as [H H5]. apply andb_prop in H as [H H4].
  apply andb_prop in H as [H H3]. apply andb_prop in H as [H1 H2]. apply bool_decide_eq_true in H4, H5.
  destruct (it_along 100 _ (new_iter [])) as [[vs []]| | |] eqn:E; try done. apply bool_decide_eq_true in H3.
  exists tr, y, tr2, y2, vs, k. split_and!; try done.
  - destruct (play_runs (fixedb 4) k4 2 _ _ _ _ _ (rc_runs _ _ _ _ _ Hr) Ep) as [Hr2 _]. split; [by destruct Hr|done|].
    apply N.ltb_lt in H2. unfold maxUint64. lia.
  - apply Forall_forall. intros e He. rewrite forallb_forall in H1. apply andb_prop. by apply H1, elem_of_list_In.
  - exists 100%nat. intros n Hn. by eapply it_along_mono.
  - eauto.
Qed.

(** An iterator with prefix [1;2]: the keys share [1;2;5], so the iterator starts at a node with
    the compressed prefix [2;5] and resumes at [2;5;3].  The insertion of [1;9;0;0;0] splits this
    node; the iterator now starts one byte lower and reads its resume key out of step. *)
Definition k5 (v : N) : list N := be 5 v.
Definition at5 (c d : N) : N := at4 1 2 5 c * 256 + d.
Definition low2 : list N := map (at5 0) (seqN 0 100) ++ map (at5 1) (seqN 0 100) ++ map (at5 2) (seqN 0 60) ++ [at5 3 0; at5 5 0].

Lemma iter_insert_misses : exists tr y aid v0 fk tr2 y2 vs k, reachable (fixed 5) k5 2 tr y /\ reachable (fixed 5) k5 2 (tr ++ tr2) y2 /\
  map fst tr2 = [CPrepU aid (k5 v0); CFinU aid fk false v0] /\ k <> k5 v0 /\ [1; 2] `prefix_of` k /\
  (exists n0, forall n, (n0 <= n)%nat -> it_along n (replicate 260 (sy_tree y) ++ replicate 2 (sy_tree y2)) (new_iter [1; 2]) = Ok (vs, true)) /\
  (exists v, h_map (replay tr) !! k = Some v /\ h_map (replay (tr ++ tr2)) !! k = Some v) /\ k ∉ map k5 vs.
Proof.
  set (k := [1; 2; 5; 3; 0]). set (v0 := at4 1 9 0 0 * 256).
  destruct (after_reachable 5 k5 (puts k5 0 ([0] ++ low2)) (fun tr y =>
    match play (fixedb 5) k5 y (put k5 0 v0) with
    | Some (tr2, y2) => match map fst tr2 with [CPrepU O k'; CFinU O fk false v'] => bool_decide (k' = k5 v0) && bool_decide (fk = k5 0) && (v' =? v0) | _ => false end &&
        (N.of_nat (length (tr ++ tr2)) <? 100000) &&
        match it_along 100 (replicate 260 (sy_tree y) ++ replicate 2 (sy_tree y2)) (new_iter [1; 2]) with
        | Ok (vs, true) => bool_decide (k ∉ map k5 vs)
        | _ => false
        end && bool_decide (h_map (replay tr) !! k = Some (at5 3 0)) && bool_decide (h_map (replay (tr ++ tr2)) !! k = Some (at5 3 0))
    | None => false
    end)) as (tr & y & Hr & H); [lia|by vm_compute|by vm_compute|].
  destruct (play (fixedb 5) k5 y (put k5 0 v0)) as [[tr2 y2]|] eqn:Ep; [|done]. apply andb_prop in H as [H H5]. apply andb_prop in H as [H H4].
  apply andb_prop in H as [H H3]. apply andb_prop in H as [H1 H2]. apply bool_decide_eq_true in H4, H5.
  destruct (it_along 100 _ (new_iter [1; 2])) as [[vs []]| | |] eqn:E; try done. apply bool_decide_eq_true in H3.
  exists tr, y, 0%nat, v0, (k5 0), tr2, y2, vs, k. split_and!; try done.
  - destruct (play_runs (fixedb 5) k5 2 _ _ _ _ _ (rc_runs _ _ _ _ _ Hr) Ep) as [Hr2 _]. split; [by destruct Hr|done|].
    apply N.ltb_lt in H2. unfold maxUint64. lia.
  - destruct (map fst tr2) as [|[] [|[] [|]]]; try done; repeat (case_match; try done); apply andb_prop in H1 as [H1 H1']; apply andb_prop in H1 as [H1 H1'']; apply bool_decide_eq_true in H1, H1''; apply N.eqb_eq in H1'; by subst.
  - by exists [5; 3; 0].
  - exists 100%nat. intros n Hn. by eapply it_along_mono.
  - eauto.
Qed.
