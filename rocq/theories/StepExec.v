(** * StepExec: run without interruption, the programs of StepFin.v are Finalize and Abort of Update.v and Delete.v. *)
From Verif Require Export StepFin MemFacts.

Lemma wexec_bind {A B} (p : wprog A) (k : A -> wprog B) s :
  wexec (wbind p k) s = (do (a, s1) <- wexec p s; wexec (k a) s1).
Proof.
  revert s; induction p as [a|e|a c IH]; intros s; [done|by destruct e|].
  cbn [wbind wexec]. destruct (do_wact s a) as [[v s1]| | |]; cbn [bind]; try done.
Qed.

Lemma wexec_res {A} (r : res A) s : wexec (w_res r) s = (do a <- r; Ok (a, s)).
Proof. by destruct r. Qed.

Lemma wexec_do a s : wexec (w_do a) s = do_wact s a.
Proof. unfold w_do. cbn [wexec]. by destruct (do_wact s a) as [[v s1]| | |]. Qed.

Lemma set_mem_twice s m m' : set_mem (set_mem s m) m' = set_mem s m'.
Proof. done. Qed.

Lemma w_min_exec s n : forall i m, (i + n = length (t_resv s))%nat ->
  wexec (w_min i n m) s = Ok (fold_left (fun m r => if r <? m then r else m) (drop i (t_resv s)) m, s).
Proof.
  induction n as [|n IH]; intros i m H; cbn [w_min].
  - rewrite drop_ge by lia. done.
  - rewrite wexec_bind, wexec_do. unfold do_wact. destruct (lookup_lt_is_Some_2 (t_resv s) i) as [r Hr]; [lia|]. rewrite Hr. cbn [bind].
    rewrite IH by lia. by rewrite (drop_S _ _ _ Hr).
Qed.

Lemma w_new_exec s aid slots : wexec (w_new (length (t_resv s)) aid slots) s = new_node s aid slots.
Proof. unfold w_new. rewrite wexec_bind, w_min_exec by done. cbn [bind]. by rewrite wexec_do, drop_0. Qed.

Lemma w_data_exec s node : wexec (w_data node) s = (do d <- node_data s node; Ok (d, s)).
Proof.
  unfold w_data. rewrite wexec_bind, wexec_do. unfold do_wact. unfold node_data. destruct (_ <=? _); [done|]. by destruct (_ <=? _).
Qed.

Lemma resv_put s aid a : length (t_resv (put_alloc s aid a)) = length (t_resv s).
Proof. done. Qed.

Lemma new_node_resv s aid slots x s1 : new_node s aid slots = Ok (x, s1) -> t_resv s1 = t_resv s.
Proof.
  unfold new_node, bump_alloc, receive_block. destruct (get_alloc s aid) as [a| | |]; cbn [bind]; try done.
  destruct (find_recycled _ _ _) as [[[t i] [n e]]|]; [by intros [= _ <-]|]. destruct (_ <=? _); [|by intros [= _ <-]].
  destruct (_ <? _); cbn [bind]; [|done]. by intros [= _ <-].
Qed.

Lemma w_allocate_exec s aid count pl :
  wexec (w_allocate (length (t_resv s)) aid count pl) s =
  (do (x, d, s1) <- allocate_node s aid count pl; Ok ((x, d), s1)).
Proof.
  unfold w_allocate, allocate_node. rewrite wexec_bind, w_new_exec. destruct (new_node _ _ _) as [[x s1]| | |]; cbn [bind]; try done.
  rewrite wexec_bind, w_data_exec. by destruct (node_data _ _) as [d| | |].
Qed.

Lemma w_allocate_prefix_exec s aid count prefix :
  wexec (w_allocate_prefix (length (t_resv s)) aid count prefix) s =
  (do (x, d, s1) <- allocate_node_with_prefix s aid count prefix; Ok ((x, d), s1)).
Proof.
  unfold w_allocate_prefix, allocate_node_with_prefix. rewrite wexec_bind, w_new_exec.
  destruct (new_node _ _ _) as [[x s1]| | |]; cbn [bind]; try done.
  rewrite wexec_bind, w_data_exec. destruct (node_data _ _) as [d| | |]; cbn [bind]; try done.
  destruct prefix as [|b prefix]; [done|]. rewrite wexec_bind, wexec_do. unfold do_wact.
  destruct (store_prefix _ _ _) as [m| | |]; cbn [bind]; try done.
  rewrite wexec_bind, wexec_res. by destruct (sl_from _ _) as [d'| | |].
Qed.

Lemma w_children_exec s d a b :
  wexec (w_children d a b) s = (do m <- add_sorted_children (t_mem s) d a b; Ok (tt, set_mem s m)).
Proof.
  unfold w_children, add_sorted_children. destruct (_ <? _); rewrite wexec_bind, wexec_do; unfold do_wact;
    (destruct (sl_set (t_mem s) d 0 _) as [m| | |]; cbn [bind]; try done);
    rewrite wexec_bind, wexec_do; unfold do_wact; cbn [t_mem set_mem];
    (by destruct (sl_set m d 1 _) as [m'| | |]).
Qed.

Lemma w_words_exec s base n : wexec (w_words base n) s = Ok (mread (t_mem s) base n, s).
Proof.
  revert base; induction n as [|n IH]; intros base; [done|]. cbn [w_words mread].
  rewrite wexec_bind, wexec_do. cbn [do_wact bind]. rewrite wexec_bind, IH. done.
Qed.

Lemma set_mem_id s : set_mem s (t_mem s) = s.
Proof. by destruct s. Qed.

Lemma w_write_exec s base ws : wexec (w_write base ws) s = Ok (tt, set_mem s (mwrite (t_mem s) base ws)).
Proof.
  revert s base; induction ws as [|w ws IH]; intros s base; cbn [w_write mwrite]; [by rewrite set_mem_id|].
  rewrite wexec_bind, wexec_do. cbn [do_wact bind]. by rewrite IH.
Qed.

Lemma w_copy_exec s dst src i n :
  wexec (w_copy dst src i n) s = (do m <- sl_copy (t_mem s) dst src i n; Ok (tt, set_mem s m)).
Proof.
  unfold w_copy, sl_copy. destruct (_ <=? _); [|done]. rewrite wexec_bind, w_words_exec. cbn [bind]. by rewrite w_write_exec.
Qed.

Lemma w_scatter_exec s d ws : wexec (w_scatter d ws) s = (do m <- scatter (t_mem s) d ws; Ok (tt, set_mem s m)).
Proof.
  revert s; induction ws as [|w ws IH]; intros s; cbn [w_scatter scatter]; [cbn [wexec bind]; by rewrite set_mem_id|].
  rewrite wexec_bind, wexec_do. unfold do_wact. destruct (sl_set _ _ _ _) as [m| | |]; cbn [bind]; try done. rewrite IH. done.
Qed.

Lemma w_unlock_exec s i : wexec (w_unlock i) s = (do l <- unlock_word (t_locks s) i; Ok (tt, set_locks s l)).
Proof. unfold w_unlock. rewrite wexec_bind, wexec_do. unfold do_wact. by destruct (unlock_word _ _). Qed.

Lemma set_locks_id s : set_locks s (t_locks s) = s.
Proof. by destruct s. Qed.

Lemma w_unlock2_exec s node parent :
  wexec (w_unlock2 node parent) s = (do l <- unlock_nodes2 (t_locks s) node parent; Ok (tt, set_locks s l)).
Proof.
  unfold w_unlock2, unlock_nodes2, unlock_node. destruct (parent =? 0); [apply w_unlock_exec|].
  rewrite wexec_bind, w_unlock_exec. destruct (unlock_word _ _) as [l| | |]; cbn [bind]; try done.
  destruct (_ =? _); [done|]. rewrite w_unlock_exec. done.
Qed.

Lemma w_unlock3_exec s child node parent :
  wexec (w_unlock3 child node parent) s = (do l <- unlock_nodes3 (t_locks s) child node parent; Ok (tt, set_locks s l)).
Proof.
  unfold w_unlock3, unlock_nodes3. destruct (parent =? 0); [apply w_unlock2_exec|].
  rewrite wexec_bind, w_unlock_exec. destruct (unlock_word _ _) as [l| | |]; cbn [bind]; try done.
  rewrite wexec_bind.
  destruct (lock_id node =? lock_id parent); cbn [wexec bind].
  - destruct (_ || _); [done|]. rewrite w_unlock_exec. done.
  - rewrite w_unlock_exec. cbn [t_locks set_locks]. destruct (unlock_word l _) as [l'| | |]; cbn [bind]; try done.
    destruct (_ || _); [done|]. rewrite w_unlock_exec. done.
Qed.

Lemma w_recycle_exec s aid node slots : wexec (w_recycle aid node slots) s = (do s1 <- recycle s aid node slots; Ok (tt, s1)).
Proof.
  unfold w_recycle, recycle. destruct (_ <? _)%nat; [done|]. destruct (_ <=? _)%nat; [done|].
  rewrite wexec_bind, wexec_do. cbn [do_wact bind]. rewrite wexec_bind, wexec_do. unfold do_wact, keep_node.
  destruct (get_alloc s aid) as [a| | |]; cbn [bind]; try done. destruct (1000 <=? _); [|done].
  change (1 =? 0) with false. cbv iota. rewrite wexec_bind, wexec_do. cbn [do_wact bind].
  rewrite wexec_bind, wexec_do. unfold do_wact. cbn [t_epoch put_alloc set_allocs].
  by destruct (flush_stats _ _) as [s1| | |].
Qed.

Lemma w_items_exec s aid d : wexec (w_items aid d) s = (do s1 <- add_items s aid d; Ok (tt, s1)).
Proof. unfold w_items. rewrite wexec_bind, wexec_do. unfold do_wact. by destruct (add_items _ _ _). Qed.

Lemma w_count_if_exec s u aid : wexec (w_count_if u aid) s = (do s1 <- count_if u s aid; Ok (tt, s1)).
Proof. destruct u; [apply w_items_exec|done]. Qed.

Lemma w_swap_exec s p old new : wexec (w_swap p old new) s = Ok (pcas s p old new).
Proof. unfold w_swap. rewrite wexec_bind, wexec_do. unfold do_wact, pcas. by destruct (_ =? _). Qed.

Lemma w_pub_exec s p w : wexec (w_pub p w) s = Ok (tt, pset s p w).
Proof. done. Qed.
Lemma w_unlock_root_exec s : wexec w_unlock_root s = Ok (tt, unlock_root s).
Proof. done. Qed.
Lemma w_end_exec s aid : wexec (w_end aid) s = Ok (tt, end_op s aid).
Proof. done. Qed.

Lemma allocate_prefix_resv s aid count prefix x d s1 : allocate_node_with_prefix s aid count prefix = Ok (x, d, s1) -> t_resv s1 = t_resv s.
Proof.
  unfold allocate_node_with_prefix. destruct (new_node _ _ _) as [[y s2]| | |] eqn:E; cbn [bind]; try done. apply new_node_resv in E.
  destruct (node_data _ _); cbn [bind]; try done. destruct prefix as [|b p]; [by intros [= _ _ <-]|].
  destruct (store_prefix _ _ _); cbn [bind]; try done. destruct (sl_from _ _); cbn [bind]; try done. by intros [= _ _ <-].
Qed.

Ltac wgo := repeat first
  [ rewrite wexec_bind
  | rewrite wexec_res
  | rewrite w_allocate_exec
  | rewrite w_children_exec
  | rewrite w_copy_exec
  | rewrite w_words_exec
  | rewrite w_write_exec
  | rewrite w_scatter_exec
  | rewrite w_unlock2_exec
  | rewrite w_unlock3_exec
  | rewrite w_recycle_exec
  | rewrite w_items_exec
  | rewrite w_count_if_exec
  | rewrite w_swap_exec
  | rewrite w_pub_exec
  | rewrite w_unlock_root_exec
  | rewrite w_end_exec
  | rewrite wexec_do
  | rewrite set_mem_twice
  | progress cbn [bind wexec do_wact t_mem set_mem] ].

Ltac step_res :=
  lazymatch goal with
  | |- bind (bind (bind ?r _) _) _ = _ => destruct r as [?| | |]
  | |- bind (bind ?r _) _ = _ => destruct r as [?| | |]
  | |- bind ?r _ = _ => destruct r as [?| | |]
  end.
Ltac wsolve := wgo; repeat (try done; step_res; wgo); try done.

Lemma w_finalize_update_body_exec s op fk m v :
  wexec (w_finalize_update_body (length (t_resv s)) op fk m v) s = finalize_update_body s op fk m v.
Proof.
  unfold w_finalize_update_body, finalize_update_body, w_unlock_uop, unlock_uop.
  destruct (u_kind op).
  - wgo. destruct (pcas _ _ _ _) as [u s1]. wsolve.
  - wgo. destruct (allocate_node _ _ _ _) as [[[x d] s1]| | |]; wgo; try done.
    destruct (add_sorted_children _ _ _ _) as [m1| | |]; wgo; try done. destruct (pcas _ _ _ _) as [u s2]. wsolve.
  - destruct m.
    + wgo. destruct (pcas _ _ _ _) as [u s1]. done.
    + wgo. destruct (common_prefix_root _ _ _) as [pl| | |]; wgo; try done. rewrite w_allocate_prefix_exec.
      destruct (allocate_node_with_prefix _ _ _ _) as [[[x d] s1]| | |]; wgo; try done.
      destruct (key_at _ _) as [ka| | |]; wgo; try done. destruct (key_at _ _) as [kb| | |]; wgo; try done.
      destruct (add_sorted_children _ _ _ _) as [m1| | |]; wgo; try done. destruct (pcas _ _ _ _) as [u s2]. wsolve.
  - wgo. destruct (key_at (u_key op) _) as [a| | |]; wgo; try done. destruct (key_at (u_prefix op) _) as [b| | |]; wgo; try done.
    rewrite w_allocate_prefix_exec.
    destruct (allocate_node_with_prefix _ _ _ _) as [[[x d] s1]| | |] eqn:E; wgo; try done. apply allocate_prefix_resv in E.
    destruct (sl_from _ _) as [src| | |]; wgo; try done. destruct (sl_copy _ _ _ _ _) as [m1| | |]; wgo; try done.
    rewrite <- E. change (t_resv s1) with (t_resv (set_mem s1 m1)). rewrite w_allocate_prefix_exec.
    destruct (allocate_node_with_prefix _ _ 2 _) as [[[x2 d2] s2]| | |]; wgo; try done.
    destruct (add_sorted_children _ _ _ _) as [m2| | |]; wgo; try done. wsolve.
  - destruct (_ <? _)%nat.
    + wgo. destruct (allocate_node _ _ _ _) as [[[x d] s1]| | |]; wgo; try done.
      destruct (sl_copy _ _ _ _ _) as [m1| | |]; wgo; try done. destruct (sl_set _ _ _ _) as [m2| | |]; wgo; try done.
      destruct (sl_from _ _) as [d'| | |]; wgo; try done.
      destruct (sl_copy _ _ _ _ _) as [m3| | |]; wgo; try done. wsolve.
    + rewrite wexec_bind, w_allocate_prefix_exec.
      destruct (allocate_node_with_prefix _ _ _ _) as [[[x d] s1]| | |]; wgo; try done.
      destruct (sl_upto _ _) as [[]| | |]; wgo; try done. destruct (sl_from _ _) as [src| | |]; wgo; try done.
      destruct (sl_upto _ _) as [[]| | |]; wgo; try done. destruct (sl_set _ _ _ _) as [m2| | |]; wgo; try done.
      destruct (scatter _ _ _) as [m3| | |]; wgo; try done. wsolve.
  - wgo. destruct (pcas _ _ _ _) as [u s1]. wgo. destruct (count_if _ _ _) as [s2| | |]; wgo; try done. wsolve.
  - destruct m.
    + wgo. destruct (pcas _ _ _ _) as [u s1]. wsolve.
    + wgo. destruct (key_at (u_key op) _) as [a| | |]; wgo; try done. destruct (key_at fk _) as [b| | |]; wgo; try done.
      rewrite w_allocate_prefix_exec. destruct (allocate_node_with_prefix _ _ _ _) as [[[x d] s1]| | |]; wgo; try done.
      destruct (add_sorted_children _ _ _ _) as [m1| | |]; wgo; try done. destruct (pcas _ _ _ _) as [u s2]. wgo.
      destruct (count_if _ _ _) as [s3| | |]; wgo; try done. wsolve.
  - destruct m.
    + wgo. destruct (pcas _ _ _ _) as [u s1]. wsolve.
    + wgo. destruct (key_at (u_key op) _) as [a| | |]; wgo; try done. destruct (key_at fk _) as [b| | |]; wgo; try done.
      rewrite w_allocate_prefix_exec. destruct (allocate_node_with_prefix _ _ _ _) as [[[x d] s1]| | |]; wgo; try done.
      destruct (add_sorted_children _ _ _ _) as [m1| | |]; wgo; try done. destruct (pcas _ _ _ _) as [u s2]. wgo.
      destruct (count_if _ _ _) as [s3| | |]; wgo; try done. wsolve.
Qed.

Theorem finalize_update_exec s op fk m v :
  wexec (w_finalize_update (length (t_resv s)) op fk m v) s = finalize_update s op fk m v.
Proof.
  unfold w_finalize_update, finalize_update. rewrite wexec_bind, w_finalize_update_body_exec.
  by destruct (finalize_update_body _ _ _ _ _) as [[u s1]| | |].
Qed.

Theorem abort_update_exec s op : wexec (w_abort_update op) s = (do s1 <- abort_update s op; Ok (tt, s1)).
Proof.
  unfold w_abort_update, abort_update, w_unlock_uop, unlock_uop. destruct (u_kind op); wgo; try done;
    (destruct (unlock_nodes2 _ _ _) as [l| | |]; done).
Qed.

Lemma w_finalize_delete_body_exec s op :
  wexec (w_finalize_delete_body (length (t_resv s)) op) s = finalize_delete_body s op.
Proof.
  unfold w_finalize_delete_body, finalize_delete_body, w_unlock_dop, unlock_dop.
  destruct (d_kind op).
  - done.
  - wgo. cbn [pset]. by destruct (add_items _ _ _).
  - wgo. destruct (allocate_node _ _ _ _) as [[[x d] s1]| | |]; wgo; try done. destruct (sl_upto _ _) as [[]| | |]; wgo; try done.
    destruct (sl_copy _ _ _ _ _) as [m1| | |]; wgo; try done. destruct (sl_from _ _) as [d'| | |]; wgo; try done.
    destruct (sl_copy _ _ _ _ _) as [m3| | |]; wgo; try done. wsolve.
  - wgo. destruct (pcas _ _ _ _) as [[] s1]; wsolve.
  - wsolve.
  - rewrite wexec_bind, w_allocate_prefix_exec. destruct (allocate_node_with_prefix _ _ _ _) as [[[x d] s1]| | |]; wgo; try done.
    destruct (sl_copy _ _ _ _ _) as [m1| | |]; wgo; try done. wsolve.
Qed.

Theorem finalize_delete_exec s op : wexec (w_finalize_delete (length (t_resv s)) op) s = finalize_delete s op.
Proof.
  unfold w_finalize_delete, finalize_delete. rewrite wexec_bind, w_finalize_delete_body_exec.
  by destruct (finalize_delete_body _ _) as [[u s1]| | |].
Qed.

Theorem abort_delete_exec s op : wexec (w_abort_delete op) s = (do s1 <- abort_delete s op; Ok (tt, s1)).
Proof.
  unfold w_abort_delete, abort_delete, w_unlock_dop, unlock_dop. destruct (d_kind op); wgo; try done;
    (destruct (unlock_nodes2 _ _ _) as [l| | |] || destruct (unlock_nodes3 _ _ _ _) as [l| | |]; done).
Qed.
