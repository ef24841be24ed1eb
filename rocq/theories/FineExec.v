(** * FineExec: run without interruption, the programs of Fine.v are the calls of Api.v. *)
From Verif Require Export Fine MemFacts.

Lemma exec_bind {A B} (p : prog A) (k : A -> prog B) s :
  exec (pbind p k) s = (do (a, s1) <- exec p s; exec (k a) s1).
Proof.
  revert s; induction p as [a|e|a c IH]; intros s; [done|by destruct e|].
  cbn [pbind exec]. destruct (do_act s a) as [[v s1]| | |]; cbn [bind]; try done.
Qed.

Lemma exec_res {A} (r : res A) s : exec (of_res r) s = (do a <- r; Ok (a, s)).
Proof. by destruct r. Qed.

(** The read-only blocks. *)
Definition reads {A} (p : prog A) (s : tree) (r : res A) : Prop := exec p s = (do a <- r; Ok (a, s)).

Lemma reads_bind {A B} (p : prog A) (k : A -> prog B) s r f : reads p s r -> (forall a, reads (k a) s (f a)) ->
  reads (pbind p k) s (bind r f).
Proof. intros H1 H2. unfold reads in *. rewrite exec_bind, H1. destruct r as [a| | |]; cbn [bind]; [apply H2|done..]. Qed.

Lemma reads_ret {A} (a : A) s : reads (Ret a) s (Ok a).
Proof. done. Qed.
Lemma reads_res {A} (r : res A) s : reads (of_res r) s r.
Proof. apply exec_res. Qed.

Lemma reads_load p s : reads (p_load p) s (Ok (pget s p)).
Proof. done. Qed.

Lemma reads_data s node : reads (p_data node) s (node_data s node).
Proof.
  unfold reads, p_data. cbn [exec]. unfold do_act, node_data. destruct (_ <=? _); [done|]. destruct (_ <=? _); done.
Qed.

Lemma reads_get s d i : reads (p_get d i) s (sl_get (t_mem s) d i).
Proof. unfold p_get, sl_get. destruct (_ <? _); done. Qed.

Lemma reads_gen s node : reads (p_gen node) s (generation s node).
Proof.
  unfold reads, p_gen, generation. cbn [exec]. unfold do_act at 1, node_data. destruct (_ <=? _); [done|]. destruct (_ <=? _); done.
Qed.

Lemma reads_skip s d len : reads (p_skip d len) s (skip_prefix (t_mem s) d len).
Proof.
  unfold p_skip, skip_prefix. destruct len as [|len]; [done|].
  apply reads_bind.
  - destruct (_ =? 255)%nat; [|done]. apply reads_bind; [apply reads_get|]. intros w. apply reads_ret.
  - intros [n slots]. apply reads_bind; [apply reads_res|]. intros d'. apply reads_ret.
Qed.

Lemma reads_words s base n : reads (p_words base n) s (Ok (mread (t_mem s) base n)).
Proof.
  revert base; induction n as [|n IH]; intros base; [done|].
  cbn [p_words mread].
  change (Ok (mget (t_mem s) base :: mread (t_mem s) (base + 1) n))
    with (do w <- Ok (pget s (PSlot base)); do ws <- Ok (mread (t_mem s) (base + 1) n); Ok (w :: ws)).
  apply reads_bind; [apply reads_load|]. intros w. apply reads_bind; [apply IH|]. intros ws. apply reads_ret.
Qed.

Lemma word_byte_get m base n j : (j < n)%nat -> word_byte (mread m base ((n + 7) / 8)) j = get_byte m base j.
Proof.
  intros Hj. unfold word_byte, get_byte. f_equal. f_equal.
  assert (Hlt : (j / 8 < (n + 7) / 8)%nat).
  { apply Nat.lt_le_trans with (n := (j / 8)%nat) (m := S (j / 8)); [lia|].
    replace (S (j / 8))%nat with ((j + 1 * 8) / 8)%nat by (rewrite Nat.div_add by done; lia).
    apply Nat.div_le_mono; lia. }
  rewrite nth_lookup, mread_lookup by done. done.
Qed.

Lemma reads_append s src len : reads (p_append src len) s (append_prefix (t_mem s) src len).
Proof.
  unfold p_append, append_prefix. destruct len as [|len]; [done|].
  apply reads_bind.
  - destruct (_ =? 255)%nat; [|done]. apply reads_bind; [apply reads_get|]. intros w.
    apply reads_bind; [apply reads_res|]. intros d'. apply reads_ret.
  - intros [[n slots] s1]. destruct (_ =? 0)%nat; [done|]. destruct (_ =? 0); [done|]. destruct (_ <? _); [done|].
    unfold load_bytes. rewrite <- (map_ext_in (word_byte (mread (t_mem s) (sl_base s1) ((n + 7) / 8)))).
    2:{ intros j Hj. apply in_seq in Hj. apply word_byte_get. lia. }
    change (Ok (map (word_byte (mread (t_mem s) (sl_base s1) ((n + 7) / 8))) (seq 0 n), slots))
      with (do ws <- Ok (mread (t_mem s) (sl_base s1) ((n + 7) / 8)); Ok (map (word_byte ws) (seq 0 n), slots)).
    apply reads_bind; [apply reads_words|]. intros ws. apply reads_ret.
Qed.

Lemma reads_scan s base k i n last : reads (p_scan base k i n last) s (Ok (scan (t_mem s) base k i n last)).
Proof.
  revert i last; induction n as [|n IH]; intros i last; [done|]. cbn [p_scan scan].
  unfold reads. rewrite exec_bind, reads_load. cbn [bind pget]. destruct (_ <=? _); [done|]. apply IH.
Qed.

Lemma reads_search_loop fuel s key node count plen depth :
  reads (p_search_loop fuel key node count plen depth) s (search_loop fuel s key node count plen depth).
Proof.
  revert node count plen depth; induction fuel as [|fuel IH]; intros node count plen depth; [done|].
  cbn [p_search_loop search_loop].
  apply reads_bind; [apply reads_data|]. intros d. apply reads_bind; [apply reads_skip|]. intros [[n sl] d1].
  destruct (_ <=? _)%nat; [done|]. apply reads_bind; [apply reads_res|]. intros k. destruct (_ <=? _)%nat.
  - apply reads_bind; [apply reads_get|]. intros a. destruct (a =? 0); [done|]. destruct (isLeaf a); [done|].
    destruct (explodeNode a) as [[[? node'] count'] plen']. apply IH.
  - apply reads_bind; [apply reads_res|]. intros _. unfold reads. rewrite exec_bind, reads_scan. cbn [bind].
    destruct (scan _ _ _ _ _ _) as [[? ?] a]. destruct (_ =? k); [|done]. destruct (isLeaf a); [done|].
    destruct (explodeNode a) as [[[? node'] count'] plen']. apply IH.
Qed.

Lemma reads_search s key : reads (p_search key) s (search s key).
Proof.
  unfold p_search, search. unfold reads. rewrite exec_bind, reads_load. cbn [bind pget]. destruct (isLeaf _).
  - apply reads_bind; [apply reads_res|]. intros k. destruct (_ =? _); done.
  - destruct (explodeNode _) as [[[? node'] count'] plen']. apply reads_search_loop.
Qed.

(** Lookup is one uninterrupted run of [p_search] between [startOp] and [endOp]. *)
Theorem lookup_exec s aid key :
  Search.lookup s aid key = (do (r, s1) <- exec (p_search key) (start_op s aid); Ok (r.1, r.2, end_op s1 aid)).
Proof. unfold Search.lookup. rewrite reads_search. by destruct (search _ _) as [[v f]| | |]. Qed.

(** ** Locking *)

Lemma exec_lock_root s e : exec (p_lock_root e) s =
  match lock_leaf_root s e with Some s1 => Ok (tt, s1) | None => Retry end.
Proof.
  unfold p_lock_root, lock_leaf_root. cbn [exec]. unfold do_act at 1. destruct (t_rootLock s =? 0); [|done].
  cbn [bind]. change (1 =? 0) with false. cbn [exec do_act bind pget].
  change (t_root (set_rootLock s 1)) with (t_root s). destruct (t_root s =? e); done.
Qed.

Lemma exec_lock1 s node g : exec (p_lock1 node g) s =
  match lock_node (t_locks s) node g with Some l => Ok (tt, set_locks s l) | None => Retry end.
Proof.
  unfold p_lock1, lock_node. destruct (gen_odd g); [done|]. cbn [exec do_act].
  destruct (lock_cas _ _ _ _); [|done]. done.
Qed.

Lemma exec_lock2 s node ng parent pg : exec (p_lock2 node ng parent pg) s =
  match lock_nodes2 (t_locks s) node ng parent pg with Some l => Ok (tt, set_locks s l) | None => Retry end.
Proof.
  unfold p_lock2, lock_nodes2. destruct (parent =? 0); [apply exec_lock1|]. destruct (_ || _); [done|].
  cbn [exec do_act]. destruct (lock_cas _ _ _ _) as [l1|]; [|done]. cbn [bind]. change (1 =? 0) with false. cbn iota.
  destruct (_ =? _); [done|]. cbn [exec do_act]. change (t_locks (set_locks s l1)) with l1.
  destruct (lock_cas l1 _ _ _) as [l2|]; done.
Qed.

Lemma exec_lock3 s child cg node ng parent pg : exec (p_lock3 child cg node ng parent pg) s =
  match lock_nodes3 (t_locks s) child cg node ng parent pg with Some l => Ok (tt, set_locks s l) | None => Retry end.
Proof.
  unfold p_lock3, lock_nodes3. destruct (parent =? 0); [apply exec_lock2|]. destruct (_ || _); [done|].
  cbn [exec do_act]. destruct (lock_cas (t_locks s) _ _ _) as [l1|]; [|done]. cbn [bind]. change (1 =? 0) with false. cbn iota zeta.
  rewrite exec_bind. destruct (lock_id node =? lock_id child); cbn [negb exec bind].
  - destruct (_ || _); [done|]. cbn [exec do_act]. change (t_locks (set_locks s l1)) with l1.
    destruct (lock_cas l1 _ _ _) as [l2|]; done.
  - cbn [exec do_act]. change (t_locks (set_locks s l1)) with l1.
    destruct (lock_cas l1 (lock_id node) _ _) as [l2|]; [|done]. cbn [bind]. change (1 =? 0) with false. cbn iota. cbn [exec bind].
    destruct (_ || _); [done|]. cbn [exec do_act]. change (t_locks (set_locks _ l2)) with l2.
    destruct (lock_cas l2 _ _ _) as [l3|]; done.
Qed.

(** ** PrepareUpdate *)

Lemma exec_lock2_then {A} s node ng parent pg (k : unit -> prog A) (f : tree -> res (A * tree)) :
  (forall l, exec (k tt) (set_locks s l) = f (set_locks s l)) ->
  exec (run x <- p_lock2 node ng parent pg; k x) s = with_lock s node ng parent pg f.
Proof.
  intros H. rewrite exec_bind, exec_lock2. unfold with_lock. destruct (lock_nodes2 _ _ _ _ _) as [l|]; [|done].
  cbn [bind]. apply H.
Qed.

Lemma exec_pu_loop fuel s aid key raw np parent pg depth :
  exec (p_pu_loop fuel aid key raw np parent pg depth) s = pu_loop fuel s aid key raw np parent pg depth.
Proof.
  revert raw np parent pg depth; induction fuel as [|fuel IH]; intros raw np parent pg depth; [done|].
  cbn [p_pu_loop pu_loop]. destruct (explodeNode raw) as [[[? node] count] prefixLen].
  rewrite exec_bind, reads_gen. destruct (generation s node) as [g| | |]; cbn [bind]; try done.
  rewrite exec_bind, reads_load. cbn [bind]. destruct (negb (pget s np =? raw)); [done|].
  assert (Hpg : exec (if parent =? 0 then Ret pg else p_gen parent) s =
    (do a <- (if parent =? 0 then Ok pg else generation s parent); Ok (a, s))).
  { destruct (parent =? 0); [done|apply reads_gen]. }
  rewrite exec_bind, Hpg. destruct (if parent =? 0 then Ok pg else generation s parent) as [pg'| | |]; cbn [bind]; try done.
  destruct (negb (pg' =? pg)); [done|].
  rewrite exec_bind, reads_data. destruct (node_data s node) as [d| | |]; cbn [bind]; try done.
  rewrite exec_bind, reads_append. destruct (append_prefix (t_mem s) d prefixLen) as [[prefix ps]| | |]; cbn [bind]; try done.
  destruct (prefix_cmp key depth prefix 0) as [|i|]; [done| |].
  - rewrite exec_bind, exec_res. destruct (key_at key depth) as [k| | |]; cbn [bind]; try done.
    by apply exec_lock2_then.
  - rewrite exec_bind, exec_res. destruct (sl_from d ps) as [d1| | |]; cbn [bind]; try done. cbn zeta.
    rewrite exec_bind, exec_res. destruct (key_at key _) as [k| | |]; cbn [bind]; try done.
    destruct (fullAllocFrom <=? count)%nat.
    + rewrite exec_bind, reads_get. destruct (sl_get (t_mem s) d1 (N.to_nat k)) as [a| | |]; cbn [bind]; try done.
      destruct (a =? 0); [by apply exec_lock2_then|]. destruct (isLeaf a); [by apply exec_lock2_then|apply IH].
    + rewrite exec_bind, exec_res. destruct (sl_upto d1 count) as [[]| | |]; cbn [bind]; try done.
      rewrite exec_bind, reads_scan. cbn [bind]. destruct (scan _ _ _ _ _ _) as [[brk i] a].
      destruct (to_byte a =? k); [|by apply exec_lock2_then]. destruct (isLeaf a); [by apply exec_lock2_then|apply IH].
Qed.

Theorem prepare_update_exec s aid key :
  prepare_update s aid key = exec (p_prepare_update aid key) (start_op s aid).
Proof.
  unfold prepare_update, p_prepare_update. rewrite exec_bind, reads_load. cbn [bind pget].
  destruct (t_root (start_op s aid) =? 0).
  - rewrite exec_bind, exec_lock_root. destruct (lock_leaf_root _ _) as [s1|]; [|done]. cbn [bind].
    rewrite exec_bind, exec_res. by destruct (key_at key 0).
  - destruct (isLeaf _); [|by rewrite exec_pu_loop].
    rewrite exec_bind, exec_lock_root. destruct (lock_leaf_root _ _) as [s1|]; [|done]. cbn [bind].
    rewrite exec_bind, exec_res. destruct (key_at key 0) as [k| | |]; cbn [bind]; try done. by destruct (_ =? _).
Qed.

(** ** PrepareDelete *)

Lemma exec_pd_loop fuel s aid key root raw np parent pg depth :
  exec (p_pd_loop fuel aid key root raw np parent pg depth) s = pd_loop fuel s aid key root raw np parent pg depth.
Proof.
  revert raw np parent pg depth; induction fuel as [|fuel IH]; intros raw np parent pg depth; [done|].
  cbn [p_pd_loop pd_loop]. destruct (explodeNode raw) as [[[? node] count] prefixLen].
  rewrite exec_bind, reads_gen. destruct (generation s node) as [g| | |]; cbn [bind]; try done.
  rewrite exec_bind, reads_load. cbn [bind]. destruct (negb (pget s np =? raw)); [done|].
  assert (Hpg : exec (if parent =? 0 then Ret pg else p_gen parent) s =
    (do a <- (if parent =? 0 then Ok pg else generation s parent); Ok (a, s))).
  { destruct (parent =? 0); [done|apply reads_gen]. }
  rewrite exec_bind, Hpg. destruct (if parent =? 0 then Ok pg else generation s parent) as [pg'| | |]; cbn [bind]; try done.
  destruct (negb (pg' =? pg)); [done|].
  rewrite exec_bind, reads_data. destruct (node_data s node) as [d| | |]; cbn [bind]; try done.
  rewrite exec_bind, reads_skip. destruct (skip_prefix (t_mem s) d prefixLen) as [[[plen ps] d1]| | |]; cbn [bind]; try done.
  cbn zeta. destruct (length key <=? _)%nat; [done|].
  rewrite exec_bind, exec_res. destruct (key_at key _) as [k| | |]; cbn [bind]; try done.
  destruct (fullAllocFrom <=? count)%nat.
  - rewrite exec_bind, reads_get. destruct (sl_get (t_mem s) d1 (N.to_nat k)) as [a| | |]; cbn [bind]; try done.
    destruct (a =? 0); [done|]. destruct (isLeaf a); [done|apply IH].
  - rewrite exec_bind, exec_res. destruct (sl_upto d1 count) as [[]| | |]; cbn [bind]; try done.
    rewrite exec_bind, reads_scan. cbn [bind]. destruct (scan _ _ _ _ _ _) as [[brk i] a].
    destruct (to_byte a =? k); [|done]. destruct (isLeaf a); [|apply IH].
    destruct (count =? 2)%nat; [|by apply exec_lock2_then].
    rewrite exec_bind, reads_get. destruct (sl_get (t_mem s) d1 (1 - i)) as [other| | |] eqn:Eo; cbn [bind]; try done.
    destruct (isLeaf other).
    + apply exec_lock2_then. intros l. rewrite exec_bind, exec_res.
      destruct (if raw =? root then _ else _) as [nl| | |]; done.
    + destruct (explodeNode other) as [[[ck child] cc] cpl].
      rewrite exec_bind, reads_gen. destruct (generation s child) as [cg| | |]; cbn [bind]; try done.
      rewrite exec_bind, reads_get, Eo. cbn [bind]. rewrite N.eqb_refl. cbn [negb].
      rewrite exec_bind, exec_lock3. destruct (lock_nodes3 _ _ _ _ _ _ _) as [l|]; [|done]. cbn [bind].
      rewrite exec_bind, reads_append. destruct (append_prefix _ d prefixLen) as [[prefix ?]| | |]; cbn [bind]; try done.
      rewrite exec_bind, reads_data. destruct (node_data _ child) as [cd| | |]; cbn [bind]; try done.
      rewrite exec_bind, reads_append. destruct (append_prefix _ cd cpl) as [[cpfx cs]| | |]; done.
Qed.

Theorem prepare_delete_exec s aid key :
  prepare_delete_raw s aid key = exec (p_prepare_delete aid key) (start_op s aid).
Proof.
  unfold prepare_delete_raw, p_prepare_delete. rewrite exec_bind, reads_load. cbn [bind pget].
  destruct (t_root (start_op s aid) =? 0); [done|]. destruct (isLeaf _); [|by rewrite exec_pd_loop].
  rewrite exec_bind, exec_res. destruct (key_at key 0) as [k| | |]; cbn [bind]; try done. destruct (_ =? k); [|done].
  rewrite exec_bind, exec_lock_root. destruct (lock_leaf_root _ _) as [s1|]; done.
Qed.
