(** * FineObsExec: run without interruption, the programs of FineObs.v are the calls of Iter.v. *)
From Verif Require Export FineObs FineExec.

Lemma reads_partial_loop fuel s sp raw depth : reads (p_partial_loop fuel sp raw depth) s (partial_loop fuel s sp raw depth).
Proof.
  revert raw depth; induction fuel as [|fuel IH]; intros raw depth; [done|]. cbn [p_partial_loop partial_loop].
  destruct (explodeNode raw) as [[[? node] count] plen]. destruct (_ <=? _)%nat; [done|].
  apply reads_bind; [apply reads_data|]. intros d. apply reads_bind; [apply reads_append|]. intros [buf slots].
  apply reads_bind; [apply reads_res|]. intros d1. destruct (prefix_cmp _ _ _ _); try done. destruct (_ <=? _)%nat; [done|].
  apply reads_bind; [apply reads_res|]. intros k. destruct (_ <=? _)%nat.
  - apply reads_bind; [apply reads_get|]. intros a. destruct (a =? 0); [done|]. destruct (isLeaf a); [done|]. apply IH.
  - apply reads_bind; [apply reads_res|]. intros _. unfold reads. rewrite exec_bind, reads_scan. cbn [bind].
    destruct (scan _ _ _ _ _ _) as [[? ?] a]. destruct (_ =? k); [|done]. destruct (isLeaf a); [done|]. apply IH.
Qed.

Lemma reads_partial s sp : reads (p_partial sp) s (partial_search s sp).
Proof.
  unfold p_partial, partial_search, reads. rewrite exec_bind, reads_load. cbn [bind pget]. destruct sp as [|c sp]; [done|].
  destruct (isLeaf _); [by destruct (_ =? _)|]. apply reads_partial_loop.
Qed.

Lemma reads_nonzero s base k n : reads (p_nonzero base k n) s (Ok (next_nonzero (t_mem s) base k n)).
Proof.
  revert k; induction n as [|n IH]; intros k; [done|]. cbn [p_nonzero next_nonzero].
  unfold reads. rewrite exec_bind, reads_load. cbn [bind pget]. destruct (_ =? _); [apply IH|done].
Qed.

Lemma reads_find s base c i n : reads (p_find base c i n) s (Ok (find_byte (t_mem s) base c i n)).
Proof.
  revert i; induction n as [|n IH]; intros i; [done|]. cbn [p_find find_byte].
  unfold reads. rewrite exec_bind, reads_load. cbn [bind pget]. destruct (_ =? _); [done|apply IH].
Qed.

Lemma reads_children s base k n pre : reads (p_children base k n pre) s (Ok (scan_children (t_mem s) base k n pre)).
Proof.
  revert k pre; induction n as [|n IH]; intros k pre; [done|]. cbn [p_children scan_children].
  unfold reads. rewrite exec_bind, reads_load. cbn [bind pget]. destruct (_ =? _); [apply IH|]. destruct (isLeaf _); [apply IH|done].
Qed.

Lemma reads_count_children s base k n l : reads (p_count_children base k n l) s (Ok (count_children (t_mem s) base k n l)).
Proof.
  revert k l; induction n as [|n IH]; intros k l; [done|]. cbn [p_count_children count_children].
  unfold reads. rewrite exec_bind, reads_load. cbn [bind pget]. destruct (_ =? _); [apply IH|]. destruct (isLeaf _); [apply IH|done].
Qed.

Lemma reads_pre_loop fuel s resume k raw st : reads (p_pre_loop fuel resume k raw st) s (pre_loop fuel s resume k raw st).
Proof.
  revert k raw st; induction fuel as [|fuel IH]; intros k raw st; [done|]. cbn [p_pre_loop pre_loop].
  destruct (_ <=? _)%nat; [done|]. destruct (explodeNode raw) as [[[? node] count] plen].
  apply reads_bind; [apply reads_data|]. intros d. apply reads_bind; [apply reads_skip|]. intros [[pl sl] d1].
  destruct (_ <=? _)%nat; [done|]. apply reads_bind; [apply reads_res|]. intros c. destruct (_ <=? _)%nat.
  - apply reads_bind; [apply reads_get|]. intros a. destruct (_ && _); [|done]. destruct (isLeaf a); [done|].
    apply reads_bind; [apply reads_res|]. intros _. unfold reads. rewrite exec_bind, reads_nonzero. cbn [bind]. apply IH.
  - apply reads_bind; [apply reads_res|]. intros _. unfold reads. rewrite exec_bind, reads_find. cbn [bind].
    destruct (find_byte _ _ _ _ _) as [[l a]|]; [|done]. destruct (isLeaf a); [done|]. apply IH.
Qed.

Lemma reads_resume_key s j st : reads (p_resume_key j st) s (resume_key s j st).
Proof.
  revert j; induction st as [|p st IH]; intros j; [done|]. cbn [p_resume_key resume_key].
  destruct (explodeNode _) as [[[key node] count] plen]. apply reads_bind; [apply reads_data|]. intros d.
  apply reads_bind; [apply reads_append|]. intros [pfx slots]. destruct st as [|p2 st].
  - apply reads_bind; [apply reads_get|]. intros a. apply reads_ret.
  - apply reads_bind; [apply IH|]. intros r. apply reads_ret.
Qed.

Lemma reads_scan_loop fuel s raw nx st pre res : reads (p_scan_loop fuel raw nx st pre res) s (scan_loop fuel s raw nx st pre res).
Proof.
  revert raw nx st pre; induction fuel as [|fuel IH]; intros raw nx st pre; [done|]. cbn [p_scan_loop scan_loop].
  destruct (explodeNode raw) as [[[? node] count] plen].
  apply reads_bind; [apply reads_data|]. intros d. apply reads_bind; [apply reads_skip|]. intros [[pl sl] d1].
  apply reads_bind; [apply reads_res|]. intros _. unfold reads. rewrite exec_bind, reads_children. cbn [bind].
  destruct (scan_children _ _ _ _ _) as [pre1 [[k a]|]].
  - rewrite exec_bind. destruct (_ <=? _)%nat; [rewrite reads_nonzero|]; cbn [bind exec]; apply IH.
  - destruct st as [|pos rest]; [done|]. destruct (_ <? _)%nat; [|apply IH].
    apply reads_bind; [apply reads_resume_key|]. intros r. apply reads_ret.
Qed.

Lemma reads_count_loop fuel s raw nx st nodes leaves c :
  reads (p_count_loop fuel raw nx st nodes leaves c) s (count_loop fuel s raw nx st nodes leaves c).
Proof.
  revert raw nx st nodes leaves c; induction fuel as [|fuel IH]; intros raw nx st nodes leaves c; [done|]. cbn [p_count_loop count_loop].
  destruct (explodeNode raw) as [[[? node] count] plen].
  apply reads_bind; [apply reads_data|]. intros d. apply reads_bind; [apply reads_skip|]. intros [[pl sl] d1].
  apply reads_bind; [apply reads_res|]. intros _. unfold reads. rewrite exec_bind, reads_count_children. cbn [bind].
  destruct (count_children _ _ _ _ _) as [l1 [[k a]|]].
  - rewrite exec_bind. destruct (_ <=? _)%nat; [rewrite reads_nonzero|]; cbn [bind exec]; apply IH.
  - destruct st as [|[r' n'] rest]; [done|]. apply IH.
Qed.

Theorem next_exec fuel s it : exec (p_next fuel it) s = (do r <- it_next fuel s it; Ok (r, s)).
Proof.
  unfold p_next, it_next. destruct (_ !! _); [done|]. destruct (it_done it); [done|].
  apply reads_bind; [apply reads_partial|]. intros [raw ?]. destruct (raw =? 0); [done|]. destruct (isLeaf raw); [done|].
  apply reads_bind; [apply reads_pre_loop|]. intros [[raw1 nx] st]. apply reads_bind; [apply reads_scan_loop|]. intros [[[pre dn] res] st1].
  by destruct pre.
Qed.

Theorem count_exec fuel s sp : exec (p_count fuel sp) s = (do r <- count fuel s sp; Ok (r, s)).
Proof.
  unfold p_count, count. apply reads_bind; [apply reads_partial|]. intros [raw ?]. destruct (raw =? 0); [done|]. destruct (isLeaf raw); [done|].
  apply reads_count_loop.
Qed.
