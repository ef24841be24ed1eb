(** * StepRest: the rest of a Finalize or Abort after it has taken effect (phase B of StepPhase.v) does not depend on
    the lock words of other operations and changes nothing that readers use. *)
From Verif Require Export StepPhase.

(** ** Stores to different words commute *)

Lemma pt_set_comm p : forall q t x y, p <> q -> pt_set (pt_set t p x) q y = pt_set (pt_set t q y) p x.
Proof.
  induction p as [p IH|p IH|]; intros [q|q|] [|l v r] x y H; try done; cbn [pt_set]; f_equal; apply IH; congruence.
Qed.

Lemma mset_comm m i j x y : i <> j -> mset (mset m i x) j y = mset (mset m j y) i x.
Proof. intros H. apply pt_set_comm. intros E. apply H. apply (f_equal (fun p => N.pos p)) in E. rewrite !N.succ_pos_spec in E. lia. Qed.

(** ** Reservations *)

Lemma wexec_erase {A} (p : wprog A) s : noscan p -> wexec p (erase s) = er (wexec p s).
Proof.
  revert s. induction p as [a|e|a k IH]; intros s H; [done|by destruct e|]. destruct H as [H1 H2]. cbn [wexec].
  rewrite do_wact_erase by done. destruct (do_wact s a) as [[v s1]| | |]; cbn [bind rmap]; try done. by apply IH.
Qed.

(** ** Locks of others *)

Definition set_lock (i x : N) (s : tree) : tree := set_locks s (mset (t_locks s) i x).

Section Rest.
Context (n aid : nat) (U : list N) (rt : bool).
Local Notation ph := (ph n aid U rt).

Ltac act a H := destruct a as [q|d i0 w|d pfx|q w|q old new|i0|a' slots m|node|i0| | |a' node slots e| |a'|a' d|a']; cbn [ph_act] in H; try done.

Lemma pb_noscan {A} (p : wprog A) Q : forall b l r, ph (PB b l r) p Q -> noscan p.
Proof.
  induction p as [a|e|a k IH]; intros b l r H; [done|done|]. cbn [StepPhase.ph] in H. cbn [noscan]. act a H; (split; [done|]); intros v; try naive_solver.
Qed.

Record rest (b : bool) (l : list N) (r : bool) (s s' : tree) : Prop := {
  re_mem : t_mem s' = t_mem s;
  re_root : t_root s' = t_root s;
  re_nfb : t_nextFreeBlock s' = t_nextFreeBlock s;
  re_len : length (t_allocs s') = length (t_allocs s);
  re_locks : forall i, i ∉ l -> lget (t_locks s') i = lget (t_locks s) i;
  re_rl : r = false -> t_rootLock s' = t_rootLock s;
  re_epoch : t_epoch s' = t_epoch s \/ (b = true /\ t_epoch s' = u64 (t_epoch s + 1))
}.

Lemma pb_wexec {A} (p : wprog A) Q : forall b l r s a s', ph (PB b l r) p Q -> wexec p s = Ok (a, s') -> rest b l r s s'.
Proof.
  induction p as [a0|e|a k IH]; intros b l r s r0 s' H E; cbn [wexec] in E.
  - injection E as _ <-. split; try done. by left.
  - by destruct e as [[]| |].
  - cbn [StepPhase.ph] in H. destruct (do_wact s a) as [[v s1]| | |] eqn:Ed; try done. cbn [bind] in E. act a H; cbn [do_wact] in Ed.
    + destruct H as (l' & -> & H). destruct (unlock_word (t_locks s) i0) as [m| | |] eqn:El; try done. injection Ed as <- <-.
      destruct (IH 0 b _ _ _ _ _ (H _) E) as [R1 R2 R3 R4 R5 R6 R7]. cbn [set_locks t_mem t_root t_nextFreeBlock t_allocs t_locks t_rootLock t_epoch] in *. split; try done.
      intros i [Hi1 Hi2]%not_elem_of_cons. rewrite R5 by done. unfold unlock_word in El. destruct (gen_odd _); try done. injection El as <-. apply lget_mset_ne. congruence.
    + destruct H as [Hu H]. injection Ed as <- <-. destruct (IH 0 b _ _ _ _ _ (H _) E) as [R1 R2 R3 R4 R5 R6 R7].
      split; try done. intros Hrt. congruence.
    + injection Ed as <- <-. by apply (IH _ _ _ _ _ _ _ (H _) E).
    + unfold keep_node, get_alloc in Ed. destruct (t_allocs s !! a') as [al|] eqn:Ea; try done. cbn [bind] in Ed. injection Ed as <- <-.
      destruct (IH _ _ _ _ _ _ _ (H _) E) as [R1 R2 R3 R4 R5 R6 R7]. split; try done. rewrite R4. cbn. by rewrite insert_length.
    + destruct H as [Hb H]. injection Ed as <- <-. destruct (IH 0 _ _ _ _ _ _ (H _) E) as [R1 R2 R3 R4 R5 R6 R7]. split; try done.
      destruct R7 as [R7|[? _]]; [|done]. right. split; [done|]. exact R7.
    + unfold flush_stats, get_alloc in Ed. destruct (t_allocs s !! a') as [al|] eqn:Ea; try done. cbn [bind] in Ed. injection Ed as <- <-.
      destruct (IH _ _ _ _ _ _ _ (H _) E) as [R1 R2 R3 R4 R5 R6 R7]. split; try done. rewrite R4. cbn. by rewrite insert_length.
    + unfold add_items, get_alloc in Ed. destruct (t_allocs s !! a') as [al|] eqn:Ea; try done. cbn [bind] in Ed. injection Ed as <- <-.
      destruct (IH _ _ _ _ _ _ _ (H _) E) as [R1 R2 R3 R4 R5 R6 R7]. split; try done. rewrite R4. cbn. by rewrite insert_length.
    + destruct H as [_ H]. injection Ed as <- <-. destruct (IH 0 _ _ _ _ _ _ (H _) E) as [R1 R2 R3 R4 R5 R6 R7]. by split.
Qed.

(** Each of its locks is given back once. *)
Lemma pb_back {A} (p : wprog A) : forall b l r s a s', ph (PB b l r) p after -> wexec p s = Ok (a, s') -> NoDup l ->
  forall i, i ∈ l -> lget (t_locks s') i = gen_inc (lget (t_locks s) i).
Proof.
  induction p as [a0|e|a k IH]; intros b l r s r0 s' H E Hnd i Hi; cbn [wexec] in E.
  - destruct H as [b' [= -> -> ->]]. by apply elem_of_nil in Hi.
  - by destruct e as [[]| |].
  - cbn [StepPhase.ph] in H. destruct (do_wact s a) as [[v s1]| | |] eqn:Ed; try done. cbn [bind] in E. act a H; cbn [do_wact] in Ed.
    + destruct H as (l' & -> & H). destruct (unlock_word (t_locks s) i0) as [m| | |] eqn:El; try done. injection Ed as <- <-.
      unfold unlock_word in El. destruct (gen_odd _); try done. injection El as <-. apply NoDup_cons in Hnd as [Hni Hnd].
      apply elem_of_cons in Hi as [->|Hi].
      * rewrite (re_locks _ _ _ _ _ (pb_wexec _ _ _ _ _ _ _ _ (H 0) E)) by done. cbn [set_locks t_locks]. rewrite lget_mset. by destruct (decide _).
      * rewrite (IH 0 b _ _ _ _ _ (H _) E Hnd i Hi). cbn [set_locks t_locks]. rewrite lget_mset_ne by (intros ->; done). done.
    + destruct H as [Hu H]. injection Ed as <- <-. by apply (IH 0 b _ _ _ _ _ (H _) E Hnd i Hi).
    + injection Ed as <- <-. by apply (IH _ _ _ _ _ _ _ (H _) E).
    + unfold keep_node, get_alloc in Ed. destruct (t_allocs s !! a') as [al|] eqn:Ea; try done. cbn [bind] in Ed. injection Ed as <- <-.
      by apply (IH _ _ _ _ _ _ _ (H _) E).
    + destruct H as [Hb H]. injection Ed as <- <-. by apply (IH 0 _ _ _ _ _ _ (H _) E).
    + unfold flush_stats, get_alloc in Ed. destruct (t_allocs s !! a') as [al|] eqn:Ea; try done. cbn [bind] in Ed. injection Ed as <- <-.
      by apply (IH _ _ _ _ _ _ _ (H _) E).
    + unfold add_items, get_alloc in Ed. destruct (t_allocs s !! a') as [al|] eqn:Ea; try done. cbn [bind] in Ed. injection Ed as <- <-.
      by apply (IH _ _ _ _ _ _ _ (H _) E).
    + destruct H as [_ H]. injection Ed as <- <-. by apply (IH 0 _ _ _ _ _ _ (H _) E).
Qed.

(** It does not run out of memory and does not give up. *)
Lemma pb_results {A} (p : wprog A) Q : forall b l r s, ph (PB b l r) p Q ->
  match wexec p s with Panic OutOfBlocks | Retry | NoFuel => False | _ => True end.
Proof.
  induction p as [a0|e|a k IH]; intros b l r s H; cbn [wexec]; [done|done|].
  cbn [StepPhase.ph] in H. destruct (do_wact s a) as [[v s1]|why| |] eqn:Ed; cbn [bind].
  - act a H; naive_solver.
  - act a H; cbn [do_wact] in Ed; try done.
    + destruct (unlock_word (t_locks s) i0) as [m0|w'| |] eqn:El; try done. injection Ed as <-. unfold unlock_word in El.
      destruct (gen_odd _); try done. by injection El as <-.
    + unfold keep_node, get_alloc in Ed. destruct (t_allocs s !! a'); try done. by injection Ed as <-.
    + unfold flush_stats, get_alloc in Ed. destruct (t_allocs s !! a'); try done. by injection Ed as <-.
    + unfold add_items, get_alloc in Ed. destruct (t_allocs s !! a'); try done. by injection Ed as <-.
  - exfalso. act a H; cbn [do_wact] in Ed; try done.
    + unfold unlock_word in Ed. by destruct (gen_odd _).
    + unfold keep_node, get_alloc in Ed. by destruct (t_allocs s !! a').
    + unfold flush_stats, get_alloc in Ed. by destruct (t_allocs s !! a').
    + unfold add_items, get_alloc in Ed. by destruct (t_allocs s !! a').
  - exfalso. act a H; cbn [do_wact] in Ed; try done.
    + unfold unlock_word in Ed. by destruct (gen_odd _).
    + unfold keep_node, get_alloc in Ed. by destruct (t_allocs s !! a').
    + unfold flush_stats, get_alloc in Ed. by destruct (t_allocs s !! a').
    + unfold add_items, get_alloc in Ed. by destruct (t_allocs s !! a').
Qed.

Lemma pb_lock {A} (p : wprog A) Q i x : forall b l r s, i ∉ l -> ph (PB b l r) p Q ->
  wexec p (set_lock i x s) = rmap (fun '(a, s') => (a, set_lock i x s')) (wexec p s).
Proof.
  induction p as [a0|e|a k IH]; intros b l r s Hi H; cbn [wexec]; [done|by destruct e as [[]| |]|].
  cbn [StepPhase.ph] in H. act a H; cbn [do_wact].
  - destruct H as (l' & -> & H). apply not_elem_of_cons in Hi as [Hi1 Hi]. assert (i0 <> i) as Hne by congruence. unfold unlock_word.
    change (t_locks (set_lock i x s)) with (mset (t_locks s) i x). rewrite lget_mset_ne by done.
    destruct (gen_odd _); cbn [bind]; [done|]. rewrite mset_comm by done.
    exact (IH 0 b l' r (set_locks s (mset (t_locks s) i0 (gen_inc (lget (t_locks s) i0)))) Hi (H _)).
  - destruct H as [_ H]. exact (IH 0 b l false (unlock_root s) Hi (H _)).
  - exact (IH (t_epoch s) b l r s Hi (H _)).
  - unfold keep_node, get_alloc. cbn [set_lock set_locks t_allocs]. destruct (t_allocs s !! a') as [al|]; cbn [bind]; [|done].
    exact (IH _ b l r (put_alloc s a' _) Hi (H _)).
  - destruct H as [_ H]. exact (IH 0 _ l r (set_epoch s (u64 (t_epoch s + 1))) Hi (H _)).
  - unfold flush_stats, get_alloc. cbn [set_lock set_locks t_allocs]. destruct (t_allocs s !! a') as [al|]; cbn [bind]; [|done].
    exact (IH 0 b l r (set_live (put_alloc s a' _) _) Hi (H _)).
  - unfold add_items, get_alloc. cbn [set_lock set_locks t_allocs]. destruct (t_allocs s !! a') as [al|]; cbn [bind]; [|done].
    exact (IH 0 b l r (put_alloc s a' _) Hi (H _)).
  - destruct H as [_ H]. exact (IH 0 b l r (end_op s a') Hi (H _)).
Qed.

Lemma pb_root {A} (p : wprog A) Q x : forall b l r s, r = false -> ph (PB b l r) p Q ->
  wexec p (set_rootLock s x) = rmap (fun '(a, s') => (a, set_rootLock s' x)) (wexec p s).
Proof.
  induction p as [a0|e|a k IH]; intros b l r s Hi H; cbn [wexec]; [done|by destruct e as [[]| |]|].
  cbn [StepPhase.ph] in H. act a H; cbn [do_wact].
  - destruct H as (l' & -> & H). cbn [set_rootLock t_locks]. destruct (unlock_word _ _) as [m| | |]; cbn [bind]; try done.
    exact (IH 0 b l' r (set_locks s m) Hi (H _)).
  - destruct H as [? _]. congruence.
  - exact (IH (t_epoch s) b l r s Hi (H _)).
  - unfold keep_node, get_alloc. cbn [set_rootLock t_allocs]. destruct (t_allocs s !! a') as [al|]; cbn [bind]; [|done].
    exact (IH _ b l r (put_alloc s a' _) Hi (H _)).
  - destruct H as [_ H]. exact (IH 0 _ l r (set_epoch s (u64 (t_epoch s + 1))) Hi (H _)).
  - unfold flush_stats, get_alloc. cbn [set_rootLock t_allocs]. destruct (t_allocs s !! a') as [al|]; cbn [bind]; [|done].
    exact (IH 0 b l r (set_live (put_alloc s a' _) _) Hi (H _)).
  - unfold add_items, get_alloc. cbn [set_rootLock t_allocs]. destruct (t_allocs s !! a') as [al|]; cbn [bind]; [|done].
    exact (IH 0 b l r (put_alloc s a' _) Hi (H _)).
  - destruct H as [_ H]. exact (IH 0 b l r (end_op s a') Hi (H _)).
Qed.
End Rest.
