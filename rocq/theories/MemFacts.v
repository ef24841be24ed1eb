(** * MemFacts: facts about the sparse memory. *)
From stdpp Require Export list_numbers.
From Verif Require Export Mem WordsFacts.

Lemma pt_get_set_eq t p x : pt_get (pt_set t p x) p = x.
Proof. revert t; induction p; intros [|l v r]; simpl; auto. Qed.

Lemma pt_get_set_ne t p q x : p <> q -> pt_get (pt_set t p x) q = pt_get t q.
Proof.
  revert t q; induction p; intros [|l v r] [q|q|] H; simpl; auto; try congruence.
  all: try (rewrite IHp by congruence; auto).
Qed.

Lemma lget_mset_eq m a x : lget (mset m a x) a = x.
Proof. apply pt_get_set_eq. Qed.

Lemma lget_mset_ne m a b x : a <> b -> lget (mset m a x) b = lget m b.
Proof.
  intros H. apply pt_get_set_ne. intros E. apply H.
  apply (f_equal N.pos) in E. rewrite !N.succ_pos_spec in E. lia.
Qed.

Lemma lget_mset m a b x : lget (mset m a x) b = if decide (a = b) then x else lget m b.
Proof. destruct (decide (a = b)) as [->|]; [apply lget_mset_eq|by apply lget_mset_ne]. Qed.

Lemma u64_lt x : u64 x < 18446744073709551616.
Proof. by apply N.mod_lt. Qed.

Lemma u64_small x : x < 18446744073709551616 -> u64 x = x.
Proof. apply N.mod_small. Qed.

Lemma mget_lt m a : mget m a < 18446744073709551616.
Proof. apply u64_lt. Qed.

Lemma mget_mset_u64 m a x : mget (mset m a x) a = u64 x.
Proof. unfold mget. by rewrite lget_mset_eq. Qed.

Lemma mget_mset_eq m a x : x < 18446744073709551616 -> mget (mset m a x) a = x.
Proof. intros H. rewrite mget_mset_u64. by apply u64_small. Qed.

Lemma mget_mset_ne m a b x : a <> b -> mget (mset m a x) b = mget m b.
Proof. intros H. unfold mget. by rewrite lget_mset_ne. Qed.

Lemma mget_mset m a b x : x < 18446744073709551616 -> mget (mset m a x) b = if decide (a = b) then x else mget m b.
Proof. intros H. destruct (decide (a = b)) as [->|]; [by apply mget_mset_eq|by apply mget_mset_ne]. Qed.

Lemma lget_mempty a : lget mempty a = 0.
Proof. done. Qed.

Lemma mget_mempty a : mget mempty a = 0.
Proof. done. Qed.

(** Consecutive addresses. *)
Definition seqN (a : N) (n : nat) : list N := map (fun i => a + N.of_nat i) (seq 0 n).

Lemma elem_of_seqN x a n : x ∈ seqN a n <-> a <= x < a + N.of_nat n.
Proof.
  unfold seqN. rewrite elem_of_list_In, in_map_iff. split.
  - intros (i & <- & Hi%in_seq). lia.
  - intros H. exists (N.to_nat (x - a)). rewrite in_seq. lia.
Qed.

Lemma seqN_length a n : length (seqN a n) = n.
Proof. unfold seqN. by rewrite map_length, seq_length. Qed.

Lemma seqN_S a n : seqN a (S n) = a :: seqN (a + 1) n.
Proof.
  unfold seqN. rewrite <- cons_seq. simpl. f_equal; [lia|].
  rewrite <- seq_shift, map_map. apply map_ext. intros. lia.
Qed.

Lemma seqN_app a n1 n2 : seqN a (n1 + n2) = seqN a n1 ++ seqN (a + N.of_nat n1) n2.
Proof.
  revert a; induction n1 as [|n1 IH]; intros a.
  - simpl. f_equal. lia.
  - change (S n1 + n2)%nat with (S (n1 + n2)). rewrite !seqN_S, IH. simpl. do 3 f_equal. lia.
Qed.

Lemma NoDup_seqN a n : NoDup (seqN a n).
Proof. unfold seqN. apply NoDup_fmap_2; [intros i j ?; lia|apply NoDup_ListNoDup, seq_NoDup]. Qed.

(** Agreement of two memories on a set of addresses. *)
Definition agree (m m' : mem) (l : list N) : Prop := forall x, x ∈ l -> mget m' x = mget m x.

Lemma mread_length m a n : length (mread m a n) = n.
Proof. revert a; induction n; intros; simpl; auto. Qed.

Lemma mread_lookup m a n i : (i < n)%nat -> mread m a n !! i = Some (mget m (a + N.of_nat i)).
Proof.
  revert a i; induction n; intros a i H; [lia|]. destruct i as [|i]; simpl.
  - by rewrite N.add_0_r.
  - rewrite IHn by lia. do 2 f_equal. lia.
Qed.

Lemma mread_lookup_ge m a n i : (n <= i)%nat -> mread m a n !! i = None.
Proof. intros. apply lookup_ge_None. by rewrite mread_length. Qed.

Lemma mread_ext m m' a n :
  (forall i, (i < n)%nat -> mget m' (a + N.of_nat i) = mget m (a + N.of_nat i)) ->
  mread m' a n = mread m a n.
Proof.
  intros H. apply list_eq; intros i. destruct (decide (i < n)%nat).
  - rewrite !mread_lookup by done. by rewrite H.
  - by rewrite !mread_lookup_ge by lia.
Qed.

Lemma mread_agree m m' a n : agree m m' (seqN a n) -> mread m' a n = mread m a n.
Proof. intros H. apply mread_ext. intros i Hi. apply H. apply elem_of_seqN. lia. Qed.

Lemma mread_app m a n1 n2 : mread m a (n1 + n2) = mread m a n1 ++ mread m (a + N.of_nat n1) n2.
Proof.
  revert a; induction n1; intros a; simpl.
  - by rewrite N.add_0_r.
  - rewrite IHn1. do 3 f_equal. lia.
Qed.

Lemma mget_mwrite_out m a ws x : (x < a \/ a + N.of_nat (length ws) <= x) -> mget (mwrite m a ws) x = mget m x.
Proof.
  revert m a; induction ws as [|w ws IH]; intros m a H; simpl in *; [done|].
  rewrite IH by lia. apply mget_mset_ne. lia.
Qed.

Lemma mget_mwrite_in m a ws i w : ws !! i = Some w -> mget (mwrite m a ws) (a + N.of_nat i) = u64 w.
Proof.
  revert m a i; induction ws as [|w' ws IH]; intros m a i H; [done|].
  destruct i as [|i]; simpl in *.
  - injection H as ->. rewrite mget_mwrite_out by lia. rewrite N.add_0_r. apply mget_mset_u64.
  - replace (a + N.of_nat (S i)) with (a + 1 + N.of_nat i) by lia. by apply IH.
Qed.

Lemma mread_mwrite m a ws : Forall (fun w => w < 18446744073709551616) ws -> mread (mwrite m a ws) a (length ws) = ws.
Proof.
  intros Hws. apply list_eq; intros i. destruct (decide (i < length ws)%nat) as [H|H].
  - rewrite mread_lookup by done. destruct (lookup_lt_is_Some_2 ws i H) as [w Hw].
    rewrite Hw. f_equal. rewrite (mget_mwrite_in _ _ _ _ _ Hw). apply u64_small. by apply (Forall_lookup_1 _ _ _ _ Hws Hw).
  - rewrite mread_lookup_ge by lia. symmetry. apply lookup_ge_None. lia.
Qed.
