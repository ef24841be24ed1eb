(** * FineObsExamples: histories with interrupted iterations and counts. *)
From Verif Require Export FineObsScript.

Global Instance position_dec : EqDecision position. Proof. solve_decision. Defined.
Global Instance iter_dec : EqDecision Iter.iter. Proof. solve_decision. Defined.
Global Instance ocall_dec : EqDecision ocall. Proof. solve_decision. Defined.

Definition no_oborder (aid : nat) (e : oevent) : bool :=
  match e with OResv a _ | OReturn a _ _ => negb (a =? aid)%nat | _ => true end.
Lemma no_oborder_ok aid tr : forallb (no_oborder aid) tr = true -> Forall (fun e => ~ oborders aid e) tr.
Proof.
  rewrite forallb_forall, list.Forall_forall. intros H e He. apply elem_of_list_In, H in He. destruct e; simpl in *; try (by intros []);
    by apply negb_true_iff, Nat.eqb_neq in He.
Qed.

Definition throughoutb (tr1 : list oevent) (aid : nat) (c : ocall) (tr2 : list oevent) (P : hist -> bool) : bool :=
  forallb (fun i => P (oreplay (tr1 ++ OResv aid c :: take i tr2))) (seq 0 (S (length tr2))).
Lemma throughoutb_ok tr1 aid c tr2 P : throughoutb tr1 aid c tr2 P = true -> othroughout tr1 aid c tr2 (fun h => P h = true).
Proof.
  unfold throughoutb. rewrite forallb_forall. intros H tr3 [l E]. specialize (H (length tr3)). rewrite E, take_app in H. apply H.
  apply elem_of_list_In, elem_of_seq. rewrite app_length. lia.
Qed.

(** Client 1 makes a call that is interrupted after [n] accesses by the steps [mid] of client 0; it returns with a reply
    such that [R], and all the time [P] holds. *)
Definition call_of (pre : list osched) (c : ocall) : list osched := pre ++ [TObs 1 c; TSteps 1 1].
Definition rest_of (n : nat) (mid : list osched) : list osched := [TSteps n 1] ++ mid ++ [TDone 1].

Lemma obs_example pre c n mid (R : oreply -> bool) (P : hist -> bool) :
  oafter2 3 f3 (call_of pre c) (rest_of n mid) (fun tr1 tr2 x =>
    match last tr1 with
    | Some (OResv a c1) => bool_decide (a = 1%nat /\ c1 = c) &&
      match last tr2 with
      | Some (OReturn b c2 r) => bool_decide (b = 1%nat /\ c2 = c) && R r && forallb (no_oborder 1) (removelast tr2) &&
          throughoutb (removelast tr1) 1 c (removelast tr2) P
      | _ => false
      end
    | _ => false
    end) = true ->
  exists tr1 tr2 r x, oreachable (fixed 3) f3 2 ((tr1 ++ OResv 1 c :: tr2) ++ [OReturn 1 c r]) x /\ R r = true /\
    oduring (tr1 ++ OResv 1 c :: tr2) 1 c tr1 tr2 /\ othroughout tr1 1 c tr2 (fun h => P h = true).
Proof.
  intros H. apply oafter2_reach in H as (tr1 & tr2 & x & Hr & H); [|lia].
  pose proof (snoc_last tr1) as Hl1. destruct (last tr1) as [[|?|a c1|?|?]|]; try done. destruct Hl1 as [t1 ->]. rewrite removelast_last in H.
  apply andb_prop in H as [H1 H]. apply bool_decide_eq_true in H1 as [-> ->].
  pose proof (snoc_last tr2) as Hl2. destruct (last tr2) as [[|?|?|?|b c2 r]|]; try done. destruct Hl2 as [t2 ->]. rewrite removelast_last in H.
  apply andb_prop in H as [H H5]. apply andb_prop in H as [H H4]. apply andb_prop in H as [H2 H3]. apply bool_decide_eq_true in H2 as [-> ->].
  exists t1, t2, r, x. split_and!; [|done|split; [done|by apply no_oborder_ok]|by apply throughoutb_ok].
  rewrite <- !app_assoc in *. exact Hr.
Qed.

Definition eight' : list osched := map of_sched eight.
Definition counts (k : nat) (r : oreply) : bool := match r with RCount _ leaves _ => (leaves =? k)%nat | _ => false end.
Definition sizes (k : nat) (h : hist) : bool := negb (size (h_map h) =? k)%nat.

(** Count runs over 8 keys.  When it has passed the first of them, a key is stored there and the last key is deleted: it
    returns 7, but there were 8 or 9 keys all the time. *)
Lemma count_between : exists fuel tr1 tr2 nodes leaves cnt x,
  oreachable (fixed 3) f3 2 ((tr1 ++ OResv 1 (OCount fuel []) :: tr2) ++ [OReturn 1 (OCount fuel []) (RCount nodes leaves cnt)]) x /\
  oduring (tr1 ++ OResv 1 (OCount fuel []) :: tr2) 1 (OCount fuel []) tr1 tr2 /\
  othroughout tr1 1 (OCount fuel []) tr2 (fun h => size (h_map h) <> leaves).
Proof.
  destruct (obs_example eight' (OCount 100 []) 7 (map of_sched (fput f3 0 4 ++ fdel 0 (f3 65793))) (counts 7) (sizes 7)) as (tr1 & tr2 & r & x & H1 & H2 & H3 & H4); [by vm_compute|].
  destruct r as [|nodes leaves cnt]; [done|]. simpl in H2. apply Nat.eqb_eq in H2 as ->. exists 100%nat, tr1, tr2, nodes, 7%nat, cnt, x. split_and!; try done.
  intros tr3 Hp. specialize (H4 tr3 Hp). simpl in H4. by apply negb_true_iff, Nat.eqb_neq in H4.
Qed.

Definition bothb (ks : list N) (h : hist) : bool := forallb (fun v => match h_map h !! f3 v with Some _ => true | None => false end) ks.
Lemma bothb_ok ks h v : bothb ks h = true -> v ∈ ks -> bound (f3 v) h.
Proof.
  unfold bothb, bound. rewrite forallb_forall. intros H Hv. apply elem_of_list_In, H in Hv. destruct (h_map h !! f3 v); [by eexists|done].
Qed.

(** The same, with the keys that are there all the time. *)
Lemma ex_count : exists tr1 tr2 nodes cnt x,
  oreachable (fixed 3) f3 2 ((tr1 ++ OResv 1 (OCount 100 []) :: tr2) ++ [OReturn 1 (OCount 100 []) (RCount nodes 7 cnt)]) x /\
  oduring (tr1 ++ OResv 1 (OCount 100 []) :: tr2) 1 (OCount 100 []) tr1 tr2 /\
  othroughout tr1 1 (OCount 100 []) tr2 (bound (f3 1)) /\ othroughout tr1 1 (OCount 100 []) tr2 (bound (f3 65539)).
Proof.
  destruct (obs_example eight' (OCount 100 []) 7 (map of_sched (fput f3 0 4 ++ fdel 0 (f3 65793))) (counts 7) (bothb [1; 65539])) as (tr1 & tr2 & r & x & H1 & H2 & H3 & H4); [by vm_compute|].
  destruct r as [|nodes leaves cnt]; [done|]. simpl in H2. apply Nat.eqb_eq in H2 as ->. exists tr1, tr2, nodes, cnt, x.
  split_and!; try done; intros tr3 Hp; eapply bothb_ok; try (by apply H4); set_solver.
Qed.

(** Next starts an iteration over 8 keys; when it has passed the first of them, a key is stored there and the last key is
    deleted. *)
Definition firsts (vs : list N) (r : oreply) : bool :=
  match r with RNext true it => bool_decide (it_prefetched it = vs) && it_done it && bool_decide (it_value it = 1) && bool_decide (it_pp it = 1%nat) && bool_decide (it_prefix it = []) | _ => false end.

Lemma ex_next : exists tr1 tr2 it' x,
  oreachable (fixed 3) f3 2 ((tr1 ++ OResv 1 (ONext 100 (new_iter [])) :: tr2) ++ [OReturn 1 (ONext 100 (new_iter [])) (RNext true it')]) x /\
  oduring (tr1 ++ OResv 1 (ONext 100 (new_iter [])) :: tr2) 1 (ONext 100 (new_iter [])) tr1 tr2 /\
  it_prefetched it' = [1; 2; 3; 257; 65537; 65538; 65539] /\ it_value it' = 1 /\ it_done it' = true /\
  othroughout tr1 1 (ONext 100 (new_iter [])) tr2 (bound (f3 1)) /\ othroughout tr1 1 (ONext 100 (new_iter [])) tr2 (bound (f3 65539)).
Proof.
  destruct (obs_example eight' (ONext 100 (new_iter [])) 7 (map of_sched (fput f3 0 4 ++ fdel 0 (f3 65793))) (firsts [1; 2; 3; 257; 65537; 65538; 65539]) (bothb [1; 65539])) as (tr1 & tr2 & r & x & H1 & H2 & H3 & H4); [by vm_compute|].
  destruct r as [[] it'|]; try done. simpl in H2. apply andb_prop in H2 as [H2 _]. apply andb_prop in H2 as [H2 _]. apply andb_prop in H2 as [H2 E3]. apply andb_prop in H2 as [E1 E2].
  apply bool_decide_eq_true in E1, E3. exists tr1, tr2, it', x.
  split_and!; try done; intros tr3 Hp; eapply bothb_ok; try (by apply H4); set_solver.
Qed.

(** Next with a prefix that no key has: it returns false. *)
Lemma ex_next_none : exists tr1 tr2 it' x,
  oreachable (fixed 3) f3 2 ((tr1 ++ OResv 1 (ONext 100 (new_iter [2])) :: tr2) ++ [OReturn 1 (ONext 100 (new_iter [2])) (RNext false it')]) x.
Proof.
  destruct (obs_example eight' (ONext 100 (new_iter [2])) 2 (map of_sched (fput f3 0 4)) (fun r => match r with RNext false _ => true | _ => false end) (fun _ => true)) as (tr1 & tr2 & r & x & H1 & H2 & _ & _); [by vm_compute|].
  destruct r as [[] it'|]; try done. by exists tr1, tr2, it', x.
Qed.

(** The second Next of this iteration, with a prefetched value. *)
Lemma ex_next_ready : exists tr it it' x,
  oreachable (fixed 3) f3 2 (tr ++ [OReturn 1 (ONext 100 it) (RNext true it')]) x /\ it_prefetched it !! it_pp it = Some 2.
Proof.
  set (it := Iter 1 [] [1; 2; 3] 1 [] [] true).
  destruct (obs_example eight' (ONext 100 it) 0 (map of_sched (fdel 0 (f3 2))) (fun r => match r with RNext true _ => true | _ => false end) (fun _ => true)) as (tr1 & tr2 & r & x & H1 & H2 & _ & _); [by vm_compute|].
  destruct r as [[] it'|]; try done. by exists (tr1 ++ OResv 1 (ONext 100 it) :: tr2), it, it', x.
Qed.

(** Client 1 is in the middle of a Next while client 0 holds the locks of a prepared delete that merges two nodes. *)
Lemma ex_obs_mid : exists tr x a k, universe (fixed 3) /\ oruns (fixed 3) f3 compact 2 tr x /\ ncalls (lookups tr) < 2 ^ 31 /\
  os_obs x !! 1%nat = Some (ORunning (ONext 100 (new_iter [])) (Act a k)) /\
  (exists op, sy_open (os_sys x) !! 0%nat = Some (HD (f3 65537) op) /\ d_kind op = replaceNodeWithNode).
Proof.
  destruct (oafter_compact 3 f3 (map of_sched (fputs f3 0 [1; 2; 3; 257; 65537]) ++ [TObs 1 (ONext 100 (new_iter [])); TSteps 6 1;
    TCall (ADel 0 (f3 65537)); TDone 0]) (fun tr x =>
      match os_obs x !! 1%nat, sy_open (os_sys x) !! 0%nat with
      | Some (ORunning c (Act _ _)), Some (HD k op) => bool_decide (c = ONext 100 (new_iter []) /\ k = f3 65537) &&
          (match d_kind op with replaceNodeWithNode => true | _ => false end)
      | _, _ => false
      end)) as (tr & x & HU & Hr & Hn & H); [lia|by vm_compute|].
  destruct (os_obs x !! 1%nat) as [[|c [| |a k]]|] eqn:E1; try done. destruct (sy_open (os_sys x) !! 0%nat) as [[|k' op|]|] eqn:E2; try done.
  apply andb_prop in H as [H1 H2]. apply bool_decide_eq_true in H1 as [-> ->].
  exists tr, x, a, k. split_and!; try done. exists op. split; [done|]. by destruct (d_kind op).
Qed.

(** Client 0 looks up key 2 and client 1 counts at the same time; then client 0 deletes the key. *)
Lemma ex_obs_answer : exists tr x p, oreachable (fixed 3) f3 2 (tr ++ [OF (EReturn 0 (CLookup 0 (f3 2)) (RLookup 2 true))]) x /\
  os_obs x !! 1%nat = Some (ORunning (OCount 100 []) p).
Proof.
  destruct (oafter2_reach 3 f3 (eight' ++ [TObs 1 (OCount 100 []); TSteps 3 1; TCall (AFind 0 (f3 2)); TSteps 3 0; TSteps 2 1]) [TDone 0] (fun tr1 tr2 x =>
      match last tr2, os_obs x !! 1%nat with
      | Some (OF (EReturn a (CLookup b k) (RLookup v true))), Some (ORunning c p) =>
          bool_decide (a = 0%nat /\ b = 0%nat /\ k = f3 2 /\ v = 2 /\ c = OCount 100 [])
      | _, _ => false
      end)) as (tr1 & tr2 & x & Hr & H); [lia|by vm_compute|].
  pose proof (snoc_last tr2) as Hl. destruct (last tr2) as [[[| | | | |a [b k| | | | | | | |] [v []| | | | |]]|?|?|?|?]|]; try done.
  destruct (os_obs x !! 1%nat) as [[|c p]|] eqn:E1; try done. apply bool_decide_eq_true in H as (-> & -> & -> & -> & ->).
  destruct Hl as [t2 ->]. rewrite app_assoc in Hr. by exists (tr1 ++ t2), x, p.
Qed.
