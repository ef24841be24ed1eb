(** * FineExamples: histories of interrupted calls that meet the hypotheses of PropsFine.v. *)
From Verif Require Export FineWitness.

(** Run two schedules after each other and test both parts of the history. *)
Definition fafter2 (m : nat) (fetch : N -> list N) (l1 l2 : list sched) (Q : list event -> list event -> fsys -> bool) : bool :=
  match fplay (fixedb m) fetch unsharedb (finit 2) l1 with
  | Some (tr1, x1) =>
    match fplay (fixedb m) fetch unsharedb x1 l2 with
    | Some (tr2, x2) => (ncalls (tr1 ++ tr2) <? 2 ^ 31) && Q tr1 tr2 x2
    | None => false
    end
  | None => false
  end.

Lemma fafter2_reach m fetch l1 l2 Q : (0 < m < 1000)%nat -> fafter2 m fetch l1 l2 Q = true ->
  exists tr1 tr2 x, freachable (fixed m) fetch 2 (tr1 ++ tr2) x /\ Q tr1 tr2 x = true.
Proof.
  unfold fafter2. intros Hm H. destruct (fplay _ _ _ (finit 2) l1) as [[tr1 x1]|] eqn:E1; [|done].
  destruct (fplay _ _ _ x1 l2) as [[tr2 x2]|] eqn:E2; [|done]. apply andb_prop in H as [H1 H2]. apply N.ltb_lt in H1.
  exists tr1, tr2, x2. split; [|done]. split; [by apply fixed_universe| |unfold maxUint64; lia|by apply ncalls_small].
  eapply fplay_runs; [apply unsharedb_ok| |exact E2]. change tr1 with ([] ++ tr1).
  eapply fplay_runs; [apply unsharedb_ok|apply fruns_nil, unsharedb_ok; by vm_compute|exact E1].
Qed.

Lemma snoc_last {A} (l : list A) : match last l with Some e => exists l', l = l' ++ [e] | None => l = [] end.
Proof. destruct l as [|e l _] using rev_ind; [done|]. rewrite last_snoc. eauto. Qed.

Definition not_of (aid : nat) (e : event) : bool := bool_decide (fclient e <> Some aid).
Definition no_border (aid : nat) (e : event) : bool :=
  match e with EResv c => bool_decide (job_of c <> Some aid) | EReturn a _ _ => negb (a =? aid)%nat | _ => true end.
Lemma no_border_ok aid e : no_border aid e = true -> ~ borders aid e.
Proof.
  destruct e; simpl; intros H; try (by intros ?); [by apply bool_decide_eq_true in H|]. intros ->. by rewrite Nat.eqb_refl in H.
Qed.

Definition eight : list sched := fputs f3 0 [1; 2; 3; 257; 65537; 65538; 65539; 65793].

(** A Lookup of client 0 has read the leaf of key 1; then client 1 finalizes an update of the key. *)
Lemma ex_stale : exists tr x, freachable (fixed 3) f3 2 (tr ++ [EReturn 0 (CLookup 0 (f3 1)) (RLookup 1 true)]) x /\
  h_map (freplay tr) !! f3 1 = Some 16777217.
Proof.
  destruct (fafter_reach 3 f3 (eight ++ [SCall (AFind 0 (f3 1)); SSteps 8 0] ++ fput f3 1 16777217 ++ [SDone 0]) (fun tr x =>
    match last tr with
    | Some (EReturn a (CLookup b k) (RLookup v true)) => bool_decide (a = 0%nat /\ b = 0%nat /\ k = f3 1 /\ v = 1) && bool_decide (h_map (freplay tr) !! f3 1 = Some 16777217)
    | _ => false
    end)) as (tr & x & Hr & H); [lia|by vm_compute|].
  pose proof (snoc_last tr) as Hl. destruct (last tr) as [[| | | | |a [b k| | | | | | | |] [v []| | | | |]]|]; try done.
  apply andb_prop in H as [H1 H2]. apply bool_decide_eq_true in H1 as (-> & -> & -> & ->). apply bool_decide_eq_true in H2.
  destruct Hl as [tr' ->]. exists tr', x. split; [done|]. rewrite freplay_snoc in H2. done.
Qed.

(** Client 0 is in the middle of PrepareUpdate and has taken one of two locks; client 1 is in the middle of Lookup. *)
Lemma ex_mid : exists tr x, freachable (fixed 3) f3 2 tr x /\ (exists i, locked (fs_sys x) i) /\
  (exists p, fs_jobs x !! 0%nat = Some (Running (CPrepU 0 (f3 4)) p)) /\ (exists p, fs_jobs x !! 1%nat = Some (Running (CLookup 1 (f3 2)) p)).
Proof.
  destruct (fafter_reach 3 f3 (eight ++ [SCall (APut 0 (f3 4)); SSteps 24 0; SCall (AFind 1 (f3 2)); SSteps 5 1]) (fun tr x =>
    match fs_jobs x !! 0%nat, fs_jobs x !! 1%nat with
    | Some (Running (CPrepU a k) _), Some (Running (CLookup b k') _) => bool_decide (a = 0%nat /\ k = f3 4 /\ b = 1%nat /\ k' = f3 2)
    | _, _ => false
    end && existsb (fun i => gen_odd (lget (t_locks (sy_tree (fs_sys x))) i)) (seqN 0 100)))
    as (tr & x & Hr & H); [lia|by vm_compute|].
  apply andb_prop in H as [H1 H2]. exists tr, x. split; [done|]. apply existsb_exists in H2 as (i & _ & Hi). split; [by exists i|].
  destruct (fs_jobs x !! 0%nat) as [[|[| | | | | | | |] p0]|]; try done. destruct (fs_jobs x !! 1%nat) as [[|[| | | | | | | |] p1]|]; try done.
  apply bool_decide_eq_true in H1 as (-> & -> & -> & ->). eauto.
Qed.

Lemma go_call_step m fetch x a c r x' : go_call (fixedb m) fetch x a = Some (ECall c r, x') -> fstep (fixed m) fetch x (ECall c r) x'.
Proof. apply go_call_ok. Qed.

(** Client 0 has prepared an update of key 1; client 1 has stored key 65540 and tries in vain to insert key 4. *)
Lemma ex_rmw_u : exists tr1 tr2 x x', freachable (fixed 3) f3 2 (tr1 ++ EReturn 0 (CPrepU 0 (f3 1)) (RPrepU true 1) :: tr2) x /\
  Forall (fun e => fclient e <> Some 0%nat) tr2 /\ Exists (fun e => eacked e = true) tr2 /\ EAgain 1 ∈ tr2 /\
  fstep (fixed 3) f3 x (ECall (CFinU 0 (f3 1) true 16777217) (RBool true)) x'.
Proof.
  destruct (fafter2_reach 3 f3 (eight ++ [SCall (APut 0 (f3 1)); SDone 0]) (fput f3 1 65540 ++ [SCall (APut 1 (f3 4)); SSteps 40 1]) (fun tr1 tr2 x =>
    match last tr1 with
    | Some (EReturn a (CPrepU b k) (RPrepU true v)) => bool_decide (a = 0%nat /\ b = 0%nat /\ k = f3 1 /\ v = 1)
    | _ => false
    end && forallb (not_of 0) tr2 && existsb eacked tr2 && existsb (fun e => match e with EAgain 1 => true | _ => false end) tr2 &&
    match go_call (fixedb 3) f3 x (APutF 0 16777217) with
    | Some (ECall (CFinU a fk m v) (RBool true), _) => bool_decide (a = 0%nat /\ fk = f3 1 /\ m = true /\ v = 16777217)
    | _ => false
    end)) as (tr1 & tr2 & x & Hr & H); [lia|by vm_compute|].
  apply andb_prop in H as [H H5]. apply andb_prop in H as [H H4]. apply andb_prop in H as [H H3]. apply andb_prop in H as [H1 H2].
  pose proof (snoc_last tr1) as Hl. destruct (last tr1) as [[| | | | |a [|b k| | | | | | |] [|[] v| | | |]]|]; try done.
  apply bool_decide_eq_true in H1 as (-> & -> & -> & ->). destruct Hl as [tr0 ->]. rewrite <- app_assoc in Hr. simpl in Hr.
  destruct (go_call (fixedb 3) f3 x (APutF 0 16777217)) as [[[[| |a fk m v| | | | | |] [| | |[]| |]| | | | |] x']|] eqn:E; try done.
  apply bool_decide_eq_true in H5 as (-> & -> & -> & ->). apply go_call_step in E.
  exists tr0, tr2, x, x'. split; [done|]. split_and!; try done.
  - apply Forall_forall. intros e He. rewrite forallb_forall in H2. apply elem_of_list_In in He. specialize (H2 e He). by apply bool_decide_eq_true in H2.
  - apply Exists_exists. apply existsb_exists in H3 as (e & He & Ee). exists e. by rewrite elem_of_list_In.
  - apply existsb_exists in H4 as (e & He & Ee). destruct e as [| | | |a|]; try done. destruct a as [|[|a]]; try done. by apply elem_of_list_In.
Qed.

(** Client 1 stores key 4 while client 0 is in the middle of preparing the delete of key 65537. *)
Lemma ex_rmw_d : exists tr1 tr2 x x',
  freachable (fixed 3) f3 2 (tr1 ++ EResv (CPrepD 0 (f3 65537)) :: tr2 ++ EReturn 0 (CPrepD 0 (f3 65537)) (RPrepD (Some 65537)) :: []) x /\
  Forall (fun e => ~ borders 0 e) tr2 /\ Exists (fun e => eacked e = true) tr2 /\
  fstep (fixed 3) f3 x (ECall (CFinD 0) (RBool true)) x' /\ get f3 (fs_sys x) (f3 65537) = Some 65537.
Proof.
  destruct (fafter2_reach 3 f3 (eight ++ [SCall (ADel 0 (f3 65537)); SSteps 1 0]) ([SSteps 10 0] ++ fput f3 1 4 ++ [SDone 0]) (fun tr1 tr2 x =>
    match last tr1 with Some (EResv (CPrepD b k)) => bool_decide (b = 0%nat /\ k = f3 65537) | _ => false end &&
    match last tr2 with
    | Some (EReturn a (CPrepD b k) (RPrepD (Some v))) => bool_decide (a = 0%nat /\ b = 0%nat /\ k = f3 65537 /\ v = 65537)
    | _ => false
    end && forallb (no_border 0) (removelast tr2) && existsb eacked (removelast tr2) &&
    match go_call (fixedb 3) f3 x (ADelF 0) with
    | Some (ECall (CFinD a) (RBool true), _) => bool_decide (a = 0%nat)
    | _ => false
    end && bool_decide (get f3 (fs_sys x) (f3 65537) = Some 65537))) as (tr1 & tr2 & x & Hr & H); [lia|by vm_compute|].
  apply andb_prop in H as [H H6]. apply andb_prop in H as [H H5]. apply andb_prop in H as [H H4]. apply andb_prop in H as [H H3]. apply andb_prop in H as [H1 H2].
  apply bool_decide_eq_true in H6.
  pose proof (snoc_last tr1) as Hl. destruct (last tr1) as [[| |[| | | |b k| | | |]| | |]|]; try done.
  apply bool_decide_eq_true in H1 as (-> & ->). destruct Hl as [tr0 ->].
  pose proof (snoc_last tr2) as Hl. destruct (last tr2) as [[| | | | |a [| | | |b k| | | |] [| |[v|]| | |]]|]; try done.
  apply bool_decide_eq_true in H2 as (-> & -> & -> & ->). destruct Hl as [tr3 ->]. rewrite removelast_last in *.
  destruct (go_call (fixedb 3) f3 x (ADelF 0)) as [[[[| | | | |a| | |] [| | |[]| |]| | | | |] x']|] eqn:E; try done.
  apply bool_decide_eq_true in H5 as ->. apply go_call_step in E.
  exists tr0, tr3, x, x'. rewrite <- app_assoc in Hr. simpl in Hr. split; [done|]. split_and!; try done.
  - apply Forall_forall. intros e He. rewrite forallb_forall in H3. by apply no_border_ok, H3, elem_of_list_In.
  - apply Exists_exists. apply existsb_exists in H4 as (e & He & Ee). exists e. by rewrite elem_of_list_In.
Qed.

Lemma ex_done : exists tr x, freachable (fixed 3) f3 2 tr x /\ sy_open (fs_sys x) = ∅ /\ size (h_map (freplay tr)) = 8%nat.
Proof.
  destruct (fafter_reach 3 f3 eight (fun tr x => (size (sy_open (fs_sys x)) =? 0)%nat && (size (h_map (freplay tr)) =? 8)%nat))
    as (tr & x & Hr & H); [lia|by vm_compute|].
  apply andb_prop in H as [H1 H2]. apply Nat.eqb_eq in H1. apply Nat.eqb_eq in H2. exists tr, x.
  split; [done|]. split; [by apply map_size_empty_inv|done].
Qed.

(** Client 0 is in the middle of a delete that merges two nodes, client 1 inserts. *)
Lemma ex_compact : exists tr x, universe (fixed 3) /\ fruns (fixed 3) f3 compact 2 tr x /\ ncalls tr < 2 ^ 31 /\
  (exists op, sy_open (fs_sys x) !! 0%nat = Some (HD (f3 65537) op) /\ d_kind op = replaceNodeWithNode) /\
  (exists p, fs_jobs x !! 1%nat = Some (Running (CPrepU 1 (f3 5)) p)).
Proof.
  destruct (fafter_compact 3 f3 (fputs f3 0 [1; 2; 3; 257; 65537] ++ [SCall (APut 1 (f3 5)); SSteps 9 1; SCall (ADel 0 (f3 65537)); SDone 0]) (fun tr x =>
    match sy_open (fs_sys x) !! 0%nat, fs_jobs x !! 1%nat with
    | Some (HD k op), Some (Running (CPrepU b k') _) => bool_decide (k = f3 65537 /\ b = 1%nat /\ k' = f3 5) &&
        match d_kind op with replaceNodeWithNode => true | _ => false end
    | _, _ => false
    end)) as (tr & x & HU & Hr & Hn & H); [lia|by vm_compute|].
  exists tr, x. split_and!; try done.
  - destruct (sy_open (fs_sys x) !! 0%nat) as [[|k op|]|]; try done. destruct (fs_jobs x !! 1%nat) as [[|[] p]|]; try done.
    apply andb_prop in H as [H1 H2]. apply bool_decide_eq_true in H1 as (-> & _). exists op. split; [done|]. by destruct (d_kind op).
  - destruct (sy_open (fs_sys x) !! 0%nat) as [[|k op|]|]; try done. destruct (fs_jobs x !! 1%nat) as [[|[] p]|]; try done.
    apply andb_prop in H as [H1 H2]. apply bool_decide_eq_true in H1 as (_ & -> & ->). eauto.
Qed.
