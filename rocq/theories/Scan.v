(** * Scan: Finalize when its scans of the reservations see other values.
    Every allocation scans the reservations of all clients (epoch.go:39-48), one load after the other, and
    meanwhile other clients start and end calls.  The values the scans see are parameters here.  At most two
    allocations are made by one Finalize (two of them by that of a prefix mismatch, update.go:310-334). *)
From Verif Require Export Update Delete AllocFacts.

(** [f] with these values as reservations, if given. *)
Definition as_if {A} (o : option (list N)) (s : tree) (f : tree -> res (A * tree)) : res (A * tree) :=
  match o with
  | None => f s
  | Some l => do (a, s1) <- f (set_resv s l); Ok (a, set_resv s1 (t_resv s))
  end.

(** The values seen by the first and by the second scan. *)
Definition scans : Type := option (list N * list N).
Definition scan1 (sc : scans) : option (list N) := fst <$> sc.
Definition scan2 (sc : scans) : option (list N) := snd <$> sc.

(** radix.go:226-242. *)
Definition alloc_as (o : option (list N)) (s : tree) (aid count : nat) (prefix : list N) : res (N * slice * tree) :=
  as_if o s (fun s => allocate_node_with_prefix s aid count prefix).

(** update.go:265-416: [finalize_update_body] with such scans. *)
Definition finalize_update_body_as (sc : scans) (s : tree) (op : uop) (fetched : list N) (mtch : bool) (value : N) : res (bool * tree) :=
  let aid := u_alloc op in
  match u_kind op with
  | nodePrefixMiss =>
    do a <- key_at (u_key op) (u_depth op + u_mismatch op);
    do b <- key_at (u_prefix op) (u_mismatch op);
    let pl := (length (u_prefix op) - u_mismatch op - 1)%nat in
    do (updated, dst, s1) <- alloc_as (scan1 sc) s aid (u_count op) (drop (S (u_mismatch op)) (u_prefix op));
    do src <- sl_from (u_data op) (u_prefixSlots op);
    do m1 <- sl_copy (t_mem s1) dst src 0 (u_count op);
    do (n, d, s2) <- alloc_as (scan2 sc) (set_mem s1 m1) aid 2 (take (u_mismatch op) (drop (u_depth op) (u_key op)));
    do m2 <- add_sorted_children (t_mem s2) d (buildLeaf a value) (buildNode b updated (u_count op) pl);
    let s3 := pset (set_mem s2 m2) (u_nodePtr op) (buildNode (to_byte (u_raw op)) n 2 (u_mismatch op)) in
    do s4 <- unlock_uop s3 op;
    do s5 <- recycle s4 aid (u_node op) (u_count op + u_prefixSlots op);
    do s6 <- add_items s5 aid 1;
    Ok (true, s6)
  | _ => as_if (scan1 sc) s (fun s => finalize_update_body s op fetched mtch value)
  end.

(** update.go:265-423. *)
Definition finalize_update_as (sc : scans) (s : tree) (op : uop) (fetched : list N) (mtch : bool) (value : N) : res (bool * tree) :=
  do (u, s1) <- finalize_update_body_as sc s op fetched mtch value;
  Ok (u, end_op s1 (u_alloc op)).

(** delete.go:268-333. *)
Definition finalize_delete_as (sc : scans) (s : tree) (op : dop) : res (bool * tree) :=
  do (u, s1) <- as_if (scan1 sc) s (fun s => finalize_delete_body s op);
  Ok (u, end_op s1 (d_alloc op)).

Lemma finalize_update_body_as_None s op fk m v : finalize_update_body_as None s op fk m v = finalize_update_body s op fk m v.
Proof. unfold finalize_update_body_as, finalize_update_body. by destruct (u_kind op). Qed.

Lemma finalize_update_as_None s op fk m v : finalize_update_as None s op fk m v = finalize_update s op fk m v.
Proof. unfold finalize_update_as, finalize_update. by rewrite finalize_update_body_as_None. Qed.

Lemma finalize_delete_as_None s op : finalize_delete_as None s op = finalize_delete s op.
Proof. done. Qed.

(** No reservation is below all values seen. *)
Definition seen (o : option (list N)) (s : tree) : Prop :=
  forall l, o = Some l -> forall r, r ∈ t_resv s -> exists r', r' ∈ l /\ r' <= r.
Definition scanned (sc : scans) (s : tree) : Prop := seen (scan1 sc) s /\ seen (scan2 sc) s.

Lemma scanned_None s : scanned None s.
Proof. by split. Qed.

Lemma alloc_as_ok o s aid count pfx L :
  seen o s -> alloc_inv s L -> (aid < length (t_allocs s))%nat -> (1 <= count)%nat -> bytes pfx ->
  N.of_nat (count + prefix_slots (length pfx)) <= 262142 ->
  alloc_as o s aid count pfx = Panic OutOfBlocks \/
  exists n s', alloc_as o s aid count pfx =
      Ok (n, Slice (n + N.of_nat (prefix_slots (length pfx))) (dlen n - N.of_nat (prefix_slots (length pfx))), s') /\
    allocd s s' n (count + prefix_slots (length pfx)) L /\ prefix_at (t_mem s') n pfx.
Proof.
  intros Hsc Hinv Haid Hc Hb Hs. destruct o as [l|]; unfold alloc_as; cbn [as_if]; [|by apply allocate_node_with_prefix_ok].
  destruct (allocate_node_with_prefix_ok (set_resv s l) aid count pfx L) as [->|(n & s' & -> & [A1 A2 A3 A4] & Hp)]; try done.
  { by apply (alloc_inv_ext s). }
  { by left. }
  right. cbn [bind]. eexists n, _. split; [done|]. split; [|done]. split.
  - by apply (alloc_inv_ext s').
  - destruct A2. split; done.
  - done.
  - intros r x Hsf (r' & Hr' & Hle). destruct (A4 r x) as [B1 B2].
    + by apply (safe_from_ext s).
    + destruct (Hsc l eq_refl r' Hr') as (r1 & H1 & H2). exists r1. split; [done|]. lia.
    + split; [done|]. by apply (safe_from_ext s').
Qed.
