(** * Witness: concrete histories of well-behaved clients on which a claim fails. *)
From Verif Require Export Script Keys ApiProps Live Seq.

Global Instance pend_eq : EqDecision pend.
Proof. solve_decision. Defined.
Global Instance reply_eq : EqDecision reply.
Proof. solve_decision. Defined.

Definition f1 (v : N) : list N := [v].
Definition f2 (v : N) : list N := be 2 v.
Definition f10 (v : N) : list N := v / 256 :: replicate 8 0 ++ [v mod 256].

(** Run a script and test the final state. *)
Definition after (m : nat) (fetch : N -> list N) (l : list act) (P : list (call * reply) -> sys -> bool) : bool :=
  match play (fixedb m) fetch (init 2) l with Some (tr, y) => P tr y | None => false end.

Lemma after_reachable m fetch l P : (0 < m < 1000)%nat -> N.of_nat (length l) < 1000000 -> after m fetch l P = true ->
  exists tr y, reachable (fixed m) fetch 2 tr y /\ P tr y = true.
Proof.
  unfold after. intros Hm Hl H. destruct (play (fixedb m) fetch (init 2) l) as [[tr y]|] eqn:E; [|done].
  exists tr, y. split; [|done]. by eapply play_reachable.
Qed.

Definition is_panic {A} (w : why) (r : res A) : bool :=
  match r, w with
  | Panic OutOfRange, OutOfRange | Panic NilBlock, NilBlock | Panic UnsafeOverrun, UnsafeOverrun
  | Panic PrefixViolation, PrefixViolation | Panic BadUnlock, BadUnlock | Panic OutOfBlocks, OutOfBlocks => true
  | _, _ => false
  end.

Lemma is_panic_eq {A} w (r : res A) : is_panic w r = true -> r = Panic w.
Proof. by destruct r as [|[]| |], w. Qed.

(** 190 keys [0;b] make a node-256; a delete is prepared, another client's insert replaces the
    node-256 before the delete is finalized. *)
Definition lost_script : list act := puts f2 0 (seqN 0 190) ++ [ADel 0 (f2 5)] ++ put f2 1 256.

Lemma lost_delete : exists tr y y', reachable (fixed 2) f2 2 tr y /\ proper (fixed 2) f2 y (CFinD 0) /\
  api y (CFinD 0) = Ok (RBool true, y') /\ h_pend (replay tr) !! 0%nat = Some (Pend (f2 5) true false) /\
  get f2 y' (f2 5) = Some 5 /\ len (sy_tree y') = 190%Z /\ size (h_map (replay tr)) = 191%nat.
Proof.
  destruct (after_reachable 2 f2 lost_script (fun tr y => actb (fixedb 2) f2 y (ADelF 0) &&
    match api y (CFinD 0) with
    | Ok (RBool true, y') => bool_decide (h_pend (replay tr) !! 0%nat = Some (Pend (f2 5) true false)) &&
        bool_decide (get f2 y' (f2 5) = Some 5) && (len (sy_tree y') =? 190)%Z && (size (h_map (replay tr)) =? 191)%nat
    | _ => false
    end)) as (tr & y & Hr & H); [lia|by vm_compute|by vm_compute|].
  apply andb_prop in H as [Hp H]. apply actb_proper in Hp.
  destruct (api y (CFinD 0)) as [[[| | |[]| |] y']| | |] eqn:E; try done.
  apply andb_prop in H as [H H4]. apply andb_prop in H as [H H3]. apply andb_prop in H as [H1 H2].
  apply bool_decide_eq_true in H1. apply bool_decide_eq_true in H2. apply Z.eqb_eq in H3. apply Nat.eqb_eq in H4.
  by exists tr, y, y'.
Qed.

(** Aborting the delete of one of the two children of the root, when the other child is a node. *)
Lemma root_merge_abort : exists tr y key op, reachable (fixed 2) f2 2 tr y /\ sy_open y !! 0%nat = Some (HD key op) /\
  api y (CAbortD 0) = Panic BadUnlock.
Proof.
  destruct (after_reachable 2 f2 (puts f2 0 [0; 1; 256] ++ [ADel 0 (f2 256)]) (fun tr y =>
    match sy_open y !! 0%nat with Some (HD _ _) => is_panic BadUnlock (api y (CAbortD 0)) | _ => false end))
    as (tr & y & Hr & H); [lia|by vm_compute|by vm_compute|].
  destruct (sy_open y !! 0%nat) as [[|key op|]|] eqn:E; try done. exists tr, y, key, op. split_and!; [done|done|].
  by apply is_panic_eq.
Qed.

(** A node-256 with an 8-byte prefix has 258 slots, the length of the recycler table. *)
Lemma recycle_panics : exists tr y, reachable (fixed 10) f10 2 tr y /\ proper (fixed 10) f10 y (CFinU 0 [] false 256) /\
  api y (CFinU 0 [] false 256) = Panic OutOfRange.
Proof.
  destruct (after_reachable 10 f10 (puts f10 0 (seqN 0 190) ++ [APut 0 (f10 256)]) (fun tr y =>
    match sy_open y !! 0%nat with
    | Some (HU false op) => bool_decide (f10 (256 mod 2 ^ 55) = u_key op) && is_panic OutOfRange (api y (CFinU 0 [] false 256))
    | _ => false
    end)) as (tr & y & Hr & H); [lia|by vm_compute|by vm_compute|].
  destruct (sy_open y !! 0%nat) as [[[] op| |]|] eqn:E; try done. apply andb_prop in H as [H1 H2].
  apply bool_decide_eq_true in H1. apply is_panic_eq in H2. exists tr, y. split_and!; [done| |done].
  exists false, op. split_and!; done.
Qed.

(** Lookup of the empty key when the root is a leaf. *)
Lemma empty_key : exists tr y, reachable (fixed 1) f1 2 tr y /\ api y (CLookup 1 []) = Panic OutOfRange /\
  api y (CPrepD 1 []) = Panic OutOfRange.
Proof.
  destruct (after_reachable 1 f1 (put f1 0 0) (fun tr y => is_panic OutOfRange (api y (CLookup 1 [])) &&
    is_panic OutOfRange (api y (CPrepD 1 [])))) as (tr & y & Hr & H); [lia|by vm_compute|by vm_compute|].
  apply andb_prop in H as [H1 H2]. exists tr, y. split_and!; [done|by apply is_panic_eq..].
Qed.

(** A candidate that shares no byte of the prefix with the key looked up. *)
Lemma far_candidate : exists tr y v, reachable (fixed 2) f2 2 tr y /\ proper (fixed 2) f2 y (CLookup 1 [9; 1]) /\
  api y (CLookup 1 [9; 1]) = Ok (RLookup v true, y) /\ f2 v = [0; 1].
Proof.
  destruct (after_reachable 2 f2 (puts f2 0 [0; 1]) (fun tr y => actb (fixedb 2) f2 y (AFind 1 [9; 1]) &&
    match api y (CLookup 1 [9; 1]) with
    | Ok (RLookup v true, _) => bool_decide (f2 v = [0; 1])
    | _ => false
    end)) as (tr & y & Hr & H); [lia|by vm_compute|by vm_compute|].
  apply andb_prop in H as [Hp H]. apply actb_proper in Hp. change (to_call f2 y (AFind 1 [9; 1])) with (CLookup 1 [9; 1]) in Hp.
  destruct (c02_lookup (fixed 2) f2 2 tr y 1 [9; 1] Hr Hp) as (v & found & E & _). rewrite E in H.
  destruct found; [|done]. apply bool_decide_eq_true in H. by exists tr, y, v.
Qed.

(** After deleting everything an empty node-256 remains, and a key that ends there panics. *)
Lemma emptied_tree : exists tr y, reachable (fixed 2) f2 2 tr y /\ h_map (replay tr) = ∅ /\ h_susp (replay tr) = ∅ /\
  sy_open y = ∅ /\ api y (CPrepU 0 [0]) = Panic OutOfRange.
Proof.
  destruct (after_reachable 2 f2 (puts f2 0 (seqN 0 190) ++ (seqN 0 190 ≫= fun v => del 0 (f2 v))) (fun tr y =>
    bool_decide (h_map (replay tr) = ∅) && bool_decide (h_susp (replay tr) = ∅) && (size (sy_open y) =? 0)%nat &&
    is_panic OutOfRange (api y (CPrepU 0 [0])))) as (tr & y & Hr & H); [lia|by vm_compute|by vm_compute|].
  apply andb_prop in H as [H H4]. apply andb_prop in H as [H H3]. apply andb_prop in H as [H1 H2].
  apply bool_decide_eq_true in H1. apply bool_decide_eq_true in H2. apply Nat.eqb_eq in H3. apply is_panic_eq in H4.
  exists tr, y. split_and!; try done. by apply map_size_empty_inv.
Qed.
