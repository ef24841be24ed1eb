(** * Examples: concrete reachable states that meet the hypotheses of the API theorems. *)
From Verif Require Export Witness ApiTop.

Definition f3 (v : N) : list N := be 3 v.

(** Eight keys in two subtrees; client 1 has an update of key 1 open, client 0 has a delete of
    key 65537 open. *)
Definition busy_script : list act :=
  puts f3 0 [1; 2; 3; 257; 65537; 65538; 65539; 65793] ++ [APut 1 (f3 1)] ++ [ADel 0 (f3 65537)].

(** Four keys stored, one deleted again. *)
Definition quiet_script : list act := puts f2 0 [1; 2; 300; 301] ++ del 1 (f2 2).

Lemma ex_quiet : exists tr y, reachable (fixed 2) f2 2 tr y /\ sy_open y = ∅ /\ naids y = 2%nat /\
  h_map (replay tr) !! f2 1 = Some 1 /\ h_map (replay tr) !! f2 2 = None /\ h_map (replay tr) !! f2 300 = Some 300 /\
  size (h_map (replay tr)) = 3%nat /\ h_susp (replay tr) = ∅ /\ get f2 y (f2 300) = Some 300 /\ get f2 y (f2 2) = None.
Proof.
  destruct (after_reachable 2 f2 quiet_script (fun tr y =>
    (size (sy_open y) =? 0)%nat && (naids y =? 2)%nat && bool_decide (h_map (replay tr) !! f2 1 = Some 1) &&
    bool_decide (h_map (replay tr) !! f2 2 = None) && bool_decide (h_map (replay tr) !! f2 300 = Some 300) &&
    (size (h_map (replay tr)) =? 3)%nat && bool_decide (h_susp (replay tr) = ∅) &&
    bool_decide (get f2 y (f2 300) = Some 300) && bool_decide (get f2 y (f2 2) = None)))
    as (tr & y & Hr & H); [lia|by vm_compute|by vm_compute|].
  repeat (apply andb_prop in H as [H ?Hx]). exists tr, y. split; [done|].
  repeat match goal with Hz : bool_decide _ = true |- _ => apply bool_decide_eq_true in Hz end.
  repeat match goal with Hz : (_ =? _)%nat = true |- _ => apply Nat.eqb_eq in Hz end.
  split_and!; try done. by apply map_size_empty_inv.
Qed.

Lemma ex_busy : exists tr y y1 y0, reachable (fixed 3) f3 2 tr y /\
  proper (fixed 3) f3 y (CFinU 1 (f3 1) true 1) /\ api y (CFinU 1 (f3 1) true 1) = Ok (RBool true, y1) /\
  proper (fixed 3) f3 y (CFinD 0) /\ api y (CFinD 0) = Ok (RBool true, y0) /\
  proper (fixed 3) f3 y (CAbortU 1) /\ proper (fixed 3) f3 y (CAbortD 0) /\
  (exists i, locked y i) /\ get f3 y (f3 65537) = Some 65537 /\ get f3 y0 (f3 65537) = None.
Proof.
  destruct (after_reachable 3 f3 busy_script (fun tr y =>
    match sy_open y !! 1%nat with Some (HU true op) => bool_decide (u_value op = 1 /\ u_key op = f3 1) | _ => false end &&
    actb (fixedb 3) f3 y (ADelF 0) && actb (fixedb 3) f3 y (ADelA 0) &&
    match api y (CFinU 1 (f3 1) true 1), api y (CFinD 0) with
    | Ok (RBool true, _), Ok (RBool true, y0) => bool_decide (get f3 y0 (f3 65537) = None)
    | _, _ => false
    end && bool_decide (get f3 y (f3 65537) = Some 65537) &&
    existsb (fun i => gen_odd (lget (t_locks (sy_tree y)) i)) (seqN 0 100)))
    as (tr & y & Hr & H); [lia|by vm_compute|by vm_compute|].
  apply andb_prop in H as [H H6]. apply andb_prop in H as [H H5]. apply andb_prop in H as [H H4].
  apply andb_prop in H as [H H3]. apply andb_prop in H as [H1 H2].
  apply bool_decide_eq_true in H5.
  apply (actb_proper (fixedb 3) f3 y (ADelF 0)) in H2. apply (actb_proper (fixedb 3) f3 y (ADelA 0)) in H3.
  destruct (sy_open y !! 1%nat) as [[[] op| |]|] eqn:Eo; try done. apply bool_decide_eq_true in H1 as [Hv Hk].
  destruct (api y (CFinU 1 (f3 1) true 1)) as [[[| | |[]| |] y1]| | |] eqn:E1; try done.
  destruct (api y (CFinD 0)) as [[[| | |[]| |] y0]| | |] eqn:E2; try done. apply bool_decide_eq_true in H4.
  exists tr, y, y1, y0. split_and!; try done.
  - exists true, op. split_and!; [done|by rewrite Hk|]. intros _. by rewrite Hv, Hk.
  - by exists true, op.
  - apply existsb_exists in H6 as (i & _ & Hi). by exists i.
Qed.

(** A write conflict: while client 1 updates key 5 of a node-256, client 0 deletes it. *)
Definition conflict_script : list act := puts f2 0 (seqN 0 190) ++ [APut 1 (f2 5)] ++ del 0 (f2 5).

Lemma ex_conflict : exists tr y y1, reachable (fixed 2) f2 2 tr y /\ proper (fixed 2) f2 y (CFinU 1 (f2 5) true 5) /\
  api y (CFinU 1 (f2 5) true 5) = Ok (RBool false, y1) /\
  h_pend (replay tr) !! 1%nat = Some (Pend (f2 5) true true) /\ get f2 y1 (f2 5) = None.
Proof.
  destruct (after_reachable 2 f2 conflict_script (fun tr y =>
    match sy_open y !! 1%nat with Some (HU true op) => bool_decide (u_value op = 5 /\ u_key op = f2 5) | _ => false end &&
    match api y (CFinU 1 (f2 5) true 5) with
    | Ok (RBool false, y1) => bool_decide (get f2 y1 (f2 5) = None)
    | _ => false
    end && bool_decide (h_pend (replay tr) !! 1%nat = Some (Pend (f2 5) true true))))
    as (tr & y & Hr & H); [lia|by vm_compute|by vm_compute|].
  apply andb_prop in H as [H H3]. apply andb_prop in H as [H1 H2].
  apply bool_decide_eq_true in H3. destruct (sy_open y !! 1%nat) as [[[] op| |]|] eqn:Eo; try done.
  apply bool_decide_eq_true in H1 as [Hv Hk].
  destruct (api y (CFinU 1 (f2 5) true 5)) as [[[| | |[]| |] y1]| | |] eqn:E1; try done. apply bool_decide_eq_true in H2.
  exists tr, y, y1. split_and!; try done. exists true, op. split_and!; [done|by rewrite Hk|]. intros _. by rewrite Hv, Hk.
Qed.

(** Two nodes of the tree of [busy_script]. *)
Definition nodeb (s : tree) (w : N) : bool :=
  negb (isLeaf w) && let '(_, a, _, pl) := explodeNode w in
  match node_data s a with
  | Ok d => match skip_prefix (t_mem s) d pl with Ok _ => true | _ => false end
  | _ => false
  end.

Lemma nodeb_reg s w : nodeb s w = true -> exists r, node_reg s w r.
Proof.
  unfold nodeb. intros H. apply andb_prop in H as [H1 H2]. apply negb_true_iff in H1.
  destruct (explodeNode w) as [[[key a] count] pl] eqn:E. destruct (node_data s a) as [d| | |] eqn:Ed; try done.
  destruct (skip_prefix (t_mem s) d pl) as [[[len slots] d1]| | |] eqn:Es; try done.
  eexists. exists key, a, count, pl, d, len, slots, d1. done.
Qed.

Definition kid (s : tree) (w : N) (i : nat) : option N :=
  let '(_, a, count, pl) := explodeNode w in
  match node_data s a with
  | Ok d => match skip_prefix (t_mem s) d pl with
            | Ok (_, _, d1) => match sl_get (t_mem s) d1 i with Ok x => if (i <? count)%nat then Some x else None | _ => None end
            | _ => None
            end
  | _ => None
  end.

Lemma kid_live s p w i x : live s p w -> isLeaf w = false -> kid s w i = Some x -> x <> 0 -> live s (p ++ [i]) x.
Proof.
  unfold kid. intros Hl Hleaf H Hx. destruct (explodeNode w) as [[[key a] count] pl] eqn:E.
  destruct (node_data s a) as [d| | |] eqn:Ed; try done.
  destruct (skip_prefix (t_mem s) d pl) as [[[len slots] d1]| | |] eqn:Es; try done.
  destruct (sl_get (t_mem s) d1 i) as [z| | |] eqn:Eg; try done. destruct (Nat.ltb_spec i count); [|done].
  injection H as ->. by eapply live_child.
Qed.

Lemma ex_live : exists tr y w r w1 r1, reachable (fixed 3) f3 2 tr y /\
  live (sy_tree y) [] w /\ node_reg (sy_tree y) w r /\ live (sy_tree y) [0%nat] w1 /\ node_reg (sy_tree y) w1 r1.
Proof.
  destruct (after_reachable 3 f3 busy_script (fun tr y =>
    let s := sy_tree y in negb (t_root s =? 0) && nodeb s (t_root s) &&
    match kid s (t_root s) 0 with Some x => negb (x =? 0) && nodeb s x | None => false end))
    as (tr & y & Hr & H); [lia|by vm_compute|by vm_compute|].
  cbv zeta in H. apply andb_prop in H as [H H3]. apply andb_prop in H as [H1 H2].
  destruct (kid (sy_tree y) (t_root (sy_tree y)) 0) as [x|] eqn:Ek; [|done]. apply andb_prop in H3 as [H3 H4].
  apply negb_true_iff, N.eqb_neq in H1. apply negb_true_iff, N.eqb_neq in H3.
  assert (Hl : live (sy_tree y) [] (t_root (sy_tree y))) by (by constructor).
  assert (Hleaf : isLeaf (t_root (sy_tree y)) = false).
  { unfold nodeb in H2. apply andb_prop in H2 as [H2 _]. by apply negb_true_iff in H2. }
  destruct (nodeb_reg _ _ H2) as [r Hr1]. destruct (nodeb_reg _ _ H4) as [r1 Hr2].
  exists tr, y, (t_root (sy_tree y)), r, x, r1. split_and!; try done. by apply (kid_live _ [] _ _ _ Hl Hleaf Ek).
Qed.

(** A sequential history. *)
Fixpoint seqb (h : hist) (tr : list (call * reply)) : bool :=
  (size (h_pend h) <=? 1)%nat && match tr with [] => true | e :: tr' => seqb (hstep h e) tr' end.

Lemma seqb_ok tr : forall h tr1 tr2, seqb h tr = true -> tr = tr1 ++ tr2 -> (size (h_pend (fold_left hstep tr1 h)) <= 1)%nat.
Proof.
  induction tr as [|e tr IH]; intros h tr1 tr2 H E; cbn [seqb] in H; apply andb_prop in H as [H1 H2]; apply Nat.leb_le in H1.
  - destruct tr1; [done|done].
  - destruct tr1 as [|e1 tr1]; [done|]. simpl in E. injection E as <- ->. simpl. by apply (IH _ _ tr2).
Qed.

Lemma ex_sequential : exists tr y, reachable (fixed 2) f2 2 tr y /\ sequential tr /\ sy_open y = ∅ /\ size (h_map (replay tr)) = 3%nat.
Proof.
  destruct (after_reachable 2 f2 quiet_script (fun tr y => seqb h0 tr && (size (sy_open y) =? 0)%nat && (size (h_map (replay tr)) =? 3)%nat))
    as (tr & y & Hr & H); [lia|by vm_compute|by vm_compute|].
  apply andb_prop in H as [H H3]. apply andb_prop in H as [H1 H2]. apply Nat.eqb_eq in H2. apply Nat.eqb_eq in H3.
  exists tr, y. split_and!; try done; [|by apply map_size_empty_inv]. intros tr1 tr2 E. by eapply seqb_ok.
Qed.
