(** * QWitness: concrete histories on which a claim about queries fails. *)
From Verif Require Export QueryTop Examples.

(** More rounds do not change the result of a loop that ended. *)
Lemma scan_mono s : forall fuel raw k st pre r x, scan_loop fuel s raw k st pre r = Ok x ->
  forall fuel', (fuel <= fuel')%nat -> scan_loop fuel' s raw k st pre r = Ok x.
Proof.
  induction fuel as [|fuel IH]; intros raw k st pre r x E fuel' Hf; [done|]. destruct fuel' as [|fuel']; [lia|]. cbn [scan_loop] in *.
  destruct (explodeNode raw) as [[[key node] count] pl]. destruct (node_data s node) as [d| | |]; try done. cbn [bind] in *.
  destruct (skip_prefix (t_mem s) d pl) as [[[len slots] d1]| | |]; try done. cbn [bind] in *.
  destruct (if (k <? count)%nat then sl_upto d1 count else Ok tt) as [u| | |]; try done. cbn [bind] in *.
  destruct (scan_children (t_mem s) (sl_base d1) k (count - k) pre) as [pre1 [[i a]|]]; [eapply IH; [done|lia]|].
  destruct st as [|pos rest]; [done|]. destruct (_ <? length pre1)%nat; [done|]. eapply IH; [done|lia].
Qed.

Lemma it_next_mono s it x fuel : it_next fuel s it = Ok x -> forall fuel', (fuel <= fuel')%nat -> it_next fuel' s it = Ok x.
Proof.
  unfold it_next. intros E fuel' Hf. destruct (it_prefetched it !! it_pp it); [done|]. destruct (it_done it); [done|].
  destruct (partial_search s (it_prefix it)) as [[raw d]| | |]; try done. cbn [bind] in *. destruct (raw =? 0); [done|]. destruct (isLeaf raw); [done|].
  destruct (pre_loop _ s (it_resume it) 0 raw []) as [[[raw1 nc] st]| | |]; try done. cbn [bind] in *.
  destruct (scan_loop fuel s raw1 nc st [] (it_resume it)) as [z| | |] eqn:Es; try done. by rewrite (scan_mono _ _ _ _ _ _ _ _ Es _ Hf).
Qed.

Lemma it_collect_mono s fuel fuel' : (fuel <= fuel')%nat -> forall calls it x, it_collect fuel calls s it = Ok x -> it_collect fuel' calls s it = Ok x.
Proof.
  intros Hf. induction calls as [|calls IH]; intros it x E; [done|]. cbn [it_collect] in *.
  destruct (it_next fuel s it) as [[more it1]| | |] eqn:En; try done. rewrite (it_next_mono _ _ _ _ En _ Hf). cbn [bind] in *.
  destruct more; [|done]. destruct (it_collect fuel calls s it1) as [z| | |] eqn:Ec; try done. by rewrite (IH _ _ Ec).
Qed.

Lemma it_along_mono fuel fuel' : (fuel <= fuel')%nat -> forall ss it x, it_along fuel ss it = Ok x -> it_along fuel' ss it = Ok x.
Proof.
  intros Hf. induction ss as [|s ss IH]; intros it x E; [done|]. cbn [it_along] in *.
  destruct (it_next fuel s it) as [[more it1]| | |] eqn:En; try done. rewrite (it_next_mono _ _ _ _ En _ Hf). cbn [bind] in *.
  destruct more; [|done]. destruct (it_along fuel ss it1) as [z| | |] eqn:Ec; try done. by rewrite (IH _ _ Ec).
Qed.

Lemma iterates_of fuel y sp calls vs e : it_collect fuel calls (sy_tree y) (new_iter sp) = Ok (vs, e) -> iterates y sp calls vs e.
Proof. intros E. exists fuel. intros n Hn. by eapply it_collect_mono. Qed.

Lemma count_of fuel y sp x : count fuel (sy_tree y) sp = Ok x -> returns (fun n => count n (sy_tree y) sp) x.
Proof.
  intros E. exists fuel. intros n Hn. unfold count in *. destruct (partial_search (sy_tree y) sp) as [[raw d]| | |]; try done. cbn [bind] in *.
  destruct (raw =? 0); [done|]. destruct (isLeaf raw); [done|]. by eapply count_loop_mono.
Qed.

Lemma min_of fuel y sp x : min_key fuel (sy_tree y) sp = Ok x -> returns (fun n => min_key n (sy_tree y) sp) x.
Proof.
  intros E. exists fuel. intros n Hn. unfold min_key in *. destruct (partial_search (sy_tree y) sp) as [[raw d]| | |]; try done. cbn [bind] in *.
  destruct (raw =? 0); [done|]. destruct (isLeaf raw); [done|]. clear d sp. revert raw n Hn x E.
  induction fuel as [|fuel IH]; intros raw n Hn x E; [done|]. destruct n as [|n]; [lia|]. cbn [min_loop] in *.
  destruct (explodeNode raw) as [[[key node] cnt] pl]. destruct (node_data (sy_tree y) node) as [d|w| |]; try done. cbn [bind] in E |- *.
  destruct (skip_prefix (t_mem (sy_tree y)) d pl) as [[[len sl] d1]|w| |]; try done. cbn [bind] in E |- *.
  destruct (fullAllocFrom <=? cnt)%nat.
  - destruct (sl_upto d1 cnt) as [u| | |]; try done. cbn [bind] in *. destruct (find_up _ _ _ _) as [a|]; [|done].
    destruct (isLeaf a); [done|]. apply IH; [lia|done].
  - destruct (sl_get (t_mem (sy_tree y)) d1 0) as [a| | |]; try done. cbn [bind] in *. destruct (isLeaf a); [done|]. apply IH; [lia|done].
Qed.

Lemma max_of fuel y sp x : max_key fuel (sy_tree y) sp = Ok x -> returns (fun n => max_key n (sy_tree y) sp) x.
Proof.
  intros E. exists fuel. intros n Hn. unfold max_key in *. destruct (partial_search (sy_tree y) sp) as [[raw d]| | |]; try done. cbn [bind] in *.
  destruct (raw =? 0); [done|]. destruct (isLeaf raw); [done|]. clear d sp. revert raw n Hn x E.
  induction fuel as [|fuel IH]; intros raw n Hn x E; [done|]. destruct n as [|n]; [lia|]. cbn [max_loop] in *.
  destruct (explodeNode raw) as [[[key node] cnt] pl]. destruct (node_data (sy_tree y) node) as [d|w| |]; try done. cbn [bind] in E |- *.
  destruct (skip_prefix (t_mem (sy_tree y)) d pl) as [[[len sl] d1]|w| |]; try done. cbn [bind] in E |- *.
  destruct (fullAllocFrom <=? cnt)%nat.
  - destruct (sl_upto d1 256) as [u| | |]; try done. cbn [bind] in *. destruct (find_down _ _ _) as [a|]; [|done].
    destruct (isLeaf a); [done|]. apply IH; [lia|done].
  - destruct (sl_get (t_mem (sy_tree y)) d1 (cnt - 1)) as [a| | |]; try done. cbn [bind] in *. destruct (isLeaf a); [done|]. apply IH; [lia|done].
Qed.

(** Two nodes with 200 leaves each: the second fills the prefetch buffer with nothing left in
    the tree, and the resume position is taken from the slot behind the root node. *)
Lemma iter_restarts : exists tr y vs, reachable (fixed 2) f2 2 tr y /\ size (h_map (replay tr)) = 400%nat /\ h_susp (replay tr) = ∅ /\
  sy_open y = ∅ /\ iterates y [] 1000 vs false /\ vs !! 400%nat = vs !! 0%nat /\ length vs = 1000%nat.
Proof.
  destruct (after_reachable 2 f2 (puts f2 0 (seqN 0 200 ++ seqN 256 200)) (fun tr y =>
    (size (h_map (replay tr)) =? 400)%nat && bool_decide (h_susp (replay tr) = ∅) && (size (sy_open y) =? 0)%nat &&
    match it_collect 100 1000 (sy_tree y) (new_iter []) with
    | Ok (vs, false) => bool_decide (vs !! 400%nat = vs !! 0%nat) && (length vs =? 1000)%nat
    | _ => false
    end)) as (tr & y & Hr & H); [lia|by vm_compute|by vm_compute|].
  apply andb_prop in H as [H H4]. apply andb_prop in H as [H H3]. apply andb_prop in H as [H1 H2].
  apply Nat.eqb_eq in H1. apply bool_decide_eq_true in H2. apply Nat.eqb_eq in H3.
  destruct (it_collect 100 1000 (sy_tree y) (new_iter [])) as [[vs []]| | |] eqn:E; try done.
  apply andb_prop in H4 as [H4 H5]. apply bool_decide_eq_true in H4. apply Nat.eqb_eq in H5.
  exists tr, y, vs. split_and!; try done; [by apply map_size_empty_inv|by eapply iterates_of].
Qed.

(** One stored key [0;1]; queries with prefix [0;9]. *)
Lemma stray_replies : exists tr y v c, reachable (fixed 2) f2 2 tr y /\ h_map (replay tr) = {[ [0; 1] := v ]} /\ sy_open y = ∅ /\
  returns (fun n => min_key n (sy_tree y) [0; 9]) (v, true) /\ returns (fun n => max_key n (sy_tree y) [0; 9]) (v, true) /\
  returns (fun n => count n (sy_tree y) [0; 9]) (O, 1%nat, c) /\ iterates y [0; 9] 2 [v] true.
Proof.
  destruct (after_reachable 2 f2 (put f2 0 1) (fun tr y =>
    bool_decide (h_map (replay tr) = {[ [0; 1] := 1 ]}) && (size (sy_open y) =? 0)%nat &&
    match min_key 9 (sy_tree y) [0; 9], max_key 9 (sy_tree y) [0; 9], count 9 (sy_tree y) [0; 9], it_collect 9 2 (sy_tree y) (new_iter [0; 9]) with
    | Ok (v1, true), Ok (v2, true), Ok (0%nat, 1%nat, _), Ok (vs, true) => (v1 =? 1) && (v2 =? 1) && bool_decide (vs = [1])
    | _, _, _, _ => false
    end)) as (tr & y & Hr & H); [lia|by vm_compute|by vm_compute|].
  apply andb_prop in H as [H H3]. apply andb_prop in H as [H1 H2]. apply bool_decide_eq_true in H1. apply Nat.eqb_eq in H2.
  destruct (min_key 9 (sy_tree y) [0; 9]) as [[v1 []]| | |] eqn:E1; try done.
  destruct (max_key 9 (sy_tree y) [0; 9]) as [[v2 []]| | |] eqn:E2; try done.
  destruct (count 9 (sy_tree y) [0; 9]) as [[[[] [|[]]] c]| | |] eqn:E3; try done.
  destruct (it_collect 9 2 (sy_tree y) (new_iter [0; 9])) as [[vs []]| | |] eqn:E4; try done.
  apply andb_prop in H3 as [H3 H5]. apply andb_prop in H3 as [H3 H4]. apply N.eqb_eq in H3, H4. apply bool_decide_eq_true in H5. subst v1 v2 vs.
  exists tr, y, 1, c. split_and!; try done; [by apply map_size_empty_inv|by eapply min_of|by eapply max_of|by eapply count_of|by eapply iterates_of].
Qed.

(** The first child of the root is an emptied node-256. *)
Lemma min_misses : exists tr y, reachable (fixed 2) f2 2 tr y /\ h_map (replay tr) !! f2 256 = Some 256 /\ h_susp (replay tr) = ∅ /\ sy_open y = ∅ /\
  returns (fun n => min_key n (sy_tree y) []) (0, false).
Proof.
  destruct (after_reachable 2 f2 (puts f2 0 (seqN 0 190 ++ [256; 257]) ++ (seqN 0 190 ≫= fun v => del 0 (f2 v))) (fun tr y =>
    bool_decide (h_map (replay tr) !! f2 256 = Some 256) && bool_decide (h_susp (replay tr) = ∅) && (size (sy_open y) =? 0)%nat &&
    match min_key 9 (sy_tree y) [] with Ok (0, false) => true | _ => false end)) as (tr & y & Hr & H); [lia|by vm_compute|by vm_compute|].
  apply andb_prop in H as [H H4]. apply andb_prop in H as [H H3]. apply andb_prop in H as [H1 H2].
  apply bool_decide_eq_true in H1, H2. apply Nat.eqb_eq in H3.
  destruct (min_key 9 (sy_tree y) []) as [[[] []]| | |] eqn:E; try done.
  exists tr, y. split_and!; try done; [by apply map_size_empty_inv|by eapply min_of].
Qed.

Lemma max_misses : exists tr y, reachable (fixed 2) f2 2 tr y /\ h_map (replay tr) !! f2 1 = Some 1 /\ h_susp (replay tr) = ∅ /\ sy_open y = ∅ /\
  returns (fun n => max_key n (sy_tree y) []) (0, false).
Proof.
  destruct (after_reachable 2 f2 (puts f2 0 (seqN 256 190 ++ [1; 2]) ++ (seqN 256 190 ≫= fun v => del 0 (f2 v))) (fun tr y =>
    bool_decide (h_map (replay tr) !! f2 1 = Some 1) && bool_decide (h_susp (replay tr) = ∅) && (size (sy_open y) =? 0)%nat &&
    match max_key 9 (sy_tree y) [] with Ok (0, false) => true | _ => false end)) as (tr & y & Hr & H); [lia|by vm_compute|by vm_compute|].
  apply andb_prop in H as [H H4]. apply andb_prop in H as [H H3]. apply andb_prop in H as [H1 H2].
  apply bool_decide_eq_true in H1, H2. apply Nat.eqb_eq in H3.
  destruct (max_key 9 (sy_tree y) []) as [[[] []]| | |] eqn:E; try done.
  exists tr, y. split_and!; try done; [by apply map_size_empty_inv|by eapply max_of].
Qed.

(** Two nodes are counted as three. *)
Lemma overcount : exists tr y c, reachable (fixed 2) f2 2 tr y /\ returns (fun n => count n (sy_tree y) []) (2%nat, 3%nat, c) /\ visits c = 3%nat.
Proof.
  destruct (after_reachable 2 f2 (puts f2 0 [0; 1; 256]) (fun tr y =>
    match count 9 (sy_tree y) [] with Ok (2%nat, 3%nat, c) => (visits c =? 3)%nat | _ => false end)) as (tr & y & Hr & H); [lia|by vm_compute|by vm_compute|].
  destruct (count 9 (sy_tree y) []) as [[[[|[|[|]]] [|[|[|[|]]]]] c]| | |] eqn:E; try done. apply Nat.eqb_eq in H.
  exists tr, y, c. split_and!; try done. by eapply count_of.
Qed.

(** Four nodes with 87 leaves each.  After the first 261 values all keys but one of the last
    node are deleted; the iterator returns that one and then the old values again. *)
Definition k87 : list N := seqN 0 4 ≫= fun h => seqN (256 * h) 87.
Definition del87 : list act := k87 ≫= fun v => if v =? 853 then [] else del 0 (f2 v).

Definition is_delete (e : call * reply) : bool := match e.1 with CPrepD _ _ | CFinD _ => true | _ => false end.

Lemma iter_repeats : exists tr y tr2 y2 vs, reachable (fixed 2) f2 2 tr y /\ reachable (fixed 2) f2 2 (tr ++ tr2) y2 /\
  Forall (fun e => is_delete e = true) tr2 /\
  (exists n0, forall n, (n0 <= n)%nat -> it_along n (replicate 261 (sy_tree y) ++ replicate 2 (sy_tree y2)) (new_iter []) = Ok (vs, false)) /\
  ~ NoDup vs.
Proof.
  destruct (after_reachable 2 f2 (puts f2 0 k87) (fun tr y =>
    match play (fixedb 2) f2 y del87 with
    | Some (tr2, y2) => forallb is_delete tr2 && (N.of_nat (length (tr ++ tr2)) <? 100000) &&
        match it_along 100 (replicate 261 (sy_tree y) ++ replicate 2 (sy_tree y2)) (new_iter []) with
        | Ok (vs, false) => negb (bool_decide (NoDup vs))
        | _ => false
        end
    | None => false
    end)) as (tr & y & Hr & H); [lia|by vm_compute|by vm_compute|].
  destruct (play (fixedb 2) f2 y del87) as [[tr2 y2]|] eqn:Ep; [|done]. apply andb_prop in H as [H H3]. apply andb_prop in H as [H1 H2].
  destruct (it_along 100 _ (new_iter [])) as [[vs []]| | |] eqn:E; try done. apply negb_true_iff, bool_decide_eq_false in H3.
  exists tr, y, tr2, y2, vs. split_and!; try done.
  - destruct (play_runs (fixedb 2) f2 2 _ _ _ _ _ (rc_runs _ _ _ _ _ Hr) Ep) as [Hr2 _]. split; [by destruct Hr|done|].
    apply N.ltb_lt in H2. unfold maxUint64. lia.
  - apply Forall_forall. intros e He. rewrite forallb_forall in H1. by apply H1, elem_of_list_In.
  - exists 100%nat. intros n Hn. by eapply it_along_mono.
Qed.

(** ** Examples *)

Definition last_leafb (s : tree) : bool :=
  negb (t_root s =? 0) && negb (isLeaf (t_root s)) &&
  let '(_, _, count, _) := explodeNode (t_root s) in
  match kid s (t_root s) (count - 1) with Some x => negb (x =? 0) && isLeaf x | None => false end.

Lemma live_top s w : live s [] w -> w = t_root s.
Proof. intros H. inversion H as [|p ? ? ? ? ? ? ? ? ? ? ? ? ? ? ? ? ? ? ? E]; [done|]. by destruct p. Qed.

Lemma last_leafb_ok s : last_leafb s = true -> last_leaf s.
Proof.
  unfold last_leafb. intros H. apply andb_prop in H as [H H3]. apply andb_prop in H as [H1 H2].
  apply negb_true_iff, N.eqb_neq in H1. apply negb_true_iff in H2.
  destruct (explodeNode (t_root s)) as [[[key a] count] pl] eqn:Ex. destruct (kid s (t_root s) (count - 1)) as [x|] eqn:Ek; [|done].
  apply andb_prop in H3 as [H3 H4]. apply negb_true_iff, N.eqb_neq in H3.
  assert (Hl : live s [] (t_root s)) by (by constructor).
  exists (count - 1)%nat, x. split_and!; [by apply (kid_live s [] (t_root s))|done|].
  intros j w' Hj. inversion Hj as [|p w key' a' count' pl' d len slots d1 i ? Hp Hlf He Hd Hs Hi Hg Hx Ep]; subst.
  destruct p as [|? p]; [|by destruct p]. injection Ep as <-. apply live_top in Hp. subst w. rewrite Ex in He. injection He as <- <- <- <-. lia.
Qed.

Definition root_roomb (s : tree) : bool :=
  let '(_, a, count, pl) := explodeNode (t_root s) in
  match node_data s a with
  | Ok d => match skip_prefix (t_mem s) d pl with Ok (_, slots, _) => N.of_nat (slots + count) <? dlen a | _ => false end
  | _ => false
  end.

Lemma root_roomb_ok s : root_roomb s = true -> root_room s.
Proof.
  unfold root_roomb. intros H r _ (key & a & count & pl & d & len & slots & d1 & Hlf & He & Hd & Hs & ->).
  rewrite He, Hd, Hs in H. by apply N.ltb_lt in H.
Qed.

(** 400 keys in two nodes and one key that is a leaf of the root. *)
Lemma ex_many : exists tr y, reachable (fixed 2) f2 2 tr y /\ size (h_map (replay tr)) = 401%nat /\
  root_room (sy_tree y) /\ last_leaf (sy_tree y).
Proof.
  destruct (after_reachable 2 f2 (puts f2 0 (seqN 0 200 ++ seqN 256 200 ++ [512])) (fun tr y =>
    (size (h_map (replay tr)) =? 401)%nat && root_roomb (sy_tree y) && last_leafb (sy_tree y))) as (tr & y & Hr & H); [lia|by vm_compute|by vm_compute|].
  apply andb_prop in H as [H H3]. apply andb_prop in H as [H1 H2]. apply Nat.eqb_eq in H1.
  exists tr, y. split_and!; [done|done|by apply root_roomb_ok|by apply last_leafb_ok].
Qed.
