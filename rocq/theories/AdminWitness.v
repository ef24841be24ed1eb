(** * AdminWitness: concrete trees on which Admin fails, and schedules in which it never returns. *)
From Coq Require Import String.
From Verif Require Export AdminFacts Examples.

#[global] Instance line_eq_dec : EqDecision line.
Proof. solve_decision. Defined.

(** "node" with the number of a word that points into a block which does not exist yet, and into the one after the last. *)
Lemma node_panics : exists tr y, reachable (fixed 2) f2 2 tr y /\ sy_open y = ∅ /\ h_map (replay tr) !! f2 300 = Some 300 /\
  admin (sy_tree y) [str "node"; str "134217728"] = Panic NilBlock /\
  admin (sy_tree y) [str "node"; str "8796093022208"] = Panic OutOfRange.
Proof.
  destruct (after_reachable 2 f2 quiet_script (fun tr y =>
    (size (sy_open y) =? 0)%nat && bool_decide (h_map (replay tr) !! f2 300 = Some 300) &&
    match admin (sy_tree y) [str "node"; str "134217728"] with Panic NilBlock => true | _ => false end &&
    match admin (sy_tree y) [str "node"; str "8796093022208"] with Panic OutOfRange => true | _ => false end))
    as (tr & y & Hr & H); [lia|by vm_compute|by vm_compute|].
  repeat (apply andb_prop in H as [H ?Hx]). exists tr, y. split; [done|].
  repeat match goal with Hz : bool_decide _ = true |- _ => apply bool_decide_eq_true in Hz end. apply Nat.eqb_eq in H.
  split_and!; [by apply map_size_empty_inv|done|..].
  - destruct (admin _ [_; str "134217728"]) as [|[]| |]; done.
  - destruct (admin _ [_; str "8796093022208"]) as [|[]| |]; done.
Qed.

(** The number of a node with more than 127 children, as "root" prints it, names a leaf for "node". *)
Lemma node_misread : exists tr y w key a prefix ls l, reachable (fixed 2) f2 2 tr y /\
  live (sy_tree y) [0%nat] w /\ isLeaf w = false /\
  (exists w0 c0, admin (sy_tree y) [str "root"] = Ok (ADump (DNode w0 prefix c0)) /\ c0 !! 0%nat = Some (LNode w key a ls 0)) /\
  admin (sy_tree y) [str "node"; dec w] = Ok (ADump (DLeaf l)).
Proof.
  destruct (after_reachable 2 f2 (puts f2 0 (seqN 0 130 ++ [256])) (fun tr y =>
    match admin (sy_tree y) [str "root"] with
    | Ok (ADump (DNode w0 prefix c0)) =>
      match c0 !! 0%nat with
      | Some (LNode w key a ls O) => negb (w =? 0) && negb (isLeaf w) && bool_decide (LNode w key a ls O = child_line w) &&
        match admin (sy_tree y) [str "node"; dec w] with Ok (ADump (DLeaf l)) => true | _ => false end
      | _ => false
      end
    | _ => false
    end)) as (tr & y & Hr & H); [lia|by vm_compute|by vm_compute|].
  destruct (admin (sy_tree y) [str "root"]) as [[| | | | | | | |d]| | |] eqn:Ea; try done. destruct d as [| |w0 prefix c0]; try done.
  destruct (c0 !! 0%nat) as [[|w key a ls [|]]|] eqn:Ec; try done. repeat (apply andb_prop in H as [H ?Hx]).
  destruct (admin (sy_tree y) [str "node"; dec w]) as [[| | | | | | | |[| l |]]| | |] eqn:En; try done.
  apply bool_decide_eq_true in Hx0. exists tr, y, w, key, a, prefix, ls, l. split; [done|].
  destruct (admin_root (fixed 2) f2 _ _ _ Hr) as (a' & Ea' & Hs). rewrite Ea in Ea'. injection Ea' as <-. destruct Hs as [Hs _].
  unfold shows in Hs. destruct w0 as [|w0 ? ? ? ?]; [done|]. destruct Hs as (_ & _ & _ & Hs).
  split_and!; [|by destruct (isLeaf w)|by eauto 10|done].
  apply (Hs 0%nat); [by destruct (N.eqb_spec w 0)|]. by rewrite Ec, Hx0.
Qed.

Lemma node_reg_of s w : match explodeNode w with (_, a, count, pl) => negb (isLeaf w) &&
    match node_data s a with Ok d => match skip_prefix (t_mem s) d pl with Ok _ => true | _ => false end | _ => false end end = true ->
  exists r, node_reg s w r.
Proof.
  destruct (explodeNode w) as [[[key a] count] pl] eqn:Ee. destruct (isLeaf w) eqn:El; [done|]. destruct (node_data s a) as [d| | |] eqn:Ed; try done.
  destruct (skip_prefix (t_mem s) d pl) as [[[len slots] d1]| | |] eqn:Es; try done. intros _. exists (a, (slots + count)%nat). by exists key, a, count, pl, d, len, slots, d1.
Qed.

(** Eight keys, two operations open: the root has two children, which are nodes. *)
Lemma ex_admin : exists tr y w l c0 c1, reachable (fixed 3) f3 2 tr y /\ size (sy_open y) = 2%nat /\ admin (sy_tree y) [str "root"] = Ok (ADump (DNode l [] [c0; child_line w])) /\
  c0 <> child_line w /\ live (sy_tree y) [1%nat] w /\ isLeaf w = false /\ w < 2 ^ 63 /\ (exists r, node_reg (sy_tree y) w r) /\
  admin (sy_tree y) [str "node"; dec w] = Ok (ADump c1) /\ exists x, live (sy_tree y) [1%nat; 1%nat] x /\ isLeaf x = true.
Proof.
  destruct (after_reachable 3 f3 busy_script (fun tr y =>
    (size (sy_open y) =? 2)%nat &&
    match admin (sy_tree y) [str "root"] with
    | Ok (ADump (DNode w0 [] [c0; LNode w key a ls pl])) =>
      negb (w =? 0) && negb (isLeaf w) && (w <? 2 ^ 63) && bool_decide (LNode w key a ls pl = child_line w) && negb (bool_decide (c0 = child_line w)) &&
      match explodeNode w with (_, a, count, pl) => negb (isLeaf w) &&
        match node_data (sy_tree y) a with Ok d => match skip_prefix (t_mem (sy_tree y)) d pl with Ok _ => true | _ => false end | _ => false end end &&
      match admin (sy_tree y) [str "node"; dec w] with
      | Ok (ADump (DNode _ _ ls)) => match ls !! 1%nat with Some (LLeaf x b v) => negb (x =? 0) && isLeaf x && bool_decide (LLeaf x b v = child_line x) | _ => false end
      | _ => false
      end
    | _ => false
    end)) as (tr & y & Hr & H); [lia|by vm_compute|by vm_compute|].
  apply andb_prop in H as [Ho H]. apply Nat.eqb_eq in Ho.
  destruct (admin (sy_tree y) [str "root"]) as [[| | | | | | | |d]| | |] eqn:Ea; try done. destruct d as [| |w0 [|] [|c0 [|[|w key a ls pl] [|]]]]; try done.
  repeat (apply andb_prop in H as [H ?Hx]).
  destruct (admin (sy_tree y) [str "node"; dec w]) as [[| | | | | | | |[| |w1 p1 l1]]| | |] eqn:En; try done.
  apply bool_decide_eq_true in Hx2. rewrite Hx2 in Ea. apply N.ltb_lt in Hx3. apply negb_true_iff in H. apply N.eqb_neq in H.
  destruct (admin_root (fixed 3) f3 _ _ _ Hr) as (a' & Ea' & Hs). rewrite Ea in Ea'. injection Ea' as <-. destruct Hs as [Hs _].
  unfold shows in Hs. destruct w0 as [|w0 ? ? ? ?]; [done|]. destruct Hs as (_ & _ & _ & Hs).
  assert (Hl : live (sy_tree y) [1%nat] w) by (by apply (Hs 1%nat)).
  exists tr, y, w. do 3 eexists. split; [done|]. split; [done|]. split; [exact Ea|]. split_and!; [|done|by destruct (isLeaf w)|done|by apply node_reg_of|exact En|].
  - by destruct (bool_decide_reflect (c0 = child_line w)).
  - destruct (l1 !! 1%nat) as [[x b v|]|] eqn:El; try done. repeat (apply andb_prop in Hx as [Hx ?Hy]). apply bool_decide_eq_true in Hy.
    destruct (admin_node (fixed 3) f3 _ _ _ _ _ Hr Hl Hx3) as (d & Ed & Hd). rewrite En in Ed. injection Ed as <-.
    unfold shows in Hd. destruct w1 as [|w1 ? ? ? ?]; [done|]. destruct Hd as (_ & _ & _ & Hd). exists x. split; [|done].
    apply (Hd 1%nat); [|by rewrite El, Hy]. by destruct (N.eqb_spec x 0).
Qed.
