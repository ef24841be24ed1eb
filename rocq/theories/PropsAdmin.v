(** * PropsAdmin: what Admin and Stats show in every reachable state. *)
From Coq Require Import String.
From Verif Require Import AdminWitness PoolAdmin DebugSearch.
Local Open Scope N_scope.

(** C80: "root" prints the root and a line for each child, each in its place and nothing else but empty places; the prefix it prints begins
    every stored key; it says that the index is empty only if no key is stored. *)
Theorem C80_root : forall K fetch n tr y, reachable K fetch n tr y -> exists a, admin (sy_tree y) [str "root"] = Ok a /\ root_shown K fetch y a.
Proof. exact admin_root. Qed.
Print Assumptions C80_root.

(** C80: the value printed for a leaf is the value of a stored key. *)
Theorem C80_leaves : forall K fetch n tr y p w, reachable K fetch n tr y -> live (sy_tree y) p w -> isLeaf w = true ->
  K (fetch (getLeafValue w)) /\ get fetch y (fetch (getLeafValue w)) = Some (getLeafValue w).
Proof. exact admin_leaves. Qed.
Print Assumptions C80_leaves.

Example C80_example : exists tr y w l c0 c1, reachable (fixed 3) f3 2 tr y /\ size (sy_open y) = 2%nat /\ admin (sy_tree y) [str "root"] = Ok (ADump (DNode l [] [c0; child_line w])) /\
  c0 <> child_line w /\ live (sy_tree y) [1%nat] w /\ isLeaf w = false /\ w < 2 ^ 63 /\ (exists r, node_reg (sy_tree y) w r) /\
  admin (sy_tree y) [str "node"; dec w] = Ok (ADump c1) /\ exists x, live (sy_tree y) [1%nat; 1%nat] x /\ isLeaf x = true.
Proof. exact ex_admin. Qed.

(** C81 (partial): no other command panics, whatever its arguments.
    Missing: "node" with any number, for which it is false. *)
Theorem C81_no_panic_partial : forall K fetch n tr y c args, reachable K fetch n tr y -> c <> str "node" -> exists a, admin (sy_tree y) (c :: args) = Ok a.
Proof. exact admin_rest. Qed.
Print Assumptions C81_no_panic_partial.

Example C81_example : exists tr y w l c0 c1, reachable (fixed 3) f3 2 tr y /\ size (sy_open y) = 2%nat /\ admin (sy_tree y) [str "root"] = Ok (ADump (DNode l [] [c0; child_line w])) /\
  c0 <> child_line w /\ live (sy_tree y) [1%nat] w /\ isLeaf w = false /\ w < 2 ^ 63 /\ (exists r, node_reg (sy_tree y) w r) /\
  admin (sy_tree y) [str "node"; dec w] = Ok (ADump c1) /\ exists x, live (sy_tree y) [1%nat; 1%nat] x /\ isLeaf x = true.
Proof. exact ex_admin. Qed.

(** C81: "node" panics when the number points into a block that does not exist yet, or just after the last possible block. *)
Theorem C81_node_panics_refuted : exists tr y, reachable (fixed 2) f2 2 tr y /\ sy_open y = ∅ /\ h_map (replay tr) !! f2 300 = Some 300 /\
  admin (sy_tree y) [str "node"; str "134217728"] = Panic NilBlock /\
  admin (sy_tree y) [str "node"; str "8796093022208"] = Panic OutOfRange.
Proof. exact node_panics. Qed.
Print Assumptions C81_node_panics_refuted.

(** C82 (partial): the number that is printed for a node or leaf of the tree, given to "node", shows that node with its children or that leaf.
    Missing: numbers of 2^63 or more, for which it is false. *)
Theorem C82_node_partial : forall K fetch n tr y p w, reachable K fetch n tr y -> live (sy_tree y) p w -> w < 2 ^ 63 ->
  exists d, admin (sy_tree y) [str "node"; dec w] = Ok (ADump d) /\ shows (sy_tree y) p w d.
Proof. exact admin_node. Qed.
Print Assumptions C82_node_partial.

Example C82_example : exists tr y w l c0 c1, reachable (fixed 3) f3 2 tr y /\ size (sy_open y) = 2%nat /\ admin (sy_tree y) [str "root"] = Ok (ADump (DNode l [] [c0; child_line w])) /\
  c0 <> child_line w /\ live (sy_tree y) [1%nat] w /\ isLeaf w = false /\ w < 2 ^ 63 /\ (exists r, node_reg (sy_tree y) w r) /\
  admin (sy_tree y) [str "node"; dec w] = Ok (ADump c1) /\ exists x, live (sy_tree y) [1%nat; 1%nat] x /\ isLeaf x = true.
Proof. exact ex_admin. Qed.

(** C82: the number of a node with 256 slots is 2^63 or more; "node" cuts it to 2^63 - 1 and shows a leaf that is not there. *)
Theorem C82_full_node_refuted : exists tr y w key a prefix ls l, reachable (fixed 2) f2 2 tr y /\
  live (sy_tree y) [0%nat] w /\ isLeaf w = false /\
  (exists w0 c0, admin (sy_tree y) [str "root"] = Ok (ADump (DNode w0 prefix c0)) /\ c0 !! 0%nat = Some (LNode w key a ls 0)) /\
  admin (sy_tree y) [str "node"; dec w] = Ok (ADump (DLeaf l)).
Proof. exact node_misread. Qed.
Print Assumptions C82_full_node_refuted.

(** C83: every node of the tree lies in a block that "blocks" lists as used and Stats counts, within the number of bytes Stats reports. *)
Theorem C83_blocks : forall K fetch n tr y p w r, reachable K fetch n tr y -> live (sy_tree y) p w -> node_reg (sy_tree y) w r ->
  r.1 / blockSlots + 1 < si_blocks (tree_stats (sy_tree y)) /\ 8 * (r.1 + N.of_nat r.2) <= si_bytes (tree_stats (sy_tree y)) /\
  admin (sy_tree y) [str "blocks"] = Ok (ABlocks (si_blocks (tree_stats (sy_tree y)) - 1)).
Proof. exact admin_blocks. Qed.
Print Assumptions C83_blocks.

Example C83_example : exists tr y w l c0 c1, reachable (fixed 3) f3 2 tr y /\ size (sy_open y) = 2%nat /\ admin (sy_tree y) [str "root"] = Ok (ADump (DNode l [] [c0; child_line w])) /\
  c0 <> child_line w /\ live (sy_tree y) [1%nat] w /\ isLeaf w = false /\ w < 2 ^ 63 /\ (exists r, node_reg (sy_tree y) w r) /\
  admin (sy_tree y) [str "node"; dec w] = Ok (ADump c1) /\ exists x, live (sy_tree y) [1%nat; 1%nat] x /\ isLeaf x = true.
Proof. exact ex_admin. Qed.

(** C84: two calls of "allocators" on a tree with two allocators wait for each other for ever, in every continuation. *)
Theorem C84_two_admins_refuted : exists s, preach (fun _ c => c = QGet) 2 2 s /\ holds s 0 0 /\ holds s 1 1 /\
  forall l s', prun s l = Some s' -> in_get s' 0 /\ in_get s' 1.
Proof. exact two_admins. Qed.
Print Assumptions C84_two_admins_refuted.

(** C84: after Stop has returned, "allocators" does not return (unless Start is called). *)
Theorem C84_stopped_refuted : exists s, preach (one_admin 0) 2 1 s /\ idle s 0 /\ p_stopped s = true /\
  forall k s', prun s (replicate (S k) (0%nat, QGet)) = Some s' -> in_get s' 0.
Proof. exact admin_stopped. Qed.
Print Assumptions C84_stopped_refuted.

(** C84 (partial): if all allocators are free and nobody interrupts it, "allocators" has all of them after at most
    n(2n+3) steps, and gives them back in the order it got them, after which the pool is as before.
    Missing: other clients at the same time; two calls at once and a stopped tree, for which it is false. *)
Theorem C84_alone_partial : forall s t w, p_gors s !! t = Some (Gor PIdle [] w) -> Forall (fun b => b = false) (p_slots s) ->
  exists k ids s1, (k <= length (p_slots s) * (2 * length (p_slots s) + 3))%nat /\ length ids = length (p_slots s) /\ NoDup ids /\
    prun s (replicate k (t, QGet)) = Some s1 /\ idle s1 t /\ (forall i, holds s1 t i <-> i ∈ ids) /\ (forall i, i ∈ ids <-> (i < length (p_slots s))%nat) /\
    prun s1 (release_all t ids) = Some s.
Proof. exact admin_returns. Qed.
Print Assumptions C84_alone_partial.

Example C84_alone_example : exists s, preach (one_admin 0) 3 2 s /\ p_gors s !! 1%nat = Some (Gor PIdle [] []) /\ Forall (fun b => b = false) (p_slots s) /\ length (p_slots s) = 3%nat.
Proof. exists (pool0 3 2). split; [constructor|]. split; [done|]. split; [by repeat constructor|done]. Qed.

(** C89: debugSearch returns the value that Lookup returns, also if it is 0 because nothing was found.  In a tree that is not empty it prints
    nothing if the root is a leaf, else the root and then a child of the node printed before, and so on. *)
Theorem C89_debug_search : forall K fetch n tr y aid key, reachable K fetch n tr y -> proper K fetch y (CLookup aid key) ->
  exists ds v f y', debug_search (sy_tree y) key = Ok (ds, v) /\ api y (CLookup aid key) = Ok (RLookup v f, y') /\
    (t_root (sy_tree y) <> 0 -> (ds = [] <-> isLeaf (t_root (sy_tree y)) = true) /\
      exists q, forall i d, ds !! i = Some d -> exists w, live (sy_tree y) (take i q) w /\ shows (sy_tree y) (take i q) w d).
Proof. exact c89_debug. Qed.
Print Assumptions C89_debug_search.

Example C89_example : exists tr y d0 d1, reachable (fixed 3) (be 3) 2 tr y /\ proper (fixed 3) (be 3) y (CLookup 1 [1; 0; 1]) /\ t_root (sy_tree y) <> 0 /\
  debug_search (sy_tree y) [1; 0; 1] = Ok ([d0; d1], 65537).
Proof. exact ex_debug. Qed.
