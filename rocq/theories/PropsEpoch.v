(** * PropsEpoch: the epoch protocol that protects readers, in every interleaving of single
    atomic operations, and MinKey without it.  [ereach n s]: the state [s] is reached by some
    interleaving of the holders of [n] allocators. *)
From Verif Require Import EpochFacts UnprotFacts.

(** C33: a cell that client [t] got to know since its startOp is not among the cells that some
    client [u] (possibly [t]) took with newNode and has not yet put into the tree. *)
Theorem C33_not_reused : forall n s t g c u h,
  ereach n s -> e_cls s !! t = Some g -> active (e_pc g) -> e_known g c -> e_cls s !! u = Some h -> c ∉ e_priv h.
Proof. exact readers_safe. Qed.
Print Assumptions C33_not_reused.

(** C33: no step of any client changes a cell that client [t] knows, except an update of a node
    that is in the tree at that moment. *)
Theorem C33_contents : forall n s t g c u s',
  ereach n s -> e_cls s !! t = Some g -> active (e_pc g) -> e_known g c -> estep s u s' ->
  e_heap s' c <> e_heap s c -> tree_cell s c /\ tree_cell s' c.
Proof. exact readers_contents. Qed.
Print Assumptions C33_contents.

(** A reader knows a cell that has left the tree and waits in the recycler of the other client. *)
Example C33_example : exists s0 k, ereach 2 s0 /\ k 1%N /\ exists sc sd u,
  s0 = ESt 0 [Some 0; Some 0]%nat (fun _ => []) [] u [ECl EActive k [] [] sc; ECl EActive none [([1; 2]%N, 0%nat)] [] sd].
Proof. exact ex_epoch_unlink. Qed.

(** Memory does get reused: the same two cells are taken again after the reader has finished. *)
Example C33_example_reuse : exists s0 g, ereach 2 s0 /\ e_cls s0 !! 1%nat = Some g /\ e_priv g = [1; 2]%N.
Proof. exact ex_epoch_reuse. Qed.

(** C34: MinKey loads the root word, other calls run to their end, MinKey goes on; it returns a
    value that no call ever stored. *)
Theorem C34_unprotected_refuted : exists tr1 y1 tr2 y2 v,
  reachable (fixed 10) f10b 2 tr1 y1 /\ reachable (fixed 10) f10b 2 (tr1 ++ tr2) y2 /\ sy_open y2 = ∅ /\
  min_key_along (sy_tree y1) [sy_tree y2] [] = Ok (v, true) /\ ~ stored_in (tr1 ++ tr2) v.
Proof. exact min_key_unprotected. Qed.
Print Assumptions C34_unprotected_refuted.

(** When nothing else runs, [min_key_along] is the MinKey of the other theorems. *)
Theorem C34_alone_partial : forall n s sp, min_key_along s (replicate n s) sp = min_key n s sp.
Proof. exact min_key_along_one. Qed.
Print Assumptions C34_alone_partial.
