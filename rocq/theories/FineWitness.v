(** * FineWitness: concrete histories of interrupted calls. *)
From Verif Require Export FineScript.

Definition f4 (v : N) : list N := be 4 v.

(** ** A lock word shared by a node and its child *)

(** Client 0 builds a tree whose root node (slots 1 and 2) has two children: the leaf [1;0;0;0]
    and a node at slot 4097, which has the same lock word as slot 1. *)
Definition twins : list sched :=
  fputs f4 0 ([0; 16777216] ++ map (N.mul 256) (seqN 1 87) ++ [1; 257; 65536]).

(** It begins to delete the leaf and has read the generation of the root node; client 1 inserts the
    key [2;0;0;0]; client 0 goes on. *)
Definition lost_insert : list sched :=
  twins ++ [SCall (ADel 0 (f4 16777216)); SSteps 5 0] ++ fput f4 1 33554432 ++ [SDone 0; SCall (ADelF 0)].

Lemma clash_loses : exists tr x, freach_any (fixed 4) f4 2 tr x /\ fs_jobs x = ∅ /\ sy_open (fs_sys x) = ∅ /\
  h_map (freplay tr) !! [2; 0; 0; 0] = Some 33554432 /\ get f4 (fs_sys x) [2; 0; 0; 0] = None.
Proof.
  destruct (fafter_any 4 f4 lost_insert (fun tr x => (size (fs_jobs x) =? 0)%nat && (size (sy_open (fs_sys x)) =? 0)%nat &&
    bool_decide (h_map (freplay tr) !! [2; 0; 0; 0] = Some 33554432) && bool_decide (get f4 (fs_sys x) [2; 0; 0; 0] = None)))
    as (tr & x & Hr & H); [lia|by vm_compute|].
  apply andb_prop in H as [H H4]. apply andb_prop in H as [H H3]. apply andb_prop in H as [H1 H2].
  apply Nat.eqb_eq in H1. apply Nat.eqb_eq in H2. apply bool_decide_eq_true in H3. apply bool_decide_eq_true in H4.
  exists tr, x. split; [done|]. split; [by apply map_size_empty_inv|]. split; [by apply map_size_empty_inv|]. done.
Qed.

(** ** A lock word shared by a node and its grandchild *)

(** The root node (slot 1), its child (slot 8) with the leaf [0;1;0;0] and a node at slot 4097. *)
Definition grandtwins : list sched :=
  fputs f4 0 ([0; 16777216; 256; 65536] ++ map (N.mul 256) (seqN 2 86) ++ map (fun x => 256 * x + 1) (seqN 0 87) ++ [22528]).

(** Client 0 begins to delete [0;1;0;0]; client 1 inserts [2;0;0;0], which replaces the root node;
    client 0 goes on: it links the merged node into the old root node and recycles the grandchild. *)
Definition dead_parent : list sched :=
  grandtwins ++ [SCall (ADel 0 (f4 65536)); SSteps 12 0] ++ fput f4 1 33554432 ++ [SDone 0; SCall (ADelF 0)].

(** Inserts and deletes of one other key until the epoch advances; then 87 other inserts, which use
    the recycled memory. *)
Definition reuse : list sched :=
  (repeat (fput f4 0 50331648 ++ fdel 0 (f4 50331648)) 460 ≫= id) ++ fputs f4 0 (map (fun x => 16777216 + 256 * x) (seqN 1 87)).

Lemma clash_corrupts : exists tr x, freach_any (fixed 4) f4 2 tr x /\ fs_jobs x = ∅ /\ sy_open (fs_sys x) = ∅ /\
  h_map (freplay tr) !! [0; 0; 5; 0] = Some 1280 /\ [0; 0; 5; 0] ∉ h_susp (freplay tr) /\
  get f4 (fs_sys x) [0; 0; 5; 0] = None.
Proof.
  destruct (fafter_any 4 f4 (dead_parent ++ reuse) (fun tr x => (size (fs_jobs x) =? 0)%nat && (size (sy_open (fs_sys x)) =? 0)%nat &&
    (let h := freplay tr in bool_decide (h_map h !! [0; 0; 5; 0] = Some 1280) && bool_decide ([0; 0; 5; 0] ∉ h_susp h)) &&
    bool_decide (get f4 (fs_sys x) [0; 0; 5; 0] = None)))
    as (tr & x & Hr & H); [lia|by vm_compute|].
  apply andb_prop in H as [H H4]. apply andb_prop in H as [H H3]. apply andb_prop in H as [H1 H2]. apply andb_prop in H3 as [H3 H5].
  apply Nat.eqb_eq in H1. apply Nat.eqb_eq in H2. apply bool_decide_eq_true in H3. apply bool_decide_eq_true in H4. apply bool_decide_eq_true in H5.
  exists tr, x. split; [done|]. split; [by apply map_size_empty_inv|]. split; [by apply map_size_empty_inv|]. done.
Qed.
