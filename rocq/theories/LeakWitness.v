(** * LeakWitness: a node that leaves the tree and is lost for the allocators. *)
From Verif Require Export Recycled Examples.

Definition regb (s : tree) (w : N) : option (N * nat) :=
  if isLeaf w then None else
  let '(_, a, count, pl) := explodeNode w in
  match node_data s a with
  | Ok d => match skip_prefix (t_mem s) d pl with Ok (_, slots, _) => Some (a, (slots + count)%nat) | _ => None end
  | _ => None
  end.

Lemma regb_some s w r : regb s w = Some r -> node_reg s w r.
Proof.
  unfold regb. intros H. destruct (isLeaf w) eqn:El; [done|].
  destruct (explodeNode w) as [[[key a] count] pl] eqn:E. destruct (node_data s a) as [d| | |] eqn:Ed; try done.
  destruct (skip_prefix (t_mem s) d pl) as [[[len slots] d1]| | |] eqn:Es; try done.
  injection H as <-. exists key, a, count, pl, d, len, slots, d1. done.
Qed.

Lemma regb_reg s w r : node_reg s w r -> regb s w = Some r.
Proof.
  intros (key & a & count & pl & d & len & slots & d1 & H1 & H2 & H3 & H4 & ->). unfold regb. by rewrite H1, H2, H3, H4.
Qed.

(** All children of the root are leaves. *)
Definition flatb (s : tree) : bool :=
  let '(_, a, count, pl) := explodeNode (t_root s) in
  forallb (fun i => match kid s (t_root s) i with Some x => isLeaf x | None => false end) (seq 0 count).

Lemma flat_live s p w : flatb s = true -> live s p w -> w = t_root s \/ isLeaf w = true.
Proof.
  intros Hf. induction 1 as [|p w key a count pl d len slots d1 i x Hl IH Hleaf Hex Hd Hsk Hi Hg Hx]; [by left|].
  destruct IH as [->|IH]; [|congruence]. right. unfold flatb in Hf. rewrite Hex in Hf. rewrite forallb_forall in Hf.
  specialize (Hf i). assert (In i (seq 0 count)) as Hin by (apply in_seq; lia). specialize (Hf Hin).
  unfold kid in Hf. rewrite Hex, Hd, Hsk, Hg in Hf. by destruct (Nat.ltb_spec i count); [|lia].
Qed.

Definition apartb (r r' : N * nat) : bool := (r.1 + N.of_nat r.2 <=? r'.1) || (r'.1 + N.of_nat r'.2 <=? r.1).

Lemma apartb_cover r l x : forallb (apartb r) l = true -> x ∈ seqN r.1 r.2 -> x ∉ cover l.
Proof.
  intros H Hx (r' & Hr & Hx')%elem_of_cover. rewrite forallb_forall in H. apply elem_of_list_In in Hr. specialize (H _ Hr).
  rewrite elem_of_seqN in *. unfold apartb in H. apply orb_prop in H as [H|H]; apply N.leb_le in H; lia.
Qed.

(** Keys 00 00, 00 01, 01 00; the last one is deleted. *)
Lemma leak_witness : exists tr y y' w r, reachable (fixed 2) f2 2 tr y /\ proper (fixed 2) f2 y (CFinD 0) /\
  api y (CFinD 0) = Ok (RBool true, y') /\
  live (sy_tree y) [] w /\ node_reg (sy_tree y) w r /\ (0 < r.2 < recyclerLen)%nat /\
  (forall p' w' r', live (sy_tree y') p' w' -> node_reg (sy_tree y') w' r' -> r'.1 <> r.1) /\
  (forall x, x ∈ seqN r.1 r.2 -> x ∉ cover (free_regs (sy_tree y'))).
Proof.
  destruct (after_reachable 2 f2 (puts f2 0 [0; 1; 256] ++ [ADel 0 (f2 256)]) (fun tr y => actb (fixedb 2) f2 y (ADelF 0) &&
    match regb (sy_tree y) (t_root (sy_tree y)), api y (CFinD 0) with
    | Some r, Ok (RBool true, y') =>
      negb (t_root (sy_tree y) =? 0) && (0 <? r.2)%nat && (r.2 <? recyclerLen)%nat && flatb (sy_tree y') &&
      match regb (sy_tree y') (t_root (sy_tree y')) with Some r' => negb (r'.1 =? r.1) | None => true end &&
      forallb (apartb r) (free_regs (sy_tree y'))
    | _, _ => false
    end)) as (tr & y & Hr & H); [lia|by vm_compute|by vm_compute|].
  apply andb_prop in H as [Hp H]. apply actb_proper in Hp.
  destruct (regb (sy_tree y) (t_root (sy_tree y))) as [r|] eqn:Er; [|done].
  destruct (api y (CFinD 0)) as [[[| | |[]| |] y']| | |] eqn:E; try done.
  apply andb_prop in H as [H H6]. apply andb_prop in H as [H H5]. apply andb_prop in H as [H H4].
  apply andb_prop in H as [H H3]. apply andb_prop in H as [H1 H2].
  apply negb_true_iff, N.eqb_neq in H1. apply Nat.ltb_lt in H2. apply Nat.ltb_lt in H3.
  exists tr, y, y', (t_root (sy_tree y)), r. split_and!; try done.
  - by constructor.
  - by apply regb_some.
  - intros p' w' r' Hl Hn. apply regb_reg in Hn. destruct (flat_live _ _ _ H4 Hl) as [->|Hleaf].
    + rewrite Hn in H5. apply negb_true_iff, N.eqb_neq in H5. done.
    + unfold regb in Hn. by rewrite Hleaf in Hn.
  - intros x Hx. by eapply apartb_cover.
Qed.

(** Without a merge the memory comes back: the same keys, deleted in another order. *)
Lemma recycled_example : exists tr y y' w r, reachable (fixed 2) f2 2 tr y /\ proper (fixed 2) f2 y (CFinD 0) /\
  api y (CFinD 0) = Ok (RBool true, y') /\ live (sy_tree y) [0%nat] w /\ node_reg (sy_tree y) w r /\
  (forall p' w' r', live (sy_tree y') p' w' -> node_reg (sy_tree y') w' r' -> r'.1 <> r.1) /\
  r ∈ map ireg (all_items (sy_tree y')).
Proof.
  destruct (after_reachable 2 f2 (puts f2 0 [0; 1; 256] ++ [ADel 0 (f2 1)]) (fun tr y => actb (fixedb 2) f2 y (ADelF 0) &&
    match kid (sy_tree y) (t_root (sy_tree y)) 0 with
    | Some x => match regb (sy_tree y) x, api y (CFinD 0) with
      | Some r, Ok (RBool true, y') =>
        negb (t_root (sy_tree y) =? 0) && negb (isLeaf (t_root (sy_tree y))) && negb (x =? 0) && flatb (sy_tree y') &&
        match regb (sy_tree y') (t_root (sy_tree y')) with Some r' => negb (r'.1 =? r.1) | None => true end &&
        bool_decide (r ∈ map ireg (all_items (sy_tree y')))
      | _, _ => false
      end
    | None => false
    end)) as (tr & y & Hr & H); [lia|by vm_compute|by vm_compute|].
  apply andb_prop in H as [Hp H]. apply actb_proper in Hp.
  destruct (kid (sy_tree y) (t_root (sy_tree y)) 0) as [x|] eqn:Ek; [|done].
  destruct (regb (sy_tree y) x) as [r|] eqn:Er; [|done].
  destruct (api y (CFinD 0)) as [[[| | |[]| |] y']| | |] eqn:E; try done.
  apply andb_prop in H as [H H6]. apply andb_prop in H as [H H5]. apply andb_prop in H as [H H4].
  apply andb_prop in H as [H H3]. apply andb_prop in H as [H1 H2].
  apply negb_true_iff, N.eqb_neq in H1. apply negb_true_iff in H2. apply negb_true_iff, N.eqb_neq in H3. apply bool_decide_eq_true in H6.
  exists tr, y, y', x, r. split_and!; try done.
  - apply (kid_live _ [] (t_root (sy_tree y)) 0); try done. by constructor.
  - by apply regb_some.
  - intros p' w' r' Hl Hn. apply regb_reg in Hn. destruct (flat_live _ _ _ H4 Hl) as [->|Hleaf].
    + rewrite Hn in H5. apply negb_true_iff, N.eqb_neq in H5. done.
    + unfold regb in Hn. by rewrite Hleaf in Hn.
Qed.
