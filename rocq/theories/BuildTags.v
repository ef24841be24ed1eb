(** * BuildTags: node words with the block sizes of the other build tags. *)
From Verif Require Export WordsProps.

(** blocksize.go:8, blocksize8.go:7, blocksize16.go:7 [blockSizeShift]; [maxBlockCount] is 65536 in all three. *)
Inductive tag := Size2 | Size8 | Size16.
Definition size_shift (t : tag) : N := match t with Size2 => 21 | Size8 => 23 | Size16 => 24 end.
(** radix.go:38 [blockSlotsShift] *)
Definition slots_shift (t : tag) : N := size_shift t - 3.

Lemma all_builds t k block off c p : k < 256 -> block < 65536 -> off < 2 ^ slots_shift t -> (1 <= c <= 256)%nat ->
  exists w, w = buildNode k (block * 2 ^ slots_shift t + off) c p /\ isLeaf w = false /\ w < 2 ^ 64 /\
    exists a, explodeNode w = (k, a, c, Nat.min p 255) /\ N.shiftr a (slots_shift t) = block /\ N.land a (N.ones (slots_shift t)) = off.
Proof.
  intros Hk Hb Ho Hc. set (a := block * 2 ^ slots_shift t + off).
  assert (Ha : a < 2 ^ 39).
  { unfold a. change (2 ^ 39) with 549755813888. destruct t; unfold slots_shift, size_shift in *;
      [change (2 ^ (21 - 3)) with 262144 in *|change (2 ^ (23 - 3)) with 1048576 in *|change (2 ^ (24 - 3)) with 2097152 in *]; lia. }
  assert (Hz : 2 ^ slots_shift t <> 0) by (apply N.pow_nonzero; lia).
  destruct (node_word_spec k a c p Hk Ha Hc) as (H1 & H2 & H3 & _). exists (buildNode k a c p). split_and!; try done. exists a. split_and!; [done| |].
  - rewrite N.shiftr_div_pow2. unfold a. rewrite N.div_add_l, N.div_small by done. lia.
  - rewrite N.land_ones. unfold a. rewrite N.add_comm, N.mod_add by done. by apply N.mod_small.
Qed.
