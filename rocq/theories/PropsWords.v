(** * PropsWords: properties C09, C10, C11 and C43. *)
From Verif Require Import BuildTags.

(** C09: every value read back from a leaf is the stored value modulo 2^55; the key byte is
    kept; a leaf is recognised as such, is never the empty slot, never a node word. *)
Theorem C09_leaf_words : forall b v, b < 256 -> v < 2 ^ 64 ->
  getLeafValue (buildLeaf b v) = v mod 2 ^ 55 /\ to_byte (buildLeaf b v) = b /\
  isLeaf (buildLeaf b v) = true /\ buildLeaf b v <> 0 /\ buildLeaf b v < 2 ^ 64 /\
  (forall b', b' < 256 -> updateLeafKey (buildLeaf b v) b' = buildLeaf b' v) /\
  (forall k a c p, k < 256 -> a < 2 ^ 39 -> (1 <= c <= 256)%nat -> buildNode k a c p <> buildLeaf b v).
Proof. exact leaf_word_spec. Qed.
Print Assumptions C09_leaf_words.

Example C09_example : 255 < 256 /\ 18446744073709551615 < 2 ^ 64 /\
  getLeafValue (buildLeaf 255 18446744073709551615) = 36028797018963967.
Proof. vm_compute. done. Qed.

(** C10: node words unpack to what was packed; only the prefix length saturates at 255. *)
Theorem C10_node_words : forall k a c p, k < 256 -> a < 2 ^ 39 -> (1 <= c <= 256)%nat ->
  explodeNode (buildNode k a c p) = (k, a, c, Nat.min p 255) /\
  isLeaf (buildNode k a c p) = false /\ buildNode k a c p < 2 ^ 64 /\
  (0 < a -> buildNode k a c p <> 0).
Proof. exact node_word_spec. Qed.
Print Assumptions C10_node_words.

Example C10_example : explodeNode (buildNode 7 (2 ^ 39 - 1) 256 300) = (7, 2 ^ 39 - 1, 256%nat, 255%nat).
Proof. vm_compute. done. Qed.

(** C10: with each of the three build tags, a word for any offset in any of the 65536 blocks gives back the block and the offset. *)
Theorem C10_all_builds : forall t k block off c p, k < 256 -> block < 65536 -> off < 2 ^ slots_shift t -> (1 <= c <= 256)%nat ->
  exists w, w = buildNode k (block * 2 ^ slots_shift t + off) c p /\ isLeaf w = false /\ w < 2 ^ 64 /\
    exists a, explodeNode w = (k, a, c, Nat.min p 255) /\ N.shiftr a (slots_shift t) = block /\ N.land a (N.ones (slots_shift t)) = off.
Proof. exact all_builds. Qed.
Print Assumptions C10_all_builds.

Example C10_builds_example : 65535 < 65536 /\ 2097151 < 2 ^ slots_shift Size16 /\
  explodeNode (buildNode 7 (65535 * 2 ^ slots_shift Size16 + 2097151) 256 300) = (7, 2 ^ 37 - 1, 256%nat, 255%nat).
Proof. vm_compute. done. Qed.

(** C11: a prefix of any length, written to node memory and announced in a node word, is read
    back byte for byte by the copying reader ([append_prefix]) and skipped correctly by the
    skipping reader ([skip_prefix]); the slots used are one per 8 bytes plus one length slot
    from 255 bytes on; no other slot changes. *)
Theorem C11_prefix_storage : forall m a L pfx k n c,
  bytes pfx -> pfx <> [] -> slots_for (length pfx) <= L -> L <= 2 ^ 60 ->
  k < 256 -> n < 2 ^ 39 -> (1 <= c <= 256)%nat ->
  exists m' slots, store_prefix m (Slice a L) pfx = Ok m' /\
    N.of_nat slots = slots_for (length pfx) /\
    slots = prefix_slots (length pfx) /\
    (let '(_, _, _, plen) := explodeNode (buildNode k n c (length pfx)) in
     append_prefix m' (Slice a L) plen = Ok (pfx, slots) /\
     skip_prefix m' (Slice a L) plen = Ok (length pfx, slots, Slice (a + N.of_nat slots) (L - N.of_nat slots))) /\
    (forall x, x < a \/ a + N.of_nat slots <= x -> mget m' x = mget m x).
Proof. exact prefix_roundtrip. Qed.
Print Assumptions C11_prefix_storage.

Example C11_example : bytes (replicate 255 200) /\ replicate 255 200 <> [] /\
  slots_for (length (replicate 255 200)) = 33 /\ slots_for (length (replicate 254 200)) = 32.
Proof. split_and!; [apply Forall_replicate; lia|done|done|done]. Qed.

(** C43: big-endian uint64, sign-flipped big-endian int64 and zero-terminated strings are
    prefix-free and ordered like the encoded data. *)
Theorem C43_key_encodings :
  (forall v w, v < 2 ^ 64 -> w < 2 ^ 64 ->
     (v < w <-> lex_lt (be 8 v) (be 8 w)) /\ (be 8 v `prefix_of` be 8 w -> v = w)) /\
  (forall z w, (- 2 ^ 63 <= z < 2 ^ 63)%Z -> (- 2 ^ 63 <= w < 2 ^ 63)%Z ->
     ((z < w)%Z <-> lex_lt (key_int64 z) (key_int64 w)) /\ (key_int64 z `prefix_of` key_int64 w -> z = w)) /\
  (forall a b, 0 ∉ a -> 0 ∉ b ->
     (lex_lt (zterm a) (zterm b) <-> lex_lt a b) /\ (zterm a `prefix_of` zterm b -> a = b)).
Proof. exact key_encodings. Qed.
Print Assumptions C43_key_encodings.

Example C43_example : key_int64 (-1) = [127;255;255;255;255;255;255;255] /\ be 8 258 = [0;0;0;0;0;0;1;2] /\
  lex_lt (key_int64 (-1)) (key_int64 0) /\ 0 ∉ [1;2].
Proof.
  split_and!; [vm_compute; done..|vm_compute; left; done|].
  rewrite !not_elem_of_cons. split_and!; [done|done|apply not_elem_of_nil].
Qed.
