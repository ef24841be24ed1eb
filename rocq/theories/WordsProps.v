(** * WordsProps: lemmas behind the properties about packed words, prefixes and key
    encodings (C09, C10, C11, C43). *)
From Verif Require Export PrefixFacts Keys.

Lemma leaf_word_spec b v : b < 256 -> v < 2 ^ 64 ->
  getLeafValue (buildLeaf b v) = v mod 2 ^ 55 /\ to_byte (buildLeaf b v) = b /\
  isLeaf (buildLeaf b v) = true /\ buildLeaf b v <> 0 /\ buildLeaf b v < 2 ^ 64 /\
  (forall b', b' < 256 -> updateLeafKey (buildLeaf b v) b' = buildLeaf b' v) /\
  (forall k a c p, k < 256 -> a < 2 ^ 39 -> (1 <= c <= 256)%nat -> buildNode k a c p <> buildLeaf b v).
Proof.
  intros Hb Hv. split_and!.
  - by apply buildLeaf_value.
  - by apply buildLeaf_byte.
  - by apply buildLeaf_isLeaf.
  - by apply buildLeaf_nonzero.
  - rewrite buildLeaf_eq by done. assert (v mod 2 ^ 55 < 2 ^ 55) by (apply N.mod_lt; vm_compute; done).
    change (2 ^ 64) with (2 ^ 55 * 512). lia.
  - intros b' Hb'. by apply updateLeafKey_buildLeaf.
  - intros k a c p Hk Ha Hc E. pose proof (buildNode_notLeaf k a c p Hk Ha Hc) as H.
    rewrite E, buildLeaf_isLeaf in H by done. done.
Qed.

Lemma node_word_spec k a c p : k < 256 -> a < 2 ^ 39 -> (1 <= c <= 256)%nat ->
  explodeNode (buildNode k a c p) = (k, a, c, Nat.min p 255) /\
  isLeaf (buildNode k a c p) = false /\ buildNode k a c p < 2 ^ 64 /\
  (0 < a -> buildNode k a c p <> 0).
Proof.
  intros Hk Ha Hc. split_and!.
  - by apply explode_build.
  - by apply buildNode_notLeaf.
  - rewrite buildNode_eq by done. assert (plen8 p <= 255)%nat by (unfold plen8; lia).
    change (2 ^ 39) with 549755813888 in *. change (2 ^ 56) with 72057594037927936.
    change (2 ^ 48) with 281474976710656. change (2 ^ 64) with 18446744073709551616. lia.
  - intros Hp. apply buildNode_nonzero; try done. lia.
Qed.

(** Slots a prefix of [n] bytes needs: one per 8 bytes, and one for the length from 255 on. *)
Definition slots_for (n : nat) : N :=
  (N.of_nat n + 7) / 8 + (if (255 <=? n)%nat then 1 else 0).

Lemma slots_for_eq n : slots_for n = N.of_nat (prefix_slots n).
Proof.
  unfold slots_for, prefix_slots. rewrite Nat2N.inj_add, Nat2N.inj_div, Nat2N.inj_add.
  f_equal. by destruct (255 <=? n)%nat.
Qed.

Lemma prefix_roundtrip m a L pfx k n c :
  bytes pfx -> pfx <> [] -> slots_for (length pfx) <= L -> L <= 2 ^ 60 ->
  k < 256 -> n < 2 ^ 39 -> (1 <= c <= 256)%nat ->
  exists m' slots, store_prefix m (Slice a L) pfx = Ok m' /\
    N.of_nat slots = slots_for (length pfx) /\
    slots = prefix_slots (length pfx) /\
    (let '(_, _, _, plen) := explodeNode (buildNode k n c (length pfx)) in
     append_prefix m' (Slice a L) plen = Ok (pfx, slots) /\
     skip_prefix m' (Slice a L) plen = Ok (length pfx, slots, Slice (a + N.of_nat slots) (L - N.of_nat slots))) /\
    (forall x, x < a \/ a + N.of_nat slots <= x -> mget m' x = mget m x).
Proof.
  intros Hb Hne HL HL60 Hk Hn Hc. rewrite slots_for_eq in HL.
  destruct (store_prefix_ok m a L pfx Hb) as (m' & E & Hp & Ho); [done..|].
  exists m', (prefix_slots (length pfx)). rewrite slots_for_eq. split_and!; try done.
  - rewrite explode_build by done. split.
    + by apply append_prefix_ok.
    + by apply skip_prefix_ok.
  - intros x Hx. apply Ho. rewrite elem_of_seqN. lia.
Qed.

(** ** Key encodings *)

Lemma be_length n v : length (be n v) = n.
Proof. induction n; simpl; auto. Qed.

Lemma pow256_pos n : 0 < 256 ^ n.
Proof. assert (256 ^ n <> 0) by (apply N.pow_nonzero; lia). lia. Qed.

Lemma be_bytes n v : bytes (be n v).
Proof. induction n; simpl; constructor; auto. apply N.mod_lt. lia. Qed.

Lemma be_mod n v : be n v = be n (v mod 256 ^ N.of_nat n).
Proof.
  revert v; induction n as [|n IH]; intros v; [done|]. simpl. f_equal.
  - rewrite Nat2N.inj_succ, N.pow_succ_r'. pose proof (pow256_pos (N.of_nat n)).
    rewrite (N.mul_comm 256). rewrite N.mod_mul_r by lia.
    rewrite (N.mul_comm (256 ^ N.of_nat n)), N.div_add by lia.
    rewrite (N.div_small (v mod _)) by (apply N.mod_lt; lia). rewrite N.add_0_l.
    by rewrite N.mod_mod by lia.
  - rewrite (IH v), (IH (v mod 256 ^ N.of_nat (S n))). f_equal. rewrite Nat2N.inj_succ, N.pow_succ_r'.
    pose proof (pow256_pos (N.of_nat n)). rewrite (N.mul_comm 256), N.mod_mul_r by lia.
    rewrite (N.mul_comm (256 ^ N.of_nat n)), N.mod_add by lia. by rewrite N.mod_mod by lia.
Qed.

Lemma lex_lt_irrefl a : ~ lex_lt a a.
Proof. induction a; simpl; [tauto|]. intros [?|[_ ?]]; [lia|done]. Qed.

Lemma be_lt n v w : v < 256 ^ N.of_nat n -> w < 256 ^ N.of_nat n -> v < w -> lex_lt (be n v) (be n w).
Proof.
  revert v w; induction n as [|n IH]; intros v w Hv Hw Hlt.
  - change (256 ^ N.of_nat 0) with 1 in *. lia.
  - rewrite Nat2N.inj_succ, N.pow_succ_r' in Hv, Hw. pose proof (pow256_pos (N.of_nat n)) as Hp.
    simpl. set (P := 256 ^ N.of_nat n) in *.
    assert (v / P < 256) by (apply N.div_lt_upper_bound; lia).
    assert (w / P < 256) by (apply N.div_lt_upper_bound; lia).
    rewrite !N.mod_small by done.
    assert (v / P <= w / P) by (apply N.div_le_mono; lia).
    destruct (N.eq_dec (v / P) (w / P)) as [E|E]; [|left; lia].
    right. split; [done|]. rewrite be_mod, (be_mod n w). apply IH; try (apply N.mod_lt; lia).
    fold P. pose proof (N.div_mod' v P). pose proof (N.div_mod' w P). rewrite E in *. lia.
Qed.

Lemma lex_lt_asym a b : lex_lt a b -> lex_lt b a -> False.
Proof.
  revert b; induction a as [|x a IH]; intros [|y b]; simpl; try done.
  intros [?|[??]] [?|[??]]; try lia. eauto.
Qed.

Lemma be_lex n v w : v < 256 ^ N.of_nat n -> w < 256 ^ N.of_nat n ->
  (v < w <-> lex_lt (be n v) (be n w)).
Proof.
  intros Hv Hw. split; [by apply be_lt|]. intros Hl.
  destruct (N.lt_trichotomy v w) as [?|[->|?]]; [done|by apply lex_lt_irrefl in Hl|].
  exfalso. eapply lex_lt_asym; [done|]. by apply be_lt.
Qed.

Lemma be_prefix_free n v w : v < 256 ^ N.of_nat n -> w < 256 ^ N.of_nat n ->
  be n v `prefix_of` be n w -> v = w.
Proof.
  intros Hv Hw Hp.
  assert (E : be n v = be n w).
  { destruct Hp as [l Hl]. pose proof (f_equal length Hl) as Hlen. rewrite app_length, !be_length in Hlen.
    destruct l; simpl in Hlen; [|lia]. by rewrite app_nil_r in Hl. }
  destruct (N.lt_trichotomy v w) as [H|[?|H]]; [|done|].
  - apply (be_lt n) in H; try done. rewrite E in H. by apply lex_lt_irrefl in H.
  - apply (be_lt n) in H; try done. rewrite E in H. by apply lex_lt_irrefl in H.
Qed.

Lemma key_int64_eq z : (- 2 ^ 63 <= z < 2 ^ 63)%Z -> key_int64 z = be 8 (Z.to_N (z + 2 ^ 63)).
Proof.
  intros Hz. unfold key_int64. f_equal. unfold int64_bits.
  destruct (Z.lt_ge_cases z 0) as [Hneg|Hpos].
  - assert (E : (z mod 18446744073709551616 = z + 18446744073709551616)%Z).
    { symmetry. apply Z.mod_unique with (-1)%Z; lia. }
    rewrite E. set (y := Z.to_N (z + 2 ^ 63)).
    assert (Hy : y < 2 ^ 63) by (unfold y; lia).
    assert (Ey : Z.to_N (z + 18446744073709551616) = N.lor (N.shiftl 1 63) y).
    { rewrite lor_disjoint_add by done. unfold y. change (N.shiftl 1 63) with (2 ^ 63). lia. }
    rewrite Ey. change (N.shiftl 1 63) with (2 ^ 63).
    apply N.bits_inj; intros i. rewrite N.lxor_spec, N.lor_spec, N.pow2_bits_eqb.
    destruct (N.eqb_spec 63 i) as [<-|]; simpl.
    + symmetry. destruct (N.eq_dec y 0) as [->|]; [done|]. apply N.bits_above_log2. apply N.log2_lt_pow2; lia.
    + by destruct (N.testbit y i).
  - rewrite Z.mod_small by lia. set (y := Z.to_N z).
    assert (Hy : y < 2 ^ 63) by (unfold y; lia).
    replace (Z.to_N (z + 2 ^ 63)) with (N.lor (N.shiftl 1 63) y).
    2:{ rewrite lor_disjoint_add by done. unfold y. change (N.shiftl 1 63) with (2 ^ 63). lia. }
    change (N.shiftl 1 63) with (2 ^ 63).
    apply N.bits_inj; intros i. rewrite N.lxor_spec, N.lor_spec, N.pow2_bits_eqb.
    destruct (N.eqb_spec 63 i) as [<-|]; simpl.
    + assert (N.testbit y 63 = false) as ->; [|done].
      destruct (N.eq_dec y 0) as [->|]; [done|]. apply N.bits_above_log2. apply N.log2_lt_pow2; lia.
    + by destruct (N.testbit y i).
Qed.

Lemma int64_spec z w : (- 2 ^ 63 <= z < 2 ^ 63)%Z -> (- 2 ^ 63 <= w < 2 ^ 63)%Z ->
  ((z < w)%Z <-> lex_lt (key_int64 z) (key_int64 w)) /\ (key_int64 z `prefix_of` key_int64 w -> z = w).
Proof.
  intros Hz Hw. rewrite !key_int64_eq by done.
  assert (E : 256 ^ N.of_nat 8 = 18446744073709551616) by done.
  split.
  - rewrite <- be_lex by (rewrite E; lia). lia.
  - intros H. apply be_prefix_free in H; rewrite ?E; lia.
Qed.

Lemma zterm_prefix_free a b : 0 ∉ a -> 0 ∉ b -> zterm a `prefix_of` zterm b -> a = b.
Proof.
  unfold zterm. revert b; induction a as [|x a IH]; intros [|y b] Ha Hb [l Hl]; simpl in *.
  - done.
  - injection Hl as -> _. exfalso. apply Hb. left.
  - injection Hl as Hx Hl. by destruct a.
  - injection Hl as <- Hl. f_equal. rewrite not_elem_of_cons in Ha, Hb. apply IH; [tauto..|]. by exists l.
Qed.

Lemma zterm_lex a b : 0 ∉ a -> 0 ∉ b -> (lex_lt (zterm a) (zterm b) <-> lex_lt a b).
Proof.
  unfold zterm. revert b; induction a as [|x a IH]; intros [|y b] Ha Hb; simpl.
  - split; [intros [?|[_ ?]]; [lia|done]|done].
  - rewrite not_elem_of_cons in Hb. split; [done|]. intros _. left. lia.
  - rewrite not_elem_of_cons in Ha. split; [|done]. intros [?|[??]]; [lia|].  by destruct Ha.
  - rewrite not_elem_of_cons in Ha, Hb. rewrite IH by tauto. done.
Qed.

Lemma key_encodings :
  (forall v w, v < 2 ^ 64 -> w < 2 ^ 64 ->
     (v < w <-> lex_lt (be 8 v) (be 8 w)) /\ (be 8 v `prefix_of` be 8 w -> v = w)) /\
  (forall z w, (- 2 ^ 63 <= z < 2 ^ 63)%Z -> (- 2 ^ 63 <= w < 2 ^ 63)%Z ->
     ((z < w)%Z <-> lex_lt (key_int64 z) (key_int64 w)) /\ (key_int64 z `prefix_of` key_int64 w -> z = w)) /\
  (forall a b, 0 ∉ a -> 0 ∉ b ->
     (lex_lt (zterm a) (zterm b) <-> lex_lt a b) /\ (zterm a `prefix_of` zterm b -> a = b)).
Proof.
  split_and!.
  - intros v w Hv Hw. change (2 ^ 64) with (256 ^ N.of_nat 8) in *. split; [by apply be_lex|by apply be_prefix_free].
  - intros. by apply int64_spec.
  - intros. split; [by apply zterm_lex|by apply zterm_prefix_free].
Qed.
