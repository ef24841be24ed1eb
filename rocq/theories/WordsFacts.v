(** * WordsFacts: packing facts for [Words.v]. *)
From Verif Require Export Words.
Global Arguments N.mul : simpl never.
Global Arguments N.add : simpl never.
Global Arguments N.sub : simpl never.
Global Arguments N.div : simpl never.
Global Arguments N.modulo : simpl never.
Global Arguments N.pow : simpl never.
Global Arguments N.shiftl : simpl never.
Global Arguments N.shiftr : simpl never.
Global Arguments N.land : simpl never.
Global Arguments N.lor : simpl never.
Global Arguments N.of_nat : simpl never.
Global Arguments N.to_nat : simpl never.
Global Arguments N.eqb : simpl never.
Global Arguments N.ltb : simpl never.
Global Arguments N.leb : simpl never.
Global Arguments Nat.div : simpl never.
Global Arguments Nat.modulo : simpl never.
Global Arguments Nat.leb : simpl never.
Global Arguments Nat.ltb : simpl never.
Global Arguments Nat.sub : simpl never.

Lemma lor_disjoint_add (x y n : N) : y < 2 ^ n -> N.lor (N.shiftl x n) y = N.shiftl x n + y.
Proof.
  intros Hy. rewrite <- N.lxor_lor.
  - rewrite N.add_nocarry_lxor; [done|].
    apply N.bits_inj; intros i. rewrite N.land_spec, N.bits_0.
    destruct (N.lt_ge_cases i n).
    + rewrite N.shiftl_spec_low by done. done.
    + rewrite N.shiftl_spec_high' by done.
      destruct (N.eq_dec y 0) as [->|]; [by rewrite N.bits_0, andb_false_r|].
      rewrite (N.bits_above_log2 y i), andb_false_r; [done|].
      apply N.lt_le_trans with n; [apply N.log2_lt_pow2; lia|done].
  - apply N.bits_inj; intros i. rewrite N.land_spec, N.bits_0.
    destruct (N.lt_ge_cases i n).
    + rewrite N.shiftl_spec_low by done. done.
    + rewrite N.shiftl_spec_high' by done.
      destruct (N.eq_dec y 0) as [->|]; [by rewrite N.bits_0, andb_false_r|].
      rewrite (N.bits_above_log2 y i), andb_false_r; [done|].
      apply N.lt_le_trans with n; [apply N.log2_lt_pow2; lia|done].
Qed.

Lemma to_byte_mod x : to_byte x = x mod 256.
Proof. unfold to_byte. change 255 with (N.ones 8). by rewrite N.land_ones. Qed.

Lemma to_byte_lt x : to_byte x < 256.
Proof. rewrite to_byte_mod. by apply N.mod_lt. Qed.

Lemma shiftr_add_low x y n : y < 2 ^ n -> N.shiftr (N.shiftl x n + y) n = x.
Proof.
  intros. rewrite N.shiftr_div_pow2, N.shiftl_mul_pow2.
  rewrite N.div_add_l by (apply N.pow_nonzero; lia).
  rewrite N.div_small by done. lia.
Qed.

Lemma buildLeaf_eq k v : k < 256 ->
  buildLeaf k v = (v mod 2 ^ 55) * 512 + 256 + k.
Proof.
  intros Hk. unfold buildLeaf, u64, valueShift, leafBit.
  replace (N.shiftl v 9 mod 18446744073709551616) with (N.shiftl (v mod 2 ^ 55) 9).
  2:{ rewrite !N.shiftl_mul_pow2. change 18446744073709551616 with (2 ^ 55 * 2 ^ 9).
      rewrite N.mul_mod_distr_r by (vm_compute; done). done. }
  rewrite (lor_disjoint_add _ 256 9) by (vm_compute; done).
  rewrite N.shiftl_mul_pow2. change (2 ^ 9) with 512.
  replace (v mod 2 ^ 55 * 512 + 256) with (N.shiftl (v mod 2 ^ 55 * 2 + 1) 8).
  2:{ rewrite N.shiftl_mul_pow2. change (2 ^ 8) with 256. lia. }
  rewrite lor_disjoint_add by (change (2 ^ 8) with 256; lia).
  rewrite N.shiftl_mul_pow2. change (2 ^ 8) with 256. lia.
Qed.

Lemma isLeaf_bit x : isLeaf x = N.testbit x 8.
Proof.
  unfold isLeaf, leafBit. change 256 with (2 ^ 8).
  destruct (N.testbit x 8) eqn:E.
  - apply N.eqb_eq. apply N.bits_inj; intros i. rewrite N.land_spec, N.pow2_bits_eqb.
    destruct (N.eqb_spec 8 i); [subst; by rewrite E|by rewrite andb_false_r].
  - apply N.eqb_neq. intros H.
    assert (N.testbit (N.land x (2 ^ 8)) 8 = true) as H1.
    { rewrite H. apply N.pow2_bits_true. }
    rewrite N.land_spec, E in H1. done.
Qed.

Lemma isLeaf_odd x : isLeaf x = N.odd (x / 256).
Proof. rewrite isLeaf_bit, N.testbit_odd, N.shiftr_div_pow2. done. Qed.

Lemma getLeafValue_div x : getLeafValue x = x / 512.
Proof. unfold getLeafValue. rewrite N.shiftr_div_pow2. done. Qed.

Lemma buildLeaf_byte k v : k < 256 -> to_byte (buildLeaf k v) = k.
Proof.
  intros. rewrite buildLeaf_eq by done. rewrite to_byte_mod.
  replace (v mod 2 ^ 55 * 512 + 256 + k) with (k + (v mod 2 ^ 55 * 2 + 1) * 256) by lia.
  rewrite N.mod_add by lia. by apply N.mod_small.
Qed.

Lemma buildLeaf_isLeaf k v : k < 256 -> isLeaf (buildLeaf k v) = true.
Proof.
  intros. rewrite buildLeaf_eq, isLeaf_odd by done.
  replace (v mod 2 ^ 55 * 512 + 256 + k) with ((v mod 2 ^ 55 * 2 + 1) * 256 + k) by lia.
  rewrite N.div_add_l by lia. rewrite N.div_small by done.
  rewrite N.add_0_r. apply N.odd_spec. exists (v mod 2 ^ 55). lia.
Qed.

Lemma buildLeaf_value k v : k < 256 -> getLeafValue (buildLeaf k v) = v mod 2 ^ 55.
Proof.
  intros. rewrite buildLeaf_eq, getLeafValue_div by done.
  rewrite <- N.add_assoc. rewrite N.div_add_l by lia.
  rewrite N.div_small by lia. lia.
Qed.

Lemma buildLeaf_nonzero k v : k < 256 -> buildLeaf k v <> 0.
Proof. intros. rewrite buildLeaf_eq by done. lia. Qed.

Lemma buildLeaf_inj k1 v1 k2 v2 : k1 < 256 -> k2 < 256 ->
  buildLeaf k1 v1 = buildLeaf k2 v2 -> k1 = k2 /\ v1 mod 2 ^ 55 = v2 mod 2 ^ 55.
Proof.
  intros H1 H2 E. split.
  - rewrite <- (buildLeaf_byte k1 v1), <- (buildLeaf_byte k2 v2) by done. by rewrite E.
  - rewrite <- (buildLeaf_value k1 v1), <- (buildLeaf_value k2 v2) by done. by rewrite E.
Qed.

Lemma buildLeaf_trunc k v : buildLeaf k (v mod 2 ^ 55) = buildLeaf k v.
Proof.
  unfold buildLeaf, u64, valueShift. f_equal. f_equal.
  rewrite !N.shiftl_mul_pow2. change 18446744073709551616 with (2 ^ 55 * 2 ^ 9).
  rewrite !N.mul_mod_distr_r by (vm_compute; done). by rewrite N.mod_mod by (vm_compute; done).
Qed.

Lemma updateLeafKey_buildLeaf k v k' : k < 256 -> k' < 256 ->
  updateLeafKey (buildLeaf k v) k' = buildLeaf k' v.
Proof.
  intros H H'. unfold updateLeafKey. rewrite !buildLeaf_eq by done.
  rewrite lor_disjoint_add by (change (2 ^ 8) with 256; lia).
  replace (v mod 2 ^ 55 * 512 + 256 + k) with (N.shiftl (v mod 2 ^ 55 * 2 + 1) 8 + k).
  2:{ rewrite N.shiftl_mul_pow2. change (2 ^ 8) with 256. lia. }
  rewrite shiftr_add_low by (change (2 ^ 8) with 256; lia).
  rewrite N.shiftl_mul_pow2. change (2 ^ 8) with 256. lia.
Qed.

Definition plen8 (p : nat) : nat := Nat.min p 255.

Lemma buildNode_eq k a c p : k < 256 -> a < 2 ^ 39 -> (1 <= c <= 256)%nat ->
  buildNode k a c p =
  N.of_nat (c - 1) * 2 ^ 56 + N.of_nat (plen8 p) * 2 ^ 48 + a * 512 + k.
Proof.
  intros Hk Ha Hc. unfold buildNode.
  replace (if (255 <? p)%nat then 255%nat else p) with (plen8 p).
  2:{ unfold plen8. destruct (Nat.ltb_spec 255 p); lia. }
  assert (Hp : N.of_nat (plen8 p) < 256) by (unfold plen8; lia).
  assert (Hc' : N.of_nat (c - 1) < 256) by lia.
  generalize dependent (N.of_nat (plen8 p)). generalize dependent (N.of_nat (c - 1)).
  intros x Hx y Hy. clear Hc c p.
  assert (B56 : 2 ^ 56 = 72057594037927936) by (vm_compute; done).
  assert (B48 : 2 ^ 48 = 281474976710656) by (vm_compute; done).
  assert (B39 : 2 ^ 39 = 549755813888) by (vm_compute; done).
  unfold u64, countShift, prefixShift, valueShift.
  rewrite (N.mod_small (N.shiftl x 56)) by (rewrite N.shiftl_mul_pow2, B56; lia).
  rewrite (N.mod_small (N.shiftl y 48)) by (rewrite N.shiftl_mul_pow2, B48; lia).
  rewrite (N.mod_small (N.shiftl a 9)) by (rewrite N.shiftl_mul_pow2; change (2 ^ 9) with 512; lia).
  rewrite (lor_disjoint_add x) by (rewrite N.shiftl_mul_pow2, B56, B48; lia).
  replace (N.shiftl x 56 + N.shiftl y 48) with (N.shiftl (x * 256 + y) 48).
  2:{ rewrite !N.shiftl_mul_pow2, B56, B48. lia. }
  rewrite lor_disjoint_add by (rewrite N.shiftl_mul_pow2, B48; change (2 ^ 9) with 512; lia).
  replace (N.shiftl (x * 256 + y) 48 + N.shiftl a 9) with (N.shiftl ((x * 256 + y) * 2 ^ 39 + a) 9).
  2:{ rewrite !N.shiftl_mul_pow2, B48, B39. change (2 ^ 9) with 512. lia. }
  rewrite lor_disjoint_add by (change (2 ^ 9) with 512; lia).
  rewrite N.shiftl_mul_pow2, B39, B56, B48. change (2 ^ 9) with 512. lia.
Qed.

Lemma buildNode_byte k a c p : k < 256 -> a < 2 ^ 39 -> (1 <= c <= 256)%nat ->
  to_byte (buildNode k a c p) = k.
Proof.
  intros. rewrite buildNode_eq, to_byte_mod by done.
  change (2 ^ 56) with (281474976710656 * 256). change (2 ^ 48) with (1099511627776 * 256).
  rewrite !N.mul_assoc. change 512 with (2 * 256). rewrite N.mul_assoc, <- !N.mul_add_distr_r.
  rewrite N.add_comm, N.mod_add by lia. by apply N.mod_small.
Qed.

Lemma buildNode_notLeaf k a c p : k < 256 -> a < 2 ^ 39 -> (1 <= c <= 256)%nat ->
  isLeaf (buildNode k a c p) = false.
Proof.
  intros Hk Ha Hc. rewrite buildNode_eq, isLeaf_odd by done.
  change (2 ^ 56) with (140737488355328 * 2 * 256). change (2 ^ 48) with (549755813888 * 2 * 256).
  rewrite !N.mul_assoc. change 512 with (2 * 256). rewrite N.mul_assoc, <- !N.mul_add_distr_r.
  rewrite N.div_add_l by lia. rewrite (N.div_small k) by done. rewrite N.add_0_r.
  apply negb_true_iff. rewrite N.negb_odd. apply N.even_spec.
  eexists. rewrite N.mul_comm. reflexivity.
Qed.

Lemma explode_build k a c p : k < 256 -> a < 2 ^ 39 -> (1 <= c <= 256)%nat ->
  explodeNode (buildNode k a c p) = (k, a, c, plen8 p).
Proof.
  intros Hk Ha Hc. unfold explodeNode. rewrite (buildNode_byte k a c p) by done.
  rewrite buildNode_eq by done.
  assert (Hp : N.of_nat (plen8 p) < 256) by (unfold plen8; lia).
  assert (Hc' : N.of_nat (c - 1) < 256) by lia.
  assert (B56 : 2 ^ 56 = 72057594037927936) by (vm_compute; done).
  assert (B48 : 2 ^ 48 = 281474976710656) by (vm_compute; done).
  assert (B39 : 2 ^ 39 = 549755813888) by (vm_compute; done).
  assert (Ec : to_byte (N.shiftr (N.of_nat (c - 1) * 2 ^ 56 + N.of_nat (plen8 p) * 2 ^ 48 + a * 512 + k)
                 countShift) = N.of_nat (c - 1)).
  { unfold countShift. rewrite <- N.add_assoc, <- N.add_assoc, <- N.shiftl_mul_pow2.
    rewrite shiftr_add_low.
    - rewrite to_byte_mod. by apply N.mod_small.
    - rewrite B56, B48. lia. }
  assert (Ep : to_byte (N.shiftr (N.of_nat (c - 1) * 2 ^ 56 + N.of_nat (plen8 p) * 2 ^ 48 + a * 512 + k)
                 prefixShift) = N.of_nat (plen8 p)).
  { unfold prefixShift.
    replace (N.of_nat (c - 1) * 2 ^ 56 + N.of_nat (plen8 p) * 2 ^ 48 + a * 512 + k)
      with (N.shiftl (N.of_nat (c - 1) * 256 + N.of_nat (plen8 p)) 48 + (a * 512 + k)).
    2:{ rewrite N.shiftl_mul_pow2, B56, B48. lia. }
    rewrite shiftr_add_low.
    - rewrite to_byte_mod. rewrite N.add_comm, N.mod_add by lia. by apply N.mod_small.
    - rewrite B48. lia. }
  assert (Ea : N.land (N.shiftr (N.of_nat (c - 1) * 2 ^ 56 + N.of_nat (plen8 p) * 2 ^ 48 + a * 512 + k)
                 valueShift) valueMask2 = a).
  { unfold valueShift, valueMask2.
    replace (N.of_nat (c - 1) * 2 ^ 56 + N.of_nat (plen8 p) * 2 ^ 48 + a * 512 + k)
      with (N.shiftl ((N.of_nat (c - 1) * 256 + N.of_nat (plen8 p)) * 2 ^ 39 + a) 9 + k).
    2:{ rewrite N.shiftl_mul_pow2, B56, B48, B39. change (2 ^ 9) with 512. lia. }
    rewrite shiftr_add_low by (change (2 ^ 9) with 512; lia).
    change 549755813887 with (N.ones 39). rewrite N.land_ones.
    rewrite N.add_comm, N.mod_add by (rewrite B39; lia). by apply N.mod_small. }
  rewrite Ec, Ep, Ea. rewrite !Nat2N.id. repeat f_equal; lia.
Qed.

Lemma buildNode_nonzero k a c p : k < 256 -> a < 2 ^ 39 -> (1 <= c <= 256)%nat -> a <> 0 ->
  buildNode k a c p <> 0.
Proof. intros. rewrite buildNode_eq by done. lia. Qed.
