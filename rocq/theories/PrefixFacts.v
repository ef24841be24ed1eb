(** * PrefixFacts: compressed prefixes in node memory (facts about the unsafe.go part of
    [State.v]). *)
From Verif Require Export State WordsFacts MemFacts.

Definition bytes (l : list N) : Prop := Forall (fun b => b < 256) l.

Lemma testbit_to_byte x i : N.testbit (to_byte x) i = N.testbit x i && (i <? 8).
Proof.
  unfold to_byte. rewrite N.land_spec. f_equal. change 255 with (N.ones 8).
  destruct (N.ltb_spec i 8); [by apply N.ones_spec_low|by apply N.ones_spec_high].
Qed.

Lemma byte_bits_high b i : b < 256 -> 8 <= i -> N.testbit b i = false.
Proof.
  intros Hb Hi. destruct (N.eq_dec b 0) as [->|]; [apply N.bits_0|].
  apply N.bits_above_log2. apply N.lt_le_trans with 8; [|done].
  apply N.log2_lt_pow2; [lia|]. done.
Qed.

Lemma bits_lt64 x : (forall i, 64 <= i -> N.testbit x i = false) -> x < 18446744073709551616.
Proof.
  intros H. change 18446744073709551616 with (2 ^ 64). destruct (N.eq_dec x 0) as [->|Hx]; [done|].
  apply N.log2_lt_pow2; [lia|]. apply N.lt_nge. intros Hl. pose proof (H _ Hl) as Hf.
  rewrite N.bit_log2 in Hf by done. done.
Qed.

Lemma lt64_bits x i : x < 18446744073709551616 -> 64 <= i -> N.testbit x i = false.
Proof.
  intros Hx Hi. destruct (N.eq_dec x 0) as [->|]; [apply N.bits_0|].
  apply N.bits_above_log2. apply N.lt_le_trans with 64; [|done]. apply N.log2_lt_pow2; [lia|]. done.
Qed.

Lemma lor_lt64 x y : x < 18446744073709551616 -> y < 18446744073709551616 -> N.lor x y < 18446744073709551616.
Proof.
  intros Hx Hy. apply bits_lt64. intros i Hi. rewrite N.lor_spec. by rewrite (lt64_bits x), (lt64_bits y).
Qed.

Lemma buildLeaf_lt64 k v : k < 256 -> buildLeaf k v < 18446744073709551616.
Proof. intros Hk. unfold buildLeaf. apply lor_lt64; [apply lor_lt64; [apply u64_lt|done]|lia]. Qed.

Lemma buildNode_lt64 k a c p : k < 256 -> buildNode k a c p < 18446744073709551616.
Proof. intros Hk. unfold buildNode. apply lor_lt64; [|lia]. apply lor_lt64; [|apply u64_lt]. apply lor_lt64; apply u64_lt. Qed.

Lemma set_byte_lt64 w b j : w < 18446744073709551616 -> b < 256 -> (j < 8)%nat ->
  N.lor (N.ldiff w (N.shiftl 255 (8 * N.of_nat j))) (N.shiftl b (8 * N.of_nat j)) < 18446744073709551616.
Proof.
  intros Hw Hb Hj. apply bits_lt64. intros i Hi. rewrite N.lor_spec, N.ldiff_spec.
  rewrite (lt64_bits w) by done. simpl. rewrite N.shiftl_spec_high' by lia. apply byte_bits_high; [done|lia].
Qed.

Lemma get_set_byte m a j b j' : b < 256 ->
  get_byte (set_byte m a j b) a j' = if decide (j = j') then b else get_byte m a j'.
Proof.
  intros Hb. unfold get_byte, set_byte. rewrite mget_mset by (apply set_byte_lt64; [apply mget_lt|done|apply Nat.mod_upper_bound; lia]).
  pose proof (Nat.div_mod j 8 ltac:(lia)). pose proof (Nat.div_mod j' 8 ltac:(lia)).
  pose proof (Nat.mod_upper_bound j 8 ltac:(lia)). pose proof (Nat.mod_upper_bound j' 8 ltac:(lia)).
  destruct (decide (a + N.of_nat (j / 8) = a + N.of_nat (j' / 8))) as [E|E].
  2:{ destruct (decide (j = j')); [subst; done|done]. }
  assert (E' : (j / 8 = j' / 8)%nat) by lia. rewrite E'.
  set (w := mget m (a + N.of_nat (j' / 8))).
  set (sh := 8 * N.of_nat (j mod 8)). set (sh' := 8 * N.of_nat (j' mod 8)).
  apply N.bits_inj; intros i.
  rewrite testbit_to_byte, N.shiftr_spec', N.lor_spec, N.ldiff_spec.
  destruct (decide (j = j')) as [->|Hne].
  - subst sh sh'. set (sh := 8 * N.of_nat (j' mod 8)).
    rewrite !N.shiftl_spec_high' by lia. replace (i + sh - sh) with i by lia.
    destruct (N.ltb_spec i 8).
    + change 255 with (N.ones 8). rewrite N.ones_spec_low by done.
      by rewrite andb_false_r, andb_true_r.
    + rewrite andb_false_r. symmetry. by apply byte_bits_high.
  - rewrite testbit_to_byte, N.shiftr_spec'.
    destruct (N.ltb_spec i 8); [|by rewrite !andb_false_r]. rewrite !andb_true_r.
    assert (Hm : (j mod 8 <> j' mod 8)%nat) by lia.
    destruct (N.lt_ge_cases (i + sh') sh).
    + rewrite !N.shiftl_spec_low by done. by rewrite andb_true_r, orb_false_r.
    + rewrite !N.shiftl_spec_high' by done.
      assert (8 <= i + sh' - sh) by lia.
      rewrite (byte_bits_high b) by done. rewrite (byte_bits_high 255) by done.
      by rewrite andb_true_r, orb_false_r.
Qed.

Lemma mget_set_byte_out m a j b x : x <> a + N.of_nat (j / 8) -> mget (set_byte m a j b) x = mget m x.
Proof. intros. unfold set_byte. apply mget_mset_ne. done. Qed.

Lemma get_byte_ext m m' a j : mget m' (a + N.of_nat (j / 8)) = mget m (a + N.of_nat (j / 8)) ->
  get_byte m' a j = get_byte m a j.
Proof. intros E. unfold get_byte. by rewrite E. Qed.

Lemma get_store_bytes_low m a j l i : bytes l -> (i < j)%nat ->
  get_byte (store_bytes m a j l) a i = get_byte m a i.
Proof.
  revert m j; induction l as [|b l IH]; intros m j Hl Hi; simpl; [done|].
  inversion Hl; subst. rewrite IH by (auto with lia). rewrite get_set_byte by done.
  destruct (decide (j = i)); [lia|done].
Qed.

Lemma get_store_bytes_in m a j l i b : bytes l -> l !! i = Some b ->
  get_byte (store_bytes m a j l) a (j + i) = b.
Proof.
  revert m j i; induction l as [|b' l IH]; intros m j i Hl Hi; [done|].
  inversion Hl; subst. destruct i as [|i]; simpl in *.
  - injection Hi as ->. rewrite get_store_bytes_low by (auto with lia). rewrite get_set_byte by done.
    destruct (decide (j = j + 0)%nat); [done|lia].
  - replace (j + S i)%nat with (S j + i)%nat by lia. by apply IH.
Qed.

Lemma mget_store_bytes_out m a j l x :
  x < a \/ a + N.of_nat ((j + length l + 7) / 8) <= x -> mget (store_bytes m a j l) x = mget m x.
Proof.
  revert m j; induction l as [|b l IH]; intros m j H; cbn [store_bytes length] in *; [done|].
  rewrite IH.
  - apply mget_set_byte_out. intros ->. 
    assert (j / 8 < (j + S (length l) + 7) / 8)%nat.
    { apply Nat.le_lt_trans with ((j + length l) / 8)%nat; [apply Nat.div_le_mono; lia|].
      replace (j + S (length l) + 7)%nat with (j + length l + 1 * 8)%nat by lia.
      rewrite Nat.div_add by lia. lia. }
    lia.
  - replace (S j + length l + 7)%nat with (j + S (length l) + 7)%nat by lia. done.
Qed.

Lemma load_bytes_length m a n : length (load_bytes m a n) = n.
Proof. unfold load_bytes. by rewrite map_length, seq_length. Qed.

Lemma load_bytes_lookup m a n i : (i < n)%nat -> load_bytes m a n !! i = Some (get_byte m a i).
Proof.
  intros. unfold load_bytes. rewrite list_lookup_fmap.
  rewrite lookup_seq_lt by done. done.
Qed.

Lemma load_store_bytes m a l : bytes l -> load_bytes (store_bytes m a 0 l) a (length l) = l.
Proof.
  intros Hl. apply list_eq; intros i. destruct (decide (i < length l)%nat) as [H|H].
  - rewrite load_bytes_lookup by done. destruct (lookup_lt_is_Some_2 l i H) as [b Hb].
    rewrite Hb. f_equal. by apply (get_store_bytes_in m a 0 l i b).
  - rewrite !lookup_ge_None_2; [done|lia|rewrite load_bytes_length; lia].
Qed.

Lemma load_bytes_ext m m' a a' n :
  (forall i, (i < (n + 7) / 8)%nat -> mget m' (a' + N.of_nat i) = mget m (a + N.of_nat i)) ->
  load_bytes m' a' n = load_bytes m a n.
Proof.
  intros H. apply list_eq; intros i. destruct (decide (i < n)%nat) as [Hi|Hi].
  - rewrite !load_bytes_lookup by done. f_equal. unfold get_byte. rewrite H; [done|].
    apply Nat.lt_le_trans with (S (i / 8)); [lia|].
    replace (S (i / 8)) with ((i + 1 * 8) / 8)%nat by (rewrite Nat.div_add by lia; lia).
    apply Nat.div_le_mono; lia.
  - rewrite !lookup_ge_None_2; [done|rewrite load_bytes_length; lia..].
Qed.

(** ** Prefix representation *)

Definition prefix_at (m : mem) (a : N) (pfx : list N) : Prop :=
  if decide (255 <= length pfx)%nat
  then mget m a = N.of_nat (length pfx) /\ load_bytes m (a + 1) (length pfx) = pfx
  else load_bytes m a (length pfx) = pfx.

Lemma prefix_slots_small n : (n < 255)%nat -> prefix_slots n = ((n + 7) / 8)%nat.
Proof. intros. unfold prefix_slots. destruct (Nat.leb_spec 255 n); lia. Qed.

Lemma prefix_slots_big n : (255 <= n)%nat -> prefix_slots n = ((n + 15) / 8)%nat.
Proof.
  intros. unfold prefix_slots. destruct (Nat.leb_spec 255 n); [|lia].
  replace (n + 15)%nat with (n + 7 + 1 * 8)%nat by lia. rewrite Nat.div_add by lia. done.
Qed.

Lemma prefix_slots_0 : prefix_slots 0 = 0%nat.
Proof. done. Qed.

Lemma prefix_slots_pos n : (0 < n)%nat -> (0 < prefix_slots n)%nat.
Proof.
  intros. unfold prefix_slots. assert (1 <= (n + 7) / 8)%nat; [|lia].
  apply Nat.div_le_lower_bound; lia.
Qed.

Lemma prefix_slots_bytes n : (n <= 8 * ((n + 7) / 8))%nat.
Proof. pose proof (Nat.div_mod (n + 7) 8 ltac:(lia)). pose proof (Nat.mod_upper_bound (n + 7) 8 ltac:(lia)). lia. Qed.

Lemma prefix_at_copy m m' a a' pfx :
  prefix_at m a pfx ->
  (forall i, (i < prefix_slots (length pfx))%nat -> mget m' (a' + N.of_nat i) = mget m (a + N.of_nat i)) ->
  prefix_at m' a' pfx.
Proof.
  unfold prefix_at. intros H E. destruct (decide (255 <= length pfx)%nat) as [Hl|Hl].
  - destruct H as [H1 H2]. rewrite prefix_slots_big in E by done.
    replace (length pfx + 15)%nat with (length pfx + 7 + 1 * 8)%nat in E by lia.
    rewrite Nat.div_add in E by lia. split.
    + specialize (E 0%nat). rewrite !N.add_0_r in E. rewrite E by lia. done.
    + rewrite <- H2 at 2. apply load_bytes_ext. intros i Hi. specialize (E (S i)).
      rewrite !Nat2N.inj_succ, !N.add_succ_r in E. rewrite <- !N.add_assoc, !(N.add_comm 1), !N.add_assoc, !N.add_1_r.
      apply E. lia.
  - rewrite <- H at 2. rewrite prefix_slots_small in E by lia. by apply load_bytes_ext.
Qed.

Lemma prefix_at_agree m m' a pfx :
  prefix_at m a pfx -> agree m m' (seqN a (prefix_slots (length pfx))) -> prefix_at m' a pfx.
Proof.
  intros H E. apply (prefix_at_copy m m' a a); [done|]. intros i Hi. apply E. apply elem_of_seqN. lia.
Qed.

Lemma prefix_at_nil m a : prefix_at m a [].
Proof. done. Qed.

Lemma plen8_eq0 n : plen8 n = 0%nat <-> n = 0%nat.
Proof. unfold plen8. lia. Qed.

Lemma store_prefix_ok m a L pfx :
  bytes pfx -> pfx <> [] -> N.of_nat (prefix_slots (length pfx)) <= L -> L <= 2 ^ 60 ->
  exists m', store_prefix m (Slice a L) pfx = Ok m' /\ prefix_at m' a pfx /\
    (forall x, x ∉ seqN a (prefix_slots (length pfx)) -> mget m' x = mget m x).
Proof.
  intros Hb Hne HL HL60. unfold store_prefix, prefix_at.
  pose proof (prefix_slots_bytes (length pfx)) as HB.
  assert (Hlen : (0 < length pfx)%nat) by (destruct pfx; simpl; [done|lia]).
  assert (Hpos : (1 <= (length pfx + 7) / 8)%nat) by (apply Nat.div_le_lower_bound; lia).
  destruct (decide (255 <= length pfx)%nat) as [H|H].
  - rewrite (proj2 (Nat.leb_le _ _)) by done.
    rewrite prefix_slots_big in HL by done.
    rewrite prefix_slots_big by done.
    replace (length pfx + 15)%nat with (length pfx + 7 + 1 * 8)%nat in * by lia.
    rewrite Nat.div_add in * by lia.
    unfold sl_set, sl_from. simpl.
    change (N.of_nat 0) with 0. change (N.of_nat 1) with 1.
    rewrite (proj2 (N.ltb_lt 0 L)) by lia. rewrite (proj2 (N.leb_le 1 L)) by lia. simpl.
    rewrite (proj2 (Nat.eqb_neq _ _)) by lia.
    rewrite (proj2 (N.eqb_neq _ _)) by lia.
    rewrite (proj2 (N.ltb_ge _ _)) by lia.
    eexists; split; [done|]. rewrite N.add_0_r. split; [split|].
    + rewrite mget_store_bytes_out by lia. apply mget_mset_eq. change (2 ^ 60) with 1152921504606846976 in HL60.
      lia.
    + by apply load_store_bytes.
    + intros x Hx. rewrite elem_of_seqN in Hx.
      rewrite mget_store_bytes_out by (simpl; lia).
      apply mget_mset_ne. lia.
  - rewrite (proj2 (Nat.leb_gt _ _)) by lia. simpl.
    rewrite prefix_slots_small in HL by lia. rewrite prefix_slots_small by lia.
    rewrite (proj2 (Nat.eqb_neq _ _)) by lia.
    rewrite (proj2 (N.eqb_neq _ _)) by lia.
    rewrite (proj2 (N.ltb_ge _ _)) by lia.
    eexists; split; [done|]. split.
    + by apply load_store_bytes.
    + intros x Hx. rewrite elem_of_seqN in Hx. apply mget_store_bytes_out. simpl. lia.
Qed.

Lemma append_prefix_ok m a L pfx :
  prefix_at m a pfx -> N.of_nat (prefix_slots (length pfx)) <= L ->
  append_prefix m (Slice a L) (plen8 (length pfx)) = Ok (pfx, prefix_slots (length pfx)).
Proof.
  intros H HL. unfold append_prefix.
  destruct (plen8 (length pfx)) as [|n8] eqn:E.
  { apply (proj1 (plen8_eq0 _)) in E. destruct pfx; [done|]. simpl in E. lia. }
  assert (Hlen : (0 < length pfx)%nat) by (unfold plen8 in E; lia).
  rewrite <- E. clear E n8.
  pose proof (prefix_slots_bytes (length pfx)) as HB.
  assert (Hpos : (1 <= (length pfx + 7) / 8)%nat) by (apply Nat.div_le_lower_bound; lia).
  unfold prefix_at in H. destruct (decide (255 <= length pfx)%nat) as [Hl|Hl].
  - destruct H as [H1 H2].
    replace (plen8 (length pfx) =? 255)%nat with true by (unfold plen8; symmetry; apply Nat.eqb_eq; lia).
    rewrite prefix_slots_big in * by done.
    replace (length pfx + 15)%nat with (length pfx + 7 + 1 * 8)%nat in * by lia.
    rewrite Nat.div_add in * by lia.
    unfold sl_get, sl_from. simpl.
    change (N.of_nat 0) with 0. change (N.of_nat 1) with 1.
    rewrite (proj2 (N.ltb_lt 0 L)) by lia. rewrite (proj2 (N.leb_le 1 L)) by lia. simpl.
    rewrite N.add_0_r, H1, Nat2N.id.
    rewrite (proj2 (Nat.eqb_neq _ _)) by lia.
    rewrite (proj2 (N.eqb_neq _ _)) by lia.
    rewrite (proj2 (N.ltb_ge _ _)) by lia.
    rewrite H2. f_equal. f_equal.
    replace (length pfx + 15)%nat with (length pfx + 7 + 1 * 8)%nat by lia. by rewrite Nat.div_add by lia.
  - replace (plen8 (length pfx)) with (length pfx) by (unfold plen8; lia).
    rewrite (proj2 (Nat.eqb_neq _ 255)) by lia. simpl.
    rewrite prefix_slots_small in * by lia.
    rewrite (proj2 (Nat.eqb_neq _ _)) by lia.
    rewrite (proj2 (N.eqb_neq _ _)) by lia.
    rewrite (proj2 (N.ltb_ge _ _)) by lia.
    by rewrite H.
Qed.

Lemma skip_prefix_ok m a L pfx :
  prefix_at m a pfx -> N.of_nat (prefix_slots (length pfx)) <= L ->
  skip_prefix m (Slice a L) (plen8 (length pfx)) =
  Ok (length pfx, prefix_slots (length pfx),
      Slice (a + N.of_nat (prefix_slots (length pfx))) (L - N.of_nat (prefix_slots (length pfx)))).
Proof.
  intros H HL. unfold skip_prefix.
  destruct (plen8 (length pfx)) as [|n8] eqn:E.
  { apply (proj1 (plen8_eq0 _)) in E. rewrite E. rewrite prefix_slots_0. simpl. by rewrite N.add_0_r, N.sub_0_r. }
  rewrite <- E. clear E n8.
  unfold prefix_at in H. destruct (decide (255 <= length pfx)%nat) as [Hl|Hl].
  - destruct H as [H1 H2].
    replace (plen8 (length pfx) =? 255)%nat with true by (unfold plen8; symmetry; apply Nat.eqb_eq; lia).
    unfold sl_get, sl_from. cbn [sl_len sl_base].
    pose proof (prefix_slots_pos (length pfx) ltac:(lia)).
    rewrite (proj2 (N.ltb_lt _ L)) by lia. cbn [bind].
    rewrite N.add_0_r, H1, Nat2N.id.
    rewrite <- prefix_slots_big by done.
    rewrite (proj2 (N.leb_le _ L)) by lia. done.
  - replace (plen8 (length pfx)) with (length pfx) by (unfold plen8; lia).
    rewrite (proj2 (Nat.eqb_neq _ 255)) by lia. cbn [bind].
    rewrite <- prefix_slots_small by lia. unfold sl_from. cbn [sl_len sl_base].
    rewrite (proj2 (N.leb_le _ L)) by lia. done.
Qed.
