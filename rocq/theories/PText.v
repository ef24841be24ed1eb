(** * PText: printing and reading back numbers, lines and words. *)
From Verif Require Export Persist MemFacts WordsFacts.

Lemma maxUint64_val : maxUint64 = 18446744073709551615.
Proof. done. Qed.

(** ** Numbers *)

Definition digit (c : N) : Prop := 48 <= c /\ c <= 57.

Lemma dec_loop_digits f : forall n, Forall digit (dec_loop f n).
Proof.
  induction f as [|f IH]; intros n; [constructor|]. cbn [dec_loop]. apply Forall_app. split.
  - destruct (n <? 10); [constructor|apply IH].
  - apply Forall_singleton. unfold digit. pose proof (N.mod_lt n 10 ltac:(lia)) as H. split; [apply N.le_add_r|].
    generalize dependent (n mod 10). clear. intros. lia.
Qed.

Lemma dec_digits n : Forall digit (dec n).
Proof. apply dec_loop_digits. Qed.

Lemma digits_no c l : Forall digit l -> ~ digit c -> c ∉ l.
Proof. rewrite Forall_forall. intros H Hc Hin. by apply Hc, H. Qed.

Lemma dec_no_nl n : nl ∉ dec n.
Proof. eapply digits_no; [apply dec_digits|]. unfold digit, nl. lia. Qed.
Lemma dec_no_sp n : sp ∉ dec n.
Proof. eapply digits_no; [apply dec_digits|]. unfold digit, sp. lia. Qed.

Lemma dec_nonempty n : exists c l, dec n = c :: l.
Proof.
  unfold dec. cbn [dec_loop]. destruct (n <? 10); [by eexists _, _|].
  destruct (dec_loop _ (n / 10)); by eexists _, _.
Qed.

Definition dval (acc : N) (l : list N) : N := fold_left (fun n c => n * 10 + (c - 48)) l acc.

Lemma dval_ge l : forall acc, acc <= dval acc l.
Proof. induction l as [|c l IH]; intros acc; [done|]. unfold dval. cbn [fold_left]. fold (dval (acc * 10 + (c - 48)) l).
  specialize (IH (acc * 10 + (c - 48))). lia. Qed.

Lemma parse_loop_dval l : forall acc, Forall digit l -> dval acc l <= maxUint64 -> parse_loop l acc = dval acc l.
Proof.
  induction l as [|c l IH]; intros acc Hd Hle; [done|]. apply Forall_cons in Hd as [[Hc1 Hc2] Hd].
  cbn [parse_loop]. unfold dval in Hle |- *. cbn [fold_left] in Hle |- *. fold (dval (acc * 10 + (c - 48)) l) in Hle |- *.
  rewrite (proj2 (N.ltb_ge c 48)), (proj2 (N.ltb_ge 57 c)) by lia. cbn [orb].
  pose proof (dval_ge l (acc * 10 + (c - 48))). rewrite (proj2 (N.ltb_ge maxUint64 _)) by lia. by apply IH.
Qed.

Lemma dval_app a b acc : dval acc (a ++ b) = dval (dval acc a) b.
Proof. unfold dval. by rewrite fold_left_app. Qed.

Lemma dval_dec_loop f : forall n, n < 2 ^ N.of_nat f -> dval 0 (dec_loop f n) = n.
Proof.
  induction f as [|f IH]; intros n Hn.
  - simpl in Hn. change (2 ^ 0) with 1 in Hn. assert (n = 0) as -> by lia. done.
  - cbn [dec_loop]. rewrite dval_app. destruct (N.ltb_spec n 10) as [H|H].
    + unfold dval. cbn [fold_left]. rewrite N.mod_small by done. lia.
    + rewrite IH.
      * unfold dval. cbn [fold_left]. pose proof (N.div_mod' n 10) as E. revert E.
        generalize (n / 10), (n mod 10). clear. intros. lia.
      * replace (N.of_nat (S f)) with (N.succ (N.of_nat f)) in Hn by lia. rewrite N.pow_succ_r' in Hn.
        apply N.div_lt_upper_bound; [lia|]. lia.
Qed.

Lemma parse_dec n : n <= maxUint64 -> parse_uint (dec n) = n.
Proof.
  intros Hn. unfold parse_uint. assert (E : dval 0 (dec n) = n).
  { apply dval_dec_loop. rewrite Nat2N.inj_succ, N2Nat.id. destruct (decide (n = 0)) as [->|Hz].
    - change (N.log2 0) with 0. by vm_compute.
    - apply N.log2_spec. lia. }
  rewrite parse_loop_dval; [done|apply dec_digits|by rewrite E].
Qed.

Lemma atoi_digits l : Forall digit l -> atoi l = Z.min 9223372036854775807 (Z.of_N (parse_uint l)).
Proof.
  destruct l as [|c l]; [done|]. intros [[H1 H2] _]%Forall_cons.
  assert (H : c = 48 \/ c = 49 \/ c = 50 \/ c = 51 \/ c = 52 \/ c = 53 \/ c = 54 \/ c = 55 \/ c = 56 \/ c = 57) by lia.
  repeat (destruct H as [->|H]; [reflexivity|]). by subst c.
Qed.

Lemma atoi_dec n : n <= 9223372036854775807 -> atoi (dec n) = Z.of_N n.
Proof. intros H. rewrite atoi_digits by apply dec_digits. rewrite parse_dec by (rewrite maxUint64_val; lia). lia. Qed.

Lemma int64_small n : n < 9223372036854775808 -> int64 n = Z.of_N n.
Proof. intros H. unfold int64. by rewrite (proj2 (N.ltb_lt _ _)). Qed.

(** "objects": a negative count is read as 0. *)
Lemma parse_decz z : (z < 9223372036854775808)%Z -> int64 (parse_uint (decz z)) = Z.max 0 z.
Proof.
  intros Hz. unfold decz. destruct (Z.ltb_spec z 0) as [H|H].
  - unfold parse_uint. cbn [parse_loop]. change (45 <? 48) with true. cbn [orb]. change (int64 0) with 0%Z. lia.
  - rewrite parse_dec by (rewrite maxUint64_val; lia). rewrite int64_small by lia. lia.
Qed.

Lemma decz_no c z : ~ digit c -> c <> 45 -> c ∉ decz z.
Proof.
  intros H1 H2. unfold decz. destruct (z <? 0)%Z.
  - apply not_elem_of_cons. split; [done|]. eapply digits_no; [apply dec_digits|done].
  - eapply digits_no; [apply dec_digits|done].
Qed.
Lemma decz_no_nl z : nl ∉ decz z.
Proof. apply decz_no; unfold digit, nl; lia. Qed.
Lemma decz_no_sp z : sp ∉ decz z.
Proof. apply decz_no; unfold digit, sp; lia. Qed.

(** ** Lines *)

Lemma split_at_app c a r : c ∉ a -> split_at c (a ++ c :: r) = Some (a, r).
Proof.
  induction a as [|x a IH]; intros H; cbn [split_at app].
  - by rewrite N.eqb_refl.
  - apply not_elem_of_cons in H as [H1 H2]. rewrite (proj2 (N.eqb_neq x c)) by done. by rewrite IH.
Qed.

Lemma split_at_none c a : c ∉ a -> split_at c a = None.
Proof.
  induction a as [|x a IH]; intros H; [done|]. cbn [split_at]. apply not_elem_of_cons in H as [H1 H2].
  rewrite (proj2 (N.eqb_neq x c)) by done. by rewrite IH.
Qed.

Lemma read_line_app a r : nl ∉ a -> read_line (a ++ nl :: r) = Some (a, r).
Proof. apply split_at_app. Qed.

Lemma bytes_eqb_spec a : forall b, bytes_eqb a b = true <-> a = b.
Proof.
  induction a as [|x a IH]; intros [|y b]; cbn [bytes_eqb]; split; try done.
  - intros [H1 H2]%andb_true_iff. apply N.eqb_eq in H1 as ->. f_equal. by apply IH.
  - intros [= -> ->]. rewrite N.eqb_refl. by apply IH.
Qed.

(** ** Words *)

Lemma le_bytes_length n : forall w, length (le_bytes n w) = n.
Proof. induction n as [|n IH]; intros w; [done|]. cbn [le_bytes length]. by rewrite IH. Qed.

Lemma le_bytes_bytes n : forall w, Forall (fun b => b < 256) (le_bytes n w).
Proof.
  induction n as [|n IH]; intros w; [constructor|]. cbn [le_bytes]. constructor; [|apply IH].
  apply to_byte_lt.
Qed.

Lemma le_val_bytes n : forall w, le_val (le_bytes n w) = w mod 256 ^ N.of_nat n.
Proof.
  induction n as [|n IH]; intros w.
  - simpl. by rewrite N.mod_1_r.
  - cbn [le_bytes le_val]. rewrite IH. rewrite to_byte_mod. rewrite N.shiftr_div_pow2. change (2 ^ 8) with 256.
    replace (N.of_nat (S n)) with (N.succ (N.of_nat n)) by lia. rewrite N.pow_succ_r'.
    rewrite N.mod_mul_r; [done|lia|]. by apply N.pow_nonzero.
Qed.

Lemma le8_val w : le_val (le8 w) = u64 w.
Proof.
  unfold le8. rewrite le_val_bytes. change (256 ^ N.of_nat 8) with 18446744073709551616. apply N.mod_small. apply u64_lt.
Qed.

Lemma le8_length w : length (le8 w) = 8%nat.
Proof. apply le_bytes_length. Qed.

Lemma block_bytes_length ws : length (block_bytes ws) = (8 * length ws)%nat.
Proof.
  unfold block_bytes. induction ws as [|w ws IH]; [done|]. cbn [map concat length]. rewrite app_length, le8_length, IH. lia.
Qed.

Lemma block_bytes_bytes ws : Forall (fun b => b < 256) (block_bytes ws).
Proof.
  unfold block_bytes. induction ws as [|w ws IH]; [constructor|]. cbn [map concat]. apply Forall_app. split; [apply le_bytes_bytes|done].
Qed.

Lemma words_of_bytes ws : Forall (fun w => w < 18446744073709551616) ws -> words_of (length ws) (block_bytes ws) = ws.
Proof.
  unfold block_bytes. induction ws as [|w ws IH]; intros H; [done|]. apply Forall_cons in H as [Hw H].
  cbn [length words_of map concat].
  rewrite (take_app_alt (le8 w)) by (by rewrite le8_length). rewrite (drop_app_alt (le8 w)) by (by rewrite le8_length).
  rewrite le8_val, IH by done. by rewrite u64_small.
Qed.

Lemma mread_lt m n : forall a, Forall (fun w => w < 18446744073709551616) (mread m a n).
Proof. induction n as [|n IH]; intros a; [constructor|]. cbn [mread]. constructor; [apply mget_lt|apply IH]. Qed.
