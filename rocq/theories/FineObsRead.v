(** * FineObsRead: a client that only reads, between any steps of the others. *)
From Verif Require Export FineObs FineLook Order PSearch.

Section Reader.
Context (K : list N -> Prop) (fetch : N -> list N) (HK : universe K).
Context (aid : nat) (n0 : nat) (e : N) (nmax : N) (X : why -> world -> Prop) (FU : Prop).
Local Notation good := (good K fetch).
Local Notation rely := (rely K fetch aid nmax).
Local Notation J := (fun key => J K fetch aid key n0 e).
Local Notation known := (known n0).
Local Notation always := (fun key => always key n0).
Local Notation seen_leaf := (seen_leaf n0).

(** Program [p], begun in [w], only reads, fails only with [X], runs out of rounds only if [FU], and ends with [Q].  The steps of other clients come in
    between; its own steps do not change anything.  Every word it loads belongs to a node that is not given away before the call
    ends, unless the value does not matter. *)
Fixpoint okr {A} (p : prog A) (Q : A -> world -> Prop) (w : world) : Prop :=
  match p with
  | Ret a => forall w', rtc rely w w' -> Q a w'
  | Stop (Crash y) => forall w', rtc rely w w' -> X y w'
  | Stop Fuel => FU
  | Stop Again => False
  | Act a k => forall w1, rtc rely w w1 -> exists v, do_act (w_tree w1) a = Ok (v, w_tree w1) /\ okr (k v) Q w1 /\
      match a with
      | ALoad p => act_safe aid a w1 \/ forall v, okr (k v) Q w1
      | ABlock _ => True
      | _ => False
      end
  end.

Lemma okr_bind {A B} (p : prog A) (k : A -> prog B) Q w :
  okr p (fun a w' => okr (k a) Q w') w -> okr (pbind p k) Q w.
Proof.
  revert w. induction p as [a|y|a c IH]; intros w H; [|by destruct y|]; simpl in *.
  - by apply H.
  - intros w1 Hr. destruct (H w1 Hr) as (v & H1 & H2 & H3). exists v. split; [done|]. split; [by apply IH|].
    destruct a; try done. destruct H3 as [H3|H3]; [by left|right]. intros v'. by apply IH.
Qed.

Lemma okr_mono {A} (p : prog A) (Q Q' : A -> world -> Prop) w :
  (forall a w', Q a w' -> Q' a w') -> okr p Q w -> okr p Q' w.
Proof.
  intros HQ. revert w. induction p as [a|y|a c IH]; intros w H; [|by destruct y|]; simpl in *.
  - intros w' Hr. auto.
  - intros w1 Hr. destruct (H w1 Hr) as (v & H1 & H2 & H3). exists v. split; [done|]. split; [by apply IH|].
    destruct a; try done. destruct H3 as [H3|H3]; [by left|right]. intros v'. by apply IH.
Qed.

Lemma okr_rtc {A} (p : prog A) Q w w' : rtc rely w w' -> okr p Q w -> okr p Q w'.
Proof.
  intros Hr. destruct p as [a|[]|a k]; simpl; try done; intros H w1 H1; apply H; by etrans.
Qed.

(** A condition that survives the steps of others. *)
Record steady (I : world -> Prop) : Prop := {
  sd_J : forall w, I w -> forall key, J key w;
  sd_rely : forall w w', rely w w' -> I w -> I w'
}.

Lemma rely_later w w' : rely w w' -> later w w'.
Proof. intros H. eapply evo_later, (r_evo _ _ _ _ _ _ H). Qed.

Lemma rtc_later w w' : rtc rely w w' -> later w w'.
Proof.
  induction 1 as [w|w w1 w' H _ [p IH]]; [exists []; by rewrite app_nil_r|].
  destruct (rely_later _ _ H) as [p1 E]. exists (p1 ++ p). by rewrite IH, E, <- app_assoc.
Qed.

Lemma steady_base (P : world -> Prop) : (forall w w', later w w' -> P w -> P w') -> steady (fun w => (forall key, J key w) /\ P w).
Proof.
  intros HP. split; [by intros w [? _]|]. intros w w' Hr [HJ Hp]. split.
  - intros key. eapply J_evo; [apply Hr|]. apply HJ.
  - eapply HP; [by apply rely_later|done].
Qed.

(** ** Reading *)

Section Reading.
Context (I : world -> Prop) (HI : steady I).

Lemma sd_rtc w w' : rtc rely w w' -> I w -> I w'.
Proof. induction 1 as [|w w1 w' H _ IH]; [done|]. intros Hw. apply IH. by eapply (sd_rely _ HI). Qed.

Lemma okr_ret {A} (a : A) (Q : A -> world -> Prop) w : I w -> (forall w', I w' -> Q a w') -> okr (Ret a) Q w.
Proof. intros Hw H w' Hr. apply H. by eapply sd_rtc. Qed.

Lemma okr_load {A} p (k : N -> prog A) Q w : I w -> (forall w1, I w1 -> act_safe aid (ALoad p) w1) ->
  (forall w1, I w1 -> okr (k (pget (w_tree w1) p)) Q w1) -> okr (Act (ALoad p) k) Q w.
Proof. intros Hw Hs H w1 Hr. pose proof (sd_rtc _ _ Hr Hw) as H1. eexists. split; [done|]. split; [by apply H|]. left. by apply Hs. Qed.

(** A load whose value does not matter. *)
Lemma okr_any {A} p (k : N -> prog A) Q w : I w -> (forall w1 v, I w1 -> okr (k v) Q w1) -> okr (Act (ALoad p) k) Q w.
Proof. intros Hw H w1 Hr. pose proof (sd_rtc _ _ Hr Hw) as H1. eexists. split; [done|]. split; [by apply H|]. right. intros v. by apply H. Qed.

Lemma okr_block {A} node (k : N -> prog A) Q w : I w ->
  (forall w1, I w1 -> block_of node < N.max 1 (t_nextFreeBlock (w_tree w1))) -> block_of node < maxBlockCount ->
  (forall w1, I w1 -> okr (k 0) Q w1) -> okr (Act (ABlock node) k) Q w.
Proof.
  intros Hw Hb1 Hb2 H w1 Hr. pose proof (sd_rtc _ _ Hr Hw) as H1. exists 0. split; [|split; [by apply H|done]].
  cbn [do_act]. unfold node_data. rewrite (proj2 (N.leb_gt _ _)) by done. by rewrite (proj2 (N.leb_gt _ _)) by (by apply Hb1).
Qed.

Context (o : occ_t) (Ho : forall w, I w -> known w o).

Lemma rd_block w1 : I w1 -> block_of (o_addr o) < t_nextFreeBlock (w_tree w1) /\ t_nextFreeBlock (w_tree w1) < maxBlockCount.
Proof. intros H1. eapply node_block; [exact (sd_J _ HI _ H1 [])|by apply Ho]. Qed.

Lemma rd_safe x w : x ∈ seqN (oreg o).1 (oreg o).2 -> I w -> act_safe aid (ALoad (PSlot x)) w.
Proof.
  intros Hx Hw. right. pose proof (sd_J _ HI _ Hw []) as HJ. exists e. split; [apply (j_mine _ _ _ _ _ _ _ HJ)|].
  by apply (no_safe _ _ _ _ _ _ (j_known _ _ _ _ _ _ _ HJ _ (Ho _ Hw))).
Qed.

Lemma okr_p_data {A} (k : slice -> prog A) Q w : I w ->
  (forall w1, I w1 -> okr (k (Slice (o_addr o) (dlen (o_addr o)))) Q w1) -> okr (pbind (p_data (o_addr o)) k) Q w.
Proof.
  intros Hw H. apply okr_block; [done| | |].
  - intros w1 H1. pose proof (rd_block w1 H1). lia.
  - pose proof (rd_block w Hw). lia.
  - intros w1 H1. by apply H.
Qed.

Lemma rd_facts w : I w -> ofacts K o.
Proof. intros H. eapply known_facts; [apply (j_good _ _ _ _ _ _ _ (sd_J _ HI _ H []))|by apply Ho]. Qed.

Lemma rd_node w : I w -> forall key, nodeok fetch key n0 e w o.
Proof. intros H key. apply (j_known _ _ _ _ _ _ _ (sd_J _ HI _ H key)). by apply Ho. Qed.

Lemma rd_from w : I w -> sl_from (Slice (o_addr o) (dlen (o_addr o))) (prefix_slots (length (o_pfx o))) =
  Ok (Slice (o_addr o + N.of_nat (prefix_slots (length (o_pfx o)))) (dlen (o_addr o) - N.of_nat (prefix_slots (length (o_pfx o))))).
Proof.
  intros Hw. pose proof (of_fit _ _ (rd_facts _ Hw)) as HL. unfold oreg, nslots in HL. cbn [snd] in HL.
  unfold sl_from. cbn [sl_len sl_base]. by rewrite (proj2 (N.leb_le _ _)) by lia.
Qed.

Lemma okr_p_skip {A} (k : nat * nat * slice -> prog A) Q w : I w ->
  (forall w1, I w1 -> okr (k (length (o_pfx o), prefix_slots (length (o_pfx o)),
     Slice (o_addr o + N.of_nat (prefix_slots (length (o_pfx o)))) (dlen (o_addr o) - N.of_nat (prefix_slots (length (o_pfx o)))))) Q w1) ->
  okr (pbind (p_skip (Slice (o_addr o) (dlen (o_addr o))) (plen8 (length (o_pfx o)))) k) Q w.
Proof.
  intros Hw H. pose proof (rd_facts _ Hw) as Hf. pose proof (of_fit _ _ Hf) as HL. unfold oreg, nslots in HL. cbn [snd] in HL.
  unfold p_skip. destruct (plen8 (length (o_pfx o))) as [|n8] eqn:E.
  { apply (proj1 (plen8_eq0 _)) in E. rewrite E, prefix_slots_0 in H. cbn [pbind]. specialize (H w Hw). by rewrite N.add_0_r, N.sub_0_r in H. }
  pose proof (rd_from _ Hw) as Hfrom.
  rewrite <- E. destruct (decide (255 <= length (o_pfx o))%nat) as [Hl|Hl].
  - replace (plen8 (length (o_pfx o)) =? 255)%nat with true by (unfold plen8; symmetry; apply Nat.eqb_eq; lia).
    unfold p_get. cbn [sl_len sl_base]. pose proof (prefix_slots_pos (length (o_pfx o)) ltac:(lia)). change (N.of_nat 0) with 0.
    rewrite (proj2 (N.ltb_lt _ _)) by lia. cbn [p_load pbind].
    apply okr_load; [done|intros w1; apply rd_safe, elem_of_seqN; unfold oreg, nslots; cbn [fst snd]; lia|]. intros w1 H1. cbn [pget].
    pose proof (no_pfx _ _ _ _ _ _ (rd_node w1 H1 [])) as Hp. unfold prefix_at in Hp. rewrite decide_True in Hp by done.
    destruct Hp as [Hp _]. rewrite N.add_0_r, Hp, Nat2N.id. cbn [pbind]. rewrite <- prefix_slots_big by done. rewrite Hfrom. by apply H.
  - replace (plen8 (length (o_pfx o))) with (length (o_pfx o)) by (unfold plen8; lia).
    rewrite (proj2 (Nat.eqb_neq _ 255)) by lia. cbn [pbind]. rewrite <- prefix_slots_small by lia. rewrite Hfrom. by apply H.
Qed.

Lemma okr_p_words base n : forall i w, I w -> (forall j, (i <= j < i + n)%nat -> base + N.of_nat j ∈ seqN (oreg o).1 (oreg o).2) ->
  okr (p_words (base + N.of_nat i) n) (fun ws w1 => I w1 /\ length ws = n /\
     forall j a, ws !! j = Some a -> exists w2, I w2 /\ a = mget (t_mem (w_tree w2)) (base + N.of_nat (i + j))) w.
Proof.
  induction n as [|n IH]; intros i w Hw Hreg.
  - cbn [p_words]. apply okr_ret; [done|]. intros w' Hr. done.
  - cbn [p_words p_load pbind]. apply okr_load; [done|intros w1; apply rd_safe, Hreg; lia|]. intros w1 H1. cbn [pget].
    replace (base + N.of_nat i + 1) with (base + N.of_nat (S i)) by lia.
    apply okr_bind. eapply okr_mono; [|apply IH; [done|intros j Hj; apply Hreg; lia]]. intros ws w2 (H2 & Hlen & Hws). apply okr_ret; [done|]. intros w' Hr.
    split; [done|]. split; [simpl; lia|]. intros [|j] a Hj; simpl in Hj.
    + injection Hj as <-. exists w1. rewrite Nat.add_0_r. done.
    + destruct (Hws j a Hj) as (w3 & H3 & ->). exists w3. split; [done|]. f_equal. lia.
Qed.

Lemma okr_p_append {A} (k : list N * nat -> prog A) Q w : I w ->
  (forall w1, I w1 -> okr (k (o_pfx o, prefix_slots (length (o_pfx o)))) Q w1) ->
  okr (pbind (p_append (Slice (o_addr o) (dlen (o_addr o))) (plen8 (length (o_pfx o)))) k) Q w.
Proof.
  intros Hw H. pose proof (rd_facts _ Hw) as Hf. pose proof (of_fit _ _ Hf) as HL. unfold oreg, nslots in HL. cbn [snd] in HL.
  pose proof (prefix_slots_bytes (length (o_pfx o))) as HB.
  assert (Hpfx : forall w1, I w1 -> prefix_at (t_mem (w_tree w1)) (o_addr o) (o_pfx o)).
  { intros w1 H1. apply (no_pfx _ _ _ _ _ _ (rd_node w1 H1 [])). }
  unfold p_append. destruct (plen8 (length (o_pfx o))) as [|n8] eqn:E.
  { apply (proj1 (plen8_eq0 _)) in E. cbn [pbind]. specialize (H w Hw). rewrite E, prefix_slots_0 in H. by destruct (o_pfx o). }
  assert (Hlen : (0 < length (o_pfx o))%nat) by (unfold plen8 in E; lia).
  assert (Hpos : (1 <= (length (o_pfx o) + 7) / 8)%nat) by (apply Nat.div_le_lower_bound; lia).
  pose proof (prefix_slots_pos (length (o_pfx o)) ltac:(lia)) as Hpsl.
  rewrite <- E. clear E n8.
  assert (Hread : forall base w1, I w1 -> (forall j, (j < (length (o_pfx o) + 7) / 8)%nat -> base + N.of_nat j ∈ seqN (oreg o).1 (oreg o).2) -> (forall w2, I w2 -> load_bytes (t_mem (w_tree w2)) base (length (o_pfx o)) = o_pfx o) ->
    okr (run x <- (run ws <- p_words base ((length (o_pfx o) + 7) / 8);
       Ret (map (word_byte ws) (seq 0 (length (o_pfx o))), prefix_slots (length (o_pfx o)))); k x) Q w1).
  { intros base w1 H1 Hreg Hb. apply okr_bind, okr_bind. eapply okr_mono; [|pose proof (okr_p_words base ((length (o_pfx o) + 7) / 8) 0 w1 H1 ltac:(intros j Hj; apply Hreg; lia)) as Hpw;
      change (N.of_nat 0) with 0 in Hpw; rewrite N.add_0_r in Hpw; exact Hpw].
    intros ws w2 (H2 & Hl & Hws). apply okr_ret; [done|]. intros w3 Hr. cbn [Nat.add] in Hws.
    replace (map (word_byte ws) (seq 0 (length (o_pfx o)))) with (o_pfx o); [by apply H|].
    apply list_eq. intros j. rewrite list_lookup_fmap. destruct (decide (j < length (o_pfx o))%nat) as [Hj|Hj].
    - rewrite lookup_seq_lt by done. simpl. symmetry. by apply (word_byte_read I ws base (length (o_pfx o))).
    - rewrite !lookup_ge_None_2; [done| |lia]. rewrite seq_length. lia. }
  destruct (decide (255 <= length (o_pfx o))%nat) as [Hl|Hl].
  - replace (plen8 (length (o_pfx o)) =? 255)%nat with true by (unfold plen8; symmetry; apply Nat.eqb_eq; lia).
    rewrite prefix_slots_big in HL by done. pose proof (prefix_slots_big _ Hl) as Hbig.
    replace (length (o_pfx o) + 15)%nat with (length (o_pfx o) + 7 + 1 * 8)%nat in HL by lia. rewrite Nat.div_add in HL by lia.
    assert (Hbig2 : prefix_slots (length (o_pfx o)) = ((length (o_pfx o) + 7) / 8 + 1)%nat).
    { rewrite Hbig. replace (length (o_pfx o) + 15)%nat with (length (o_pfx o) + 7 + 1 * 8)%nat by lia. by rewrite Nat.div_add by lia. }
    unfold p_get. cbn [sl_len sl_base]. change (N.of_nat 0) with 0.
    rewrite (proj2 (N.ltb_lt _ _)) by lia. cbn [p_load pbind].
    apply okr_load; [done|intros w1; apply rd_safe, elem_of_seqN; unfold oreg, nslots; cbn [fst snd]; lia|]. intros w1 H1. cbn [pget].
    pose proof (Hpfx _ H1) as Hp. unfold prefix_at in Hp. rewrite decide_True in Hp by done.
    destruct Hp as [Hp _]. rewrite N.add_0_r, Hp, Nat2N.id. unfold sl_from. cbn [sl_len sl_base]. change (N.of_nat 1) with 1.
    rewrite (proj2 (N.leb_le _ _)) by lia. cbn [of_res pbind sl_len sl_base].
    rewrite (proj2 (Nat.eqb_neq _ _)) by lia. rewrite (proj2 (N.eqb_neq _ _)) by lia. rewrite (proj2 (N.ltb_ge _ _)) by lia.
    rewrite <- Hbig. apply Hread; [done|intros j Hj; apply elem_of_seqN; unfold oreg, nslots; cbn [fst snd]; lia|]. intros w2 H2. pose proof (Hpfx _ H2) as Hp2. unfold prefix_at in Hp2. rewrite decide_True in Hp2 by done. apply Hp2.
  - replace (plen8 (length (o_pfx o))) with (length (o_pfx o)) by (unfold plen8; lia).
    pose proof (prefix_slots_small (length (o_pfx o)) ltac:(lia)) as Hsm. rewrite Hsm in HL.
    rewrite (proj2 (Nat.eqb_neq _ 255)) by lia. cbn [pbind sl_len sl_base].
    rewrite (proj2 (Nat.eqb_neq _ _)) by lia. rewrite (proj2 (N.eqb_neq _ _)) by lia. rewrite (proj2 (N.ltb_ge _ _)) by lia.
    rewrite Hsm in Hread. apply Hread; [done|intros j Hj; apply elem_of_seqN; unfold oreg, nslots; cbn [fst snd]; lia|]. intros w2 H2. pose proof (Hpfx _ H2) as Hp2. unfold prefix_at in Hp2. rewrite decide_False in Hp2 by done. done.
Qed.

Lemma rd_upto w : I w -> sl_upto (Slice (o_addr o + N.of_nat (prefix_slots (length (o_pfx o))))
     (dlen (o_addr o) - N.of_nat (prefix_slots (length (o_pfx o))))) (ncount (o_full o) (length (o_hs o))) = Ok tt.
Proof.
  intros Hw. pose proof (of_fit _ _ (rd_facts _ Hw)) as HL. unfold oreg, nslots in HL. cbn [snd] in HL.
  unfold sl_upto. cbn [sl_len sl_base]. rewrite (proj2 (N.leb_le _ _)); [done|]. lia.
Qed.
End Reading.

(** ** Child slots *)

(** Slot [i] of node [o] is that of byte [b]. *)
Definition at_slot (o : occ_t) (i : nat) (b : N) : Prop :=
  b < 256 /\ if o_full o then i = N.to_nat b else map fst (o_hs o) !! i = Some b.

Definition sbase (o : occ_t) : N := o_addr o + N.of_nat (prefix_slots (length (o_pfx o))).
Definition scount (o : occ_t) : nat := ncount (o_full o) (length (o_hs o)).
Definition sword (w : world) (o : occ_t) (i : nat) : N := mget (t_mem (w_tree w)) (sbase o + N.of_nat i).
(** The keys below that slot. *)
Definition stem (o : occ_t) (b : N) : list N := o_path o ++ o_pfx o ++ [b].

Lemma slot_safe I (HI : steady I) o (Ho : forall w, I w -> known w o) i w : (i < scount o)%nat -> I w ->
  act_safe aid (ALoad (PSlot (sbase o + N.of_nat i))) w.
Proof. intros Hi Hw. apply (rd_safe I HI o Ho); [|done]. apply elem_of_seqN. unfold oreg, nslots, sbase. unfold scount in Hi. cbn [fst snd]. lia. Qed.

Lemma at_slot_oslot o i b : at_slot o i b -> oslot o b (sbase o + N.of_nat i).
Proof.
  intros [Hb H]. split; [done|]. unfold sbase. destruct (o_full o).
  - subst i. unfold slot_of. cbn [slot_idx]. lia.
  - exists i. split; [done|]. unfold slot_of. cbn [slot_idx]. lia.
Qed.

Lemma at_slot_ex o i : ofacts K o -> (i < scount o)%nat -> exists b, at_slot o i b.
Proof.
  intros Hf Hi. unfold scount, ncount in Hi. unfold at_slot. pose proof (of_bytes _ _ Hf) as Hby. destruct (o_full o) eqn:E.
  - exists (N.of_nat i). split; [lia|]. by rewrite Nat2N.id.
  - destruct (lookup_lt_is_Some_2 (map fst (o_hs o)) i) as [b Hb]; [by rewrite map_length|]. exists b. split; [|done].
    eapply Forall_lookup_1 in Hby; [|done]. done.
Qed.

Lemma at_slot_lt o i b : at_slot o i b -> (i < scount o)%nat.
Proof.
  intros [Hb H]. unfold scount, ncount. destruct (o_full o); [lia|]. apply lookup_lt_Some in H. by rewrite map_length in H.
Qed.

Lemma at_slot_mono o i j b c : ofacts K o -> at_slot o i b -> at_slot o j c -> (i < j)%nat -> b < c.
Proof.
  intros Hf [Hb H1] [Hc H2] Hij. destruct (o_full o); [lia|]. eapply StronglySorted_lt_lookup; [apply Hf| |done|done]. done.
Qed.

Lemma at_slot_inj o i b c : at_slot o i b -> at_slot o i c -> b = c.
Proof. intros [Hb H1] [Hc H2]. destruct (o_full o); [lia|congruence]. Qed.

(** What a slot may hold. *)
Inductive slot_view (w : world) (o : occ_t) (b a : N) : Prop :=
| SV_none : a = 0 -> o_full o = true -> (forall key, always key w -> ~ stem o b `prefix_of` key) -> slot_view w o b a
| SV_leaf : a <> 0 -> isLeaf a = true -> to_byte a = b -> getLeafValue a < vlim -> stem o b `prefix_of` fetch (getLeafValue a) ->
    seen_leaf w (fetch (getLeafValue a)) (getLeafValue a) ->
    (forall key, always key w -> stem o b `prefix_of` key -> key = fetch (getLeafValue a)) -> slot_view w o b a
| SV_node o' : a <> 0 -> isLeaf a = false -> to_byte a = b -> known w o' -> o_path o' = stem o b -> a = onode b o' ->
    explodeNode a = (b, o_addr o', scount o', plen8 (length (o_pfx o'))) -> slot_view w o b a.

Lemma slot_cases w o i b : (forall key, J key w) -> known w o -> at_slot o i b -> slot_view w o b (sword w o i).
Proof.
  intros HJ Ho Hi. pose proof (j_good _ _ _ _ _ _ _ (HJ [])) as Hg.
  assert (Hb : b < 256) by apply Hi. pose proof (at_slot_oslot _ _ _ Hi) as Hs.
  assert (Hall : forall key, slotok fetch key n0 w o b (sword w o i)).
  { intros key. apply (no_slot _ _ _ _ _ _ (j_known _ _ _ _ _ _ _ (HJ key) _ Ho)). done. }
  set (a := sword w o i) in *. clearbody a.
  assert (Hkey : forall key, always key w -> stem o b `prefix_of` key ->
    exists hd, a = enc_head b hd /\ headok fetch n0 w o b hd /\ (forall k v, hd = HLeaf k v -> k = key)).
  { intros key Ha Hp. by apply (so_key _ _ _ _ _ _ _ (Hall key)). }
  destruct (so_word _ _ _ _ _ _ _ (Hall [])) as [[-> Hfull]|(hd & -> & Hh)].
  - apply SV_none; [done|done|]. intros key Ha Hp. destruct (Hkey key Ha Hp) as (hd & E & Hh & _).
    destruct (head_byte K fetch n0 o w b hd Hg Hb Hh) as (_ & _ & ?). done.
  - destruct (head_byte K fetch n0 o w b hd Hg Hb Hh) as (B1 & B2 & B3). destruct hd as [k v|f2 a2 p2 n2].
    + simpl in Hh. destruct Hh as (Hv & Hfv & Hp & Hsl). simpl in *.
      assert (Ev : getLeafValue (buildLeaf b v) = v) by (rewrite buildLeaf_value, N.mod_small by done; done).
      apply SV_leaf; try done; rewrite ?Ev; try done; rewrite ?Hfv; try done.
      intros key Ha Hpk. destruct (Hkey key Ha Hpk) as (hd' & E & Hh' & Hk).
      destruct (head_byte K fetch n0 o w b hd' Hg Hb Hh') as (_ & B2' & _). rewrite <- E, B2 in B2'.
      destruct hd' as [k' v'|]; [|done]. simpl in E. destruct Hh' as (Hv' & Hfv' & _).
      apply buildLeaf_inj in E as [_ E]; [|done..]. unfold vlim in *. rewrite !N.mod_small in E by done. subst v'.
      rewrite <- (Hk _ _ eq_refl). congruence.
    + simpl in Hh. destruct Hh as (o' & Ho' & A1 & A2 & A3 & A4 & A5).
      destruct (onode_facts K o' b (known_facts K fetch n0 _ _ Hg Ho') Hb) as (E & _). unfold onode in *. simpl in *. subst.
      apply (SV_node w o b _ o'); try done.
Qed.

Lemma slot_view_later w w' o b a : later w w' -> slot_view w o b a -> slot_view w' o b a.
Proof.
  intros Hl [H1 H2 H3|H1 H2 H3 H4 H5 H6 H7|o' H1 H2 H3 H4 H5 H6 H7].
  - apply SV_none; [done|done|]. intros key Ha. apply H3. by eapply always_later.
  - apply SV_leaf; try done; [by eapply seen_later|]. intros key Ha. apply H7. by eapply always_later.
  - apply (SV_node _ _ _ _ o'); try done. by eapply known_later.
Qed.

Lemma always_K w key : (forall key, J key w) -> always key w -> K key.
Proof.
  intros HJ Ha. pose proof (j_good _ _ _ _ _ _ _ (HJ [])) as Hg.
  destruct (Ha _ (span_last K fetch n0 w Hg (j_n0 _ _ _ _ _ _ _ (HJ [])))) as [v Hv].
  apply (iv_maps _ _ _ _ _ _ _ (g_inv _ _ _ Hg)) in Hv.
  pose proof (co_wf _ _ _ _ (iv_core _ _ _ _ _ _ _ (g_inv _ _ _ Hg))) as Hwf. destruct (w_trie w) as [t|]; [|by apply elem_of_nil in Hv].
  by destruct (wf_contents K fetch _ _ _ _ Hwf Hv) as (_ & ? & _).
Qed.

(** Keys below a node that were in the tree all the time. *)
Lemma key_below w o key : (forall key, J key w) -> known w o -> always key w -> o_path o `prefix_of` key ->
  exists i b, at_slot o i b /\ stem o b `prefix_of` key.
Proof.
  intros HJ Ho Ha Hp. destruct (no_key _ _ _ _ _ _ (j_known _ _ _ _ _ _ _ (HJ key) _ Ho) Ha Hp) as (b & Hb & Hin).
  pose proof (known_facts K fetch n0 _ _ (j_good _ _ _ _ _ _ _ (HJ [])) Ho) as Hf.
  assert (Hb256 : b < 256).
  { pose proof (uv_bytes K HK _ (always_K _ _ HJ Ha)) as HB. destruct Hb as [q ->]. unfold bytes in HB. rewrite !Forall_app in HB.
    destruct HB as [(_ & _ & HB) _]. by apply Forall_cons in HB as [? _]. }
  unfold at_slot. destruct (o_full o) eqn:E.
  - exists (N.to_nat b), b. done.
  - specialize (Hin eq_refl). apply elem_of_list_lookup in Hin as [i Hi]. exists i, b. done.
Qed.

(** ** A scan *)

(** Word [raw] refers to node [o]. *)
Definition refers (raw : N) (o : occ_t) : Prop :=
  raw <> 0 /\ isLeaf raw = false /\ exists b, b < 256 /\ explodeNode raw = (b, o_addr o, scount o, plen8 (length (o_pfx o))).

(** The keys still to come in node [fr.1] from slot [fr.2] on. *)
Definition pend (fr : occ_t * nat) (k : list N) : Prop :=
  exists j b, (fr.2 <= j)%nat /\ at_slot fr.1 j b /\ stem fr.1 b `prefix_of` k.
Definition fr_lt (fr fr' : occ_t * nat) : Prop := forall k k', o_path fr.1 `prefix_of` k -> pend fr' k' -> lex_lt k k'.

Context (sp : list N) (goal : list N -> Prop).

Record SI (w : world) (vis : list N) (frs : list (occ_t * nat)) : Prop := {
  si_known : Forall (fun fr => known w fr.1) frs;
  si_sorted : StronglySorted lex_lt (map fetch vis);
  si_before : forall v k fr, v ∈ vis -> fr ∈ frs -> pend fr k -> lex_lt (fetch v) k;
  si_frs : StronglySorted fr_lt frs;
  si_pfx : Forall (fun fr => sp `prefix_of` o_path fr.1 ++ o_pfx fr.1) frs;
  si_vis : Forall (fun v => v < vlim /\ sp `prefix_of` fetch v /\ seen_leaf w (fetch v) v) vis;
  si_all : forall k, goal k -> always k w -> k ∈ map fetch vis \/ Exists (fun fr => pend fr k) frs
}.

Lemma SI_later w w' vis frs : later w w' -> SI w vis frs -> SI w' vis frs.
Proof.
  intros Hl [H1 H2 H3 H4 H5 H6 H7]. split; try done.
  - eapply Forall_impl; [exact H1|]. intros fr. by apply known_later.
  - eapply Forall_impl; [exact H6|]. intros v (? & ? & ?). split_and!; try done. by eapply seen_later.
  - intros k Hg Ha. apply H7; [done|]. by eapply always_later.
Qed.

Lemma pend_mono o i j k : (i <= j)%nat -> pend (o, j) k -> pend (o, i) k.
Proof. intros Hij (l & b & Hl & H). exists l, b. simpl in *. split; [lia|done]. Qed.

Lemma pend_end o i k : (scount o <= i)%nat -> ~ pend (o, i) k.
Proof. intros H (l & b & Hl & Ha & _). apply at_slot_lt in Ha. simpl in *. lia. Qed.

Lemma pend_path o i k : pend (o, i) k -> o_path o `prefix_of` k.
Proof. intros (l & b & _ & _ & Hp). etrans; [|exact Hp]. by apply prefix_app_r. Qed.

(** Some frames move on over slots without keys. *)
Definition moves (w : world) (fr fr' : occ_t * nat) : Prop :=
  fr.1 = fr'.1 /\ (fr.2 <= fr'.2)%nat /\ forall k, goal k -> always k w -> pend fr k -> pend fr' k.

Lemma moves_refl w fr : moves w fr fr.
Proof. by split. Qed.
Lemma moves_all w frs : Forall2 (moves w) frs frs.
Proof. apply Forall_Forall2_diag, list.Forall_forall. intros fr _. apply moves_refl. Qed.

Lemma moves_pend w fr fr' k : moves w fr fr' -> pend fr' k -> pend fr k.
Proof. destruct fr as [o i], fr' as [o' i']. intros (E & Hi & _). simpl in *. subst o'. by apply pend_mono. Qed.

Lemma SI_moves w vis frs frs' : Forall2 (moves w) frs frs' -> SI w vis frs -> SI w vis frs'.
Proof.
  intros HF [H1 H2 H3 H4 H5 H6 H7]. split; try done.
  - apply list.Forall_forall. intros fr' Hin. apply elem_of_list_lookup in Hin as [i Hi].
    destruct (Forall2_lookup_r _ _ _ _ _ HF Hi) as (fr & Hfr & <- & _). by eapply Forall_lookup_1 in H1.
  - intros v k fr' Hv Hin Hp. apply elem_of_list_lookup in Hin as [i Hi].
    destruct (Forall2_lookup_r _ _ _ _ _ HF Hi) as (fr & Hfr & Hm). eapply H3; [done|by eapply elem_of_list_lookup_2|by eapply moves_pend].
  - clear H1 H3 H5 H7. revert H4. induction HF as [|fr fr' l l' Hm HF IH]; intros H4; [constructor|].
    apply SS_cons in H4 as [H4 H4']. apply SS_cons. split; [by apply IH|].
    intros y Hy. apply elem_of_list_lookup in Hy as [i Hi]. destruct (Forall2_lookup_r _ _ _ _ _ HF Hi) as (x & Hx & Hmx).
    intros k k' Hk Hk'. eapply (H4' x); [by eapply elem_of_list_lookup_2| |by eapply moves_pend]. destruct Hm as (-> & _). done.
  - apply list.Forall_forall. intros fr' Hin. apply elem_of_list_lookup in Hin as [i Hi].
    destruct (Forall2_lookup_r _ _ _ _ _ HF Hi) as (fr & Hfr & <- & _). by eapply Forall_lookup_1 in H5.
  - intros k Hg Ha. destruct (H7 k Hg Ha) as [?|He]; [by left|right]. apply Exists_exists in He as (fr & Hin & Hp).
    apply elem_of_list_lookup in Hin as [i Hi]. destruct (Forall2_lookup_l _ _ _ _ _ HF Hi) as (fr' & Hfr & Hm).
    apply Exists_exists. exists fr'. split; [by eapply elem_of_list_lookup_2|]. by apply Hm.
Qed.

Lemma moves_zero w o i b : at_slot o i b -> (forall key, always key w -> ~ stem o b `prefix_of` key) -> moves w (o, i) (o, S i).
Proof.
  intros Hi H. split_and!; simpl; [done|lia|]. intros k Hg Ha (j & c & Hj & Hc & Hp). simpl in *.
  destruct (decide (j = i)) as [->|].
  - rewrite (at_slot_inj _ _ _ _ Hi Hc) in H. by apply H in Hp.
  - exists j, c. simpl. split; [lia|done].
Qed.

(** A frame at its end can be dropped. *)
Lemma SI_drop w vis l o i r : SI w vis (l ++ (o, i) :: r) -> (scount o <= i)%nat -> SI w vis (l ++ r).
Proof.
  intros [H1 H2 H3 H4 H5 H6 H7] Hi. split; try done.
  - rewrite Forall_app, Forall_cons in H1. rewrite Forall_app. tauto.
  - intros v k fr Hv Hin. apply H3; [done|]. rewrite elem_of_app, elem_of_cons. apply elem_of_app in Hin. tauto.
  - apply SS_app in H4 as (A & B & C). apply SS_cons in B as [B _]. apply SS_app. split_and!; try done.
    intros x y Hx Hy. apply C; [done|]. by right.
  - rewrite Forall_app, Forall_cons in H5. rewrite Forall_app. tauto.
  - intros k Hg Ha. destruct (H7 k Hg Ha) as [?|He]; [by left|right]. rewrite Exists_app, Exists_cons in He. rewrite Exists_app.
    destruct He as [?|[He|?]]; [tauto| |tauto]. by apply pend_end in He.
Qed.

Lemma stem_lt o i j b c k k' : ofacts K o -> at_slot o i b -> at_slot o j c -> (i < j)%nat ->
  stem o b `prefix_of` k -> stem o c `prefix_of` k' -> lex_lt k k'.
Proof.
  intros Hf Hi Hj Hij Hk Hk'. eapply (lex_lt_branch (o_path o ++ o_pfx o)); unfold stem in *; rewrite <- ?app_assoc; try done.
  by eapply at_slot_mono.
Qed.

Lemma SI_facts w vis frs fr : (forall key, J key w) -> SI w vis frs -> fr ∈ frs -> ofacts K fr.1.
Proof.
  intros HJ Hs Hin. eapply known_facts; [exact (j_good _ _ _ _ _ _ _ (HJ []))|].
  pose proof (si_known _ _ _ Hs) as Hk. rewrite list.Forall_forall in Hk. by apply Hk.
Qed.

(** A leaf is visited. *)
Lemma SI_leaf w vis o i b v frs : (forall key, J key w) -> SI w vis ((o, i) :: frs) -> at_slot o i b ->
  v < vlim -> stem o b `prefix_of` fetch v -> seen_leaf w (fetch v) v ->
  (forall key, always key w -> stem o b `prefix_of` key -> key = fetch v) ->
  SI w (vis ++ [v]) ((o, S i) :: frs).
Proof.
  intros HJ Hs Hi Hv Hp Hsl Hkey. pose proof (SI_facts _ _ _ (o, i) HJ Hs ltac:(left)) as Hf. simpl in Hf. destruct Hs as [H1 H2 H3 H4 H5 H6 H7].
  apply SS_cons in H4 as [H4 H4']. apply Forall_cons in H1 as [H1 H1'], H5 as [H5 H5']. simpl in *.
  assert (Hpv : pend (o, i) (fetch v)) by (exists i, b; done).
  split.
  - by apply Forall_cons.
  - rewrite map_app. apply SS_app. split_and!; [done|repeat constructor|]. intros x y Hx Hy. apply elem_of_list_singleton in Hy as ->.
    apply elem_of_list_fmap in Hx as (u & -> & Hu). eapply H3; [done|by left|done].
  - intros u k fr Hu Hin Hk. apply elem_of_app in Hu as [Hu|Hu%elem_of_list_singleton].
    + apply elem_of_cons in Hin as [->|Hin]; [eapply H3; [done|by left|]|eapply H3; [done|by right|done]].
      eapply pend_mono; [|done]. lia.
    + subst u. apply elem_of_cons in Hin as [->|Hin].
      * destruct Hk as (j & c & Hj & Hc & Hpk). simpl in *. eapply (stem_lt o i j b c); try done.
      * eapply (H4' fr); [done| |done]. by eapply pend_path.
  - apply SS_cons. split; [done|]. intros y Hy k k' Hk Hk'. by eapply (H4' y).
  - by apply Forall_cons.
  - apply Forall_app. split; [done|]. apply Forall_singleton. split_and!; try done. etrans; [exact H5|]. etrans; [|exact Hp].
    unfold stem. rewrite app_assoc. by apply prefix_app_r.
  - intros k Hg Ha. rewrite map_app, elem_of_app. destruct (H7 k Hg Ha) as [?|He]; [tauto|]. rewrite Exists_cons in He. rewrite Exists_cons.
    destruct He as [(j & c & Hj & Hc & Hpk)|?]; [|tauto]. simpl in *. destruct (decide (j = i)) as [->|].
    + left. right. rewrite (at_slot_inj _ _ _ _ Hc Hi) in Hpk. rewrite (Hkey k Ha Hpk). by left.
    + right. left. exists j, c. simpl. split; [lia|done].
Qed.

(** A child node is entered. *)
Lemma SI_node w vis o i b o' frs : (forall key, J key w) -> SI w vis ((o, i) :: frs) -> at_slot o i b ->
  known w o' -> o_path o' = stem o b -> SI w vis ((o', O) :: (o, S i) :: frs).
Proof.
  intros HJ Hs Hi Ho' Hp. pose proof (SI_facts _ _ _ (o, i) HJ Hs ltac:(left)) as Hf. simpl in Hf. destruct Hs as [H1 H2 H3 H4 H5 H6 H7].
  apply SS_cons in H4 as [H4 H4']. pose proof H1 as H1'. apply Forall_cons in H1' as [H1' H1''], H5 as [H5 H5']. simpl in *.
  assert (Hpo : forall k, o_path o' `prefix_of` k -> pend (o, i) k) by (intros k Hk; rewrite Hp in Hk; exists i, b; done).
  split; try done.
  - by repeat (apply Forall_cons; split).
  - intros v k fr Hv Hin Hk. apply elem_of_cons in Hin as [->|Hin].
    + eapply H3; [done|by left|]. apply Hpo. by eapply pend_path.
    + apply elem_of_cons in Hin as [->|Hin]; [eapply H3; [done|by left|]|eapply H3; [done|by right|done]].
      eapply pend_mono; [|done]. lia.
  - apply SS_cons. split.
    + apply SS_cons. split; [done|]. intros y Hy k k' Hk Hk'. by eapply (H4' y).
    + intros y Hy k k' Hk Hk'. simpl in Hk. apply elem_of_cons in Hy as [->|Hy].
      * destruct Hk' as (j & c & Hj & Hc & Hpk). simpl in *. rewrite Hp in Hk. eapply (stem_lt o i j b c); try done.
      * eapply (H4' y); [done| |done]. eapply pend_path. by apply Hpo.
  - repeat (apply Forall_cons; split); try done. simpl. etrans; [exact H5|]. rewrite Hp. unfold stem. rewrite <- !app_assoc, app_assoc. by apply prefix_app_r.
  - intros k Hg Ha. destruct (H7 k Hg Ha) as [?|He]; [by left|right]. rewrite Exists_cons in He. rewrite !Exists_cons.
    destruct He as [(j & c & Hj & Hc & Hpk)|?]; [|tauto]. simpl in *. destruct (decide (j = i)) as [->|].
    + left. rewrite (at_slot_inj _ _ _ _ Hc Hi) in Hpk. rewrite <- Hp in Hpk.
      destruct (key_below w o' k HJ Ho' Ha Hpk) as (l & d & Hl & Hd). exists l, d. simpl. split; [lia|done].
    + right. left. exists j, c. simpl. split; [lia|done].
Qed.

(** ** The loops over children *)

Definition IS (vis : list N) (frs : list (occ_t * nat)) (w : world) : Prop := (forall key, J key w) /\ SI w vis frs.

Lemma IS_steady vis frs : steady (IS vis frs).
Proof. apply steady_base. intros w w' Hl. by apply SI_later. Qed.

Lemma IS_known vis frs o i : (o, i) ∈ frs -> forall w, IS vis frs w -> known w o.
Proof. intros Hin w [_ Hs]. pose proof (si_known _ _ _ Hs) as Hk. rewrite list.Forall_forall in Hk. by apply (Hk (o, i)). Qed.

(** What comes of one word. *)
Lemma IS_word vis o i frs w b : IS vis ((o, i) :: frs) w -> at_slot o i b ->
  (sword w o i = 0 /\ IS vis ((o, S i) :: frs) w) \/
  (sword w o i <> 0 /\ isLeaf (sword w o i) = true /\ IS (vis ++ [getLeafValue (sword w o i)]) ((o, S i) :: frs) w) \/
  (sword w o i <> 0 /\ isLeaf (sword w o i) = false /\ exists o', refers (sword w o i) o' /\ IS vis ((o', O) :: (o, S i) :: frs) w).
Proof.
  intros Hw Hi. pose proof (IS_known _ _ o i ltac:(left) _ Hw) as Ho. destruct Hw as [HJ Hs].
  destruct (slot_cases w o i b HJ Ho Hi) as [H1 H2 H3|H1 H2 H3 H4 H5 H6 H7|o' H1 H2 H3 H4 H5 H6 H7].
  - left. split; [done|]. split; [done|]. eapply SI_moves; [|exact Hs]. constructor; [by eapply moves_zero|apply moves_all].
  - right. left. split_and!; try done. split; [done|]. by eapply SI_leaf.
  - right. right. split_and!; try done. exists o'. split.
    + split_and!; try done. exists b. split; [by destruct Hi|done].
    + split; [done|]. by eapply SI_node.
Qed.

Definition entered (o : occ_t) (frs : list (occ_t * nat)) (vis : list N) (child : option (nat * N)) (w : world) : Prop :=
  match child with
  | None => IS vis frs w
  | Some (k, a) => (k < scount o)%nat /\ exists o', refers a o' /\ IS vis ((o', O) :: (o, S k) :: frs) w
  end.

Lemma entered_later o frs vis child w w' : rtc rely w w' -> entered o frs vis child w -> entered o frs vis child w'.
Proof.
  intros Hr. unfold entered. destruct child as [[k a]|].
  - intros (? & o' & ? & H). split; [done|]. exists o'. split; [done|]. eapply sd_rtc; [apply IS_steady|done|done].
  - eapply sd_rtc; [apply IS_steady|done].
Qed.

Lemma children_ok o frs : forall n i vis w, IS vis ((o, i) :: frs) w -> (i + n = scount o)%nat ->
  okr (p_children (sbase o) i n vis) (fun r w1 => entered o frs r.1 r.2 w1) w.
Proof.
  induction n as [|n IH]; intros i vis w Hw Hin.
  - cbn [p_children]. intros w' Hr. cbn [entered fst snd]. apply (sd_rtc _ (IS_steady _ _) _ _ Hr) in Hw as [HJ Hs].
    split; [done|]. eapply (SI_drop _ _ [] o i); [done|lia].
  - cbn [p_children p_load pbind].
    apply (okr_load _ (IS_steady vis ((o, i) :: frs))); [done|intros w1; eapply slot_safe; [apply IS_steady|apply (IS_known _ _ o i); left|lia]|]. clear w Hw. intros w Hw. cbn [pget].
    fold (sword w o i). destruct (at_slot_ex o i) as [b Hb]; [destruct Hw as [HJ Hs]; by apply (SI_facts _ _ _ (o, i) HJ Hs); left|lia|].
    destruct (IS_word _ _ _ _ _ _ Hw Hb) as [(-> & H1)|[(Hne & -> & H1)|(Hne & -> & o' & Hr & H1)]].
    + change (0 =? 0) with true. cbn iota. apply IH; [done|lia].
    + rewrite (proj2 (N.eqb_neq _ _)) by done. apply IH; [done|lia].
    + rewrite (proj2 (N.eqb_neq _ _)) by done. intros w' Hrt. eapply entered_later; [done|]. cbn [entered fst snd]. split; [lia|]. by exists o'.
Qed.

Lemma count_children_ok o frs : forall n i vis w, IS vis ((o, i) :: frs) w -> (i + n = scount o)%nat ->
  okr (p_count_children (sbase o) i n (length vis)) (fun r w1 => exists vis1, r.1 = length vis1 /\ entered o frs vis1 r.2 w1) w.
Proof.
  induction n as [|n IH]; intros i vis w Hw Hin.
  - cbn [p_count_children]. intros w' Hr. exists vis. split; [done|]. cbn [entered fst snd]. apply (sd_rtc _ (IS_steady _ _) _ _ Hr) in Hw as [HJ Hs].
    split; [done|]. eapply (SI_drop _ _ [] o i); [done|lia].
  - cbn [p_count_children p_load pbind].
    apply (okr_load _ (IS_steady vis ((o, i) :: frs))); [done|intros w1; eapply slot_safe; [apply IS_steady|apply (IS_known _ _ o i); left|lia]|]. clear w Hw. intros w Hw. cbn [pget].
    fold (sword w o i). destruct (at_slot_ex o i) as [b Hb]; [destruct Hw as [HJ Hs]; by apply (SI_facts _ _ _ (o, i) HJ Hs); left|lia|].
    destruct (IS_word _ _ _ _ _ _ Hw Hb) as [(-> & H1)|[(Hne & -> & H1)|(Hne & -> & o' & Hr & H1)]].
    + change (0 =? 0) with true. cbn iota. apply IH; [done|lia].
    + rewrite (proj2 (N.eqb_neq _ _)) by done. cbn iota.
      replace (S (length vis)) with (length (vis ++ [getLeafValue (sword w o i)])) by (rewrite app_length; simpl; lia). apply IH; [done|lia].
    + rewrite (proj2 (N.eqb_neq _ _)) by done. intros w' Hrt. exists vis. split; [done|]. eapply entered_later; [done|]. cbn [entered fst snd]. split; [lia|]. by exists o'.
Qed.

Lemma nonzero_ok l o frs vis : forall n i w, IS vis (l ++ (o, i) :: frs) w -> (i + n = scount o)%nat ->
  okr (p_nonzero (sbase o) i n) (fun k w1 => (i <= k <= scount o)%nat /\ IS vis (l ++ (o, k) :: frs) w1) w.
Proof.
  induction n as [|n IH]; intros i w Hw Hin.
  - cbn [p_nonzero]. apply (okr_ret _ (IS_steady vis (l ++ (o, i) :: frs))); [done|]. intros w' Hw'. split; [lia|done].
  - cbn [p_nonzero p_load pbind]. apply (okr_load _ (IS_steady vis (l ++ (o, i) :: frs)));
      [done|intros w1; eapply slot_safe; [apply IS_steady|apply (IS_known _ _ o i), elem_of_app; right; left|lia]|]. clear w Hw. intros w Hw. cbn [pget].
    fold (sword w o i). assert (Hin' : (o, i) ∈ l ++ (o, i) :: frs) by (apply elem_of_app; right; left).
    pose proof (IS_known _ _ o i Hin' _ Hw) as Ho. pose proof Hw as [HJ Hs].
    destruct (at_slot_ex o i) as [b Hb]; [by apply (SI_facts _ _ _ (o, i) HJ Hs)|lia|].
    destruct (N.eqb_spec (sword w o i) 0) as [E|Hne].
    + eapply okr_mono; [|apply (IH (S i)); [|lia]].
      * intros k w1 [? ?]. split; [lia|done].
      * split; [done|]. eapply SI_moves; [|exact Hs]. apply Forall2_app; [apply moves_all|]. constructor; [|apply moves_all].
        destruct (slot_cases w o i b HJ Ho Hb) as [H1 H2 H3|H1|o' H1]; [by eapply moves_zero|done|done].
    + apply (okr_ret _ (IS_steady vis (l ++ (o, i) :: frs))); [done|]. intros w' Hw'. split; [lia|done].
Qed.

(** ** Count *)

Definition fit_stack (stack : list (N * nat)) (frs : list (occ_t * nat)) : Prop :=
  Forall2 (fun p fr => refers p.1 fr.1 /\ p.2 = fr.2 /\ (fr.2 <= scount fr.1)%nat) stack frs.

Definition count_Q (r : nat * nat * counter) (w : world) : Prop := exists vis, r.1.2 = length vis /\ IS vis [] w.

Lemma count_loop_ok : FU -> forall fuel raw i stack nodes c o frs vis w, IS vis ((o, i) :: frs) w -> refers raw o -> (i <= scount o)%nat ->
  fit_stack stack frs -> okr (p_count_loop fuel raw i stack nodes (length vis) c) count_Q w.
Proof.
  intros HFU. induction fuel as [|fuel IH]; intros raw i stack nodes c o frs vis w Hw (Hr0 & Hrl & b & Hb & Hrx) Hi Hst; [exact HFU|].
  cbn [p_count_loop]. rewrite Hrx.
  pose proof (IS_steady vis ((o, i) :: frs)) as HI. pose proof (IS_known vis ((o, i) :: frs) o i ltac:(left)) as Ho.
  apply (okr_p_data _ HI o Ho); [done|]. clear w Hw. intros w Hw.
  apply (okr_p_skip _ HI o Ho); [done|]. clear w Hw. intros w Hw.
  pose proof (rd_upto _ HI o Ho w Hw) as Hup. fold (scount o) in Hup. rewrite Hup.
  replace (if (i <? scount o)%nat then Ok tt else Ok tt) with (@Ok unit tt) by (by destruct (i <? scount o)%nat). cbn [of_res pbind sl_base].
  fold (sbase o). apply okr_bind. eapply okr_mono; [|apply (count_children_ok o frs (scount o - i) i vis w Hw); lia].
  clear w Hw Hup. intros [leaves1 child] w (vis1 & E & He). simpl in E. subst leaves1. cbn [fst snd] in He. unfold entered in He.
  destruct child as [[k a]|].
  - destruct He as (Hk & o' & Hr' & Hw). apply okr_bind.
    eapply okr_mono with (Q := fun next w1 => (S k <= next <= scount o)%nat /\ IS vis1 ((o', O) :: (o, next) :: frs) w1).
    + clear w Hw. intros next w [Hnext Hw]. destruct (Nat.ltb_spec next (scount o)) as [Hlt|Hge].
      * eapply IH; [exact Hw|done|lia|]. constructor; [|done]. cbn [fst snd]. split_and!; [|done|lia]. split_and!; try done. by exists b.
      * eapply IH; [|done|lia|exact Hst]. destruct Hw as [HJ Hs]. split; [done|].
        by apply (SI_drop _ _ [(o', O)] o next).
    + destruct (fullAllocFrom <=? scount o)%nat.
      * apply (nonzero_ok [(o', O)]); [done|lia].
      * apply (okr_ret _ (IS_steady vis1 ((o', O) :: (o, S k) :: frs))); [done|]. intros w' Hw'. split; [lia|done].
  - destruct stack as [|[raw' next'] rest].
    + inversion Hst; subst. apply (okr_ret _ (IS_steady vis1 [])); [done|]. intros w' Hw'. exists vis1. done.
    + destruct frs as [|[o2 i2] frs']; [inversion Hst|]. apply Forall2_cons in Hst as [(R1 & R2 & R3) Hst]. cbn [fst snd] in *. subst next'.
      eapply IH; try done.
Qed.

(** ** The search for a prefix *)

Lemma rd_get {A} I (HI : steady I) o (Ho : forall w, I w -> known w o) i (k : N -> prog A) Q w : I w -> (i < scount o)%nat ->
  (forall w1, I w1 -> okr (k (sword w1 o i)) Q w1) ->
  okr (pbind (p_get (Slice (o_addr o + N.of_nat (prefix_slots (length (o_pfx o)))) (dlen (o_addr o) - N.of_nat (prefix_slots (length (o_pfx o))))) i) k) Q w.
Proof.
  intros Hw Hi H. pose proof (of_fit _ _ (rd_facts _ HI o Ho _ Hw)) as HL. unfold oreg, nslots in HL. cbn [snd] in HL. unfold scount in Hi.
  unfold p_get. cbn [sl_len sl_base]. rewrite (proj2 (N.ltb_lt _ _)) by lia. cbn [p_load pbind]. apply (okr_load I HI); [done|intros w1; by apply (slot_safe I HI o Ho)|done].
Qed.

Lemma view_byte w o i b : (forall key, J key w) -> known w o -> o_full o = false -> at_slot o i b ->
  slot_view w o b (sword w o i) /\ to_byte (sword w o i) = b /\ sword w o i <> 0.
Proof.
  intros HJ Ho Hf Hi. pose proof (slot_cases w o i b HJ Ho Hi) as Hv. split; [done|].
  destruct Hv as [H1 H2 _|H1 _ H2|o' H1 _ H2]; [congruence|done|done].
Qed.

Lemma scan_ok I (HI : steady I) o (Ho : forall w, I w -> known w o) kb : kb < 256 -> forall n i last w, I w -> o_full o = false -> (i + n = scount o)%nat ->
  (forall b j, (j < i)%nat -> at_slot o j b -> b < kb) -> (i = 0%nat \/ to_byte (snd last) <> kb) -> (n <> 0%nat \/ i <> 0%nat) ->
  okr (p_scan (sbase o) kb i n last) (fun r w1 => I w1 /\
    ((exists j, at_slot o j kb /\ slot_view w1 o kb r.2 /\ to_byte r.2 = kb) \/ ((forall j, ~ at_slot o j kb) /\ to_byte r.2 <> kb))) w.
Proof.
  intros Hkb. induction n as [|n IH]; intros i last w Hw Hf Hin Hlt Hlast Hne.
  - cbn [p_scan]. apply (okr_ret I HI); [done|]. intros w' Hw'. split; [done|]. right. split.
    + intros j Hj. pose proof (at_slot_lt _ _ _ Hj). assert (kb < kb); [|lia]. apply (Hlt kb j); [lia|done].
    + cbn [snd]. by destruct Hlast; [lia|].
  - cbn [p_scan p_load pbind]. apply (okr_load I HI); [done|intros w1; apply (slot_safe I HI o Ho); lia|]. clear w Hw. intros w Hw. cbn [pget]. fold (sword w o i).
    pose proof (rd_facts _ HI o Ho _ Hw) as Hof. destruct (at_slot_ex o i Hof) as [b Hb]; [lia|].
    destruct (view_byte w o i b (sd_J _ HI _ Hw) (Ho _ Hw) Hf Hb) as (Hv & Eb & _). rewrite Eb.
    destruct (N.leb_spec kb b) as [Hle|Hgt].
    + intros w' Hr. split; [by eapply (sd_rtc I HI)|]. cbn [snd]. destruct (decide (b = kb)) as [->|Hneb].
      * left. exists i. split_and!; try done. eapply slot_view_later; [|exact Hv]. by apply rtc_later.
      * right. rewrite Eb. split; [|done]. intros j Hj. destruct (lt_eq_lt_dec j i) as [[Hji | ->]|Hji].
        -- pose proof (Hlt _ _ Hji Hj). lia.
        -- by rewrite (at_slot_inj _ _ _ _ Hb Hj) in Hneb.
        -- pose proof (at_slot_mono _ _ _ _ _ Hof Hb Hj Hji). lia.
    + apply IH; try done; [lia| |right; simpl; rewrite Eb; lia|lia].
      intros c j Hj Hc. destruct (decide (j = i)) as [->|]; [by rewrite (at_slot_inj _ _ _ _ Hc Hb)|]. apply (Hlt c j); [lia|done].
Qed.

(** The word found for the prefix. *)
Definition found (w : world) (raw : N) : Prop :=
  (raw = 0 /\ forall key, always key w -> ~ sp `prefix_of` key) \/
  (raw <> 0 /\ isLeaf raw = true /\ getLeafValue raw < vlim /\ seen_leaf w (fetch (getLeafValue raw)) (getLeafValue raw) /\
     take 1 sp `prefix_of` fetch (getLeafValue raw) /\ forall key, always key w -> sp `prefix_of` key -> key = fetch (getLeafValue raw)) \/
  (exists o, refers raw o /\ known w o /\ o_path o `prefix_of` sp /\ sp `prefix_of` o_path o ++ o_pfx o).

Lemma found_later w w' raw : later w w' -> found w raw -> found w' raw.
Proof.
  intros Hl [(H1 & H2)|[(H1 & H2 & H3 & H4 & H5 & H6)|(o & H1 & H2 & H3)]].
  - left. split; [done|]. intros key Ha. apply H2. by eapply always_later.
  - right. left. split_and!; try done; [by eapply seen_later|]. intros key Ha. apply H6. by eapply always_later.
  - right. right. exists o. split_and!; try done; [by eapply known_later|tauto|tauto].
Qed.

Definition found_Q (r : N * nat) (w : world) : Prop := (forall key, J key w) /\ found w r.1.

Lemma found_ret raw d w : (forall key, J key w) -> found w raw -> okr (Ret (raw, d)) found_Q w.
Proof.
  intros HJ Hf. apply (okr_ret _ (steady_base (fun w => found w raw) (fun w w' => found_later w w' raw))); [done|].
  intros w' Hw'. exact Hw'.
Qed.

Lemma found_none d w : (forall key, J key w) -> (forall key, always key w -> ~ sp `prefix_of` key) -> okr (Ret (0, d)) found_Q w.
Proof. intros HJ H. apply found_ret; [done|]. by left. Qed.

Lemma take1_prefix (a b c : list N) : a <> [] -> a `prefix_of` b -> a `prefix_of` c -> take 1 b `prefix_of` c.
Proof. intros Hne [q ->] [r ->]. destruct a as [|x a]; [done|]. simpl. rewrite take_0. exists (a ++ r). done. Qed.

Lemma stem_nonnil o b : stem o b <> [].
Proof. unfold stem. destruct (o_path o); [|done]. by destruct (o_pfx o). Qed.

Lemma partial_loop_ok2 : bytes sp -> forall fuel o raw w, (forall key, J key w) -> known w o -> refers raw o -> o_path o `prefix_of` sp ->
  (FU \/ length sp < fuel + length (o_path o))%nat -> okr (p_partial_loop fuel sp raw (length (o_path o))) found_Q w.
Proof.
  intros Hbytes. induction fuel as [|fuel IH]; intros o raw w HJ Ho Href Hp Hfu.
  { destruct Hfu as [?|Hfu]; [done|]. apply prefix_length in Hp. simpl in Hfu. lia. }
  pose proof Href as (Hr0 & Hrl & b & Hb & Hrx). cbn [p_partial_loop]. rewrite Hrx.
  assert (Hhere : forall w d, (forall key, J key w) -> known w o -> sp `prefix_of` o_path o ++ o_pfx o -> okr (Ret (raw, d)) found_Q w).
  { intros w1 d HJ1 Ho1 Hsp. apply found_ret; [done|]. right. right. by exists o. }
  destruct (Nat.leb_spec (length sp) (length (o_path o))) as [Hle|Hlt].
  { apply Hhere; [done|done|]. apply prefix_app_r. apply prefix_len_eq in Hp; [by rewrite Hp|lia]. }
  set (I := fun w => (forall key, J key w) /\ known w o).
  assert (HI : steady I) by (apply steady_base; intros w1 w2; apply known_later).
  assert (HIo : forall w, I w -> known w o) by (by intros w1 [_ ?]).
  assert (Hw : I w) by done. clear HJ Ho.
  apply (okr_p_data I HI o HIo); [done|]. clear w Hw. intros w Hw.
  apply (okr_p_append I HI o HIo); [done|]. clear w Hw. intros w Hw.
  rewrite (rd_from I HI o HIo _ Hw). cbn [of_res pbind].
  pose proof Hp as [q Eq]. pose proof (prefix_cmp_spec sp (length (o_path o)) (o_pfx o) 0) as Hcmp.
  assert (Edrop : drop (length (o_path o)) sp = q) by (rewrite Eq; apply drop_app). rewrite Nat.add_0_r, Edrop in Hcmp.
  assert (Hnokey : ~ o_pfx o `prefix_of` q -> ~ q `prefix_of` o_pfx o -> okr (Ret (0, O)) found_Q w).
  { intros Hn1 Hn2. apply found_none; [by apply Hw|]. intros key Ha Hsp.
    destruct (key_below w o key (proj1 Hw) (HIo _ Hw) Ha) as (i & c & _ & Hst); [by etrans|].
    rewrite Eq in Hsp. unfold stem in Hst. destruct Hsp as [r ->]. rewrite <- app_assoc in Hst. apply prefix_app_inv in Hst.
    destruct (prefix_weak_total (o_pfx o) q (q ++ r)) as [?|?]; [|by apply prefix_app_r|done|done].
    etrans; [|exact Hst]. by apply prefix_app_r. }
  destruct (prefix_cmp sp (length (o_path o)) (o_pfx o) 0) as [|j|] eqn:Ecmp.
  2:{ destruct Hcmp as (n & x & y & -> & H1 & H2 & H3 & _). apply Hnokey.
      - intros [r ->]. rewrite lookup_app_l in H2 by (by eapply lookup_lt_Some). congruence.
      - intros [r Er]. rewrite Er, lookup_app_l in H1 by (by eapply lookup_lt_Some). congruence. }
  { apply Hhere; [by apply Hw|by apply Hw|]. rewrite Eq. by apply prefix_app. }
  destruct Hcmp as [q' Eq']. destruct (Nat.leb_spec (length sp) (length (o_path o) + length (o_pfx o))) as [Hle|Hgt].
  { apply Hhere; [by apply Hw|by apply Hw|]. rewrite Eq, Eq'. rewrite Eq, Eq', !app_length in Hle. destruct q' as [|]; [by rewrite app_nil_r|simpl in Hle; lia]. }
  destruct q' as [|c q']; [rewrite Eq, Eq', !app_length in Hgt; simpl in Hgt; lia|].
  assert (Hst : stem o c `prefix_of` sp) by (exists q'; unfold stem; rewrite Eq, Eq', <- !app_assoc; done).
  pose proof (prefix_next _ _ _ _ Hst) as Ec. rewrite (key_at_Some _ _ _ Ec). cbn [of_res pbind].
  assert (Hc : c < 256) by (eapply Forall_lookup_1 in Hbytes; [|done]; done).
  assert (Hview : forall w a d, I w -> a <> 0 -> slot_view w o c a ->
    okr (if isLeaf a then Ret (a, d) else p_partial_loop fuel sp a (S (length (o_path o) + length (o_pfx o)))) found_Q w).
  { intros w1 a d Hw1 Hne [H1|H1 H2 H3 H4 H5 H6 H7|o' H1 H2 H3 H4 H5 H6 H7]; [done| |].
    - rewrite H2. apply found_ret; [apply Hw1|]. right. left. split_and!; try done.
      + by eapply take1_prefix; [apply (stem_nonnil o c)| |].
      + intros key Ha Hsp. apply H7; [done|]. exact (PreOrder_Transitive _ _ _ Hst Hsp).
    - rewrite H2. replace (S (length (o_path o) + length (o_pfx o))) with (length (o_path o')) by (rewrite H5; unfold stem; rewrite !app_length; simpl; lia).
      apply IH; [apply Hw1|done| |by rewrite H5|].
      + split_and!; try done. by exists c.
      + destruct Hfu as [?|Hfu]; [by left|right]. rewrite H5. unfold stem. rewrite !app_length. simpl. lia. }
  pose proof (rd_facts I HI o HIo _ Hw) as Hof. unfold scount. rewrite (of_full _ _ Hof). fold (scount o). destruct (o_full o) eqn:Ef.
  - assert (Hat : at_slot o (N.to_nat c) c) by (split; [done|]; by rewrite Ef).
    apply (rd_get I HI o HIo); [done|by eapply at_slot_lt|]. clear w Hw Hnokey. intros w Hw.
    pose proof (slot_cases w o _ c (proj1 Hw) (HIo _ Hw) Hat) as Hv. destruct (N.eqb_spec (sword w o (N.to_nat c)) 0) as [E|Hne].
    + apply found_none; [by apply Hw|]. intros key Ha Hsp. destruct Hv as [_ _ H|H|o' H]; [|done|done]. eapply H; [exact Ha|]. by etrans.
    + by apply Hview.
  - rewrite (rd_upto I HI o HIo _ Hw) || (unfold scount; rewrite Ef in *; pose proof (rd_upto I HI o HIo _ Hw) as Hup; rewrite Ef in Hup; rewrite Hup).
    cbn [of_res pbind sl_base]. fold (sbase o). apply okr_bind.
    eapply okr_mono; [|apply (scan_ok I HI o HIo c Hc (ncount false (length (o_hs o))) 0 (O, 0) w Hw Ef)].
    + clear w Hw Hnokey. intros [[brk j] a] w (Hw & [(i & Hi & Hv & Eb)|[Hn Eb]]); cbn [snd] in *.
      * rewrite Eb, N.eqb_refl. apply Hview; try done. intros E0. destruct Hv as [_ Hfull _|H|o' H]; [congruence|done|done].
      * rewrite (proj2 (N.eqb_neq _ _)) by done. apply found_none; [by apply Hw|]. intros key Ha Hsp.
        destruct (key_below w o key (proj1 Hw) (HIo _ Hw) Ha) as (i & d & Hi & Hst'); [by etrans|].
        assert (d = c) as -> by (pose proof (PreOrder_Transitive _ _ _ Hst Hsp) as Hst2; pose proof (prefix_next _ _ _ _ Hst2); pose proof (prefix_next _ _ _ _ Hst'); congruence).
        by apply (Hn i).
    + unfold scount. by rewrite Ef.
    + lia.
    + by left.
    + left. pose proof (of_cnt _ _ Hof) as Hcn. rewrite Ef in Hcn. lia.
Qed.

Lemma partial_empty_ok : forall fuel w depth, (forall key, J key w) -> (forall key, ~ always key w) -> (depth <= length sp)%nat ->
  (FU \/ length sp < fuel + depth)%nat -> okr (p_partial_loop fuel sp 0 depth) found_Q w.
Proof.
  induction fuel as [|fuel IH]; intros w depth HJ Ha Hd Hfu; [destruct Hfu as [?|Hfu]; [done|simpl in Hfu; lia]|].
  set (I := fun w => (forall key, J key w) /\ (forall key, ~ always key w)).
  assert (HI : steady I).
  { apply steady_base. intros w1 w2 Hl H1 key H2. apply (H1 key). by eapply always_later. }
  assert (Hw : I w) by done. clear HJ Ha.
  assert (Hret : forall w d, I w -> okr (Ret (0, d)) found_Q w).
  { intros w1 d [? H]. apply found_none; [done|]. intros key Ha. by apply H in Ha. }
  cbn [p_partial_loop]. rewrite explode_zero. destruct (Nat.leb_spec (length sp) depth); [by apply Hret|].
  cbn [p_data pbind]. apply (okr_block I HI); [done| |done|].
  { intros w1 _. change (block_of 0) with 0. lia. }
  clear w Hw. intros w Hw. cbn [p_append pbind]. change (sl_from _ 0) with (@Ok slice (Slice 0 (blockSlots - offset_of 0))).
  cbn [of_res pbind prefix_cmp length]. rewrite Nat.add_0_r. destruct (Nat.leb_spec (length sp) depth); [by apply Hret|].
  destruct (lookup_lt_is_Some_2 sp depth ltac:(lia)) as [k Ek]. rewrite (key_at_Some _ _ _ Ek). cbn [of_res pbind].
  change (fullAllocFrom <=? 1)%nat with false. cbn iota.
  change (sl_upto (Slice 0 (blockSlots - offset_of 0)) 1) with (@Ok unit tt). cbn [of_res pbind sl_base p_scan p_load].
  apply (okr_load I HI); [done|by left|]. clear w Hw. intros w Hw. cbn [pget]. change (0 + N.of_nat 0) with 0.
  assert (Hm0 : mget (t_mem (w_tree w)) 0 = 0).
  { apply (co_zero _ _ _ _ (iv_core _ _ _ _ _ _ _ (g_inv _ _ _ (j_good _ _ _ _ _ _ _ (proj1 Hw []))))). by left. }
  rewrite Hm0. change (to_byte 0) with 0. destruct (N.leb_spec k 0); cbn [pbind fst snd].
  - assert (k = 0) as -> by lia. change (to_byte 0) with 0. rewrite N.eqb_refl, isLeaf_zero. destruct Hw as [? ?].
    apply IH; [done|done|lia|]. destruct Hfu; [by left|right; lia].
  - change (to_byte 0) with 0. rewrite (proj2 (N.eqb_neq 0 k)) by lia. by apply Hret.
Qed.

Lemma partial_ok w : bytes sp -> (forall key, J key w) -> okr (p_partial sp) found_Q w.
Proof.
  intros Hbytes HJ. unfold p_partial. cbn [p_load pbind].
  set (I := fun w => (forall key, J key w) /\ True). assert (HI : steady I) by (by apply steady_base).
  apply (okr_load I HI); [done|done|]. clear dependent w. intros w [HJ _]. cbn [pget].
  pose proof (j_good _ _ _ _ _ _ _ (HJ [])) as Hg. pose proof (iv_core _ _ _ _ _ _ _ (g_inv _ _ _ Hg)) as Hc.
  pose proof (span_last K fetch n0 w Hg (j_n0 _ _ _ _ _ _ _ (HJ []))) as Hsp.
  destruct (iv_maps _ _ _ _ _ _ _ (g_inv _ _ _ Hg)) as [Hmap _].
  destruct (w_trie w) as [[k v|full a pfx cs]|] eqn:ET.
  - destruct (root_word_leaf K fetch HK _ _ _ Hc) as (Hne & Hl & Hv & Hk & Hfv & Hvl & b & k' & Ek & Hb' & _ & Hby).
    assert (Hkey : forall key, always key w -> key = fetch v).
    { intros key Ha. destruct (Ha _ Hsp) as [v' Hv']. simpl in Hv'. apply Hmap in Hv'.
      apply elem_of_list_singleton in Hv'. congruence. }
    assert (Hf : take 1 sp `prefix_of` k -> found w (t_root (w_tree w))).
    { intros Ht. right. left. rewrite Hv. split_and!; try done; [|by rewrite Hfv|by intros; apply Hkey].
      exists (w_hist w, Some (Leaf k v)). split; [done|]. rewrite Hfv. by left. }
    destruct sp as [|c sp'] eqn:Esp; [apply found_ret; [done|]; apply Hf, prefix_nil|].
    rewrite Hl, Hby. destruct (N.eqb_spec b c) as [->|Hbc].
    + apply found_ret; [done|]. apply Hf. rewrite Ek. simpl. rewrite take_0. by exists k'.
    + apply found_none; [done|]. intros key Ha Hp. apply Hkey in Ha. rewrite Hfv, Ek in Ha. subst key. rewrite Esp in Hp; by apply prefix_cons_inv_1 in Hp.
  - set (o := Occ [] PRoot 0 a full pfx (heads cs)).
    assert (Ho : known w o). { exists (w_hist w, Some (Node full a pfx cs)). split; [done|]. apply (occ_at_here []). }
    pose proof (hole_enc K fetch _ [] _ Hc eq_refl) as (_ & Hl & Hne). pose proof (hole_explode K fetch _ [] full a pfx cs Hc) as Hx.
    rewrite (co_root _ _ _ _ Hc). change (enc_root (Some (Node full a pfx cs))) with (hole_word [] (Node full a pfx cs)).
    assert (Href : refers (hole_word [] (Node full a pfx cs)) o).
    { split; [exact Hne|]. split; [exact Hl|]. exists 0. split; [lia|]. rewrite Hx. unfold scount, o. simpl. by rewrite heads_length. }
    destruct sp as [|c sp'] eqn:Esp.
    + apply found_ret; [done|]. right. right. exists o. rewrite Esp. split_and!; try done; apply prefix_nil.
    + rewrite Hl. rewrite <- Esp in *. change O with (length (o_path o)). apply partial_loop_ok2; try done; [apply prefix_nil|right; simpl; lia].
  - rewrite (co_root _ _ _ _ Hc). simpl enc_root.
    assert (Hno : forall key, ~ always key w).
    { intros key Ha. destruct (Ha _ Hsp) as [v Hv]. simpl in Hv. apply Hmap in Hv. by apply elem_of_nil in Hv. }
    destruct sp as [|c sp'] eqn:Esp; [apply found_none; [done|]; intros key Ha; by apply Hno in Ha|].
    rewrite isLeaf_zero. rewrite <- Esp. apply partial_empty_ok; try done; [lia|right; lia].
Qed.

(** ** Count and Next *)

Context (HG : forall k, goal k -> sp `prefix_of` k).

Lemma SI_start w o : (forall key, J key w) -> known w o -> o_path o `prefix_of` sp -> sp `prefix_of` o_path o ++ o_pfx o -> SI w [] [(o, O)].
Proof.
  intros HJ Ho H1 H2. split; try (by repeat constructor).
  - by intros v k fr ?%elem_of_nil.
  - intros k Hg Ha. right. apply Exists_cons_hd. destruct (key_below w o k HJ Ho Ha) as (i & b & Hi & Hb); [etrans; [exact H1|by apply HG]|].
    exists i, b. simpl. split; [lia|done].
Qed.

(** What was visited, with [rest] for the keys that may still come. *)
Record visited (w : world) (vis : list N) (rest : list N -> Prop) : Prop := {
  vi_sorted : StronglySorted lex_lt (map fetch vis);
  vi_leaf : forall v, v ∈ vis -> v < vlim /\ seen_leaf w (fetch v) v /\
    (sp `prefix_of` fetch v \/ (vis = [v] /\ take 1 sp `prefix_of` fetch v));
  vi_all : forall k, goal k -> always k w -> k ∈ map fetch vis \/ rest k;
  vi_rest : forall v k, v ∈ vis -> rest k -> lex_lt (fetch v) k
}.

Lemma SI_visited w vis frs : SI w vis frs -> visited w vis (fun k => Exists (fun fr => pend fr k) frs).
Proof.
  intros [H1 H2 H3 H4 H5 H6 H7]. split; try done.
  - intros v Hv. rewrite list.Forall_forall in H6. destruct (H6 v Hv) as (? & ? & ?). auto.
  - intros v k Hv (fr & Hin & Hp)%Exists_exists. by eapply H3.
Qed.

Lemma visited_done w vis : SI w vis [] -> visited w vis (fun _ => False).
Proof.
  intros H. destruct (SI_visited _ _ _ H) as [H1 H2 H3 H4]. split; try done.
  intros k Hg Ha. destruct (H3 k Hg Ha) as [?|He]; [by left|]. by apply Exists_nil in He.
Qed.

Lemma visited_later w w' vis rest : later w w' -> visited w vis rest -> visited w' vis rest.
Proof.
  intros Hl [H1 H2 H3 H4]. split; try done.
  - intros v Hv. destruct (H2 v Hv) as (? & ? & ?). split_and!; try done. by eapply seen_later.
  - intros k Hg Ha. apply H3; [done|]. by eapply always_later.
Qed.

Lemma visited_none w : (forall key, always key w -> ~ sp `prefix_of` key) -> visited w [] (fun _ => False).
Proof.
  intros H. split; [constructor|by intros v ?%elem_of_nil| |done]. intros k Hg Ha. exfalso. apply (H k); [done|by apply HG].
Qed.

Lemma visited_leaf w v : v < vlim -> seen_leaf w (fetch v) v -> take 1 sp `prefix_of` fetch v ->
  (forall key, always key w -> sp `prefix_of` key -> key = fetch v) -> visited w [v] (fun _ => False).
Proof.
  intros H1 H2 H3 H4. split; [repeat constructor| | |done].
  - intros u Hu%elem_of_list_singleton. subst u. auto.
  - intros k Hg Ha. left. rewrite (H4 k Ha); [by left|by apply HG].
Qed.

Definition count_post (r : nat * nat * counter) (w : world) : Prop := (forall key, J key w) /\ exists vis, r.1.2 = length vis /\ visited w vis (fun _ => False).

Lemma count_ok fuel w : FU -> bytes sp -> (forall key, J key w) -> okr (p_count fuel sp) count_post w.
Proof.
  intros HFU Hb HJ. unfold p_count. apply okr_bind. eapply okr_mono; [|by apply partial_ok]. clear w HJ. intros [raw d] w [HJ Hf]. cbn [fst] in Hf.
  assert (Hret : forall vis (r : nat * nat * counter), r.1.2 = length vis -> visited w vis (fun _ => False) -> okr (Ret r) count_post w).
  { intros vis r Er Hv. apply (okr_ret _ (steady_base (fun w => visited w vis (fun _ => False)) (fun w w' => visited_later w w' vis _))); [done|].
    intros w' [? ?]. split; [done|]. by exists vis. }
  destruct Hf as [(-> & Hno)|[(Hne & Hl & H1 & H2 & H3 & H4)|(o & Href & Ho & H1 & H2)]].
  - change (0 =? 0) with true. cbn iota. apply (Hret []); [done|]. by apply visited_none.
  - rewrite (proj2 (N.eqb_neq _ _)) by done. rewrite Hl. apply (Hret [getLeafValue raw]); [done|]. by apply visited_leaf.
  - rewrite (proj2 (N.eqb_neq _ _)) by apply Href. rewrite (proj1 (proj2 Href)).
    eapply okr_mono; [|apply (count_loop_ok HFU fuel raw 0 [] 1 counter0 o [] [] w)]; try done; [|split; [done|by apply SI_start]|lia|constructor].
    clear w HJ Hret Ho. intros r w (vis & Er & HJ & Hs). split; [done|]. exists vis. split; [done|]. by apply visited_done.
Qed.

Lemma pfx_bytes o : ofacts K o -> bytes (o_pfx o).
Proof.
  intros Hf. destruct (of_ex _ _ Hf) as (k & b & Hk & [q ->]). pose proof (uv_bytes K HK _ Hk) as HB. unfold bytes in *. rewrite !Forall_app in HB. tauto.
Qed.

(** The stack of Next. *)
Definition fit_pos (p : position) (fr : occ_t * nat) : Prop := refers (pos_node p) fr.1 /\ pos_k p = fr.2 /\ (fr.2 <= scount fr.1)%nat.

Definition in_stack (w : world) (p : position) : Prop := exists o, known w o /\ refers (pos_node p) o /\ (pos_k p <= scount o)%nat.

Lemma in_stack_later w w' p : later w w' -> in_stack w p -> in_stack w' p.
Proof. intros Hl (o & H1 & H2). exists o. split; [by eapply known_later|done]. Qed.

Lemma stack_in vis stack frs w : IS vis frs w -> Forall2 fit_pos stack frs -> Forall (in_stack w) stack.
Proof.
  intros [_ Hs] HF. apply list.Forall_forall. intros p Hp. apply elem_of_list_lookup in Hp as [i Hi].
  destruct (Forall2_lookup_l _ _ _ _ _ HF Hi) as (fr & Hfr & H1 & H2 & H3). exists fr.1. split_and!; [|done|by rewrite H2].
  pose proof (si_known _ _ _ Hs) as Hk. by eapply Forall_lookup_1 in Hk.
Qed.

Context (HX : forall w o, (forall key, J key w) -> known w o -> N.of_nat (oreg o).2 = dlen (o_addr o) -> X OutOfRange w).

Lemma resume_key_ok (P : world -> Prop) (HP : forall w w', later w w' -> P w -> P w') : forall stack j w, (forall key, J key w) -> P w ->
  Forall (in_stack w) stack -> okr (p_resume_key j stack) (fun r w1 => bytes r /\ (forall key, J key w1) /\ P w1) w.
Proof.
  induction stack as [|p rest IH]; intros j w HJ Hp Hst.
  - cbn [p_resume_key]. apply (okr_ret _ (steady_base P HP)); [done|]. intros w' [? ?]. split_and!; try done. constructor.
  - apply Forall_cons in Hst as [(o & Ho & Href & Hk) Hst]. destruct Href as (_ & _ & b & Hb & Hrx). cbn [p_resume_key]. rewrite Hrx.
    set (I := fun w => (forall key, J key w) /\ (P w /\ known w o /\ Forall (in_stack w) rest)).
    assert (HI : steady I).
    { apply steady_base. intros w1 w2 Hl (A & B & C). split_and!; [by eapply HP|by eapply known_later|].
      eapply Forall_impl; [exact C|]. intros q. by apply in_stack_later. }
    assert (HIo : forall w, I w -> known w o) by (by intros w1 (_ & _ & ? & _)).
    assert (Hw : I w) by done. clear HJ Hp Ho Hst.
    apply (okr_p_data I HI o HIo); [done|]. clear w Hw. intros w Hw.
    apply (okr_p_append I HI o HIo); [done|]. clear w Hw. intros w Hw.
    pose proof (rd_facts I HI o HIo _ Hw) as Hof. pose proof (pfx_bytes _ Hof) as Hpb.
    set (here := (if (0 <? j)%nat then [b] else []) ++ o_pfx o).
    assert (Hhere : bytes here).
    { unfold here, bytes. apply Forall_app. split; [|done]. destruct (0 <? j)%nat; [|constructor]. by apply Forall_singleton. }
    destruct rest as [|p2 rest2].
    + unfold p_get. cbn [sl_len sl_base]. pose proof (of_fit _ _ Hof) as Hfit. pose proof (HX w o) as HXo. unfold oreg in Hfit, HXo. unfold nslots in Hfit, HXo. cbn [fst snd] in Hfit, HXo.
      unfold scount in Hk. destruct (N.ltb_spec (N.of_nat (prefix_slots (length (o_pfx o)) + pos_k p)) (dlen (o_addr o))) as [Hlt|Hge].
      * cbn [p_load pbind]. apply (okr_any I HI); [done|]. clear w Hw HXo. intros w v Hw. apply (okr_ret I HI); [done|].
        intros w' (HJ' & Hp' & _). split_and!; try done. unfold bytes. apply Forall_app. split; [done|]. apply Forall_singleton. apply to_byte_lt.
      * cbn [pbind okr]. intros w' Hr. pose proof (sd_rtc I HI _ _ Hr Hw) as Hw'. apply (HX w' o); [by apply Hw'|by apply HIo|].
        unfold oreg, nslots. cbn [fst snd]. lia.
    + apply okr_bind. destruct Hw as (HJ & Hp & Ho & Hst). eapply okr_mono; [|by apply (IH (S j))]. clear w HJ Hp Ho Hst.
      intros r w (Hr & HJ & Hp). apply (okr_ret _ (steady_base P HP)); [done|]. intros w' [? ?]. split_and!; try done.
      unfold bytes. by apply Forall_app.
Qed.

Lemma trim_suffix stack : exists n, trim_stack stack = drop n stack.
Proof.
  induction stack as [|p rest IH]; [by exists O|]. destruct rest as [|p2 rest]; [by exists O|].
  change (trim_stack (p :: p2 :: rest)) with (if pos_more p then p :: p2 :: rest else trim_stack (p2 :: rest)).
  destruct (pos_more p); [by exists O|]. destruct IH as [n IH]. by exists (S n).
Qed.

Definition scan_Q (r : list N * bool * list N * list position) (w : world) : Prop :=
  let '(pre, done, resume, _) := r in
  bytes resume /\ (done = false -> (defaultPrefetchLength < length pre)%nat) /\ exists frs, IS pre frs w /\ (done = true -> frs = []).

Lemma scan_loop_ok : FU -> forall fuel raw i stack vis resume o frs w, bytes resume -> IS vis ((o, i) :: frs) w -> refers raw o -> (i <= scount o)%nat ->
  Forall2 fit_pos stack frs -> okr (p_scan_loop fuel raw i stack vis resume) scan_Q w.
Proof.
  intros HFU. induction fuel as [|fuel IH]; intros raw i stack vis resume o frs w Hres Hw (Hr0 & Hrl & b & Hb & Hrx) Hi Hst; [exact HFU|].
  cbn [p_scan_loop]. rewrite Hrx.
  pose proof (IS_steady vis ((o, i) :: frs)) as HI. pose proof (IS_known vis ((o, i) :: frs) o i ltac:(left)) as Ho.
  apply (okr_p_data _ HI o Ho); [done|]. clear w Hw. intros w Hw.
  apply (okr_p_skip _ HI o Ho); [done|]. clear w Hw. intros w Hw.
  pose proof (rd_upto _ HI o Ho w Hw) as Hup. fold (scount o) in Hup. rewrite Hup.
  replace (if (i <? scount o)%nat then Ok tt else Ok tt) with (@Ok unit tt) by (by destruct (i <? scount o)%nat). cbn [of_res pbind sl_base].
  fold (sbase o). apply okr_bind. eapply okr_mono; [|apply (children_ok o frs (scount o - i) i vis w Hw); lia].
  clear w Hw Hup. intros [vis1 child] w He. cbn [fst snd] in He. unfold entered in He.
  destruct child as [[k a]|].
  - destruct He as (Hk & o' & Hr' & Hw). apply okr_bind.
    eapply okr_mono with (Q := fun next w1 => (S k <= next <= scount o)%nat /\ IS vis1 ((o', O) :: (o, next) :: frs) w1).
    + clear w Hw. intros next w [Hnext Hw]. eapply IH; [done|exact Hw|done|lia|]. constructor; [|done]. split_and!; cbn [fst snd]; [|done|lia].
      split_and!; try done. by exists b.
    + destruct (fullAllocFrom <=? scount o)%nat.
      * apply (nonzero_ok [(o', O)]); [done|lia].
      * apply (okr_ret _ (IS_steady vis1 ((o', O) :: (o, S k) :: frs))); [done|]. intros w' Hw'. split; [lia|done].
  - destruct stack as [|pos rest].
    + inversion Hst; subst. apply (okr_ret _ (IS_steady vis1 [])); [done|]. intros w' Hw'. split_and!; [done|done|]. exists []. done.
    + destruct (Nat.ltb_spec defaultPrefetchLength (length vis1)) as [Hlong|_].
      * apply okr_bind. pose proof He as [HJ Hs].
        eapply okr_mono; [|apply (resume_key_ok (fun w => SI w vis1 frs) (fun w w' => SI_later w w' vis1 frs))]; try done.
        -- clear w He HJ Hs. intros r w (Hr & Hw). apply (okr_ret _ (IS_steady vis1 frs)); [done|]. intros w' Hw'. split_and!; [done|done|]. by exists frs.
        -- apply Forall_rev. destruct (trim_suffix (pos :: rest)) as [n ->]. apply Forall_drop. by eapply stack_in.
      * destruct frs as [|[o2 i2] frs']; [inversion Hst|]. apply Forall2_cons in Hst as [(R1 & R2 & R3) Hst]. cbn [fst snd] in *. rewrite R2.
        eapply IH; try done.
Qed.

(** Back to the place where the last call stopped. *)
Lemma find_ok I (HI : steady I) o (Ho : forall w, I w -> known w o) c : forall n i w, I w -> o_full o = false -> (i + n = scount o)%nat ->
  okr (p_find (sbase o) c i n) (fun r w1 => I w1 /\ match r with Some (l, a) => at_slot o l c /\ slot_view w1 o c a /\ a <> 0 | None => True end) w.
Proof.
  induction n as [|n IH]; intros i w Hw Hf Hin.
  - cbn [p_find]. apply (okr_ret I HI); [done|]. done.
  - cbn [p_find p_load pbind]. apply (okr_load I HI); [done|intros w1; apply (slot_safe I HI o Ho); lia|]. clear w Hw. intros w Hw. cbn [pget]. fold (sword w o i).
    pose proof (rd_facts _ HI o Ho _ Hw) as Hof. destruct (at_slot_ex o i Hof) as [b Hb]; [lia|].
    destruct (view_byte w o i b (sd_J _ HI _ Hw) (Ho _ Hw) Hf Hb) as (Hv & Eb & Hne). rewrite Eb.
    destruct (N.eqb_spec b c) as [->|Hbc]; [|apply IH; [done|done|lia]].
    intros w' Hr. split; [by eapply (sd_rtc I HI)|]. split_and!; try done. eapply slot_view_later; [|exact Hv]. by apply rtc_later.
Qed.

Definition pre_Q (r : N * nat * list position) (w : world) : Prop :=
  let '(raw, i, stack) := r in
  exists o frs, IS [] ((o, i) :: frs) w /\ refers raw o /\ (i <= scount o)%nat /\ Forall2 fit_pos stack frs.

Lemma pre_loop_ok resume : bytes resume -> (resume = [] \/ forall x, ~ goal x) -> forall fuel k raw stack o frs w,
  (FU \/ k <= length resume < fuel + k)%nat -> IS [] ((o, O) :: frs) w -> refers raw o -> Forall2 fit_pos stack frs ->
  okr (p_pre_loop fuel resume k raw stack) pre_Q w.
Proof.
  intros Hbytes Hgoal. induction fuel as [|fuel IH]; intros k raw stack o frs w Hfu Hw Href Hst.
  { destruct Hfu as [?|Hfu]; [done|simpl in Hfu; lia]. }
  pose proof Href as (Hr0 & Hrl & b & Hb & Hrx). cbn [p_pre_loop].
  assert (Hret : forall w i, IS [] ((o, i) :: frs) w -> (i <= scount o)%nat -> okr (Ret (raw, i, stack)) pre_Q w).
  { intros w1 i Hw1 Hi. apply (okr_ret _ (IS_steady [] ((o, i) :: frs))); [done|]. intros w' Hw'. exists o, frs. done. }
  destruct (Nat.leb_spec (length resume) k) as [Hle|Hlt]; [apply Hret; [done|lia]|]. rewrite Hrx.
  assert (Hng : forall x, ~ goal x) by (destruct Hgoal as [->|?]; [simpl in Hlt; lia|done]).
  pose proof (IS_steady [] ((o, O) :: frs)) as HI. pose proof (IS_known [] ((o, O) :: frs) o O ltac:(left)) as Ho.
  apply (okr_p_data _ HI o Ho); [done|]. clear w Hw. intros w Hw.
  apply (okr_p_skip _ HI o Ho); [done|]. clear w Hw. intros w Hw.
  destruct (Nat.leb_spec (length resume) (k + length (o_pfx o))) as [Hle|Hlt2]; [apply Hret; [done|lia]|].
  destruct (lookup_lt_is_Some_2 resume _ Hlt2) as [c Ec]. rewrite (key_at_Some _ _ _ Ec). cbn [of_res pbind].
  assert (Hc : c < 256) by (eapply Forall_lookup_1 in Hbytes; [|done]; done).
  assert (Hjump : forall w l, (forall key, J key w) -> SI w [] ((o, O) :: frs) -> IS [] ((o, l) :: frs) w).
  { intros w1 l HJ1 Hs1. split; [done|]. eapply SI_moves; [|exact Hs1]. constructor; [|apply moves_all]. split_and!; simpl; [done|lia|].
    intros x Hx. by apply Hng in Hx. }
  assert (Hview : forall w a l (next : prog nat), IS [] ((o, O) :: frs) w -> at_slot o l c -> slot_view w o c a -> a <> 0 ->
    (forall o' w, IS [] ((o', O) :: (o, S l) :: frs) w -> okr next (fun j w1 => (S l <= j <= scount o)%nat /\ IS [] ((o', O) :: (o, j) :: frs) w1) w) ->
    okr (if isLeaf a then Ret (raw, l, stack) else run j <- next; p_pre_loop fuel resume (S (k + length (o_pfx o))) a (Pos raw j (j <? scount o)%nat :: stack)) pre_Q w).
  { intros w1 a l next [HJ1 Hs1] Hl [H1|H1 H2 H3 H4 H5 H6 H7|o' H1 H2 H3 H4 H5 H6 H7] Hne Hnext; [done| |].
    - rewrite H2. apply Hret; [by apply Hjump|]. apply at_slot_lt in Hl. lia.
    - rewrite H2. apply okr_bind. eapply okr_mono; [|apply (Hnext o')].
      + intros j w2 [Hj Hw2]. eapply (IH _ _ _ o'); [|exact Hw2| |].
        * destruct Hfu as [?|?]; [by left|right; lia].
        * split_and!; try done. by exists c.
        * constructor; [|done]. split_and!; cbn [fst snd pos_node pos_k]; [|done|lia]. split_and!; try done. by exists b.
      + split; [done|]. eapply SI_node; try done. by apply Hjump. }
  pose proof (rd_facts _ HI o Ho _ Hw) as Hof. pose proof (rd_upto _ HI o Ho _ Hw) as Hup. fold (scount o) in Hup. rewrite Hup. cbn [of_res pbind sl_base]. fold (sbase o).
  replace (fullAllocFrom <=? scount o)%nat with (o_full o) by (symmetry; apply (of_full _ _ Hof)).
  destruct (o_full o) eqn:Ef.
  - assert (Hat : at_slot o (N.to_nat c) c) by (split; [done|]; by rewrite Ef).
    apply (rd_get _ HI o Ho); [done|by eapply at_slot_lt|]. clear w Hw. intros w Hw.
    pose proof (slot_cases w o _ c (proj1 Hw) (Ho _ Hw) Hat) as Hv. destruct (N.eqb_spec (sword w o (N.to_nat c)) 0) as [E|Hne]; [apply Hret; [done|lia]|].
    cbn [negb andb]. destruct (N.eqb_spec (to_byte (sword w o (N.to_nat c))) c) as [Eb|Hbc]; [|apply Hret; [done|lia]].
    apply (Hview w _ _ (p_nonzero (sbase o) (S (N.to_nat c)) (scount o - S (N.to_nat c)))); try done.
    intros o' w1 Hw1. apply (nonzero_ok [(o', O)]); [done|]. apply at_slot_lt in Hat. lia.
  - apply okr_bind. eapply okr_mono; [|apply (find_ok _ HI o Ho c (scount o) 0 w Hw Ef); lia]. clear w Hw.
    intros [[l a]|] w (Hw & Hr); [|apply Hret; [done|lia]]. destruct Hr as (Hl & Hv & Hne).
    apply (Hview w a l (Ret (S l))); try done. intros o' w1 Hw1. apply (okr_ret _ (IS_steady [] ((o', O) :: (o, S l) :: frs))); [done|].
    intros w' Hw'. split; [|done]. apply at_slot_lt in Hl. lia.
Qed.

(** A call of Next that has to look at the tree. *)
Definition next_post (it : Iter.iter) (r : bool * Iter.iter) (w : world) : Prop :=
  let '(more, it') := r in
  (forall key, J key w) /\ it_prefix it' = it_prefix it /\ bytes (it_resume it') /\ exists vis rest, visited w vis rest /\
  (it_done it' = true -> forall k, ~ rest k) /\ (it_done it' = false -> (defaultPrefetchLength < length vis)%nat) /\
  match vis with
  | [] => more = false
  | v :: _ => more = true /\ it_value it' = v /\
     ((it_prefetched it' = vis /\ it_pp it' = 1%nat) \/ (vis = [v] /\ it_done it' = true /\ it_prefetched it' = it_prefetched it /\ it_pp it' = O))
  end.

Lemma next_ok fuel it w : FU -> it_prefetched it !! it_pp it = None -> it_done it = false -> it_prefix it = sp -> bytes sp -> bytes (it_resume it) ->
  (it_resume it = [] \/ forall x, ~ goal x) -> (forall key, J key w) -> okr (p_next fuel it) (next_post it) w.
Proof.
  intros HFU Hpp Hdone Hsp Hb Hbr Hgoal HJ. unfold p_next. rewrite Hpp, Hdone. apply okr_bind. rewrite Hsp. eapply okr_mono; [|by apply partial_ok].
  clear w HJ. intros [raw d] w [HJ Hf]. cbn [fst] in Hf.
  assert (Hret : forall vis rest r w, (forall key, J key w) -> visited w vis rest ->
    (forall w', (forall key, J key w') -> visited w' vis rest -> next_post it r w') -> okr (Ret r) (next_post it) w).
  { intros vis rest r w1 HJ1 Hv Hr. apply (okr_ret _ (steady_base (fun w => visited w vis rest) (fun w w' => visited_later w w' vis rest))); [done|].
    intros w' [? ?]. by apply Hr. }
  destruct Hf as [(-> & Hno)|[(Hne & Hl & H1 & H2 & H3 & H4)|(o & Href & Ho & H1 & H2)]].
  - change (0 =? 0) with true. cbn iota. apply (Hret [] (fun _ => False)); [done|by apply visited_none|].
    intros w' HJ' Hv. split_and!; try done. exists [], (fun _ => False). split_and!; try done. auto.
  - rewrite (proj2 (N.eqb_neq _ _)) by done. rewrite Hl. apply (Hret [getLeafValue raw] (fun _ => False)); [done|by apply visited_leaf|].
    intros w' HJ' Hv. split_and!; try done. exists [getLeafValue raw], (fun _ => False). split_and!; try done; [auto|]. by right.
  - rewrite (proj2 (N.eqb_neq _ _)) by apply Href. rewrite (proj1 (proj2 Href)). apply okr_bind.
    eapply okr_mono; [|apply (pre_loop_ok (it_resume it) Hbr Hgoal (S (length (it_resume it))) 0 raw [] o [] w)]; try done; [|right; lia|split; [done|by apply SI_start]].
    clear w HJ Ho Href. intros [[raw1 i] stack] w (o1 & frs & Hw & Href & Hi & Hst). apply okr_bind.
    eapply okr_mono; [|by apply (scan_loop_ok HFU fuel raw1 i stack [] (it_resume it) o1 frs w)].
    clear w Hw. intros [[[pre done] resume] stack1] w (Hres & Hlong & frs1 & [HJ Hs] & Hd).
    pose proof (SI_visited _ _ _ Hs) as Hv. set (rest := fun k => Exists (fun fr => pend fr k) frs1) in *.
    assert (Hrest : done = true -> forall k, ~ rest k) by (intros E k Hk; apply Hd in E as ->; by apply Exists_nil in Hk).
    destruct pre as [|v pre].
    + apply (Hret [] rest); [done|done|]. intros w' HJ' Hv'. split_and!; try done. exists [], rest. by split_and!.
    + apply (Hret (v :: pre) rest); [done|done|]. intros w' HJ' Hv'. split_and!; try done. exists (v :: pre), rest. split_and!; try done. by left.
Qed.
End Reader.
