(** * FinePin: a node whose lock word has not moved is still in the tree, and still the same. *)
From Verif Require Export FineLock.

Lemma oext_trans o o1 o2 : oext o o1 -> oext o1 o2 -> oext o o2.
Proof.
  intros [A1 A2 A3 A4 A5 A6 A7 A8] [B1 B2 B3 B4 B5 B6 B7 B8]. split; try congruence.
  - intros Hf. rewrite B7 by congruence. by apply A7.
  - intros b Hb. by apply A8, B8.
Qed.
Lemma oext_same o o' : oext o o' -> osame o o'.
Proof. intros [A1 A2 A3 A4 A5 A6 A7 A8]. repeat split; try done. intros Hf. by rewrite A7. Qed.

(** The two lock words have these values. *)
Definition at_gens (o : occ_t) (un up : N) (w : world) : Prop :=
  w_unl w (lock_id (o_addr o)) = un /\ (o_par o <> 0 -> w_unl w (lock_id (o_par o)) = up).

Lemma at_gens_dec o un up w : at_gens o un up w \/ ~ at_gens o un up w.
Proof.
  unfold at_gens. destruct (decide (w_unl w (lock_id (o_addr o)) = un)); [|naive_solver].
  destruct (decide (o_par o = 0)); [left; naive_solver|]. destruct (decide (w_unl w (lock_id (o_par o)) = up)); naive_solver.
Qed.

Lemma compact_near y x : compact y -> Forall bump_ok (t_allocs (sy_tree y)) -> x ∉ cover (all_bregs (sy_tree y)) ->
  x / blockSlots < t_nextFreeBlock (sy_tree y) -> 2 <= dlen x -> offset_of x < locksPerBlock.
Proof.
  intros Hc Hb Hx Hn Hd. destruct (Hc _ Hn) as (a & Ha & Eo & Hle).
  rewrite Forall_forall in Hb. pose proof (Hb _ Ha) as (H8 & H1 & _).
  destruct (decide (offset_of x < locksPerBlock)) as [?|Hge]; [done|]. exfalso. apply Hx. apply elem_of_cover. exists (breg a).
  split; [by apply elem_of_list_fmap_1|]. apply elem_of_seqN. unfold breg. cbn [fst snd]. unfold dlen in Hd. rewrite offset_of_mod in Hd, Hge.
  rewrite N.shiftr_div_pow2. change (2 ^ 3) with 8. unfold blockSize, blockSlots, locksPerBlock in *.
  set (m := al_offset a mod 2097152) in *. set (nf := al_nextFree a) in *.
  pose proof (N.div_mod (al_offset a) 2097152 ltac:(done)) as D1. rewrite Eo in D1. fold m in D1. rewrite D1.
  pose proof (N.div_mod x 262144 ltac:(done)) as D2. pose proof (N.mod_lt x 262144 ltac:(done)) as D2'.
  set (q := x / 262144) in *. set (r := x mod 262144) in *. clearbody q r.
  pose proof (N.div_mod nf 8 ltac:(done)) as D3. rewrite H8 in D3. set (k := nf / 8) in *. clearbody k m nf. clear Ha Hb Eo D1 Hn Hc H8 Hx. subst nf x.
  replace (2097152 * q + m + (8 * k + 0)) with (m + (262144 * q + k) * 8) by lia. rewrite N.div_add by done.
  replace (2097152 - (8 * k + 0)) with (8 * (262144 - k)) by lia. rewrite (N.mul_comm 8 (262144 - k)), N.div_mul by done.
  pose proof (N.div_mod m 8 ltac:(done)) as D4. pose proof (N.mod_lt m 8 ltac:(done)). rewrite N2Nat.id.
  generalize dependent (m / 8). generalize dependent (m mod 8). intros. lia.
Qed.

Lemma lock_near x y : lock_id x = lock_id y -> offset_of x < locksPerBlock -> offset_of y < locksPerBlock -> x = y.
Proof.
  with_strategy transparent [lock_id] unfold lock_id. rewrite !offset_of_mod, !block_of_div. unfold locksPerBlock, lockOffsetMask, blockSlots. intros E Hx Hy.
  change 4095 with (N.ones 12) in E. rewrite !N.land_ones in E. change (2 ^ 12) with 4096 in E.
  pose proof (N.div_mod x 262144 ltac:(done)) as D1. pose proof (N.div_mod y 262144 ltac:(done)) as D2.
  set (q := x / 262144) in *. set (r := x mod 262144) in *. set (q' := y / 262144) in *. set (r' := y mod 262144) in *.
  assert (Er : x mod 4096 = r).
  { rewrite D1. replace (262144 * q + r) with (r + (64 * q) * 4096) by lia. rewrite N.mod_add by done. by apply N.mod_small. }
  assert (Er' : y mod 4096 = r').
  { rewrite D2. replace (262144 * q' + r') with (r' + (64 * q') * 4096) by lia. rewrite N.mod_add by done. by apply N.mod_small. }
  rewrite Er, Er' in E. rewrite D1, D2. clearbody q r q' r'. nia.
Qed.

Section FinePin.
Context (K : list N -> Prop) (fetch : N -> list N) (HK : universe K).
Context (aid : nat) (key : list N) (n0 : nat) (e : N) (ns nmax : N) (Hmax : nmax <= ns + 2 ^ 31).
Local Notation good := (good K fetch).
Local Notation evo := (evo K fetch).
Local Notation rely := (rely K fetch aid nmax).
Local Notation ok := (ok K fetch aid nmax).
Local Notation J := (J K fetch aid key n0 e).
Local Notation known := (known n0).
Local Notation span := (span n0).
Local Notation always := (always key n0).
Local Notation stable := (stable K fetch aid key n0 e nmax).
Local Notation base := (base K fetch aid key n0 e ns nmax).
Local Notation hold := (hold aid).
Local Notation lasting := (lasting K fetch aid key n0 e ns nmax).
Local Notation since := (since ns).
Local Notation quiet := (quiet K fetch aid).
Local Notation pnd := (pnd aid).
Local Notation seen_prev := (seen_prev n0).

(** ** Nodes seen that are in the tree now *)

Lemma known_live w o o' : J w -> known w o -> ooccr (w_trie w) o' -> o_addr o' = o_addr o -> osame o o'.
Proof.
  intros HJ Ho Ho' Ea. pose proof (j_good _ _ _ _ _ _ _ HJ) as Hg.
  destruct (no_seen _ _ _ _ _ _ (j_known _ _ _ _ _ _ _ HJ _ Ho)) as (p1 & h & T & p2 & o2 & Ep & Ho2 & Hs & Hp).
  pose proof (g_last _ _ _ Hg) as Hl. rewrite Ep in Hl. pose proof (iv_core _ _ _ _ _ _ _ (g_inv _ _ _ Hg)) as Hc.
  assert (Hin : forall o1, ofacts K o1 -> o_addr o1 ∈ seqN (oreg o1).1 (oreg o1).2).
  { intros o1 Hf. apply elem_of_seqN. pose proof (of_cnt _ _ Hf). unfold oreg, nslots. simpl. lia. }
  pose proof (occ_facts K fetch _ _ _ Hc Ho') as Hf'. pose proof (known_facts K fetch n0 _ _ Hg Ho) as Hf.
  destruct p2 as [|q p2 _] using rev_ind.
  - rewrite last_snoc in Hl. injection Hl as -> ->. replace o' with o2; [done|]. destruct (w_trie w) as [t|]; [|done].
    pose proof (osame_reg _ _ Hs) as Er.
    eapply (occ_unique [] PRoot 0 t _ _ (o_addr o)); try done.
    + pose proof (ai_nodup _ _ (co_alloc _ _ _ _ Hc)) as Hnd. simpl in Hnd. rewrite cover_app in Hnd. by apply NoDup_app in Hnd as (? & _).
    + rewrite Er. by apply Hin.
    + rewrite <- Ea. by apply Hin.
  - exfalso. rewrite app_comm_cons, app_assoc, last_snoc in Hl. injection Hl as ->. apply Forall_app in Hp as [_ Hp].
    apply Forall_cons in Hp as [Hp _]. apply (Hp (o_addr o)); [by apply Hin|]. apply elem_of_cover. exists (oreg o').
    split; [by apply ooccr_regs|]. rewrite <- Ea. by apply Hin.
Qed.

(** Two nodes seen at the same address are the same. *)
Lemma known_known w o o' : J w -> known w o -> known w o' -> o_addr o' = o_addr o -> osame o o'.
Proof.
  intros HJ Ho Ho' Ea. pose proof (j_good _ _ _ _ _ _ _ HJ) as Hg.
  destruct (no_seen _ _ _ _ _ _ (j_known _ _ _ _ _ _ _ HJ _ Ho)) as (p1 & h & T & p2 & o2 & Ep & Ho2 & Hs & Hp).
  destruct (no_seen _ _ _ _ _ _ (j_known _ _ _ _ _ _ _ HJ _ Ho')) as (p1' & h' & T' & p2' & o2' & Ep' & Ho2' & Hs' & Hp').
  assert (Hin : forall o1, ofacts K o1 -> o_addr o1 ∈ seqN (oreg o1).1 (oreg o1).2).
  { intros o1 Hf. apply elem_of_seqN. pose proof (of_cnt _ _ Hf). unfold oreg, nslots. simpl. lia. }
  pose proof (Hin _ (known_facts K fetch n0 _ _ Hg Ho)) as Hx. pose proof (Hin _ (known_facts K fetch n0 _ _ Hg Ho')) as Hx'. rewrite Ea in Hx'.
  pose proof (osame_reg _ _ Hs) as Er. pose proof (osame_reg _ _ Hs') as Er'.
  destruct (last_unique (fun q => o_addr o ∈ cover (oregs q.2)) p1 p2 p1' p2' (h, T) (h', T')) as (-> & E & ->).
  - by rewrite <- Ep.
  - simpl. apply elem_of_cover. exists (oreg o2). split; [by apply ooccr_regs|]. by rewrite Er.
  - simpl. apply elem_of_cover. exists (oreg o2'). split; [by apply ooccr_regs|]. by rewrite Er'.
  - eapply Forall_impl; [exact Hp|]. intros q Hq. by apply Hq.
  - eapply Forall_impl; [exact Hp'|]. intros q Hq. by apply Hq.
  - injection E as <- <-. destruct T as [t|]; [|done].
    pose proof (g_past _ _ _ Hg) as Hpast. rewrite Ep in Hpast. apply Forall_app in Hpast as [_ Hpast]. inversion Hpast as [|? ? [_ [s0 Hc0]] _]; subst.
    assert (o2 = o2') as ->.
    { eapply (occ_unique [] PRoot 0 t _ _ (o_addr o)); try done.
      - pose proof (ai_nodup _ _ (co_alloc _ _ _ _ Hc0)) as Hnd. simpl in Hnd. rewrite cover_app in Hnd. by apply NoDup_app in Hnd as (? & _).
      - by rewrite Er.
      - by rewrite Er'. }
    eapply osame_trans; [exact Hs|]. by apply osame_sym.
Qed.

(** The node above a node seen. *)
Lemma known_par w o : known w o -> o_par o <> 0 -> exists o1 b, known w o1 /\ o_addr o1 = o_par o /\ o_path o = o_path o1 ++ o_pfx o1 ++ [b].
Proof.
  intros (q & Hq & Ho) Hp. destruct q.2 as [t|] eqn:Et; [|done]. destruct (occ_above [] PRoot 0 t o Ho) as [(_ & E & _)|(o1 & b & H1 & H2 & H3)]; [done|].
  exists o1, b. split_and!; try done. exists q. rewrite Et. done.
Qed.

(** While the tree is compact, equal lock words mean equal addresses. *)
Lemma known_near w o : J w -> known w o -> compact (w_sys w) -> offset_of (o_addr o) < locksPerBlock.
Proof.
  intros HJ Ho Hcm. pose proof (j_good _ _ _ _ _ _ _ HJ) as Hg. pose proof (known_facts K fetch n0 _ _ Hg Ho) as Hf.
  assert (Hs : safe_from (w_tree w) e (o_addr o)).
  { apply (no_safe _ _ _ _ _ _ (j_known _ _ _ _ _ _ _ HJ _ Ho)). apply elem_of_seqN. pose proof (of_cnt _ _ Hf). unfold oreg, nslots. simpl. lia. }
  eapply compact_near; try done; [|apply (sf_bregs _ _ _ Hs)|apply (sf_blk _ _ _ Hs)|].
  - apply (ai_nf _ _ (co_alloc _ _ _ _ (iv_core _ _ _ _ _ _ _ (g_inv _ _ _ Hg)))).
  - pose proof (of_fit _ _ Hf) as Hfit. pose proof (of_cnt _ _ Hf). unfold oreg, nslots in Hfit. simpl in Hfit. lia.
Qed.

(** The root node. *)
Lemma live_root w : good w -> isLeaf (t_root (w_tree w)) = false -> t_root (w_tree w) <> 0 ->
  exists o, ooccr (w_trie w) o /\ o_path o = [] /\ o_ptr o = PRoot /\ o_par o = 0 /\ t_root (w_tree w) = onode 0 o.
Proof.
  intros Hg Hl H0. pose proof (iv_core _ _ _ _ _ _ _ (g_inv _ _ _ Hg)) as Hc. pose proof (co_root _ _ _ _ Hc) as Hr.
  destruct (w_trie w) as [[k v|full a pfx cs]|] eqn:ET.
  - destruct (root_word_leaf K fetch HK _ _ _ Hc) as (_ & E & _). congruence.
  - exists (Occ [] PRoot 0 a full pfx (heads cs)). split_and!; try done; [apply (occ_at_here [])|]. rewrite Hr. unfold onode. simpl.
    by rewrite heads_length.
  - done.
Qed.

(** ** Pins *)

(** As long as the lock words of the node and of its parent have not moved, the node is in place. *)
Definition pin (o : occ_t) (un up : N) (w : world) : Prop :=
  w_unl w (lock_id (o_addr o)) = un -> (o_par o <> 0 -> w_unl w (lock_id (o_par o)) = up) ->
  exists o', ooccr (w_trie w) o' /\ (o' = o \/ (oext o o' /\ forall p, pnd w p -> p_del p = true)).

(** As long as its own lock word has not moved, it is in the tree.  If it was moved by the Finalize that is about
    to give it back, then it was in the tree before. *)
Definition pin1 (o : occ_t) (un : N) (w : world) : Prop :=
  (w_unl w (lock_id (o_addr o)) = un -> alive (w_trie w) o) /\
  (w_unl w (lock_id (o_addr o)) = un + 1 -> lock_id (o_addr o) ∈ w_ids w -> alive (w_trie w) o \/ (seen_prev w /\ alive (w_prev w) o)).

(** All that is known about a node on the way down. *)
Record held_by (o : occ_t) (un up : N) (w : world) : Prop := {
  hb_known : known w o;
  hb_node : since (lock_id (o_addr o)) un w;
  hb_par : o_par o <> 0 -> since (lock_id (o_par o)) up w;
  hb_pin : pin o un up w;
  hb_pin1 : pin1 o un w
}.

Lemma lasting_known o : lasting (fun w => known w o).
Proof. apply lasting_later. intros w w'. apply known_later. Qed.

Lemma lasting_pin1 o un : lasting (fun w => since (lock_id (o_addr o)) un w /\ pin1 o un w).
Proof.
  intros w w' Hb Hs [Hsi Hp]. split; [by eapply (lasting_since _ _ _ _ _ _ _ _ Hmax)|]. pose proof (step_later _ _ _ _ _ _ Hs) as Hl.
  pose proof (step_wake _ _ _ _ _ _ Hs) as Hw. destruct Hs as [Hs|Hs].
  2:{ unfold pin1. rewrite (q_unl _ _ _ _ _ Hs), (q_trie _ _ _ _ _ Hs), (q_wake _ _ _ _ _ Hs). destruct Hp as [H1 H2]. split; [done|].
      intros E1 E2. destruct (H2 E1 E2) as [?|[H3 H4]]; [by left|right]. split; [|done]. eapply seen_later; try done. by rewrite (q_wake _ _ _ _ _ Hs). }
  pose proof (r_unl _ _ _ _ _ _ Hs (lock_id (o_addr o))) as Hu. destruct Hsi as [[H1 H2] _]. destruct Hp as [Hp1 Hp2]. split.
  - intros Eu. assert (Eu' : w_unl w (lock_id (o_addr o)) = un) by lia. destruct (Hp1 Eu') as (o' & Ho' & Hos).
    destruct (r_kept _ _ _ _ _ _ Hs) as [->|[(Hx & _ & Hd)|(X & Hkeep & HX & _)]].
    + by exists o'.
    + destruct (Hx _ Ho') as (o2 & Ho2 & He). exists o2. split; [done|]. eapply osame_trans; [done|]. by apply oext_same.
    + destruct (Hkeep _ Ho') as [_ (o2 & Ho2 & Hm)].
      * intros Hin. destruct (HX _ Hin) as [_ Hlt]. destruct Hos as (_ & Ea & _). rewrite Ea in Hlt. lia.
      * exists o2. split; [done|]. eapply osame_trans; [done|]. by apply omoved_same.
  - intros Eu Hin. destruct Hw as [_ [((l & El) & EP & HT)|(E0 & EP & Hi)]].
    + assert (Hin' : lock_id (o_addr o) ∈ w_ids w) by (rewrite El; apply elem_of_app; by right).
      destruct HT as [ET EU]; [by intros E; rewrite E in Hin'; apply elem_of_nil in Hin'|]. rewrite ET, EP. rewrite EU in Eu.
      destruct (Hp2 Eu Hin') as [?|[H3 H4]]; [by left|right]. split; [|done]. by eapply seen_later.
    + rewrite (Hi _ Hin) in Eu. right. rewrite EP. split; [|apply Hp1; lia].
      pose proof (ba_J _ _ _ _ _ _ _ _ _ Hb) as HJ. exists (w_hist w). rewrite EP. eapply span_later; [exact Hl|]. apply (span_last K fetch n0); apply HJ.
Qed.

Lemma lasting_held o un up : lasting (held_by o un up).
Proof.
  intros w w' Hb Hs [H1 H2 H3 H4 H5]. destruct (lasting_pin1 o un w w' Hb Hs (conj H2 H5)) as [H2' H5'].
  split; [by eapply lasting_known|done|intros Hp; eapply (lasting_since _ _ _ _ _ _ _ _ Hmax); try done; by apply H3| |done].
  intros Eu Ep. destruct Hs as [Hs|Hs].
  2:{ rewrite (q_unl _ _ _ _ _ Hs) in Eu, Ep. rewrite (q_trie _ _ _ _ _ Hs). destruct (H4 Eu Ep) as (o' & Ho' & Hc). exists o'.
      split; [done|]. unfold FineLock.pnd. by rewrite (q_hist _ _ _ _ _ Hs). }
  pose proof (r_unl _ _ _ _ _ _ Hs) as Hu.
  assert (Eu' : w_unl w (lock_id (o_addr o)) = un) by (pose proof (Hu (lock_id (o_addr o))); destruct H2 as [[] _]; lia).
  assert (Ep' : o_par o <> 0 -> w_unl w (lock_id (o_par o)) = up).
  { intros Hp. specialize (Ep Hp). destruct (H3 Hp) as [[] _]. pose proof (Hu (lock_id (o_par o))). lia. }
  destruct (H4 Eu' Ep') as (o' & Ho' & Hc).
  destruct (ba_pend _ _ _ _ _ _ _ _ _ Hb) as (p & Hpe & _). destruct (r_pend _ _ _ _ _ _ Hs p Hpe) as (p' & Hpe' & (_ & Hd & _) & _).
  assert (Hc' : o' = o \/ (oext o o' /\ forall p, pnd w' p -> p_del p = true)).
  { destruct Hc as [->|[He Hdel]]; [by left|right]. split; [done|]. intros q Hq. unfold FineLock.pnd in Hq. rewrite Hpe' in Hq. injection Hq as <-.
    by apply Hd, Hdel. }
  assert (Ea : o_addr o' = o_addr o /\ o_par o' = o_par o) by (destruct Hc as [->|[[] _]]; done).
  destruct Ea as [Ea Epar].
  destruct (r_kept _ _ _ _ _ _ Hs) as [->|[(Hx & _ & Hdel)|(X & Hkeep & HX & _)]].
  - eauto.
  - destruct (Hx _ Ho') as (o2 & Ho2 & He). exists o2. split; [done|]. right. split; [|done]. destruct Hc as [->|[He' _]]; [done|]. by eapply oext_trans.
  - exists o'. split; [|done]. apply Hkeep; [done| |].
    + intros Hin. destruct (HX _ Hin) as [_ Hlt]. rewrite Ea in Hlt. lia.
    + intros Hin. destruct (HX _ Hin) as [Hp0 Hlt]. rewrite Epar in Hp0, Hlt. rewrite Ep, Ep' in Hlt by done. lia.
Qed.

Lemma held_now o un up w : base w -> ooccr (w_trie w) o -> since (lock_id (o_addr o)) un w ->
  (o_par o <> 0 -> since (lock_id (o_par o)) up w) -> held_by o un up w.
Proof.
  intros Hb Ho H1 H2. pose proof (ba_J _ _ _ _ _ _ _ _ _ Hb) as HJ. split; try done.
  - exists (w_hist w, w_trie w). split; [|done]. apply (span_last K fetch n0); apply HJ.
  - intros _ _. exists o. eauto.
  - assert (alive (w_trie w) o) by (exists o; split; [done|apply osame_refl]). split; [done|by left].
Qed.

(** ** Entering a node *)

(** The place a client has come to: how it got to know the node. *)
Definition entry (o : occ_t) (np : ptr) (parent up : N) (w : world) : Prop :=
  (parent = 0 /\ np = PRoot /\ o_path o = []) \/
  (parent <> 0 /\ exists o1 b x, o_addr o1 = parent /\ known w o1 /\ since (lock_id parent) up w /\ pin1 o1 up w /\
     oslot o1 b x /\ np = PSlot x /\ o_path o = o_path o1 ++ o_pfx o1 ++ [b]).

Lemma lasting_entry o np parent up : lasting (entry o np parent up).
Proof.
  intros w w' Hb Hs [?|(Hp & o1 & b & x & Ha & Hk & Hsi & Hpin & H)]; [by left|right]. split; [done|]. exists o1, b, x. subst parent.
  destruct (lasting_pin1 o1 up w w' Hb Hs (conj Hsi Hpin)) as [H1 H2]. split_and!; try done; [|apply H..].
  by eapply lasting_known.
Qed.

(** The child of a node of the tree. *)
Lemma slot_child w o o1 o1' b x : J w -> known w o -> ooccr (w_trie w) o1' -> osame o1 o1' -> oslot o1 b x ->
  o_path o = o_path o1 ++ o_pfx o1 ++ [b] -> mget (t_mem (w_tree w)) x = onode b o ->
  exists o2, ooccr (w_trie w) o2 /\ osame o o2 /\ o_ptr o2 = PSlot x /\ o_par o2 = o_addr o1.
Proof.
  intros HJ Ho Ho1' Hs1 Hsl Hp Hraw. pose proof (j_good _ _ _ _ _ _ _ HJ) as Hg.
  pose proof (known_facts K fetch n0 _ _ Hg Ho) as Hf. pose proof (oslot_same _ _ _ _ Hs1 Hsl) as Hsl'.
  assert (Hb256 : b < 256) by (by destruct Hsl).
  destruct (onode_facts K o b Hf Hb256) as (Ex & HL & HN & _).
  destruct (live_slot K fetch ns nmax Hmax w o1' b x Hg Ho1' Hsl') as [(E0 & _)|(l & hd & r & Eh & Hx & Em & Hhd)]; [congruence|].
  rewrite Hraw in Em. destruct hd as [k v|f a p n].
  - exfalso. simpl in Em. rewrite Em in HL. rewrite buildLeaf_isLeaf in HL by done. done.
  - destruct Hhd as (o2 & Ho2 & P1 & P2 & P3 & A1 & A2 & A3 & A4). pose proof (iv_core _ _ _ _ _ _ _ (g_inv _ _ _ Hg)) as Hc.
    destruct (onode_facts K o2 b (occ_facts K fetch _ _ _ Hc Ho2) Hb256) as (Ex2 & _).
    exists o2. split_and!; try done.
    + apply (known_live w); try done. simpl in Em. unfold onode in Ex2. rewrite A1, A2, A3, <- A4, <- Em, Ex in Ex2. congruence.
    + destruct Hs1 as (_ & E & _). congruence.
Qed.

(** Nodes [o1] and [o2] of the trie before the last effect, one above the other; [o1] was cut off. *)
Definition cut_off (o1 o2 : occ_t) (prev T : option trie) : Prop :=
  ooccr prev o1 /\ ooccr prev o2 /\ o_par o2 = o_addr o1 /\ o_addr o1 ∉ cover (oregs T).

Lemma enter_slot w o np parent up : base w -> known w o -> entry o np parent up w ->
  (parent <> 0 -> w_unl w (lock_id parent) = up \/ (w_unl w (lock_id parent) = up + 1 /\ lock_id parent ∈ w_ids w)) ->
  pget (w_tree w) np = onode (default 0 (last (o_path o))) o ->
  exists o2, osame o o2 /\ o_ptr o2 = np /\ o_par o2 = parent /\
    (ooccr (w_trie w) o2 \/ parent <> 0 /\ up < w_unl w (lock_id parent) /\ seen_prev w /\ exists o1, cut_off o1 o2 (w_prev w) (w_trie w)).
Proof.
  intros Hb Ho He Hu Hraw. pose proof (ba_J _ _ _ _ _ _ _ _ _ Hb) as HJ. pose proof (j_good _ _ _ _ _ _ _ HJ) as Hg.
  pose proof (known_facts K fetch n0 _ _ Hg Ho) as Hf. destruct He as [(-> & -> & Hp)|(Hpar & o1 & b & x & Ha & Hk1 & Hsi & Hpin & Hsl & -> & Hp)].
  - rewrite Hp in Hraw. cbn [pget last default] in Hraw. change (default 0 None) with 0 in Hraw.
    destruct (onode_facts K o 0 Hf ltac:(done)) as (Ex & HL & HN & _).
    destruct (live_root w Hg) as (o2 & Ho2 & P1 & P2 & P3 & Er); [by rewrite Hraw..|].
    exists o2. split_and!; try done; [|by left]. apply (known_live w); try done.
    rewrite Hraw in Er. pose proof (iv_core _ _ _ _ _ _ _ (g_inv _ _ _ Hg)) as Hc.
    destruct (onode_facts K o2 0 (occ_facts K fetch _ _ _ Hc Ho2) ltac:(done)) as (Ex2 & _). rewrite <- Er, Ex in Ex2. congruence.
  - assert (Hlast : last (o_path o) = Some b) by (rewrite Hp, app_assoc; apply last_snoc). rewrite Hlast in Hraw. simpl in Hraw.
    assert (Hlive : alive (w_trie w) o1 -> exists o2, osame o o2 /\ o_ptr o2 = PSlot x /\ o_par o2 = parent /\
      (ooccr (w_trie w) o2 \/ parent <> 0 /\ up < w_unl w (lock_id parent) /\ seen_prev w /\ exists o1, cut_off o1 o2 (w_prev w) (w_trie w))).
    { intros (o1' & Ho1' & Hs1). destruct (slot_child w o o1 o1' b x HJ Ho Ho1' Hs1 Hsl Hp Hraw) as (o2 & H1 & H2 & H3 & H4).
      exists o2. split_and!; try done; [congruence|by left]. }
    rewrite <- Ha in Hu, Hsi. destruct Hpin as [Hp1 Hp2]. destruct Hu as [Hu|[Hu Hin]]; [congruence| |].
    { by apply Hlive, Hp1. }
    destruct (Hp2 Hu Hin) as [?|[Hsp (o1' & Ho1' & Hs1)]]; [by apply Hlive|].
    destruct (ba_prev _ _ _ _ _ _ _ _ _ Hb Hsp) with o1' as [(o3 & Ho3 & Hs3)|[Hd Hi]]; [by intros E; rewrite E in Hin; apply elem_of_nil in Hin|done| |].
    { apply Hlive. exists o3. split; [done|]. by eapply osame_trans. }
    assert (Ea : o_addr o1' = o_addr o1) by apply Hs1.
    assert (Hk1' : known w o1') by (destruct Hsp as (h & Hq); by exists (h, w_prev w)).
    assert (Hb256 : b < 256) by (by destruct Hsl). destruct (onode_facts K o b Hf Hb256) as (Ex & HL & HN & _).
    destruct (Hi b x (oslot_same _ _ _ _ Hs1 Hsl)) as [E|[E|(o2 & Ho2 & P1 & P2 & P3 & Em)]]; [congruence|congruence|].
    assert (Hk2 : known w o2) by (destruct Hsp as (h & Hq); by exists (h, w_prev w)).
    destruct (onode_facts K o2 b (known_facts K fetch n0 _ _ Hg Hk2) Hb256) as (Ex2 & _).
    exists o2. split_and!; try done; [|congruence|].
    + apply (known_known w); try done. rewrite Hraw in Em. rewrite <- Em, Ex in Ex2. congruence.
    + right. split; [done|]. split; [rewrite <- Ha; lia|]. split; [done|]. exists o1'. split_and!; try done. apply Hd. apply elem_of_seqN.
      pose proof (of_cnt _ _ (known_facts K fetch n0 _ _ Hg Hk1')). unfold oreg, nslots. simpl. lia.
Qed.

Lemma lasting_late i up (R : option trie -> option trie -> Prop) :
  lasting (fun w => up < w_unl w i /\ (w_unl w i = up + 1 -> i ∈ w_ids w -> seen_prev w /\ R (w_prev w) (w_trie w))).
Proof.
  intros w w' Hb Hs [H1 H2]. pose proof (step_later _ _ _ _ _ _ Hs) as Hl. pose proof (step_wake _ _ _ _ _ _ Hs) as Hw.
  assert (Hle : w_unl w i <= w_unl w' i).
  { destruct Hs as [Hs|Hs]; [apply (r_unl _ _ _ _ _ _ Hs)|]. by rewrite (q_unl _ _ _ _ _ Hs). }
  split; [lia|]. intros Eu Hin. destruct Hw as [_ [((l & El) & EP & HT)|(E0 & EP & Hi)]].
  - assert (Hin' : i ∈ w_ids w) by (rewrite El; apply elem_of_app; by right).
    destruct HT as [ET EU]; [by intros E; rewrite E in Hin'; apply elem_of_nil in Hin'|]. rewrite ET, EP. rewrite EU in Eu.
    destruct (H2 Eu Hin') as [H3 H4]. split; [|done]. by eapply seen_later.
  - rewrite (Hi _ Hin) in Eu. lia.
Qed.

Lemma ok_enter {A} o np parent up bp (k : N -> prog A) Q w P : lasting P ->
  base w -> hold [] false w -> known w o -> entry o np parent up w -> P w ->
  (forall w1 o2 un bn, base w1 -> hold [] false w1 -> P w1 -> osame o o2 -> o_ptr o2 = np -> o_par o2 = parent -> held_by o2 un up w1 ->
     (parent <> 0 -> lock_id parent = lock_id (o_addr o2) -> up = un) -> ok (k (gen_of un bn)) Q w1) ->
  ok (run nodeGen <- p_gen (o_addr o); run w <- p_load np;
    if negb (w =? onode (default 0 (last (o_path o))) o) then Stop Again else
    run pg <- (if parent =? 0 then Ret (gen_of up bp) else p_gen parent);
    if negb (pg =? gen_of up bp) then Stop Again else k nodeGen) Q w.
Proof.
  intros HLp Hb Hh Ho He Hp Hk.
  assert (HP1 : lasting (fun w => known w o /\ entry o np parent up w /\ P w)).
  { apply lasting_and; [apply lasting_known|apply lasting_and; [apply lasting_entry|done]]. }
  assert (Hw : base w /\ hold [] false w /\ known w o /\ entry o np parent up w /\ P w) by done. clear Hb Hh Ho He Hp.
  apply (ok_p_gen K fetch aid key n0 e nmax _ (stable_hold K fetch aid key n0 e ns nmax Hmax [] false _ HP1) o); [by intros ? (_ & _ & ? & _)|done|].
  clear dependent w. intros w (Hb & Hh & Ho & He & Hp). destruct (gen_now K fetch aid key n0 e ns nmax Hmax w (lock_id (o_addr o)) Hb) as (un & bn & -> & Hval).
  pose proof (since_now K fetch aid key n0 e ns nmax Hmax (lock_id (o_addr o)) _ _ w Hb Hval) as Hsi.
  assert (Hup : parent <> 0 -> lock_id parent = lock_id (o_addr o) -> up <= un).
  { intros Hpar0 E. rewrite <- E in Hval. destruct He as [[? _]|(_ & o1 & b & x & _ & _ & [[? _] Hlt] & _)]; [done|].
    destruct Hval as [[_ ->]|(Hin & Eu & _)]; [done|]. specialize (Hlt Hin). lia. }
  clear Hval.
  assert (HP2 : lasting (fun w => since (lock_id (o_addr o)) un w /\ known w o /\ entry o np parent up w /\ P w)).
  { apply lasting_and; [apply (lasting_since _ _ _ _ _ _ _ _ Hmax)|done]. }
  assert (Hw : base w /\ hold [] false w /\ since (lock_id (o_addr o)) un w /\ known w o /\ entry o np parent up w /\ P w) by done.
  clear Hb Hh Ho He Hsi Hp. cbn [p_load pbind].
  apply (ok_load K fetch aid key n0 e nmax _ (stable_hold K fetch aid key n0 e ns nmax Hmax [] false _ HP2)); [done| |].
  { intros w1 (Hb & _ & _ & _ & [(_ & -> & _)|(_ & o1 & b & x & _ & Ho1 & _ & _ & Hs & -> & _)] & _); [done|]. right.
    pose proof (ba_J _ _ _ _ _ _ _ _ _ Hb) as HJ. exists e. split; [apply (j_mine _ _ _ _ _ _ _ HJ)|].
    apply (no_safe _ _ _ _ _ _ (j_known _ _ _ _ _ _ _ HJ _ Ho1)). by apply (oslot_region _ b). }
  clear dependent w. intros w (Hb & Hh & Hsi & Ho & He & Hp).
  destruct (N.eqb_spec (pget (w_tree w) np) (onode (default 0 (last (o_path o))) o)) as [Eraw|_]; cbn [negb].
  2:{ by apply (ok_again K fetch). }
  destruct (N.eqb_spec parent 0) as [Ep|Ep].
  { cbn [pbind]. rewrite N.eqb_refl. cbn [negb].
    destruct (enter_slot w o np parent up Hb Ho He ltac:(done) Eraw) as (o2 & Hs & P1 & P2 & [Ho2|[? _]]); [|done].
    eapply Hk; try done. apply held_now; try done; [|rewrite P2; done]. destruct Hs as (_ & -> & _). done. }
  assert (Hpar : exists o1, o_addr o1 = parent /\ known w o1 /\ since (lock_id parent) up w).
  { destruct He as [[? _]|(_ & o1 & b & x & H1 & H2 & H3 & _)]; [done|]. by exists o1. }
  destruct Hpar as (o1 & Ea1 & Ho1 & Hsp). rewrite <- Ea1.
  (* if the parent was changed, the check fails unless the lock is yet to be given back *)
  assert (Hlate : forall (R : option trie -> option trie -> Prop),
    (up < w_unl w (lock_id parent) /\ (w_unl w (lock_id parent) = up + 1 -> lock_id parent ∈ w_ids w -> seen_prev w /\ R (w_prev w) (w_trie w))) ->
    (forall w1, base w1 -> hold [] false w1 -> P w1 -> since (lock_id parent) up w1 -> since (lock_id (o_addr o)) un w1 -> known w1 o ->
       lock_id parent ∈ w_ids w1 -> w_unl w1 (lock_id parent) = up + 1 -> seen_prev w1 -> R (w_prev w1) (w_trie w1) -> ok (k (gen_of un bn)) Q w1) ->
    ok (run pg <- p_gen (o_addr o1); if negb (pg =? gen_of up bp) then Stop Again else k (gen_of un bn)) Q w).
  { intros R HR Hgo.
    assert (HP3 : lasting (fun w => (up < w_unl w (lock_id parent) /\ (w_unl w (lock_id parent) = up + 1 -> lock_id parent ∈ w_ids w -> seen_prev w /\ R (w_prev w) (w_trie w))) /\
        since (lock_id parent) up w /\ since (lock_id (o_addr o)) un w /\ known w o /\ known w o1 /\ P w)).
    { apply lasting_and; [apply lasting_late|]. apply lasting_and; [apply (lasting_since _ _ _ _ _ _ _ _ Hmax)|].
      apply lasting_and; [apply (lasting_since _ _ _ _ _ _ _ _ Hmax)|]. apply lasting_and; [apply lasting_known|]. apply lasting_and; [apply lasting_known|done]. }
    apply (ok_p_gen K fetch aid key n0 e nmax _ (stable_hold K fetch aid key n0 e ns nmax Hmax [] false _ HP3) o1); [by intros ? (_ & _ & _ & _ & _ & _ & ? & _)|done|].
    clear Hb Hh Hsi Ho He Ho1 Hsp HR Eraw Hp. intros w1 (Hb & Hh & [Hlt HR] & Hsp & Hsi & Ho & Ho1 & Hp). rewrite Ea1.
    destruct (gen_now K fetch aid key n0 e ns nmax Hmax w1 (lock_id parent) Hb) as (u1 & b1 & -> & Hval).
    destruct (N.eqb_spec (gen_of u1 b1) (gen_of up bp)) as [Eg|_]; cbn [negb].
    2:{ by apply (ok_again K fetch). }
    symmetry in Eg. destruct (gen_eq K fetch aid key n0 e ns nmax Hmax _ _ _ _ _ _ Hb Hsp Hval Eg) as [-> ->].
    destruct Hval as [[_ Eu]|(Hin & Eu & _)]; [lia|]. destruct (HR Eu Hin) as [H1 H2]. by eapply Hgo. }
  destruct (decide (w_unl w (lock_id parent) = up \/ (w_unl w (lock_id parent) = up + 1 /\ lock_id parent ∈ w_ids w))) as [Eu|Eu].
  2:{ apply (Hlate (fun _ _ => False)); [|done]. split; [destruct Hsp as [[] _]; assert (w_unl w (lock_id parent) <> up) by naive_solver; lia|].
      intros E1 E2. by destruct Eu; right. }
  destruct (enter_slot w o np parent up Hb Ho He ltac:(done) Eraw) as (o2 & Hs & P1 & P2 & [Ho2|(_ & Hlt & Hseen & o1' & Hcut)]).
  - assert (Ea2 : o_addr o2 = o_addr o) by apply Hs.
    assert (Hhb : held_by o2 un up w) by (apply held_now; try done; by rewrite ?Ea2, ?P2).
    assert (HP3 : lasting (fun w => held_by o2 un up w /\ known w o1 /\ P w)).
    { apply lasting_and; [apply lasting_held|apply lasting_and; [apply lasting_known|done]]. }
    apply (ok_p_gen K fetch aid key n0 e nmax _ (stable_hold K fetch aid key n0 e ns nmax Hmax [] false _ HP3) o1); [by intros ? (_ & _ & _ & ? & _)|done|].
    clear Hlate Hb Hh Hsi Ho He Ho1 Hsp Eu Ho2 Hhb Eraw Hp. intros w1 (Hb & Hh & Hhb & Ho1 & Hp).
    destruct (gen_now K fetch aid key n0 e ns nmax Hmax w1 (lock_id (o_addr o1)) Hb) as (u1 & b1 & -> & Hval).
    destruct (N.eqb_spec (gen_of u1 b1) (gen_of up bp)) as [Eg|_]; cbn [negb].
    2:{ by apply (ok_again K fetch). }
    eapply Hk; try done. intros _ Hl. rewrite Ea2 in Hl.
    assert (Hsp : since (lock_id (o_addr o1)) up w1) by (rewrite Ea1, <- P2; apply (hb_par _ _ _ _ Hhb); by rewrite P2).
    symmetry in Eg. destruct (gen_eq K fetch aid key n0 e ns nmax Hmax _ _ _ _ _ _ Hb Hsp Hval Eg) as [-> ->].
    pose proof (hb_node _ _ _ _ Hhb) as [[Hn _] Hn']. rewrite Ea2, <- Hl, <- Ea1 in Hn, Hn'. specialize (Hup Ep Hl).
    destruct Hval as [[_ Eg']|(Hin & Eg' & _)]; [lia|]. specialize (Hn' Hin). lia.
  - assert (Ea2 : o_addr o2 = o_addr o) by apply Hs.
    apply (Hlate (cut_off o1' o2)); [by split|]. clear Hlate Hb Hh Hsi Ho He Ho1 Hsp Eu Hlt Hseen Hcut Eraw Hp.
    intros w1 Hb Hh Hp Hsp Hsi Ho Hin Eu Hseen (C1 & C2 & C3 & C4).
    pose proof (ba_J _ _ _ _ _ _ _ _ _ Hb) as HJ. pose proof (j_good _ _ _ _ _ _ _ HJ) as Hg.
    assert (Hk2 : known w1 o2) by (destruct Hseen as (h & Hq); by exists (h, w_prev w1)).
    eapply Hk; try done.
    + split; [done|by rewrite Ea2|by rewrite P2|..].
      * intros _ E. rewrite P2 in E. specialize (E Ep). lia.
      * split; [|intros _ _; right; split; [done|]; exists o2; split; [done|apply osame_refl]]. intros Eun.
        destruct (wo_order _ (g_wake _ _ _ Hg) o1' o2 [] (w_ids w1) eq_refl C1 C2 C3) as [(o3 & Ho3 & Hs3)|[?|Hin2]]; [by rewrite <- C3, P2| |done|].
        -- exfalso. apply C4. apply elem_of_cover. exists (oreg o3). split; [by apply ooccr_regs|]. rewrite (osame_reg _ _ Hs3).
           assert (Hk1 : known w1 o1') by (destruct Hseen as (h & Hq); by exists (h, w_prev w1)).
           apply elem_of_seqN. pose proof (of_cnt _ _ (known_facts K fetch n0 _ _ Hg Hk1)). unfold oreg, nslots. simpl. lia.
        -- destruct Hsi as [_ Hsi]. rewrite Ea2 in Eun, Hin2. specialize (Hsi Hin2). lia.
    + intros _ Hl. rewrite Ea2 in Hl. specialize (Hup Ep Hl). destruct Hsi as [_ Hsi]. rewrite <- Hl in Hsi. specialize (Hsi Hin). lia.
Qed.

(** ** Locking a node and its parent *)

Lemma ok_lock_pin {A} o un bn up bp (k : unit -> prog A) Q w P : lasting P ->
  base w -> hold [] false w -> held_by o un up w -> P w -> (o_par o <> 0 -> lock_id (o_par o) = lock_id (o_addr o) -> up = un) ->
  (forall w1 L, base w1 -> hold L false w1 -> held_by o un up w1 -> P w1 -> map fst L = lids2 (o_addr o) (o_par o) ->
     (forall w2, hold L false w2 -> at_gens o un up w2) -> ok (k tt) Q w1) ->
  ok (pbind (p_lock2 (o_addr o) (gen_of un bn) (o_par o) (gen_of up bp)) k) Q w.
Proof.
  intros HLp Hb Hh Hhb Hp Heq Hk.
  assert (HL2 : lasting (fun w => held_by o un up w /\ P w)) by (apply lasting_and; [apply lasting_held|done]).
  eapply (ok_lock2 K fetch aid key n0 e ns nmax Hmax); [exact HL2|by intros ? [[] _]| |done..|].
  { intros Hpar w1 [[] _]. auto. }
  intros w1 L Hb1 Hh1 [Hhb1 Hp1] EL Hn Hpar. eapply Hk; try done. intros w2 [_ Hu]. split; [by apply Hu|].
  intros Hpar0. destruct (Hpar Hpar0) as [E|Hin]; [|by apply Hu]. rewrite E. rewrite (Heq Hpar0 E). by apply Hu.
Qed.

(** If one of the two lock words has moved, the locks cannot be had. *)
Lemma ok_lock_stale {A} o un bn up bp (k : unit -> prog A) Q w :
  base w -> hold [] false w -> held_by o un up w -> (o_par o <> 0 -> lock_id (o_par o) = lock_id (o_addr o) -> up = un) ->
  ~ at_gens o un up w -> ok (pbind (p_lock2 (o_addr o) (gen_of un bn) (o_par o) (gen_of up bp)) k) Q w.
Proof.
  intros Hb Hh Hhb Heq Hst.
  assert (Hst' : un < w_unl w (lock_id (o_addr o)) \/ (o_par o <> 0 /\ up < w_unl w (lock_id (o_par o)))).
  { pose proof (hb_node _ _ _ _ Hhb) as [[H1 _] _]. destruct (decide (w_unl w (lock_id (o_addr o)) = un)) as [E|]; [|left; lia].
    right. destruct (decide (o_par o = 0)) as [E0|E0]; [by exfalso; apply Hst; split|]. split; [done|].
    pose proof (hb_par _ _ _ _ Hhb E0) as [[H2 _] _]. destruct (decide (w_unl w (lock_id (o_par o)) = up)); [by exfalso; apply Hst; split|]. lia. }
  destruct Hst' as [H1|[Hp H1]].
  - eapply (ok_lock_pin _ _ _ _ _ _ _ _ (fun w => un < w_unl w (lock_id (o_addr o)))); [apply (lasting_past _ _ _ _ _ _ _ _ Hmax)|done..|].
    intros w1 L _ Hh1 _ H2 _ Hg. destruct (Hg _ Hh1) as [E _]. lia.
  - eapply (ok_lock_pin _ _ _ _ _ _ _ _ (fun w => up < w_unl w (lock_id (o_par o)))); [apply (lasting_past _ _ _ _ _ _ _ _ Hmax)|done..|].
    intros w1 L _ Hh1 _ H2 _ Hg. destruct (Hg _ Hh1) as [_ E]. specialize (E Hp). lia.
Qed.

(** ** The root lock *)

Lemma stable_root T P : (forall o, ~ ooccr T o) -> lasting P -> stable (fun w => base w /\ hold [] true w /\ w_trie w = T /\ P w).
Proof.
  intros HT HLp. split.
  - intros w (H & _). apply H.
  - intros w w' Hr (Hb & Hh & Ht & Hp). split_and!; [eapply base_step; eauto|by eapply hold_rely| |eapply HLp; eauto].
    destruct (r_kept _ _ _ _ _ _ Hr) as [E|[(_ & (o & Ho) & _)|(X & _ & _ & Hx)]]; [congruence| |].
    + rewrite Ht in Ho. by apply HT in Ho.
    + destruct Hh as [Hh _]. destruct (Hx _ Hh eq_refl) as [o Ho]. rewrite Ht in Ho. by apply HT in Ho.
  - intros w a v s' Ha Hd (Hb & Hh & Ht & Hp). pose proof (ba_J _ _ _ _ _ _ _ _ _ Hb) as HJ.
    destruct (read_acted K fetch aid e _ _ _ _ Ha Hd (j_good _ _ _ _ _ _ _ HJ) (j_mine _ _ _ _ _ _ _ HJ)) as [Hev Hsys].
    assert (Hq : quiet w (acted aid a v s' w)) by (by split).
    split_and!; [eapply base_step; eauto| |done|eapply HLp; eauto]. destruct Hh as [H1 H2]. split; [by rewrite Hsys|done].
Qed.

Lemma root_none w : good w -> t_root (w_tree w) = 0 \/ isLeaf (t_root (w_tree w)) = true -> forall o, ~ ooccr (w_trie w) o.
Proof.
  intros Hg Hr o Ho. pose proof (iv_core _ _ _ _ _ _ _ (g_inv _ _ _ Hg)) as Hc. pose proof (co_root _ _ _ _ Hc) as Er.
  destruct (w_trie w) as [[k v|full a pfx cs]|]; [by apply occ_leaf in Ho| |done].
  pose proof (hole_enc K fetch _ [] _ Hc eq_refl) as (_ & Hl & H0). change (hole_word [] (Node full a pfx cs)) with (enc_root (Some (Node full a pfx cs))) in *.
  rewrite Er in Hr. destruct Hr; congruence.
Qed.

Lemma ok_lock_root {A} expected (k : unit -> prog A) Q w : base w -> hold [] false w ->
  expected = 0 \/ isLeaf expected = true ->
  (forall w1, base w1 -> hold [] true w1 -> t_root (w_tree w1) = expected -> (forall o, ~ ooccr (w_trie w1) o) -> ok (k tt) Q w1) ->
  ok (pbind (p_lock_root expected) k) Q w.
Proof.
  intros Hb Hh He Hk. unfold p_lock_root. cbn [pbind].
  pose proof (lasting_pure K fetch aid key n0 e ns nmax True) as HT.
  eapply (ok_rootcas K fetch aid key n0 e ns nmax Hmax); [exact HT|done..| |].
  { intros w1 _ H1 _. change (0 =? 0) with true. cbn [pbind]. by apply (ok_again K fetch). }
  intros w1 Hb1 Hh1 _. change (1 =? 0) with false. cbn iota. cbn [pbind].
  apply (ok_load K fetch aid key n0 e nmax _ (stable_hold K fetch aid key n0 e ns nmax Hmax [] true _ HT)); [done|done|].
  clear dependent w. clear dependent w1. intros w (Hb & Hh & _). cbn [pget].
  destruct (N.eqb_spec (t_root (w_tree w)) expected) as [E|E]; cbn [pbind].
  - apply Hk; try done. apply root_none; [apply (ba_J _ _ _ _ _ _ _ _ _ Hb)|]. by rewrite E.
  - eapply (ok_rootback K fetch aid key n0 e ns nmax Hmax); [exact HT|done..|]. intros w1 _ H1 _. by apply (ok_again K fetch).
Qed.
End FinePin.
