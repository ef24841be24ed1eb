(** * FinU: what Finalize of an update does to the tree. *)
From Verif Require Export FinTools Scan.

(** The recycler cannot take a region of exactly 258 slots (allocator.go:181). *)
Definition bad_size (n : nat) : Prop := n = recyclerLen.

Section FinU.
Context (K : list N -> Prop) (fetch : N -> list N) (HK : universe K).
Local Notation core := (core K fetch).
Local Notation wf := (wf K fetch).
Local Notation upd := (upd K fetch).

Record fin (s : tree) (T : option trie) (s' : tree) (T' : option trie) (held : list N) (rl : N) (G : list (N * nat)) (d : Z) : Prop := {
  fn_upd : exists l e, upd s T s' T' [] l rl e d /\ (e = t_epoch s \/ e = u64 (t_epoch s + 1)) /\ locks_inv l held;
  fn_gone : gone T T' G;
  fn_G : forall x, x ∈ cover G -> x ∉ cover (oregs T')
}.

(** The allocators know the range as free memory, if it is small enough for them. *)
Definition noted (s : tree) (r : N * nat) : Prop := (r.2 < recyclerLen)%nat -> r ∈ map ireg (all_items s).

Definition finu_post (dirty : bool) (s : tree) (T : option trie) (held : list N) (rl : N) (X : list N) (key : list N) (v : N) (size : nat) (R : res (bool * tree)) : Prop :=
  match R with
  | Ok (true, s') => exists T' G d, Forall (noted s') G /\ fin s T s' T' held rl G d /\ keeps T T' X /\ upserted T T' key v d
  | Ok (false, s') => dirty = true /\ fin s T s' T held rl [] 0
  | Panic OutOfBlocks => True
  | Panic OutOfRange => bad_size size
  | _ => False
  end.

Lemma upd_disj s T s' T' G l rl e d x : upd s T s' T' G l rl e d -> x ∈ cover G -> x ∉ cover (oregs T').
Proof.
  intros [_ _ _ [Hn _ _ _ _ _] _ _ _ _ _ _ _ _ _] Hx. rewrite cover_app in Hn.
  apply NoDup_app in Hn as (Hn & _). by eapply cover_disj.
Qed.

Lemma pfx_facts p full a pfx cs : wf p (Node full a pfx cs) ->
  bytes pfx /\ (forall c m, (c <= 256)%nat -> (m <= length pfx)%nat -> N.of_nat (c + prefix_slots m) <= 262142).
Proof.
  intros H. apply wf_node_iff in H as (_ & _ & (k & b & Hk & [q Hq]) & _).
  pose proof (uv_bytes K HK _ Hk) as Hb. pose proof (uv_len K HK _ Hk) as Hl. subst k.
  split.
  - unfold bytes in Hb. rewrite !Forall_app in Hb. naive_solver.
  - intros c m Hc Hm. rewrite !app_length in Hl. unfold maxKeyLen in Hl.
    assert (prefix_slots m <= (m + 15) / 8)%nat.
    { destruct (decide (m < 255)%nat); [rewrite prefix_slots_small by done; apply Nat.div_le_mono; lia|].
      by rewrite prefix_slots_big by lia. }
    pose proof (Nat.div_mod (m + 15) 8 ltac:(lia)). simpl in Hl. lia.
Qed.

(** Key parts as prefixes. *)
Lemma key_facts (key q : list N) : K key -> q `prefix_of` key -> bytes q /\
  (forall c m, (c <= 256)%nat -> (m <= length q)%nat -> N.of_nat (c + prefix_slots m) <= 262142).
Proof.
  intros Hk [q' Hq]. pose proof (uv_bytes K HK _ Hk) as Hb. pose proof (uv_len K HK _ Hk) as Hl. subst key.
  split.
  - unfold bytes in Hb. rewrite Forall_app in Hb. naive_solver.
  - intros c m Hc Hm. rewrite !app_length in Hl. unfold maxKeyLen in Hl.
    assert (prefix_slots m <= (m + 15) / 8)%nat.
    { destruct (decide (m < 255)%nat); [rewrite prefix_slots_small by done; apply Nat.div_le_mono; lia|].
      by rewrite prefix_slots_big by lia. }
    pose proof (Nat.div_mod (m + 15) 8 ltac:(lia)). lia.
Qed.

(** unlock, recycle, count: the end of the node-replacing operations. *)
Definition tail (s : tree) (aid : nat) (node parent : N) (slots : nat) (z : Z) : res (bool * tree) :=
  do s1 <- (do l <- unlock_nodes2 (t_locks s) node parent; Ok (set_locks s l));
  do s2 <- recycle s1 aid node slots;
  do s3 <- add_items s2 aid z;
  Ok (true, s3).

Lemma elem_of_ritems t0 r t l n e : r !! t = Some l -> (n, e) ∈ l -> (n, (t0 + t)%nat, e) ∈ ritems t0 r.
Proof.
  intros Hr Hl. destruct (ritems_alter t0 _ _ _ Hr) as (rest & -> & _). apply elem_of_app. left.
  apply elem_of_list_fmap. by exists (n, e).
Qed.

Lemma noted_intro s aid a n t e l : t_allocs s !! aid = Some a -> al_recycler a !! t = Some l -> (n, e) ∈ l -> noted s (n, t).
Proof.
  intros Ha Hl He _. apply elem_of_list_fmap. exists (n, t, e). split; [done|]. unfold all_items. apply elem_of_list_bind.
  exists a. split; [|by eapply elem_of_list_lookup_2]. unfold al_its. exact (elem_of_ritems 0 _ _ _ _ _ Hl He).
Qed.

Lemma push_item_lookup r t it : (t < length r)%nat -> exists l, push_item r t it !! t = Some l /\ it ∈ l.
Proof.
  intros [l Hl]%lookup_lt_is_Some_2. exists (l ++ [it]). unfold push_item. rewrite list_lookup_alter, Hl. split; [done|].
  apply elem_of_app. right. left.
Qed.

Lemma recycle_noted s aid node slots s' L : recycle s aid node slots = Ok s' -> alloc_inv s' L -> noted s' (node, slots).
Proof.
  intros E Ha' Hsm. simpl in Hsm. revert Hsm. change (noted s' (node, slots)). unfold recycle in E.
  destruct (Nat.ltb_spec recyclerLen slots) as [|Hle]; [intros H'; simpl in H'; lia|].
  destruct (Nat.leb_spec recyclerLen slots) as [|Hlt]; [done|]. unfold get_alloc in E.
  destruct (t_allocs s !! aid) as [a|] eqn:Ea; [|done]. cbn [bind] in E. pose proof (lookup_lt_Some _ _ _ Ea) as Haid.
  assert (H : exists a', t_allocs s' !! aid = Some a' /\ al_recycler a' = push_item (al_recycler a) slots (node, t_epoch s)).
  { destruct (1000 <=? al_counter a + 1).
    - unfold flush_stats, get_alloc in E. cbn [t_allocs set_epoch put_alloc set_allocs] in E. rewrite list_lookup_insert in E by done.
      cbn [bind] in E. injection E as <-. cbn [t_allocs set_live put_alloc set_allocs set_epoch]. rewrite list_lookup_insert by (by rewrite insert_length).
      eexists. split; [done|]. done.
    - injection E as <-. cbn [t_allocs put_alloc set_allocs]. rewrite list_lookup_insert by done. eexists. done. }
  destruct H as (a' & Ha1 & Er). pose proof (ai_rec _ _ Ha') as Hrec. rewrite Forall_forall in Hrec.
  pose proof (Hrec _ (elem_of_list_lookup_2 _ _ _ Ha1)) as Hlen. rewrite Er in Hlen. unfold push_item in Hlen. rewrite alter_length in Hlen.
  destruct (push_item_lookup (al_recycler a) slots (node, t_epoch s)) as (l & Hl & Hin); [lia|].
  rewrite <- Er in Hl. by eapply noted_intro.
Qed.

Lemma add_items_noted s aid z s' r : add_items s aid z = Ok s' -> noted s r -> noted s' r.
Proof.
  unfold add_items, get_alloc. destruct (t_allocs s !! aid) as [a|] eqn:Ea; [|done]. cbn [bind]. intros [= <-] H Hr.
  destruct (ledger_put s aid a Ea) as (RI & RB & EI & EB & Eput). destruct (Eput s (al_add_items a z) eq_refl) as [EI' _].
  change (al_its (al_add_items a z)) with (al_its a) in EI'. rewrite EI', <- EI. by apply H.
Qed.

Lemma tail_ok s T sM T' aid node parent slots slots' z held :
  upd s T sM T' [(node, slots)] (t_locks s) (t_rootLock s) (t_epoch s) 0 ->
  locks_inv (t_locks s) (lids2 node parent ++ held) -> (aid < length (t_allocs s))%nat -> slots' = slots -> (0 < slots)%nat ->
  (bad_size slots /\ tail sM aid node parent slots' z = Panic OutOfRange) \/
  (exists s', tail sM aid node parent slots' z = Ok (true, s') /\ noted s' (node, slots) /\
    exists l e, upd s T s' T' [] l (t_rootLock s) e z /\ (e = t_epoch s \/ e = u64 (t_epoch s + 1)) /\ locks_inv l held).
Proof.
  intros Hu Hl Haid -> Hsp. unfold tail. destruct (unlock_nodes2_ok _ _ _ _ Hl) as (l & E & Hl').
  rewrite (up_locks _ _ _ _ _ _ _ _ _ _ _ Hu), E. cbn [bind]. apply (upd_locks _ _ _ _ _ _ _ _ _ _ _ l) in Hu.
  destruct (decide (slots = recyclerLen)) as [->|Hne].
  { left. split; [done|]. by rewrite recycle_258. }
  right. destruct (upd_recycle _ _ _ _ _ _ _ _ _ _ _ _ _ Hu Haid Hne Hsp) as (s2 & e & E2 & He & Hu2). rewrite E2. cbn [bind].
  pose proof (recycle_noted _ _ _ _ _ _ E2 (up_alloc _ _ _ _ _ _ _ _ _ _ _ Hu2)) as Hno.
  destruct (upd_items _ _ _ _ _ _ _ _ _ _ _ aid z Hu2 Haid) as (s3 & E3 & Hu3). rewrite E3. cbn [bind].
  exists s3. split; [done|]. split; [by eapply add_items_noted|]. exists l, e. done.
Qed.

Lemma rep_kids s T s1 F full a pfx cs : core s (Some T) -> prepd s (Some T) s1 F ->
  (forall r, r ∈ regs (Node full a pfx cs) -> r ∈ regs T) -> rep (t_mem s) (Node full a pfx cs) ->
  Forall (fun c => rep (t_mem s1) c.2) cs.
Proof.
  intros Hc Hp Hr Hrep. apply rep_node_iff in Hrep as [_ Hk]. rewrite Forall_forall in *. intros c Hin.
  eapply rep_agree; [by apply Hk|]. intros x Hx. apply (pr_mem _ _ _ _ Hp). eapply prepd_disj; [done|].
  apply elem_of_cover in Hx as (r & Hr' & Hx). apply elem_of_cover. exists r. split; [|done]. apply Hr.
  destruct c as [b c]. by eapply child_regs.
Qed.

(** Addresses of a live node are not in fresh memory. *)
Lemma live_not_fresh s T s1 F full a pfx cs x : prepd s (Some T) s1 F ->
  (forall r, r ∈ regs (Node full a pfx cs) -> r ∈ regs T) ->
  a <= x < a + N.of_nat (nslots full pfx (length cs)) -> x ∉ cover F.
Proof.
  intros Hp Hr Hx. eapply prepd_disj; [done|]. simpl. apply elem_of_cover. exists (a, nslots full pfx (length cs)).
  split; [apply Hr; rewrite regs_node; left|]. by apply elem_of_seqN.
Qed.

Lemma not_stored_add C full a pfx cs key b T' v :
  wf [] (plug C (Node full a pfx cs)) -> (path_of C ++ pfx ++ [b]) `prefix_of` key -> b ∉ map fst cs ->
  ocontents T' ≡ₚ (key, v) :: contents (plug C (Node full a pfx cs)) ->
  added (Some (plug C (Node full a pfx cs))) T' key v.
Proof. intros Hw Hp Hb Hc. split; [|done]. intros w. by eapply not_stored. Qed.

Lemma sbytes_insert {A} (cl cr : list (N * A)) k x : sbytes (cl ++ cr) -> k < 256 ->
  (forall b, b ∈ map fst cl -> b < k) -> (forall b, b ∈ map fst cr -> k < b) -> sbytes (cl ++ (k, x) :: cr).
Proof.
  intros [H1 H2] Hk Hl Hr. rewrite map_app in *. apply SSorted_app in H1 as (Hs1 & Hs2 & Hlt).
  apply Forall_app in H2 as [Hb1 Hb2]. split.
  - rewrite map_app. simpl. apply SSorted_app. split_and!; [done| |].
    + apply SSorted_cons. split; [done|auto].
    + intros y z Hy Hz. apply elem_of_cons in Hz as [->|Hz]; auto.
  - rewrite map_app. simpl. apply Forall_app. split; [done|]. by constructor.
Qed.

Lemma upd_disj_single s T s' T' r l rl e d : upd s T s' T' [r] l rl e d ->
  forall x, x ∈ cover [r] -> x ∉ cover (oregs T').
Proof. intros Hu x. by eapply upd_disj. Qed.

Lemma touched_node a p : a ∈ touched a p.
Proof. left. Qed.
Lemma touched_par C a : (C <> [] -> par_of C <> 0) -> C <> [] -> par_of C ∈ touched a (par_of C).
Proof.
  intros H HC. unfold touched. rewrite (proj2 (N.eqb_neq _ _)) by auto. right. left.
Qed.
Lemma par_ne s C t : core s (Some (plug C t)) -> C <> [] -> par_of C <> 0.
Proof. intros Hc HC. destruct C as [|f C]; [done|]. eapply par_nonzero. exact Hc. Qed.

(** ** Inserting a leaf into a variable-sized node (update.go:334-361) *)

Lemma fin_insert s C a pfx cl cr k key v value aid raw held :
  core s (Some (plug C (Node false a pfx (cl ++ cr)))) ->
  K key -> fetch v = key -> v = value mod 2 ^ 55 ->
  (path_of C ++ pfx ++ [k]) `prefix_of` key -> k < 256 ->
  (forall b, b ∈ map fst cl -> b < k) -> (forall b, b ∈ map fst cr -> k < b) ->
  (length (cl ++ cr) < 127)%nat ->
  (aid < length (t_allocs s))%nat -> to_byte raw = default 0 (last (path_of C)) ->
  locks_inv (t_locks s) (lids2 a (par_of C) ++ held) ->
  finu_post false s (Some (plug C (Node false a pfx (cl ++ cr)))) held (t_rootLock s) (touched a (par_of C)) key v (nslots false pfx (length (cl ++ cr)))
    (do (n, dst, s1) <- allocate_node s aid (length (cl ++ cr) + 1) (length pfx);
     let split := (prefix_slots (length pfx) + length cl)%nat in
     do m1 <- sl_copy (t_mem s1) dst (Slice a (dlen a)) 0 split;
     do m2 <- sl_set m1 dst split (buildLeaf k value);
     do dst' <- sl_from dst (split + 1);
     do m3 <- sl_copy m2 dst' (Slice a (dlen a)) split (length (cl ++ cr) - length cl);
     let w := buildNode (to_byte raw) n (length (cl ++ cr) + 1) (length pfx) in
     tail (pset (set_mem s1 m3) (ptr_of C) w) aid a (par_of C) (length (cl ++ cr) + prefix_slots (length pfx)) 1).
Proof.
  intros Hc Hk Hf Hv Hp Hk256 Hcl Hcr Hlt Haid Hraw Hl.
  set (t := Node false a pfx (cl ++ cr)) in *. set (ps := prefix_slots (length pfx)).
  destruct (sub_facts _ _ _ _ _ Hc) as (Hw & Hrep & Hreg).
  pose proof (sub_region _ _ _ _ _ _ _ _ Hc) as (Ha0 & Ha39 & Hfit & Hblk & Hnb).
  destruct (pfx_facts _ _ _ _ _ Hw) as [Hbp Hsz].
  assert (Hns : nslots false pfx (length (cl ++ cr)) = (length (cl ++ cr) + ps)%nat) by (unfold nslots, ncount, ps; lia).
  destruct (allocate_node_ok s aid (length (cl ++ cr) + 1) (length pfx) _ (co_alloc _ _ _ _ Hc) Haid) as [->|(n & s1 & -> & Hal & Hm1)];
    [lia|apply Hsz; lia|done|]. cbn [bind].
  pose proof (prepd_alloc _ _ _ _ _ _ _ (prepd_refl _ _ _ _ Hc) Hal) as Hpr.
  pose proof (allocd_fits _ _ _ _ _ Hal ltac:(lia)) as (Hn0 & Hnfit & Hnblk).
  fold ps in Hnfit, Hpr, Hal.
  assert (Hlc : length (cl ++ cr) = (length cl + length cr)%nat) by apply app_length.
  assert (Hdisj : forall x, a <= x < a + N.of_nat (nslots false pfx (length (cl ++ cr))) -> x ∉ seqN n (length (cl ++ cr) + 1 + ps)).
  { intros x Hx Hin. eapply live_not_fresh; [exact Hpr|exact Hreg|exact Hx|]. rewrite cover_cons. apply elem_of_app. by left. }
  rewrite Hns in Hdisj.
  assert (Hd2 : n + N.of_nat (length (cl ++ cr) + 1 + ps) <= a \/ a + N.of_nat (length (cl ++ cr) + ps) <= n).
  { destruct (decide (n <= a)) as [H1|H1].
    - destruct (decide (n + N.of_nat (length (cl ++ cr) + 1 + ps) <= a)); [by left|]. exfalso.
      assert (2 <= length (cl ++ cr))%nat by (apply wf_node_iff in Hw as (_ & ? & _); lia).
      apply (Hdisj a); [lia|]. apply elem_of_seqN. lia.
    - destruct (decide (a + N.of_nat (length (cl ++ cr) + ps) <= n)); [by right|]. exfalso.
      apply (Hdisj n); [lia|]. apply elem_of_seqN. lia. }
  clear Hdisj.
  destruct (sl_copy_ok (t_mem s1) (Slice n (dlen n)) (Slice a (dlen a)) 0 (ps + length cl)) as (m1 & -> & Hc1 & Ho1);
    [simpl; lia|simpl; lia|]. cbn [bind sl_base] in *.
  rewrite sl_set_ok by (simpl; lia). cbn [bind sl_base].
  rewrite sl_from_ok by (simpl; lia). cbn [bind sl_base sl_len].
  destruct (sl_copy_ok (mset m1 (n + N.of_nat (ps + length cl)) (buildLeaf k value))
     (Slice (n + N.of_nat (ps + length cl + 1)) (dlen n - N.of_nat (ps + length cl + 1))) (Slice a (dlen a)) (ps + length cl)
     (length (cl ++ cr) - length cl)) as (m3 & -> & Hc3 & Ho3); [simpl; lia|simpl; lia|]. cbn [bind sl_base] in *.
  (* the new memory *)
  assert (Hlow : forall j, (j < ps + length cl)%nat -> mget m3 (n + N.of_nat j) = mget (t_mem s) (a + N.of_nat j)).
  { intros j Hj. rewrite Ho3 by (rewrite elem_of_seqN; lia). rewrite mget_mset_ne by lia. rewrite Hc1 by done. by rewrite Hm1. }
  assert (Hmid : mget m3 (n + N.of_nat (ps + length cl)) = buildLeaf k value).
  { rewrite Ho3 by (rewrite elem_of_seqN; lia). apply mget_mset_eq. by apply buildLeaf_lt64. }
  assert (Hhigh : forall j, (j < length cr)%nat -> mget m3 (n + N.of_nat (ps + length cl + 1 + j)) = mget (t_mem s) (a + N.of_nat (ps + length cl + j))).
  { intros j Hj. replace (n + N.of_nat (ps + length cl + 1 + j)) with (n + N.of_nat (ps + length cl + 1) + N.of_nat j) by lia.
    rewrite Hc3 by lia. rewrite mget_mset_ne by lia. rewrite Ho1 by (rewrite elem_of_seqN; lia). by rewrite Hm1. }
  assert (Hout : forall x, x ∉ cover [(n, (length (cl ++ cr) + 1 + ps)%nat)] -> mget m3 x = mget (t_mem s1) x).
  { intros x Hx. rewrite cover_cons, app_nil_r in Hx. cbn [fst snd] in Hx. rewrite elem_of_seqN in Hx.
    rewrite Ho3 by (rewrite elem_of_seqN; lia). rewrite mget_mset_ne by lia. apply Ho1. rewrite elem_of_seqN. lia. }
  pose proof (prepd_mem _ _ _ _ _ Hpr Hout) as Hpr3.
  set (t' := Node false n pfx (cl ++ (k, Leaf key v) :: cr)).
  assert (Hlc' : length (cl ++ (k, Leaf key v) :: cr) = (length (cl ++ cr) + 1)%nat) by (rewrite !app_length; simpl; lia).
  assert (Hnot : k ∉ map fst (cl ++ cr)).
  { rewrite map_app, elem_of_app. intros [Hin|Hin]; [apply Hcl in Hin|apply Hcr in Hin]; lia. }
  assert (Hw' : wf (path_of C) t').
  { apply wf_node_iff in Hw as (Hs & Hlen & Hex & Hch). apply wf_node_iff. split; [|split; [|split]].
    - by apply sbytes_insert.
    - rewrite Hlc'. lia.
    - done.
    - apply Forall_app in Hch as [Hch1 Hch2]. apply Forall_app. split; [done|]. constructor; [|done]. simpl.
      constructor; try done. subst v. by apply N.mod_lt. }
  assert (Hrep' : rep m3 t').
  { pose proof (rep_kids _ _ _ _ _ _ _ _ Hc Hpr3 Hreg Hrep) as Hkids. change (t_mem (set_mem s1 m3)) with m3 in Hkids.
    apply rep_node_iff in Hrep as [[Hpf Hnm] _]. fold ps in Hnm. apply rep_node_iff. split.
    - split.
      + eapply prefix_at_copy; [exact Hpf|]. intros i Hi. fold ps in Hi. apply Hlow. lia.
      + fold ps. rewrite bws_app, bws_cons. rewrite map_app. cbn [map snd].
        rewrite bws_app, map_app in Hnm. rewrite app_length in Hnm. rewrite mread_app in Hnm.
        apply app_inj_1 in Hnm as [Hnm1 Hnm2]; [|by rewrite mread_length, map_length].
        rewrite !bws_length in *.
        replace (length (bws cl ++ (k, enc k (Leaf key v)) :: bws cr)) with (length cl + (1 + length cr))%nat
          by (rewrite app_length; simpl; by rewrite !bws_length).
        rewrite mread_app. f_equal.
        * rewrite <- Hnm1. apply list_eq. intros i. destruct (decide (i < length cl)%nat).
          -- rewrite !mread_lookup by done. f_equal.
             replace (n + N.of_nat ps + N.of_nat i) with (n + N.of_nat (ps + i)) by lia.
             replace (a + N.of_nat ps + N.of_nat i) with (a + N.of_nat (ps + i)) by lia. apply Hlow. lia.
          -- by rewrite !mread_lookup_ge by lia.
        * cbn [mread Nat.add]. f_equal.
          -- replace (n + N.of_nat ps + N.of_nat (length cl)) with (n + N.of_nat (ps + length cl)) by lia. rewrite Hmid.
             subst v. simpl. by rewrite buildLeaf_trunc.
          -- rewrite <- Hnm2. apply list_eq. intros i. destruct (decide (i < length cr)%nat).
             ++ rewrite !mread_lookup by done. f_equal.
                replace (n + N.of_nat ps + N.of_nat (length cl) + 1 + N.of_nat i) with (n + N.of_nat (ps + length cl + 1 + i)) by lia.
                replace (a + N.of_nat ps + N.of_nat (length cl) + N.of_nat i) with (a + N.of_nat (ps + length cl + i)) by lia.
                by apply Hhigh.
             ++ by rewrite !mread_lookup_ge by lia.
    - apply Forall_app in Hkids as [Hk1 Hk2]. apply Forall_app. split; [done|]. constructor; [constructor|done]. }
  pose proof (upd_publish K fetch s C t (set_mem s1 m3) t' [(n, (length (cl ++ cr) + 1 + ps)%nat)]
    [(a, nslots false pfx (length (cl ++ cr)))] Hc Hpr3) as Hpub.
  assert (Hword : hole_word C t' = buildNode (to_byte raw) n (length (cl ++ cr) + 1) (length pfx)).
  { unfold hole_word, t'. rewrite hole_byte_last. rewrite Hraw. simpl. by rewrite Hlc'. }
  rewrite Hword in Hpub.
  assert (Hperm : [(n, (length (cl ++ cr) + 1 + ps)%nat)] ++ regs t ≡ₚ [(a, nslots false pfx (length (cl ++ cr)))] ++ regs t').
  { unfold t, t'. rewrite !regs_node, !bind_app. rewrite Hlc'. unfold nslots. simpl. fold ps.
    rewrite (Nat.add_comm ps (length (cl ++ cr) + 1)). constructor. }
  specialize (Hpub Hperm Hw' Hrep').
  destruct (tail_ok _ _ _ _ aid a (par_of C) _ (length (cl ++ cr) + ps) 1 held Hpub Hl Haid) as [(Hbad & ->)|(s' & -> & Hno & Hu)];
    [by rewrite Hns|by eapply nslots_pos|done|].
  exists (Some (plug C t')), [(a, nslots false pfx (length (cl ++ cr)))], 1%Z. split; [by constructor|]. split; [split|split].
  - done.
  - apply gone_plug. intros o Ho. apply occ_cases in Ho as [->|(b & c & np0 & Hin & Ho)].
    + right. unfold oreg. simpl. rewrite heads_length. left.
    + left. unfold t', occ_at. eapply occ_into_weak; [|done]. apply elem_of_app in Hin. apply elem_of_app.
      destruct Hin; [by left|by right; right].
  - by eapply upd_disj_single.
  - apply keeps_plug.
    + apply touched_par. by eapply par_ne.
    + intros o Ho Ha. apply occ_cases in Ho as [->|(b & c & np0 & Hin & Ho)].
      * simpl in Ha. exfalso. apply Ha, touched_node.
      * assert (Hin' : (b, c) ∈ cl ++ (k, Leaf key v) :: cr).
        { apply elem_of_app in Hin. apply elem_of_app. destruct Hin; [by left|by right; right]. }
        unfold t', occ_at. split; [|by eapply occ_into_weak]. intros Hpa. eapply occ_into; [done|done|].
        intros E. apply Hpa. rewrite E. apply touched_node.
  - split; [apply grows_kids; intros c; rewrite !elem_of_app, elem_of_cons; naive_solver|]. left. split; [|done]. unfold t. eapply not_stored_add; [apply Hc|done|done|].
    simpl. rewrite !contents_plug_perm. unfold t'. rewrite !contents_node, !bind_app. simpl. solve_Permutation.
Qed.

(** ** Replacing a node by a new subtree *)

Lemma live_fresh_disj s T s1 F full a pfx cs n sl : core s (Some T) -> prepd s (Some T) s1 F ->
  (forall r, r ∈ regs (Node full a pfx cs) -> r ∈ regs T) -> (n, sl) ∈ F -> (0 < sl)%nat ->
  (0 < nslots full pfx (length cs))%nat ->
  n + N.of_nat sl <= a \/ a + N.of_nat (nslots full pfx (length cs)) <= n.
Proof.
  intros Hc Hp Hr HF Hsl Hns.
  assert (Hd : forall x, a <= x < a + N.of_nat (nslots full pfx (length cs)) -> ~ (n <= x < n + N.of_nat sl)).
  { intros x Hx Hx'. eapply live_not_fresh; [exact Hp|exact Hr|exact Hx|]. apply elem_of_cover. exists (n, sl).
    split; [done|]. by apply elem_of_seqN. }
  destruct (decide (n <= a)).
  - left. destruct (decide (n + N.of_nat sl <= a)); [done|]. exfalso. apply (Hd a); lia.
  - right. destruct (decide (a + N.of_nat (nslots full pfx (length cs)) <= n)); [done|]. exfalso. apply (Hd n); lia.
Qed.

Lemma fin_replace s C full a pfx cs sF F t' aid held z slots' w :
  core s (Some (plug C (Node full a pfx cs))) -> prepd s (Some (plug C (Node full a pfx cs))) sF F ->
  wf (path_of C) t' -> rep (t_mem sF) t' ->
  F ++ regs (Node full a pfx cs) ≡ₚ [(a, nslots full pfx (length cs))] ++ regs t' ->
  (forall b c np0 o, (b, c) ∈ cs -> occ (path_of C ++ pfx ++ [b]) np0 a c o ->
     (o_par o <> a -> occ_at C t' o) /\ exists o', occ_at C t' o' /\ omoved o o') ->
  slots' = nslots full pfx (length cs) -> w = hole_word C t' ->
  (aid < length (t_allocs s))%nat -> locks_inv (t_locks s) (lids2 a (par_of C) ++ held) ->
  (bad_size slots' /\ tail (pset sF (ptr_of C) w) aid a (par_of C) slots' z = Panic OutOfRange) \/
  exists s', tail (pset sF (ptr_of C) w) aid a (par_of C) slots' z = Ok (true, s') /\ noted s' (a, nslots full pfx (length cs)) /\
    fin s (Some (plug C (Node full a pfx cs))) s' (Some (plug C t')) held (t_rootLock s) [(a, nslots full pfx (length cs))] z /\
    keeps (Some (plug C (Node full a pfx cs))) (Some (plug C t')) (touched a (par_of C)).
Proof.
  intros Hc Hpr Hw' Hrep' Hperm Hocc -> -> Haid Hl.
  pose proof (upd_publish K fetch s C _ sF t' F _ Hc Hpr Hperm Hw' Hrep') as Hpub.
  destruct (tail_ok _ _ _ _ aid a (par_of C) _ _ z held Hpub Hl Haid eq_refl (nslots_pos _ _ _ _ _ _ _ (proj1 (sub_facts _ _ _ _ _ Hc)))) as [(Hbad & ->)|(s' & -> & Hno & Hu)]; [by left|].
  right. exists s'. split; [done|]. split; [done|]. split; [split|].
  - done.
  - apply gone_plug. intros o Ho. apply occ_cases in Ho as [->|(b & c & np0 & Hin & Ho)].
    + right. unfold oreg. simpl. rewrite heads_length. left.
    + left. by destruct (Hocc _ _ _ _ Hin Ho).
  - by eapply upd_disj_single.
  - apply keeps_plug.
    + apply touched_par. by eapply par_ne.
    + intros o Ho Ha. apply occ_cases in Ho as [->|(b & c & np0 & Hin & Ho)].
      * simpl in Ha. exfalso. apply Ha, touched_node.
      * split; [|apply (Hocc _ _ _ _ Hin Ho)]. intros Hpa. apply (Hocc _ _ _ _ Hin Ho).
        intros E. apply Hpa. rewrite E. apply touched_node.
Qed.

(** ** The 127th insertion: growing into a node-256 (update.go:362-391) *)

Lemma assoc_mid {A} (l r : list (N * A)) k x b : k ∉ map fst l -> k ∉ map fst r ->
  assoc b (l ++ (k, x) :: r) = if decide (b = k) then Some x else assoc b (l ++ r).
Proof.
  intros Hl Hr. destruct (decide (b = k)) as [->|Hne].
  - rewrite assoc_app_r by done. simpl. by rewrite N.eqb_refl.
  - destruct (decide (b ∈ map fst l)).
    + by rewrite !assoc_app_l.
    + rewrite !assoc_app_r by done. simpl. by rewrite (proj2 (N.eqb_neq _ _)).
Qed.

Lemma fin_grow s C a pfx cl cr k key v value aid raw held :
  core s (Some (plug C (Node false a pfx (cl ++ cr)))) ->
  K key -> fetch v = key -> v = value mod 2 ^ 55 ->
  (path_of C ++ pfx ++ [k]) `prefix_of` key -> k < 256 ->
  (forall b, b ∈ map fst cl -> b < k) -> (forall b, b ∈ map fst cr -> k < b) ->
  (aid < length (t_allocs s))%nat -> to_byte raw = default 0 (last (path_of C)) ->
  locks_inv (t_locks s) (lids2 a (par_of C) ++ held) ->
  finu_post false s (Some (plug C (Node false a pfx (cl ++ cr)))) held (t_rootLock s) (touched a (par_of C)) key v (length (cl ++ cr) + prefix_slots (length pfx))
    (do (n, dst, s1) <- allocate_node_with_prefix s aid 256 pfx;
      do _ <- sl_upto dst 256;
      let m1 := mwrite (t_mem s1) (sl_base dst) (replicate 256 0) in
      do src <- sl_from (Slice a (dlen a)) (prefix_slots (length pfx));
      do _ <- sl_upto src (length (cl ++ cr));
      do m2 <- sl_set m1 dst (N.to_nat k) (buildLeaf k value);
      do m3 <- scatter m2 dst (mread m2 (sl_base src) (length (cl ++ cr)));
      let w := buildNode (to_byte raw) n 256 (length pfx) in
      tail (pset (set_mem s1 m3) (ptr_of C) w) aid a (par_of C) (length (cl ++ cr) + prefix_slots (length pfx)) 1).
Proof.
  intros Hc Hk Hf Hv Hp Hk256 Hcl Hcr Haid Hraw Hl.
  set (t := Node false a pfx (cl ++ cr)) in *. set (ps := prefix_slots (length pfx)).
  destruct (sub_facts _ _ _ _ _ Hc) as (Hw & Hrep & Hreg).
  pose proof (sub_region _ _ _ _ _ _ _ _ Hc) as (Ha0 & Ha39 & Hfit & Hblk & Hnb).
  destruct (pfx_facts _ _ _ _ _ Hw) as [Hbp Hsz].
  assert (Hns : nslots false pfx (length (cl ++ cr)) = (length (cl ++ cr) + ps)%nat) by (unfold nslots, ncount, ps; lia).
  pose proof (nslots_pos _ _ _ _ _ _ _ Hw) as Hnspos.
  destruct (allocate_node_with_prefix_ok s aid 256 pfx _ (co_alloc _ _ _ _ Hc) Haid) as [->|(n & s1 & -> & Hal & Hpre)];
    [lia|done|apply Hsz; lia|done|]. cbn [bind].
  pose proof (prepd_alloc _ _ _ _ _ _ _ (prepd_refl _ _ _ _ Hc) Hal) as Hpr.
  pose proof (allocd_fits _ _ _ _ _ Hal ltac:(lia)) as (Hn0 & Hnfit & Hnblk).
  fold ps in Hnfit, Hpr, Hal |- *.
  pose proof (live_fresh_disj s _ s1 _ false a pfx (cl ++ cr) n (256 + ps) Hc Hpr Hreg ltac:(left) ltac:(lia) Hnspos) as Hd2.
  rewrite Hns in Hd2, Hfit.
  rewrite sl_upto_ok by (simpl; lia). cbn [bind sl_base].
  rewrite sl_from_ok by (simpl; lia). cbn [bind sl_base sl_len].
  rewrite sl_upto_ok by (simpl; lia). cbn [bind].
  rewrite sl_set_ok by (simpl; lia). cbn [bind sl_base]. rewrite N2Nat.id.
  set (m2 := mset (mwrite (t_mem s1) (n + N.of_nat ps) (replicate 256 0)) (n + N.of_nat ps + k) (buildLeaf k value)).
  assert (Hm2out : forall x, x ∉ seqN (n + N.of_nat ps) 256 -> mget m2 x = mget (t_mem s1) x).
  { intros x Hx. rewrite elem_of_seqN in Hx. unfold m2. rewrite mget_mset_ne by lia. apply mget_mwrite_out.
    rewrite replicate_length. lia. }
  assert (Hm2in : forall b, b < 256 -> mget m2 (n + N.of_nat ps + b) = if decide (b = k) then buildLeaf k value else 0).
  { intros b Hb. unfold m2. rewrite mget_mset by (by apply buildLeaf_lt64). destruct (decide (b = k)) as [->|Hne].
    - by rewrite decide_True by done.
    - rewrite decide_False by lia. rewrite <- (N2Nat.id b). apply (mget_mwrite_in _ _ _ _ 0). apply lookup_replicate. split; [done|lia]. }
  pose proof Hrep as Hrep0. apply rep_node_iff in Hrep0 as [[Hpf Hnm] _]. fold ps in Hnm. rewrite bws_length in Hnm.
  pose proof Hw as Hw0. apply wf_node_iff in Hw0 as (Hs & Hlen & Hex & Hch).
  assert (Hsrc : mread m2 (a + N.of_nat ps) (length (cl ++ cr)) = map snd (bws (cl ++ cr))).
  { rewrite <- Hnm. apply mread_ext. intros i Hi. rewrite Hm2out by (rewrite elem_of_seqN; lia).
    apply (pr_mem _ _ _ _ Hpr). rewrite cover_cons, app_nil_r. cbn [fst snd]. rewrite elem_of_seqN. lia. }
  rewrite Hsrc.
  destruct (scatter_ok (bws (cl ++ cr)) m2 (n + N.of_nat ps) (dlen n - N.of_nat ps)) as (m3 & -> & Hin3 & Hout3).
  { rewrite bws_fst. by apply sbytes_NoDup. }
  { apply Forall_forall. intros [b w] Hin. unfold bws in Hin. apply elem_of_list_fmap in Hin as ([b' c] & [= -> ->] & Hin).
    destruct (child_enc K fetch s _ _ _ _ _ _ b' c (co_alloc _ _ _ _ Hc) Hreg Hw Hin) as (Hb' & Hby & _). simpl. split_and!; [done|done|by apply enc_lt64]. }
  { lia. }
  cbn [bind].
  assert (Hout : forall x, x ∉ cover [(n, (256 + ps)%nat)] -> mget m3 x = mget (t_mem s1) x).
  { intros x Hx. rewrite cover_cons, app_nil_r in Hx. cbn [fst snd] in Hx. rewrite elem_of_seqN in Hx.
    rewrite Hout3 by (rewrite elem_of_seqN; lia). apply Hm2out. rewrite elem_of_seqN. lia. }
  pose proof (prepd_mem _ _ _ _ _ Hpr Hout) as Hpr3.
  set (t' := Node true n pfx (cl ++ (k, Leaf key v) :: cr)).
  assert (Hnl : k ∉ map fst cl) by (intros Hin%Hcl; lia).
  assert (Hnr : k ∉ map fst cr) by (intros Hin%Hcr; lia).
  assert (Hw' : wf (path_of C) t').
  { apply wf_node_iff. split; [|split; [|split]].
    - by apply sbytes_insert.
    - done.
    - done.
    - apply Forall_app in Hch as [Hch1 Hch2]. apply Forall_app. split; [done|]. constructor; [|done]. simpl.
      constructor; try done. subst v. by apply N.mod_lt. }
  assert (Hrep' : rep m3 t').
  { pose proof (rep_kids _ _ _ _ _ _ _ _ Hc Hpr3 Hreg Hrep) as Hkids. change (t_mem (set_mem s1 m3)) with m3 in Hkids.
    apply rep_node_iff. split.
    - split.
      + eapply prefix_at_agree; [exact Hpre|]. intros x Hx. fold ps in Hx. rewrite elem_of_seqN in Hx.
        rewrite Hout3 by (rewrite elem_of_seqN; lia). apply Hm2out. rewrite elem_of_seqN. lia.
      + fold ps. intros b Hb. rewrite Hin3 by done. rewrite Hm2in by done.
        rewrite !assoc_bws, assoc_mid by done. destruct (decide (b = k)) as [->|Hne].
        * rewrite (proj2 (assoc_None k (cl ++ cr))) by (rewrite map_app, not_elem_of_app; done).
          simpl. subst v. by rewrite buildLeaf_trunc.
        * destruct (assoc b (cl ++ cr)); done.
    - apply Forall_app in Hkids as [Hk1 Hk2]. apply Forall_app. split; [done|]. constructor; [constructor|done]. }
  assert (Hword : hole_word C t' = buildNode (to_byte raw) n 256 (length pfx)).
  { unfold hole_word, t'. rewrite hole_byte_last. by rewrite Hraw. }
  destruct (fin_replace s C false a pfx (cl ++ cr) (set_mem s1 m3) _ t' aid held 1 (length (cl ++ cr) + ps)
    (buildNode (to_byte raw) n 256 (length pfx)) Hc Hpr3 Hw' Hrep') as [(Hbad & ->)|(s' & -> & Hno & Hfin & Hkeep)].
  - unfold t'. rewrite !regs_node, !bind_app. 
    replace (nslots true pfx (length (cl ++ (k, Leaf key v) :: cr))) with (256 + ps)%nat by (unfold nslots, ncount; fold ps; lia).
    simpl. constructor.
  - intros b c np0 o Hin Ho.
    assert (Hin' : (b, c) ∈ cl ++ (k, Leaf key v) :: cr).
    { apply elem_of_app in Hin. apply elem_of_app. destruct Hin; [by left|by right; right]. }
    split; [intros Hne; by eapply occ_into|by eapply occ_into_weak].
  - by rewrite Hns.
  - done.
  - done.
  - done.
  - done.
  - exists (Some (plug C t')), [(a, nslots false pfx (length (cl ++ cr)))], 1%Z. split; [by constructor|]. split; [done|]. split; [done|].
    split; [apply grows_kids; intros c; rewrite !elem_of_app, elem_of_cons; naive_solver|]. left. split; [|done]. unfold t. eapply not_stored_add; [apply Hc|done|by rewrite map_app, not_elem_of_app|].
    simpl. rewrite !contents_plug_perm. unfold t'. rewrite !contents_node, !bind_app. simpl. solve_Permutation.
Qed.

Lemma occ_under p np par full a pfx cs b c o : (b, c) ∈ cs ->
  (forall np' par', occ (p ++ pfx ++ [b]) np' par' c o) -> occ p np par (Node full a pfx cs) o.
Proof. intros Hin Ho. apply elem_of_list_split in Hin as (l & r & ->). by apply occ_child. Qed.

Lemma occ_under_weak p np par full a pfx cs b c o : (b, c) ∈ cs ->
  (forall np' par', exists o', occ (p ++ pfx ++ [b]) np' par' c o' /\ omoved o o') ->
  exists o', occ p np par (Node full a pfx cs) o' /\ omoved o o'.
Proof.
  intros Hin Ho. apply elem_of_list_split in Hin as (l & r & ->).
  destruct (Ho (PSlot (slot_of full a pfx b (length l))) a) as (o' & Ho' & Hs). exists o'. split; [by apply occ_child|done].
Qed.

(** ** Splitting the prefix of a node (update.go:306-327) *)

(** A node's child words, copied elsewhere. *)
Lemma node_mem_copy m m' full a a' pfx pfx' ws : node_mem m full a pfx ws -> prefix_at m' a' pfx' ->
  (forall j, (j < ncount full (length ws))%nat ->
    mget m' (a' + N.of_nat (prefix_slots (length pfx')) + N.of_nat j) = mget m (a + N.of_nat (prefix_slots (length pfx)) + N.of_nat j)) ->
  node_mem m' full a' pfx' ws.
Proof.
  intros [_ Hm] Hp Hc. split; [done|]. destruct full; simpl in Hc.
  - intros b Hb. rewrite <- Hm by done. rewrite <- (N2Nat.id b). apply Hc. lia.
  - rewrite <- Hm. apply list_eq. intros i. destruct (decide (i < length ws)%nat).
    + rewrite !mread_lookup by done. f_equal. by apply Hc.
    + by rewrite !mread_lookup_ge by lia.
Qed.

Lemma grows_split C full a pa b pb cs n k key v u :
  grows (Some (plug C (Node full a (pa ++ b :: pb) cs))) (Some (plug C (Node false n pa (sort2 (k, Leaf key v) (b, Node full u pb cs))))).
Proof.
  assert (Hin : (b, Node full u pb cs) ∈ sort2 (k, Leaf key v) (b, Node full u pb cs)) by (rewrite sort2_perm; right; left).
  apply grows_plug. intros R HR. inversion HR as [? ? ? ? b' c Hc|? ? ? ? b' c R' Hc He]; subst; rewrite <- app_assoc; simpl.
  - eapply edge_below; [exact Hin|]. by eapply edge_here.
  - eapply edge_below; [exact Hin|]. by eapply edge_below.
Qed.

Lemma fin_split sc s C full a pa b pb cs k key v value aid raw held :
  scanned sc s -> core s (Some (plug C (Node full a (pa ++ b :: pb) cs))) ->
  K key -> fetch v = key -> v = value mod 2 ^ 55 ->
  (path_of C ++ pa ++ [k]) `prefix_of` key -> k <> b ->
  (aid < length (t_allocs s))%nat -> to_byte raw = default 0 (last (path_of C)) ->
  locks_inv (t_locks s) (lids2 a (par_of C) ++ held) ->
  finu_post false s (Some (plug C (Node full a (pa ++ b :: pb) cs))) held (t_rootLock s) (touched a (par_of C)) key v
    (ncount full (length cs) + prefix_slots (length (pa ++ b :: pb)))
    (do (updated, dst, s1) <- alloc_as (scan1 sc) s aid (ncount full (length cs)) pb;
     do src <- sl_from (Slice a (dlen a)) (prefix_slots (length (pa ++ b :: pb)));
     do m1 <- sl_copy (t_mem s1) dst src 0 (ncount full (length cs));
     do (n, d, s2) <- alloc_as (scan2 sc) (set_mem s1 m1) aid 2 pa;
     do m2 <- add_sorted_children (t_mem s2) d (buildLeaf k value) (buildNode b updated (ncount full (length cs)) (length pb));
     tail (pset (set_mem s2 m2) (ptr_of C) (buildNode (to_byte raw) n 2 (length pa))) aid a (par_of C)
       (ncount full (length cs) + prefix_slots (length (pa ++ b :: pb))) 1).
Proof.
  intros Hsc Hc Hk Hf Hv Hp Hkb Haid Hraw Hl.
  set (pfx := pa ++ b :: pb) in *. set (t := Node full a pfx cs) in *.
  set (ps := prefix_slots (length pfx)). set (cnt := ncount full (length cs)).
  destruct (sub_facts _ _ _ _ _ Hc) as (Hw & Hrep & Hreg).
  pose proof (sub_region _ _ _ _ _ _ _ _ Hc) as (Ha0 & Ha39 & Hfit & Hblk & Hnb).
  destruct (pfx_facts _ _ _ _ _ Hw) as [Hbp Hsz].
  assert (Hns : nslots full pfx (length cs) = (cnt + ps)%nat) by (unfold nslots, cnt, ps; lia).
  pose proof (nslots_pos _ _ _ _ _ _ _ Hw) as Hnspos.
  pose proof Hw as Hw0. apply wf_node_iff in Hw0 as (Hs & Hlen & Hex & Hch).
  assert (Hcnt : (1 <= cnt <= 256)%nat) by (unfold cnt, ncount; destruct full; lia).
  assert (Hbb : bytes pb /\ b < 256 /\ bytes pa).
  { unfold pfx, bytes in Hbp. rewrite Forall_app, Forall_cons in Hbp. naive_solver. }
  destruct Hbb as (Hbpb & Hb256 & Hbpa).
  assert (Hlp : length pfx = (length pa + 1 + length pb)%nat) by (unfold pfx; rewrite app_length; simpl; lia).
  destruct (key_facts key _ Hk Hp) as [Hbq _].
  assert (Hk256 : k < 256).
  { unfold bytes in Hbq. rewrite !Forall_app, Forall_singleton in Hbq. naive_solver. }
  destruct (alloc_as_ok (scan1 sc) s aid cnt pb _ (proj1 Hsc) (co_alloc _ _ _ _ Hc) Haid) as [->|(u & s1 & -> & Hal & Hpre)];
    [lia|done|apply Hsz; lia|done|]. cbn [bind].
  pose proof (prepd_alloc _ _ _ _ _ _ _ (prepd_refl _ _ _ _ Hc) Hal) as Hpr.
  pose proof (allocd_fits _ _ _ _ _ Hal ltac:(lia)) as (Hu0 & Hufit & Hublk).
  set (pu := prefix_slots (length pb)) in *.
  pose proof (live_fresh_disj s _ s1 _ full a pfx cs u (cnt + pu) Hc Hpr Hreg ltac:(left) ltac:(lia) Hnspos) as Hd1.
  rewrite Hns in Hd1, Hfit.
  rewrite sl_from_ok by (simpl; lia). cbn [bind sl_base sl_len].
  destruct (sl_copy_ok (t_mem s1) (Slice (u + N.of_nat pu) (dlen u - N.of_nat pu)) (Slice (a + N.of_nat ps) (dlen a - N.of_nat ps)) 0 cnt)
    as (m1 & -> & Hc1 & Ho1); [simpl; lia|simpl; lia|]. cbn [bind sl_base] in *.
  assert (Hpr1 : prepd s (Some (plug C t)) (set_mem s1 m1) [(u, (cnt + pu)%nat)]).
  { apply prepd_mem; [done|]. intros x Hx. rewrite cover_cons, app_nil_r in Hx. cbn [fst snd] in Hx.
    rewrite elem_of_seqN in Hx. apply Ho1. rewrite elem_of_seqN. lia. }
  assert (Haid1 : (aid < length (t_allocs (set_mem s1 m1)))%nat).
  { rewrite (st_nallocs _ _ (pr_same _ _ _ _ Hpr1)). done. }
  assert (Hsc1 : seen (scan2 sc) (set_mem s1 m1)).
  { intros l El r Hr. apply (proj2 Hsc l El). by rewrite <- (st_resv _ _ (pr_same _ _ _ _ Hpr1)). }
  destruct (alloc_as_ok (scan2 sc) (set_mem s1 m1) aid 2 pa _ Hsc1 (pr_inv _ _ _ _ Hpr1) Haid1) as [->|(n & s2 & -> & Hal2 & Hpre2)];
    [lia|done|apply Hsz; lia|done|]. cbn [bind].
  pose proof (prepd_alloc _ _ _ _ _ _ _ Hpr1 Hal2) as Hpr2.
  pose proof (allocd_fits _ _ _ _ _ Hal2 ltac:(lia)) as (Hn0 & Hnfit & Hnblk).
  set (pn := prefix_slots (length pa)) in *.
  assert (Hd2 : forall x, x ∈ seqN u (cnt + pu) -> x ∉ seqN n (2 + pn)).
  { intros x Hx Hx'. pose proof (ai_nodup _ _ (pr_inv _ _ _ _ Hpr2)) as Hn. rewrite !cover_app in Hn.
    rewrite (cover_cons (n, _)), (cover_cons (u, _)) in Hn. cbn [fst snd] in Hn. rewrite <- !app_assoc in Hn.
    apply NoDup_app in Hn as (_ & Hn & _). apply (Hn x Hx'). apply elem_of_app. by left. }
  destruct (add_sorted_children_ok (t_mem s2) (Slice (n + N.of_nat pn) (dlen n - N.of_nat pn)) (k, buildLeaf k value)
    (b, buildNode b u cnt (length pb))) as (m2 & E2 & Hin2 & Hout2).
  { simpl. by rewrite buildLeaf_byte. }
  { simpl. apply buildNode_byte; [done| |lia]. eapply addr_small; [exact Hublk|]. apply (ai_nb _ _ (pr_inv _ _ _ _ Hpr)). }
  { by apply buildLeaf_lt64. }
  { by apply buildNode_lt64. }
  { simpl. lia. }
  cbn [fst snd sl_base] in *. rewrite E2. cbn [bind]. clear E2.
  set (F := [(n, (2 + pn)%nat); (u, (cnt + pu)%nat)]) in *.
  assert (Hpr3 : prepd s (Some (plug C t)) (set_mem s2 m2) F).
  { apply prepd_mem; [done|]. intros x Hx. unfold F in Hx. rewrite cover_cons in Hx. cbn [fst snd] in Hx.
    rewrite not_elem_of_app, elem_of_seqN in Hx. apply Hout2. rewrite elem_of_seqN. lia. }
  assert (Hm2 : forall x, x ∈ seqN u (cnt + pu) -> mget m2 x = mget m1 x).
  { intros x Hx. pose proof (Hd2 x Hx) as Hx'. rewrite Hout2.
    - apply (ac_mem _ _ _ _ _ Hal2). apply Hx'.
    - rewrite elem_of_seqN in *. lia. }
  set (tu := Node full u pb cs).
  set (t' := Node false n pa (sort2 (k, Leaf key v) (b, tu))).
  assert (Hw' : wf (path_of C) t').
  { apply wf_node_iff. split; [|split; [|split]].
    - by apply sort2_sbytes.
    - rewrite sort2_length. lia.
    - exists key, k. done.
    - rewrite sort2_perm. constructor; [|constructor; [|done]]; simpl.
      + constructor; try done. subst v. by apply N.mod_lt.
      + unfold tu. apply wf_node_iff. unfold pfx in Hex, Hch. split; [done|]. split; [done|]. split.
        * destruct Hex as (k0 & b0 & Hk0 & Hq0). exists k0, b0. split; [done|].
          by rewrite <- !app_assoc in *.
        * eapply Forall_impl; [exact Hch|]. intros c Hcw. simpl in *. by rewrite <- !app_assoc in *. }
  assert (Hrep' : rep m2 t').
  { pose proof (rep_kids _ _ _ _ _ _ _ _ Hc Hpr3 Hreg Hrep) as Hkids. change (t_mem (set_mem s2 m2)) with m2 in Hkids.
    apply rep_node_iff in Hrep as [Hnm _]. apply rep_node_iff. split.
    - split.
      + eapply prefix_at_agree; [exact Hpre2|]. intros x Hx. fold pn in Hx. rewrite elem_of_seqN in Hx.
        apply Hout2. rewrite elem_of_seqN. lia.
      + fold pn. rewrite bws_length, sort2_length, Hin2. unfold sort2, bws. simpl.
        subst v. destruct (k <? b); simpl; rewrite ?buildLeaf_trunc; done.
    - rewrite sort2_perm. constructor; [constructor|]. constructor; [|done]. simpl. apply rep_node_iff. split; [|done].
      eapply node_mem_copy; [exact Hnm| |].
      + eapply prefix_at_agree; [exact Hpre|]. fold pu. intros x Hx. rewrite elem_of_seqN in Hx.
        rewrite Hm2 by (rewrite elem_of_seqN; lia). apply Ho1. rewrite elem_of_seqN. lia.
      + fold ps pu. intros j Hj. rewrite bws_length in Hj. fold cnt in Hj. rewrite Hm2 by (rewrite elem_of_seqN; lia).
        rewrite Hc1 by done. rewrite (pr_mem _ _ _ _ Hpr); [f_equal; lia|].
        rewrite cover_cons, app_nil_r. cbn [fst snd]. rewrite elem_of_seqN. lia. }
  assert (Hword : buildNode (to_byte raw) n 2 (length pa) = hole_word C t').
  { unfold hole_word, t'. rewrite hole_byte_last. rewrite Hraw. simpl. by rewrite sort2_length. }
  destruct (fin_replace s C full a pfx cs (set_mem s2 m2) F t' aid held 1 (cnt + ps)
    (buildNode (to_byte raw) n 2 (length pa)) Hc Hpr3 Hw' Hrep')
    with (6 := Hl) (5 := Haid) (4 := Hword) as [(Hbad & ->)|(s' & -> & Hno & Hfin & Hkeep)].
  - unfold t', F. rewrite !regs_node. rewrite (sort2_perm (k, Leaf key v) (b, tu)). rewrite !bind_cons. unfold tu. cbn [snd]. rewrite regs_node.
    cbn [length]. change (mbind _ []) with (@nil (N * nat)). rewrite app_nil_r. simpl (regs (Leaf _ _)). rewrite Hns.
    replace (nslots false pa 2) with (2 + pn)%nat by (unfold nslots, ncount, pn; lia).
    replace (nslots full pb (length cs)) with (cnt + pu)%nat by (unfold nslots, pu, cnt; lia). solve_Permutation.
  - intros b0 c np0 o Hin Ho. unfold t', occ_at. split.
    + intros Hne. eapply (occ_under _ _ _ _ _ _ _ b tu); [rewrite sort2_perm; right; left|]. intros np' par'.
      unfold tu. eapply occ_into; [exact Hin| |exact Hne]. unfold pfx in Ho. rewrite <- !app_assoc in *. exact Ho.
    + eapply (occ_under_weak _ _ _ _ _ _ _ b tu); [rewrite sort2_perm; right; left|]. intros np' par'.
      unfold tu. eapply occ_into_weak; [exact Hin|]. unfold pfx in Ho. rewrite <- !app_assoc in *. exact Ho.
  - by rewrite Hns.
  - done.
  - exists (Some (plug C t')), [(a, nslots full pfx (length cs))], 1%Z. split; [by constructor|]. split; [done|]. split; [done|].
    split; [by apply grows_split|]. left. split; [|done]. split.
    + intros w Hin. simpl in Hin. eapply (contents_under _ _ []) in Hin; [|apply Hc|].
      * unfold t in Hin. rewrite contents_node in Hin. apply elem_of_list_bind in Hin as ([b0 c] & Hin & Hc').
        destruct (child_wf _ _ _ _ _ _ _ _ _ Hw Hc') as [Hw1 _].
        destruct (wf_contents K fetch _ _ _ _ Hw1 Hin) as (Hp' & _).
        assert (Hp2 : (path_of C ++ pa ++ [b]) `prefix_of` key).
        { etrans; [|exact Hp']. exists (pb ++ [b0]). unfold pfx. by rewrite <- !app_assoc. }
        apply prefix_next in Hp, Hp2. congruence.
      * simpl. etrans; [|exact Hp]. apply prefix_app_r. done.
    + simpl. rewrite !contents_plug_perm. unfold t', t, tu. rewrite !contents_node.
      rewrite (sort2_perm (k, Leaf key v)). rewrite !bind_cons. cbn [snd]. rewrite contents_node.
      change (mbind _ []) with (@nil (list N * N)). rewrite app_nil_r. done.
Qed.

(** ** Operations that write one slot *)

Lemma close_ok s T sM T' G rl e d node parent held : upd s T sM T' G (t_locks s) rl e d ->
  locks_inv (t_locks s) (lids2 node parent ++ held) ->
  exists l, unlock_nodes2 (t_locks sM) node parent = Ok l /\ upd s T (set_locks sM l) T' G l rl e d /\ locks_inv l held.
Proof.
  intros Hu Hl. destruct (unlock_nodes2_ok _ _ _ _ Hl) as (l & E & Hl').
  exists l. rewrite (up_locks _ _ _ _ _ _ _ _ _ _ _ Hu). split; [done|]. split; [by eapply upd_locks|done].
Qed.

Lemma leaf_publish s C full a pfx cl k k0 w cr s1 F t' :
  core s (Some (plug C (Node full a pfx (cl ++ (k, Leaf k0 w) :: cr)))) ->
  prepd s (Some (plug C (Node full a pfx (cl ++ (k, Leaf k0 w) :: cr)))) s1 F ->
  F ≡ₚ regs t' -> wf (path_of C ++ pfx ++ [k]) t' -> rep (t_mem s1) t' ->
  let T := Some (plug C (Node full a pfx (cl ++ (k, Leaf k0 w) :: cr))) in
  let T' := Some (plug C (Node full a pfx (cl ++ (k, t') :: cr))) in
  upd s T (pset s1 (PSlot (slot_of full a pfx k (length cl))) (enc k t')) T' [] (t_locks s) (t_rootLock s) (t_epoch s) 0 /\
  keeps T T' (touched a (par_of C)) /\ gone T T' [].
Proof.
  intros Hc Hp HF Hw Hr T T'. set (C' := Frame full a pfx cl k cr :: C).
  split; [|split].
  - apply (upd_publish K fetch s C' (Leaf k0 w) s1 t' F [] Hc Hp); [simpl; by rewrite app_nil_r|done|done].
  - apply (keeps_plug C' (Leaf k0 w) t').
    + intros _. apply touched_node.
    + intros o Ho. by apply occ_leaf in Ho.
  - apply (gone_plug C' (Leaf k0 w) t'). intros o Ho. by apply occ_leaf in Ho.
Qed.

(** The two ways a leaf slot can look when the operation is finalized. *)
Definition leaf_slot (dirty : bool) (s : tree) (full : bool) (a : N) (pfx : list N) (cs : list (N * trie)) (k w x : N) : Prop :=
  (exists cl cr, cs = cl ++ (k, Leaf (fetch w) w) :: cr /\ x = slot_of full a pfx k (length cl)) \/
  (dirty = true /\ mget (t_mem s) x <> buildLeaf k w /\ a <= x < a + N.of_nat (nslots full pfx (length cs))).

Lemma leaf_match s C full a pfx cs k w x dirty key v value aid held :
  core s (Some (plug C (Node full a pfx cs))) ->
  leaf_slot dirty s full a pfx cs k w x -> key = fetch w ->
  K key -> fetch v = key -> v = value mod 2 ^ 55 -> (path_of C ++ pfx ++ [k]) `prefix_of` key -> k < 256 ->
  (aid < length (t_allocs s))%nat -> locks_inv (t_locks s) (lids2 a (par_of C) ++ held) ->
  finu_post dirty s (Some (plug C (Node full a pfx cs))) held (t_rootLock s) (touched a (par_of C)) key v 0
    (let '(u, s1) := pcas s (PSlot x) (buildLeaf k w) (buildLeaf k value) in
     do s2 <- (do l <- unlock_nodes2 (t_locks s1) a (par_of C); Ok (set_locks s1 l));
     Ok (u, s2)).
Proof.
  intros Hc Hx -> Hk Hf Hv Hp Hk256 Haid Hl. unfold pcas. simpl pget.
  destruct Hx as [(cl & cr & -> & ->)|(-> & Hne & Hx)].
  - pose proof (ptr_word _ _ _ (Frame full a pfx cl k cr :: C) (Leaf (fetch w) w) Hc) as Hw.
    simpl in Hw. unfold hole_word in Hw. simpl in Hw. change (f_slot _) with (slot_of full a pfx k (length cl)) in Hw.
    rewrite Hw, N.eqb_refl.
    destruct (leaf_publish s C full a pfx cl k (fetch w) w cr s [] (Leaf (fetch w) v) Hc (prepd_refl _ _ _ _ Hc)) as (Hu & Hkp & Hg);
      [done| |constructor|].
    { constructor; try done. subst v. by apply N.mod_lt. }
    change (enc k (Leaf (fetch w) v)) with (buildLeaf k v) in Hu. replace (buildLeaf k v) with (buildLeaf k value) in Hu by (subst v; by rewrite buildLeaf_trunc).
    destruct (close_ok _ _ _ _ _ _ _ _ _ _ _ Hu Hl) as (l & E & Hu' & Hl'). rewrite E. cbn [bind].
    eexists _, [], 0%Z. split; [constructor|]. split; [split|split].
    + exists l, (t_epoch s). split; [exact Hu'|]. auto.
    + done.
    + intros y Hy. by apply elem_of_nil in Hy.
    + done.
    + split; [apply (grows_plug (Frame full a pfx cl k cr :: C)); intros R HR; by apply edge_leaf in HR|].
      right. split; [|done]. exists w, (mbind (fun c => contents c.2) cl ++ mbind (fun c => contents c.2) cr ++ cleft C ++ cright C).
      simpl. rewrite !contents_plug_perm, !contents_node, !bind_app, !bind_cons. simpl (contents _). split; solve_Permutation.
  - rewrite (proj2 (N.eqb_neq _ _)) by done.
    pose proof (prepd_upd _ _ _ _ _ _ Hc (prepd_refl _ _ _ _ Hc)) as Hu.
    destruct (close_ok _ _ _ _ _ _ _ _ _ _ _ Hu Hl) as (l & -> & Hu' & Hl'). cbn [bind].
    split; [done|]. split.
    + exists l, (t_epoch s). auto.
    + apply gone_refl.
    + intros y Hy. by apply elem_of_nil in Hy.
Qed.

(** ** Splitting a leaf *)

Lemma split_keys (q key fk : list N) : K key -> K fk -> key <> fk -> q `prefix_of` key -> q `prefix_of` fk ->
  exists r x y ra rb, key = q ++ r ++ x :: ra /\ fk = q ++ r ++ y :: rb /\ x <> y /\
    common_prefix (drop (length q) key) (drop (length q) fk) = length r.
Proof.
  intros Hk Hf Hne [k' ->] [f' ->]. rewrite !drop_app.
  assert (H : forall k' f' q, K (q ++ k') -> K (q ++ f') -> k' <> f' ->
    exists r x y ra rb, k' = r ++ x :: ra /\ f' = r ++ y :: rb /\ x <> y /\ common_prefix k' f' = length r).
  { clear -HK. intros k1. induction k1 as [|x k' IH]; intros f' q Hk Hf Hne.
    - exfalso. rewrite app_nil_r in Hk. apply Hne.
      assert (q = q ++ f') as E by (eapply (uv_free K HK); [done..|by apply prefix_app_r]).
      rewrite <- (app_nil_r q) in E at 1. by apply app_inv_head in E.
    - destruct f' as [|y f'].
      + exfalso. rewrite app_nil_r in Hf.
        assert (q = q ++ x :: k') as E by (eapply (uv_free K HK); [done..|by apply prefix_app_r]).
        rewrite <- (app_nil_r q) in E at 1. by apply app_inv_head in E.
      + simpl. destruct (N.eqb_spec x y) as [->|Hxy].
        * destruct (IH f' (q ++ [y])) as (r & x' & y' & ra & rb & -> & -> & Hne' & E).
          { by rewrite <- app_assoc. }
          { by rewrite <- app_assoc. }
          { congruence. }
          exists (y :: r), x', y', ra, rb. simpl. by rewrite E.
        * by exists [], x, y, k', f'. }
  destruct (H k' f' q Hk Hf) as (r & x & y & ra & rb & -> & -> & Hxy & E); [congruence|].
  by exists r, x, y, ra, rb.
Qed.

(** A new node with two leaves. *)
Lemma two_leaves s T s0 F0 aid q (r : list N) x y key v value fk w ra rb :
  prepd s T s0 F0 -> (aid < length (t_allocs s))%nat ->
  K key -> fetch v = key -> v = value mod 2 ^ 55 -> K fk -> fetch w = fk -> w < vlim ->
  key = q ++ r ++ x :: ra -> fk = q ++ r ++ y :: rb -> x <> y -> forall k0,
  k0 < 256 ->
  allocate_node_with_prefix s0 aid 2 r = Panic OutOfBlocks \/
  exists n d s1 m, allocate_node_with_prefix s0 aid 2 r = Ok (n, d, s1) /\
    add_sorted_children (t_mem s1) d (buildLeaf x value) (updateLeafKey (buildLeaf k0 w) y) = Ok m /\
    let t' := Node false n r (sort2 (x, Leaf key v) (y, Leaf fk w)) in
    prepd s T (set_mem s1 m) (regs t' ++ F0) /\ wf q t' /\ rep m t' /\ enc (k0) t' = buildNode k0 n 2 (length r).
Proof.
  intros Hp Haid Hk Hv Hv' Hfk Hw Hwl Ek Ef Hxy k0 Hk0.
  assert (Haid0 : (aid < length (t_allocs s0))%nat) by by rewrite (st_nallocs _ _ (pr_same _ _ _ _ Hp)).
  assert (Hby : bytes r /\ x < 256 /\ y < 256).
  { pose proof (uv_bytes K HK _ Hk) as H1. pose proof (uv_bytes K HK _ Hfk) as H2. unfold bytes in *.
    rewrite Ek in H1. rewrite Ef in H2. rewrite !Forall_app, Forall_cons in H1, H2. naive_solver. }
  destruct Hby as (Hr & Hx & Hy).
  assert (Hsz : N.of_nat (2 + prefix_slots (length r)) <= 262142).
  { apply (key_facts key (q ++ r)); [done| |lia|rewrite app_length; lia]. rewrite Ek. exists (x :: ra). by rewrite <- app_assoc. }
  destruct (allocate_node_with_prefix_ok s0 aid 2 r _ (pr_inv _ _ _ _ Hp) Haid0) as [->|(n & s1 & -> & Hal & Hpre)];
    [lia|done|done|by left|]. right.
  pose proof (prepd_alloc _ _ _ _ _ _ _ Hp Hal) as Hp1.
  pose proof (allocd_fits _ _ _ _ _ Hal ltac:(lia)) as (Hn0 & Hnfit & Hnblk).
  set (pn := prefix_slots (length r)) in *.
  destruct (add_sorted_children_ok (t_mem s1) (Slice (n + N.of_nat pn) (dlen n - N.of_nat pn)) (x, buildLeaf x value)
    (y, buildLeaf y w)) as (m & E & Hin & Hout).
  { simpl. by rewrite buildLeaf_byte. }
  { simpl. by rewrite buildLeaf_byte. }
  { by apply buildLeaf_lt64. }
  { by apply buildLeaf_lt64. }
  { simpl. lia. }
  cbn [fst snd sl_base] in *.
  eexists n, _, s1, m. split; [done|]. rewrite updateLeafKey_buildLeaf by done. split; [exact E|]. set (t' := Node false n r _).
  assert (Hrg : regs t' = [(n, (2 + pn)%nat)]).
  { unfold t'. rewrite regs_node. rewrite sort2_length.
    replace (nslots false r 2) with (2 + pn)%nat by (unfold nslots, ncount, pn; lia). f_equal.
    unfold sort2; by destruct (_ <? _). }
  split; [|split; [|split]].
  - rewrite Hrg. apply prepd_mem; [done|]. intros z Hz. simpl in Hz. rewrite cover_cons in Hz. cbn [fst snd] in Hz.
    rewrite not_elem_of_app, elem_of_seqN in Hz. apply Hout. rewrite elem_of_seqN. lia.
  - apply wf_node_iff. split; [|split; [|split]].
    + by apply sort2_sbytes.
    + rewrite sort2_length. lia.
    + exists key, x. split; [done|]. rewrite Ek. exists ra. by rewrite <- !app_assoc.
    + rewrite sort2_perm. constructor; [|constructor; [|done]]; simpl.
      * constructor; try done; [|subst v; by apply N.mod_lt]. rewrite Ek. exists ra. by rewrite <- !app_assoc.
      * constructor; try done. rewrite Ef. exists rb. by rewrite <- !app_assoc.
  - apply rep_node_iff. split.
    + split.
      * eapply prefix_at_agree; [exact Hpre|]. intros z Hz. fold pn in Hz. rewrite elem_of_seqN in Hz.
        apply Hout. rewrite elem_of_seqN. lia.
      * fold pn. rewrite bws_length, sort2_length, Hin. unfold sort2, bws. simpl.
        subst v. destruct (x <? y); simpl; rewrite ?buildLeaf_trunc; done.
    + rewrite sort2_perm. constructor; [constructor|]. constructor; [constructor|done].
  - unfold t'. simpl. by rewrite sort2_length.
Qed.

Lemma leaf_split s C full a pfx cs k w x dirty key v value fk aid held :
  core s (Some (plug C (Node full a pfx cs))) ->
  leaf_slot dirty s full a pfx cs k w x -> w < vlim -> fk = fetch w -> K fk -> key <> fk ->
  K key -> fetch v = key -> v = value mod 2 ^ 55 ->
  (path_of C ++ pfx ++ [k]) `prefix_of` key -> (path_of C ++ pfx ++ [k]) `prefix_of` fk -> k < 256 ->
  (aid < length (t_allocs s))%nat -> locks_inv (t_locks s) (lids2 a (par_of C) ++ held) ->
  forall d1, d1 = (length (path_of C) + length pfx + 1)%nat ->
  finu_post dirty s (Some (plug C (Node full a pfx cs))) held (t_rootLock s) (touched a (par_of C)) key v 0
    (let pl := common_prefix (drop d1 key) (drop d1 fk) in
     do ka <- key_at key (d1 + pl);
     do kb <- key_at fk (d1 + pl);
     do (n, d, s1) <- allocate_node_with_prefix s aid 2 (take pl (drop d1 key));
     do m <- add_sorted_children (t_mem s1) d (buildLeaf ka value) (updateLeafKey (buildLeaf k w) kb);
     let '(u, s2) := pcas (set_mem s1 m) (PSlot x) (buildLeaf k w) (buildNode k n 2 pl) in
     do s3 <- count_if u s2 aid;
     do s4 <- (do l <- unlock_nodes2 (t_locks s3) a (par_of C); Ok (set_locks s3 l));
     Ok (u, s4)).
Proof.
  intros Hc Hx Hwl Hfw Hfk Hne Hk Hv Hv' Hp Hpf Hk256 Haid Hl d1 Ed1.
  set (q := path_of C ++ pfx ++ [k]) in *.
  assert (Hq : d1 = length q) by (unfold q; rewrite !app_length; simpl; lia). rewrite Hq.
  destruct (split_keys q key fk Hk Hfk Hne Hp Hpf) as (r & xa & xb & ra & rb & Ek & Ef & Hxy & Epl).
  rewrite Epl. cbv zeta. unfold key_at.
  replace (key !! (length q + length r)%nat) with (Some xa).
  2:{ rewrite Ek, lookup_app_r, lookup_app_r by lia. by replace (length q + length r - length q - length r)%nat with 0%nat by lia. }
  replace (fk !! (length q + length r)%nat) with (Some xb).
  2:{ rewrite Ef, lookup_app_r, lookup_app_r by lia. by replace (length q + length r - length q - length r)%nat with 0%nat by lia. }
  cbn [bind].
  replace (take (length r) (drop (length q) key)) with r by (rewrite Ek, drop_app, take_app; done).
  destruct (two_leaves s _ s [] aid q r xa xb key v value fk w ra rb (prepd_refl _ _ _ _ Hc) Haid Hk Hv Hv' Hfk (eq_sym Hfw) Hwl Ek Ef Hxy k Hk256)
    as [->|(n & d & s1 & m & -> & E & Hp' & Hw' & Hr' & Henc)]; [done|]. cbn [bind]. rewrite E. cbn [bind].
  rewrite app_nil_r in Hp'. set (t' := Node false n r _) in *.
  unfold pcas. simpl pget. destruct Hx as [(cl & cr & -> & ->)|(-> & Hnx & Hx)].
  - pose proof (ptr_word _ _ _ (Frame full a pfx cl k cr :: C) (Leaf (fetch w) w) Hc) as Hw.
    simpl in Hw. unfold hole_word in Hw. simpl in Hw. change (f_slot _) with (slot_of full a pfx k (length cl)) in Hw.
    assert (Hm : mget m (slot_of full a pfx k (length cl)) = buildLeaf k w).
    { rewrite <- Hw. change m with (t_mem (set_mem s1 m)). apply (pr_mem _ _ _ _ Hp').
      eapply (live_not_fresh _ _ _ _ full a pfx (cl ++ (k, Leaf (fetch w) w) :: cr)); [exact Hp'|by apply sub_facts in Hc as (_ & _ & ?)|].
      unfold slot_of, slot_idx, nslots, ncount. rewrite app_length. simpl. destruct full; lia. }
    rewrite Hm, N.eqb_refl. rewrite <- Henc.
    destruct (leaf_publish s C full a pfx cl k (fetch w) w cr (set_mem s1 m) (regs t') t' Hc Hp') as (Hu & Hkp & Hg); [done..|].
    unfold count_if. destruct (upd_items _ _ _ _ _ _ _ _ _ _ _ aid 1 Hu Haid) as (s3 & -> & Hu3). cbn [bind].
    destruct (close_ok _ _ _ _ _ _ _ _ _ _ _ Hu3 Hl) as (l & -> & Hu' & Hl'). cbn [bind].
    eexists _, [], 1%Z. split; [constructor|]. split; [split|split].
    + exists l, (t_epoch s). split; [exact Hu'|]. auto.
    + done.
    + intros z Hz. by apply elem_of_nil in Hz.
    + done.
    + split; [apply (grows_plug (Frame full a pfx cl k cr :: C)); intros R HR; by apply edge_leaf in HR|].
      left. split; [|done]. split.
      * intros w0 Hin. simpl in Hin. eapply (contents_under _ _ []) in Hin; [|apply Hc|].
        -- destruct (sub_facts _ _ _ _ _ Hc) as (Hw0 & _ & _).
           eapply child_contents in Hin; [|exact Hw0|exact Hp]. destruct Hin as (c & Hin & Hc').
           apply wf_node_iff in Hw0 as (Hs & _). apply sbytes_NoDup in Hs. apply (assoc_elem _ _ _ Hs) in Hin.
           assert (Hin2 : (k, Leaf (fetch w) w) ∈ cl ++ (k, Leaf (fetch w) w) :: cr) by (apply elem_of_app; right; left).
           apply (assoc_elem _ _ _ Hs) in Hin2. assert (c = Leaf (fetch w) w) as -> by congruence.
           simpl in Hc'. apply elem_of_list_singleton in Hc'. congruence.
        -- simpl. etrans; [|exact Hp]. apply prefix_app_r. done.
      * simpl. rewrite !contents_plug_perm, !contents_node, !bind_app, !bind_cons. cbn [snd].
        unfold t'. rewrite contents_node, (sort2_perm (xa, Leaf key v)). rewrite Hfw. simpl. solve_Permutation.
  - assert (Hm : mget m x <> buildLeaf k w).
    { change m with (t_mem (set_mem s1 m)). rewrite (pr_mem _ _ _ _ Hp'); [done|].
      eapply (live_not_fresh _ _ _ _ full a pfx cs); [exact Hp'|by apply sub_facts in Hc as (_ & _ & ?)|done]. }
    rewrite (proj2 (N.eqb_neq _ _)) by done. simpl count_if. cbn [bind].
    pose proof (prepd_upd _ _ _ _ _ _ Hc Hp') as Hu. rewrite <- (app_nil_r (regs t')) in Hu. apply upd_leak in Hu.
    destruct (close_ok _ _ _ _ _ _ _ _ _ _ _ Hu Hl) as (l & -> & Hu' & Hl'). cbn [bind].
    split; [done|]. split.
    + exists l, (t_epoch s). auto.
    + apply gone_refl.
    + intros y Hy. by apply elem_of_nil in Hy.
Qed.

(** ** Inserting into a node-256 (update.go:329-333) *)

Lemma sbytes_cut {A} (cs : list (N * A)) k : sbytes cs -> k ∉ map fst cs ->
  exists cl cr, cs = cl ++ cr /\ (forall b, b ∈ map fst cl -> b < k) /\ (forall b, b ∈ map fst cr -> k < b).
Proof.
  induction cs as [|[b x] cs IH]; intros Hs Hk.
  - exists [], []. split; [done|]. split; intros b Hb; by apply elem_of_nil in Hb.
  - simpl in Hk. apply not_elem_of_cons in Hk as [Hkb Hk]. pose proof Hs as [Hs1 Hs2]. simpl in Hs1, Hs2.
    apply SSorted_cons in Hs1 as [Hs1 Hlt]. apply Forall_cons in Hs2 as [_ Hs2].
    destruct (decide (b < k)).
    + destruct IH as (cl & cr & -> & Hl & Hr); [by split|done|]. exists ((b, x) :: cl), cr. split; [done|]. split; [|done].
      intros b' Hb'. simpl in Hb'. apply elem_of_cons in Hb' as [->|Hb']; [done|auto].
    + exists [], ((b, x) :: cs). split; [done|]. split; [intros b' Hb'; by apply elem_of_nil in Hb'|].
      intros b' Hb'. simpl in Hb'. apply elem_of_cons in Hb' as [->|Hb']; [lia|]. apply Hlt in Hb'. lia.
Qed.

(** Children of a node-256 keep their parent link when the set of children changes. *)
Lemma occ_full p np par a pfx cs cs' o : (forall c, c ∈ cs -> is_leaf c.2 = false -> c ∈ cs') ->
  occ p np par (Node true a pfx cs) o ->
  o = Occ p np par a true pfx (heads cs) \/ occ p np par (Node true a pfx cs') o.
Proof.
  intros Hin [->|(l & b & c & r & -> & Ho)]%occ_node_inv; [by left|]. right.
  assert (Hc : (b, c) ∈ cs').
  { apply Hin; [apply elem_of_app; right; left|]. destruct c; [by apply occ_leaf in Ho|done]. }
  apply elem_of_list_split in Hc as (l' & r' & ->). by apply occ_child.
Qed.

Lemma fin_slot256_keeps C a pfx cs cs' : (forall c, c ∈ cs -> is_leaf c.2 = false -> c ∈ cs') ->
  (forall X, a ∈ X -> (C <> [] -> par_of C ∈ X) -> keeps (Some (plug C (Node true a pfx cs))) (Some (plug C (Node true a pfx cs'))) X) /\
  gone (Some (plug C (Node true a pfx cs))) (Some (plug C (Node true a pfx cs'))) [].
Proof.
  intros Hin. split.
  - intros X Ha HX. apply keeps_plug; [done|]. intros o Ho Hoa.
    eapply occ_full in Ho as [->|Ho]; [by simpl in Hoa|split; [done|by exists o]|done].
  - apply gone_plug_same. intros o Ho. left. eapply occ_full in Ho as [->|Ho]; [|by exists o|done].
    eexists. split; [apply occ_here|]. done.
Qed.

Lemma fin_insert256 s C a pfx cs k key v value aid held x :
  core s (Some (plug C (Node true a pfx cs))) -> k ∉ map fst cs -> x = slot_of true a pfx k 0 ->
  K key -> fetch v = key -> v = value mod 2 ^ 55 -> (path_of C ++ pfx ++ [k]) `prefix_of` key -> k < 256 ->
  (aid < length (t_allocs s))%nat -> locks_inv (t_locks s) (lids2 a (par_of C) ++ held) ->
  finu_post false s (Some (plug C (Node true a pfx cs))) held (t_rootLock s) (touched a (par_of C)) key v 0
    (let '(u, s1) := pcas s (PSlot x) 0 (buildLeaf k value) in
     do s2 <- count_if u s1 aid;
     do s3 <- (do l <- unlock_nodes2 (t_locks s2) a (par_of C); Ok (set_locks s2 l));
     Ok (u, s3)).
Proof.
  intros Hc Hnk -> Hk Hf Hv Hp Hk256 Haid Hl.
  destruct (sub_facts _ _ _ _ _ Hc) as (Hw & Hrep & Hreg).
  pose proof Hw as Hw0. apply wf_node_iff in Hw0 as (Hs & Hlen & Hex & Hch).
  destruct (full_child K fetch s _ _ a pfx cs k (co_alloc _ _ _ _ Hc) Hreg Hw Hrep Hk256) as [Hg _].
  rewrite (proj2 (assoc_None k cs)) in Hg by done.
  assert (Hg0 : mget (t_mem s) (slot_of true a pfx k 0) = 0) by exact Hg.
  unfold pcas. simpl pget. rewrite Hg0, N.eqb_refl.
  destruct (sbytes_cut cs k Hs Hnk) as (cl & cr & Ecs & Hcl & Hcr).
  set (cs' := cl ++ (k, Leaf key v) :: cr).
  assert (Hnl : k ∉ map fst cl) by (intros Hin%Hcl; lia).
  assert (Hnr : k ∉ map fst cr) by (intros Hin%Hcr; lia).
  assert (Hw' : wf (path_of C) (Node true a pfx cs')).
  { apply wf_node_iff. split; [|split; [|split]].
    - subst cs. by apply sbytes_insert.
    - done.
    - done.
    - subst cs. apply Forall_app in Hch as [Hch1 Hch2]. apply Forall_app. split; [done|]. constructor; [|done]. simpl.
      constructor; try done. subst v. by apply N.mod_lt. }
  assert (Hin1 : forall c, c ∈ cs -> is_leaf c.2 = false -> c ∈ cs').
  { intros c Hin _. unfold cs'. rewrite Ecs in Hin. apply elem_of_app in Hin. apply elem_of_app. destruct Hin; [by left|by right; right]. }
  assert (Ha1 : buildLeaf k value = default 0 (enc k <$> assoc k cs')).
  { unfold cs'. rewrite assoc_mid by done. rewrite decide_True by done. simpl. subst v. by rewrite buildLeaf_trunc. }
  assert (Ha2 : forall b', b' <> k -> assoc b' cs' = assoc b' cs).
  { intros b' Hb'. unfold cs'. rewrite assoc_mid by done. rewrite decide_False by done. by rewrite Ecs. }
  assert (Ha3 : forall c, c ∈ cs' -> c ∈ cs \/ is_leaf c.2 = true).
  { intros c Hin. unfold cs' in Hin. apply elem_of_app in Hin as [Hin|[->|Hin]%elem_of_cons].
    - left. rewrite Ecs. apply elem_of_app. by left.
    - by right.
    - left. rewrite Ecs. apply elem_of_app. by right. }
  pose proof (upd_slot256 K fetch s C a pfx cs cs' k (buildLeaf k value) Hc Hk256 Hw' Ha1 Ha2 Ha3 Hin1) as Hu.
  destruct (upd_items _ _ _ _ _ _ _ _ _ _ _ aid 1 Hu Haid) as (s3 & E & Hu3).
  unfold count_if. rewrite E. cbn [bind].
  destruct (close_ok _ _ _ _ _ _ _ _ _ _ _ Hu3 Hl) as (l & -> & Hu' & Hl'). cbn [bind].
  destruct (fin_slot256_keeps C a pfx cs cs' Hin1) as [Hkp Hgo].
  eexists _, [], 1%Z. split; [constructor|]. split; [split|split].
  + exists l, (t_epoch s). split; [exact Hu'|]. auto.
  + done.
  + intros y Hy. by apply elem_of_nil in Hy.
  + apply Hkp; [apply touched_node|]. apply touched_par. by eapply par_ne.
  + split; [apply grows_kids; intros c; unfold cs'; rewrite Ecs, !elem_of_app, elem_of_cons; naive_solver|].
    left. split; [|done]. eapply not_stored_add; [apply Hc|done|done|].
    simpl. rewrite !contents_plug_perm, !contents_node. unfold cs'. rewrite Ecs, !bind_app, bind_cons. simpl. solve_Permutation.
Qed.

(** ** Operations on the root *)

Definition uroot (key : list N) (op : uop) (T : option trie) : Prop :=
  u_key op = key /\ K key /\ head key = Some (u_k op) /\
  match u_kind op with
  | replaceEmptyRootWithLeaf => T = None
  | replaceLeafRootWithNode => exists k0 w b, T = Some (Leaf k0 w) /\ u_currentLeaf op = buildLeaf b w /\ head k0 = Some b /\ b <> u_k op
  | rootLeafUpdate => exists k0, T = Some (Leaf k0 (u_value op)) /\ head k0 = Some (u_k op) /\ u_currentLeaf op = buildLeaf (u_k op) (u_value op)
  | _ => False
  end.

Lemma no_occ_leaf T T' k w X : T = None \/ T = Some (Leaf k w) -> keeps T T' X /\ gone T T' [].
Proof.
  intros HT. assert (H : forall o, ~ ooccr T o).
  { intros o Ho. destruct HT as [->| ->]; [done|]. by apply occ_leaf in Ho. }
  split; intros o Ho; by apply H in Ho.
Qed.

Lemma head_cons (key : list N) k : head key = Some k -> exists r, key = k :: r.
Proof. destruct key; simpl; [done|]. intros [= ->]. eauto. Qed.

Lemma common_root (key fk : list N) : K key -> K fk -> key <> fk ->
  exists r x y ra rb, key = r ++ x :: ra /\ fk = r ++ y :: rb /\ x <> y /\ common_prefix_root key fk 0 = Ok (length r).
Proof.
  intros Hk Hf Hne. destruct (split_keys [] key fk Hk Hf Hne) as (r & x & y & ra & rb & -> & -> & Hxy & _);
    [apply prefix_nil..|].
  exists r, x, y, ra, rb. split; [done|]. split; [done|]. split; [done|]. simpl. clear Hk Hf Hne.
  assert (H : forall n, common_prefix_root (r ++ x :: ra) (r ++ y :: rb) n = Ok (n + length r)%nat); [|by rewrite H].
  induction r as [|z r IH]; intros n; simpl.
  - rewrite (proj2 (N.eqb_neq _ _)) by done. f_equal. lia.
  - rewrite N.eqb_refl. specialize (IH (S n)). destruct r as [|z' r]; simpl in *; rewrite IH; f_equal; lia.
Qed.

Lemma fin_root_ok dirty s T key op value held v :
  core s T -> uroot key op T -> fetch v = key -> v = value mod 2 ^ 55 ->
  (u_alloc op < length (t_allocs s))%nat -> locks_inv (t_locks s) held ->
  forall (fk : list N) (mtch : bool), (u_kind op = rootLeafUpdate -> fk = fetch (u_value op) /\ (if mtch then key = fk else key <> fk)) ->
  finu_post dirty s T held (gen_dec (t_rootLock s)) [] key v 0 (finalize_update_body s op fk mtch value).
Proof.
  intros Hc (Ekey & Hk & Hkk & Hkind) Hv Hv' Haid Hl fk mtch Hm.
  destruct (head_cons _ _ Hkk) as [kr Ekr].
  assert (Hk256 : u_k op < 256).
  { pose proof (uv_bytes K HK _ Hk) as H. rewrite Ekr in H. by inversion H. }
  assert (Hwl : wf [] (Leaf key v)).
  { constructor; try done; [apply prefix_nil|]. subst v. by apply N.mod_lt. }
  assert (Hlw : hole_word [] (Leaf key v) = buildLeaf (u_k op) value).
  { unfold hole_word. simpl. rewrite Hkk. simpl. subst v. by rewrite buildLeaf_trunc. }
  unfold finalize_update_body, pcas. destruct (u_kind op); try done.
  - subst T. simpl pget. rewrite (co_root _ _ _ _ Hc). simpl.
    pose proof (upd_root K fetch s None s (Some (Leaf key v)) [] [] Hc (prepd_refl _ _ _ _ Hc)) as Hu.
    specialize (Hu ltac:(done) Hwl ltac:(constructor)). change (enc_root (Some (Leaf key v))) with (hole_word [] (Leaf key v)) in Hu.
    rewrite Hlw in Hu. apply (upd_rootLock _ _ _ _ _ _ _ _ _ _ _ (gen_dec (t_rootLock s))) in Hu.
    unfold count_if. destruct (upd_items _ _ _ _ _ _ _ _ _ _ _ (u_alloc op) 1 Hu Haid) as (s3 & E & Hu3).
    unfold unlock_root. simpl in E. simpl. rewrite E. cbn [bind].
    destruct (no_occ_leaf None (Some (Leaf key v)) (@nil N) 0 (@nil N)) as [Hkp Hg]; [by left|].
    exists (Some (Leaf key v)), [], 1%Z. split; [constructor|]. split; [split|split].
    + exists (t_locks s), (t_epoch s). auto.
    + done.
    + intros y Hy. by apply elem_of_nil in Hy.
    + done.
    + split; [by intros R ?|]. left. split; [|done]. split; [intros w Hw; by apply elem_of_nil in Hw|done].
  - destruct Hkind as (k0 & w & b & -> & Hcl & Hb & Hbk).
    pose proof (root_word_leaf _ _ HK _ _ _ Hc) as (_ & _ & _ & Hk0 & Hfw & Hwlim & b' & k' & Ek0 & Hb256 & Hroot & _).
    rewrite Ek0 in Hb. simpl in Hb. injection Hb as ->.
    destruct (allocate_node_ok s (u_alloc op) 2 0 _ (co_alloc _ _ _ _ Hc) Haid) as [->|(n & s1 & -> & Hal & Hm1)];
      [lia|vm_compute; done|done|]. cbn [bind].
    pose proof (prepd_alloc _ _ _ _ _ _ _ (prepd_refl _ _ _ _ Hc) Hal) as Hpr.
    pose proof (allocd_fits _ _ _ _ _ Hal ltac:(lia)) as (Hn0 & Hnfit & Hnblk).
    change (prefix_slots 0) with 0%nat in *.
    destruct (add_sorted_children_ok (t_mem s1) (Slice n (dlen n)) (b, buildLeaf b w) (u_k op, buildLeaf (u_k op) value))
      as (m & E & Hin & Hout).
    { simpl. by rewrite buildLeaf_byte. }
    { simpl. by rewrite buildLeaf_byte. }
    { by apply buildLeaf_lt64. }
    { by apply buildLeaf_lt64. }
    { simpl. lia. }
    cbn [fst snd sl_base] in *. rewrite Hcl, E. cbn [bind].
    set (t' := Node false n [] (sort2 (b, Leaf k0 w) (u_k op, Leaf key v))).
    assert (Hrg : regs t' = [(n, 2%nat)]).
    { unfold t'. rewrite regs_node. rewrite sort2_length. change (nslots false [] 2) with 2%nat. f_equal.
      unfold sort2; by destruct (_ <? _). }
    assert (Hp1 : prepd s (Some (Leaf k0 w)) (set_mem s1 m) [(n, 2%nat)]).
    { apply prepd_mem; [done|]. intros z Hz. rewrite cover_cons, app_nil_r in Hz. cbn [fst snd] in Hz. by apply Hout. }
    assert (Hw' : wf [] t').
    { apply wf_node_iff. split; [|split; [|split]].
      - by apply sort2_sbytes.
      - rewrite sort2_length. lia.
      - exists key, (u_k op). split; [done|]. exists kr. done.
      - rewrite sort2_perm. constructor; [|constructor; [|done]]; simpl.
        + constructor; try done. exists k'. done.
        + constructor; try done; [by exists kr|subst v; by apply N.mod_lt]. }
    assert (Hr' : rep m t').
    { apply rep_node_iff. split.
      - split; [done|]. change (prefix_slots (length [])) with 0%nat. rewrite bws_length, sort2_length.
        change (N.of_nat 0) with 0. rewrite N.add_0_r, Hin. unfold sort2, bws. simpl.
        subst v. destruct (b <? u_k op); simpl; rewrite ?buildLeaf_trunc; done.
      - rewrite sort2_perm. constructor; [constructor|]. constructor; [constructor|done]. }
    pose proof (upd_root K fetch s _ _ (Some t') _ [] Hc Hp1) as Hu.
    specialize (Hu ltac:(change (oregs (Some t')) with (regs t'); rewrite Hrg; done) Hw' Hr').
    replace (enc_root (Some t')) with (buildNode 0 n 2 0) in Hu
      by (unfold enc_root, hole_word, t'; simpl; by rewrite sort2_length).
    simpl pget. replace (t_root s1) with (buildLeaf b w) by (rewrite (st_root _ _ (pr_same _ _ _ _ Hpr)); congruence).
    rewrite N.eqb_refl. apply (upd_rootLock _ _ _ _ _ _ _ _ _ _ _ (gen_dec (t_rootLock s))) in Hu.
    unfold count_if. destruct (upd_items _ _ _ _ _ _ _ _ _ _ _ (u_alloc op) 1 Hu Haid) as (s3 & E3 & Hu3).
    unfold unlock_root.
    replace (t_rootLock (pset (set_mem s1 m) PRoot (buildNode 0 n 2 0))) with (t_rootLock s)
      by (symmetry; apply (st_rootLock _ _ (pr_same _ _ _ _ Hpr))).
    rewrite E3. cbn [bind].
    destruct (no_occ_leaf (Some (Leaf k0 w)) (Some t') k0 w []) as [Hkp Hg]; [by right|].
    exists (Some t'), [], 1%Z. split; [constructor|]. split; [split|split].
    + exists (t_locks s), (t_epoch s). auto.
    + done.
    + intros y Hy. by apply elem_of_nil in Hy.
    + done.
    + split; [apply grows_leaf|]. left. split; [|done]. split.
      * intros w' Hw1. simpl in Hw1. apply elem_of_list_singleton in Hw1. rewrite Ekr, Ek0 in Hw1. by injection Hw1.
      * change (ocontents (Some t')) with (contents t'). unfold t'. rewrite contents_node, (sort2_perm (b, Leaf k0 w)). simpl. constructor.
  - destruct Hkind as (k0 & -> & Hb & Hcl). destruct (Hm eq_refl) as [-> Hm'].
    pose proof (root_word_leaf _ _ HK _ _ _ Hc) as (_ & _ & _ & Hk0 & Hfw & Hwlim & b' & k' & Ek0 & Hb256 & Hroot & _).
    rewrite Ek0 in Hb. simpl in Hb. injection Hb as ->.
    destruct mtch.
    + simpl pget. rewrite Hroot, Hcl, N.eqb_refl.
      pose proof (upd_root K fetch s _ s (Some (Leaf key v)) [] [] Hc (prepd_refl _ _ _ _ Hc)) as Hu.
      specialize (Hu ltac:(done) Hwl ltac:(constructor)). change (enc_root (Some (Leaf key v))) with (hole_word [] (Leaf key v)) in Hu.
      rewrite Hlw in Hu. apply (upd_rootLock _ _ _ _ _ _ _ _ _ _ _ (gen_dec (t_rootLock s))) in Hu.
      destruct (no_occ_leaf (Some (Leaf k0 (u_value op))) (Some (Leaf key v)) k0 (u_value op) []) as [Hkp Hg]; [by right|].
      exists (Some (Leaf key v)), [], 0%Z. split; [constructor|]. split; [split|split].
      * exists (t_locks s), (t_epoch s). auto.
      * done.
      * intros y Hy. by apply elem_of_nil in Hy.
      * done.
      * split; [apply grows_leaf|]. right. split; [|done]. exists (u_value op), []. simpl. split; [|done]. by rewrite Hm', Hfw.
    + destruct (common_root key (fetch (u_value op)) Hk) as (r & xa & xb & ra & rb & Ek & Ef & Hxy & Epl); [by rewrite Hfw|done|].
      rewrite Ekey, Epl. cbn [bind].
      replace (take (length r) key) with r by (rewrite Ek, take_app; done).
      destruct (two_leaves s _ s [] (u_alloc op) [] r xa xb key v value (fetch (u_value op)) (u_value op) ra rb (prepd_refl _ _ _ _ Hc) Haid Hk Hv Hv'
        ltac:(by rewrite Hfw) eq_refl Hwlim Ek Ef Hxy (u_k op) Hk256)
        as [->|(n & d & s1 & m & -> & E & Hp' & Hw' & Hr' & Henc)]; [done|]. cbn [bind].
      unfold key_at.
      replace (key !! (length r)) with (Some xa).
      2:{ rewrite Ek, lookup_app_r by lia. by rewrite Nat.sub_diag. }
      replace (fetch (u_value op) !! (length r)) with (Some xb).
      2:{ rewrite Ef, lookup_app_r by lia. by rewrite Nat.sub_diag. }
      cbn [bind]. rewrite Hcl, E. cbn [bind].
      rewrite app_nil_r in Hp'. set (t' := Node false n r _) in *.
      pose proof (upd_root K fetch s _ _ (Some t') _ [] Hc Hp') as Hu.
      specialize (Hu ltac:(by rewrite app_nil_r) Hw' Hr').
      replace (enc_root (Some t')) with (buildNode 0 n 2 (length r)) in Hu
        by (unfold enc_root, hole_word, t'; simpl; by rewrite sort2_length).
      simpl pget. replace (t_root s1) with (buildLeaf (u_k op) (u_value op)) by (pose proof (st_root _ _ (pr_same _ _ _ _ Hp')) as E'; simpl in E'; congruence).
      rewrite N.eqb_refl. unfold count_if.
      destruct (upd_items _ _ _ _ _ _ _ _ _ _ _ (u_alloc op) 1 Hu Haid) as (s3 & -> & Hu3). cbn [bind].
      pose proof (up_rl _ _ _ _ _ _ _ _ _ _ _ Hu3) as Hrl.
      apply (upd_rootLock _ _ _ _ _ _ _ _ _ _ _ (gen_dec (t_rootLock s))) in Hu3. unfold unlock_root.
      replace (t_rootLock s3) with (t_rootLock s) by (symmetry; apply Hrl).
      destruct (no_occ_leaf (Some (Leaf k0 (u_value op))) (Some t') k0 (u_value op) []) as [Hkp Hg]; [by right|].
      exists (Some t'), [], 1%Z. split; [constructor|]. split; [split|split].
      * exists (t_locks s), (t_epoch s). auto.
      * done.
      * intros y Hy. by apply elem_of_nil in Hy.
      * done.
      * split; [apply grows_leaf|]. left. split; [|done]. split.
        -- intros w' Hw1. simpl in Hw1. apply elem_of_list_singleton in Hw1. congruence.
        -- change (ocontents (Some t')) with (contents t'). unfold t'. rewrite contents_node, (sort2_perm (xa, Leaf key v)). simpl. by rewrite Hfw.
Qed.

(** ** The switch of Finalize *)

Lemma finu_weaken d d' s T held rl X key v n n' R : finu_post d s T held rl X key v n R ->
  (d = true -> d' = true) -> (n = 0%nat \/ n = n') -> finu_post d' s T held rl X key v n' R.
Proof.
  intros H Hd Hn. destruct R as [[[] ?]|[]| |]; simpl in *; try done.
  - destruct H. auto.
  - destruct Hn as [->| ->]; [|done]. vm_compute in H. lia.
Qed.

Lemma leaf_slot_full s C a pfx cs k w dirty : core s (Some (plug C (Node true a pfx cs))) -> k < 256 -> w < vlim ->
  (dirty = false -> (k, HLeaf (fetch w) w) ∈ heads cs) ->
  leaf_slot dirty s true a pfx cs k w (slot_of true a pfx k 0).
Proof.
  intros Hc Hk Hw Hd. destruct (sub_facts _ _ _ _ _ Hc) as (Hwf & Hrep & Hreg).
  pose proof Hwf as Hwf'. apply wf_node_iff in Hwf' as (Hs & _ & _ & Hch).
  assert (Hcase : (exists cl cr, cs = cl ++ (k, Leaf (fetch w) w) :: cr) \/ mget (t_mem s) (slot_of true a pfx k 0) <> buildLeaf k w).
  { destruct (full_child K fetch s _ _ a pfx cs k (co_alloc _ _ _ _ Hc) Hreg Hwf Hrep Hk) as [Hg Hi].
    change (mget (t_mem s) (slot_of true a pfx k 0) = default 0 (enc k <$> assoc k cs)) in Hg. rewrite Hg.
    destruct (assoc k cs) as [c|] eqn:Ec.
    - simpl. destruct c as [k0 w0|].
      + destruct (decide (w0 = w)) as [->|Hne].
        * left. apply assoc_split in Ec as (cl & cr & -> & _). exists cl, cr.
          rewrite Forall_app, Forall_cons in Hch. destruct Hch as (_ & Hch & _). simpl in Hch.
          apply wf_leaf_inv in Hch as (_ & _ & _ & ->). done.
        * right. simpl. intros E. apply buildLeaf_inj in E as [_ E]; [|done..]. apply Hne.
          apply assoc_Some_elem in Ec. rewrite Forall_forall in Hch. apply Hch in Ec. simpl in Ec.
          apply wf_leaf_inv in Ec as (_ & _ & Hw0 & _). rewrite !N.mod_small in E by done. done.
      + right. intros E. destruct Hi as (_ & Hi & _). rewrite E in Hi. rewrite buildLeaf_isLeaf in Hi by done. done.
    - right. simpl. intros E. pose proof (buildLeaf_isLeaf k w Hk) as Hi'. rewrite <- E in Hi'. by vm_compute in Hi'. }
  destruct Hcase as [(cl & cr & ->)|Hne].
  - left. exists cl, cr. done.
  - right. split; [|split; [done|]].
    + destruct dirty; [done|]. exfalso. specialize (Hd eq_refl). apply Hne.
      destruct (full_child K fetch s _ _ a pfx cs k (co_alloc _ _ _ _ Hc) Hreg Hwf Hrep Hk) as [Hg _].
      change (mget (t_mem s) (slot_of true a pfx k 0) = default 0 (enc k <$> assoc k cs)) in Hg. rewrite Hg.
      apply elem_of_list_fmap in Hd as ([k' c] & E & Hin). simpl in E. injection E as <- E.
      destruct c; [|done]. injection E as <- <-. rewrite (assoc_elem k (Leaf (fetch w) w)); [done|by apply sbytes_NoDup|done].
    + unfold slot_of, slot_idx, nslots, ncount. lia.
Qed.

Lemma fin_node_ok0 dirty s T o key op fk (mtch : bool) value v held :
  core s (Some T) -> occr T o -> uvalid K fetch dirty key op o -> fetch v = key -> v = value mod 2 ^ 55 ->
  (u_alloc op < length (t_allocs s))%nat ->
  locks_inv (t_locks s) (lids2 (u_node op) (u_parent op) ++ held) ->
  (is_found (u_kind op) = true -> fk = fetch (u_value op) /\ (if mtch then key = fk else key <> fk)) ->
  finu_post dirty s (Some T) held (t_rootLock s) (touched (u_node op) (u_parent op)) key v (u_count op + u_prefixSlots op)
    (finalize_update_body s op fk mtch value).
Proof.
  intros Hc Ho [Hb Hkind] Hv Hv' Haid Hl Hm.
  destruct o as [opath optr opar a full pfx hs].
  destruct (occ_zip _ _ Ho) as (C & cs & -> & E1 & E2 & E3 & E4). simpl in E1, E2, E3, E4. subst opath optr opar hs. clear Ho.
  cbn [o_full o_addr o_pfx] in *.
  destruct Hb as [Ekey HKk Enode Epar Eptr Edata Eprefix Epslots Ecount Hpath Hraw]. simpl in *.
  rewrite heads_length in Ecount. rewrite Enode, Epar in *.
  destruct (sub_facts _ _ _ _ _ Hc) as (Hw & Hrep & Hreg). pose proof (ncount_bounds _ _ _ _ _ _ _ Hw) as [Hcb Hcf].
  unfold finalize_update_body, ukind_ok, unlock_uop in *. rewrite Ecount, Epslots, Enode, Epar, Eptr, Edata, Eprefix, Ekey in *.
  destruct (u_kind op) eqn:Ek; try done; simpl in Hkind.
  - (* prefix miss *)
    destruct Hkind as (-> & b & c & Hpb & Hkc & Hbc & Hkp).
    apply elem_of_list_split_length in Hpb as (pa & pb & -> & Hi). rewrite Hi in *.
    rewrite take_app in Hkp.
    unfold key_at at 1. rewrite Hkc. unfold key_at. rewrite lookup_app_r, Nat.sub_diag by lia. cbn [bind lookup list_lookup].
    replace (drop (S (length pa)) (pa ++ b :: pb)) with pb.
    2:{ replace (S (length pa)) with (length (pa ++ [b])) by (rewrite app_length; simpl; lia).
        replace (pa ++ b :: pb) with ((pa ++ [b]) ++ pb) by (by rewrite <- app_assoc). by rewrite drop_app. }
    replace (length (pa ++ b :: pb) - length pa - 1)%nat with (length pb) by (rewrite app_length; simpl; lia).
    replace (take (length pa) (drop (length (path_of C)) key)) with pa.
    2:{ destruct Hkp as [q ->]. rewrite <- app_assoc, drop_app, <- app_assoc, take_app. done. }
    eapply finu_weaken; [eapply (fin_split None s C full a pa b pb cs c key v value (u_alloc op) (u_raw op) held); try done; apply scanned_None|done|by right].
  - destruct Hkind as ((Hd & Hkp & Hk256) & -> & hl & hr & Ehs & Epos & Hhl & Hhr).
    unfold heads in Ehs. apply fmap_app_inv in Ehs as (cl & cr & El & Er & ->). simpl ncount in *.
    assert (Hpl : u_position op = length cl) by (rewrite Epos, El; apply fmap_length).
    change (hl = heads cl) in El. change (hr = heads cr) in Er.
    rewrite El, heads_fst in Hhl. rewrite Er, heads_fst in Hhr. rewrite Hpl.
    assert (Hns : nslots false pfx (length (cl ++ cr)) = (length (cl ++ cr) + prefix_slots (length pfx))%nat) by (unfold nslots, ncount; lia).
    unfold fullAllocAfter. destruct (Nat.ltb_spec (length (cl ++ cr)) 127).
    + eapply finu_weaken; [eapply (fin_insert s C a pfx cl cr (u_k op) key v value (u_alloc op) (u_raw op) held); done|done|by right].
    + eapply finu_weaken; [eapply (fin_grow s C a pfx cl cr (u_k op) key v value (u_alloc op) (u_raw op) held); done|done|by right].
  - destruct Hkind as ((Hd & Hkp & Hk256) & -> & Hnk & ->). rewrite heads_fst in Hnk.
    eapply finu_weaken; [eapply (fin_insert256 s C a pfx cs (u_k op) key v value (u_alloc op) held); done|done|by left].
  - destruct Hkind as ((Hd & Hkp & Hk256) & -> & Hcl & Hvl & hl & hr & Ehs & ->). destruct (Hm eq_refl) as [-> Hm']. clear Hm.
    apply heads_split in Ehs as (cl & t & cr & -> & El & Eh & Er). destruct t as [k0 v0|]; [|done]. injection Eh as -> ->.
    assert (Hsl : leaf_slot dirty s false a pfx (cl ++ (u_k op, Leaf (fetch (u_value op)) (u_value op)) :: cr) (u_k op) (u_value op)
      (slot_of false a pfx (u_k op) (length hl))).
    { left. exists cl, cr. split; [done|]. by rewrite <- El, heads_length. }
    rewrite Hcl. destruct mtch.
    + eapply finu_weaken; [eapply leaf_match; done|done|by left].
    + assert (Hwl : wf (path_of C ++ pfx ++ [u_k op]) (Leaf (fetch (u_value op)) (u_value op))).
      { apply wf_node_iff in Hw as (_ & _ & _ & Hch). rewrite Forall_app, Forall_cons in Hch. by destruct Hch as (_ & ? & _). }
      apply wf_leaf_inv in Hwl as (Hp1 & Hp2 & _).
      eapply finu_weaken; [eapply leaf_split; try done; lia|done|by left].
  - destruct Hkind as ((Hd & Hkp & Hk256) & -> & Hcl & Hvl & -> & Hp2 & Hp1 & Hin & _). destruct (Hm eq_refl) as [-> Hm']. clear Hm.
    pose proof (leaf_slot_full s C a pfx cs _ _ dirty Hc Hk256 Hvl Hin) as Hsl.
    rewrite Hcl. destruct mtch.
    + eapply finu_weaken; [eapply leaf_match; done|done|by left].
    + eapply finu_weaken; [eapply leaf_split; try done; lia|done|by left].
Qed.

(** The same with other values seen by the scans. *)
Lemma core_resv s l T : core s T -> core (set_resv s l) T.
Proof. intros [H1 H2 H3 H4 H5]. split; try done. by apply (alloc_inv_ext s). Qed.

Lemma upd_as s l T s' T' G lk rl e d : seen (Some l) s -> upd (set_resv s l) T s' T' G lk rl e d ->
  upd s T (set_resv s' (t_resv s)) T' G lk rl e d.
Proof.
  intros Hs [U1 U2 U3 U4 U5 U6 U7 U8 U9 U10 U11 U12 U13 U14]. assert (Hcov : forall r, (exists r', r' ∈ t_resv s /\ r' <= r) -> exists r', r' ∈ t_resv (set_resv s l) /\ r' <= r).
  { intros r (r' & Hr & Hle). destruct (Hs l eq_refl r' Hr) as (r1 & H1 & H2). exists r1. split; [done|]. lia. }
  assert (Hsf : forall r x, safe_from s r x -> safe_from (set_resv s l) r x) by (intros r x; by apply safe_from_ext).
  split; try done.
  - by apply (alloc_inv_ext s').
  - intros r x H1 H2 H3. apply (safe_from_ext s'); [done|done|]. auto.
  - intros x Hx. destruct (U13 x Hx) as [H|H]; [by left|right]. intros r H1 H2. apply (H r); auto.
  - intros r x H1 H2 H3. apply (U14 r); auto.
Qed.

Lemma fin_as s l T s' T' hl rl G d : seen (Some l) s -> fin (set_resv s l) T s' T' hl rl G d -> fin s T (set_resv s' (t_resv s)) T' hl rl G d.
Proof. intros Hs [(lk & e & H1 & H2 & H3) H4 H5]. split; [|done|done]. exists lk, e. split; [by eapply upd_as|done]. Qed.

Lemma finu_post_as dirty s o T hl rl X key v size f : seen o s ->
  (forall l, o = Some l \/ (o = None /\ l = t_resv s) -> finu_post dirty (set_resv s l) T hl rl X key v size (f (set_resv s l))) ->
  finu_post dirty s T hl rl X key v size (as_if o s f).
Proof.
  intros Hs H. destruct o as [l|]; cbn [as_if].
  - specialize (H l ltac:(by left)). destruct (f (set_resv s l)) as [[[|] s1]|[]| |]; cbn [bind]; try done.
    + destruct H as (T' & G & d & H1 & H2 & H3). exists T', G, d. split; [done|]. split; [by eapply fin_as|done].
    + destruct H as [H1 H2]. split; [done|]. by eapply fin_as.
  - specialize (H (t_resv s) ltac:(by right)). by destruct s.
Qed.

Lemma fin_node_ok sc dirty s T o key op fk (mtch : bool) value v held :
  scanned sc s -> core s (Some T) -> occr T o -> uvalid K fetch dirty key op o -> fetch v = key -> v = value mod 2 ^ 55 ->
  (u_alloc op < length (t_allocs s))%nat ->
  locks_inv (t_locks s) (lids2 (u_node op) (u_parent op) ++ held) ->
  (is_found (u_kind op) = true -> fk = fetch (u_value op) /\ (if mtch then key = fk else key <> fk)) ->
  finu_post dirty s (Some T) held (t_rootLock s) (touched (u_node op) (u_parent op)) key v (u_count op + u_prefixSlots op)
    (finalize_update_body_as sc s op fk mtch value).
Proof.
  intros Hsc Hc Ho Hu Hv Hv' Haid Hl Hm.
  assert (u_kind op = nodePrefixMiss \/ finalize_update_body_as sc s op fk mtch value = as_if (scan1 sc) s (fun s => finalize_update_body s op fk mtch value)) as [Ek| ->].
  { unfold finalize_update_body_as. destruct (u_kind op); (by left) || by right. }
  2:{ apply finu_post_as; [apply Hsc|]. intros l _. apply (fin_node_ok0 dirty (set_resv s l) T o key op fk mtch value v held); try done. by apply core_resv. }
  destruct Hu as [Hb Hkind].
  destruct o as [opath optr opar a full pfx hs].
  destruct (occ_zip _ _ Ho) as (C & cs & -> & E1 & E2 & E3 & E4). simpl in E1, E2, E3, E4. subst opath optr opar hs. clear Ho.
  cbn [o_full o_addr o_pfx] in *.
  destruct Hb as [Ekey HKk Enode Epar Eptr Edata Eprefix Epslots Ecount Hpath Hraw]. simpl in *.
  rewrite heads_length in Ecount. rewrite Enode, Epar in *.
  destruct (sub_facts _ _ _ _ _ Hc) as (Hw & Hrep & Hreg). pose proof (ncount_bounds _ _ _ _ _ _ _ Hw) as [Hcb Hcf].
  unfold finalize_update_body_as, ukind_ok, unlock_uop in *. rewrite Ek in *. cbn [is_found] in *. rewrite Ecount, Epslots, Enode, Epar, Eptr, Edata, Eprefix, Ekey in *.
  simpl in Hkind.
  destruct Hkind as (-> & b & c & Hpb & Hkc & Hbc & Hkp).
  apply elem_of_list_split_length in Hpb as (pa & pb & -> & Hi). rewrite Hi in *.
  rewrite take_app in Hkp.
  unfold key_at at 1. rewrite Hkc. unfold key_at. rewrite lookup_app_r, Nat.sub_diag by lia. cbn [bind lookup list_lookup].
  replace (drop (S (length pa)) (pa ++ b :: pb)) with pb.
  2:{ replace (S (length pa)) with (length (pa ++ [b])) by (rewrite app_length; simpl; lia).
      replace (pa ++ b :: pb) with ((pa ++ [b]) ++ pb) by (by rewrite <- app_assoc). by rewrite drop_app. }
  replace (length (pa ++ b :: pb) - length pa - 1)%nat with (length pb) by (rewrite app_length; simpl; lia).
  replace (take (length pa) (drop (length (path_of C)) key)) with pa.
  2:{ destruct Hkp as [q ->]. rewrite <- app_assoc, drop_app, <- app_assoc, take_app. done. }
  eapply finu_weaken; [eapply (fin_split sc s C full a pa b pb cs c key v value (u_alloc op) (u_raw op) held); try done|done|by right].
Qed.
End FinU.
