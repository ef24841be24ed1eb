(** * Restart: loading a written state gives the same memory, root and free lists. *)
From Verif Require Export PWrite.

(** What a restart keeps and what it resets. *)
Record restarted (s s' : tree) : Prop := {
  rs_mem : forall x, mget (t_mem s') x = mget (t_mem s) x;
  rs_root : t_root s' = t_root s;
  rs_nfb : t_nextFreeBlock s' = t_nextFreeBlock s;
  rs_epoch : t_epoch s' = t_epoch s;
  rs_resv : t_resv s' = replicate (length (t_allocs s)) maxUint64;
  rs_allocs : t_allocs s' = map restart_alloc (t_allocs s);
  rs_live : t_live s' = Z.max 0 (t_live s);
  rs_locks : t_locks s' = mempty;
  rs_rootLock : t_rootLock s' = 0
}.

(** ** Sizes *)

Lemma cover_bound nb l : Forall (region_ok nb) l -> NoDup (cover l) -> N.of_nat (length (cover l)) <= nb * blockSlots.
Proof.
  intros H Hn. assert (Hs : cover l ⊆+ seqN 0 (N.to_nat (nb * blockSlots))).
  { apply NoDup_submseteq; [done|]. intros x Hx. apply elem_of_seqN. rewrite N2Nat.id.
    pose proof (cover_block nb l x H Hx) as Hb. pose proof (N.mod_lt x blockSlots ltac:(done)) as Hm.
    pose proof (N.div_mod' x blockSlots) as E. revert Hb Hm E. unfold blockSlots.
    generalize (x / 262144), (x mod 262144). clear. intros. nia. }
  apply submseteq_length in Hs. rewrite seqN_length in Hs. lia.
Qed.

Lemma items_le_cover (l : list (N * nat * N)) : Forall (fun it => (0 < it.1.2)%nat) l -> (length l <= length (cover (map ireg l)))%nat.
Proof.
  induction 1 as [|[[n t] e] l Ht _ IH]; [done|]. cbn [map]. rewrite cover_cons, app_length. cbn [ireg fst snd] in *.
  rewrite seqN_length. simpl. lia.
Qed.

Lemma items_bound s L : alloc_inv s L -> N.of_nat (length (all_items s)) <= 17179869184.
Proof.
  intros [Hnd Hreg _ _ Hnb Hpos]. rewrite !cover_app in Hnd. apply NoDup_app in Hnd as (_ & _ & Hnd). apply NoDup_app in Hnd as (Hnd & _ & _).
  apply Forall_app in Hreg as [_ Hreg]. apply Forall_app in Hreg as [Hreg _].
  pose proof (cover_bound _ _ Hreg Hnd) as H. pose proof (items_le_cover _ Hpos). unfold maxBlockCount, blockSlots in *. lia.
Qed.

Lemma class_items t0 r t l : r !! t = Some l -> (length l <= length (ritems t0 r))%nat.
Proof.
  intros H. destruct (ritems_alter t0 r t l H) as (rest & E & _). rewrite E, app_length, map_length. lia.
Qed.

Lemma alloc_items s a : a ∈ t_allocs s -> (length (al_its a) <= length (all_items s))%nat.
Proof.
  unfold all_items. intros [i Ha]%elem_of_list_lookup. rewrite <- (take_drop_middle _ _ _ Ha).
  rewrite bind_app, bind_cons, !app_length. lia.
Qed.

Lemma all_fits s L : alloc_inv s L -> Forall alloc_fits (t_allocs s).
Proof.
  intros H. pose proof (items_bound _ _ H) as Hb. destruct H as [_ _ Hrec Hnf _ _]. rewrite Forall_forall in *. intros a Ha.
  destruct (Hnf a Ha) as (_ & H1 & H2 & H3). unfold blockSize, maxBlockCount in *.
  split_and!; try (unfold ok64; rewrite maxUint64_val; lia); [by apply Hrec|].
  rewrite Forall_forall. intros l [t Hl]%elem_of_list_lookup.
  pose proof (class_items 0 _ _ _ Hl). pose proof (alloc_items s a Ha). unfold al_its in *. unfold maxAlloc. lia.
Qed.

(** ** The restarted tree *)

Lemma restart_ok pack unpack s L order : codec pack unpack -> alloc_inv s L -> zeroed s ->
  t_root s <= maxUint64 -> t_epoch s <= maxUint64 -> (t_live s < 9223372036854775808)%Z ->
  72 * N.of_nat (length (t_allocs s)) <= maxAlloc -> all_written s order ->
  exists s', new_tree_from_state unpack (write_state pack s order) = Loaded (s', rev order) /\ restarted s s'.
Proof.
  intros Hcd Ha Hz Hr He Hl Hn [Hnd Hord].
  pose proof (ai_nb _ _ Ha) as Hnb. pose proof (all_fits _ _ Ha) as Hf.
  set (st1 := LS (Z.max 0 (t_live s)) (t_nextFreeBlock s) (t_root s) (Some (t_epoch s)) (replicate (length (t_allocs s)) newAllocator) (-1) mempty []).
  set (st2 := set_lallocs st1 (map restart_alloc (t_allocs s))).
  set (st3 := fold_left (load_block (t_mem s)) order st2).
  assert (Hch : chain unpack ls0 (file_segs pack s order) st3).
  { unfold file_segs. eapply chain_app.
    - apply chain_header; try done. unfold ok64, maxBlockCount in *. rewrite maxUint64_val. lia.
    - eapply chain_app.
      + apply (chain_allocs unpack st1 (t_allocs s) Hf []). unfold maxAlloc in Hn. simpl. lia.
      + apply chain_blocks; [done|]. apply Forall_forall. intros b Hb%Hord. lia. }
  apply load_chain in Hch. rewrite <- write_segs in Hch. unfold new_tree_from_state. rewrite Hch. cbn [lbind].
  destruct (load_blocks_fields (t_mem s) order st2) as (E1 & E2 & E3 & E4 & E5 & E6). fold st3 in E1, E2, E3, E4, E5, E6.
  cbn [st2 st1 set_lallocs ls_live ls_nfb ls_root ls_epoch ls_allocs ls_blocks] in *. rewrite app_nil_r in E6.
  unfold finish_load. rewrite E2, (proj2 (N.leb_gt _ _)) by done.
  assert (Hex : existsb (N.eqb (t_nextFreeBlock s)) (ls_blocks st3) = false).
  { rewrite E6. apply not_true_iff_false. intros (b & Hb & Eb)%existsb_exists. apply N.eqb_eq in Eb as <-.
    apply elem_of_list_In in Hb. rewrite elem_of_list_In, <- in_rev, <- elem_of_list_In in Hb. apply Hord in Hb. lia. }
  rewrite Hex. cbv zeta. rewrite E6. eexists. split; [reflexivity|].
  split; cbn [t_mem t_locks t_nextFreeBlock t_root t_rootLock t_epoch t_resv t_allocs t_live]; try done.
  - intros x. unfold st3. rewrite load_blocks_mem. destruct (decide (x / blockSlots ∈ order)) as [|Hx]; [done|].
    cbn [st2 st1 set_lallocs ls_mem]. rewrite mget_mempty. symmetry. apply Hz. right. rewrite Hord in Hx.
    pose proof (N.div_mod' x blockSlots) as E. revert Hx E. unfold blockSlots. generalize (x / 262144), (x mod 262144). clear. intros. nia.
  - by rewrite E4.
  - by rewrite E5, map_length.
Qed.

(** ** The invariants of a restarted tree *)

Lemma ritems_rst r : forall t, ritems t (map (map rst) r) = map (fun it => (u64 it.1.1, it.1.2, 0)) (ritems t r).
Proof.
  induction r as [|l r IH]; intros t; [done|]. cbn [map ritems]. rewrite map_app, IH, !map_map. done.
Qed.

Lemma all_items_restart s s' : t_allocs s' = map restart_alloc (t_allocs s) ->
  all_items s' = map (fun it => (u64 it.1.1, it.1.2, 0)) (all_items s).
Proof.
  intros E. unfold all_items. rewrite E. clear E. induction (t_allocs s) as [|a l IH]; [done|].
  cbn [map]. rewrite !bind_cons, map_app, IH. f_equal. unfold al_its. cbn [restart_alloc al_recycler]. apply ritems_rst.
Qed.

Lemma all_bregs_restart s s' : t_allocs s' = map restart_alloc (t_allocs s) -> all_bregs s' = all_bregs s.
Proof. intros E. unfold all_bregs. rewrite E, map_map. done. Qed.

Lemma map_ireg_restart s L : alloc_inv s L ->
  map ireg (map (fun it => (u64 it.1.1, it.1.2, 0)) (all_items s)) = map ireg (all_items s).
Proof.
  intros [_ Hreg _ _ Hnb Hpos]. apply Forall_app in Hreg as [_ Hreg]. apply Forall_app in Hreg as [Hreg _].
  rewrite map_map. induction (all_items s) as [|[[n t] e] l IH]; [done|]. cbn [map] in Hreg |- *.
  apply Forall_cons in Hreg as [Hr Hreg]. apply Forall_cons in Hpos as [Hp Hpos]. rewrite IH by done. f_equal. unfold ireg in *. cbn [fst snd] in *.
  f_equal. apply u64_small. destruct Hr as [Hr|(_ & _ & Hr)]; [simpl in Hr; lia|]. cbn [fst] in Hr.
  pose proof (N.div_mod' n blockSlots) as E. pose proof (N.mod_lt n blockSlots ltac:(done)) as Hm.
  revert Hr E Hm Hnb. unfold blockSlots, maxBlockCount. generalize (n / 262144), (n mod 262144). clear. intros. nia.
Qed.

Lemma alloc_inv_restart s s' L : t_allocs s' = map restart_alloc (t_allocs s) -> t_nextFreeBlock s' = t_nextFreeBlock s ->
  alloc_inv s L -> alloc_inv s' L.
Proof.
  intros Ea En H. pose proof (map_ireg_restart _ _ H) as Ei. pose proof (all_items_restart _ _ Ea) as Eit. pose proof (all_bregs_restart _ _ Ea) as Eb.
  destruct H as [Hnd Hreg Hrec Hnf Hnb Hpos]. split.
  - by rewrite Eit, Eb, Ei.
  - by rewrite Eit, Eb, Ei, En.
  - rewrite Ea. apply Forall_map. eapply Forall_impl; [exact Hrec|]. intros a Hl. cbn. by rewrite map_length.
  - rewrite Ea. apply Forall_map. exact Hnf.
  - by rewrite En.
  - rewrite Eit. apply Forall_map. exact Hpos.
Qed.
