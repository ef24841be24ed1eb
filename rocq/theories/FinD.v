(** * FinD: what Finalize of a delete does to the tree. *)
From Verif Require Export FinU.

Section FinD.
Context (K : list N -> Prop) (fetch : N -> list N) (HK : universe K).
Local Notation core := (core K fetch).
Local Notation wf := (wf K fetch).
Local Notation upd := (upd K fetch).
Local Notation fin := (fin K fetch).

(** [mg]: the node that is merged with its child; both leave the tree, only the child is recycled. *)
Definition find_post (mg : option N) (s : tree) (T : option trie) (held : list N) (rl : N) (X : list N) (v : N) (size : nat) (R : res (bool * tree)) : Prop :=
  match R with
  | Ok (true, s') => exists T' G, Forall (fun r => mg = Some r.1 \/ noted s' r) G /\ fin s T s' T' held rl G (-1) /\ keeps T T' X /\ removed T T' (fetch v) v
  | Panic OutOfBlocks => True
  | Panic OutOfRange => bad_size size
  | _ => False
  end.

(** ** The last key (delete.go:271-274) *)

Lemma fin_del_root s k0 v aid held : core s (Some (Leaf k0 v)) -> (aid < length (t_allocs s))%nat ->
  locks_inv (t_locks s) held ->
  find_post None s (Some (Leaf k0 v)) held (gen_dec (t_rootLock s)) [] v 0
    (do s1 <- add_items (unlock_root (set_root s 0)) aid (-1); Ok (true, s1)).
Proof.
  intros Hc Haid Hl.
  pose proof (root_word_leaf _ _ HK _ _ _ Hc) as (_ & _ & _ & _ & Hfw & _).
  pose proof (upd_root K fetch s _ s None [] [] Hc (prepd_refl _ _ _ _ Hc) ltac:(done) I I) as Hu.
  apply (upd_rootLock _ _ _ _ _ _ _ _ _ _ _ (gen_dec (t_rootLock s))) in Hu.
  destruct (upd_items _ _ _ _ _ _ _ _ _ _ _ aid (-1) Hu Haid) as (s3 & E & Hu3).
  unfold unlock_root. simpl in *. rewrite E. cbn [bind].
  destruct (no_occ_leaf (Some (Leaf k0 v)) None k0 v []) as [Hkp Hg]; [by right|].
  exists None, []. split; [constructor|]. split; [split|split].
  - exists (t_locks s), (t_epoch s). auto.
  - done.
  - intros y Hy. by apply elem_of_nil in Hy.
  - done.
  - unfold removed. simpl. by rewrite Hfw.
Qed.

(** ** A node with two leaves becomes a leaf (delete.go:276-283) *)

Lemma fin_to_leaf s C a pfx cs b1 k1 v b2 k2 v2 aid held w :
  core s (Some (plug C (Node false a pfx cs))) ->
  cs ≡ₚ [(b1, Leaf k1 v); (b2, Leaf k2 v2)] ->
  w = buildLeaf (default (default 0 (head k2)) (last (path_of C))) v2 ->
  (aid < length (t_allocs s))%nat -> locks_inv (t_locks s) (lids2 a (par_of C) ++ held) ->
  find_post None s (Some (plug C (Node false a pfx cs))) held (t_rootLock s) (touched a (par_of C)) v
    (2 + prefix_slots (length pfx))
    (tail (pset s (ptr_of C) w) aid a (par_of C) (2 + prefix_slots (length pfx)) (-1)).
Proof.
  intros Hc Hcs Hw Haid Hl.
  destruct (sub_facts _ _ _ _ _ Hc) as (Hwf & Hrep & Hreg).
  pose proof Hwf as Hwf'. apply wf_node_iff in Hwf' as (Hs & Hlen & Hex & Hch).
  assert (Hlc : length cs = 2%nat) by by rewrite Hcs.
  rewrite Hcs in Hch. rewrite !Forall_cons in Hch. destruct Hch as (H1 & H2 & _). simpl in H1, H2.
  apply wf_leaf_inv in H1 as (_ & _ & _ & Hf1). 
  assert (Hw2 : wf (path_of C) (Leaf k2 v2)).
  { apply wf_leaf_inv in H2 as (Hp & ? & ? & ?). constructor; try done. etrans; [|exact Hp]. apply prefix_app_r. done. }
  destruct (fin_replace K fetch s C false a pfx cs s [] (Leaf k2 v2) aid held (-1) (2 + prefix_slots (length pfx))
    w Hc (prepd_refl _ _ _ _ Hc) Hw2 (rep_leaf _ _ _)) with (6 := Hl) (5 := Haid) as [(Hbad & ->)|(s' & -> & Hno & Hfin & Hkeep)].
  - rewrite regs_node. simpl. rewrite Hcs. simpl. done.
  - intros b c np0 o Hin Ho. rewrite Hcs in Hin. exfalso.
    apply elem_of_cons in Hin as [[= -> ->]|Hin]; [by apply occ_leaf in Ho|].
    apply elem_of_list_singleton in Hin as [= -> ->]. by apply occ_leaf in Ho.
  - rewrite Hlc. unfold nslots, ncount. lia.
  - rewrite Hw. unfold hole_word. simpl. f_equal. destruct C as [|f C]; [done|]. simpl.
    by rewrite app_assoc, last_snoc.
  - done.
  - eexists _, _. split; [constructor; [by right|constructor]|]. split; [exact Hfin|]. split; [done|]. unfold removed. simpl. rewrite !contents_plug_perm, contents_node.
    rewrite Hcs. simpl. by rewrite Hf1.
Qed.

(** ** Removing a leaf from a variable-sized node (delete.go:301-318) *)

Lemma fin_remove s C a pfx cl cr k k1 v aid raw held :
  core s (Some (plug C (Node false a pfx (cl ++ (k, Leaf k1 v) :: cr)))) ->
  (3 <= length (cl ++ (k, Leaf k1 v) :: cr))%nat ->
  (aid < length (t_allocs s))%nat -> to_byte raw = default 0 (last (path_of C)) ->
  locks_inv (t_locks s) (lids2 a (par_of C) ++ held) -> forall cnt split,
  cnt = length (cl ++ (k, Leaf k1 v) :: cr) -> split = (prefix_slots (length pfx) + length cl)%nat ->
  find_post None s (Some (plug C (Node false a pfx (cl ++ (k, Leaf k1 v) :: cr)))) held (t_rootLock s) (touched a (par_of C)) v
    (cnt + prefix_slots (length pfx))
    (do (n, dst, s1) <- allocate_node s aid (cnt - 1) (length pfx);
     do _ <- sl_upto (Slice a (dlen a)) (cnt + prefix_slots (length pfx));
     do m1 <- sl_copy (t_mem s1) dst (Slice a (dlen a)) 0 split;
     do dst' <- sl_from dst split;
     do m2 <- sl_copy m1 dst' (Slice a (dlen a)) (split + 1) (cnt + prefix_slots (length pfx) - (split + 1));
     tail (pset (set_mem s1 m2) (ptr_of C) (buildNode (to_byte raw) n (cnt - 1) (length pfx))) aid a (par_of C)
       (cnt + prefix_slots (length pfx)) (-1)).
Proof.
  intros Hc H3 Haid Hraw Hl cnt split Ecnt Esplit. set (cs := cl ++ (k, Leaf k1 v) :: cr) in *.
  set (t := Node false a pfx cs) in *. set (ps := prefix_slots (length pfx)) in *.
  destruct (sub_facts _ _ _ _ _ Hc) as (Hw & Hrep & Hreg).
  pose proof (sub_region _ _ _ _ _ _ _ _ Hc) as (Ha0 & Ha39 & Hfit & Hblk & Hnb).
  destruct (pfx_facts _ _ HK _ _ _ _ _ Hw) as [Hbp Hsz].
  assert (Hns : nslots false pfx (length cs) = (cnt + ps)%nat) by (unfold nslots, ncount, ps; lia).
  pose proof (nslots_pos _ _ _ _ _ _ _ Hw) as Hnspos.
  pose proof Hw as Hw0. apply wf_node_iff in Hw0 as (Hs & Hlen & Hex & Hch).
  assert (Hlc : cnt = (length cl + 1 + length cr)%nat) by (subst cnt; unfold cs; rewrite app_length; simpl; lia).
  destruct (allocate_node_ok s aid (cnt - 1) (length pfx) _ (co_alloc _ _ _ _ Hc) Haid) as [->|(n & s1 & -> & Hal & Hm1)];
    [lia|apply Hsz; lia|done|]. cbn [bind].
  pose proof (prepd_alloc _ _ _ _ _ _ _ (prepd_refl _ _ _ _ Hc) Hal) as Hpr.
  pose proof (allocd_fits _ _ _ _ _ Hal ltac:(lia)) as (Hn0 & Hnfit & Hnblk).
  fold ps in Hnfit, Hpr, Hal.
  pose proof (live_fresh_disj K fetch s _ s1 _ false a pfx cs n (cnt - 1 + ps) Hc Hpr Hreg ltac:(left) ltac:(lia) Hnspos) as Hd2.
  rewrite Hns in Hd2, Hfit.
  rewrite sl_upto_ok by (simpl; lia). cbn [bind].
  destruct (sl_copy_ok (t_mem s1) (Slice n (dlen n)) (Slice a (dlen a)) 0 split) as (m1 & -> & Hc1 & Ho1);
    [simpl; lia|simpl; lia|]. cbn [bind sl_base] in *.
  rewrite sl_from_ok by (simpl; lia). cbn [bind sl_base sl_len].
  destruct (sl_copy_ok m1 (Slice (n + N.of_nat split) (dlen n - N.of_nat split)) (Slice a (dlen a)) (split + 1)
     (cnt + ps - (split + 1))) as (m3 & -> & Hc3 & Ho3); [simpl; lia|simpl; lia|]. cbn [bind sl_base] in *.
  assert (Hlow : forall j, (j < split)%nat -> mget m3 (n + N.of_nat j) = mget (t_mem s) (a + N.of_nat j)).
  { intros j Hj. rewrite Ho3 by (rewrite elem_of_seqN; lia). rewrite Hc1 by done. by rewrite Hm1. }
  assert (Hhigh : forall j, (j < length cr)%nat -> mget m3 (n + N.of_nat (split + j)) = mget (t_mem s) (a + N.of_nat (split + 1 + j))).
  { intros j Hj. replace (n + N.of_nat (split + j)) with (n + N.of_nat split + N.of_nat j) by lia.
    rewrite Hc3 by lia. rewrite Ho1 by (rewrite elem_of_seqN; lia). by rewrite Hm1. }
  assert (Hout : forall x, x ∉ cover [(n, (cnt - 1 + ps)%nat)] -> mget m3 x = mget (t_mem s1) x).
  { intros x Hx. rewrite cover_cons, app_nil_r in Hx. cbn [fst snd] in Hx. rewrite elem_of_seqN in Hx.
    rewrite Ho3 by (rewrite elem_of_seqN; lia). apply Ho1. rewrite elem_of_seqN. lia. }
  pose proof (prepd_mem _ _ _ _ _ Hpr Hout) as Hpr3.
  set (t' := Node false n pfx (cl ++ cr)).
  assert (Hlc' : length (cl ++ cr) = (cnt - 1)%nat) by (rewrite app_length; lia).
  assert (Hw' : wf (path_of C) t').
  { apply wf_node_iff. split; [|split; [|split]].
    - destruct Hs as [Hs1 Hs2]. unfold cs in *. rewrite map_app in *. simpl in *. apply SSorted_app in Hs1 as (Ha & Hb & Hlt).
      apply SSorted_cons in Hb as [Hb Hlt2]. rewrite Forall_app, Forall_cons in Hs2. split; rewrite map_app.
      + apply SSorted_app. split_and!; [done..|]. intros y z Hy Hz. apply Hlt; [done|by right].
      + apply Forall_app. naive_solver.
    - rewrite Hlc'. lia.
    - done.
    - unfold cs in Hch. rewrite Forall_app, Forall_cons in Hch. apply Forall_app. naive_solver. }
  assert (Hrep' : rep m3 t').
  { pose proof (rep_kids _ _ _ _ _ _ _ _ _ _ Hc Hpr3 Hreg Hrep) as Hkids. change (t_mem (set_mem s1 m3)) with m3 in Hkids.
    apply rep_node_iff in Hrep as [[Hpf Hnm] _]. fold ps in Hnm. apply rep_node_iff. split.
    - split.
      + eapply prefix_at_copy; [exact Hpf|]. intros i Hi. fold ps in Hi. apply Hlow. lia.
      + fold ps. unfold cs in Hnm. rewrite bws_app, bws_cons, map_app in Hnm. cbn [map snd] in Hnm.
        rewrite app_length in Hnm. cbn [length] in Hnm. rewrite !bws_length in Hnm.
        rewrite mread_app in Hnm. apply app_inj_1 in Hnm as [Hnm1 Hnm2]; [|by rewrite mread_length, map_length, bws_length].
        cbn [mread] in Hnm2. injection Hnm2 as _ Hnm2.
        rewrite bws_app, map_app, app_length, !bws_length, mread_app. f_equal.
        * rewrite <- Hnm1. apply list_eq. intros i. destruct (decide (i < length cl)%nat).
          -- rewrite !mread_lookup by done. f_equal.
             replace (n + N.of_nat ps + N.of_nat i) with (n + N.of_nat (ps + i)) by lia.
             replace (a + N.of_nat ps + N.of_nat i) with (a + N.of_nat (ps + i)) by lia. apply Hlow. lia.
          -- by rewrite !mread_lookup_ge by lia.
        * rewrite <- Hnm2. apply list_eq. intros i. destruct (decide (i < length cr)%nat).
          -- rewrite !mread_lookup by done. f_equal.
             replace (n + N.of_nat ps + N.of_nat (length cl) + N.of_nat i) with (n + N.of_nat (split + i)) by lia.
             replace (a + N.of_nat ps + N.of_nat (length cl) + 1 + N.of_nat i) with (a + N.of_nat (split + 1 + i)) by lia.
             by apply Hhigh.
          -- by rewrite !mread_lookup_ge by lia.
    - unfold cs in Hkids. rewrite Forall_app, Forall_cons in Hkids. apply Forall_app. naive_solver. }
  assert (Hword : buildNode (to_byte raw) n (cnt - 1) (length pfx) = hole_word C t').
  { unfold hole_word, t'. rewrite hole_byte_last. rewrite Hraw. simpl. by rewrite Hlc'. }
  assert (Hleaf : wf (path_of C ++ pfx ++ [k]) (Leaf k1 v)).
  { unfold cs in Hch. rewrite Forall_app, Forall_cons in Hch. naive_solver. }
  apply wf_leaf_inv in Hleaf as (_ & _ & _ & Hf1).
  destruct (fin_replace K fetch s C false a pfx cs (set_mem s1 m3) _ t' aid held (-1) (cnt + ps)
    (buildNode (to_byte raw) n (cnt - 1) (length pfx)) Hc Hpr3 Hw' Hrep')
    with (6 := Hl) (5 := Haid) (4 := Hword) as [(Hbad & ->)|(s' & -> & Hno & Hfin & Hkeep)].
  - unfold t', cs. rewrite !regs_node, !bind_app, bind_cons. fold cs. rewrite Hns, Hlc'.
    replace (nslots false pfx (cnt - 1)) with (cnt - 1 + ps)%nat by (unfold nslots, ncount, ps; lia). simpl. constructor.
  - intros b c np0 o Hin Ho.
    assert (Hin' : (b, c) ∈ cl ++ cr).
    { unfold cs in Hin. apply elem_of_app in Hin. apply elem_of_app.
      destruct Hin as [Hin|[[= -> ->]|Hin]%elem_of_cons]; [by left|by apply occ_leaf in Ho|by right]. }
    split; [intros Hne; by eapply occ_into|by eapply occ_into_weak].
  - by rewrite Hns.
  - done.
  - eexists _, _. split; [constructor; [by right|constructor]|]. split; [exact Hfin|]. split; [done|]. unfold removed. simpl. rewrite !contents_plug_perm.
    unfold t, t', cs. rewrite !contents_node, !bind_app, bind_cons. simpl. rewrite Hf1. solve_Permutation.
Qed.

(** ** Merging a node with its last child (delete.go:285-299) *)

Lemma fin_merge s C a pfx cs b1 k1 v b2 cfull ca cpfx ccs aid raw held :
  core s (Some (plug C (Node false a pfx cs))) ->
  cs ≡ₚ [(b1, Leaf k1 v); (b2, Node cfull ca cpfx ccs)] ->
  (aid < length (t_allocs s))%nat -> to_byte raw = default 0 (last (path_of C)) ->
  locks_inv (t_locks s) (lids3 ca a (par_of C) ++ held) -> forall cnt cps npfx,
  cnt = ncount cfull (length ccs) -> cps = prefix_slots (length cpfx) -> npfx = pfx ++ [b2] ++ cpfx ->
  find_post (Some a) s (Some (plug C (Node false a pfx cs))) held (t_rootLock s) (ca :: touched a (par_of C)) v
    (cnt + cps)
    (do (n, dst, s1) <- allocate_node_with_prefix s aid cnt npfx;
     do m <- sl_copy (t_mem s1) dst (Slice ca (dlen ca)) cps cnt;
     let s2 := pset (set_mem s1 m) (ptr_of C) (buildNode (to_byte raw) n cnt (length npfx)) in
     do l <- unlock_nodes3 (t_locks s2) ca a (par_of C);
     do s3 <- recycle (set_locks s2 l) aid ca (cnt + cps);
     do s4 <- add_items s3 aid (-1);
     Ok (true, s4)).
Proof.
  intros Hc Hcs Haid Hraw Hl cnt cps npfx Ecnt Ecps Enp.
  set (t := Node false a pfx cs) in *. set (ch := Node cfull ca cpfx ccs) in *.
  destruct (sub_facts _ _ _ _ _ Hc) as (Hw & Hrep & Hreg).
  pose proof Hw as Hw0. apply wf_node_iff in Hw0 as (Hs & Hlen & Hex & Hch).
  assert (Hlc : length cs = 2%nat) by by rewrite Hcs.
  assert (Hin : (b2, ch) ∈ cs) by (rewrite Hcs; right; left).
  assert (Hreg' : forall r, r ∈ regs ch -> r ∈ regs (plug C t)).
  { intros r Hr. apply Hreg. eapply (child_regs _ _ _ _ b2 ch); done. }
  destruct (elem_of_list_split _ _ Hin) as (cl & cr & Ecs).
  assert (Hc2 : core s (Some (plug (Frame false a pfx cl b2 cr :: C) ch))).
  { simpl. unfold fill. simpl. by rewrite <- Ecs. }
  pose proof (sub_region _ _ _ _ _ _ _ _ Hc2) as (Hca0 & Hca39 & Hcfit & Hcblk & Hnb).
  pose proof (sub_region _ _ _ _ _ _ _ _ Hc) as (Ha0 & _).
  destruct (sub_facts _ _ _ _ _ Hc2) as (Hwc & Hrepc & _).
  pose proof Hwc as Hwc0. apply wf_node_iff in Hwc0 as (Hsc & Hlenc & Hexc & Hchc).
  simpl path_of in Hwc, Hexc, Hchc.
  pose proof (ncount_bounds _ _ _ _ _ _ _ Hwc) as [Hcb _]. rewrite <- Ecnt in Hcb.
  pose proof (nslots_pos _ _ _ _ _ _ _ Hwc) as Hnspos.
  assert (Hns : nslots cfull cpfx (length ccs) = (cnt + cps)%nat) by (unfold nslots; subst; lia).
  assert (Hbn : bytes npfx /\ N.of_nat (cnt + prefix_slots (length npfx)) <= 262142).
  { destruct Hexc as (k0 & b0 & Hk0 & Hq0).
    assert (Hq : (path_of C ++ npfx) `prefix_of` k0).
    { etrans; [|exact Hq0]. subst npfx. exists [b0]. by rewrite <- !app_assoc. }
    destruct (key_facts _ HK k0 _ Hk0 Hq) as [Hb Hsz]. unfold bytes in Hb. apply Forall_app in Hb as [_ Hb]. split; [done|].
    apply Hsz; [lia|]. rewrite app_length. lia. }
  destruct Hbn as [Hbn Hsz].
  destruct (allocate_node_with_prefix_ok s aid cnt npfx _ (co_alloc _ _ _ _ Hc) Haid) as [->|(n & s1 & -> & Hal & Hpre)];
    [lia|done|done|done|]. cbn [bind].
  pose proof (prepd_alloc _ _ _ _ _ _ _ (prepd_refl _ _ _ _ Hc) Hal) as Hpr.
  pose proof (allocd_fits _ _ _ _ _ Hal ltac:(lia)) as (Hn0 & Hnfit & Hnblk).
  set (pn := prefix_slots (length npfx)) in *.
  pose proof (live_fresh_disj K fetch s _ s1 _ cfull ca cpfx ccs n (cnt + pn) Hc Hpr Hreg' ltac:(left) ltac:(lia) Hnspos) as Hd1.
  rewrite Hns in Hd1, Hcfit.
  destruct (sl_copy_ok (t_mem s1) (Slice (n + N.of_nat pn) (dlen n - N.of_nat pn)) (Slice ca (dlen ca)) cps cnt)
    as (m1 & -> & Hc1 & Ho1); [simpl; lia|simpl; lia|]. cbn [bind sl_base] in *.
  assert (Hpr1 : prepd s (Some (plug C t)) (set_mem s1 m1) [(n, (cnt + pn)%nat)]).
  { apply prepd_mem; [done|]. intros x Hx. rewrite cover_cons, app_nil_r in Hx. cbn [fst snd] in Hx.
    rewrite elem_of_seqN in Hx. apply Ho1. rewrite elem_of_seqN. lia. }
  set (t' := Node cfull n npfx ccs).
  assert (Hw' : wf (path_of C) t').
  { apply wf_node_iff. split; [done|]. split; [done|]. subst npfx. split.
    - destruct Hexc as (k0 & b0 & Hk0 & Hq0). exists k0, b0. split; [done|]. by rewrite <- !app_assoc in *.
    - eapply Forall_impl; [exact Hchc|]. intros c Hcw. simpl in *. by rewrite <- !app_assoc in *. }
  assert (Hrep' : rep m1 t').
  { pose proof (rep_kids _ _ _ _ _ _ _ _ _ _ Hc Hpr1 Hreg' Hrepc) as Hkids. change (t_mem (set_mem s1 m1)) with m1 in Hkids.
    apply rep_node_iff in Hrepc as [Hnm _]. apply rep_node_iff. split; [|done].
    eapply node_mem_copy; [exact Hnm| |].
    - eapply prefix_at_agree; [exact Hpre|]. fold pn. intros x Hx. rewrite elem_of_seqN in Hx.
      apply Ho1. rewrite elem_of_seqN. lia.
    - fold pn. rewrite <- Ecps. intros j Hj. rewrite bws_length, <- Ecnt in Hj.
      rewrite Hc1 by done. rewrite (pr_mem _ _ _ _ Hpr); [f_equal; lia|].
      rewrite cover_cons, app_nil_r. cbn [fst snd]. rewrite elem_of_seqN. lia. }
  set (ra := (a, nslots false pfx (length cs))). set (rc := (ca, (cnt + cps)%nat)).
  assert (Hperm : [(n, (cnt + pn)%nat)] ++ regs t ≡ₚ [ra; rc] ++ regs t').
  { unfold t, t'. rewrite !regs_node. fold ra. rewrite Hcs. rewrite !bind_cons. cbn [snd]. unfold ch. rewrite regs_node, Hns. fold rc.
    replace (nslots cfull npfx (length ccs)) with (cnt + pn)%nat by (unfold nslots, pn; subst; lia).
    change (mbind _ []) with (@nil (N * nat)). rewrite app_nil_r. simpl. solve_Permutation. }
  pose proof (upd_publish K fetch s C t (set_mem s1 m1) t' _ _ Hc Hpr1 Hperm Hw' Hrep') as Hpub.
  assert (Hword : hole_word C t' = buildNode (to_byte raw) n cnt (length npfx)).
  { unfold hole_word, t'. rewrite hole_byte_last, Hraw. simpl. by rewrite Ecnt. }
  rewrite Hword in Hpub. pose proof Hpub as Hpub'.
  set (s2 := pset (set_mem s1 m1) _ _) in *. cbv zeta.
  apply (upd_leak _ _ _ _ _ _ [ra] [rc]) in Hpub'.
  assert (Hane : a <> 0) by lia.
  destruct (unlock_nodes3_ok _ _ _ _ _ Hane Hl) as (l & El & Hl').
  rewrite (up_locks _ _ _ _ _ _ _ _ _ _ _ Hpub'), El. cbn [bind].
  apply (upd_locks _ _ _ _ _ _ _ _ _ _ _ l) in Hpub'.
  destruct (decide ((cnt + cps)%nat = recyclerLen)) as [E258|Hne].
  { rewrite E258, recycle_258. done. }
  destruct (upd_recycle _ _ _ _ _ _ _ _ _ _ _ _ _ Hpub' Haid Hne ltac:(lia)) as (s3 & e & E3 & He & Hu2). rewrite E3. cbn [bind].
  pose proof (recycle_noted _ _ _ _ _ _ E3 (up_alloc _ _ _ _ _ _ _ _ _ _ _ Hu2)) as Hno.
  destruct (upd_items _ _ _ _ _ _ _ _ _ _ _ aid (-1) Hu2 Haid) as (s4 & E4 & Hu3). rewrite E4. cbn [bind].
  apply (add_items_noted _ _ _ _ _ E4) in Hno.
  assert (Hf1 : fetch v = k1).
  { rewrite Hcs in Hch. rewrite !Forall_cons in Hch. destruct Hch as (H1 & _). simpl in H1. by apply wf_leaf_inv in H1 as (_ & _ & _ & ?). }
  exists (Some (plug C t')), [ra; rc]. split; [constructor; [by left|constructor; [by right|constructor]]|]. split; [split|split].
  - exists l, e. done.
  - apply gone_plug. intros o Ho. apply occ_cases in Ho as [->|(b & c & np0 & Hin' & Ho)].
    + right. unfold oreg. simpl. rewrite heads_length. left.
    + rewrite Hcs in Hin'. apply elem_of_cons in Hin' as [[= -> ->]|Hin']; [by apply occ_leaf in Ho|].
      apply elem_of_list_singleton in Hin' as [= -> ->]. apply occ_cases in Ho as [->|(b' & c' & np1 & Hin2 & Ho)].
      * right. unfold oreg. simpl. rewrite heads_length, Hns. right. left.
      * left. unfold t', occ_at. eapply occ_into_weak; [exact Hin2|]. subst npfx. by rewrite <- !app_assoc in *.
  - intros x Hx. eapply upd_disj; [exact Hpub|done].
  - apply keeps_plug.
    + intros HC. right. apply touched_par; [|done]. by eapply par_ne.
    + intros o Ho Hoa. apply occ_cases in Ho as [->|(b & c & np0 & Hin' & Ho)].
      * simpl in Hoa. exfalso. apply Hoa. right. apply touched_node.
      * rewrite Hcs in Hin'. apply elem_of_cons in Hin' as [[= -> ->]|Hin']; [by apply occ_leaf in Ho|].
        apply elem_of_list_singleton in Hin' as [= -> ->]. apply occ_cases in Ho as [->|(b' & c' & np1 & Hin2 & Ho)].
        -- simpl in Hoa. exfalso. apply Hoa. left.
        -- unfold t', occ_at. split; [intros Hop; eapply occ_into|eapply occ_into_weak]; [exact Hin2| | |exact Hin2|].
           ++ subst npfx. by rewrite <- !app_assoc in *.
           ++ intros E. apply Hop. rewrite E. left.
           ++ subst npfx. by rewrite <- !app_assoc in *.
  - unfold removed. simpl. rewrite !contents_plug_perm. unfold t, t'. rewrite !contents_node.
    rewrite Hcs. rewrite !bind_cons. cbn [snd]. unfold ch. rewrite contents_node.
    change (mbind _ []) with (@nil (list N * N)). rewrite app_nil_r, Hf1. done.
Qed.

(** ** Deleting from a node-256, without any lock (delete.go:320-325) *)

Definition oexts (T T' : option trie) : Prop := forall o, ooccr T o -> exists o', ooccr T' o' /\ oext o o'.

Definition del256 (s : tree) (aid : nat) (p : ptr) (raw : N) : res (bool * tree) :=
  let '(u, s1) := pcas s p raw 0 in
  do s2 <- (if u then add_items s1 aid (-1) else Ok s1);
  Ok (u, s2).

Definition del256_post (dirty : bool) (s : tree) (T : option trie) (held : list N) (v : N) (R : res (bool * tree)) : Prop :=
  match R with
  | Ok (true, s') => exists T', fin s T s' T' held (t_rootLock s) [] (-1) /\ oexts T T' /\ removed T T' (fetch v) v
  | Ok (false, s') => dirty = true /\ s' = s
  | _ => False
  end.

Lemma oexts_plug C a pfx cs cs' : (forall c, c ∈ cs -> is_leaf c.2 = false -> c ∈ cs') ->
  (forall c, c ∈ cs' -> c ∈ cs) ->
  oexts (Some (plug C (Node true a pfx cs))) (Some (plug C (Node true a pfx cs'))).
Proof.
  intros Hin Hf o Ho. simpl in *. destruct (occ_plug_inv C _ o Ho) as [H|H].
  - eapply occ_full in H as [->|H]; [|by exists o; split; [by apply occ_at_plug|apply oext_refl]|done].
    eexists. split; [apply occ_at_plug, occ_at_here|]. split; try done. simpl. intros h (c & -> & Hc)%elem_of_list_fmap.
    apply elem_of_list_fmap. exists c. split; [done|]. by apply Hf.
  - destruct (H (Node true a pfx cs')) as (o' & Ho' & Hs & He). exists o'. split; [done|].
    rewrite He by (by right). apply oext_refl.
Qed.

Lemma del256_ok dirty s C a pfx cs b v aid held :
  core s (Some (plug C (Node true a pfx cs))) -> b < 256 -> v < vlim ->
  (dirty = false -> (b, HLeaf (fetch v) v) ∈ heads cs) ->
  (aid < length (t_allocs s))%nat -> locks_inv (t_locks s) held ->
  del256_post dirty s (Some (plug C (Node true a pfx cs))) held v
    (del256 s aid (PSlot (slot_of true a pfx b 0)) (buildLeaf b v)).
Proof.
  intros Hc Hb Hv Hd Haid Hl. unfold del256, pcas. simpl pget.
  destruct (leaf_slot_full K fetch s C a pfx cs b v dirty Hc Hb Hv Hd) as [(cl & cr & -> & Hx)|(-> & Hne & Hx)].
  - pose proof (ptr_word _ _ _ (Frame true a pfx cl b cr :: C) (Leaf (fetch v) v) Hc) as Hw.
    simpl in Hw. unfold hole_word in Hw. simpl in Hw. change (f_slot _) with (slot_of true a pfx b 0) in Hw.
    rewrite Hw, N.eqb_refl.
    destruct (sub_facts _ _ _ _ _ Hc) as (Hwf & _ & _).
    apply wf_node_iff in Hwf as (Hs & Hlen & Hex & Hch). pose proof (sbytes_mid _ _ _ _ Hs) as (_ & Hnl & Hnr).
    assert (Hw' : wf (path_of C) (Node true a pfx (cl ++ cr))).
    { apply wf_node_iff. split; [|split; [|split]]; try done.
      - destruct Hs as [Hs1 Hs2]. rewrite map_app in *. simpl in *. apply SSorted_app in Hs1 as (Ha & Hb' & Hlt).
        apply SSorted_cons in Hb' as [Hb' Hlt2]. rewrite Forall_app, Forall_cons in Hs2. split; rewrite map_app.
        + apply SSorted_app. split_and!; [done..|]. intros y z Hy Hz. apply Hlt; [done|by right].
        + apply Forall_app. naive_solver.
      - rewrite Forall_app, Forall_cons in Hch. apply Forall_app. naive_solver. }
    assert (Ha1 : 0 = default 0 (enc b <$> assoc b (cl ++ cr))).
    { rewrite (proj2 (assoc_None b (cl ++ cr))); [done|]. by rewrite map_app, not_elem_of_app. }
    assert (Ha2 : forall b', b' <> b -> assoc b' (cl ++ cr) = assoc b' (cl ++ (b, Leaf (fetch v) v) :: cr)).
    { intros b' Hb'. rewrite assoc_mid by done. by rewrite decide_False by done. }
    assert (Ha3 : forall c, c ∈ cl ++ cr -> c ∈ cl ++ (b, Leaf (fetch v) v) :: cr \/ is_leaf c.2 = true).
    { intros c Hin. left. apply elem_of_app in Hin. apply elem_of_app. destruct Hin; [by left|by right; right]. }
    assert (Ha4 : forall c, c ∈ cl ++ (b, Leaf (fetch v) v) :: cr -> is_leaf c.2 = false -> c ∈ cl ++ cr).
    { intros c [Hin|[->|Hin]%elem_of_cons]%elem_of_app Hn; [apply elem_of_app; by left|done|apply elem_of_app; by right]. }
    pose proof (upd_slot256 K fetch s C a pfx _ (cl ++ cr) b 0 Hc Hb Hw' Ha1 Ha2 Ha3 Ha4) as Hu.
    destruct (upd_items _ _ _ _ _ _ _ _ _ _ _ aid (-1) Hu Haid) as (s3 & -> & Hu3). cbn [bind].
    destruct (fin_slot256_keeps C a pfx _ (cl ++ cr) Ha4) as [_ Hgo].
    eexists. split; [split|split].
    + exists (t_locks s), (t_epoch s). split; [exact Hu3|]. auto.
    + done.
    + intros y Hy. by apply elem_of_nil in Hy.
    + apply oexts_plug; [done|]. intros c. rewrite !elem_of_app, elem_of_cons. naive_solver.
    + unfold removed. simpl. rewrite !contents_plug_perm, !contents_node, !bind_app, bind_cons. simpl. solve_Permutation.
  - rewrite (proj2 (N.eqb_neq _ _)) by done. cbn [bind]. done.
Qed.

(** The node was replaced meanwhile: the delete only clears a word of dead memory. *)
Lemma core_zap s T x : core s T -> x ∉ cover (oregs T) -> ~ unused s x -> core (pset s (PSlot x) 0) T.
Proof.
  intros [C1 C2 C3 C4 C5] Hx Hx0. split; [done| |done|by apply (alloc_inv_ext s)|].
  - destruct T as [t|]; [|done]. simpl. eapply rep_agree; [exact C2|]. intros y Hy. apply mget_mset_ne. intros ->. done.
  - intros y Hy. simpl. rewrite mget_mset_ne by (intros ->; done). by apply C5.
Qed.

Lemma del256_stale s T x raw aid held : core s T -> x ∉ cover (oregs T) -> ~ unused s x ->
  (aid < length (t_allocs s))%nat -> locks_inv (t_locks s) held ->
  match del256 s aid (PSlot x) raw with
  | Ok (true, s') => mget (t_mem s) x = raw /\ fin (pset s (PSlot x) 0) T s' T held (t_rootLock s) [] (-1)
  | Ok (false, s') => s' = s
  | _ => False
  end.
Proof.
  intros Hc Hx Hx0 Haid Hl. unfold del256, pcas. simpl pget. destruct (N.eqb_spec (mget (t_mem s) x) raw) as [Hraw|]; [|done].
  set (s0 := pset s (PSlot x) 0). pose proof (core_zap _ _ _ Hc Hx Hx0 : core s0 T) as Hc0.
  pose proof (prepd_upd _ _ _ _ _ _ Hc0 (prepd_refl _ _ _ _ Hc0)) as Hu.
  destruct (upd_items _ _ _ _ _ _ _ _ _ _ _ aid (-1) Hu Haid) as (s3 & E & Hu3). rewrite E. cbn [bind].
  split; [done|]. split.
  - exists (t_locks s0), (t_epoch s0). auto.
  - apply gone_refl.
  - intros y Hy. by apply elem_of_nil in Hy.
Qed.

(** ** The switch of Finalize *)

Definition droot (op : dop) (T : option trie) : Prop :=
  d_kind op = deleteRoot /\ d_value op < vlim /\ T = Some (Leaf (fetch (d_value op)) (d_value op)).

Lemma fin_droot_ok s T op held : core s T -> droot op T -> (d_alloc op < length (t_allocs s))%nat ->
  locks_inv (t_locks s) held ->
  find_post None s T held (gen_dec (t_rootLock s)) [] (d_value op) 0 (finalize_delete_body s op).
Proof.
  intros Hc (Ek & _ & ->) Haid Hl. unfold finalize_delete_body. rewrite Ek. by apply fin_del_root.
Qed.

Definition merged (op : dop) : option N := match d_kind op with replaceNodeWithNode => Some (d_node op) | _ => None end.
Definition is_del256 (op : dop) : bool := match d_kind op with deleteLeaf256 => true | _ => false end.

(** Nodes whose locks the operation holds. *)
Definition dtouched (op : dop) : list N :=
  match d_kind op with
  | replaceNodeWithNode => d_child op :: touched (d_node op) (d_parent op)
  | _ => touched (d_node op) (d_parent op)
  end.

Lemma two_perm {A} (l : list A) x y : l = [x; y] \/ l = [y; x] -> l ≡ₚ [x; y].
Proof. intros [->| ->]; [done|constructor]. Qed.

Lemma heads_two cs b1 h1 b2 h2 : heads cs = [(b1, h1); (b2, h2)] \/ heads cs = [(b2, h2); (b1, h1)] ->
  exists t1 t2, cs ≡ₚ [(b1, t1); (b2, t2)] /\ head_of t1 = h1 /\ head_of t2 = h2.
Proof.
  destruct cs as [|[c1 t1] [|[c2 t2] [|]]]; simpl; intros [H|H]; try done.
  - injection H as -> <- -> <-. by exists t1, t2.
  - injection H as -> <- -> <-. exists t2, t1. split; [constructor|done].
Qed.

Lemma fin_dnode_ok dirty s T o key op held :
  core s (Some T) -> occr T o -> dvalid fetch dirty key op o -> is_del256 op = false ->
  (d_alloc op < length (t_allocs s))%nat -> locks_inv (t_locks s) (dlids op ++ held) ->
  fetch (d_value op) = key ->
  find_post (merged op) s (Some T) held (t_rootLock s) (dtouched op) (d_value op) (d_count op + d_prefixSlots op)
    (finalize_delete_body s op).
Proof.
  intros Hc Ho [Hb Hkind] H256 Haid Hl Hkey.
  destruct o as [opath optr opar a full pfx hs].
  destruct (occ_zip _ _ Ho) as (C & cs & -> & E1 & E2 & E3 & E4). simpl in E1, E2, E3, E4. subst opath optr opar hs. clear Ho.
  cbn [o_full o_addr o_pfx] in *.
  destruct Hb as [Enode Epar Eptr Hvl]. simpl in *.
  destruct (sub_facts _ _ _ _ _ Hc) as (Hw & Hrep & Hreg). pose proof (ncount_bounds _ _ _ _ _ _ _ Hw) as [Hcb Hcf].
  unfold finalize_delete_body, dkind_ok, dlids, dtouched, merged, is_del256, unlock_dop in *. rewrite Enode, Epar, Eptr in *.
  destruct (d_kind op) eqn:Ek; try done; simpl in Hkind.
  - destruct Hkind as (-> & Hraw & Edata & Ecount & H3 & Epl & Eps & hl & b & hr & Ehs & Epos).
    apply heads_split in Ehs as (cl & t & cr & -> & El & Eh & Er). destruct t as [k0 v0|]; [|done]. injection Eh as -> ->.
    rewrite heads_length in *. rewrite Edata, Ecount, Epl, Eps, Epos. subst hl. rewrite heads_length.
    eapply fin_remove; done.
  - destruct Hkind as (-> & Ecount & Eps & b1 & b2 & k2 & v2 & Ehs & Enl).
    apply heads_two in Ehs as (t1 & t2 & Hcs & Eh1 & Eh2). destruct t1 as [k0 v0|]; [|done]. injection Eh1 as -> ->.
    destruct t2 as [k0 v0|]; [|done]. injection Eh2 as -> ->. rewrite Ecount, Eps, Enl by done.
    eapply fin_to_leaf; done.
  - destruct Hkind as (-> & Hraw & b1 & b2 & cfull & ca & cpfx & cn & Ehs & Ech & Edata & Ecount & Eps & Epfx).
    apply heads_two in Ehs as (t1 & t2 & Hcs & Eh1 & Eh2). destruct t1 as [k0 v0|]; [|done]. injection Eh1 as -> ->.
    destruct t2 as [|cfull' ca' cpfx' ccs]; [done|]. injection Eh2 as -> -> -> Hcn.
    rewrite Ech, Edata, Ecount, Eps, Epfx in *. eapply fin_merge; done.
Qed.
End FinD.
