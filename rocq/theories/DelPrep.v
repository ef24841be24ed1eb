(** * DelPrep: what PrepareDelete returns and locks; root operations. *)
From Verif Require Export PrepFacts.

Section DelPrep.
Context (K : list N -> Prop) (fetch : N -> list N) (HK : universe K).
Local Notation core := (core K fetch).
Local Notation wf := (wf K fetch).

Lemma core_ext s s' T : t_mem s' = t_mem s -> t_root s' = t_root s -> t_allocs s' = t_allocs s ->
  t_nextFreeBlock s' = t_nextFreeBlock s -> core s T -> core s' T.
Proof.
  intros E1 E2 E3 E4 [H1 H2 H3 H4 H5]. split; rewrite ?E1, ?E2; try done; [by apply (alloc_inv_ext s)|].
  intros x Hx. unfold unused in Hx. rewrite E1. apply H5. by rewrite E4 in Hx.
Qed.

Record dbase (op : dop) (o : occ_t) : Prop := {
  db_node : d_node op = o_addr o;
  db_parent : d_parent op = o_par o;
  db_ptr : d_nodePtr op = o_ptr o;
  db_value : d_value op < vlim
}.

(** [dirty]: some operation was finalized since this one was prepared. *)
Definition dkind_ok (dirty : bool) (key : list N) (op : dop) (o : occ_t) : Prop :=
  let me := HLeaf (fetch (d_value op)) (d_value op) in
  match d_kind op with
  | deleteLeaf =>
    o_full o = false /\ to_byte (d_raw op) = default 0 (last (o_path o)) /\
    d_data op = Slice (o_addr o) (dlen (o_addr o)) /\ d_count op = length (o_hs o) /\ (3 <= length (o_hs o))%nat /\
    d_prefixLen op = length (o_pfx o) /\ d_prefixSlots op = prefix_slots (length (o_pfx o)) /\
    exists hl b hr, o_hs o = hl ++ (b, me) :: hr /\ d_leafPosition op = length hl
  | replaceNodeWithLeaf =>
    o_full o = false /\ d_count op = 2%nat /\ d_prefixSlots op = prefix_slots (length (o_pfx o)) /\
    exists b1 b2 k2 v2, (o_hs o = [(b1, me); (b2, HLeaf k2 v2)] \/ o_hs o = [(b2, HLeaf k2 v2); (b1, me)]) /\
      (fetch (d_value op) = key -> d_newLeaf op = buildLeaf (default (default 0 (head k2)) (last (o_path o))) v2)
  | replaceNodeWithNode =>
    o_full o = false /\ to_byte (d_raw op) = default 0 (last (o_path o)) /\
    exists b1 b2 cfull ca cpfx cn,
      (o_hs o = [(b1, me); (b2, HNode cfull ca cpfx cn)] \/ o_hs o = [(b2, HNode cfull ca cpfx cn); (b1, me)]) /\
      d_child op = ca /\ d_data op = Slice ca (dlen ca) /\ d_count op = cn /\ d_prefixSlots op = prefix_slots (length cpfx) /\
      d_prefix op = o_pfx o ++ [b2] ++ cpfx
  | deleteLeaf256 =>
    o_full o = true /\ exists b, b < 256 /\ d_raw op = buildLeaf b (d_value op) /\
      d_leafPtr op = PSlot (slot_of true (o_addr o) (o_pfx o) b 0) /\
      (dirty = false -> (b, me) ∈ o_hs o)
  | _ => False
  end.

Definition dvalid (dirty : bool) (key : list N) (op : dop) (o : occ_t) : Prop :=
  dbase op o /\ dkind_ok dirty key op o.

Definition dlids (op : dop) : list N :=
  match d_kind op with
  | deleteLeaf | replaceNodeWithLeaf => lids2 (d_node op) (d_parent op)
  | replaceNodeWithNode => lids3 (d_child op) (d_node op) (d_parent op)
  | _ => []
  end.

Definition pd_post (s : tree) (T : trie) (held : list N) (aid : nat) (key : list N) (R : res (option dop * tree)) : Prop :=
  match R with
  | Retry => exists i, i ∈ held
  | Ok (None, s1) => s1 = s /\ forall w, (key, w) ∉ contents T
  | Ok (Some op, s1) =>
    d_alloc op = aid /\
    (exists l', s1 = set_locks s l' /\ locks_inv l' (dlids op ++ held)) /\
    (exists o, occr T o /\ dvalid false key op o) /\
    (exists k, (k, d_value op) ∈ contents T) /\ (forall w, (key, w) ∈ contents T -> d_value op = w)
  | _ => False
  end.

(** Only the root has the root's word. *)
Lemma root_addr s C full a pfx cs : core s (Some (plug C (Node full a pfx cs))) ->
  (t_root s =? hole_word C (Node full a pfx cs)) = match C with [] => true | _ => false end.
Proof.
  intros Hc. destruct (decide (C = [])) as [->|HC].
  { rewrite (co_root _ _ _ _ Hc). by rewrite N.eqb_refl. }
  replace (match C with [] => true | _ => false end) with false by (by destruct C).
  destruct (exists_last HC) as (C0 & f0 & E0).
  apply N.eqb_neq. rewrite (co_root _ _ _ _ Hc). rewrite E0 at 1. rewrite plug_app. simpl.
  unfold fill. intros Heq.
  assert (Hr : core s (Some (plug [] (fill f0 (plug C0 (Node full a pfx cs)))))).
  { rewrite E0, plug_app in Hc. done. }
  pose proof (hole_explode K fetch s C full a pfx cs Hc) as H1.
  unfold fill in Hr. pose proof (hole_explode K fetch s [] _ _ _ _ Hr) as H2.
  change (enc_root (Some ?x)) with (hole_word [] x) in Heq. rewrite Heq in H2. rewrite H1 in H2.
  assert (Ea : a = f_a f0) by congruence.
  pose proof (co_alloc _ _ _ _ Hr) as Hall. simpl in Hall.
  destruct Hall as [Hnd _ _ _ _]. rewrite cover_app in Hnd. apply NoDup_app in Hnd as (Hnd & _ & _).
  rewrite cover_cons in Hnd. apply NoDup_app in Hnd as (_ & Hnd & _).
  destruct (sub_facts K fetch s [] _ Hr) as (Hw0 & _). destruct (sub_facts K fetch s C _ Hc) as (Hw & _).
  pose proof (nslots_pos _ _ _ _ _ _ _ Hw0) as Hp0. pose proof (nslots_pos _ _ _ _ _ _ _ Hw) as Hp.
  apply (Hnd (f_a f0)).
  - simpl. apply elem_of_seqN. lia.
  - apply elem_of_cover. exists (a, nslots full pfx (length cs)). simpl. split; [|apply elem_of_seqN; lia].
    apply elem_of_list_bind. exists (f_b f0, plug C0 (Node full a pfx cs)). split.
    + simpl. rewrite regs_plug. apply elem_of_app; left. left.
    + apply elem_of_app; right; left.
Qed.

Lemma wf_leaf_inv p k v : wf p (Leaf k v) -> p `prefix_of` k /\ K k /\ v < vlim /\ fetch v = k.
Proof. by inversion 1. Qed.

Lemma last_path_byte (key p : list N) (b : N) : p `prefix_of` key -> last p = Some b -> key !! (length p - 1)%nat = Some b.
Proof.
  intros [q ->] Hl. rewrite last_lookup in Hl. rewrite lookup_app_l.
  - rewrite <- Hl. f_equal. lia.
  - destruct p; [done|]. simpl. lia.
Qed.

Lemma two_split (l r : list (N * trie)) x : length (l ++ x :: r) = 2%nat ->
  (exists y, l = [] /\ r = [y]) \/ (exists y, l = [y] /\ r = []).
Proof.
  rewrite app_length. simpl. destruct l as [|y [|]], r as [|z [|]]; simpl; try lia; intros _; [left|right]; eauto.
Qed.

Lemma leaf_in_T C full a pfx cs b k v : (b, Leaf k v) ∈ cs -> (k, v) ∈ contents (plug C (Node full a pfx cs)).
Proof.
  intros Hin. rewrite contents_plug. apply elem_of_app; right; apply elem_of_app; left.
  rewrite contents_node. apply elem_of_list_bind. exists (b, Leaf k v). split; [by left|done].
Qed.

Lemma pd_loop_ok s T held aid key : core s (Some T) -> bytes key -> key <> [] -> locks_inv (t_locks s) held ->
  forall fuel C full a pfx cs pg, T = plug C (Node full a pfx cs) ->
  (forall w, (key, w) ∈ contents T -> path_of C `prefix_of` key) ->
  (length (path_of C) <= length key < fuel + length (path_of C))%nat ->
  (par_of C <> 0 -> lget (t_locks s) (lock_id (par_of C)) = pg) ->
  pd_post s T held aid key
    (pd_loop fuel s aid key (t_root s) (hole_word C (Node full a pfx cs)) (ptr_of C) (par_of C) pg (length (path_of C))).
Proof.
  intros Hc Hbk Hne Hl. induction fuel as [|fuel IH]; intros C full a pfx cs pg -> Hpath Hfuel Hpg.
  { simpl in Hfuel. lia. }
  destruct (sub_facts _ _ _ _ _ Hc) as (Hw & Hrep & Hreg). pose proof (sub_view _ _ _ _ _ _ _ _ Hc) as Hv.
  pose proof (sub_region _ _ _ _ _ _ _ _ Hc) as (Ha0 & _).
  pose proof (occ_at_plug C _ _ (occ_at_here C full a pfx cs)) as Hocc.
  set (t := Node full a pfx cs) in *.
  assert (Hpg' : (if par_of C =? 0 then Ok pg else generation s (par_of C)) = Ok pg).
  { destruct (N.eqb_spec (par_of C) 0); [done|]. rewrite (par_gen K fetch s C t Hc) by done. by rewrite Hpg. }
  pose proof (co_alloc _ _ _ _ Hc) as Hall. simpl in Hall.
  pose proof (co_wf _ _ _ _ Hc) as HwT. simpl in HwT.
  assert (Hkey : forall w, (key, w) ∈ contents (plug C t) -> exists b, (path_of C ++ pfx ++ [b]) `prefix_of` key).
  { intros w Hin. assert (Hu : (key, w) ∈ contents t) by (eapply (contents_under K fetch []); [done|by eapply Hpath|done]).
    unfold t in Hu. rewrite contents_node in Hu. apply elem_of_list_bind in Hu as ([b' c'] & Hin' & Hc').
    destruct (child_wf _ _ _ _ _ _ _ _ _ Hw Hc') as [Hw' _].
    destruct (wf_contents K fetch _ _ _ _ Hw' Hin') as (Hq & _). by exists b'. }
  cbn [pd_loop]. pose proof (hole_explode K fetch s C full a pfx cs Hc) as Hexp. fold t in Hexp. rewrite Hexp.
  rewrite (v_gen _ _ _ _ _ Hv). cbn [bind]. rewrite (ptr_word K fetch s C _ Hc), N.eqb_refl. cbn [negb].
  rewrite Hpg'. cbn [bind]. rewrite N.eqb_refl. cbn [negb].
  rewrite (v_data _ _ _ _ _ Hv). cbn [bind]. rewrite (v_skip _ _ _ _ _ Hv). cbn [bind].
  destruct (Nat.leb_spec (length key) (length (path_of C) + length pfx)) as [Hle|Hlt].
  { split; [done|]. intros w Hin. destruct (Hkey w Hin) as [b Hb]. apply prefix_length in Hb.
    rewrite !app_length in Hb. simpl in Hb. lia. }
  destruct (lookup_lt_is_Some_2 key _ Hlt) as [k Ek]. rewrite (key_at_Some _ _ _ Ek). cbn [bind].
  assert (Hk256 : k < 256) by (eapply Forall_lookup_1 in Hbk; [|done]; done).
  assert (Hkey' : forall w, (key, w) ∈ contents (plug C t) -> (path_of C ++ pfx ++ [k]) `prefix_of` key).
  { intros w Hin. destruct (Hkey w Hin) as [b Hb]. pose proof (prefix_next _ _ _ _ Hb). congruence. }
  destruct (ncount_bounds K fetch _ _ _ _ _ Hw) as [Hn ->].
  assert (Hfound : forall l1 k' v' l2, cs = l1 ++ (k, Leaf k' v') :: l2 ->
    (exists k0, (k0, v') ∈ contents (plug C t)) /\ (forall w, (key, w) ∈ contents (plug C t) -> v' = w)).
  { intros l1 k' v' l2 Ecs. split.
    - exists k'. apply leaf_in_T with k. rewrite Ecs. apply elem_of_app; right; left.
    - intros w Hin. pose proof (Hkey' w Hin) as Hp. unfold t in *. rewrite Ecs in *.
      destruct (found_leaf K fetch C full a pfx l1 k k' v' l2 key HwT Hp) as [_ Hf]. by destruct (Hf w Hin). }
  assert (Hrec : forall l1 full' a' pfx' cs' l2, cs = l1 ++ (k, Node full' a' pfx' cs') :: l2 ->
     pd_post s (plug C t) held aid key (pd_loop fuel s aid key (t_root s) (enc k (Node full' a' pfx' cs'))
       (PSlot (slot_of full a pfx k (length l1))) a (lget (t_locks s) (lock_id a)) (S (length (path_of C) + length pfx)))).
  { intros l1 full' a' pfx' cs' l2 Ecs. 
    pose proof (IH (Frame full a pfx l1 k l2 :: C) full' a' pfx' cs' (lget (t_locks s) (lock_id a))) as Hrec.
    replace (S (length (path_of C) + length pfx)) with (length (path_of C ++ pfx ++ [k]))
      by (rewrite !app_length; simpl; lia).
    apply Hrec; try done.
    - unfold t. by rewrite Ecs.
    - cbn [path_of f_pfx f_b]. rewrite !app_length. simpl length. lia. }
  destruct full.
  - rewrite (view_get _ _ _ _ _ (N.to_nat k) Hv) by (simpl; lia). cbn [bind sl_base]. rewrite N2Nat.id.
    destruct (full_child K fetch s _ (path_of C) a pfx cs k Hall Hreg Hw Hrep Hk256) as [-> Hch].
    destruct (assoc k cs) as [c|] eqn:Ec.
    + change (default 0 (enc k <$> Some c)) with (enc k c).
      destruct Hch as (H1 & H2 & H3). rewrite (proj2 (N.eqb_neq _ _)) by done. rewrite H2.
      destruct (assoc_split _ _ _ Ec) as (l1 & l2 & Ecs & Hnl).
      destruct c as [k' v'|full' a' pfx' cs']; cbn [is_leaf].
      * assert (Hin : (k, Leaf k' v') ∈ cs) by (rewrite Ecs; apply elem_of_app; right; left).
        destruct (child_wf _ _ _ _ _ _ _ _ _ Hw Hin) as [Hwl _]. apply wf_leaf_inv in Hwl as (_ & Hk' & Hv' & Hf'). subst k'.
        rewrite leaf_value by done. destruct (Hfound _ _ _ _ Ecs) as [Hf1 Hf2].
        split; [done|]. split; [exists (t_locks s); split; [by destruct s|done]|]. split; [|done].
        eexists. split; [exact Hocc|]. split; [done|]. cbn. split; [done|]. exists k. split_and!; try done.
        intros _. rewrite Ecs, heads_app. apply elem_of_app; right. left.
      * by eapply Hrec.
    + change (default 0 (enc k <$> None)) with 0. rewrite N.eqb_refl. split; [done|]. intros w Hin.
      apply assoc_None in Ec. by eapply (not_stored K fetch C true a pfx cs key k w); [|eapply Hkey'| |].
  - change (ncount false (length cs)) with (length cs) in *.
    pose proof (v_upto _ _ _ _ _ Hv) as Hup. change (ncount false (length cs)) with (length cs) in Hup.
    rewrite Hup. cbn [bind sl_base].
    destruct (small_scan K fetch s _ (path_of C) a pfx cs k Hall Hreg Hw Hrep) as
      [(l1 & c & l2 & Ecs & E & Hb & Hlf)|(Hnk & l1 & l2 & brk & i & w & Ecs & Hl1 & Hl2 & E & Hpos & Hw')].
    2:{ rewrite E. rewrite (proj2 (N.eqb_neq _ _)) by done. split; [done|]. intros w' Hin.
        by eapply (not_stored K fetch C false a pfx cs key k w'); [|eapply Hkey'| |]. }
    rewrite E. rewrite Hb, N.eqb_refl, Hlf.
    destruct c as [k' v'|full' a' pfx' cs']; cbn [is_leaf]; [|by eapply Hrec].
    assert (Hin : (k, Leaf k' v') ∈ cs) by (rewrite Ecs; apply elem_of_app; right; left).
    destruct (child_wf _ _ _ _ _ _ _ _ _ Hw Hin) as [Hwl _]. apply wf_leaf_inv in Hwl as (_ & Hk' & Hv' & Hf'). subst k'.
    rewrite leaf_value by done. destruct (Hfound _ _ _ _ Ecs) as [Hf1 Hf2].
    assert (Hraw : to_byte (hole_word C t) = default 0 (last (path_of C))).
    { destruct (hole_enc K fetch s C t Hc eq_refl) as (-> & _ & _). apply hole_byte_last. }
    destruct (Nat.eqb_spec (length cs) 2) as [E2|E2].
    2:{ match goal with |- context [with_lock s a ?ng (par_of C) pg ?kk] =>
          destruct (with_lock_ok s held a ng (par_of C) pg kk Hl eq_refl Hpg) as [(-> & i & Hi1 & Hi2)|(l' & -> & Hl')] end.
        { by exists i. }
        split; [done|]. split; [by exists l'|]. split; [|done].
        eexists. split; [exact Hocc|]. split; [done|]. cbn. rewrite heads_length. split_and!; try done; [lia|].
        exists (heads l1), k, (heads l2). rewrite heads_length. split; [|done]. by rewrite Ecs, heads_app. }
    (* two children *)
    assert (Hget : forall l1' b y l2', cs = l1' ++ (b, y) :: l2' -> mget (t_mem s) (a + N.of_nat (prefix_slots (length pfx)) + N.of_nat (length l1')) = enc b y).
    { intros l1' b y l2' E'. pose proof Hrep as Hrep'. apply rep_node_iff in Hrep' as [Hnm _].
      rewrite E', bws_app, bws_cons in Hnm.
      pose proof (node_mem_child (t_mem s) false a pfx (bws l1') b (enc b y) (bws l2')) as Hnc.
      rewrite bws_length in Hnc. apply Hnc; [|done]. rewrite <- bws_cons, <- bws_app, <- E'. apply sbytes_bws.
      by apply wf_node_iff in Hw as (? & _). }
    assert (Hother : exists b y, (b, y) ∈ cs /\ mget (t_mem s) (a + N.of_nat (prefix_slots (length pfx)) + N.of_nat (1 - length l1)) = enc b y /\
      (1 - length l1 < length cs)%nat /\
      (heads cs = [(k, HLeaf (fetch v') v'); (b, head_of y)] \/ heads cs = [(b, head_of y); (k, HLeaf (fetch v') v')])).
    { rewrite Ecs in E2. destruct (two_split _ _ _ E2) as [([b y] & -> & ->)|([b y] & -> & ->)].
      - exists b, y. split_and!; [rewrite Ecs; right; left| |rewrite Ecs; simpl; lia|left; by rewrite Ecs].
        change (1 - length (@nil (N * trie)))%nat with (length [(k, Leaf (fetch v') v')]).
        eapply (Hget [(k, Leaf (fetch v') v')]). by rewrite Ecs.
      - exists b, y. split_and!; [rewrite Ecs; left| |rewrite Ecs; simpl; lia|right; by rewrite Ecs].
        change (1 - length [(b, y)])%nat with (length (@nil (N * trie))). eapply (Hget []). by rewrite Ecs. }
    destruct Hother as (b2 & y & Hy & Hgety & Hlt1 & Hhs).
    rewrite (view_get _ _ _ _ _ _ Hv) by done. cbn [bind]. rewrite Hgety.
    destruct (child_enc K fetch s _ _ _ _ _ _ b2 y Hall Hreg Hw Hy) as (Hb2 & Hby & Hyl & _). rewrite Hyl.
    destruct (child_wf _ _ _ _ _ _ _ _ _ Hw Hy) as [Hwy _].
    destruct y as [k2 v2|cfull ca cpfx ccs]; cbn [is_leaf].
    + (* other is a leaf *)
      match goal with |- context [with_lock s a ?ng (par_of C) pg ?kk] =>
          destruct (with_lock_ok s held a ng (par_of C) pg kk Hl eq_refl Hpg) as [(-> & i & Hi1 & Hi2)|(l' & -> & Hl')] end.
      { by exists i. }
      rewrite (N.eqb_sym (hole_word C t)), (root_addr s C _ _ _ _ Hc : (t_root s =? hole_word C t) = _).
      apply wf_leaf_inv in Hwy as (Hpk2 & Hkk2 & Hvv2 & Hff2). subst k2.
      assert (Hupd : forall c, c < 256 -> updateLeafKey (enc b2 (Leaf (fetch v2) v2)) c = buildLeaf c v2)
        by (intros; by apply updateLeafKey_buildLeaf).
      match goal with |- context [bind ?nl _] =>
        assert (Hnl : exists nw, nl = Ok nw /\ (fetch v' = key -> nw = buildLeaf (default (default 0 (head (fetch v2))) (last (path_of C))) v2)) end.
      { destruct C as [|f C'].
        - destruct (Nat.ltb_spec 0 (length pfx)) as [Hpl|Hpl].
          + destruct key as [|c0 key']; [done|]. change (key_at (c0 :: key') 0) with (@Ok N c0). cbn [bind].
            eexists; split; [done|]. intros Heq. inversion Hbk; subst.
            rewrite Hupd by done. f_equal. simpl.
            assert (Hst : (c0 :: key', v') ∈ contents (plug [] t)).
            { rewrite <- Heq. eapply leaf_in_T. exact Hin. }
            pose proof (Hkey' _ Hst) as Hpk. simpl in Hpk, Hpk2. destruct pfx as [|c1 pfx']; [simpl in Hpl; lia|].
            destruct Hpk as [q1 Hq1], Hpk2 as [q2 Hq2]. simpl in Hq1, Hq2. rewrite Hq2. simpl. congruence.
          + eexists; split; [done|]. intros Heq. rewrite Hby. rewrite Hupd by done. f_equal. simpl.
            destruct pfx; [|simpl in Hpl; lia]. simpl in Hpk2. destruct Hpk2 as [q2 Hq2]. by rewrite Hq2.
        - replace (length (path_of (f :: C')) + length pfx - length pfx - 1)%nat with (length (path_of (f :: C')) - 1)%nat by lia.
          assert (Hlen : (0 < length (path_of (f :: C')))%nat) by (simpl; rewrite !app_length; simpl; lia).
          destruct (lookup_lt_is_Some_2 key (length (path_of (f :: C')) - 1) ltac:(lia)) as [c0 Ec0].
          rewrite (key_at_Some _ _ _ Ec0). cbn [bind]. eexists; split; [done|]. intros Heq.
          assert (Hst : (key, v') ∈ contents (plug (f :: C') t)).
          { rewrite <- Heq. eapply leaf_in_T. exact Hin. }
          pose proof (Hpath _ Hst) as Hpp.
          assert (Hlast : last (path_of (f :: C')) = Some (f_b f)) by (simpl; by rewrite app_assoc, last_snoc).
          pose proof (last_path_byte _ _ _ Hpp Hlast) as Hlb. rewrite Hlast. simpl.
          assert (c0 = f_b f) as -> by congruence. apply Hupd.
          eapply Forall_lookup_1 in Hbk; [|exact Ec0]. done. }
      destruct Hnl as (nw & -> & Hnw). cbn [bind].
      split; [done|]. split; [by exists l'|]. split; [|done].
      eexists. split; [exact Hocc|]. split; [done|]. cbn. split_and!; try done.
      exists k, b2, (fetch v2), v2. split; [|done]. simpl in Hhs. destruct Hhs as [-> | ->]; [by left|by right].
    + (* other is a node *)
      assert (Hregc : forall r, r ∈ regs (Node cfull ca cpfx ccs) -> r ∈ regs (plug C t)).
      { intros r Hr. apply Hreg. by eapply child_regs. }
      pose proof (explode_enc K fetch s _ _ b2 cfull ca cpfx ccs Hall Hregc Hwy Hb2) as Hex2.
      assert (Hrepc : rep (t_mem s) (Node cfull ca cpfx ccs)).
      { apply rep_node_iff in Hrep as [_ Hrep]. rewrite Forall_forall in Hrep. exact (Hrep _ Hy). }
      pose proof (node_view K fetch s _ _ cfull ca cpfx ccs Hall Hregc Hwy Hrepc) as Hvc.
      rewrite Hex2. rewrite (v_gen _ _ _ _ _ Hvc). cbn [bind].
      pose proof (lock_nodes3_ok (t_locks s) held ca _ a _ (par_of C) pg Hl ltac:(lia) eq_refl eq_refl Hpg) as Hl3.
      destruct (lock_nodes3 _ _ _ _ _ _ _) as [l'|].
      2:{ destruct Hl3 as (i & _ & Hi). by exists i. }
      change (t_mem (set_locks s l')) with (t_mem s). rewrite (v_append _ _ _ _ _ Hv). cbn [bind].
      change (node_data (set_locks s l') ca) with (node_data s ca). rewrite (v_data _ _ _ _ _ Hvc). cbn [bind].
      rewrite (v_append _ _ _ _ _ Hvc). cbn [bind].
      split; [done|]. split; [by exists l'|]. split; [|done].
      eexists. split; [exact Hocc|]. split; [done|]. cbn. split_and!; try done.
      exists k, b2, cfull, ca, cpfx, (ncount cfull (length ccs)). split_and!; try done.
Qed.
End DelPrep.
