(** * Core: the state relation between the model state and the ghost trie, and what one
    node access returns. *)
From Verif Require Export Occ.

Global Arguments hole_word : simpl never.

Definition oregs (T : option trie) : list (N * nat) := from_option regs [] T.
Definition ocontents (T : option trie) : list (list N * N) := from_option contents [] T.

Section Core.
Context (K : list N -> Prop) (fetch : N -> list N).

Record core (s : tree) (T : option trie) : Prop := {
  co_root : t_root s = enc_root T;
  co_rep : from_option (rep (t_mem s)) True T;
  co_wf : from_option (wf K fetch []) True T;
  co_alloc : alloc_inv s (oregs T);
  co_zero : zeroed s
}.

(** ** Words of subtrees *)

Definition is_leaf (t : trie) : bool := match t with Leaf _ _ => true | Node _ _ _ _ => false end.

Lemma ncount_bounds p (full : bool) a pfx cs : wf K fetch p (Node full a pfx cs) ->
  (2 <= ncount full (length cs) <= 256)%nat /\ ((fullAllocFrom <=? ncount full (length cs))%nat = full).
Proof.
  intros H. apply wf_node_iff in H as (_ & H & _). unfold ncount, fullAllocFrom. destruct full.
  - split; [lia|]. apply Nat.leb_le. lia.
  - split; [lia|]. apply Nat.leb_gt. lia.
Qed.

Lemma nslots_pos p (full : bool) a pfx cs : wf K fetch p (Node full a pfx cs) ->
  (0 < nslots full pfx (length cs))%nat.
Proof. intros H%ncount_bounds. unfold nslots. lia. Qed.

Lemma addr_small s a : block_of a < t_nextFreeBlock s -> t_nextFreeBlock s < maxBlockCount -> a < 2 ^ 39.
Proof.
  rewrite block_of_div. unfold maxBlockCount, blockSlots. intros H1 H2. change (2 ^ 39) with 549755813888.
  gdiv a 262144. nia.
Qed.

Lemma node_region s L p full a pfx cs : alloc_inv s L -> (forall r, r ∈ regs (Node full a pfx cs) -> r ∈ L) ->
  wf K fetch p (Node full a pfx cs) ->
  0 < a /\ a < 2 ^ 39 /\ N.of_nat (nslots full pfx (length cs)) <= dlen a /\
  block_of a < t_nextFreeBlock s /\ t_nextFreeBlock s < maxBlockCount.
Proof.
  intros Ha Hr Hwf. destruct (alloc_inv_region s L a (nslots full pfx (length cs)) Ha) as (H1 & H2 & H3).
  - apply Hr. rewrite regs_node. left.
  - by eapply nslots_pos.
  - pose proof (ai_nb _ _ Ha). split_and!; try done. by eapply addr_small.
Qed.

Lemma enc_facts s L p b t : alloc_inv s L -> (forall r, r ∈ regs t -> r ∈ L) -> wf K fetch p t -> b < 256 ->
  to_byte (enc b t) = b /\ isLeaf (enc b t) = is_leaf t /\ enc b t <> 0.
Proof.
  intros Ha Hr Hwf Hb. destruct t as [k v|full a pfx cs]; simpl.
  - split_and!; [by apply buildLeaf_byte|by apply buildLeaf_isLeaf|by apply buildLeaf_nonzero].
  - destruct (node_region s L p full a pfx cs Ha Hr Hwf) as (H1 & H2 & _).
    destruct (ncount_bounds _ _ _ _ _ Hwf) as [Hn _].
    split_and!.
    + apply buildNode_byte; [done..|lia].
    + apply buildNode_notLeaf; [done..|lia].
    + apply buildNode_nonzero; [done..|lia|lia].
Qed.

Lemma explode_enc s L p b full a pfx cs : alloc_inv s L -> (forall r, r ∈ regs (Node full a pfx cs) -> r ∈ L) ->
  wf K fetch p (Node full a pfx cs) -> b < 256 ->
  explodeNode (enc b (Node full a pfx cs)) = (b, a, ncount full (length cs), plen8 (length pfx)).
Proof.
  intros Ha Hr Hwf Hb. destruct (node_region s L p full a pfx cs Ha Hr Hwf) as (H1 & H2 & _).
  destruct (ncount_bounds _ _ _ _ _ Hwf) as [Hn _]. simpl. apply explode_build; [done..|lia].
Qed.

Lemma leaf_value b k v : b < 256 -> v < vlim -> getLeafValue (enc b (Leaf k v)) = v.
Proof. intros Hb Hv. simpl. rewrite buildLeaf_value by done. by apply N.mod_small. Qed.

Lemma child_regs full a pfx cs b c r : (b, c) ∈ cs -> r ∈ regs c -> r ∈ regs (Node full a pfx cs).
Proof. intros Hc Hr. rewrite regs_node. right. apply elem_of_list_bind. exists (b, c). done. Qed.

Lemma child_wf p full a pfx cs b c : wf K fetch p (Node full a pfx cs) -> (b, c) ∈ cs ->
  wf K fetch (p ++ pfx ++ [b]) c /\ b < 256.
Proof.
  intros H Hc. apply wf_node_iff in H as ([_ Hb] & _ & _ & H). rewrite Forall_forall in H; rewrite Forall_forall in Hb. split.
  - exact (H _ Hc).
  - apply Hb. apply elem_of_list_fmap. by exists (b, c).
Qed.

Lemma child_enc s L p full a pfx cs b c : alloc_inv s L -> (forall r, r ∈ regs (Node full a pfx cs) -> r ∈ L) ->
  wf K fetch p (Node full a pfx cs) -> (b, c) ∈ cs ->
  b < 256 /\ to_byte (enc b c) = b /\ isLeaf (enc b c) = is_leaf c /\ enc b c <> 0.
Proof.
  intros Ha Hr Hwf Hc. destruct (child_wf _ _ _ _ _ _ _ Hwf Hc) as [Hw Hb]. split; [done|].
  eapply enc_facts; [done| |done|done]. intros r Hr'. apply Hr. by eapply child_regs.
Qed.

(** ** The scan over a sorted node *)

Lemma scan_spec m base k ws i0 last :
  mread m (base + N.of_nat i0) (length ws) = map snd ws ->
  Forall (fun c => to_byte c.2 = c.1) ws -> StronglySorted N.lt (map fst ws) ->
  (exists l w r, ws = l ++ (k, w) :: r /\ scan m base k i0 (length ws) last = (true, (i0 + length l)%nat, w)) \/
  (k ∉ map fst ws /\ exists l r brk i a, ws = l ++ r /\ (forall b, b ∈ map fst l -> b < k) /\
     (forall b, b ∈ map fst r -> k < b) /\
     scan m base k i0 (length ws) last = (brk, i, a) /\
     (if brk : bool then i else (i0 + length ws)%nat) = (i0 + length l)%nat /\ (ws <> [] -> to_byte a <> k) /\
     (ws = [] -> i = last.1 /\ a = last.2)).
Proof.
  revert i0 last. induction ws as [|[b w] ws IH]; intros i0 last Hm Hb Hs.
  - right. split; [apply not_elem_of_nil|]. exists [], [], false, last.1, last.2. simpl.
    split_and!; try done; by intros ? ?%elem_of_nil.
  - simpl in *. injection Hm as Hw Hm. inversion Hb as [|?? Hbw Hb']; subst. simpl in Hbw.
    apply SSorted_cons in Hs as [Hs Hlt]. rewrite Hbw.
    destruct (N.leb_spec k b) as [Hle|Hgt].
    + destruct (decide (k = b)) as [->|Hne].
      * left. exists [], (mget m (base + N.of_nat i0)), ws. split; [done|]. simpl. by rewrite Nat.add_0_r.
      * right. split.
        { intros [->|Hin]%elem_of_cons; [done|]. specialize (Hlt _ Hin). lia. }
        eexists [], _, true, i0, _. split_and!; try done.
        -- by intros ? ?%elem_of_nil.
        -- intros b' Hb2. simpl in Hb2. apply elem_of_cons in Hb2 as [->|Hin]; [lia|]. specialize (Hlt _ Hin). lia.
        -- simpl; lia.
    + replace (base + N.of_nat i0 + 1) with (base + N.of_nat (S i0)) in Hm by lia.
      destruct (IH (S i0) (i0, mget m (base + N.of_nat i0)) Hm Hb' Hs) as
        [(l & w' & r & -> & E)|(Hk & l & r & brk & i & a & -> & Hl & Hr & E & Hpos & Hne & Hemp)].
      * left. exists ((b, mget m (base + N.of_nat i0)) :: l), w', r. split; [done|]. rewrite E. f_equal. f_equal. simpl. lia.
      * right. split.
        { apply not_elem_of_cons. split; [lia|done]. }
        exists ((b, mget m (base + N.of_nat i0)) :: l), r, brk, i, a. split_and!; try done.
        -- intros b' [->|Hin]%elem_of_cons; [done|by apply Hl].
        -- destruct brk; [simpl; lia|]. simpl in *. lia.
        -- intros _. destruct (decide (l ++ r = [])) as [El|El]; [|by apply Hne].
           destruct (Hemp El) as [_ ->]. simpl. rewrite Hbw. lia.
Qed.

(** ** Node access *)

Record view (s : tree) (full : bool) (a : N) (pfx : list N) (cs : list (N * trie)) : Prop := {
  v_gen : generation s a = Ok (lget (t_locks s) (lock_id a));
  v_data : node_data s a = Ok (Slice a (dlen a));
  v_append : append_prefix (t_mem s) (Slice a (dlen a)) (plen8 (length pfx)) = Ok (pfx, prefix_slots (length pfx));
  v_skip : skip_prefix (t_mem s) (Slice a (dlen a)) (plen8 (length pfx)) =
    Ok (length pfx, prefix_slots (length pfx),
      Slice (a + N.of_nat (prefix_slots (length pfx))) (dlen a - N.of_nat (prefix_slots (length pfx))));
  v_from : sl_from (Slice a (dlen a)) (prefix_slots (length pfx)) =
    Ok (Slice (a + N.of_nat (prefix_slots (length pfx))) (dlen a - N.of_nat (prefix_slots (length pfx))));
  v_upto : sl_upto (Slice (a + N.of_nat (prefix_slots (length pfx))) (dlen a - N.of_nat (prefix_slots (length pfx))))
    (ncount full (length cs)) = Ok tt;
  v_fit : N.of_nat (nslots full pfx (length cs)) <= dlen a
}.

Lemma node_view s L p full a pfx cs : alloc_inv s L -> (forall r, r ∈ regs (Node full a pfx cs) -> r ∈ L) ->
  wf K fetch p (Node full a pfx cs) -> rep (t_mem s) (Node full a pfx cs) -> view s full a pfx cs.
Proof.
  intros Ha Hr Hwf Hrep. destruct (node_region s L p full a pfx cs Ha Hr Hwf) as (H1 & H2 & H3 & H4 & H5).
  apply rep_node_iff in Hrep as [[Hp Hm] _].
  assert (N.of_nat (prefix_slots (length pfx)) <= dlen a) by (unfold nslots in H3; lia).
  split.
  - by apply generation_eq.
  - by apply node_data_eq.
  - by apply append_prefix_ok.
  - by apply skip_prefix_ok.
  - unfold sl_from. cbn [sl_len sl_base]. by rewrite (proj2 (N.leb_le _ _)) by lia.
  - unfold sl_upto. cbn [sl_len sl_base]. rewrite (proj2 (N.leb_le _ _)); [done|]. unfold nslots in H3. lia.
  - done.
Qed.

Lemma view_get s full a pfx cs i : view s full a pfx cs -> (i < ncount full (length cs))%nat ->
  sl_get (t_mem s) (Slice (a + N.of_nat (prefix_slots (length pfx))) (dlen a - N.of_nat (prefix_slots (length pfx)))) i
  = Ok (mget (t_mem s) (a + N.of_nat (prefix_slots (length pfx)) + N.of_nat i)).
Proof.
  intros Hv Hi. pose proof (v_fit _ _ _ _ _ Hv) as Hf. unfold nslots in Hf. unfold sl_get. cbn [sl_len sl_base].
  rewrite (proj2 (N.ltb_lt _ _)) by lia. done.
Qed.

Lemma full_child s L p a pfx cs k : alloc_inv s L -> (forall r, r ∈ regs (Node true a pfx cs) -> r ∈ L) ->
  wf K fetch p (Node true a pfx cs) -> rep (t_mem s) (Node true a pfx cs) -> k < 256 ->
  mget (t_mem s) (a + N.of_nat (prefix_slots (length pfx)) + k) = default 0 (enc k <$> assoc k cs) /\
  match assoc k cs with
  | Some c => to_byte (enc k c) = k /\ isLeaf (enc k c) = is_leaf c /\ enc k c <> 0
  | None => True
  end.
Proof.
  intros Ha Hr Hwf Hrep Hk. pose proof Hrep as Hrep'. apply rep_node_iff in Hrep' as [[_ Hm] _].
  rewrite Hm by done. rewrite assoc_bws. split; [done|].
  destruct (assoc k cs) as [c|] eqn:E; [|done]. apply assoc_Some_elem in E.
  by apply (child_enc s L p true a pfx cs k c Ha Hr Hwf E).
Qed.

Lemma small_scan s L p a pfx cs k : alloc_inv s L -> (forall r, r ∈ regs (Node false a pfx cs) -> r ∈ L) ->
  wf K fetch p (Node false a pfx cs) -> rep (t_mem s) (Node false a pfx cs) ->
  let base := a + N.of_nat (prefix_slots (length pfx)) in
  (exists l c r, cs = l ++ (k, c) :: r /\
     scan (t_mem s) base k 0 (length cs) (O, 0) = (true, length l, enc k c) /\
     to_byte (enc k c) = k /\ isLeaf (enc k c) = is_leaf c) \/
  (k ∉ map fst cs /\ exists l r brk i w, cs = l ++ r /\ (forall b, b ∈ map fst l -> b < k) /\
     (forall b, b ∈ map fst r -> k < b) /\
     scan (t_mem s) base k 0 (length cs) (O, 0) = (brk, i, w) /\
     (if brk : bool then i else length cs) = length l /\ to_byte w <> k).
Proof.
  intros Ha Hr Hwf Hrep base. pose proof Hrep as Hrep'. apply rep_node_iff in Hrep' as [[_ Hm] _].
  rewrite bws_length in Hm. pose proof Hwf as Hwf'. apply wf_node_iff in Hwf' as ([Hs Hb] & Hn & _).
  assert (Hbw : Forall (fun c => to_byte c.2 = c.1) (bws cs)).
  { apply Forall_forall. intros [b w] Hin. apply elem_of_list_fmap in Hin as ([b' c] & [= -> ->] & Hin). simpl.
    by apply (child_enc s L p false a pfx cs b' c Ha Hr Hwf Hin). }
  destruct (scan_spec (t_mem s) base k (bws cs) 0 (O, 0)) as
    [(l & w & r & Eb & E)|(Hk & l & r & brk & i & w & Eb & Hl & Hr2 & E & Hpos & Hne & _)].
  - rewrite bws_length. change (N.of_nat 0) with 0. rewrite N.add_0_r. done.
  - done.
  - by rewrite bws_fst.
  - left. unfold bws in Eb. apply fmap_app_inv in Eb as (cl & cr & -> & Hcr & ->).
    destruct cr as [|[b c] cr]; [done|]. simpl in Hcr. injection Hcr as <- -> _.
    exists cl, c, cr. split; [done|]. rewrite bws_length in E. rewrite E. split.
    + simpl. by rewrite map_length.
    + destruct (child_enc s L p false a pfx _ k c Ha Hr Hwf) as (_ & H1 & H2 & _); [|done].
      apply elem_of_app. right. left.
  - right. rewrite bws_fst in Hk. split; [done|].
    unfold bws in Eb. apply fmap_app_inv in Eb as (cl & cr & -> & -> & ->).
    exists cl, cr, brk, i, w. rewrite bws_length in *. split_and!; try done.
    + intros b Hin. apply Hl. change (map (fun c => (c.1, enc c.1 c.2)) cl) with (bws cl). by rewrite bws_fst.
    + intros b Hin. apply Hr2. change (map (fun c => (c.1, enc c.1 c.2)) cr) with (bws cr). by rewrite bws_fst.
    + simpl in Hpos. rewrite map_length in Hpos. done.
    + apply Hne. intros Hnil. apply (f_equal length) in Hnil. rewrite bws_length in Hnil. simpl in Hnil. lia.
Qed.

(** ** Search *)

Lemma prefix_next (p pfx : list N) b (key : list N) : (p ++ pfx ++ [b]) `prefix_of` key ->
  key !! (length p + length pfx)%nat = Some b.
Proof.
  intros [q ->]. rewrite <- app_assoc, <- app_assoc. rewrite lookup_app_r by lia.
  rewrite lookup_app_r by lia. replace (length p + length pfx - length p - length pfx)%nat with 0%nat by lia. done.
Qed.

Lemma key_at_Some key i b : key !! i = Some b -> key_at key i = Ok b.
Proof. unfold key_at. by intros ->. Qed.

Lemma search_loop_ok s L key t : alloc_inv s L -> bytes key ->
  forall p, (forall r, r ∈ regs t -> r ∈ L) -> wf K fetch p t -> rep (t_mem s) t ->
  forall full a pfx cs fuel depth, t = Node full a pfx cs ->
  (depth <= length key < fuel + depth)%nat ->
  exists v f, search_loop fuel s key a (ncount full (length cs)) (plen8 (length pfx)) depth = Ok (v, f) /\
    (if f then exists k, (k, v) ∈ contents t else v = 0) /\
    (forall w, depth = length p -> (key, w) ∈ contents t -> f = true /\ v = w).
Proof.
  intros Ha Hbytes. induction t as [|full0 a0 pfx0 cs0 IH] using trie_ind2; [done|].
  intros p Hr Hwf Hrep full a pfx cs fuel depth [= -> -> -> ->] Hfuel.
  destruct fuel as [|fuel].
  { exfalso. simpl in Hfuel. lia. }
  assert (Hcase : forall w, depth = length p -> (key, w) ∈ contents (Node full a pfx cs) ->
    exists b c, (b, c) ∈ cs /\ key !! (depth + length pfx)%nat = Some b /\ (key, w) ∈ contents c).
  { intros w -> Hin. rewrite contents_node in Hin. apply elem_of_list_bind in Hin as ([b c] & Hin & Hc).
    exists b, c. split; [done|]. split; [|done]. apply prefix_next.
    destruct (child_wf _ _ _ _ _ _ _ Hwf Hc) as [Hw _].
    by destruct (wf_contents K fetch _ _ _ _ Hw Hin). }
  pose proof (node_view s L p full a pfx cs Ha Hr Hwf Hrep) as Hv.
  cbn [search_loop]. rewrite (v_data _ _ _ _ _ Hv). cbn [bind]. rewrite (v_skip _ _ _ _ _ Hv). cbn [bind].
  destruct (Nat.leb_spec (length key) (depth + length pfx)) as [Hle|Hlt].
  { exists 0, false. split; [done|]. split; [done|]. intros w Hd Hin.
    destruct (Hcase w Hd Hin) as (b & c & _ & E & _). apply lookup_lt_Some in E. lia. }
  destruct (lookup_lt_is_Some_2 key _ Hlt) as [k Ek]. rewrite (key_at_Some _ _ _ Ek). cbn [bind].
  assert (Hk : k < 256) by (eapply Forall_lookup_1 in Hbytes; [|done]; done).
  destruct (ncount_bounds _ _ _ _ _ Hwf) as [Hn ->].
  assert (Hrec : forall b c, (b, c) ∈ cs -> is_leaf c = false ->
    exists v f n' c' p', explodeNode (enc b c) = (b, n', c', p') /\
             search_loop fuel s key n' c' p' (S (depth + length pfx)) = Ok (v, f) /\
      (if f then exists k, (k, v) ∈ contents c else v = 0) /\
      (forall w, S (depth + length pfx) = length (p ++ pfx ++ [b]) -> (key, w) ∈ contents c -> f = true /\ v = w)).
  { intros b c Hin Hlf. destruct c as [|full' a' pfx' cs']; [done|].
    destruct (child_wf _ _ _ _ _ _ _ Hwf Hin) as [Hw Hb].
    assert (Hrc : forall r, r ∈ regs (Node full' a' pfx' cs') -> r ∈ L).
    { intros r Hr'. apply Hr. by eapply child_regs. }
    rewrite Forall_forall in IH.
    destruct (IH _ Hin (p ++ pfx ++ [b]) Hrc Hw) with (full := full') (a := a') (pfx := pfx') (cs := cs')
      (fuel := fuel) (depth := S (depth + length pfx)) as (v & f & E & Hf & Hu); [|done|simpl in *; lia|].
    { apply rep_node_iff in Hrep as [_ Hrep]. rewrite Forall_forall in Hrep. exact (Hrep _ Hin). }
    exists v, f. do 3 eexists. split; [exact (explode_enc s L _ b full' a' pfx' cs' Ha Hrc Hw Hb)|]. done. }
  assert (Hup : forall b c v, (b, c) ∈ cs -> (exists k, (k, v) ∈ contents c) -> exists k, (k, v) ∈ contents (Node full a pfx cs)).
  { intros b c v Hin [k' Hk']. exists k'. rewrite contents_node. apply elem_of_list_bind. exists (b, c). done. }
  pose proof (sbytes_NoDup cs) as Hnd. pose proof Hwf as Hwf'. apply wf_node_iff in Hwf' as (Hsb & _). specialize (Hnd Hsb).
  destruct full.
  - rewrite (view_get _ _ _ _ _ (N.to_nat k) Hv) by (simpl; lia). cbn [bind]. rewrite N2Nat.id.
    destruct (full_child s L p a pfx cs k Ha Hr Hwf Hrep Hk) as [-> Hc].
    destruct (assoc k cs) as [c|] eqn:Ec; simpl.
    + destruct Hc as (H1 & H2 & H3). rewrite (proj2 (N.eqb_neq _ _)) by done. rewrite H2.
      pose proof (assoc_Some_elem _ _ _ Ec) as Hin.
      destruct (child_wf _ _ _ _ _ _ _ Hwf Hin) as [Hw Hb].
      assert (Huniq : forall b c', (b, c') ∈ cs -> key !! (depth + length pfx)%nat = Some b -> b = k /\ c' = c).
      { intros b c' Hin' E'. rewrite Ek in E'. injection E' as <-. split; [done|].
        apply (assoc_elem _ _ _ Hnd) in Hin'. congruence. }
      destruct (is_leaf c) eqn:Elf.
      * destruct c as [k' v'|]; [|done]. inversion Hw; subst. rewrite leaf_value by done. exists v', true.
        split; [done|]. split; [eapply Hup; [done|]; exists (fetch v'); by left|].
        intros w Hd Hkw. destruct (Hcase w Hd Hkw) as (b & c0 & Hin' & E' & Hkw').
        destruct (Huniq _ _ Hin' E') as [-> ->]. simpl in Hkw'. apply elem_of_list_singleton in Hkw'. by simplify_eq.
      * destruct (Hrec k c Hin Elf) as (v & f & n' & c' & p' & Ex & E & Hf & Hu). rewrite Ex, E. exists v, f. split; [done|]. split.
        { destruct f; [|done]. by eapply Hup. }
        intros w Hd Hkw. destruct (Hcase w Hd Hkw) as (b & c0 & Hin' & E' & Hkw').
        destruct (Huniq _ _ Hin' E') as [-> ->]. apply Hu; [|done]. rewrite !app_length. simpl. lia.
    + exists 0, false. split; [done|]. split; [done|].
      intros w Hd Hkw. destruct (Hcase w Hd Hkw) as (b & c0 & Hin' & E' & Hkw').
      rewrite Ek in E'. injection E' as <-. apply assoc_None in Ec. exfalso. apply Ec.
      apply elem_of_list_fmap. by exists (k, c0).
  - rewrite (v_upto _ _ _ _ _ Hv). cbn [bind]. cbn [sl_base].
    destruct (small_scan s L p a pfx cs k Ha Hr Hwf Hrep) as
      [(l & c & r & Ecs & E & Hb & Hlf)|(Hnk & l & r & brk & i & w & Ecs & _ & _ & E & _ & Hw)].
    + simpl in E |- *. rewrite E. rewrite Hb, N.eqb_refl, Hlf.
      assert (Hin : (k, c) ∈ cs) by (rewrite Ecs; apply elem_of_app; right; left).
      destruct (child_wf _ _ _ _ _ _ _ Hwf Hin) as [Hw Hb'].
      assert (Huniq : forall b c', (b, c') ∈ cs -> key !! (depth + length pfx)%nat = Some b -> b = k /\ c' = c).
      { intros b c' Hin' E'. rewrite Ek in E'. injection E' as <-. split; [done|].
        apply (assoc_elem _ _ _ Hnd) in Hin'. apply (assoc_elem _ _ _ Hnd) in Hin. congruence. }
      destruct (is_leaf c) eqn:Elf.
      * destruct c as [k' v'|]; [|done]. inversion Hw; subst. rewrite leaf_value by done. exists v', true.
        split; [done|]. split; [eapply Hup; [done|]; exists (fetch v'); by left|].
        intros w Hd Hkw. destruct (Hcase w Hd Hkw) as (b & c0 & Hin' & E' & Hkw').
        destruct (Huniq _ _ Hin' E') as [-> ->]. simpl in Hkw'. apply elem_of_list_singleton in Hkw'. by simplify_eq.
      * destruct (Hrec k c Hin Elf) as (v & f & n' & c' & p' & Ex & E2 & Hf & Hu). rewrite Ex, E2. exists v, f. split; [done|]. split.
        { destruct f; [|done]. by eapply Hup. }
        intros w Hd Hkw. destruct (Hcase w Hd Hkw) as (b & c0 & Hin' & E' & Hkw').
        destruct (Huniq _ _ Hin' E') as [-> ->]. apply Hu; [|done]. rewrite !app_length. simpl. lia.
    + simpl in E |- *. rewrite E. rewrite (proj2 (N.eqb_neq _ _)) by done. exists 0, false.
      split; [done|]. split; [done|]. intros w' Hd Hkw.
      destruct (Hcase w' Hd Hkw) as (b & c0 & Hin' & E' & Hkw').
      rewrite Ek in E'. injection E' as <-. exfalso. apply Hnk. apply elem_of_list_fmap. by exists (k, c0).
Qed.
End Core.
