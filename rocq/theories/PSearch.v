(** * PSearch: what [partialSearch] returns, and what MinKey and MaxKey make of it. *)
From Verif Require Export Kids.

Lemma prefix_len_eq {A} (l1 l2 : list A) : l1 `prefix_of` l2 -> (length l2 <= length l1)%nat -> l1 = l2.
Proof. intros [q ->]. rewrite app_length. destruct q; simpl; [by rewrite app_nil_r|lia]. Qed.

Section PSearch.
Context (K : list N -> Prop) (fetch : N -> list N) (HK : universe K).
Local Notation core := (core K fetch).
Local Notation wf := (wf K fetch).
Local Notation sound := (sound K fetch).

(** The result of [partialSearch] on a tree with ghost trie [T]: nothing; one leaf; or a
    subtree with exactly the keys that have the prefix. *)
Inductive psr (T : option trie) (sp : list N) : N -> Prop :=
| psr_none : (forall k v, (k, v) ∈ ocontents T -> ~ sp `prefix_of` k) -> psr T sp 0
| psr_leaf b C k v : T = Some (plug C (Leaf k v)) -> b < 256 -> (sp = [] -> C = []) ->
    (forall k' v', (k', v') ∈ ocontents T -> sp `prefix_of` k' -> k' = k /\ v' = v) -> psr T sp (enc b (Leaf k v))
| psr_node b C full a pfx cs : T = Some (plug C (Node full a pfx cs)) -> b < 256 ->
    (sp = [] -> C = []) ->
    (forall k v, (k, v) ∈ contents (Node full a pfx cs) <-> (k, v) ∈ ocontents T /\ sp `prefix_of` k) ->
    psr T sp (enc b (Node full a pfx cs)).

Lemma in_hole C t k v : wf [] (plug C t) -> (k, v) ∈ contents (plug C t) -> path_of C `prefix_of` k -> (k, v) ∈ contents t.
Proof.
  intros Hw Hin Hp. rewrite contents_plug in Hin. apply elem_of_app in Hin as [Hin|Hin].
  - exfalso. apply (wf_outside K fetch [] C t k v Hw); [apply elem_of_app; by left|done].
  - apply elem_of_app in Hin as [Hin|Hin]; [done|].
    exfalso. apply (wf_outside K fetch [] C t k v Hw); [apply elem_of_app; by right|done].
Qed.

Lemma in_child p full a pfx cs k v : wf p (Node full a pfx cs) -> (k, v) ∈ contents (Node full a pfx cs) ->
  exists b c, (b, c) ∈ cs /\ (k, v) ∈ contents c /\ (p ++ pfx ++ [b]) `prefix_of` k.
Proof.
  intros Hw Hin. rewrite contents_node in Hin. apply elem_of_list_bind in Hin as ([b c] & Hin & Hc).
  exists b, c. split_and!; [done|done|]. destruct (child_wf _ _ _ _ _ _ _ _ _ Hw Hc) as [Hw' _].
  by destruct (wf_contents K fetch _ _ _ _ Hw' Hin).
Qed.

Lemma core_sound s C t : core s (Some (plug C t)) -> sound s (regs (plug C t)) t.
Proof. intros Hc. destruct (sub_facts _ _ _ _ _ Hc) as (Hw & Hr & Hs). split; [done|done|by eexists]. Qed.

Lemma partial_loop_ok s T sp : core s (Some T) -> bytes sp -> sp <> [] -> forall t C b full a pfx cs fuel,
  T = plug C t -> t = Node full a pfx cs -> b < 256 -> path_of C `prefix_of` sp ->
  (length sp < fuel + length (path_of C))%nat ->
  exists raw d, partial_loop fuel s sp (enc b t) (length (path_of C)) = Ok (raw, d) /\ psr (Some T) sp raw.
Proof.
  intros Hc Hbytes Hsp. induction t as [|full0 a0 pfx0 cs0 IH] using trie_ind2; [done|].
  intros C b full a pfx cs fuel ET [= -> -> -> ->] Hb Hpre Hfuel. subst T.
  pose proof (core_sound _ _ _ Hc) as Hso. pose proof (co_alloc _ _ _ _ Hc) as Ha. simpl in Ha.
  pose proof (co_wf _ _ _ _ Hc) as HwT. simpl in HwT.
  destruct (sub_facts _ _ _ _ _ Hc) as (Hwf & Hrep & Hr).
  pose proof (prefix_length _ _ Hpre) as Hlen.
  destruct fuel as [|fuel]; [simpl in Hfuel; lia|].
  cbn [partial_loop]. rewrite (sound_explode K fetch s _ Ha _ _ _ _ _ Hso Hb).
  assert (Hall : (sp `prefix_of` path_of C ++ pfx) -> psr (Some (plug C (Node full a pfx cs))) sp (enc b (Node full a pfx cs))).
  { intros Hp. eapply psr_node; [done|done|done|]. intros k v. cbn [ocontents from_option]. split.
    - intros Hin. split; [rewrite contents_plug; apply elem_of_app; right; apply elem_of_app; by left|].
      destruct (in_child _ _ _ _ _ _ _ Hwf Hin) as (b' & c & _ & _ & Hp'). etrans; [done|]. etrans; [|done].
      rewrite app_assoc. by apply prefix_app_r.
    - intros [Hin Hp']. eapply in_hole; [done|done|]. by etrans. }
  destruct (Nat.leb_spec (length sp) (length (path_of C))) as [Hle|Hlt].
  { do 2 eexists. split; [done|]. apply Hall. apply prefix_app_r. apply prefix_len_eq in Hpre; [by rewrite Hpre|lia]. }
  pose proof (sound_view K fetch s _ Ha _ _ _ _ Hso) as Hv.
  rewrite (v_data _ _ _ _ _ Hv). cbn [bind]. rewrite (v_append _ _ _ _ _ Hv). cbn [bind]. rewrite (v_from _ _ _ _ _ Hv). cbn [bind].
  pose proof (prefix_cmp_spec sp (length (path_of C)) pfx 0) as Hcmp. rewrite Nat.add_0_r in Hcmp.
  destruct Hpre as [q ->]. rewrite app_length in *. rewrite drop_app in Hcmp.
  (* keys with the prefix lie below this node, and below the byte following its prefix *)
  assert (Hin_t : forall k v, (k, v) ∈ contents (plug C (Node full a pfx cs)) -> (path_of C ++ q) `prefix_of` k ->
    exists b' c, (b', c) ∈ cs /\ (k, v) ∈ contents c /\ (path_of C ++ pfx ++ [b']) `prefix_of` k).
  { intros k v Hin Hp. eapply in_child; [done|]. eapply in_hole; [done|done|]. etrans; [|done]. by apply prefix_app_r. }
  destruct (prefix_cmp (path_of C ++ q) (length (path_of C)) pfx 0) as [|j|].
  - do 2 eexists. split; [done|]. apply Hall. by apply prefix_app.
  - do 2 eexists. split; [done|]. apply psr_none. simpl. intros k v Hin Hp.
    destruct Hcmp as (n & b1 & c1 & -> & Hb1 & Hc1 & Hne & _).
    destruct (Hin_t _ _ Hin Hp) as (b' & c & _ & _ & Hp').
    assert (E1 : k !! (length (path_of C) + n)%nat = Some c1).
    { eapply prefix_lookup; [|exact Hp]. rewrite lookup_app_r by lia. replace (length (path_of C) + n - length (path_of C))%nat with n by lia. done. }
    assert (E2 : k !! (length (path_of C) + n)%nat = Some b1).
    { eapply prefix_lookup; [|exact Hp']. rewrite lookup_app_r by lia. replace (length (path_of C) + n - length (path_of C))%nat with n by lia.
      rewrite lookup_app_l; [done|]. by eapply lookup_lt_Some. }
    congruence.
  - destruct (Nat.leb_spec (length (path_of C) + length q) (length (path_of C) + length pfx)) as [Hle2|Hlt2].
    { do 2 eexists. split; [done|]. apply Hall. apply prefix_len_eq in Hcmp; [by subst|lia]. }
    destruct Hcmp as [q2 ->]. rewrite app_length in *. destruct q2 as [|k q2]; [simpl in Hlt2; lia|].
    assert (Ek : (path_of C ++ pfx ++ k :: q2) !! (length (path_of C) + length pfx)%nat = Some k).
    { apply prefix_next with (b := k). exists q2. by rewrite <- !app_assoc. }
    rewrite (key_at_Some _ _ _ Ek). cbn [bind].
    assert (Hk : k < 256) by (eapply Forall_lookup_1 in Hbytes; [|done]; done).
    destruct (sound_count K fetch s _ _ _ _ _ Hso) as [Hn ->].
    assert (Huniq : forall k1 b' (c : trie), (b', c) ∈ cs -> (path_of C ++ pfx ++ k :: q2) `prefix_of` k1 ->
      (path_of C ++ pfx ++ [b']) `prefix_of` k1 -> b' = k).
    { intros k1 b' c _ H1 H2. apply (prefix_lookup _ _ _ _ Ek) in H1. apply prefix_next in H2. congruence. }
    pose proof (sound_sbytes K fetch s _ _ _ _ _ Hso) as Hsb. pose proof (sbytes_NoDup cs Hsb) as Hnd.
    assert (Hfound : forall l c r, cs = l ++ (k, c) :: r ->
      if is_leaf c then psr (Some (plug C (Node full a pfx cs))) (path_of C ++ pfx ++ k :: q2) (enc k c)
      else exists raw d, partial_loop fuel s (path_of C ++ pfx ++ k :: q2) (enc k c) (S (length (path_of C) + length pfx)) = Ok (raw, d) /\
        psr (Some (plug C (Node full a pfx cs))) (path_of C ++ pfx ++ k :: q2) raw).
    { intros l c r Ecs. destruct c as [k' v'|full' a' pfx' cs']; cbn [is_leaf].
      - eapply (psr_leaf _ _ _ (Frame full a pfx l k r :: C)); [by rewrite Ecs|done|done|].
        intros k1 v1 Hin Hp. destruct (Hin_t _ _ Hin Hp) as (b' & c & Hc' & Hin' & Hp').
        pose proof (Huniq _ _ _ Hc' Hp Hp') as ->.
        assert (c = Leaf k' v') as ->.
        { apply (assoc_elem _ _ _ Hnd) in Hc'. assert (Hx : (k, Leaf k' v') ∈ cs) by (rewrite Ecs; apply elem_of_app; right; left).
          apply (assoc_elem _ _ _ Hnd) in Hx. congruence. }
        simpl in Hin'. apply elem_of_list_singleton in Hin'. by simplify_eq.
      - rewrite Forall_forall in IH.
        assert (Hx : (k, Node full' a' pfx' cs') ∈ cs) by (rewrite Ecs; apply elem_of_app; right; left).
        destruct (IH _ Hx (Frame full a pfx l k r :: C) k full' a' pfx' cs' fuel) as (raw & d & E & Hps); [by rewrite Ecs|done|done| | |].
        + simpl. exists q2. by rewrite <- !app_assoc.
        + simpl in *. rewrite !app_length. simpl. lia.
        + exists raw, d. split; [|done]. rewrite <- E. f_equal. simpl. rewrite !app_length. simpl. lia. }
    assert (Hnone : k ∉ map fst cs -> psr (Some (plug C (Node full a pfx cs))) (path_of C ++ pfx ++ k :: q2) 0).
    { intros Hnk. apply psr_none. intros k1 v1 Hin Hp. destruct (Hin_t _ _ Hin Hp) as (b' & c & Hc' & Hin' & Hp').
      pose proof (Huniq _ _ _ Hc' Hp Hp') as ->. apply Hnk. apply elem_of_list_fmap. by exists (k, c). }
    destruct full.
    + rewrite (view_get _ _ _ _ _ (N.to_nat k) Hv) by (simpl; lia). cbn [bind]. rewrite N2Nat.id.
      destruct (full_child K fetch s _ _ a pfx cs k Ha Hr Hwf Hrep Hk) as [-> Hcc].
      destruct (assoc k cs) as [c|] eqn:Ec; simpl default.
      * destruct Hcc as (H1 & H2 & H3). rewrite (proj2 (N.eqb_neq _ _)) by done. rewrite H2.
        destruct (assoc_split _ _ _ Ec) as (l & r & Ecs & _).
        specialize (Hfound l c r Ecs). destruct (is_leaf c); [by do 2 eexists|done].
      * do 2 eexists. split; [done|]. apply Hnone. by apply assoc_None.
    + rewrite (v_upto _ _ _ _ _ Hv). cbn [bind]. cbn [sl_base].
      destruct (small_scan K fetch s _ _ a pfx cs k Ha Hr Hwf Hrep) as
        [(l & c & r & Ecs & E & Hb2 & Hlf)|(Hnk & l & r & brk & i & w & Ecs & _ & _ & E & _ & Hw)];
        cbn [ncount]; rewrite E.
      * rewrite Hb2, N.eqb_refl, Hlf. specialize (Hfound l c r Ecs). destruct (is_leaf c); [by do 2 eexists|done].
      * rewrite (proj2 (N.eqb_neq _ _)) by done. do 2 eexists. split; [done|]. by apply Hnone.
Qed.

Lemma partial_empty s sp : t_nextFreeBlock s < maxBlockCount -> mget (t_mem s) 0 = 0 ->
  forall fuel depth, (depth <= length sp < fuel + depth)%nat -> exists d, partial_loop fuel s sp 0 depth = Ok (0, d).
Proof.
  intros Hnb H0. induction fuel as [|fuel IH]; intros depth Hf; [simpl in Hf; lia|]. cbn [partial_loop]. rewrite explode_zero.
  destruct (Nat.leb_spec (length sp) depth); [by eexists|].
  assert (E : node_data s 0 = Ok (Slice 0 262144)).
  { unfold node_data. change (block_of 0) with 0. destruct (maxBlockCount <=? 0) eqn:E; [by vm_compute in E|].
    destruct (N.max 1 (t_nextFreeBlock s) <=? 0) eqn:E2; [apply N.leb_le in E2; lia|]. f_equal. }
  rewrite E. cbn [bind]. change (append_prefix (t_mem s) (Slice 0 262144) 0) with (@Ok (list N * nat) ([], 0%nat)). cbn [bind].
  change (sl_from (Slice 0 262144) 0) with (@Ok slice (Slice 0 262144)). cbn [bind prefix_cmp length].
  rewrite Nat.add_0_r. destruct (Nat.leb_spec (length sp) depth); [lia|].
  destruct (lookup_lt_is_Some_2 sp depth ltac:(lia)) as [k Ek]. rewrite (key_at_Some _ _ _ Ek). cbn [bind].
  change (fullAllocFrom <=? 1)%nat with false. cbn iota.
  change (sl_upto (Slice 0 262144) 1) with (@Ok unit tt). cbn [bind sl_base scan].
  change (0 + N.of_nat 0) with 0. rewrite H0.
  change (to_byte 0) with 0. destruct (N.leb_spec k 0); cbn [fst snd].
  - assert (k = 0) as -> by lia. change (to_byte 0) with 0. rewrite N.eqb_refl, isLeaf_zero. apply IH. lia.
  - change (to_byte 0) with 0. rewrite (proj2 (N.eqb_neq 0 k)) by lia. by eexists.
Qed.

Lemma partial_search_ok s T sp : core s T -> bytes sp -> exists raw d, partial_search s sp = Ok (raw, d) /\ psr T sp raw.
Proof.
  intros Hc Hb. unfold partial_search. cbv zeta. destruct sp as [|c sp].
  - do 2 eexists. split; [done|]. rewrite (co_root _ _ _ _ Hc). destruct T as [[k v|full a pfx cs]|].
    + destruct (root_word_leaf K fetch HK _ _ _ Hc) as (_ & _ & _ & _ & _ & _ & b & k' & Ek & Hb' & _).
      change (enc_root (Some (Leaf k v))) with (enc (default 0 (head k)) (Leaf k v)).
      eapply (psr_leaf _ _ _ []); [done|rewrite Ek; done|done|].
      simpl. intros k1 v1 Hin _. apply elem_of_list_singleton in Hin. by simplify_eq.
    + change (enc_root (Some (Node full a pfx cs))) with (enc 0 (Node full a pfx cs)).
      eapply (psr_node _ _ _ []); [done|lia|done|]. intros k v. cbn [ocontents from_option]. split; [intros; split; [done|apply prefix_nil]|by intros [??]].
    + apply psr_none. by intros k v ?%elem_of_nil.
  - destruct T as [[k v|full a pfx cs]|].
    + destruct (root_word_leaf K fetch HK _ _ _ Hc) as (_ & -> & _ & _ & _ & _ & b & k' & Ek & Hb' & Er & ->).
      rewrite Er. destruct (N.eqb_spec b c) as [->|Hne]; do 2 eexists; (split; [done|]).
      * change (buildLeaf c v) with (enc c (Leaf k v)). eapply (psr_leaf _ _ _ []); [done|done|done|].
        simpl. intros k1 v1 Hin _. apply elem_of_list_singleton in Hin. by simplify_eq.
      * apply psr_none. simpl. intros k1 v1 Hin. apply elem_of_list_singleton in Hin. simplify_eq.
        intros [q Hq]. simpl in Hq. by simplify_eq.
    + pose proof (hole_enc K fetch s [] (Node full a pfx cs) Hc eq_refl) as (_ & Hl & _).
      rewrite (co_root _ _ _ _ Hc). change (enc_root (Some (Node full a pfx cs))) with (hole_word [] (Node full a pfx cs)). rewrite Hl.
      change (hole_word [] (Node full a pfx cs)) with (enc 0 (Node full a pfx cs)).
      eapply (partial_loop_ok s _ (c :: sp) Hc Hb ltac:(done) _ []); [done|done|lia|apply prefix_nil|simpl; lia].
    + rewrite (co_root _ _ _ _ Hc). simpl enc_root. rewrite isLeaf_zero.
      destruct (partial_empty s (c :: sp)) with (fuel := S (length (c :: sp))) (depth := 0%nat) as [d E];
        [apply (ai_nb _ _ (co_alloc _ _ _ _ Hc))|apply (co_zero _ _ _ _ Hc); by left|lia|].
      do 2 eexists. split; [done|]. apply psr_none. by intros k v ?%elem_of_nil.
Qed.
End PSearch.
