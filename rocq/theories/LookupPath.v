(** * LookupPath: which bytes of the key a Lookup candidate shares. *)
From Verif Require Export ApiProps.

(** [key] agrees with [k] wherever two keys of [t] that start like [k] part. *)
Definition branches (t : list (list N * N)) (key k : list N) : Prop :=
  forall n k1 v1 k2 v2, (k1, v1) ∈ t -> (k2, v2) ∈ t -> take n k1 = take n k -> take n k2 = take n k -> k1 !! n <> k2 !! n -> key !! n = k !! n.

Section LookupPath.
Context (K : list N -> Prop) (fetch : N -> list N) (HK : universe K).
Local Notation core := (core K fetch).

Lemma branches_leaf k v key : branches (contents (Leaf k v)) key k.
Proof. intros n k1 v1 k2 v2 H1%elem_of_list_singleton H2%elem_of_list_singleton _ _ Hne. by simplify_eq. Qed.

Lemma prefix_at (p k : list N) n : p `prefix_of` k -> (n < length p)%nat -> k !! n = p !! n.
Proof. intros [r ->] Hn. by rewrite lookup_app_l. Qed.

Lemma branches_node p full a pfx cs b c key k v : wf K fetch p (Node full a pfx cs) -> (b, c) ∈ cs ->
  key !! (length p + length pfx)%nat = Some b -> (k, v) ∈ contents c -> branches (contents c) key k -> branches (contents (Node full a pfx cs)) key k.
Proof.
  intros Hwf Hin Hb Hk Hbr n k1 v1 k2 v2 H1 H2 E1 E2 Hne. rewrite contents_node in H1, H2.
  apply elem_of_list_bind in H1 as ([b1 c1] & H1 & Hc1). apply elem_of_list_bind in H2 as ([b2 c2] & H2 & Hc2). cbn [snd] in *.
  destruct (child_wf K fetch _ _ _ _ _ _ _ Hwf Hin) as [Hw _]. destruct (child_wf K fetch _ _ _ _ _ _ _ Hwf Hc1) as [Hw1 _]. destruct (child_wf K fetch _ _ _ _ _ _ _ Hwf Hc2) as [Hw2 _].
  destruct (wf_contents K fetch _ _ _ _ Hw Hk) as (P & _). destruct (wf_contents K fetch _ _ _ _ Hw1 H1) as (P1 & _). destruct (wf_contents K fetch _ _ _ _ Hw2 H2) as (P2 & _).
  set (d := (length p + length pfx)%nat) in *.
  assert (Hd : forall x y, (p ++ pfx ++ [x]) `prefix_of` y -> y !! d = Some x) by (intros x y Hp; by apply prefix_next).
  assert (Hl : forall x, length (p ++ pfx ++ [x]) = S d) by (intros x; rewrite !app_length; simpl; lia).
  destruct (decide (n < d)%nat) as [Hlt|Hge].
  - destruct Hne. rewrite (prefix_at _ _ n P1), (prefix_at _ _ n P2) by (rewrite Hl; lia). rewrite !(app_assoc p pfx).
    rewrite !(lookup_app_l (p ++ pfx)) by (rewrite app_length; lia). done.
  - destruct (decide (n = d)) as [->|Hnd]; [by rewrite Hb, (Hd _ _ P)|].
    assert (Hsame : forall k' b', take n k' = take n k -> (p ++ pfx ++ [b']) `prefix_of` k' -> b' = b).
    { intros k' b' E' P'. apply (f_equal (lookup d)) in E'. rewrite !lookup_take in E' by lia. rewrite (Hd _ _ P), (Hd _ _ P') in E'. by injection E'. }
    pose proof (Hsame _ _ E1 P1) as ->. pose proof (Hsame _ _ E2 P2) as ->.
    pose proof Hwf as Hwf'. apply wf_node_iff in Hwf' as (Hsb & _). pose proof (sbytes_NoDup _ Hsb) as Hnd'.
    apply (assoc_elem _ _ _ Hnd') in Hin, Hc1, Hc2. rewrite Hin in Hc1, Hc2. injection Hc1 as <-. injection Hc2 as <-. exact (Hbr n k1 v1 k2 v2 H1 H2 E1 E2 Hne).
Qed.

Lemma search_loop_branches s L key t : alloc_inv s L -> bytes key ->
  forall p, (forall r, r ∈ regs t -> r ∈ L) -> wf K fetch p t -> rep (t_mem s) t ->
  forall full a pfx cs fuel v, t = Node full a pfx cs ->
  search_loop fuel s key a (ncount full (length cs)) (plen8 (length pfx)) (length p) = Ok (v, true) ->
  exists k, (k, v) ∈ contents t /\ branches (contents t) key k.
Proof.
  intros Ha Hbytes. induction t as [|full0 a0 pfx0 cs0 IH] using trie_ind2; [done|].
  intros p Hr Hwf Hrep full a pfx cs fuel v [= -> -> -> ->] E0. destruct fuel as [|fuel]; [done|].
  pose proof (node_view K fetch s L p full a pfx cs Ha Hr Hwf Hrep) as Hv.
  cbn [search_loop] in E0. rewrite (v_data _ _ _ _ _ Hv) in E0. cbn [bind] in E0. rewrite (v_skip _ _ _ _ _ Hv) in E0. cbn [bind] in E0.
  destruct (Nat.leb_spec (length key) (length p + length pfx)) as [Hle|Hlt]; [done|].
  destruct (lookup_lt_is_Some_2 key _ Hlt) as [k Ek]. rewrite (key_at_Some _ _ _ Ek) in E0. cbn [bind] in E0.
  assert (Hk : k < 256) by (eapply Forall_lookup_1 in Hbytes; [|done]; done).
  destruct (ncount_bounds K fetch _ _ _ _ _ Hwf) as [Hn Hfa]. rewrite Hfa in E0.
  assert (Hup : forall c, (k, c) ∈ cs -> (exists k', (k', v) ∈ contents c /\ branches (contents c) key k') ->
    exists k', (k', v) ∈ contents (Node full a pfx cs) /\ branches (contents (Node full a pfx cs)) key k').
  { intros c Hin (k' & H1 & H2). exists k'. split; [|by eapply branches_node]. rewrite contents_node. apply elem_of_list_bind. by exists (k, c). }
  assert (Hgo : forall c, (k, c) ∈ cs -> (if is_leaf c then Ok (getLeafValue (enc k c), true)
    else let '(_, node', count', prefixLen') := explodeNode (enc k c) in search_loop fuel s key node' count' prefixLen' (S (length p + length pfx))) = Ok (v, true) ->
    exists k', (k', v) ∈ contents (Node full a pfx cs) /\ branches (contents (Node full a pfx cs)) key k').
  { intros c Hin E. apply (Hup c Hin). destruct (child_wf K fetch _ _ _ _ _ _ _ Hwf Hin) as [Hw Hb]. destruct c as [k' v'|full' a' pfx' cs']; cbn [is_leaf] in E.
    - assert (Hvl : v' < vlim) by (by inversion Hw). rewrite leaf_value in E by done. injection E as <-. exists k'. split; [by left|apply branches_leaf].
    - assert (Hrc : forall r, r ∈ regs (Node full' a' pfx' cs') -> r ∈ L) by (intros r Hr'; apply Hr; by eapply child_regs).
      rewrite (explode_enc K fetch s L _ k full' a' pfx' cs' Ha Hrc Hw Hb) in E. rewrite Forall_forall in IH.
      apply (IH _ Hin (p ++ pfx ++ [k]) Hrc Hw) with (full := full') (a := a') (pfx := pfx') (cs := cs') (fuel := fuel); [|done|].
      + apply rep_node_iff in Hrep as [_ Hrep]. rewrite Forall_forall in Hrep. exact (Hrep _ Hin).
      + replace (length (p ++ pfx ++ [k])) with (S (length p + length pfx)); [done|]. rewrite !app_length. simpl. lia. }
  destruct full.
  - rewrite (view_get _ _ _ _ _ (N.to_nat k) Hv) in E0 by (simpl; lia). cbn [bind] in E0. rewrite N2Nat.id in E0.
    destruct (full_child K fetch s L p a pfx cs k Ha Hr Hwf Hrep Hk) as [Ew Hc]. rewrite Ew in E0.
    destruct (assoc k cs) as [c|] eqn:Ec; simpl in E0; [|done].
    destruct Hc as (H1 & H2 & H3). rewrite (proj2 (N.eqb_neq _ _)) in E0 by done. rewrite H2 in E0. by apply (Hgo c (assoc_Some_elem _ _ _ Ec)).
  - rewrite (v_upto _ _ _ _ _ Hv) in E0. cbn [bind] in E0. cbn [sl_base] in E0.
    destruct (small_scan K fetch s L p a pfx cs k Ha Hr Hwf Hrep) as
      [(l & c & r & Ecs & E & Hb & Hlf)|(Hnk & l & r & brk & i & w & Ecs & _ & _ & E & _ & Hw)].
    + simpl in E, E0. rewrite E in E0. rewrite Hb, N.eqb_refl, Hlf in E0.
      assert (Hin : (k, c) ∈ cs) by (rewrite Ecs; apply elem_of_app; right; left). by apply (Hgo c Hin).
    + simpl in E, E0. rewrite E in E0. rewrite (proj2 (N.eqb_neq _ _)) in E0 by done. done.
Qed.

Lemma search_branches s T key v : core s T -> bytes key -> key <> [] -> search s key = Ok (v, true) ->
  exists k, (k, v) ∈ ocontents T /\ branches (ocontents T) key k.
Proof using HK.
  intros Hc Hb Hne E0. unfold search in E0. destruct T as [[k v'|full a pfx cs]|].
  - destruct (root_word_leaf K fetch HK _ _ _ Hc) as (_ & Hl & Hv & Hk & Hf & _ & b & k' & -> & Hb' & _ & Hby). rewrite Hl in E0.
    destruct key as [|c key]; [done|]. change (key_at (c :: key) 0) with (@Ok N c) in E0. cbn [bind] in E0.
    destruct (to_byte (t_root s) =? c); [|done]. rewrite Hv in E0. injection E0 as <-. exists (b :: k'). split; [by left|]. apply branches_leaf.
  - pose proof (hole_enc K fetch s [] (Node full a pfx cs) Hc eq_refl) as (_ & Hl & _).
    pose proof (hole_explode K fetch s [] full a pfx cs Hc) as Hx.
    rewrite (co_root _ _ _ _ Hc) in E0. change (enc_root (Some (Node full a pfx cs))) with (hole_word [] (Node full a pfx cs)) in E0. rewrite Hl, Hx in E0.
    destruct (sub_facts K fetch s [] _ Hc) as (Hw & Hr & Hs).
    by eapply (search_loop_branches s _ key (Node full a pfx cs) (co_alloc _ _ _ _ Hc) Hb []).
  - rewrite (co_root _ _ _ _ Hc) in E0. simpl enc_root in E0. rewrite isLeaf_zero, explode_zero in E0.
    rewrite search_empty in E0; [done|apply (ai_nb _ _ (co_alloc _ _ _ _ Hc))|apply (co_zero _ _ _ _ Hc); by left|lia].
Qed.
End LookupPath.

Lemma c47_branches K fetch n tr y aid key v y' : reachable K fetch n tr y -> proper K fetch y (CLookup aid key) ->
  api y (CLookup aid key) = Ok (RLookup v true, y') -> forall m k1 v1 k2 v2, K k1 -> get fetch y k1 = Some v1 -> K k2 -> get fetch y k2 = Some v2 ->
  take m k1 = take m (fetch v) -> take m k2 = take m (fetch v) -> k1 !! m <> k2 !! m -> key !! m = fetch v !! m.
Proof.
  intros Hr Hp E m k1 v1 k2 v2 HK1 G1 HK2 G2 E1 E2 Hne. pose proof Hp as (Haid & Ho & Hb & Hnn).
  assert (HK : universe K) by (by destruct Hr). destruct (reach_inv K fetch _ _ _ Hr) as (T & lost & Hi). pose proof (iv_core _ _ _ _ _ _ _ Hi) as Hc.
  unfold api, Search.lookup, start_op in E. cbv zeta in E. rewrite search_resv in E.
  destruct (search (sy_tree y) key) as [[w f]|w| |] eqn:Es; try done. cbn [bind] in E. injection E as <- -> _.
  destruct (search_branches K fetch HK _ T key w Hc Hb Hnn Es) as (k & Hk & Hbr).
  destruct (co_contents K fetch _ _ _ _ Hc Hk) as (_ & _ & <-).
  apply (get_iff K fetch HK _ T) in G1; [|done|by apply (uv_bytes _ HK)|by apply (uv_nonempty _ HK)].
  apply (get_iff K fetch HK _ T) in G2; [|done|by apply (uv_bytes _ HK)|by apply (uv_nonempty _ HK)].
  exact (Hbr m k1 v1 k2 v2 G1 G2 E1 E2 Hne).
Qed.
