(** * FineDel: PrepareDelete, interrupted anywhere. *)
From Verif Require Export FineUpd.

Section FineDel.
Context (K : list N -> Prop) (fetch : N -> list N) (HK : universe K).
Context (aid : nat) (key : list N) (Hbytes : bytes key) (Hne : key <> []) (n0 : nat) (e : N) (ns nmax : N) (Hmax : nmax <= ns + 2 ^ 31).
Local Notation good := (good K fetch).
Local Notation rely := (rely K fetch aid nmax).
Local Notation ok := (ok K fetch aid nmax).
Local Notation J := (J K fetch aid key n0 e).
Local Notation known := (known n0).
Local Notation span := (span n0).
Local Notation always := (always key n0).
Local Notation stable := (stable K fetch aid key n0 e nmax).
Local Notation base := (base K fetch aid key n0 e ns nmax).
Local Notation hold := (hold aid).
Local Notation lasting := (lasting K fetch aid key n0 e ns nmax).
Local Notation since := (since ns).
Local Notation pnd := (pnd aid).
Local Notation held_by := (held_by aid n0 ns).
Local Notation entry := (entry n0 ns).
Local Notation look_post := (look_post fetch key n0).

(** What the client has when PrepareDelete returns. *)
Definition del_Q (r : option dop) (w : world) : Prop :=
  base w /\
  match r with
  | None => hold [] false w /\ look_post w (0, false)
  | Some op =>
    (exists L b, hold L b w /\ map fst L = dlids op /\ b = d_isroot (d_kind op)) /\
    (~ clash op \/ (exists p, pnd w p /\ p_over p = false) -> exists p, pnd w p /\ hok K fetch (w_tree w) (w_trie w) aid p (HD key op)) /\
    look_post w (d_value op, true) /\
    (forall x, is_del256 op = true -> d_leafPtr op = PSlot x -> was_slot (w_past w) x) /\
    (compact (w_sys w) -> ~ clash op)
  end.

Lemma del_none w : base w -> hold [] false w -> look_post w (0, false) -> ok (Ret None) del_Q w.
Proof.
  intros Hb Hh Hp. apply ok_ret. intros w' Hr.
  destruct (hold_rtc K fetch aid key n0 e ns nmax Hmax _ _ _ _ _ (lasting_look K fetch aid key n0 e ns nmax (0, false)) Hr Hb Hh Hp) as (? & ? & ?).
  done.
Qed.

(** *** deleteLeaf256: no lock *)

Definition was256 (o : occ_t) (b : N) (me : thead) (w : world) : Prop :=
  known w o /\ forall p, pnd w p -> p_over p = false -> exists o', ooccr (w_trie w) o' /\ osame o o' /\ (b, me) ∈ o_hs o'.

Lemma lasting_256 o b me : lasting (was256 o b me).
Proof.
  intros w w' Hb Hs [Hk Hp]. split; [by eapply lasting_known|]. intros p Hpe Hov. destruct Hs as [Hs|Hs].
  - destruct (ba_pend _ _ _ _ _ _ _ _ _ Hb) as (p0 & Hp0 & _). destruct (r_pend _ _ _ _ _ _ Hs p0 Hp0) as (p' & Hp' & (_ & _ & Ho) & HT).
    unfold FineLock.pnd in Hpe. rewrite Hpe in Hp'. injection Hp' as <-. destruct HT as [->|?]; [|congruence].
    apply (Hp p0 Hp0). destruct (p_over p0); [|done]. by rewrite Ho in Hov.
  - unfold FineLock.pnd in Hpe. rewrite (q_hist _ _ _ _ _ Hs) in Hpe. rewrite (q_trie _ _ _ _ _ Hs). by apply (Hp p).
Qed.

Lemma del_256 o b x v raw op w : base w -> hold [] false w -> known w o -> o_full o = true -> b < 256 -> oslot o b x ->
  raw = mget (t_mem (w_tree w)) x -> isLeaf raw = true -> v = getLeafValue raw -> look_post w (v, true) ->
  d_kind op = deleteLeaf256 -> d_alloc op = aid -> d_value op = v -> d_raw op = raw -> d_leafPtr op = PSlot x ->
  ok (Ret (Some op)) del_Q w.
Proof.
  intros Hb Hh Ho Hf Hb256 Hsl Hraw Hlf Hv Hpost Ekind Ealloc Eval Eraw Eptr. pose proof (ba_J _ _ _ _ _ _ _ _ _ Hb) as HJ.
  pose proof (j_good _ _ _ _ _ _ _ HJ) as Hg.
  assert (Hxs : x = slot_of true (o_addr o) (o_pfx o) b 0) by (destruct Hsl as [_ H]; by rewrite Hf in H).
  assert (Hvl : v < vlim) by (apply (lp_found _ _ _ _ _ Hpost eq_refl)).
  assert (Hword : raw = buildLeaf b v).
  { destruct (so_word _ _ _ _ _ _ _ (no_slot _ _ _ _ _ _ (j_known _ _ _ _ _ _ _ HJ _ Ho) _ _ Hsl)) as [[E _]|(hd & E & Hhd)].
    - rewrite <- Hraw in E. rewrite E, isLeaf_zero in Hlf. done.
    - rewrite <- Hraw in E. destruct (head_byte K fetch n0 o w b hd Hg Hb256 Hhd) as (_ & B & _). rewrite <- E, Hlf in B.
      destruct hd as [k0 v0|]; [|done]. destruct Hhd as (Hv0 & _). simpl in E. rewrite Hv, E. by rewrite buildLeaf_value, N.mod_small. }
  set (me := HLeaf (fetch v) v).
  assert (H256 : was256 o b me w).
  { split; [done|]. intros p Hp Hov. destruct (ba_pend _ _ _ _ _ _ _ _ _ Hb) as (p0 & Hp0 & _ & Hspan). unfold FineLock.pnd in Hp, Hp0. rewrite Hp in Hp0.
    injection Hp0 as <-. destruct Ho as (q & Hq & Ho). rewrite (Hspan Hov q Hq) in Ho. exists o. split; [done|]. split; [apply osame_refl|].
    destruct (live_slot K fetch ns nmax Hmax w o b x Hg Ho Hsl) as [(E & _)|(l & hd & r & Eh & _ & E & Hhd)].
    - rewrite <- Hraw in E. rewrite E, isLeaf_zero in Hlf. done.
    - rewrite <- Hraw, Hword in E. destruct hd as [k0 v0|f a p1 n].
      + simpl in E. destruct Hhd as (Hv0 & Hf0 & _). apply buildLeaf_inj in E as [_ E]; [|done..]. unfold vlim in *. rewrite !N.mod_small in E by done. subst v0 k0.
        rewrite Eh. apply elem_of_app; right; left.
      + exfalso. destruct Hhd as (o' & Ho' & _ & _ & _ & A1 & A2 & A3 & A4).
        destruct (onode_facts K o' b (occ_facts K fetch _ _ _ (iv_core _ _ _ _ _ _ _ (g_inv _ _ _ Hg)) Ho') Hb256) as (_ & HL & _).
        unfold onode in HL. simpl in E. rewrite A1, A2, A3, <- A4, <- E, buildLeaf_isLeaf in HL by done. done. }
  assert (E256 : is_del256 op = true) by (unfold is_del256; by rewrite Ekind).
  apply ok_ret. intros w' Hr. clear HJ Hg Hraw.
  assert (HLp : lasting (fun w => was256 o b me w /\ look_post w (v, true))) by (apply lasting_and; [apply lasting_256|apply lasting_look]).
  destruct (hold_rtc K fetch aid key n0 e ns nmax Hmax _ _ _ _ _ HLp Hr Hb Hh (conj H256 Hpost)) as (Hb1 & Hh1 & [Ho1 H1] & Hpost1).
  clear dependent w. rename w' into w. pose proof (ba_J _ _ _ _ _ _ _ _ _ Hb1) as HJ. pose proof (j_good _ _ _ _ _ _ _ HJ) as Hg.
  pose proof (j_known _ _ _ _ _ _ _ HJ _ Ho1) as Hnok. pose proof (known_facts K fetch n0 _ _ Hg Ho1) as Hof.
  pose proof (oslot_region _ _ _ Hsl) as Hreg.
  split; [done|]. split; [exists [], false; unfold dlids; rewrite Ekind; done|]. split; [|split; [by rewrite Eval|split; [|intros _ [E _]; by rewrite Ekind in E]]].
  - intros _. destruct (ba_pend _ _ _ _ _ _ _ _ _ Hb1) as (p & Hp & Hpk & _). exists p. split; [done|]. cbn [hok]. rewrite Ekind. cbn [d_isroot].
    rewrite E256, Eval. split_and!; try done.
    destruct (j_mine _ _ _ _ _ _ _ HJ) as [_ Hresv]. pose proof Hh1 as [Hop _].
    pose proof (iv_busy _ _ _ _ _ _ _ (g_inv _ _ _ Hg) aid e _ Hresv Hop) as Hle.
    exists b, x, e. rewrite Eraw, Eval. split_and!; try done.
    destruct (p_over p) eqn:Eov.
    + destruct (no_seen _ _ _ _ _ _ Hnok) as (p1 & h & T & p2 & o' & Ep & Ho' & Hs & Hp2). pose proof (g_last _ _ _ Hg) as Hl. rewrite Ep in Hl.
      destruct p2 as [|q p2 _] using rev_ind.
      * rewrite last_snoc in Hl. injection Hl as -> ->. left. exists o'. destruct Hs as (_ & S2 & S3 & S4 & _). rewrite S2, S3, S4. done.
      * right. rewrite app_comm_cons, app_assoc, last_snoc in Hl. injection Hl as ->. apply Forall_app in Hp2 as [_ Hp2].
        apply Forall_cons in Hp2 as [Hp2 _]. split; [done|]. split; [by apply Hp2|]. split.
        -- apply elem_of_seqN in Hreg. pose proof (of_pos _ _ Hof). unfold oreg in Hreg. simpl in Hreg. lia.
        -- by apply (no_safe _ _ _ _ _ _ Hnok).
    + left. destruct (H1 p Hp Eov) as (o' & Ho' & (_ & S2 & S3 & S4 & _) & Hin). exists o'. rewrite S2, S3, S4. unfold me256. rewrite Eval. done.
  - intros x' _ Ex. rewrite Eptr in Ex. injection Ex as <-.
    destruct (no_seen _ _ _ _ _ _ Hnok) as (p1 & h & T & p2 & o' & Ep & Ho' & Hs & Hp2). exists p1, h, T, p2, o', b.
    destruct Hs as (_ & S2 & S3 & S4 & _). rewrite S2, S3, S4. split_and!; try done.
    eapply Forall_impl; [exact Hp2|]. intros q Hq. by apply Hq.
Qed.

(** *** Small nodes: what their words say while the locks have not moved *)

(** Another client has written since the call began. *)
Definition over (w : world) : Prop := exists p, pnd w p /\ p_over p = true.

Definition moved (o : occ_t) (un up : N) (w : world) : Prop :=
  un < w_unl w (lock_id (o_addr o)) \/ (o_par o <> 0 /\ up < w_unl w (lock_id (o_par o))).
Definition stale (o : occ_t) (un up : N) (w : world) : Prop := moved o un up w /\ over w.

Lemma lasting_or P P' : lasting P -> lasting P' -> lasting (fun w => P w \/ P' w).
Proof. intros H1 H2 w w' Hb Hs [H|H]; [left; by eapply H1|right; by eapply H2]. Qed.

Lemma lasting_over : lasting over.
Proof.
  intros w w' Hb Hs (p & Hp & Hov). destruct Hs as [Hs|Hs].
  - destruct (r_pend _ _ _ _ _ _ Hs p Hp) as (p' & Hp' & (_ & _ & Ho) & _). exists p'. split; [done|]. by apply Ho.
  - exists p. split; [|done]. unfold FineLock.pnd in *. by rewrite (q_hist _ _ _ _ _ Hs).
Qed.

Lemma lasting_stale o un up : lasting (stale o un up).
Proof.
  apply lasting_and; [|apply lasting_over].
  apply lasting_or; [apply (lasting_past _ _ _ _ _ _ _ _ Hmax)|]. apply lasting_and; [apply lasting_pure|apply (lasting_past _ _ _ _ _ _ _ _ Hmax)].
Qed.

Lemma stale_not o un up w : stale o un up w -> ~ at_gens o un up w.
Proof. intros [[H|[H1 H2]] _] [G1 G2]; [lia|]. specialize (G2 H1). lia. Qed.

Lemma calm_live o w : base w -> known w o -> ~ over w -> ooccr (w_trie w) o.
Proof.
  intros Hb (q & Hq & Ho) Hno. destruct (ba_pend _ _ _ _ _ _ _ _ _ Hb) as (p & Hp & _ & Hspan).
  rewrite <- (Hspan (ltac:(destruct (p_over p) eqn:E; [exfalso; apply Hno; by exists p|done])) q Hq). done.
Qed.

Lemma over_dec w : base w -> over w \/ ~ over w.
Proof.
  intros Hb. destruct (ba_pend _ _ _ _ _ _ _ _ _ Hb) as (p & Hp & _). destruct (p_over p) eqn:E; [left; by exists p|].
  right. intros (p' & Hp' & E'). unfold FineLock.pnd in *. congruence.
Qed.

Lemma stale_or o un up w : base w -> held_by o un up w -> (exists o', ooccr (w_trie w) o' /\ oext o o') \/ stale o un up w.
Proof.
  intros Hb Hhb. destruct (over_dec w Hb) as [Hov|Hno].
  2:{ left. exists o. split; [|apply oext_refl]. apply calm_live; [done|apply Hhb|done]. }
  assert (at_gens o un up w \/ moved o un up w) as [Hg|Hm].
  { pose proof (hb_node _ _ _ _ _ _ _ Hhb) as [H1 _].
    destruct (decide (w_unl w (lock_id (o_addr o)) = un)) as [E|]; [|right; left; lia].
    destruct (decide (o_par o = 0)) as [E0|E0]; [by left|].
    pose proof (hb_par _ _ _ _ _ _ _ Hhb E0) as [H2 _]. destruct (decide (w_unl w (lock_id (o_par o)) = up)); [by left|]. right; right. split; [done|lia]. }
  - left. destruct (hb_pin _ _ _ _ _ _ _ Hhb) as (o' & Ho' & Hc); [apply Hg..|]. exists o'. split; [done|]. destruct Hc as [->|[? _]]; [apply oext_refl|done].
  - by right.
Qed.

Lemma small_read o un up w j b : base w -> held_by o un up w -> o_full o = false -> map fst (o_hs o) !! j = Some b ->
  stale o un up w \/ exists hd, o_hs o !! j = Some (b, hd) /\
    mget (t_mem (w_tree w)) (slot_of false (o_addr o) (o_pfx o) b j) = enc_head b hd /\
    match hd with
    | HLeaf k v => v < vlim /\ fetch v = k /\ K k /\ (o_path o ++ o_pfx o ++ [b]) `prefix_of` k
    | HNode f a p n => exists o', ooccr (w_trie w) o' /\ o_addr o' = a /\ o_full o' = f /\ o_pfx o' = p /\ n = ncount f (length (o_hs o'))
    end.
Proof.
  intros Hb Hhb Hf Hj. destruct (stale_or _ _ _ _ Hb Hhb) as [(o' & Ho' & Hx)|?]; [right|by left].
  pose proof (ba_J _ _ _ _ _ _ _ _ _ Hb) as HJ. pose proof (j_good _ _ _ _ _ _ _ HJ) as Hgood.
  assert (Hof : ofacts K o) by (eapply known_facts; [done|apply Hhb]).
  assert (Hb256 : b < 256) by (pose proof (of_bytes _ _ Hof) as HB; eapply Forall_lookup_1 in HB; [|done]; done).
  assert (Hs : oslot o b (slot_of false (o_addr o) (o_pfx o) b j)) by (split; [done|]; rewrite Hf; eauto).
  destruct (live_slot K fetch ns nmax Hmax w o' b _ Hgood Ho' (oslot_same _ _ _ _ (oext_same _ _ Hx) Hs)) as [(_ & Hf' & _)|(l & hd & r & Eh & Es & Em & Hhd)].
  { rewrite (oe_full _ _ Hx) in Hf'. congruence. }
  exists hd. rewrite (oe_hs _ _ Hx Hf) in Eh. rewrite (oe_path _ _ Hx), (oe_pfx _ _ Hx), ?(oe_addr _ _ Hx), ?(oe_full _ _ Hx), ?Hf in *. split_and!.
  - rewrite Eh. rewrite lookup_app_r; [|unfold slot_of in Es; cbn [slot_idx] in Es; lia].
    replace (j - length l)%nat with 0%nat by (unfold slot_of in Es; cbn [slot_idx] in Es; lia). done.
  - done.
  - destruct hd as [k v|f a p n]; [done|]. destruct Hhd as (o3 & H1 & _ & _ & _ & H2). by exists o3.
Qed.

Lemma two_heads (hs : list (N * thead)) j x y : length hs = 2%nat -> hs !! j = Some x -> hs !! (1 - j)%nat = Some y ->
  hs = [x; y] \/ hs = [y; x].
Proof.
  destruct hs as [|a [|b [|]]]; simpl; try lia. intros _. destruct j as [|[|j]]; simpl; try done; intros [= ->] [= ->]; auto.
Qed.

Lemma leaf_read o un up w j b a : base w -> held_by o un up w -> o_full o = false -> map fst (o_hs o) !! j = Some b ->
  a = mget (t_mem (w_tree w)) (slot_of false (o_addr o) (o_pfx o) b j) -> isLeaf a = true ->
  a = buildLeaf b (getLeafValue a) /\ getLeafValue a < vlim /\
  (stale o un up w \/ (o_hs o !! j = Some (b, HLeaf (fetch (getLeafValue a)) (getLeafValue a)) /\ K (fetch (getLeafValue a)) /\
                      (o_path o ++ o_pfx o ++ [b]) `prefix_of` fetch (getLeafValue a))).
Proof.
  intros Hb Hhb Hf Hj Ha Hl. pose proof (ba_J _ _ _ _ _ _ _ _ _ Hb) as HJ. pose proof (j_good _ _ _ _ _ _ _ HJ) as Hg.
  assert (Hof : ofacts K o) by (eapply known_facts; [done|apply Hhb]).
  assert (Hb256 : b < 256) by (pose proof (of_bytes _ _ Hof) as HB; eapply Forall_lookup_1 in HB; [|done]; done).
  assert (Hs : oslot o b (slot_of false (o_addr o) (o_pfx o) b j)) by (split; [done|]; rewrite Hf; eauto).
  destruct (so_word _ _ _ _ _ _ _ (no_slot _ _ _ _ _ _ (j_known _ _ _ _ _ _ _ HJ _ (hb_known _ _ _ _ _ _ _ Hhb)) _ _ Hs)) as [[_ ?]|(hd & E & Hhd)]; [congruence|].
  rewrite <- Ha in E. destruct (head_byte K fetch n0 o w b hd Hg Hb256 Hhd) as (_ & B & _). rewrite <- E, Hl in B.
  destruct hd as [k0 v0|]; [|done]. destruct Hhd as (Hv0 & _). simpl in E.
  assert (Ev : getLeafValue a = v0) by (rewrite E; by rewrite buildLeaf_value, N.mod_small). rewrite Ev. split_and!; [done..|].
  destruct (small_read o un up w j b Hb Hhb Hf Hj) as [?|(hd & H1 & H2 & H3)]; [by left|right]. rewrite <- Ha, E in H2. destruct hd as [k1 v1|f a1 p n].
  - destruct H3 as (Hv1 & Hf1 & HK1 & Hp1). simpl in H2. apply buildLeaf_inj in H2 as [_ H2]; [|done..]. unfold vlim in *.
    rewrite !N.mod_small in H2 by done. subst v1. by rewrite Hf1.
  - exfalso. destruct H3 as (o' & Ho' & A1 & A2 & A3 & A4).
    destruct (onode_facts K o' b (occ_facts K fetch _ _ _ (iv_core _ _ _ _ _ _ _ (g_inv _ _ _ Hg)) Ho') Hb256) as (_ & HL & _).
    unfold onode in HL. simpl in H2. rewrite A1, A2, A3, <- A4, <- H2, buildLeaf_isLeaf in HL by done. done.
Qed.

Lemma node_read o un up w j b a : base w -> held_by o un up w -> o_full o = false -> map fst (o_hs o) !! j = Some b ->
  a = mget (t_mem (w_tree w)) (slot_of false (o_addr o) (o_pfx o) b j) -> isLeaf a = false ->
  b < 256 /\ exists o3, known w o3 /\ a = onode b o3 /\ o_path o3 = o_path o ++ o_pfx o ++ [b] /\
  (stale o un up w \/ o_hs o !! j = Some (b, HNode (o_full o3) (o_addr o3) (o_pfx o3) (ncount (o_full o3) (length (o_hs o3))))).
Proof.
  intros Hb Hhb Hf Hj Ha Hl. pose proof (ba_J _ _ _ _ _ _ _ _ _ Hb) as HJ. pose proof (j_good _ _ _ _ _ _ _ HJ) as Hg.
  assert (Hof : ofacts K o) by (eapply known_facts; [done|apply Hhb]).
  assert (Hb256 : b < 256) by (pose proof (of_bytes _ _ Hof) as HB; eapply Forall_lookup_1 in HB; [|done]; done). split; [done|].
  assert (Hs : oslot o b (slot_of false (o_addr o) (o_pfx o) b j)) by (split; [done|]; rewrite Hf; eauto).
  destruct (so_word _ _ _ _ _ _ _ (no_slot _ _ _ _ _ _ (j_known _ _ _ _ _ _ _ HJ _ (hb_known _ _ _ _ _ _ _ Hhb)) _ _ Hs)) as [[_ ?]|(hd & E & Hhd)]; [congruence|].
  rewrite <- Ha in E. destruct (head_byte K fetch n0 o w b hd Hg Hb256 Hhd) as (_ & B & _). rewrite <- E, Hl in B.
  destruct hd as [|f a1 p n]; [done|]. destruct Hhd as (o3 & Ho3 & A1 & A2 & A3 & A4 & Ep3). simpl in E. exists o3. split; [done|].
  assert (E3 : a = onode b o3) by (unfold onode; by rewrite A1, A2, A3, <- A4). split; [done|]. split; [done|].
  destruct (small_read o un up w j b Hb Hhb Hf Hj) as [?|(hd & H1 & H2 & H3)]; [by left|right]. rewrite <- Ha, E3 in H2.
  pose proof (known_facts K fetch n0 _ _ Hg Ho3) as Hof3. destruct (onode_facts K o3 b Hof3 Hb256) as (X3 & L3 & _). destruct hd as [k1 v1|f1 a2 p1 n1].
  - simpl in H2. rewrite H2, buildLeaf_isLeaf in L3 by done. done.
  - destruct H3 as (o' & Ho' & B1 & B2 & B3 & B4).
    destruct (onode_facts K o' b (occ_facts K fetch _ _ _ (iv_core _ _ _ _ _ _ _ (g_inv _ _ _ Hg)) Ho') Hb256) as (X' & _).
    assert (Ew : onode b o' = onode b o3) by (rewrite H2; unfold onode; simpl; by rewrite B1, B2, B3, <- B4). rewrite Ew, X3 in X'.
    assert (Ea : o_addr o' = o_addr o3) by congruence. pose proof (known_live K fetch aid key n0 e ns nmax Hmax w o3 o' HJ Ho3 Ho' Ea) as Hos.
    pose proof (osame_count _ _ Hos) as Ec. destruct Hos as (_ & S2 & S3 & S4 & _). rewrite H1. rewrite <- B1, <- B3, B4, <- B2, Ec, S2, S3, S4. done.
Qed.

(** While the tree is compact, the three locks of a merge are three words. *)
Lemma apart o o3 b2 w un up op : base w -> held_by o un up w -> known w o3 -> o_path o3 = o_path o ++ o_pfx o ++ [b2] ->
  d_node op = o_addr o -> d_parent op = o_par o -> d_child op = o_addr o3 -> compact (w_sys w) -> ~ clash op.
Proof.
  intros Hb Hhb Ho3 Ep En Epar Ec Hcm [_ Hcl]. pose proof (ba_J _ _ _ _ _ _ _ _ _ Hb) as HJ. pose proof (hb_known _ _ _ _ _ _ _ Hhb) as Ho.
  rewrite En, Epar, Ec in Hcl.
  assert (Hd : forall o1, known w o1 -> lock_id (o_addr o1) = lock_id (o_addr o3) -> o_path o1 = o_path o3).
  { intros o1 H1 El. apply lock_near in El; [|by eapply known_near..].
    by destruct (known_known K fetch aid key n0 e ns nmax Hmax w o3 o1) as (? & _). }
  destruct Hcl as [El|[Hp0 El]].
  - pose proof (Hd o Ho (eq_sym El)) as E. rewrite Ep in E. apply (f_equal length) in E. rewrite !app_length in E. simpl in E. lia.
  - destruct (known_par n0 w o Ho Hp0) as (o1 & b & H1 & E1 & E2). rewrite <- E1 in El. pose proof (Hd o1 H1 El) as E.
    rewrite Ep, E2 in E. apply (f_equal length) in E. rewrite !app_length in E. simpl in E. lia.
Qed.

(** *** The last steps of the cases with two locks *)

Lemma del_lock o un bn up bp (mk : N -> dop) (r : res N) v w P : lasting P ->
  base w -> hold [] false w -> held_by o un up w -> (o_par o <> 0 -> lock_id (o_par o) = lock_id (o_addr o) -> up = un) ->
  look_post w (v, true) -> P w ->
  (forall nl, d_value (mk nl) = v /\ d_alloc (mk nl) = aid /\ (d_kind (mk nl) = deleteLeaf \/ d_kind (mk nl) = replaceNodeWithLeaf) /\ d_node (mk nl) = o_addr o /\ d_parent (mk nl) = o_par o) ->
  v < vlim ->
  (forall w1, base w1 -> P w1 -> at_gens o un up w1 -> (exists o', ooccr (w_trie w1) o' /\ oext o o') -> exists nl, r = Ok nl /\ dvalid fetch false key (mk nl) o) ->
  ok (run _ <- p_lock2 (o_addr o) (gen_of un bn) (o_par o) (gen_of up bp); run nl <- of_res r; Ret (Some (mk nl))) del_Q w.
Proof.
  intros HP Hb Hh Hhb Heq Hpost Hp Hmk Hvl Hfin.
  eapply (ok_lock_pin K fetch aid key n0 e ns nmax Hmax _ _ _ _ _ _ _ _ (fun w => P w /\ look_post w (v, true)));
    [apply lasting_and; [exact HP|apply lasting_look]|done..|].
  clear dependent w. intros w L Hb Hh Hhb [Hp Hpost] EL Hg.
  destruct (hb_pin _ _ _ _ _ _ _ Hhb) as (o' & Ho' & Hc); [apply (Hg _ Hh)..|].
  assert (Hx : oext o o') by (destruct Hc as [->|[? _]]; [apply oext_refl|done]). clear Hc.
  destruct (Hfin w Hb Hp (Hg _ Hh)) as (nl & -> & Hv); [by exists o'|]. cbn [of_res pbind]. clear o' Ho' Hx.
  destruct (Hmk nl) as (M1 & M2 & M3 & M4 & M5).
  apply ok_ret. intros w' Hr'.
  assert (HLp : lasting (fun w => held_by o un up w /\ look_post w (v, true))) by (apply lasting_and; [by apply lasting_held|apply lasting_look]).
  destruct (hold_rtc K fetch aid key n0 e ns nmax Hmax _ _ _ _ _ HLp Hr' Hb Hh (conj Hhb Hpost)) as (Hb1 & Hh1 & Hhb1 & Hpost1).
  assert (Hr0 : d_isroot (d_kind (mk nl)) = false) by (destruct M3 as [-> | ->]; done).
  assert (H256 : is_del256 (mk nl) = false) by (unfold is_del256; destruct M3 as [-> | ->]; done).
  split; [done|]. split.
  { exists L, false. split; [done|]. split; [|done]. unfold dlids. rewrite M4, M5, EL. by destruct M3 as [-> | ->]. }
  split; [|split; [by rewrite M1|split; [by rewrite H256|intros _ [E _]; rewrite E in M3; by destruct M3]]]. intros _.
  destruct (ba_pend _ _ _ _ _ _ _ _ _ Hb1) as (p & Hpn & Hpk & _). exists p. split; [done|]. cbn [hok]. rewrite Hr0, H256, Hpk, M1.
  split_and!; try done. destruct (hb_pin _ _ _ _ _ _ _ Hhb1) as (o2 & Ho2 & Hc); [apply (Hg _ Hh1)..|].
  exists o2. split; [done|]. destruct Hc as [->|[Hx _]]; [done|]. by eapply dvalid_oext.
Qed.

(** *** The loop *)

Lemma path_bytes o : ofacts K o -> bytes (o_path o).
Proof.
  intros Hof. destruct (of_ex _ _ Hof) as (k & b & Hk & Hp). pose proof (uv_bytes K HK _ Hk) as HB. destruct Hp as [q ->].
  unfold bytes in *. rewrite !Forall_app in HB. tauto.
Qed.

Lemma del_loop o0 : o_path o0 = [] ->
  forall fuel o w np parent up bp, base w -> hold [] false w -> known w o -> known w o0 -> entry o np parent up w ->
  (always w -> o_path o `prefix_of` key) -> (length (o_path o) <= length key < fuel + length (o_path o))%nat ->
  (o_path o = [] -> onode (default 0 (last (o_path o))) o = onode 0 o0) ->
  ok (p_pd_loop fuel aid key (onode 0 o0) (onode (default 0 (last (o_path o))) o) np parent (gen_of up bp) (length (o_path o))) del_Q w.
Proof.
  intros Hp0. induction fuel as [|fuel IH]; intros o w np parent up bp Hb Hh Ho Ho0 He Hal Hfuel Hroot.
  { exfalso. simpl in Hfuel. lia. }
  pose proof (known_facts K fetch n0 _ _ (j_good _ _ _ _ _ _ _ (ba_J _ _ _ _ _ _ _ _ _ Hb)) Ho) as Hof.
  pose proof (known_facts K fetch n0 _ _ (j_good _ _ _ _ _ _ _ (ba_J _ _ _ _ _ _ _ _ _ Hb)) Ho0) as Hof0.
  assert (Hlast : default 0 (last (o_path o)) < 256).
  { destruct (last (o_path o)) as [b|] eqn:El; [|simpl; lia]. simpl. apply last_Some in El as [l El]. pose proof (path_bytes _ Hof) as HB.
    rewrite El in HB. unfold bytes in HB. rewrite Forall_app in HB. destruct HB as [_ HB]. by apply Forall_cons in HB as [? _]. }
  cbn [p_pd_loop]. destruct (onode_facts K o _ Hof Hlast) as (Ex & _ & _ & Hbyte). rewrite Ex.
  set (PP := fun w => known w o0 /\ (always w -> o_path o `prefix_of` key)).
  assert (HPP : lasting PP).
  { apply lasting_and; [apply lasting_known|]. apply lasting_later. intros w1 w2 Hl H1 Ha. apply H1. by eapply always_later. }
  eapply (ok_enter K fetch HK aid key n0 e ns nmax Hmax o np parent up bp (fun nodeGen => _) _ _ _ HPP); try done.
  clear dependent w. intros w o2 un bn Hb Hh HPw Hs Eptr Epar Hhb Heq.
  pose proof (osame_count _ _ Hs) as Ec.
  assert (Eraw : onode (default 0 (last (o_path o))) o = onode (default 0 (last (o_path o2))) o2).
  { unfold onode. rewrite Ec. destruct Hs as (-> & -> & _ & -> & _). done. }
  rewrite Eraw in *. rewrite <- Ec. clear Ec. destruct Hs as (Epath & Eaddr & Efull & Epfx & Ebytes). unfold PP in *. clear PP.
  rewrite <- Eaddr, <- Epath, <- Epfx in *. rewrite <- Eptr, <- Epar in *.
  assert (Hof2 : ofacts K o2) by (eapply known_facts; [apply (ba_J _ _ _ _ _ _ _ _ _ Hb)|apply Hhb]).
  clear dependent o. clear np parent Eptr Epar. rename o2 into o, Hof2 into Hof.
  set (I := fun w => base w /\ hold [] false w /\ held_by o un up w /\ known w o0 /\ (always w -> o_path o `prefix_of` key)).
  assert (HLI : lasting (fun w => held_by o un up w /\ known w o0 /\ (always w -> o_path o `prefix_of` key))) by (apply lasting_and; [by apply lasting_held|done]).
  assert (HI : stable I) by (apply (stable_hold K fetch aid key n0 e ns nmax Hmax); done).
  assert (HIo : forall w, I w -> known w o) by (by intros ? (_ & _ & [] & _)).
  assert (Hw : I w) by done. clear Hb Hh Hhb HPw.
  assert (Hnext : forall b w1, I w1 -> key !! (length (o_path o) + length (o_pfx o))%nat = Some b -> always w1 ->
    (o_path o ++ o_pfx o ++ [b]) `prefix_of` key /\ (o_full o = false -> b ∈ map fst (o_hs o))).
  { intros b w1 H1 Hb Ha. pose proof H1 as (Hb1 & _ & _ & _ & Hal1). pose proof (ba_J _ _ _ _ _ _ _ _ _ Hb1) as HJ1.
    destruct (no_key _ _ _ _ _ _ (j_known _ _ _ _ _ _ _ HJ1 _ (HIo _ H1)) Ha (Hal1 Ha)) as (b' & Hb1' & Hb2).
    pose proof (prefix_next _ _ _ _ Hb1') as E. rewrite Hb in E. injection E as <-. done. }
  apply (ok_p_data K fetch aid key n0 e nmax I HI o HIo); [done|]. clear dependent w. intros w Hw.
  apply (ok_p_skip K fetch aid key n0 e nmax I HI o HIo); [done|]. clear dependent w. intros w Hw.
  destruct (Nat.leb_spec (length key) (length (o_path o) + length (o_pfx o))) as [Hle|Hlt].
  { pose proof Hw as (Hb & Hh & _ & _ & Hal). apply del_none; try done. apply not_found. intros Ha.
    destruct (no_key _ _ _ _ _ _ (j_known _ _ _ _ _ _ _ (ba_J _ _ _ _ _ _ _ _ _ Hb) _ (HIo _ Hw)) Ha (Hal Ha)) as (b' & Hb1 & _).
    apply prefix_next, lookup_lt_Some in Hb1. lia. }
  destruct (lookup_lt_is_Some_2 key _ Hlt) as [k Ek]. rewrite (key_at_Some _ _ _ Ek). cbn [of_res pbind].
  assert (Hk256 : k < 256) by (eapply Forall_lookup_1 in Hbytes; [|done]; done).
  rewrite (of_full _ _ Hof).
  assert (Hrec : forall w1 o' x, I w1 -> known w1 o' -> oslot o k x -> o_path o' = o_path o ++ o_pfx o ++ [k] ->
    ok (p_pd_loop fuel aid key (onode 0 o0) (onode k o') (PSlot x) (o_addr o) (gen_of un bn) (S (length (o_path o) + length (o_pfx o)))) del_Q w1).
  { intros w1 o' x H1 Ho' Hx Hp'. pose proof H1 as (Hb1 & Hh1 & Hhb1 & Ho01 & Hal1).
    replace k with (default 0 (last (o_path o'))) by (rewrite Hp', app_assoc, last_snoc; done).
    replace (S (length (o_path o) + length (o_pfx o))) with (length (o_path o')) by (rewrite Hp', !app_length; simpl; lia).
    apply IH; try done.
    - right. split; [pose proof (of_pos _ _ Hof); lia|]. exists o, k, x. split_and!; try done; apply Hhb1.
    - intros Ha. rewrite Hp'. by apply (Hnext k w1).
    - rewrite Hp', !app_length. simpl. lia.
    - intros E. rewrite Hp' in E. by destruct (o_path o), (o_pfx o). }
  destruct (o_full o) eqn:Efull.
  - apply (ok_p_get K fetch aid key n0 e nmax I HI o HIo); [done|rewrite Efull; simpl; lia|]. clear dependent w. intros w Hw. rewrite N2Nat.id. cbn [sl_base].
    pose proof Hw as (Hb & Hh & Hhb & Ho0 & Hal). pose proof (ba_J _ _ _ _ _ _ _ _ _ Hb) as HJ.
    set (x := o_addr o + N.of_nat (prefix_slots (length (o_pfx o))) + k).
    assert (Hs : oslot o k x) by (split; [done|]; by rewrite Efull).
    destruct (word_step K fetch aid key n0 e w o k _ HJ (HIo _ Hw) Hk256 (no_slot _ _ _ _ _ _ (j_known _ _ _ _ _ _ _ HJ _ (HIo _ Hw)) _ _ Hs)) as
      [[E0 Hp]|[(Hn0 & Hlf & _ & Hp)|(Hn0 & Hlf & _ & o' & Ho' & Hp & _ & Ea)]]; [intros Ha; by apply (Hnext k w)|..].
    + rewrite (proj2 (N.eqb_eq _ _) E0). by apply del_none.
    + rewrite (proj2 (N.eqb_neq _ _)) by done. rewrite Hlf. eapply (del_256 o k x); try done; apply Hhb.
    + rewrite (proj2 (N.eqb_neq _ _)) by done. rewrite Hlf, Ea. by apply Hrec.
  - change (ncount false (length (o_hs o))) with (length (o_hs o)) in *.
    pose proof (ok_upto K fetch aid key n0 e nmax I HI o HIo w Hw) as Hup. rewrite Efull in Hup.
    change (ncount false (length (o_hs o))) with (length (o_hs o)) in *. rewrite Hup. cbn [of_res pbind sl_base].
    pose proof (of_cnt _ _ Hof) as Hcnt. rewrite Efull in Hcnt. simpl in Hcnt.
    apply ok_bind. eapply ok_mono.
    2:{ apply (ok_p_scan K fetch aid key n0 e nmax I HI o HIo k (length (o_hs o)) 0 (0%nat, 0) w Hw Efull); try done; [by intros; lia|by left|].
        left. lia. }
    clear dependent w. intros r w3 (H3 & Hr). destruct Hr as [(j & w & Hj & Hw & Hrtc & ->)|(Hnk & brk & j & a & hl & hr & -> & Hn0 & Ehs & Hpos & Hhl & Hhr)].
    2:{ rewrite (proj2 (N.eqb_neq _ _)) by done. pose proof H3 as (Hb & Hh & _). apply del_none; try done.
        apply not_found. intros Ha. apply Hnk. by apply (Hnext k w3). }
    eapply ok_rtc; [exact Hrtc|]. clear dependent w3. pose proof Hw as (Hb & Hh & Hhb & Ho0 & Hal). pose proof (ba_J _ _ _ _ _ _ _ _ _ Hb) as HJ.
    assert (Hs : oslot o k (slot_of false (o_addr o) (o_pfx o) k j)) by (split; [done|]; rewrite Efull; eauto).
    remember (mget (t_mem (w_tree w)) (slot_of false (o_addr o) (o_pfx o) k j)) as a eqn:Ea.
    destruct (word_step K fetch aid key n0 e w o k a HJ (HIo _ Hw) Hk256) as
      [[E0 _]|[(Hn0 & Hlf & Hby & Hp)|(Hn0 & Hlf & Hby & o' & Ho' & Hp & _ & Ea')]];
      [rewrite Ea; by apply (no_slot _ _ _ _ _ _ (j_known _ _ _ _ _ _ _ HJ _ (HIo _ Hw)))|intros Ha; by apply (Hnext k w)|..].
    { exfalso. destruct (so_word _ _ _ _ _ _ _ (no_slot _ _ _ _ _ _ (j_known _ _ _ _ _ _ _ HJ _ (HIo _ Hw)) _ _ Hs)) as [[_ ?]|(hd & E & Hhd)]; [congruence|].
      destruct (head_byte K fetch n0 o w k hd (j_good _ _ _ _ _ _ _ HJ) Hk256 Hhd) as (_ & _ & ?). congruence. }
    2:{ rewrite Hby, N.eqb_refl, Hlf, Ea'. by apply Hrec. }
    rewrite Hby, N.eqb_refl, Hlf.
    destruct (leaf_read o un up w j k a Hb Hhb Efull Hj Ea Hlf) as (Eleaf & Hvl & HA).
    set (v := getLeafValue a) in *. set (me := HLeaf (fetch v) v) in *. clear Ea.
    destruct (Nat.eqb_spec (length (o_hs o)) 2) as [E2|E2].
    2:{ match goal with |- context [Ret (Some ?op)] =>
          apply (del_lock o un bn up bp (fun _ => op) (Ok 0) v w (fun w => stale o un up w \/ (o_hs o !! j = Some (k, me) /\ K (fetch v) /\ (o_path o ++ o_pfx o ++ [k]) `prefix_of` fetch v))) end; try done.
        - apply lasting_or; [apply lasting_stale|apply lasting_pure].
        - intros _. split_and!; try done. by left.
        - clear dependent w. intros w Hb [Hst|(HA & _)] Hg Ho; [by apply stale_not in Hst|]. exists 0. split; [done|].
          split; [done|]. unfold dkind_ok. cbn [d_kind d_raw d_data d_count d_prefixLen d_prefixSlots d_leafPosition d_value]. split_and!; try done; [lia|].
          pose proof (lookup_lt_Some _ _ _ HA) as Hlj. apply take_drop_middle in HA. exists (take j (o_hs o)), k, (drop (S j) (o_hs o)).
          split; [symmetry; exact HA|]. rewrite take_length. lia. }
    (* two children *)
    assert (Hj2 : (j < 2)%nat) by (rewrite <- E2, <- (map_length fst); by eapply lookup_lt_Some).
    set (A := o_hs o !! j = Some (k, me) /\ K (fetch v) /\ (o_path o ++ o_pfx o ++ [k]) `prefix_of` fetch v) in *.
    set (P := fun w => (stale o un up w \/ A) /\ look_post w (v, true)).
    assert (HP2 : lasting P) by (apply lasting_and; [apply lasting_or; [apply lasting_stale|apply lasting_pure]|apply lasting_look]).
    assert (HP3 : lasting (fun w => (held_by o un up w /\ known w o0 /\ (always w -> o_path o `prefix_of` key)) /\ P w)) by (by apply lasting_and).
    assert (Hw2 : base w /\ hold [] false w /\ (held_by o un up w /\ known w o0 /\ (always w -> o_path o `prefix_of` key)) /\ P w) by done.
    clear HJ Hb Hh Hhb Ho0 Hal Hp HA Hw.
    apply (ok_p_get K fetch aid key n0 e nmax _ (stable_hold K fetch aid key n0 e ns nmax Hmax [] false _ HP3) o);
      [intros ? (_ & _ & ([] & _) & _); done|done|rewrite Efull; simpl; lia|].
    clear dependent w. intros w (Hb & Hh & (Hhb & Ho0 & Hal) & HPw).
    destruct (lookup_lt_is_Some_2 (map fst (o_hs o)) (1 - j)) as [b2 Hb2]; [rewrite map_length, E2; lia|].
    change (o_addr o + N.of_nat (prefix_slots (length (o_pfx o))) + N.of_nat (1 - j)) with (slot_of false (o_addr o) (o_pfx o) b2 (1 - j)).
    remember (mget (t_mem (w_tree w)) (slot_of false (o_addr o) (o_pfx o) b2 (1 - j))) as other eqn:Eother.
    destruct (isLeaf other) eqn:Hol.
    + destruct (leaf_read o un up w (1 - j) b2 other Hb Hhb Efull Hb2 Eother Hol) as (Eleaf2 & Hvl2 & HB).
      set (v2 := getLeafValue other) in *. clear Eother.
      set (B := o_hs o !! (1 - j)%nat = Some (b2, HLeaf (fetch v2) v2) /\ K (fetch v2) /\ (o_path o ++ o_pfx o ++ [b2]) `prefix_of` fetch v2) in *.
      match goal with |- context [of_res ?rr] => match goal with |- context [Ret (Some (Dop ?z1 ?z2 ?z3 ?z4 ?z5 ?z6 ?z7 ?z8 ?z9 ?z10 _ ?z12 ?z13 ?z14 ?z15 ?z16))] =>
        apply (del_lock o un bn up bp (fun nl => Dop z1 z2 z3 z4 z5 z6 z7 z8 z9 z10 nl z12 z13 z14 z15 z16) rr v w (fun w => ((stale o un up w \/ A) /\ (stale o un up w \/ B)) /\ known w o0)) end end; try done.
      * apply lasting_and; [|apply lasting_known]. apply lasting_and; apply lasting_or; (apply lasting_stale || apply lasting_pure).
      * apply HPw.
      * split; [|done]. split; [apply HPw|done].
      * intros nl. split_and!; try done. by right.
      * clear dependent w. intros w Hb [[HA HB] Ho0] Hg (o' & Ho' & Hx).
        destruct HA as [Hst|(HA & HKv & Hpv)]; [by apply stale_not in Hst|]. destruct HB as [Hst|(HB & HKv2 & Hpv2)]; [by apply stale_not in Hst|].
        assert (Hb2' : b2 < 256) by (pose proof (of_bytes _ _ Hof) as HBy; eapply Forall_lookup_1 in HBy; [|exact Hb2]; done).
        assert (Hupd : forall c, c < 256 -> updateLeafKey other c = buildLeaf c v2) by (intros c Hc; rewrite Eleaf2; by apply updateLeafKey_buildLeaf).
        match goal with |- exists nl, ?r = Ok nl /\ _ =>
          assert (Hnl : exists nw, r = Ok nw /\ (fetch v = key -> nw = buildLeaf (default (default 0 (head (fetch v2))) (last (o_path o))) v2)) end.
        { destruct (decide (o_path o = [])) as [Ep|Ep].
          - rewrite (Hroot Ep), N.eqb_refl. rewrite Ep in *. destruct (Nat.ltb_spec 0 (length (o_pfx o))) as [Hpl|Hpl].
            + destruct key as [|c0 key']; [done|]. change (key_at (c0 :: key') 0) with (@Ok N c0). cbn [bind].
              eexists; split; [done|]. intros Hfv. assert (Hc0 : c0 < 256) by (by apply Forall_cons in Hbytes as [? _]).
              rewrite Hupd by done. f_equal. simpl. rewrite Hfv in Hpv. simpl in Hpv, Hpv2. destruct (o_pfx o) as [|c1 pfx']; [simpl in Hpl; lia|].
              destruct Hpv as [q1 Hq1], Hpv2 as [q2 Hq2]. simpl in Hq1, Hq2. rewrite Hq2. simpl. congruence.
            + eexists; split; [done|]. intros _. rewrite Eleaf2 at 2. rewrite buildLeaf_byte by done. rewrite Hupd by done. f_equal. simpl.
              destruct (o_pfx o); [|simpl in Hpl; lia]. simpl in Hpv2. destruct Hpv2 as [q2 Hq2]. by rewrite Hq2.
          - destruct (N.eqb_spec (onode (default 0 (last (o_path o))) o) (onode 0 o0)) as [Er|_].
            { exfalso. apply Ep. destruct (onode_facts K o0 0 Hof0 ltac:(done)) as (X0 & _). destruct (onode_facts K o _ Hof Hlast) as (Ex & _). rewrite <- Er, Ex in X0.
              assert (Ea : o_addr o' = o_addr o0) by (rewrite (oe_addr _ _ Hx); congruence).
              destruct (known_live K fetch aid key n0 e ns nmax Hmax w o0 o' (ba_J _ _ _ _ _ _ _ _ _ Hb) Ho0 Ho' Ea) as (E1 & _).
              rewrite (oe_path _ _ Hx), Hp0 in E1. done. }
            replace (length (o_path o) + length (o_pfx o) - length (o_pfx o) - 1)%nat with (length (o_path o) - 1)%nat by lia.
            assert (Hlen : (0 < length (o_path o))%nat) by (destruct (o_path o); [done|simpl; lia]).
            destruct (lookup_lt_is_Some_2 key (length (o_path o) - 1) ltac:(lia)) as [c0 Ec0].
            rewrite (key_at_Some _ _ _ Ec0). cbn [bind]. eexists; split; [done|]. intros Hfv. rewrite Hfv in Hpv.
            assert (Hpp : o_path o `prefix_of` key) by (etrans; [|exact Hpv]; by eexists).
            destruct (last (o_path o)) as [cl|] eqn:El; [|by apply last_None in El]. simpl.
            pose proof (last_path_byte _ _ _ Hpp El) as Hlb. assert (c0 = cl) as -> by congruence. apply Hupd.
            eapply Forall_lookup_1 in Hbytes; [|exact Ec0]. done. }
        destruct Hnl as (nw & -> & Hnw). exists nw. split; [done|]. split; [done|].
        unfold dkind_ok. cbn [d_kind d_raw d_data d_count d_prefixLen d_prefixSlots d_leafPosition d_value d_newLeaf]. split_and!; try done.
        exists k, b2, (fetch v2), v2. split; [|done]. by apply (two_heads _ j).
    + destruct (node_read o un up w (1 - j) b2 other Hb Hhb Efull Hb2 Eother Hol) as (Hb2' & o3 & Ho3 & Eo3 & Ep3 & HB).
      assert (Hof3 : ofacts K o3) by (eapply known_facts; [apply (ba_J _ _ _ _ _ _ _ _ _ Hb)|done]).
      destruct (onode_facts K o3 b2 Hof3 Hb2') as (Ex3 & _). rewrite Eo3 at 1. rewrite Ex3. clear Eother.
      set (B := o_hs o !! (1 - j)%nat = Some (b2, HNode (o_full o3) (o_addr o3) (o_pfx o3) (ncount (o_full o3) (length (o_hs o3))))) in *.
      assert (HP4 : lasting (fun w => (held_by o un up w /\ known w o3 /\ (stale o un up w \/ B)) /\ P w)).
      { apply lasting_and; [|done]. apply lasting_and; [by apply lasting_held|]. apply lasting_and; [apply lasting_known|]. apply lasting_or; [apply lasting_stale|apply lasting_pure]. }
      assert (Hw : base w /\ hold [] false w /\ (held_by o un up w /\ known w o3 /\ (stale o un up w \/ B)) /\ P w) by done.
      clear Hb Hh Hhb Ho0 Hal HPw HB Ho3 HP3.
      apply (ok_p_gen K fetch aid key n0 e nmax _ (stable_hold K fetch aid key n0 e ns nmax Hmax [] false _ HP4) o3); [by intros ? (_ & _ & (_ & ? & _) & _)|done|].
      clear dependent w. intros w (Hb & Hh & HPw). destruct (gen_now K fetch aid key n0 e ns nmax Hmax w (lock_id (o_addr o3)) Hb) as (uc & bc & -> & Hval).
      pose proof (since_now K fetch aid key n0 e ns nmax Hmax (lock_id (o_addr o3)) _ _ w Hb Hval) as Hsi. clear Hval.
      assert (HP5 : lasting (fun w => since (lock_id (o_addr o3)) uc w /\ (held_by o un up w /\ known w o3 /\ (stale o un up w \/ B)) /\ P w)).
      { apply lasting_and; [apply (lasting_since _ _ _ _ _ _ _ _ Hmax)|done]. }
      assert (Hw : base w /\ hold [] false w /\ since (lock_id (o_addr o3)) uc w /\ (held_by o un up w /\ known w o3 /\ (stale o un up w \/ B)) /\ P w) by done.
      clear Hb Hh HPw HP4 Hsi.
      apply (ok_p_get K fetch aid key n0 e nmax _ (stable_hold K fetch aid key n0 e ns nmax Hmax [] false _ HP5) o);
        [intros ? (_ & _ & _ & ([] & _) & _); done|done|rewrite Efull; simpl; lia|].
      clear dependent w. intros w (Hb & Hh & HPw). destruct (_ =? other); cbn [negb]; [|by apply (ok_again K fetch)].
      eapply (ok_lock3 K fetch aid key n0 e ns nmax Hmax _ _ _ _ _ _ _ _ _ _ _ _ _ HP5); try done.
      * pose proof (of_pos _ _ Hof). lia.
      * by intros ? [? _].
      * by intros ? (_ & ([] & _) & _).
      * intros Hpar ? (_ & (Hhb & _) & _). by apply Hhb.
      * clear dependent w. intros w L Hb Hh HPw EL L1 L2 L3.
        set (opx := Dop v aid replaceNodeWithNode (onode (default 0 (last (o_path o))) o) PRoot (o_ptr o) (o_par o) (o_addr o) (o_addr o3) (Slice (o_addr o3) (dlen (o_addr o3))) 0
          (ncount (o_full o3) (length (o_hs o3))) (length (o_pfx o)) (prefix_slots (length (o_pfx o3))) j (o_pfx o ++ [b2] ++ o_pfx o3)).
        assert (Hg : ~ clash opx -> forall w2, hold L false w2 -> at_gens o un up w2).
        { intros Hnc w2 [_ Hu2]. split.
          - destruct L2 as [E|L2]; [|by apply Hu2]. exfalso. apply Hnc. split; [done|]. by left.
          - intros Hpar. destruct (L3 Hpar) as [E|[E|L3']]; [| |by apply Hu2].
            + exfalso. apply Hnc. split; [done|]. by right.
            + rewrite E. destruct L2 as [E'|L2]; [exfalso; apply Hnc; split; [done|]; by left|]. rewrite (Hu2 _ _ L2). symmetry. by apply Heq. }
        pose proof (stable_hold K fetch aid key n0 e ns nmax Hmax L false _ HP5) as HI5.
        match type of HI5 with FineRead.stable _ _ _ _ _ _ _ ?I5 => set (I5w := I5) in *; assert (Hw : I5w w) by done end. clear Hb Hh HPw.
        assert (HI5o : forall w, I5w w -> known w o) by (intros ? (_ & _ & _ & ([] & _) & _); done).
        assert (HI5c : forall w, I5w w -> known w o3) by (intros ? (_ & _ & _ & (_ & ? & _) & _); done).
        apply (ok_p_append K fetch aid key n0 e nmax I5w HI5 o HI5o); [done|]. clear dependent w. intros w Hw.
        apply (ok_p_data K fetch aid key n0 e nmax I5w HI5 o3 HI5c); [done|]. clear dependent w. intros w Hw.
        apply (ok_p_append K fetch aid key n0 e nmax I5w HI5 o3 HI5c); [done|]. clear dependent w. intros w Hw.
        change (ok (Ret (Some opx)) del_Q w). apply ok_ret. intros w' Hr'.
        pose proof (I_rtc K fetch aid key n0 e nmax I5w HI5 w w' Hr' Hw) as (Hb & Hh & _ & (Hhb & Ho3 & HB) & (HA & Hpost)).
        split; [done|]. split; [exists L, false; done|]. split; [|split_and!; try done; by apply (apart o o3 b2 w' un up)]. intros Hnc.
        assert (~ stale o un up w' /\ exists o', ooccr (w_trie w') o' /\ oext o o') as (Hns & o' & Ho' & Hx).
        { destruct Hnc as [Hnc|(p & Hp & Hov)].
          - specialize (Hg Hnc w' Hh). split; [intros Hst; by apply stale_not in Hst|].
            destruct (hb_pin _ _ _ _ _ _ _ Hhb) as (o' & Ho' & Hc); [apply Hg..|]. exists o'. split; [done|]. destruct Hc as [->|[? _]]; [apply oext_refl|done].
          - assert (Hno : ~ over w') by (intros (p' & Hp' & E'); unfold FineLock.pnd in *; congruence).
            split; [by intros [_ ?]|]. exists o. split; [|apply oext_refl]. apply calm_live; [done|apply Hhb|done]. }
        clear Hnc Hg.
        destruct (ba_pend _ _ _ _ _ _ _ _ _ Hb) as (p & Hpn & Hpk & _). exists p. split; [done|]. cbn [hok opx d_alloc d_kind d_isroot d_value]. rewrite Hpk.
        change (is_del256 opx) with false. split_and!; try done.
        destruct HA as [Hst|(HA & HKv & Hpv)]; [done|]. destruct HB as [Hst|HB]; [done|].
        exists o'. split; [done|]. eapply dvalid_oext; [exact Hx|done|].
        split; [done|]. unfold dkind_ok. cbn [opx d_kind d_raw d_data d_count d_prefixLen d_prefixSlots d_leafPosition d_value d_newLeaf d_child d_prefix]. split_and!; try done.
        exists k, b2, (o_full o3), (o_addr o3), (o_pfx o3), (ncount (o_full o3) (length (o_hs o3))). split_and!; try done. by apply (two_heads _ j).
Qed.

(** The root cases. *)
Theorem del_ok w : base w -> hold [] false w -> ok (p_prepare_delete aid key) del_Q w.
Proof.
  intros Hb Hh. unfold p_prepare_delete. cbn [p_load pbind].
  pose proof (lasting_pure K fetch aid key n0 e ns nmax True) as HT.
  apply (ok_load K fetch aid key n0 e nmax _ (stable_hold K fetch aid key n0 e ns nmax Hmax [] false _ HT)); [done|done|].
  clear dependent w. intros w (Hb & Hh & _). cbn [pget]. pose proof (ba_J _ _ _ _ _ _ _ _ _ Hb) as HJ. pose proof (j_good _ _ _ _ _ _ _ HJ) as Hg.
  pose proof (span_last K fetch n0 w Hg (j_n0 _ _ _ _ _ _ _ HJ)) as Hsp.
  assert (Hcore : forall w1, base w1 -> core K fetch (w_tree w1) (w_trie w1)) by (intros w1 H1; apply (g_inv _ _ _ (j_good _ _ _ _ _ _ _ (ba_J _ _ _ _ _ _ _ _ _ H1)))).
  destruct (N.eqb_spec (t_root (w_tree w)) 0) as [E0|E0].
  { apply del_none; try done. apply not_found. intros Ha. destruct (Ha _ Hsp) as [v Hv].
    destruct (iv_maps _ _ _ _ _ _ _ (g_inv _ _ _ Hg)) as [Hmap _]. apply Hmap in Hv.
    destruct (root_case K fetch w _ Hg eq_refl) as [ET|(k & v' & ET)].
    - apply root_none with (K := K) (fetch := fetch); [done|by left].
    - rewrite ET in Hv. by apply elem_of_nil in Hv.
    - pose proof (Hcore _ Hb) as Hc. rewrite ET in Hc. destruct (root_word_leaf K fetch HK _ _ _ Hc) as (? & _). done. }
  destruct (isLeaf (t_root (w_tree w))) eqn:El.
  { destruct key as [|c key'] eqn:Ekey; [done|]. change (key_at (c :: key') 0) with (@Ok N c). cbn [of_res pbind]. rewrite <- Ekey in *.
    assert (Hhd : head key = Some c) by (by rewrite Ekey). clear Ekey.
    assert (Hcase : forall w1, base w1 -> isLeaf (t_root (w_tree w1)) = true -> t_root (w_tree w1) <> 0 -> exists k v, w_trie w1 = Some (Leaf k v) /\ head k = Some (to_byte (t_root (w_tree w1))) /\
      getLeafValue (t_root (w_tree w1)) = v /\ v < vlim /\ fetch v = k /\ (always w1 -> k = key)).
    { intros w1 Hb1 El1 E1. pose proof (Hcore _ Hb1) as Hc. pose proof (j_good _ _ _ _ _ _ _ (ba_J _ _ _ _ _ _ _ _ _ Hb1)) as Hg1.
      destruct (root_case K fetch w1 _ Hg1 eq_refl) as [ET|(k & v & ET)].
      - apply root_none with (K := K) (fetch := fetch); [done|by right].
      - exfalso. rewrite ET in Hc. pose proof (co_root _ _ _ _ Hc) as H0. simpl in H0. congruence.
      - exists k, v. rewrite ET in Hc. destruct (root_word_leaf K fetch HK _ _ _ Hc) as (_ & _ & Hv & HKk & Hfv & Hvl & b & k' & Ekk & Hb' & Hrw & Hby).
        rewrite Hby. split_and!; try done; [by rewrite Ekk|]. intros Ha.
        destruct (Ha _ (span_last K fetch n0 w1 Hg1 (j_n0 _ _ _ _ _ _ _ (ba_J _ _ _ _ _ _ _ _ _ Hb1)))) as [v' Hv']. simpl in Hv'.
        destruct (iv_maps _ _ _ _ _ _ _ (g_inv _ _ _ Hg1)) as [Hmap _].
        apply Hmap in Hv'. rewrite ET in Hv'. apply elem_of_list_singleton in Hv'. congruence. }
    destruct (N.eqb_spec (to_byte (t_root (w_tree w))) c) as [Ec|Ec].
    2:{ apply del_none; try done. apply not_found. intros Ha. destruct (Hcase w Hb El E0) as (k & v & _ & Hhk & _ & _ & _ & Hk).
        rewrite (Hk Ha) in Hhk. congruence. }
    apply (ok_lock_root K fetch aid key n0 e ns nmax Hmax); try done; [by right|].
    remember (t_root (w_tree w)) as root. clear dependent w. intros w Hb Hh Er HTn. rewrite <- Er in *.
    destruct (Hcase w Hb El E0) as (k & v & ET & Hhk & Hv & Hvl & Hfv & Hk). rewrite Hv.
    pose proof (j_good _ _ _ _ _ _ _ (ba_J _ _ _ _ _ _ _ _ _ Hb)) as Hg.
    pose proof (span_last K fetch n0 w Hg (j_n0 _ _ _ _ _ _ _ (ba_J _ _ _ _ _ _ _ _ _ Hb))) as Hsp.
    assert (Hpost : look_post w (v, true)).
    { split; simpl; try done.
      - intros Ha. split; [done|]. rewrite Hfv. by apply Hk.
      - intros _. split; [done|]. exists (w_hist w, w_trie w). split; [done|]. rewrite Hfv, ET. by left. }
    apply ok_ret. intros w' Hrtc.
    pose proof (stable_root K fetch aid key n0 e ns nmax Hmax (w_trie w) _ HTn (lasting_look K fetch aid key n0 e ns nmax (v, true))) as HI.
    destruct (I_rtc K fetch aid key n0 e nmax _ HI w w' Hrtc) as (Hb1 & Hh1 & ET1 & Hp1); [done|].
    split; [done|]. split; [exists [], true; done|]. split; [|split_and!; try done; by intros _ [? _]]. intros _.
    destruct (ba_pend _ _ _ _ _ _ _ _ _ Hb1) as (p & Hpn & Hpk & _). exists p. split; [done|]. cbn [hok d_alloc d_kind d_isroot d_value]. rewrite Hpk, ET1, ET.
    split_and!; try done. unfold droot. cbn [d_kind d_value]. by rewrite Hfv. }
  destruct (live_root K fetch HK w Hg El E0) as (o & Ho & P1 & P2 & P3 & Er). rewrite Er.
  pose proof (del_loop o P1 (S (length key)) o w PRoot 0 0 false Hb Hh) as H. rewrite P1 in H. change (default 0 (last [])) with 0 in H. change (gen_of 0 false) with 0 in H.
  assert (Hko : known w o) by (exists (w_hist w, w_trie w); done).
  apply H; try done.
  - by left.
  - intros _. apply prefix_nil.
  - simpl. lia.
Qed.
End FineDel.
