(** * FineUpd: PrepareUpdate, interrupted anywhere. *)
From Verif Require Export FinePin.

Section FineUpd.
Context (K : list N -> Prop) (fetch : N -> list N) (HK : universe K).
Context (aid : nat) (key : list N) (Hkey : K key) (n0 : nat) (e : N) (ns nmax : N) (Hmax : nmax <= ns + 2 ^ 31).
Local Notation good := (good K fetch).
Local Notation rely := (rely K fetch aid nmax).
Local Notation ok := (ok K fetch aid nmax).
Local Notation J := (J K fetch aid key n0 e).
Local Notation known := (known n0).
Local Notation span := (span n0).
Local Notation always := (always key n0).
Local Notation stable := (stable K fetch aid key n0 e nmax).
Local Notation base := (base K fetch aid key n0 e ns nmax).
Local Notation hold := (hold aid).
Local Notation lasting := (lasting K fetch aid key n0 e ns nmax).
Local Notation since := (since ns).
Local Notation pnd := (pnd aid).
Local Notation held_by := (held_by aid n0 ns).
Local Notation entry := (entry n0 ns).
Local Notation look_post := (look_post fetch key n0).

(** What the client has when PrepareUpdate returns. *)
Definition upd_Q (r : bool * uop) (w : world) : Prop :=
  base w /\ (exists L b, hold L b w /\ map fst L = ulids r.2 /\ b = u_isroot (u_kind r.2)) /\
  (exists p, pnd w p /\ hok K fetch (w_tree w) (w_trie w) aid p (HU r.1 r.2)) /\ look_post w (u_value r.2, r.1).

Lemma lasting_look r : lasting (fun w => look_post w r).
Proof. apply lasting_later. intros w w'. apply look_post_later. Qed.

(** The last steps of every case but the root ones. *)
Lemma upd_lock o un bn up bp op found w :
  base w -> hold [] false w -> held_by o un up w -> (o_par o <> 0 -> lock_id (o_par o) = lock_id (o_addr o) -> up = un) ->
  look_post w (u_value op, found) -> found = is_found (u_kind op) -> u_alloc op = aid -> u_key op = key ->
  u_node op = o_addr o -> u_parent op = o_par o -> u_isroot (u_kind op) = false ->
  (forall o', ooccr (w_trie w) o' -> oext o o' -> uvalid K fetch false key op o') ->
  ok (run _ <- p_lock2 (o_addr o) (gen_of un bn) (o_par o) (gen_of up bp); Ret (found, op)) upd_Q w.
Proof.
  intros Hb Hh Hhb Heq Hpost Hf Ha Hk En Ep Hr Hv. destruct (at_gens_dec o un up w) as [Hg|Hg].
  2:{ by apply (ok_lock_stale K fetch aid key n0 e ns nmax Hmax). }
  destruct (hb_pin _ _ _ _ _ _ _ Hhb) as (o' & Ho' & Hc); [apply Hg..|].
  assert (Hx : oext o o') by (destruct Hc as [->|[? _]]; [apply oext_refl|done]). clear Hc.
  specialize (Hv _ Ho' Hx). pose proof (oe_addr _ _ Hx) as Ea. pose proof (oe_par _ _ Hx) as Epar.
  assert (Hhb' : held_by o' un up w).
  { apply (held_now K fetch aid key n0 e ns nmax); try done; rewrite ?Ea, ?Epar; apply Hhb. }
  rewrite <- Ea, <- Epar in *. clear Hhb Hx Ho' Hg.
  eapply (ok_lock_pin K fetch aid key n0 e ns nmax Hmax); [apply (lasting_look (u_value op, found))|done..|].
  clear dependent w. intros w L Hb Hh Hhb Hpost EL Hg. apply ok_ret. intros w' Hr'.
  assert (HLp : lasting (fun w => held_by o' un up w /\ look_post w (u_value op, found))).
  { apply lasting_and; [by apply lasting_held|apply lasting_look]. }
  destruct (hold_rtc K fetch aid key n0 e ns nmax Hmax _ _ _ _ _ HLp Hr' Hb Hh (conj Hhb Hpost)) as (Hb1 & Hh1 & Hhb1 & Hpost1).
  split; [done|]. split.
  { exists L, false. split; [done|]. split; [|done]. unfold ulids. cbn [snd]. rewrite Hr, EL, En, Ep. done. }
  split; [|done]. destruct (ba_pend _ _ _ _ _ _ _ _ _ Hb1) as (p & Hp & Hpk & _). exists p. split; [done|]. cbn [fst snd hok].
  rewrite Hpk. split_and!; try done. rewrite Hr. destruct (hb_pin _ _ _ _ _ _ _ Hhb1) as (o2 & Ho2 & Hc); [apply (Hg _ Hh1)..|].
  exists o2. split; [done|]. destruct Hc as [->|[Hx Hd]].
  - by eapply uvalid_dirty; [|exact Hv].
  - rewrite (Hd _ Hp). by eapply uvalid_oext.
Qed.

(** The loop of PrepareUpdate. *)
Lemma upd_loop : forall fuel o w np parent up bp, base w -> hold [] false w -> known w o -> entry o np parent up w ->
  o_path o `prefix_of` key -> (length key < fuel + length (o_path o))%nat ->
  ok (p_pu_loop fuel aid key (onode (default 0 (last (o_path o))) o) np parent (gen_of up bp) (length (o_path o))) upd_Q w.
Proof.
  induction fuel as [|fuel IH]; intros o w np parent up bp Hb Hh Ho He Hpath Hfuel.
  { exfalso. apply prefix_length in Hpath. simpl in Hfuel. lia. }
  pose proof (known_facts K fetch n0 _ _ (j_good _ _ _ _ _ _ _ (ba_J _ _ _ _ _ _ _ _ _ Hb)) Ho) as Hof.
  assert (Hlast : default 0 (last (o_path o)) < 256).
  { destruct (last (o_path o)) as [b|] eqn:El; [|simpl; lia]. simpl. apply last_Some in El as [l El]. rewrite El in Hpath. destruct Hpath as [q Eq].
    pose proof (uv_bytes K HK _ Hkey) as HB. rewrite Eq in HB. unfold bytes in HB. rewrite !Forall_app in HB. destruct HB as [[_ HB] _]. by apply Forall_cons in HB as [? _]. }
  cbn [p_pu_loop]. destruct (onode_facts K o _ Hof Hlast) as (Ex & _ & _ & Hbyte). rewrite Ex.
  eapply (ok_enter K fetch HK aid key n0 e ns nmax Hmax o np parent up bp (fun nodeGen => _) _ _ _ (lasting_pure _ _ _ _ _ _ _ _ True)); try done.
  clear dependent w. intros w o2 un bn Hb Hh _ Hs Eptr Epar Hhb Heq.
  pose proof (osame_count _ _ Hs) as Ec.
  assert (Eraw : onode (default 0 (last (o_path o))) o = onode (default 0 (last (o_path o2))) o2).
  { unfold onode. rewrite Ec. destruct Hs as (-> & -> & _ & -> & _). done. }
  rewrite Eraw in *. rewrite <- Ec. clear Ec. destruct Hs as (Epath & Eaddr & Efull & Epfx & Ebytes).
  rewrite <- Eaddr, <- Epath, <- Epfx in *. rewrite <- Eptr, <- Epar in *.
  assert (Hof2 : ofacts K o2) by (eapply known_facts; [apply (ba_J _ _ _ _ _ _ _ _ _ Hb)|apply Hhb]).
  clear dependent o. clear np parent Eptr Epar. rename o2 into o, Hof2 into Hof.
  set (I := fun w => base w /\ hold [] false w /\ held_by o un up w).
  assert (HI : stable I) by (apply (stable_hold K fetch aid key n0 e ns nmax Hmax), lasting_held; done).
  assert (HIo : forall w, I w -> known w o) by (by intros ? (_ & _ & [])).
  assert (Hw : I w) by done. clear Hb Hh Hhb.
  apply (ok_p_data K fetch aid key n0 e nmax I HI o HIo); [done|]. clear dependent w. intros w Hw.
  apply (ok_p_append K fetch aid key n0 e nmax I HI o HIo); [done|]. clear dependent w. intros w Hw.
  pose proof (prefix_cmp_spec key (length (o_path o)) (o_pfx o) 0) as Hcmp. rewrite Nat.add_0_r in Hcmp.
  assert (Hbase : forall o' kind k pos dep mm lp cl v, oext o o' -> ubase K key
    (Uop key v aid kind k pos (o_addr o) (o_par o) (ncount (o_full o) (length (o_hs o))) dep (o_pfx o) mm (o_ptr o)
       (Slice (o_addr o) (dlen (o_addr o))) (prefix_slots (length (o_pfx o))) lp cl (onode (default 0 (last (o_path o))) o)) o').
  { intros o' kind k pos dep mm lp cl v Hx. pose proof (osame_count _ _ (oext_same _ _ Hx)) as Ec. destruct Hx.
    split; cbn [u_key u_node u_parent u_nodePtr u_data u_prefix u_prefixSlots u_count u_raw]; try congruence.
    all: rewrite oe_path; done. }
  assert (Hend : forall w1 b, I w1 -> (o_path o ++ o_pfx o ++ [b]) `prefix_of` key -> o_full o = false -> b ∉ map fst (o_hs o) -> ~ always w1).
  { intros w1 b (Hb1 & _ & Hhb1) Hp Hf Hnb Ha. pose proof (ba_J _ _ _ _ _ _ _ _ _ Hb1) as HJ1.
    destruct (no_key _ _ _ _ _ _ (j_known _ _ _ _ _ _ _ HJ1 _ (hb_known _ _ _ _ _ _ _ Hhb1)) Ha Hpath) as (b' & Hb' & Hin).
    apply prefix_next in Hb', Hp. assert (b' = b) as -> by congruence. by apply Hnb, Hin. }
  destruct (prefix_cmp key (length (o_path o)) (o_pfx o) 0) as [|i|] eqn:Ecmp.
  - exfalso. by apply (not_exhausted K HK key (o_path o) (o_pfx o) Hkey (of_ex _ _ Hof)).
  - destruct Hcmp as (n & b & c & -> & Hb' & Hcc & Hbc & Htk). rewrite Nat.add_0_l. rewrite lookup_drop in Hcc.
    assert (Hlen : (length (o_path o) + n < length key)%nat) by (by apply lookup_lt_Some in Hcc).
    destruct (lookup_lt_is_Some_2 key (length (o_path o)) ltac:(lia)) as [k0 Ek0]. rewrite (key_at_Some _ _ _ Ek0). cbn [of_res pbind].
    assert (Hpre : (o_path o ++ take n (o_pfx o) ++ [c]) `prefix_of` key).
    { destruct Hpath as [q ->]. rewrite drop_app in Htk. rewrite lookup_app_r in Hcc by lia.
      replace (length (o_path o) + n - length (o_path o))%nat with n in Hcc by lia.
      rewrite Htk. apply prefix_app. rewrite <- (take_S_r _ _ _ Hcc). exists (drop (S n) q). by rewrite take_drop. }
    destruct Hw as (Hb & Hh & Hhb). apply upd_lock; try done.
    + apply not_found. intros Ha.
      destruct (no_key _ _ _ _ _ _ (j_known _ _ _ _ _ _ _ (ba_J _ _ _ _ _ _ _ _ _ Hb) _ (hb_known _ _ _ _ _ _ _ Hhb)) Ha Hpath) as (b' & [q Hq] & _).
      assert (key !! (length (o_path o) + n)%nat = Some b); [|congruence].
      rewrite Hq, <- !app_assoc. rewrite lookup_app_r by lia.
      replace (length (o_path o) + n - length (o_path o))%nat with n by lia. by apply lookup_app_l_Some.
    + intros o' Ho' Hx. split; [by apply Hbase|]. unfold ukind_ok. cbn [u_kind u_depth u_mismatch]. rewrite (oe_path _ _ Hx), (oe_pfx _ _ Hx).
      split; [done|]. by exists b, c.
  - rewrite (ok_from K fetch aid key n0 e nmax I HI o HIo w Hw). cbn [of_res pbind].
    destruct (next_byte K HK key (o_path o) (o_pfx o) Hkey (of_ex _ _ Hof) Hpath Hcmp) as (k & Hpk & Ek & Hk256).
    rewrite (key_at_Some _ _ _ Ek). cbn [of_res pbind]. rewrite (of_full _ _ Hof).
    assert (Hrec : forall w1 o' x, I w1 -> known w1 o' -> oslot o k x -> o_path o' = o_path o ++ o_pfx o ++ [k] ->
      ok (p_pu_loop fuel aid key (onode k o') (PSlot x) (o_addr o) (gen_of un bn) (S (length (o_path o) + length (o_pfx o)))) upd_Q w1).
    { intros w1 o' x (Hb1 & Hh1 & Hhb1) Ho' Hx Hp'. replace k with (default 0 (last (o_path o'))) by (rewrite Hp', app_assoc, last_snoc; done).
      replace (S (length (o_path o) + length (o_pfx o))) with (length (o_path o')) by (rewrite Hp', !app_length; simpl; lia).
      apply IH; try done.
      - right. split; [pose proof (of_pos _ _ Hof); lia|]. exists o, k, x. split_and!; try done; apply Hhb1.
      - by rewrite Hp'.
      - rewrite Hp', !app_length. simpl. lia. }
    assert (Hslot : forall w1 x o' a, I w1 -> oslot o k x -> ooccr (w_trie w1) o' -> oext o o' -> a = mget (t_mem (w_tree w1)) x ->
      (a = 0 -> o_full o = true /\ k ∉ map fst (o_hs o')) /\
      (isLeaf a = true -> exists l r, a = buildLeaf k (getLeafValue a) /\ getLeafValue a < vlim /\ K (fetch (getLeafValue a)) /\
         (o_path o ++ o_pfx o ++ [k]) `prefix_of` fetch (getLeafValue a) /\
         o_hs o' = l ++ (k, HLeaf (fetch (getLeafValue a)) (getLeafValue a)) :: r /\ x = slot_of (o_full o) (o_addr o) (o_pfx o) k (length l) /\
         (forall hd, (k, hd) ∈ o_hs o' -> hd = HLeaf (fetch (getLeafValue a)) (getLeafValue a)))).
    { intros w1 x o' a (Hb1 & _) Hx Ho' He ->. pose proof (oslot_same _ _ _ _ (oext_same _ _ He) Hx) as Hx'.
      pose proof (j_good _ _ _ _ _ _ _ (ba_J _ _ _ _ _ _ _ _ _ Hb1)) as Hg.
      pose proof (iv_core _ _ _ _ _ _ _ (g_inv _ _ _ Hg)) as Hc.
      destruct (live_slot K fetch ns nmax Hmax w1 o' k x Hg Ho' Hx') as [(-> & H1 & H2)|(l & hd & r & E1 & E2 & -> & Hhd)].
      - split; [|by rewrite isLeaf_zero]. intros _. split; [by rewrite <- (oe_full _ _ He)|done].
      - destruct hd as [k' v|f a p n]; simpl.
        + destruct Hhd as (Hv & Hfv & HKk & Hpk'). subst k'. rewrite buildLeaf_value, N.mod_small by done. split.
          * intros E0. exfalso. by apply (buildLeaf_nonzero k v).
          * intros _. exists l, r. rewrite <- (oe_path _ _ He), <- (oe_pfx _ _ He), <- (oe_addr _ _ He), <- (oe_full _ _ He). split_and!; try done.
            intros hd Hhd. eapply fst_unique; [|exact Hhd|rewrite E1; apply elem_of_app; right; left].
            apply sbytes_NoDup. split; apply (occ_facts K fetch _ _ _ Hc Ho').
        + destruct Hhd as (o3 & Ho3 & _ & _ & _ & A1 & A2 & A3 & A4). 
          destruct (onode_facts K o3 k (occ_facts K fetch _ _ _ Hc Ho3) Hk256) as (_ & HL & HN & _). unfold onode in *.
          rewrite A1, A2, A3, <- A4 in *. split; congruence. }
    assert (Hatl : forall o', oext o o' -> forall kind pos lp cl v mm, let op := Uop key v aid kind k pos (o_addr o) (o_par o) (ncount (o_full o) (length (o_hs o)))
        (length (o_path o) + length (o_pfx o)) (o_pfx o) mm (o_ptr o)
       (Slice (o_addr o) (dlen (o_addr o))) (prefix_slots (length (o_pfx o))) lp cl (onode (default 0 (last (o_path o))) o) in
       u_depth op = (length (o_path o') + length (o_pfx o'))%nat /\ (o_path o' ++ o_pfx o' ++ [u_k op]) `prefix_of` key /\ u_k op < 256).
    { intros o' Hx kind pos lp cl v mm op. unfold op. cbn [u_depth u_k]. rewrite (oe_path _ _ Hx), (oe_pfx _ _ Hx). done. }
    destruct (o_full o) eqn:Efull.
    + apply (ok_p_get K fetch aid key n0 e nmax I HI o HIo); [done|rewrite Efull; simpl; lia|]. clear dependent w. intros w Hw. rewrite N2Nat.id. cbn [sl_base].
      pose proof Hw as (Hb & Hh & Hhb). pose proof (ba_J _ _ _ _ _ _ _ _ _ Hb) as HJ.
      set (x := o_addr o + N.of_nat (prefix_slots (length (o_pfx o))) + k).
      assert (Hs : oslot o k x) by (split; [done|]; by rewrite Efull).
      destruct (word_step K fetch aid key n0 e w o k _ HJ (HIo _ Hw) Hk256 (no_slot _ _ _ _ _ _ (j_known _ _ _ _ _ _ _ HJ _ (HIo _ Hw)) _ _ Hs)) as
        [[E0 Hp]|[(Hne & Hlf & _ & Hp)|(Hne & Hlf & _ & o' & Ho' & Hp & _ & Ea)]]; [done|..].
      * rewrite (proj2 (N.eqb_eq _ _) E0). apply upd_lock; try done. intros o' Ho' Hx.
        destruct (Hslot w x o' _ Hw Hs Ho' Hx eq_refl) as [H0 _]. destruct (H0 E0) as [_ Hnk].
        split; [by apply Hbase|]. unfold ukind_ok. cbn [u_kind]. split; [by apply Hatl|]. cbn [u_k u_leafPtr].
        rewrite (oe_full _ _ Hx), (oe_addr _ _ Hx), (oe_pfx _ _ Hx). done.
      * rewrite (proj2 (N.eqb_neq _ _)) by done. rewrite Hlf. apply upd_lock; try done. intros o' Ho' Hx.
        destruct (Hslot w x o' _ Hw Hs Ho' Hx eq_refl) as [_ H0]. destruct (H0 Hlf) as (l & r & H1 & H2 & H3 & H4 & H5 & H6 & H7).
        split; [by apply Hbase|]. unfold ukind_ok. cbn [u_kind]. split; [by apply Hatl|]. cbn [u_k u_leafPtr u_value u_currentLeaf].
        rewrite (oe_full _ _ Hx), (oe_addr _ _ Hx), (oe_path _ _ Hx), (oe_pfx _ _ Hx). split_and!; try done.
        intros _. rewrite H5. apply elem_of_app; right; left.
      * rewrite (proj2 (N.eqb_neq _ _)) by done. rewrite Hlf, Ea. by apply Hrec.
    + change (ncount false (length (o_hs o))) with (length (o_hs o)) in *.
      pose proof (ok_upto K fetch aid key n0 e nmax I HI o HIo w Hw) as Hup. rewrite Efull in Hup.
      change (ncount false (length (o_hs o))) with (length (o_hs o)) in *. rewrite Hup. cbn [of_res pbind sl_base].
      apply ok_bind. eapply ok_mono.
      2:{ apply (ok_p_scan K fetch aid key n0 e nmax I HI o HIo k (length (o_hs o)) 0 (0%nat, 0) w Hw Efull); try done; [by intros; lia|by left|].
          pose proof (of_cnt _ _ Hof) as Hc. rewrite Efull in Hc. simpl in Hc. left. lia. }
      clear dependent w. intros r w3 (H3 & Hr). destruct Hr as [(j & w & Hj & Hw & Hrtc & ->)|(Hnk & brk & j & a & hl & hr & -> & Hne & Ehs & Hpos & Hhl & Hhr)].
      * eapply ok_rtc; [exact Hrtc|]. clear dependent w3. pose proof Hw as (Hb & Hh & Hhb). pose proof (ba_J _ _ _ _ _ _ _ _ _ Hb) as HJ.
        set (x := slot_of false (o_addr o) (o_pfx o) k j).
        assert (Hs : oslot o k x) by (split; [done|]; rewrite Efull; eauto).
        assert (Hsx : o_addr o + N.of_nat (prefix_slots (length (o_pfx o))) + N.of_nat j = x) by done. rewrite Hsx.
        destruct (word_step K fetch aid key n0 e w o k _ HJ (HIo _ Hw) Hk256 (no_slot _ _ _ _ _ _ (j_known _ _ _ _ _ _ _ HJ _ (HIo _ Hw)) _ _ Hs)) as
          [[E0 _]|[(Hne & Hlf & Hby & Hp)|(Hne & Hlf & Hby & o' & Ho' & Hp & _ & Ea)]]; [done|..].
        -- exfalso. pose proof (small_byte K fetch aid key n0 e nmax I HI o HIo w j k Hw Efull Hj) as Eb. rewrite Hsx in Eb.
           destruct (so_word _ _ _ _ _ _ _ (no_slot _ _ _ _ _ _ (j_known _ _ _ _ _ _ _ HJ _ (HIo _ Hw)) _ _ Hs)) as [[_ ?]|(hd & E & Hhd)]; [congruence|].
           destruct (head_byte K fetch n0 o w k hd (j_good _ _ _ _ _ _ _ HJ) Hk256 Hhd) as (_ & _ & ?). congruence.
        -- rewrite Hby, N.eqb_refl, Hlf. apply upd_lock; try done. intros o' Ho' Hx.
           destruct (Hslot w x o' _ Hw Hs Ho' Hx eq_refl) as [_ H0]. destruct (H0 Hlf) as (l & r & H1 & H2 & H3 & H4 & H5 & H6 & H7).
           split; [by apply Hbase|]. unfold ukind_ok. cbn [u_kind]. split; [by apply Hatl|]. cbn [u_k u_leafPtr u_value u_currentLeaf].
           rewrite (oe_full _ _ Hx), (oe_addr _ _ Hx), (oe_pfx _ _ Hx). split_and!; try done.
           exists l, r. split; [done|]. by rewrite H6.
        -- rewrite Hby, N.eqb_refl, Hlf, Ea. by apply Hrec.
      * rewrite (proj2 (N.eqb_neq _ _)) by done. pose proof H3 as (Hb & Hh & Hhb). apply upd_lock; try done.
        -- apply not_found. by eapply Hend.
        -- intros o' Ho' Hx. split; [by apply Hbase|]. unfold ukind_ok. cbn [u_kind]. split; [by apply Hatl|]. cbn [u_k u_position].
           rewrite (oe_full _ _ Hx). split; [done|]. rewrite (oe_hs _ _ Hx Efull). exists hl, hr. done.
Qed.

(** The root cases. *)
Lemma root_case w T : good w -> w_trie w = T -> (forall o, ~ ooccr T o) ->
  T = None \/ exists k v, T = Some (Leaf k v).
Proof.
  intros _ _ HT. destruct T as [[k v|full a pfx cs]|]; [by right; eauto| |by left]. exfalso. eapply HT. apply (occ_at_here [] full a pfx cs).
Qed.

Lemma upd_root found op w : base w -> hold [] true w -> (forall o, ~ ooccr (w_trie w) o) ->
  found = is_found (u_kind op) -> u_alloc op = aid -> u_key op = key -> u_isroot (u_kind op) = true -> uroot K key op (w_trie w) ->
  look_post w (u_value op, found) -> ok (Ret (found, op)) upd_Q w.
Proof.
  intros Hb Hh HT Hf Ha Hk Hr Hu Hp. apply ok_ret. intros w' Hrtc.
  pose proof (stable_root K fetch aid key n0 e ns nmax Hmax (w_trie w) _ HT (lasting_look (u_value op, found))) as HI.
  destruct (I_rtc K fetch aid key n0 e nmax _ HI w w' Hrtc) as (Hb1 & Hh1 & ET & Hp1); [done|].
  split; [done|]. split; [exists [], true; unfold ulids; cbn [snd]; by rewrite Hr|]. split; [|done].
  destruct (ba_pend _ _ _ _ _ _ _ _ _ Hb1) as (p & Hpn & Hpk & _). exists p. split; [done|]. cbn [fst snd hok]. rewrite Hpk, Hr, ET. done.
Qed.

Theorem upd_ok w : base w -> hold [] false w -> ok (p_prepare_update aid key) upd_Q w.
Proof.
  intros Hb Hh. unfold p_prepare_update. cbn [p_load pbind].
  pose proof (lasting_pure K fetch aid key n0 e ns nmax True) as HT.
  apply (ok_load K fetch aid key n0 e nmax _ (stable_hold K fetch aid key n0 e ns nmax Hmax [] false _ HT)); [done|done|].
  clear dependent w. intros w (Hb & Hh & _). cbn [pget]. pose proof (ba_J _ _ _ _ _ _ _ _ _ Hb) as HJ. pose proof (j_good _ _ _ _ _ _ _ HJ) as Hg.
  pose proof (uv_nonempty K HK _ Hkey) as Hne. destruct key as [|c key'] eqn:Ek; [done|]. rewrite <- Ek in *.
  assert (Hk0 : key_at key 0 = Ok c) by (by rewrite Ek).
  assert (Hhd : head key = Some c) by (by rewrite Ek). clear Ek.
  assert (Hcore : forall w1, base w1 -> core K fetch (w_tree w1) (w_trie w1)) by (intros w1 H1; apply (g_inv _ _ _ (j_good _ _ _ _ _ _ _ (ba_J _ _ _ _ _ _ _ _ _ H1)))).
  destruct (N.eqb_spec (t_root (w_tree w)) 0) as [E0|E0].
  { rewrite E0. apply (ok_lock_root K fetch aid key n0 e ns nmax Hmax); try done; [by left|].
    clear dependent w. intros w Hb Hh E0 HTn. rewrite Hk0. cbn [of_res pbind].
    assert (ET : w_trie w = None).
    { destruct (root_case w _ (j_good _ _ _ _ _ _ _ (ba_J _ _ _ _ _ _ _ _ _ Hb)) eq_refl HTn) as [?|(k & v & ET)]; [done|].
      exfalso. pose proof (Hcore _ Hb) as Hc. rewrite ET in Hc. destruct (root_word_leaf K fetch HK _ _ _ Hc) as (? & _). done. }
    apply upd_root; try done.
    apply not_found. intros Ha. pose proof (j_good _ _ _ _ _ _ _ (ba_J _ _ _ _ _ _ _ _ _ Hb)) as Hg.
      destruct (Ha _ (span_last K fetch n0 w Hg (j_n0 _ _ _ _ _ _ _ (ba_J _ _ _ _ _ _ _ _ _ Hb)))) as [v Hv].
      destruct (iv_maps _ _ _ _ _ _ _ (g_inv _ _ _ Hg)) as [Hmap _]. apply Hmap in Hv. rewrite ET in Hv. by apply elem_of_nil in Hv. }
  destruct (isLeaf (t_root (w_tree w))) eqn:El.
  { apply (ok_lock_root K fetch aid key n0 e ns nmax Hmax); try done; [by right|].
    remember (t_root (w_tree w)) as root. clear dependent w. intros w Hb Hh Er HTn. rewrite Hk0. cbn [of_res pbind].
    pose proof (j_good _ _ _ _ _ _ _ (ba_J _ _ _ _ _ _ _ _ _ Hb)) as Hg. pose proof (Hcore _ Hb) as Hc.
    pose proof (span_last K fetch n0 w Hg (j_n0 _ _ _ _ _ _ _ (ba_J _ _ _ _ _ _ _ _ _ Hb))) as Hsp.
    destruct (root_case w _ Hg eq_refl HTn) as [ET|(k & v & ET)].
    { exfalso. rewrite ET in Hc. pose proof (co_root _ _ _ _ Hc) as H0. simpl in H0. congruence. }
    rewrite ET in Hc. destruct (root_word_leaf K fetch HK _ _ _ Hc) as (_ & _ & Hv & HKk & Hfv & Hvl & b & k' & Ekk & Hb' & Hrw & Hby).
    rewrite Er in Hv, Hrw, Hby. rewrite Hby, Hv.
    assert (Hkey' : always w -> k = key).
    { intros Ha. destruct (Ha _ Hsp) as [v' Hv']. simpl in Hv'. destruct (iv_maps _ _ _ _ _ _ _ (g_inv _ _ _ Hg)) as [Hmap _].
      apply Hmap in Hv'. rewrite ET in Hv'. apply elem_of_list_singleton in Hv'. congruence. }
    destruct (N.eqb_spec b c) as [->|Hbc].
    - apply upd_root; try done.
      + unfold uroot. cbn [root_op u_key u_k u_kind u_value u_currentLeaf]. do 3 (split; [done|]). exists k. rewrite ET, Ekk. done.
      + cbn [root_op u_value]. split; simpl; try done.
        * intros Ha. split; [done|]. rewrite Hfv. by apply Hkey'.
        * intros _. split; [done|]. exists (w_hist w, w_trie w). split; [done|]. rewrite Hfv, ET. by left.
    - apply upd_root; try done.
      + unfold uroot. cbn [root_op u_key u_k u_kind u_value u_currentLeaf]. do 3 (split; [done|]). exists k, v, b. rewrite ET, Ekk. done.
      + apply not_found. intros Ha. pose proof (Hkey' Ha) as E. rewrite <- E, Ekk in Hhd. simpl in Hhd. congruence. }
  destruct (live_root K fetch HK w Hg El E0) as (o & Ho & P1 & P2 & P3 & Er). rewrite Er.
  pose proof (upd_loop (S (length key)) o w PRoot 0 0 false Hb Hh) as H. rewrite P1 in H. change (default 0 (last [])) with 0 in H. change (gen_of 0 false) with 0 in H.
  apply H.
  - exists (w_hist w, w_trie w). split; [|done]. apply (span_last K fetch n0); [done|apply HJ].
  - by left.
  - apply prefix_nil.
  - simpl. lia.
Qed.
End FineUpd.
