(** * FineLook: Lookup, interrupted anywhere. *)
From Verif Require Export FineRead.

Section FineLook.
Context (K : list N -> Prop) (fetch : N -> list N) (HK : universe K).
Context (aid : nat) (key : list N) (n0 : nat) (e : N) (nmax : N).
Local Notation good := (good K fetch).
Local Notation evo := (evo K fetch).
Local Notation rely := (rely K fetch).
Local Notation ok := (ok K fetch).
Local Notation J := (J K fetch aid key n0 e).
Local Notation known := (known n0).
Local Notation always := (always key n0).
Local Notation seen_leaf := (seen_leaf n0).
Local Notation stable := (stable K fetch aid key n0 e nmax).

(** The client holds no lock. *)
Definition free (w : world) : Prop := sy_open (w_sys w) !! aid = Some (HP [] false).

Lemma stable_base (P : world -> Prop) : (forall w w', later w w' -> P w -> P w') ->
  stable (fun w => J w /\ free w /\ P w).
Proof.
  intros HP. split.
  - by intros w (? & _).
  - intros w w' Hr (HJ & Hf & Hp). split_and!.
    + by eapply J_evo; [apply Hr|].
    + unfold free. by rewrite (r_open _ _ _ _ _ _ Hr).
    + eapply HP; [|done]. eapply evo_later, (r_evo _ _ _ _ _ _ Hr).
  - intros w a v s' Ha Hd (HJ & Hf & Hp). pose proof (j_good _ _ _ _ _ _ _ HJ) as Hg.
    destruct (read_acted K fetch aid e _ _ _ _ Ha Hd Hg (j_mine _ _ _ _ _ _ _ HJ)) as [Hev Hsys].
    split_and!.
    + by eapply J_evo.
    + unfold free. by rewrite Hsys.
    + eapply HP; [|done]. by eapply evo_later.
Qed.

Record look_post (w : world) (r : N * bool) : Prop := {
  lp_always : always w -> r.2 = true /\ fetch r.1 = key;
  lp_found : r.2 = true -> r.1 < vlim /\ seen_leaf w (fetch r.1) r.1;
  lp_none : r.2 = false -> r.1 = 0
}.

Lemma look_post_later w w' r : later w w' -> look_post w r -> look_post w' r.
Proof.
  intros Hl [H1 H2 H3]. split; [|intros Hf; destruct (H2 Hf) as [? Hs]|done].
  - intros Ha. apply H1. by eapply always_later.
  - split; [done|by eapply seen_later].
Qed.

Definition look_Q (r : N * bool) (w : world) : Prop := J w /\ free w /\ look_post w r.

Lemma look_ret r w : look_Q r w -> ok aid nmax (Ret r) look_Q w.
Proof.
  intros H. apply ok_ret. intros w' Hr. revert w' Hr H.
  eapply (I_rtc K fetch aid key n0 e nmax (look_Q r)). apply (stable_base (fun w => look_post w r)). intros. by eapply look_post_later.
Qed.

Lemma not_found w : ~ always w -> look_post w (0, false).
Proof. intros H. split; simpl; try done. Qed.

(** What a word on the way says. *)
Lemma word_step w o b a : J w -> known w o -> b < 256 -> slotok fetch key n0 w o b a ->
  (always w -> (o_path o ++ o_pfx o ++ [b]) `prefix_of` key) ->
  (a = 0 /\ look_post w (0, false)) \/
  (a <> 0 /\ isLeaf a = true /\ to_byte a = b /\ look_post w (getLeafValue a, true)) \/
  (a <> 0 /\ isLeaf a = false /\ to_byte a = b /\ exists o', known w o' /\ o_path o' = o_path o ++ o_pfx o ++ [b] /\
     explodeNode a = (b, o_addr o', ncount (o_full o') (length (o_hs o')), plen8 (length (o_pfx o'))) /\ a = onode b o').
Proof.
  intros HJ Ho Hb [H1 H2] Hal. pose proof (j_good _ _ _ _ _ _ _ HJ) as Hg.
  assert (Hcase : forall hd, headok fetch n0 w o b hd -> a = enc_head b hd ->
    (always w -> forall k v, hd = HLeaf k v -> k = key) ->
    (a <> 0 /\ isLeaf a = true /\ to_byte a = b /\ look_post w (getLeafValue a, true)) \/
    (a <> 0 /\ isLeaf a = false /\ to_byte a = b /\ exists o', known w o' /\ o_path o' = o_path o ++ o_pfx o ++ [b] /\
     explodeNode a = (b, o_addr o', ncount (o_full o') (length (o_hs o')), plen8 (length (o_pfx o'))) /\ a = onode b o')).
  { intros hd Hh -> Hk. destruct (head_byte K fetch n0 o w b hd Hg Hb Hh) as (B1 & B2 & B3). destruct hd as [k v|f2 a2 p2 n2].
    - left. split_and!; try done. destruct Hh as (Hv & Hfv & _ & Hsl). simpl. rewrite buildLeaf_value, N.mod_small by done.
      split; simpl; try done.
      + intros Ha. split; [done|]. rewrite Hfv. by eapply Hk.
      + intros _. by rewrite Hfv.
    - right. split_and!; try done. destruct Hh as (o' & Ho' & A1 & A2 & A3 & A4 & A5). exists o'.
      destruct (onode_facts K o' b (known_facts K fetch n0 _ _ Hg Ho') Hb) as (E & _). unfold onode in *. simpl. subst. done. }
  destruct (decide (a = 0)) as [->|Hne].
  - left. split; [done|]. apply not_found. intros Ha. destruct (H2 Ha (Hal Ha)) as (hd & E & Hh & _).
    destruct (head_byte K fetch n0 o w b hd Hg Hb Hh) as (_ & _ & ?). done.
  - right. destruct H1 as [[? _]|(hd & E & Hh)]; [done|]. apply (Hcase hd Hh E).
    intros Ha k v ->. destruct (H2 Ha (Hal Ha)) as (hd' & E' & Hh' & Hk). rewrite E' in E.
    destruct (head_byte K fetch n0 o w b _ Hg Hb Hh') as (_ & B2 & _). rewrite E in B2.
    destruct (head_byte K fetch n0 o w b _ Hg Hb Hh) as (_ & B2' & _). rewrite B2' in B2.
    destruct hd' as [k' v'|]; [|done]. simpl in E. destruct Hh as (Hv & Hfv & _), Hh' as (Hv' & Hfv' & _).
    apply buildLeaf_inj in E as [_ E]; [|done..]. unfold vlim in *. rewrite !N.mod_small in E by done. subst v'.
    rewrite <- Hfv, Hfv'. by apply (Hk _ _ eq_refl).
Qed.

Lemma look_loop : bytes key -> forall fuel o w, J w -> free w -> known w o ->
  (always w -> o_path o `prefix_of` key) -> (length (o_path o) <= length key < fuel + length (o_path o))%nat ->
  ok aid nmax (p_search_loop fuel key (o_addr o) (ncount (o_full o) (length (o_hs o))) (plen8 (length (o_pfx o))) (length (o_path o))) look_Q w.
Proof.
  intros Hbytes. induction fuel as [|fuel IH]; intros o w HJ Hf Ho Hal Hfuel; [exfalso; simpl in Hfuel; lia|].
  set (I := fun w => J w /\ free w /\ (known w o /\ (always w -> o_path o `prefix_of` key))).
  assert (HI : stable I).
  { apply stable_base. intros w1 w2 Hl [H1 H2]. split; [by eapply known_later|]. intros Ha. apply H2. by eapply always_later. }
  assert (HIo : forall w, I w -> known w o) by (by intros w1 (_ & _ & ? & _)).
  assert (Hw : I w) by done. clear HJ Hf Ho Hal.
  assert (Hnext : forall b w1, I w1 -> key !! (length (o_path o) + length (o_pfx o))%nat = Some b -> always w1 ->
    (o_path o ++ o_pfx o ++ [b]) `prefix_of` key /\ (o_full o = false -> b ∈ map fst (o_hs o))).
  { intros b w1 (HJ1 & _ & Ho1 & Hal1) Hb Ha. destruct (no_key _ _ _ _ _ _ (j_known _ _ _ _ _ _ _ HJ1 _ Ho1) Ha (Hal1 Ha)) as (b' & Hb1 & Hb2).
    pose proof (prefix_next _ _ _ _ Hb1) as E. rewrite Hb in E. injection E as <-. done. }
  assert (Hend : forall w1, I w1 -> (length key <= length (o_path o) + length (o_pfx o))%nat -> look_Q (0, false) w1).
  { intros w1 H1 Hle. pose proof H1 as (HJ1 & Hf1 & Ho1 & Hal1). split_and!; try done. apply not_found. intros Ha.
    destruct (no_key _ _ _ _ _ _ (j_known _ _ _ _ _ _ _ HJ1 _ Ho1) Ha (Hal1 Ha)) as (b' & Hb1 & _).
    apply prefix_next, lookup_lt_Some in Hb1. lia. }
  assert (Hrec : forall w1 o', I w1 -> known w1 o' -> forall b, key !! (length (o_path o) + length (o_pfx o))%nat = Some b ->
    o_path o' = o_path o ++ o_pfx o ++ [b] ->
    ok aid nmax (p_search_loop fuel key (o_addr o') (ncount (o_full o') (length (o_hs o'))) (plen8 (length (o_pfx o'))) (S (length (o_path o) + length (o_pfx o)))) look_Q w1).
  { intros w1 o' H1 Ho' b Hb Hp. pose proof H1 as (HJ1 & Hf1 & _). replace (S (length (o_path o) + length (o_pfx o))) with (length (o_path o'))
      by (rewrite Hp, !app_length; simpl; lia).
    apply lookup_lt_Some in Hb as Hlt. apply IH; try done.
    - intros Ha. rewrite Hp. by apply (Hnext b w1).
    - rewrite Hp, !app_length. simpl. lia. }
  cbn [p_search_loop].
  apply (ok_p_data K fetch aid key n0 e nmax I HI o HIo); [done|]. intros w1 H1.
  apply (ok_p_skip K fetch aid key n0 e nmax I HI o HIo); [done|]. intros w2 H2. clear w w1 Hw H1.
  destruct (Nat.leb_spec (length key) (length (o_path o) + length (o_pfx o))) as [Hle|Hlt].
  { apply look_ret. by apply Hend. }
  destruct (lookup_lt_is_Some_2 key _ Hlt) as [k Ek]. rewrite (key_at_Some _ _ _ Ek). cbn [of_res pbind].
  assert (Hk : k < 256) by (eapply Forall_lookup_1 in Hbytes; [|done]; done).
  pose proof (ok_facts K fetch aid key n0 e nmax I HI o HIo w2 H2) as Hof. rewrite (of_full _ _ Hof).
  destruct (o_full o) eqn:Efull.
  - apply (ok_p_get K fetch aid key n0 e nmax I HI o HIo); [done|rewrite Efull; simpl; lia|]. intros w3 H3. rewrite N2Nat.id.
    pose proof H3 as (HJ3 & Hf3 & Ho3 & Hal3).
    assert (Hs : oslot o k (o_addr o + N.of_nat (prefix_slots (length (o_pfx o))) + k)) by (split; [done|]; by rewrite Efull).
    destruct (word_step w3 o k _ HJ3 Ho3 Hk (no_slot _ _ _ _ _ _ (j_known _ _ _ _ _ _ _ HJ3 _ Ho3) _ _ Hs)) as
      [[-> Hp]|[(Hne & -> & _ & Hp)|(Hne & -> & _ & o' & Ho' & Hp & Ex & _)]].
    + intros Ha. by apply (Hnext k w3).
    + change (0 =? 0) with true. cbn iota. by apply look_ret.
    + rewrite (proj2 (N.eqb_neq _ _)) by done. by apply look_ret.
    + rewrite (proj2 (N.eqb_neq _ _)) by done. rewrite Ex. by eapply Hrec.
  - pose proof (ok_upto K fetch aid key n0 e nmax I HI o HIo w2 H2) as Hup. rewrite Efull in Hup. rewrite Hup. cbn [of_res pbind sl_base].
    apply ok_bind. eapply ok_mono.
    2:{ apply (ok_p_scan K fetch aid key n0 e nmax I HI o HIo k (ncount false (length (o_hs o))) 0 (0%nat, 0) w2 H2 Efull); try done; [by intros; lia|by left|].
        pose proof (of_cnt _ _ Hof) as Hc. rewrite Efull in Hc. left. lia. }
    intros r w3 (H3 & Hr). pose proof H3 as (HJ3 & Hf3 & Ho3 & Hal3). destruct Hr as [(j & w4 & Hj & H4 & Hrtc & ->)|(Hnk & brk & j & a & hl & hr & -> & Hne & _)].
    + eapply ok_rtc; [exact Hrtc|]. clear dependent w3. pose proof H4 as (HJ4 & Hf4 & Ho4 & Hal4).
      assert (Hs : oslot o k (slot_of false (o_addr o) (o_pfx o) k j)) by (split; [done|]; rewrite Efull; eauto).
      destruct (word_step w4 o k _ HJ4 Ho4 Hk (no_slot _ _ _ _ _ _ (j_known _ _ _ _ _ _ _ HJ4 _ Ho4) _ _ Hs)) as
        [[E0 Hp]|[(Hne & -> & -> & Hp)|(Hne & -> & -> & o' & Ho' & Hp & Ex & _)]].
      * intros Ha. by apply (Hnext k w4).
      * exfalso. pose proof (so_word _ _ _ _ _ _ _ (no_slot _ _ _ _ _ _ (j_known _ _ _ _ _ _ _ HJ4 _ Ho4) _ _ Hs)) as [[_ ?]|(hd & Eh & Hh)]; [congruence|].
        destruct (head_byte K fetch n0 o w4 k hd (j_good _ _ _ _ _ _ _ HJ4) Hk Hh) as (_ & _ & ?). congruence.
      * rewrite N.eqb_refl. by apply look_ret.
      * rewrite N.eqb_refl, Ex. by eapply Hrec.
    + rewrite (proj2 (N.eqb_neq _ _)) by done. apply look_ret. split_and!; try done. apply not_found. intros Ha. apply Hnk. by eapply (Hnext k w3).
Qed.

(** An empty tree. *)
Lemma look_empty : forall fuel w depth, J w -> free w -> ~ always w -> (depth <= length key < fuel + depth)%nat ->
  ok aid nmax (p_search_loop fuel key 0 1 0 depth) look_Q w.
Proof.
  induction fuel as [|fuel IH]; intros w depth HJ Hf Ha Hfuel; [exfalso; simpl in Hfuel; lia|].
  set (I := fun w => J w /\ free w /\ ~ always w).
  assert (HI : stable I).
  { apply stable_base. intros w1 w2 Hl H1 H2. apply H1. by eapply always_later. }
  assert (Hw : I w) by done. clear HJ Hf Ha.
  assert (Hret : forall w, I w -> ok aid nmax (Ret (0, false)) look_Q w).
  { intros w1 (? & ? & ?). apply look_ret. split; [done|]. split; [done|]. by apply not_found. }
  cbn [p_search_loop p_data pbind].
  apply (ok_block K fetch aid key n0 e nmax I HI); [done| |done|].
  { intros w1 _. change (block_of 0) with 0. lia. }
  intros w1 H1. change (p_skip _ 0) with (@Ret (nat * nat * slice) (0%nat, 0%nat, Slice 0 (blockSlots - offset_of 0))). cbn [pbind].
  rewrite Nat.add_0_r. destruct (Nat.leb_spec (length key) depth); [by apply Hret|].
  destruct (lookup_lt_is_Some_2 key depth ltac:(lia)) as [k Ek]. rewrite (key_at_Some _ _ _ Ek). cbn [of_res pbind].
  change (fullAllocFrom <=? 1)%nat with false. cbn iota.
  change (sl_upto (Slice 0 (blockSlots - offset_of 0)) 1) with (@Ok unit tt). cbn [of_res pbind sl_base p_scan p_load].
  apply (ok_load K fetch aid key n0 e nmax I HI); [done|by left|]. intros w2 H2. cbn [pget]. change (0 + N.of_nat 0) with 0.
  assert (H0 : mget (t_mem (w_tree w2)) 0 = 0).
  { apply (co_zero _ _ _ _ (iv_core _ _ _ _ _ _ _ (g_inv _ _ _ (j_good _ _ _ _ _ _ _ (proj1 H2))))). by left. }
  rewrite H0. change (to_byte 0) with 0. destruct (N.leb_spec k 0); cbn [pbind fst snd].
  - assert (k = 0) as -> by lia. change (to_byte 0) with 0. rewrite N.eqb_refl, isLeaf_zero, explode_zero. destruct H2 as (? & ? & ?).
    apply IH; try done. lia.
  - change (to_byte 0) with 0. rewrite (proj2 (N.eqb_neq 0 k)) by lia. by apply Hret.
Qed.

(** Lookup as a whole. *)
Theorem look_ok w : bytes key -> key <> [] -> J w -> free w -> ok aid nmax (p_search key) look_Q w.
Proof.
  intros Hbytes Hne HJ Hf. unfold p_search. cbn [p_load pbind].
  set (I := fun w => J w /\ free w /\ True). assert (HI : stable I) by (by apply stable_base).
  apply (ok_load K fetch aid key n0 e nmax I HI); [done|done|]. clear dependent w. intros w (HJ & Hf & _). cbn [pget].
  pose proof (j_good _ _ _ _ _ _ _ HJ) as Hg. pose proof (iv_core _ _ _ _ _ _ _ (g_inv _ _ _ Hg)) as Hc.
  pose proof (span_last K fetch n0 w Hg (j_n0 _ _ _ _ _ _ _ HJ)) as Hsp.
  destruct (iv_maps _ _ _ _ _ _ _ (g_inv _ _ _ Hg)) as [Hmap _].
  destruct (w_trie w) as [[k v|full a pfx cs]|] eqn:ET.
  - destruct (root_word_leaf K fetch HK _ _ _ Hc) as (_ & -> & Hv & Hk & Hfv & Hvl & b & k' & Ek & Hb' & _ & Hby).
    destruct key as [|c key'] eqn:Ekey; [done|]. change (key_at (c :: key') 0) with (@Ok N c). cbn [of_res pbind]. rewrite Hby, Hv.
    assert (Hkey : always w -> k = key).
    { intros Ha. rewrite Ekey in Ha. destruct (Ha _ Hsp) as [v' Hv']. simpl in Hv'. apply Hmap in Hv'.
      apply elem_of_list_singleton in Hv'. congruence. }
    rewrite <- Ekey in *. destruct (N.eqb_spec b c) as [->|Hbc].
    + apply look_ret. split_and!; try done. split; simpl; try done.
      * intros Ha. split; [done|]. rewrite Hfv. by apply Hkey.
      * intros _. split; [done|]. exists (w_hist w, Some (Leaf k v)). split; [done|]. rewrite Hfv. by left.
    + apply look_ret. split_and!; try done. apply not_found. intros Ha. pose proof (Hkey Ha). congruence.
  - set (o := Occ [] PRoot 0 a full pfx (heads cs)).
    assert (Ho : known w o). { exists (w_hist w, Some (Node full a pfx cs)). split; [done|]. apply (occ_at_here []). }
    pose proof (hole_enc K fetch _ [] _ Hc eq_refl) as (_ & Hl & _). pose proof (hole_explode K fetch _ [] full a pfx cs Hc) as Hx.
    rewrite (co_root _ _ _ _ Hc). change (enc_root (Some (Node full a pfx cs))) with (hole_word [] (Node full a pfx cs)). rewrite Hl, Hx.
    pose proof (look_loop Hbytes (S (length key)) o w HJ Hf Ho) as H.
    cbn [o o_path o_addr o_full o_hs o_pfx length] in H. rewrite heads_length in H. apply H; [|lia].
    intros _. apply prefix_nil.
  - rewrite (co_root _ _ _ _ Hc). simpl enc_root. rewrite isLeaf_zero, explode_zero. apply look_empty; try done; [|lia].
    intros Ha. destruct (Ha _ Hsp) as [v Hv]. simpl in Hv. apply Hmap in Hv. by apply elem_of_nil in Hv.
Qed.
End FineLook.
