(** * FineRead: what a client in the middle of a call may read from nodes it has seen, also after
    other clients have removed them from the tree. *)
From Verif Require Export FineStep.

(** ** Occurrences *)

Lemma occ_unique p np par t o o' x : occ p np par t o -> occ p np par t o' -> NoDup (cover (regs t)) ->
  x ∈ seqN (oreg o).1 (oreg o).2 -> x ∈ seqN (oreg o').1 (oreg o').2 -> o = o'.
Proof.
  intros H. revert o'. induction H as [p np par full a pfx cs|p np par full a pfx l b t r o H IH]; intros o' Ho' Hnd Hx Hx'.
  - apply occ_node_inv in Ho' as [->|(l & b & t & r & -> & Ho')]; [done|]. exfalso.
    rewrite regs_node, cover_cons in Hnd. apply NoDup_app in Hnd as (_ & Hd & _). apply (Hd x).
    + unfold oreg in Hx. simpl in Hx. by rewrite heads_length in Hx.
    + apply elem_of_cover. exists (oreg o'). split; [|done]. apply elem_of_list_bind. exists (b, t). split; [by eapply occ_regs|].
      apply elem_of_app; right; left.
  - apply occ_node_inv in Ho' as [->|(l' & b' & t' & r' & E & Ho')].
    { exfalso. rewrite regs_node, cover_cons in Hnd. apply NoDup_app in Hnd as (_ & Hd & _). apply (Hd x).
      + unfold oreg in Hx'. simpl in Hx'. by rewrite heads_length in Hx'.
      + apply elem_of_cover. exists (oreg o). split; [|done]. apply elem_of_list_bind. exists (b, t). split; [by eapply occ_regs|].
        apply elem_of_app; right; left. }
    rewrite regs_node, cover_cons in Hnd. apply NoDup_app in Hnd as (_ & _ & Hnd). clear Hx'0 || idtac.
    assert (Hc : x ∈ cover (regs t)) by (apply elem_of_cover; exists (oreg o); split; [by eapply occ_regs|done]).
    assert (Hc' : x ∈ cover (regs t')) by (apply elem_of_cover; exists (oreg o'); split; [by eapply occ_regs|done]).
    apply app_cons_split in E as [(<- & E & <-)|[(m & -> & Em)|(m & Em & ->)]].
    + injection E as <- <-. apply IH; try done. rewrite bind_app, bind_cons, !cover_app in Hnd. simpl in Hnd.
      apply NoDup_app in Hnd as (_ & _ & Hnd). by apply NoDup_app in Hnd as (? & _ & _).
    + exfalso. subst r. rewrite bind_app, bind_cons, bind_app, bind_cons, !cover_app in Hnd. simpl in Hnd.
      apply NoDup_app in Hnd as (_ & _ & Hnd). apply NoDup_app in Hnd as (_ & Hd & _). apply (Hd x Hc).
      rewrite !elem_of_app. auto.
    + exfalso. subst l. rewrite <- app_assoc in Hnd. simpl in Hnd. rewrite bind_app, bind_cons, bind_app, bind_cons, !cover_app in Hnd. simpl in Hnd.
      apply NoDup_app in Hnd as (_ & _ & Hnd). apply NoDup_app in Hnd as (_ & Hd & _). apply (Hd x Hc').
      rewrite !elem_of_app. auto.
Qed.

Lemma osame_sym o o' : osame o o' -> osame o' o.
Proof. intros (H1 & H2 & H3 & H4 & H5). repeat split; try congruence. intros. rewrite H5; congruence. Qed.
Lemma osame_trans o o' o2 : osame o o' -> osame o' o2 -> osame o o2.
Proof.
  intros (H1 & H2 & H3 & H4 & H5) (G1 & G2 & G3 & G4 & G5). repeat split; try congruence. intros. rewrite G5, H5; congruence.
Qed.

Lemma osame_count o o' : osame o o' -> ncount (o_full o') (length (o_hs o')) = ncount (o_full o) (length (o_hs o)).
Proof.
  intros (_ & _ & H3 & _ & H5). rewrite H3. unfold ncount. destruct (o_full o); [done|].
  rewrite <- (map_length fst (o_hs o)), <- (map_length fst (o_hs o')). by rewrite H5.
Qed.

Lemma osame_reg o o' : osame o o' -> oreg o' = oreg o.
Proof.
  intros H. pose proof (osame_count _ _ H) as E. destruct H as (_ & H2 & H3 & H4 & _). unfold oreg, nslots. by rewrite E, H2, H4.
Qed.

(** The words in which node [o] keeps the child for byte [b]. *)
Definition oslot (o : occ_t) (b x : N) : Prop :=
  b < 256 /\
  if o_full o then x = slot_of true (o_addr o) (o_pfx o) b 0
  else exists i, map fst (o_hs o) !! i = Some b /\ x = slot_of false (o_addr o) (o_pfx o) b i.

Lemma oslot_same o o' b x : osame o o' -> oslot o b x -> oslot o' b x.
Proof.
  intros (H1 & H2 & H3 & H4 & H5) [Hb H]. split; [done|]. rewrite H3, H2, H4. destruct (o_full o); [done|].
  rewrite H5 by done. done.
Qed.

Lemma oslot_region o b x : oslot o b x -> x ∈ seqN (oreg o).1 (oreg o).2.
Proof.
  intros [Hb H]. unfold oreg. simpl. apply elem_of_seqN. unfold nslots, ncount. destruct (o_full o).
  - subst x. unfold slot_of. cbn [slot_idx]. lia.
  - destruct H as (i & Hi & ->). apply lookup_lt_Some in Hi. rewrite map_length in Hi. unfold slot_of. cbn [slot_idx]. lia.
Qed.

Lemma oslot_not_prefix o b x : oslot o b x -> x ∉ seqN (o_addr o) (prefix_slots (length (o_pfx o))).
Proof.
  intros [Hb H] Hin. apply elem_of_seqN in Hin. destruct (o_full o).
  - subst x. unfold slot_of in Hin. lia.
  - destruct H as (i & Hi & ->). unfold slot_of in Hin. lia.
Qed.

Lemma last_unique {A} (P : A -> Prop) (p1 p2 q1 q2 : list A) a b : p1 ++ a :: p2 = q1 ++ b :: q2 ->
  P a -> P b -> Forall (fun c => ~ P c) p2 -> Forall (fun c => ~ P c) q2 -> p1 = q1 /\ a = b /\ p2 = q2.
Proof.
  intros E Ha Hb Hp Hq. apply app_cons_split in E as [(? & ? & ?)|[(m & -> & ->)|(m & -> & ->)]]; [done| |].
  - exfalso. apply Forall_app in Hp as [_ Hp]. inversion Hp; subst. done.
  - exfalso. apply Forall_app in Hq as [_ Hq]. inversion Hq; subst. done.
Qed.

Lemma StronglySorted_lt_lookup (l : list N) i j a b : StronglySorted N.lt l -> (i < j)%nat -> l !! i = Some a -> l !! j = Some b -> a < b.
Proof.
  intros Hs. revert i j. induction Hs as [|x l Hs IH Hx]; intros i j Hij Hi Hj; [done|].
  destruct i as [|i], j as [|j]; try lia; simpl in *.
  - injection Hi as ->. eapply Forall_lookup_1 in Hx; [|done]. done.
  - eapply (IH i j); try done. lia.
Qed.

Section FineRead.
Context (K : list N -> Prop) (fetch : N -> list N) (HK : universe K).
Local Notation core := (core K fetch).
Local Notation good := (good K fetch).
Local Notation evo := (evo K fetch).
Local Notation rely := (rely K fetch).
Local Notation ok := (ok K fetch).

(** ** What never changes about a node *)

Record ofacts (o : occ_t) : Prop := {
  of_pos : 0 < o_addr o;
  of_small : o_addr o < 2 ^ 39;
  of_fit : N.of_nat (oreg o).2 <= dlen (o_addr o);
  of_cnt : (2 <= ncount (o_full o) (length (o_hs o)) <= 256)%nat;
  of_full : (fullAllocFrom <=? ncount (o_full o) (length (o_hs o)))%nat = o_full o;
  of_sort : StronglySorted N.lt (map fst (o_hs o));
  of_bytes : Forall (fun b => b < 256) (map fst (o_hs o));
  of_ex : exists (k : list N) b, K k /\ (o_path o ++ o_pfx o ++ [b]) `prefix_of` k
}.

Lemma occ_facts s T o : core s T -> ooccr T o -> ofacts o.
Proof.
  intros Hc Ho. destruct T as [t|]; [|done]. destruct (occ_zip _ _ Ho) as (D & cs & -> & Hp & _ & _ & Hh).
  pose proof (sub_region _ _ _ _ _ _ _ _ Hc) as (H1 & H2 & H3 & _). destruct (sub_facts _ _ _ _ _ Hc) as (Hw & _).
  destruct (ncount_bounds _ _ _ _ _ _ _ Hw) as [H4 H5]. apply wf_node_iff in Hw as ([H6 H7] & _ & H8 & _).
  split; unfold oreg; simpl; rewrite ?Hh, ?heads_length, ?heads_fst, <- ?Hp; done.
Qed.

(** The word by which a parent refers to it. *)
Definition onode (b : N) (o : occ_t) : N := buildNode b (o_addr o) (ncount (o_full o) (length (o_hs o))) (length (o_pfx o)).

Lemma onode_facts o b : ofacts o -> b < 256 ->
  explodeNode (onode b o) = (b, o_addr o, ncount (o_full o) (length (o_hs o)), plen8 (length (o_pfx o))) /\
  isLeaf (onode b o) = false /\ onode b o <> 0 /\ to_byte (onode b o) = b.
Proof.
  intros Hf Hb. pose proof (of_pos _ Hf). pose proof (of_small _ Hf). pose proof (of_cnt _ Hf). unfold onode. split_and!.
  - apply explode_build; [done..|lia].
  - apply buildNode_notLeaf; [done..|lia].
  - apply buildNode_nonzero; [done..|lia|lia].
  - apply buildNode_byte; [done..|lia].
Qed.

(** ** Nodes seen since a moment *)

Context (aid : nat) (key : list N) (n0 : nat) (e : N).

Definition span (w : world) : list (hist * option trie) := drop n0 (w_past w).
Definition known (w : world) (o : occ_t) : Prop := exists q, q ∈ span w /\ ooccr q.2 o.
Definition seen_leaf (w : world) (k : list N) (v : N) : Prop := exists q, q ∈ span w /\ (k, v) ∈ ocontents q.2.
(** The key has been bound all the time. *)
Definition always (w : world) : Prop := forall q, q ∈ span w -> is_Some (h_map q.1 !! key).

Definition later (w w' : world) : Prop := exists p, w_past w' = w_past w ++ p.

Lemma span_later w w' q : later w w' -> q ∈ span w -> q ∈ span w'.
Proof.
  intros [p E]. unfold span. rewrite E. intros Hq. destruct (decide (n0 <= length (w_past w))%nat).
  - rewrite drop_app_le by done. apply elem_of_app. by left.
  - rewrite drop_ge in Hq by lia. by apply elem_of_nil in Hq.
Qed.
Lemma known_later w w' o : later w w' -> known w o -> known w' o.
Proof. intros H (q & Hq & Ho). exists q. split; [by eapply span_later|done]. Qed.
Lemma seen_later w w' k v : later w w' -> seen_leaf w k v -> seen_leaf w' k v.
Proof. intros H (q & Hq & Ho). exists q. split; [by eapply span_later|done]. Qed.
Lemma always_later w w' : later w w' -> always w' -> always w.
Proof. intros H Ha q Hq. apply Ha. by eapply span_later. Qed.

Lemma evo_later j w w' : evo j w w' -> later w w'.
Proof. intros H. destruct (e_past _ _ _ _ _ H) as [E|(E & _)]; [by eexists|]. exists []. by rewrite E, app_nil_r. Qed.

(** What a word of node [o] under byte [b] may say. *)
Definition headok (w : world) (o : occ_t) (b : N) (hd : thead) : Prop :=
  match hd with
  | HLeaf k v => v < vlim /\ fetch v = k /\ (o_path o ++ o_pfx o ++ [b]) `prefix_of` k /\ seen_leaf w k v
  | HNode full a pfx n => exists o', known w o' /\ o_addr o' = a /\ o_full o' = full /\ o_pfx o' = pfx /\
      n = ncount full (length (o_hs o')) /\ o_path o' = o_path o ++ o_pfx o ++ [b]
  end.

Record slotok (w : world) (o : occ_t) (b a : N) : Prop := {
  so_word : (a = 0 /\ o_full o = true) \/ exists hd, a = enc_head b hd /\ headok w o b hd;
  so_key : always w -> (o_path o ++ o_pfx o ++ [b]) `prefix_of` key ->
    exists hd, a = enc_head b hd /\ headok w o b hd /\ (forall k v, hd = HLeaf k v -> k = key)
}.

Definition last_seen (past : list (hist * option trie)) (o : occ_t) : Prop :=
  exists p1 h T p2 o', past = p1 ++ (h, T) :: p2 /\ ooccr T o' /\ osame o o' /\
    Forall (fun q => forall x, x ∈ seqN (oreg o).1 (oreg o).2 -> x ∉ cover (oregs q.2)) p2.

Record nodeok (w : world) (o : occ_t) : Prop := {
  no_safe : forall x, x ∈ seqN (oreg o).1 (oreg o).2 -> safe_from (w_tree w) e x;
  no_pfx : prefix_at (t_mem (w_tree w)) (o_addr o) (o_pfx o);
  no_slot : forall b x, oslot o b x -> slotok w o b (mget (t_mem (w_tree w)) x);
  no_key : always w -> o_path o `prefix_of` key ->
    exists b, (o_path o ++ o_pfx o ++ [b]) `prefix_of` key /\ (o_full o = false -> b ∈ map fst (o_hs o));
  no_seen : last_seen (w_past w) o
}.

Lemma headok_same w o o' b hd : osame o o' -> headok w o' b hd -> headok w o b hd.
Proof. intros (H1 & H2 & H3 & H4 & H5). unfold headok. destruct hd; by rewrite H1, H4. Qed.

Lemma slotok_same w o o' b a : osame o o' -> slotok w o' b a -> slotok w o b a.
Proof.
  intros Hs [H1 H2]. split.
  - destruct H1 as [[? ?]|(hd & ? & ?)]; [left; split; [done|]|right; exists hd; split; [done|by eapply headok_same]].
    destruct Hs as (_ & _ & Hf & _). congruence.
  - intros Ha Hp. destruct Hs as (E1 & E2 & E3 & E4 & E5) eqn:EE. rewrite <- E1, <- E4 in Hp.
    destruct (H2 Ha Hp) as (hd & ? & ? & ?). exists hd. split_and!; try done. by eapply headok_same.
Qed.

Lemma nodeok_same w o o' : osame o o' -> nodeok w o' -> nodeok w o.
Proof.
  intros Hs [H1 H2 H3 H4 H5]. pose proof (osame_reg _ _ Hs) as Er. split.
  - rewrite Er in H1. done.
  - destruct Hs as (_ & E2 & _ & E4 & _). by rewrite <- E2, <- E4.
  - intros b x Hx. eapply slotok_same; [done|]. apply H3. by eapply oslot_same.
  - intros Ha Hp. destruct Hs as (E1 & E2 & E3 & E4 & E5). rewrite E1 in H4. destruct (H4 Ha Hp) as (b & Hb1 & Hb2).
    exists b. rewrite E4 in Hb1. split; [done|]. intros Hf. rewrite <- E5 by done. apply Hb2. congruence.
  - destruct H5 as (p1 & h & T & p2 & o2 & E & Ho & Ho2 & Hp). exists p1, h, T, p2, o2. rewrite Er in Hp.
    split_and!; try done. by eapply osame_trans.
Qed.

Lemma headok_later w w' o b hd : later w w' -> headok w o b hd -> headok w' o b hd.
Proof.
  intros Hl. destruct hd as [k v|full a pfx n]; simpl.
  - intros (? & ? & ? & ?). split_and!; try done. by eapply seen_later.
  - intros (o' & ? & ?). exists o'. split; [by eapply known_later|done].
Qed.

Lemma slotok_later w w' o b a : later w w' -> slotok w o b a -> slotok w' o b a.
Proof.
  intros Hl [H1 H2]. split.
  - destruct H1 as [?|(hd & ? & ?)]; [by left|right]. exists hd. split; [done|by eapply headok_later].
  - intros Ha Hp. destruct (H2 (always_later _ _ Hl Ha) Hp) as (hd & ? & ? & ?). exists hd. split_and!; try done. by eapply headok_later.
Qed.

(** ** Nodes of the tree *)

Lemma span_last w : good w -> (n0 < length (w_past w))%nat -> (w_hist w, w_trie w) ∈ span w.
Proof.
  intros Hg Hn. pose proof (g_last _ _ _ Hg) as Hl. unfold span. apply last_Some in Hl as [l E]. rewrite E in Hn |- *.
  rewrite app_length in Hn. simpl in Hn. rewrite drop_app_le by lia. apply elem_of_app. right. left.
Qed.

Lemma occ_child_of D (full : bool) a pfx l b t r : is_leaf t = false -> exists o',
  occr (plug D (Node full a pfx (l ++ (b, t) :: r))) o' /\ o_path o' = path_of D ++ pfx ++ [b] /\
  o_ptr o' = PSlot (slot_of full a pfx b (length l)) /\ o_par o' = a /\
  match t with Node f2 a2 p2 cs2 => o_addr o' = a2 /\ o_full o' = f2 /\ o_pfx o' = p2 /\ o_hs o' = heads cs2 | _ => False end.
Proof.
  intros Hl. destruct t as [|f2 a2 p2 cs2]; [done|].
  exists (Occ (path_of D ++ pfx ++ [b]) (PSlot (slot_of full a pfx b (length l))) a a2 f2 p2 (heads cs2)).
  split_and!; try done. apply occ_at_plug. unfold occ_at. apply occ_child. constructor.
Qed.

Lemma live_nodeok w o : good w -> (n0 < length (w_past w))%nat -> ooccr (w_trie w) o -> nodeok w o.
Proof.
  intros Hg Hn Ho. pose proof (span_last _ Hg Hn) as Hsp. pose proof (iv_core _ _ _ _ _ _ _ (g_inv _ _ _ Hg)) as Hc.
  pose proof (ooccr_regs _ _ Ho) as Hreg. pose proof (occ_facts _ _ _ Hc Ho) as Hf.
  destruct (w_trie w) as [T|] eqn:ET; [|done]. destruct (occ_zip _ _ Ho) as (D & cs & E & Hp & _ & _ & Hh).
  rewrite E in Hc. destruct (sub_facts _ _ _ _ _ Hc) as (Hw & Hr & _). pose proof Hr as Hr'. apply rep_node_iff in Hr' as [[Hpfx Hm] _].
  pose proof Hw as Hw'. apply wf_node_iff in Hw' as (Hsb & _). pose proof (sbytes_NoDup _ Hsb) as Hnd.
  assert (Hhead : forall b t, (b, t) ∈ cs -> headok w o b (head_of t)).
  { intros b t Hin. destruct (child_wf _ _ _ _ _ _ _ _ _ Hw Hin) as [Hwt Hb]. destruct t as [k v|f2 a2 p2 cs2]; simpl.
    - destruct (wf_contents K fetch _ _ k v Hwt ltac:(by left)) as (Hpk & _ & Hv & Hfv).
      split_and!; try done; [by rewrite <- Hp|]. exists (w_hist w, Some T). split; [done|]. simpl. rewrite E, contents_plug.
      rewrite !elem_of_app. right. left. rewrite contents_node. apply elem_of_list_bind. exists (b, Leaf k v). split; [by left|done].
    - apply elem_of_list_split in Hin as (l & r & ->).
      destruct (occ_child_of D (o_full o) (o_addr o) (o_pfx o) l b (Node f2 a2 p2 cs2) r eq_refl) as (o' & Ho' & H1 & _ & _ & H4 & H5 & H6 & H7).
      exists o'. rewrite H7, heads_length, H1, Hp. split_and!; try done. exists (w_hist w, Some T). split; [done|]. simpl. by rewrite E. }
  assert (Hslot : forall b x, oslot o b x -> mget (t_mem (w_tree w)) x = default 0 (enc b <$> assoc b cs) /\ (o_full o = false -> b ∈ map fst cs)).
  { intros b x [Hb Hx]. destruct (o_full o) eqn:Ef.
    - subst x. unfold slot_of. cbn [slot_idx]. rewrite Hm by done. rewrite assoc_bws. done.
    - destruct Hx as (i & Hi & ->). rewrite Hh, heads_fst in Hi. split; [|intros _; by eapply elem_of_list_lookup_2].
      rewrite list_lookup_fmap in Hi. destruct (cs !! i) as [[b' c]|] eqn:Ei; [|done]. injection Hi as ->.
      rewrite bws_length in Hm. assert (H : mread (t_mem (w_tree w)) (o_addr o + N.of_nat (prefix_slots (length (o_pfx o)))) (length cs) !! i = map snd (bws cs) !! i) by (by rewrite Hm).
      rewrite mread_lookup in H by (by eapply lookup_lt_Some). unfold bws in H. rewrite map_map, list_lookup_fmap, Ei in H. simpl in H.
      rewrite (assoc_elem _ c) by (done || by eapply elem_of_list_lookup_2). unfold slot_of. cbn [slot_idx]. simpl. congruence. }
  assert (Hcont : always w -> o_path o `prefix_of` key -> exists v, (key, v) ∈ contents (Node (o_full o) (o_addr o) (o_pfx o) cs)).
  { intros Ha Hpk. destruct (Ha _ Hsp) as [v Hv]. simpl in Hv. exists v.
    destruct (iv_maps _ _ _ _ _ _ _ (g_inv _ _ _ Hg)) as [Hmap _]. apply Hmap in Hv. rewrite ET, E in Hv. simpl in Hv.
    eapply (contents_under K fetch []); [apply (co_wf _ _ _ _ Hc)| |done]. by rewrite <- Hp in Hpk. }
  split.
  - intros x Hx. eapply live_safe; [apply (co_alloc _ _ _ _ Hc)|]. apply elem_of_cover. exists (oreg o). split; [|done]. by rewrite <- E.
  - done.
  - intros b x Hx. destruct (Hslot b x Hx) as [-> Hin]. split.
    + destruct (assoc b cs) as [t|] eqn:Ea.
      * right. exists (head_of t). rewrite enc_head_of. split; [done|]. apply Hhead. by apply assoc_Some_elem.
      * left. split; [done|]. destruct (o_full o); [done|]. apply assoc_None in Ea. exfalso. by apply Ea, Hin.
    + intros Ha Hpk. destruct (Hcont Ha) as [v Hv]. { etrans; [|exact Hpk]. by apply prefix_app_r. }
      rewrite <- Hp in Hpk. destruct (child_contents K fetch _ _ _ _ _ _ _ _ Hw Hpk Hv) as (c & Hc1 & Hc2).
      rewrite (assoc_elem _ c) by done. exists (head_of c). simpl. rewrite enc_head_of. split_and!; [done|by apply Hhead|].
      intros k v' Eh. destruct c as [k2 v2|]; [|done]. simpl in Eh. injection Eh as -> ->.
      apply elem_of_list_singleton in Hc2. by injection Hc2 as -> _.
  - intros Ha Hpk. destruct (Hcont Ha Hpk) as [v Hv]. pose proof Hv as Hv'. rewrite contents_node in Hv'. apply elem_of_list_bind in Hv' as ([b c] & Hin & Hbc).
    destruct (child_wf _ _ _ _ _ _ _ _ _ Hw Hbc) as [Hwc _]. destruct (wf_contents K fetch _ _ _ _ Hwc Hin) as (Hpk' & _).
    exists b. rewrite Hp in Hpk'. split; [done|]. intros _. rewrite Hh, heads_fst. apply elem_of_list_fmap. by exists (b, c).
  - pose proof (g_last _ _ _ Hg) as Hl. apply last_Some in Hl as [l El]. exists l, (w_hist w), (w_trie w), [], o.
    split_and!; try done. by rewrite ET.
Qed.

(** ** Keeping it *)

Lemma known_facts w o : good w -> known w o -> ofacts o.
Proof.
  intros Hg (q & Hq & Ho). pose proof (g_past _ _ _ Hg) as Hp. rewrite Forall_forall in Hp.
  destruct (Hp q) as (_ & s & Hc). { unfold span in Hq. apply elem_of_list_lookup in Hq as [i Hi]. rewrite lookup_drop in Hi. by eapply elem_of_list_lookup_2. }
  by eapply occ_facts.
Qed.

(** A node that is not in the tree any more. *)
Lemma dead_nodeok w w' o : evo aid w w' -> good w -> mine aid w e -> (n0 < length (w_past w))%nat -> nodeok w o ->
  (forall x, x ∈ seqN (oreg o).1 (oreg o).2 -> x ∉ cover (oregs (w_trie w'))) -> nodeok w' o.
Proof.
  intros Hev Hg Hmi Hn [H1 H2 H3 H4 H5] Hdead. pose proof (evo_later _ _ _ Hev) as Hl.
  assert (Hn' : (n0 < length (w_past w'))%nat) by (destruct (e_past _ _ _ _ _ Hev) as [-> |(-> & _)]; rewrite ?app_length; lia).
  assert (Hmem : forall x, x ∈ seqN (oreg o).1 (oreg o).2 -> mget (t_mem (w_tree w')) x = mget (t_mem (w_tree w)) x \/
    (exists b v, b < 256 /\ v < vlim /\ mget (t_mem (w_tree w)) x = buildLeaf b v /\ mget (t_mem (w_tree w')) x = 0 /\
       h_map (w_hist w') !! fetch v = None) /\ exists b, o_full o = true /\ oslot o b x).
  { intros x Hx. destruct (e_mem _ _ _ _ _ Hev e x Hmi (H1 _ Hx) (Hdead _ Hx)) as [?|(b & v & Hb & Hv & M1 & M2 & M3 & M4)]; [by left|right].
    split; [by exists b, v|]. destruct M4 as (q1 & h & T & q2 & o2 & b2 & Eq & Ho2 & Hf2 & Hb2 & Hx2 & Hq2).
    destruct H5 as (p1 & h' & T' & p2 & o' & Ep & Ho' & Hs & Hp2).
    pose proof (osame_reg _ _ Hs) as Er.
    destruct (last_unique (fun q => x ∈ cover (oregs q.2)) q1 q2 p1 p2 (h, T) (h', T')) as (-> & E & ->).
    - by rewrite <- Eq.
    - simpl. apply elem_of_cover. exists (oreg o2). split; [by apply ooccr_regs|]. rewrite Hx2. by apply slot_in_region.
    - simpl. apply elem_of_cover. exists (oreg o'). split; [by apply ooccr_regs|]. by rewrite Er.
    - done.
    - eapply Forall_impl; [exact Hp2|]. intros q Hq. by apply Hq.
    - injection E as <- <-. destruct T as [t|]; [|done].
      pose proof (g_past _ _ _ Hg) as Hpast. rewrite Ep in Hpast. apply Forall_app in Hpast as [_ Hpast]. inversion Hpast as [|? ? [_ [s0 Hc0]] _]; subst.
      assert (o2 = o') as ->.
      { eapply (occ_unique [] PRoot 0 t); try done.
        - pose proof (ai_nodup _ _ (co_alloc _ _ _ _ Hc0)) as Hnd. simpl in Hnd. rewrite cover_app in Hnd. by apply NoDup_app in Hnd as (? & _).
        - by apply slot_in_region.
        - by rewrite Er. }
      exists b2. destruct Hs as (S1 & S2 & S3 & S4 & S5). assert (Hf : o_full o = true) by congruence. split; [done|].
      split; [done|]. rewrite Hf. by rewrite S2, S4. }
  split.
  - intros x Hx. eapply e_safe; [done..|]. auto.
  - eapply prefix_at_agree; [exact H2|]. intros x Hx. destruct (Hmem x) as [?|(_ & b & Hf & Hos)]; [|done|].
    + unfold oreg, nslots. simpl. apply elem_of_seqN. apply elem_of_seqN in Hx. lia.
    + exfalso. by eapply oslot_not_prefix.
  - intros b x Hx. pose proof (H3 b x Hx) as Hs. destruct (Hmem x (oslot_region _ _ _ Hx)) as [->|((b0 & v & Hb0 & Hv & M1 & M2 & M3) & _ & Hf & _)].
    + by eapply slotok_later.
    + rewrite M2. split; [by left|]. intros Ha Hp. exfalso. rewrite M1 in Hs. destruct (so_key _ _ _ _ Hs (always_later _ _ Hl Ha) Hp) as (hd & Eh & Hh & Hk).
      destruct Hx as [Hb _]. destruct hd as [k v'|f2 a2 p2 n2]; simpl in Eh, Hh.
      * destruct Hh as (Hv' & Hfk & _ & _). apply buildLeaf_inj in Eh as [-> Eh]; [|done..]. unfold vlim in *. rewrite !N.mod_small in Eh by done. subst v'.
        rewrite (Hk _ _ eq_refl) in Hfk. rewrite Hfk in M3. destruct (Ha (w_hist w', w_trie w')) as [? Hx]; [|simpl in Hx; congruence].
        apply span_last; [apply Hev|done].
      * destruct Hh as (o' & Ho' & A1 & A2 & A3 & A4 & _). pose proof (known_facts _ _ Hg Ho') as Hof.
        destruct (onode_facts o' b Hof Hb) as (_ & HL & _). unfold onode in HL. subst. rewrite <- Eh, buildLeaf_isLeaf in HL by done. done.
  - intros Ha. apply H4. by eapply always_later.
  - destruct H5 as (p1 & h & T & p2 & o' & Ep & Ho & Hs & Hp). destruct (e_past _ _ _ _ _ Hev) as [Ep'|(Ep' & _)].
    2:{ exists p1, h, T, p2, o'. by rewrite Ep'. }
    exists p1, h, T, (p2 ++ [(w_hist w', w_trie w')]), o'.
    rewrite Ep', Ep. split_and!; try done; [by rewrite <- app_assoc|]. apply Forall_app. split; [done|]. apply Forall_singleton. exact Hdead.
Qed.

(** The client's view: every node it may have seen is readable. *)
Record J (w : world) : Prop := {
  j_good : good w;
  j_mine : mine aid w e;
  j_n0 : (n0 < length (w_past w))%nat;
  j_known : forall o, known w o -> nodeok w o
}.

Lemma J_evo w w' : evo aid w w' -> J w -> J w'.
Proof.
  intros Hev [Hg Hmi Hn Hk].
  assert (Hn' : (n0 < length (w_past w'))%nat) by (destruct (e_past _ _ _ _ _ Hev) as [-> |(-> & _)]; rewrite ?app_length; lia).
  split; [apply Hev|by apply (e_mine _ _ _ _ _ Hev)|done|].
  intros o (q & Hq' & Ho). assert (q ∈ span w \/ q = (w_hist w', w_trie w')) as [Hq|Hq].
  { unfold span in *. destruct (e_past _ _ _ _ _ Hev) as [E|(E & _)]; rewrite E in Hq'; [|by left]. rewrite drop_app_le in Hq' by lia.
    apply elem_of_app in Hq' as [Hq|Hq%elem_of_list_singleton]; auto. }
  2:{ subst q. apply live_nodeok; [apply Hev|done|done]. }
  assert (Hok : nodeok w o) by (apply Hk; by exists q). pose proof (no_seen _ _ Hok) as (p1 & h & T & p2 & o' & Ep & Ho' & Hs & Hp).
  destruct (e_gone _ _ _ _ _ Hev) as (G & Hgone & HG). pose proof (g_last _ _ _ Hg) as Hlast. rewrite Ep in Hlast.
  pose proof (osame_reg _ _ Hs) as Er.
  destruct p2 as [|q2 p2 _] using rev_ind.
  - rewrite last_snoc in Hlast. injection Hlast as -> ->. destruct (Hgone _ Ho') as [(o'' & Ho'' & Hs')|HinG].
    + eapply nodeok_same; [by eapply osame_trans|]. apply live_nodeok; [apply Hev|done|done].
    + eapply dead_nodeok; try done. intros x Hx. apply HG. apply elem_of_cover. exists (oreg o'). split; [done|by rewrite Er].
  - rewrite app_comm_cons, app_assoc, last_snoc in Hlast. injection Hlast as ->. eapply dead_nodeok; try done. intros x Hx Hin.
    apply Forall_app in Hp as [_ Hp]. apply Forall_cons in Hp as [Hp _]. apply (Hp x Hx). simpl.
    eapply (e_fresh _ _ _ _ _ Hev); [done| |done]. by apply (no_safe _ _ Hok).
Qed.

Lemma J_start w : good w -> mine aid w e -> length (w_past w) = S n0 -> J w.
Proof.
  intros Hg Hm Hl. split; try done; [lia|]. intros o (q & Hq & Ho). apply live_nodeok; [done|lia|].
  pose proof (g_last _ _ _ Hg) as Hlast. apply last_Some in Hlast as [l E]. unfold span in Hq. rewrite E, app_length in Hl. simpl in Hl.
  rewrite E, drop_app_le, drop_ge in Hq by lia. apply elem_of_list_singleton in Hq. by subst q.
Qed.

(** ** Reading *)

Definition is_read (a : act) : bool := match a with ALoad _ | ABlock _ | AGen _ => true | _ => false end.

Lemma read_same s a v s' : is_read a = true -> do_act s a = Ok (v, s') -> s' = s.
Proof.
  destruct a; try done; cbn [do_act]; intros _ H.
  - by injection H as _ <-.
  - destruct (node_data s node); cbn [bind] in H; try done. by injection H as _ <-.
  - by injection H as _ <-.
Qed.

Lemma lread_same w a v s' : is_read a = true -> lact w a = Ok (v, s') -> s' = w_tree w.
Proof. intros Ha [[H _]|[-> _]]%lact_cases; [by eapply read_same|done]. Qed.

Lemma read_acted w a v s' : is_read a = true -> lact w a = Ok (v, s') -> good w -> mine aid w e ->
  evo aid w (acted aid a v s' w) /\ w_sys (acted aid a v s' w) = w_sys w.
Proof.
  intros Ha Hd Hg [(l & b & Ho) He]. pose proof (lread_same _ _ _ _ Ha Hd) as ->. split.
  - eapply evo_acted; try done. by destruct a.
  - unfold acted, hdl. simpl. rewrite Ho. simpl. rewrite insert_id; [by destruct (w_sys w)|]. rewrite Ho. by destruct a.
Qed.

(** A condition that survives the steps of others and the client's own loads. *)
Record stable (nmax : N) (I : world -> Prop) : Prop := {
  st_J : forall w, I w -> J w;
  st_rely : forall w w', rely aid nmax w w' -> I w -> I w';
  st_read : forall w a v s', is_read a = true -> lact w a = Ok (v, s') -> I w -> I (acted aid a v s' w)
}.

Section Reading.
Context (nmax : N) (I : world -> Prop) (HI : stable nmax I).

Lemma I_rtc w w' : rtc (rely aid nmax) w w' -> I w -> I w'.
Proof. induction 1 as [|w w1 w' H _ IH]; [done|]. intros Hw. apply IH. by eapply st_rely. Qed.

Lemma ok_load {A} p (k : N -> prog A) Q w : I w -> (forall w1, I w1 -> act_safe aid (ALoad p) w1) ->
  (forall w1, I w1 -> ok aid nmax (k (pget (w_tree w1) p)) Q w1) -> ok aid nmax (Act (ALoad p) k) Q w.
Proof.
  intros Hw Hs H w1 Hr. pose proof (I_rtc _ _ Hr Hw) as H1. split; [split; [done|by apply Hs]|]. eexists _, _. split; [done|].
  assert (H2 : I (acted aid (ALoad p) (pget (w_tree w1) p) (w_tree w1) w1)) by (eapply st_read; done).
  apply (H _ H2).
Qed.

Lemma ok_gen {A} i (k : N -> prog A) Q w : I w ->
  (forall w1, I w1 -> ok aid nmax (k (lgen w1 i)) Q w1) -> ok aid nmax (Act (AGen i) k) Q w.
Proof.
  intros Hw H w1 Hr. split; [done|]. eexists _, _. split; [done|]. pose proof (I_rtc _ _ Hr Hw) as H1.
  assert (H2 : I (acted aid (AGen i) (lgen w1 i) (w_tree w1) w1)) by (eapply st_read; done).
  apply (H _ H2).
Qed.

Lemma node_block w o : J w -> known w o -> block_of (o_addr o) < t_nextFreeBlock (w_tree w) /\ t_nextFreeBlock (w_tree w) < maxBlockCount.
Proof.
  intros HJ Ho. pose proof (j_known _ HJ _ Ho) as Hok. pose proof (known_facts _ _ (j_good _ HJ) Ho) as Hf.
  split.
  - rewrite block_of_div. apply (sf_blk _ e). apply (no_safe _ _ Hok). apply elem_of_seqN. pose proof (of_cnt _ Hf). unfold oreg, nslots. simpl. lia.
  - apply (ai_nb _ (oregs (w_trie w))). apply (co_alloc K fetch). apply (iv_core _ _ _ _ _ _ _ (g_inv _ _ _ (j_good _ HJ))).
Qed.

Lemma ok_block {A} node (k : N -> prog A) Q w : I w ->
  (forall w1, I w1 -> block_of node < N.max 1 (t_nextFreeBlock (w_tree w1))) -> block_of node < maxBlockCount ->
  (forall w1, I w1 -> ok aid nmax (k 0) Q w1) -> ok aid nmax (Act (ABlock node) k) Q w.
Proof.
  intros Hw Hb1 Hb2 H w1 Hr. split; [done|]. pose proof (I_rtc _ _ Hr Hw) as H1.
  assert (E : lact w1 (ABlock node) = Ok (0, w_tree w1)).
  { cbn [lact do_act]. unfold node_data. rewrite (proj2 (N.leb_gt _ _)) by done. by rewrite (proj2 (N.leb_gt _ _)) by (by apply Hb1). }
  eexists _, _. split; [done|]. assert (H2 : I (acted aid (ABlock node) 0 (w_tree w1) w1)) by (eapply st_read; done).
  apply (H _ H2).
Qed.

(** I keeps what was known. *)
Context (o : occ_t) (Ho : forall w, I w -> known w o).

Lemma I_block w1 : I w1 -> block_of (o_addr o) < N.max 1 (t_nextFreeBlock (w_tree w1)).
Proof. intros H1. destruct (node_block w1 o); [by eapply st_J|by apply Ho|]. lia. Qed.

Lemma I_block2 w1 : I w1 -> block_of (o_addr o) < maxBlockCount.
Proof. intros H1. destruct (node_block w1 o); [by eapply st_J|by apply Ho|]. lia. Qed.

Lemma ok_p_data {A} (k : slice -> prog A) Q w : I w ->
  (forall w1, I w1 -> ok aid nmax (k (Slice (o_addr o) (dlen (o_addr o)))) Q w1) -> ok aid nmax (pbind (p_data (o_addr o)) k) Q w.
Proof. intros Hw H. apply ok_block; [done|apply I_block|by eapply I_block2|]. intros w1 H1. by apply H. Qed.

Lemma ok_p_gen {A} (k : N -> prog A) Q w : I w ->
  (forall w1, I w1 -> ok aid nmax (k (lgen w1 (lock_id (o_addr o)))) Q w1) ->
  ok aid nmax (pbind (p_gen (o_addr o)) k) Q w.
Proof. intros Hw H. apply ok_block; [done|apply I_block|by eapply I_block2|]. intros w1 H1. apply ok_gen; done. Qed.

Lemma I_safe x w : x ∈ seqN (oreg o).1 (oreg o).2 -> I w -> act_safe aid (ALoad (PSlot x)) w.
Proof.
  intros Hx Hw. right. pose proof (st_J _ _ HI _ Hw) as HJ. exists e. split; [apply (j_mine _ HJ)|].
  by apply (no_safe _ _ (j_known _ HJ _ (Ho _ Hw))).
Qed.

Lemma ok_facts w : I w -> ofacts o.
Proof. intros H. eapply known_facts; [apply (j_good w); by eapply st_J|by apply Ho]. Qed.

Lemma ok_p_skip {A} (k : nat * nat * slice -> prog A) Q w : I w ->
  (forall w1, I w1 -> ok aid nmax (k (length (o_pfx o), prefix_slots (length (o_pfx o)),
     Slice (o_addr o + N.of_nat (prefix_slots (length (o_pfx o)))) (dlen (o_addr o) - N.of_nat (prefix_slots (length (o_pfx o)))))) Q w1) ->
  ok aid nmax (pbind (p_skip (Slice (o_addr o) (dlen (o_addr o))) (plen8 (length (o_pfx o)))) k) Q w.
Proof.
  intros Hw H. pose proof (ok_facts _ Hw) as Hf. pose proof (of_fit _ Hf) as HL. unfold oreg, nslots in HL. cbn [snd] in HL.
  unfold p_skip. destruct (plen8 (length (o_pfx o))) as [|n8] eqn:E.
  { apply (proj1 (plen8_eq0 _)) in E. rewrite E, prefix_slots_0 in H. cbn [pbind]. specialize (H w Hw). by rewrite N.add_0_r, N.sub_0_r in H. }
  assert (Hfrom : sl_from (Slice (o_addr o) (dlen (o_addr o))) (prefix_slots (length (o_pfx o))) =
    Ok (Slice (o_addr o + N.of_nat (prefix_slots (length (o_pfx o)))) (dlen (o_addr o) - N.of_nat (prefix_slots (length (o_pfx o)))))).
  { unfold sl_from. cbn [sl_len sl_base]. by rewrite (proj2 (N.leb_le _ _)) by lia. }
  rewrite <- E. destruct (decide (255 <= length (o_pfx o))%nat) as [Hl|Hl].
  - replace (plen8 (length (o_pfx o)) =? 255)%nat with true by (unfold plen8; symmetry; apply Nat.eqb_eq; lia).
    unfold p_get. cbn [sl_len sl_base]. pose proof (prefix_slots_pos (length (o_pfx o)) ltac:(lia)). change (N.of_nat 0) with 0.
    rewrite (proj2 (N.ltb_lt _ _)) by lia. cbn [p_load pbind].
    apply ok_load; [done|intros w1; apply I_safe, elem_of_seqN; unfold oreg, nslots; cbn [fst snd]; lia|]. intros w1 H1. cbn [pget].
    pose proof (no_pfx _ _ (j_known _ (st_J _ _ HI _ H1) _ (Ho _ H1))) as Hp. unfold prefix_at in Hp. rewrite decide_True in Hp by done.
    destruct Hp as [Hp _]. rewrite N.add_0_r, Hp, Nat2N.id. cbn [pbind]. rewrite <- prefix_slots_big by done. rewrite Hfrom. by apply H.
  - replace (plen8 (length (o_pfx o))) with (length (o_pfx o)) by (unfold plen8; lia).
    rewrite (proj2 (Nat.eqb_neq _ 255)) by lia. cbn [pbind]. rewrite <- prefix_slots_small by lia. rewrite Hfrom. by apply H.
Qed.

(** The words of the prefix, read one by one. *)
Lemma ok_p_words base n : forall i w, I w -> (forall j, (i <= j < i + n)%nat -> base + N.of_nat j ∈ seqN (oreg o).1 (oreg o).2) ->
  ok aid nmax (p_words (base + N.of_nat i) n) (fun ws w1 => I w1 /\ length ws = n /\
     forall j a, ws !! j = Some a -> exists w2, I w2 /\ a = mget (t_mem (w_tree w2)) (base + N.of_nat (i + j))) w.
Proof.
  induction n as [|n IH]; intros i w Hw Hreg.
  - cbn [p_words]. apply ok_ret. intros w' Hr. split; [by eapply I_rtc|]. done.
  - cbn [p_words p_load pbind]. apply ok_load; [done|intros w1; apply I_safe, Hreg; lia|]. intros w1 H1. cbn [pget].
    replace (base + N.of_nat i + 1) with (base + N.of_nat (S i)) by lia.
    apply ok_bind. eapply ok_mono; [|apply IH; [done|intros j Hj; apply Hreg; lia]]. intros ws w2 (H2 & Hlen & Hws). apply ok_ret. intros w' Hr.
    split; [by eapply I_rtc|]. split; [simpl; lia|]. intros [|j] a Hj; simpl in Hj.
    + injection Hj as <-. exists w1. rewrite Nat.add_0_r. done.
    + destruct (Hws j a Hj) as (w3 & H3 & ->). exists w3. split; [done|]. f_equal. lia.
Qed.

Lemma word_byte_read ws base n pfx j : (j < n)%nat -> length ws = ((n + 7) / 8)%nat ->
  (forall i a, ws !! i = Some a -> exists w2, I w2 /\ a = mget (t_mem (w_tree w2)) (base + N.of_nat i)) ->
  (forall w2, I w2 -> load_bytes (t_mem (w_tree w2)) base n = pfx) -> Some (word_byte ws j) = pfx !! j.
Proof.
  intros Hj Hlen Hws Hp.
  assert (Hlt : (j / 8 < (n + 7) / 8)%nat).
  { apply Nat.lt_le_trans with (n := (j / 8)%nat) (m := S (j / 8)); [lia|].
    replace (S (j / 8))%nat with ((j + 1 * 8) / 8)%nat by (rewrite Nat.div_add by done; lia).
    apply Nat.div_le_mono; lia. }
  destruct (lookup_lt_is_Some_2 ws (j / 8)) as [a Ha]; [lia|]. destruct (Hws _ _ Ha) as (w2 & H2 & Ea).
  rewrite <- (Hp w2 H2), load_bytes_lookup by done. f_equal. unfold word_byte, get_byte. rewrite nth_lookup, Ha. simpl. by rewrite Ea.
Qed.

Lemma ok_p_append {A} (k : list N * nat -> prog A) Q w : I w ->
  (forall w1, I w1 -> ok aid nmax (k (o_pfx o, prefix_slots (length (o_pfx o)))) Q w1) ->
  ok aid nmax (pbind (p_append (Slice (o_addr o) (dlen (o_addr o))) (plen8 (length (o_pfx o)))) k) Q w.
Proof.
  intros Hw H. pose proof (ok_facts _ Hw) as Hf. pose proof (of_fit _ Hf) as HL. unfold oreg, nslots in HL. cbn [snd] in HL.
  pose proof (prefix_slots_bytes (length (o_pfx o))) as HB.
  assert (Hpfx : forall w1, I w1 -> prefix_at (t_mem (w_tree w1)) (o_addr o) (o_pfx o)).
  { intros w1 H1. apply (no_pfx w1). apply (j_known w1); [by eapply st_J|by apply Ho]. }
  unfold p_append. destruct (plen8 (length (o_pfx o))) as [|n8] eqn:E.
  { apply (proj1 (plen8_eq0 _)) in E. cbn [pbind]. specialize (H w Hw). rewrite E, prefix_slots_0 in H. by destruct (o_pfx o). }
  assert (Hlen : (0 < length (o_pfx o))%nat) by (unfold plen8 in E; lia).
  assert (Hpos : (1 <= (length (o_pfx o) + 7) / 8)%nat) by (apply Nat.div_le_lower_bound; lia).
  pose proof (prefix_slots_pos (length (o_pfx o)) ltac:(lia)) as Hpsl.
  rewrite <- E. clear E n8.
  assert (Hread : forall base w1, I w1 ->
    (forall j, (j < (length (o_pfx o) + 7) / 8)%nat -> base + N.of_nat j ∈ seqN (oreg o).1 (oreg o).2) -> (forall w2, I w2 -> load_bytes (t_mem (w_tree w2)) base (length (o_pfx o)) = o_pfx o) ->
    ok aid nmax (run x <- (run ws <- p_words base ((length (o_pfx o) + 7) / 8);
       Ret (map (word_byte ws) (seq 0 (length (o_pfx o))), prefix_slots (length (o_pfx o)))); k x) Q w1).
  { intros base w1 H1 Hreg Hb. apply ok_bind, ok_bind.
    eapply ok_mono; [|pose proof (ok_p_words base ((length (o_pfx o) + 7) / 8) 0 w1 H1 ltac:(intros j Hj; apply Hreg; lia)) as Hpw;
      change (N.of_nat 0) with 0 in Hpw; rewrite N.add_0_r in Hpw; exact Hpw].
    intros ws w2 (H2 & Hl & Hws). apply ok_ret. intros w3 Hr. cbn [Nat.add] in Hws.
    replace (map (word_byte ws) (seq 0 (length (o_pfx o)))) with (o_pfx o); [apply H; by eapply I_rtc|].
    apply list_eq. intros j. rewrite list_lookup_fmap. destruct (decide (j < length (o_pfx o))%nat) as [Hj|Hj].
    - rewrite lookup_seq_lt by done. simpl. symmetry. by apply (word_byte_read ws base (length (o_pfx o))).
    - rewrite !lookup_ge_None_2; [done| |lia]. rewrite seq_length. lia. }
  destruct (decide (255 <= length (o_pfx o))%nat) as [Hl|Hl].
  - replace (plen8 (length (o_pfx o)) =? 255)%nat with true by (unfold plen8; symmetry; apply Nat.eqb_eq; lia).
    rewrite prefix_slots_big in HL by done. pose proof (prefix_slots_big _ Hl) as Hbig.
    replace (length (o_pfx o) + 15)%nat with (length (o_pfx o) + 7 + 1 * 8)%nat in HL by lia. rewrite Nat.div_add in HL by lia.
    assert (Hbig2 : prefix_slots (length (o_pfx o)) = ((length (o_pfx o) + 7) / 8 + 1)%nat).
    { rewrite Hbig. replace (length (o_pfx o) + 15)%nat with (length (o_pfx o) + 7 + 1 * 8)%nat by lia. by rewrite Nat.div_add by lia. }
    unfold p_get. cbn [sl_len sl_base]. change (N.of_nat 0) with 0.
    rewrite (proj2 (N.ltb_lt _ _)) by lia. cbn [p_load pbind].
    apply ok_load; [done|intros w1; apply I_safe, elem_of_seqN; unfold oreg, nslots; cbn [fst snd]; lia|]. intros w1 H1. cbn [pget].
    pose proof (Hpfx _ H1) as Hp. unfold prefix_at in Hp. rewrite decide_True in Hp by done.
    destruct Hp as [Hp _]. rewrite N.add_0_r, Hp, Nat2N.id. unfold sl_from. cbn [sl_len sl_base]. change (N.of_nat 1) with 1.
    rewrite (proj2 (N.leb_le _ _)) by lia. cbn [of_res pbind sl_len sl_base].
    rewrite (proj2 (Nat.eqb_neq _ _)) by lia. rewrite (proj2 (N.eqb_neq _ _)) by lia. rewrite (proj2 (N.ltb_ge _ _)) by lia.
    rewrite <- Hbig. apply Hread; [done|intros j Hj; apply elem_of_seqN; unfold oreg, nslots; cbn [fst snd]; lia|].
    intros w2 H2. pose proof (Hpfx _ H2) as Hp2. unfold prefix_at in Hp2. rewrite decide_True in Hp2 by done. apply Hp2.
  - replace (plen8 (length (o_pfx o))) with (length (o_pfx o)) by (unfold plen8; lia).
    pose proof (prefix_slots_small (length (o_pfx o)) ltac:(lia)) as Hsm. rewrite Hsm in HL.
    rewrite (proj2 (Nat.eqb_neq _ 255)) by lia. cbn [pbind sl_len sl_base].
    rewrite (proj2 (Nat.eqb_neq _ _)) by lia. rewrite (proj2 (N.eqb_neq _ _)) by lia. rewrite (proj2 (N.ltb_ge _ _)) by lia.
    rewrite Hsm in Hread. apply Hread; [done|intros j Hj; apply elem_of_seqN; unfold oreg, nslots; cbn [fst snd]; lia|].
    intros w2 H2. pose proof (Hpfx _ H2) as Hp2. unfold prefix_at in Hp2. rewrite decide_False in Hp2 by done. done.
Qed.

(** One child slot. *)
Lemma ok_p_get {A} i (k : N -> prog A) Q w : I w -> (i < ncount (o_full o) (length (o_hs o)))%nat ->
  (forall w1, I w1 -> ok aid nmax (k (mget (t_mem (w_tree w1)) (o_addr o + N.of_nat (prefix_slots (length (o_pfx o))) + N.of_nat i))) Q w1) ->
  ok aid nmax (pbind (p_get (Slice (o_addr o + N.of_nat (prefix_slots (length (o_pfx o))))
     (dlen (o_addr o) - N.of_nat (prefix_slots (length (o_pfx o))))) i) k) Q w.
Proof.
  intros Hw Hi H. pose proof (of_fit _ (ok_facts _ Hw)) as HL. unfold oreg, nslots in HL. cbn [snd] in HL.
  unfold p_get. cbn [sl_len sl_base]. rewrite (proj2 (N.ltb_lt _ _)) by lia. cbn [p_load pbind].
  apply ok_load; [done|intros w1; apply I_safe, elem_of_seqN; unfold oreg, nslots; cbn [fst snd]; lia|]. intros w1 H1. by apply H.
Qed.

Lemma ok_upto w : I w -> sl_upto (Slice (o_addr o + N.of_nat (prefix_slots (length (o_pfx o))))
     (dlen (o_addr o) - N.of_nat (prefix_slots (length (o_pfx o))))) (ncount (o_full o) (length (o_hs o))) = Ok tt.
Proof.
  intros Hw. pose proof (of_fit _ (ok_facts _ Hw)) as HL. unfold oreg, nslots in HL. cbn [snd] in HL.
  unfold sl_upto. cbn [sl_len sl_base]. rewrite (proj2 (N.leb_le _ _)); [done|]. lia.
Qed.

Lemma ok_from w : I w -> sl_from (Slice (o_addr o) (dlen (o_addr o))) (prefix_slots (length (o_pfx o))) =
  Ok (Slice (o_addr o + N.of_nat (prefix_slots (length (o_pfx o)))) (dlen (o_addr o) - N.of_nat (prefix_slots (length (o_pfx o))))).
Proof.
  intros Hw. pose proof (of_fit _ (ok_facts _ Hw)) as HL. unfold oreg, nslots in HL. cbn [snd] in HL.
  unfold sl_from. cbn [sl_len sl_base]. by rewrite (proj2 (N.leb_le _ _)) by lia.
Qed.

(** The bytes in the words of a small node never change. *)
Lemma head_byte w b hd : good w -> b < 256 -> headok w o b hd -> to_byte (enc_head b hd) = b /\
  isLeaf (enc_head b hd) = match hd with HLeaf _ _ => true | HNode _ _ _ _ => false end /\ enc_head b hd <> 0.
Proof.
  intros Hg Hb Hh. destruct hd as [kk v|f2 a2 p2 n2]; simpl in *.
  - split_and!; [by apply buildLeaf_byte|by apply buildLeaf_isLeaf|by apply buildLeaf_nonzero].
  - destruct Hh as (o' & Ho' & A1 & A2 & A3 & A4 & _). pose proof (known_facts _ _ Hg Ho') as Hof.
    destruct (onode_facts o' b Hof Hb) as (_ & HL & HN & HB). unfold onode in *. subst. done.
Qed.

Lemma small_byte w i b : I w -> o_full o = false -> map fst (o_hs o) !! i = Some b ->
  to_byte (mget (t_mem (w_tree w)) (o_addr o + N.of_nat (prefix_slots (length (o_pfx o))) + N.of_nat i)) = b.
Proof.
  intros Hw Hf Hi. pose proof (ok_facts _ Hw) as Hof.
  assert (Hb : b < 256) by (pose proof (of_bytes _ Hof) as HB; eapply Forall_lookup_1 in HB; [|done]; done).
  assert (Hs : oslot o b (o_addr o + N.of_nat (prefix_slots (length (o_pfx o))) + N.of_nat i)).
  { split; [done|]. rewrite Hf. exists i. done. }
  pose proof (st_J _ _ HI _ Hw) as HJ.
  destruct (so_word _ _ _ _ (no_slot _ _ (j_known _ HJ _ (Ho _ Hw)) _ _ Hs)) as [[_ ?]|(hd & -> & Hh)]; [congruence|].
  eapply head_byte; [apply (j_good _ HJ)|done|done].
Qed.

(** The scan: what it returns depends on the bytes only. *)
Lemma ok_p_scan kb : forall n i last w, I w -> o_full o = false -> (i + n = length (o_hs o))%nat ->
  (forall b j, (j < i)%nat -> map fst (o_hs o) !! j = Some b -> b < kb) ->
  (i = 0%nat \/ to_byte (snd last) <> kb) -> (n <> 0%nat \/ i <> 0%nat) ->
  ok aid nmax (p_scan (o_addr o + N.of_nat (prefix_slots (length (o_pfx o)))) kb i n last) (fun r w1 => I w1 /\
    ((exists j w2, map fst (o_hs o) !! j = Some kb /\ I w2 /\ rtc (rely aid nmax) w2 w1 /\
        r = (true, j, mget (t_mem (w_tree w2)) (slot_of false (o_addr o) (o_pfx o) kb j))) \/
     (kb ∉ map fst (o_hs o) /\ exists brk j a hl hr, r = (brk, j, a) /\ to_byte a <> kb /\ o_hs o = hl ++ hr /\
        (if brk : bool then j else length (o_hs o)) = length hl /\
        (forall b, b ∈ map fst hl -> b < kb) /\ (forall b, b ∈ map fst hr -> kb < b)))) w.
Proof.
  induction n as [|n IH]; intros i last w Hw Hf Hin Hlt Hlast Hne.
  - cbn [p_scan]. apply ok_ret. intros w' Hr. split; [by eapply I_rtc|]. right.
    assert (Hall : forall b, b ∈ map fst (o_hs o) -> b < kb).
    { intros b [j Hj]%elem_of_list_lookup. apply (Hlt b j); [|done]. apply lookup_lt_Some in Hj. rewrite map_length in Hj. lia. }
    split; [intros Hk; specialize (Hall _ Hk); lia|]. exists false, (fst last), (snd last), (o_hs o), [].
    split_and!; try done; [by destruct Hlast; [lia|]|by rewrite app_nil_r|by intros b ?%elem_of_nil].
  - cbn [p_scan p_load pbind].
    apply ok_load; [done|intros w1; apply I_safe, elem_of_seqN; unfold oreg, nslots, ncount; rewrite Hf; cbn [fst snd]; lia|]. intros w1 H1. cbn [pget].
    destruct (lookup_lt_is_Some_2 (map fst (o_hs o)) i) as [b Hb]; [rewrite map_length; lia|].
    pose proof (small_byte w1 i b H1 Hf Hb) as Eb. rewrite Eb. pose proof (of_sort _ (ok_facts _ H1)) as Hs.
    destruct (N.leb_spec kb b) as [Hle|Hgt].
    + apply ok_ret. intros w' Hr. split; [by eapply I_rtc|]. destruct (decide (b = kb)) as [->|Hneb].
      * left. exists i, w1. done.
      * right.
        assert (Hgt : forall b' j, (i <= j)%nat -> map fst (o_hs o) !! j = Some b' -> kb < b').
        { intros b' j Hij Hj. destruct (decide (i = j)) as [->|]; [rewrite Hb in Hj; injection Hj as <-; lia|].
          assert (b < b'); [|lia]. eapply (StronglySorted_lt_lookup (map fst (o_hs o)) i j); try done. lia. }
        split.
        { intros [j Hj]%elem_of_list_lookup. destruct (decide (j < i)%nat) as [Hji|Hji]; [pose proof (Hlt _ _ Hji Hj); lia|].
          assert (Hij : (i <= j)%nat) by lia. pose proof (Hgt _ _ Hij Hj). lia. }
        eexists true, i, _, (take i (o_hs o)), (drop i (o_hs o)). split_and!; [done|by rewrite Eb|by rewrite take_drop|rewrite take_length; lia| |].
        -- intros b' [j Hj]%elem_of_list_lookup. rewrite list_lookup_fmap in Hj. destruct (decide (j < i)%nat) as [Hji|Hji].
           ++ rewrite lookup_take in Hj by done. apply (Hlt b' j Hji). by rewrite list_lookup_fmap.
           ++ rewrite lookup_take_ge in Hj by lia. done.
        -- intros b' [j Hj]%elem_of_list_lookup. rewrite list_lookup_fmap, lookup_drop in Hj.
           apply (Hgt b' (i + j)%nat); [lia|]. by rewrite list_lookup_fmap.
    + apply IH; try done; [lia| |right; simpl; rewrite Eb; lia|lia].
      intros b' j Hj Hb'. destruct (decide (j = i)) as [->|]; [congruence|]. apply (Hlt b' j); [lia|done].
Qed.
End Reading.
End FineRead.
