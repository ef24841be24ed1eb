(** * Recycled: what happens to the nodes that a call removes from the tree. *)
From Verif Require Export MinMax Live.

Lemma sub_occ p : forall b t b' full a pfx cs path np par, sub b t p = Some (b', Node full a pfx cs) ->
  exists o, occ path np par t o /\ o_addr o = a /\ oreg o = (a, nslots full pfx (length cs)).
Proof.
  induction p as [|i p IH]; intros b t b' full a pfx cs path np par; simpl.
  - intros [= <- ->]. eexists. split; [apply occ_here|]. split; [done|]. unfold oreg. simpl. by rewrite heads_length.
  - destruct t as [|full0 a0 pfx0 cs0]; [done|]. destruct (child_at full0 cs0 i) as [[b1 c]|] eqn:E; [|done].
    intros H. apply child_at_elem in E. apply elem_of_list_split in E as (l & r & ->).
    destruct (IH _ _ _ _ _ _ _ (path ++ pfx0 ++ [b1]) (PSlot (slot_of full0 a0 pfx0 b1 (length l))) a0 H) as (o & Ho & H1).
    exists o. split; [by apply occ_child|done].
Qed.

Section Recycled.
Context (K : list N -> Prop) (fetch : N -> list N) (HK : universe K).

(** An occurrence in the ghost trie is a live node of the memory. *)
Lemma occ_live s t o : core K fetch s (Some t) -> occr t o -> exists p w r, live s p w /\ node_reg s w r /\ r.1 = o_addr o.
Proof.
  intros Hc Ho. destruct (occ_zip _ _ Ho) as (C & cs & -> & _).
  pose proof (root_byte_lt K fetch HK _ _ Hc) as Hb. pose proof (core_sound K fetch s [] _ Hc) as Hso. simpl in Hso.
  destruct (plug_sub K fetch s C _ Hso (root_byte (plug C (Node (o_full o) (o_addr o) (o_pfx o) cs)))) as (p & b & Hs).
  pose proof (sub_live K fetch HK _ _ _ Hc _ _ Hs) as Hl.
  destruct (Live.sub_view K fetch _ _ _ _ _ _ _ _ _ Hc Hb Hs) as (Hr & Hrep & (q & Hq) & Hb' & Hv & He).
  destruct (sound_enc K fetch s _ (co_alloc _ _ _ _ Hc) (Node (o_full o) (o_addr o) (o_pfx o) cs) b) as (_ & Hlf & _); [|done|].
  { split; [done|done|by exists q]. }
  eexists p, _, _. split; [exact Hl|]. split; [|].
  - unfold node_reg. eexists _, _, _, _, _, _, _, _. split; [exact Hlf|]. split; [exact He|]. split; [exact (v_data _ _ _ _ _ Hv)|].
    split; [exact (v_skip _ _ _ _ _ Hv)|]. reflexivity.
  - done.
Qed.

Lemma unlinked_live y c y' T T' p w r : core K fetch (sy_tree y) T -> core K fetch (sy_tree y') T' -> unlinked y c y' T T' ->
  live (sy_tree y) p w -> node_reg (sy_tree y) w r ->
  (exists p' w' r', live (sy_tree y') p' w' /\ node_reg (sy_tree y') w' r' /\ r'.1 = r.1) \/
  noted (sy_tree y') r \/ leak y c = Some r.1.
Proof.
  intros Hc Hc' (G & Hg & HG) Hl Hr.
  destruct (live_node K fetch HK _ _ _ _ _ Hc Hl Hr) as (t & b & full & a & pfx & cs & -> & Hb & Hs & ->).
  destruct (sub_occ _ _ _ _ _ _ _ _ [] PRoot 0 Hs) as (o & Ho & Ha & Hreg).
  destruct (Hg o Ho) as [(o' & Ho' & Hsm)|Hin].
  - left. destruct T' as [t'|]; [|done]. destruct (occ_live _ _ _ Hc' Ho') as (p' & w' & r' & H1 & H2 & H3).
    exists p', w', r'. split; [done|]. split; [done|]. rewrite H3. destruct Hsm as (_ & -> & _). done.
  - right. rewrite Forall_forall in HG. rewrite Hreg in Hin. destruct (HG _ Hin); auto.
Qed.
End Recycled.

Lemma c22_recycled K fetch n tr y c rep y' p w r : reachable K fetch n tr y -> proper K fetch y c -> api y c = Ok (rep, y') ->
  live (sy_tree y) p w -> node_reg (sy_tree y) w r ->
  (exists p' w' r', live (sy_tree y') p' w' /\ node_reg (sy_tree y') w' r' /\ r'.1 = r.1) \/
  ((r.2 < recyclerLen)%nat -> r ∈ map ireg (all_items (sy_tree y'))) \/
  (exists aid key op, c = CFinD aid /\ sy_open y !! aid = Some (HD key op) /\ d_kind op = replaceNodeWithNode /\ r.1 = d_node op).
Proof.
  intros Hr Hp Ha Hl Hn. pose proof (rc_univ _ _ _ _ _ Hr) as HK.
  destruct (reach_step K fetch _ _ _ _ Hr Hp) as (T & lost & Hi & Hs). rewrite Ha in Hs.
  destruct Hs as (_ & T' & lost' & Hi' & Hch).
  assert (Hu : unlinked y c y' T T').
  { destruct (acked rep); [apply Hch|]. destruct Hch as [-> _]. exists []. split; [apply gone_refl|constructor]. }
  destruct (unlinked_live K fetch HK y c y' T T' p w r (iv_core _ _ _ _ _ _ _ Hi) (iv_core _ _ _ _ _ _ _ Hi') Hu Hl Hn) as [H|[H|H]].
  - by left.
  - right. left. exact H.
  - right. right. destruct c as [| | | | |aid| | |]; try done. cbn [leak] in H.
    destruct (sy_open y !! aid) as [[|key op|]|] eqn:Eo; try done. unfold merged in H.
    destruct (d_kind op) eqn:Ek; try done. injection H as H. by exists aid, key, op.
Qed.
