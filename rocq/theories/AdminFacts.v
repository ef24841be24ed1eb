(** * AdminFacts: what Admin shows in reachable states, and where it fails. *)
From Coq Require Import String.
From Verif Require Export QueryTop PText Admin.

(** The dump [d] describes the word [w] at place [p] of the tree: a leaf with its value; or a node with a line for
    every child, in their places, and a prefix. *)
Definition shows (s : tree) (p : list nat) (w : N) (d : dump) : Prop :=
  match d with
  | DInvalid => False
  | DLeaf l => isLeaf w = true /\ l = LLeaf w (to_byte w) (getLeafValue w)
  | DNode (LLeaf _ _ _) _ _ => False
  | DNode (LNode w' _ _ count _) _ ls => isLeaf w = false /\ w' = w /\ length ls = count /\
    forall i x, x <> 0 -> ls !! i = Some (child_line x) <-> live s (p ++ [i]) x
  end.

Lemma line_word x y : child_line x = child_line y -> x = y.
Proof.
  unfold child_line, leaf_line, node_line. destruct (isLeaf x), (isLeaf y); destruct (explodeNode x) as [[[??]?]?], (explodeNode y) as [[[??]?]?]; intros E; congruence.
Qed.

Section AdminFacts.
Context (K : list N -> Prop) (fetch : N -> list N).
Local Notation core := (core K fetch).
Local Notation reachable := (reachable K fetch).

Lemma dump_live (HK : universe K) s T p w : core s T -> live s p w -> exists d, debug_print_node s w = Ok d /\ shows s p w d /\
  forall l prefix ls, d = DNode l prefix ls -> exists full a cs b, sub (from_option root_byte 0 T) (default (Leaf [] 0) T) p = Some (b, Node full a prefix cs).
Proof.
  intros Hc Hl. destruct (live_sub K fetch HK _ _ _ _ Hc Hl) as (t & b & c & -> & _ & E & ->).
  pose proof (root_byte_lt K fetch HK _ _ Hc) as Hb. pose proof (co_alloc _ _ _ _ Hc) as Ha.
  assert (Hso : sound K fetch s (regs t) c).
  { pose proof (core_sound K fetch s [] _ Hc) as Hso. simpl in Hso. destruct Hso as [S1 S2 [q S3]]. split.
    - intros r Hr. apply S1. eapply sub_incl; eauto.
    - eapply sub_rep; eauto.
    - destruct (sub_wf K fetch p _ _ _ _ _ Hb S3 E) as [_ [q' Hq]]. by exists (q ++ q'). }
  assert (Hb' : b < 256).
  { pose proof (core_sound K fetch s [] _ Hc) as Hso0. simpl in Hso0. destruct Hso0 as [_ _ [q S3]]. by destruct (sub_wf K fetch p _ _ _ _ _ Hb S3 E). }
  destruct (sound_enc K fetch s _ Ha _ _ Hso Hb') as (F1 & F2 & F3). unfold debug_print_node. rewrite F2.
  destruct c as [k v|full a pfx cs]; cbn [is_leaf].
  { eexists. split; [done|]. split; [split; [by rewrite F2|done]|done]. }
  rewrite (sound_explode K fetch s _ Ha _ _ _ _ _ Hso Hb'). pose proof (sound_view K fetch s _ Ha _ _ _ _ Hso) as Hv.
  assert (Hblk : (maxBlockCount <? block_of a) = false).
  { pose proof (v_data _ _ _ _ _ Hv) as Hd. unfold node_data in Hd. destruct (N.leb_spec maxBlockCount (block_of a)); [done|]. apply N.ltb_ge. lia. }
  rewrite Hblk, (v_data _ _ _ _ _ Hv). cbn [bind].
  assert (Hap : (if (0 <? plen8 (length pfx))%nat then append_prefix (t_mem s) (Slice a (dlen a)) (plen8 (length pfx)) else Ok ([], O)) = Ok (pfx, prefix_slots (length pfx))).
  { rewrite (v_append _ _ _ _ _ Hv). destruct (plen8 (length pfx)) eqn:Ep; [|done]. pose proof (v_append _ _ _ _ _ Hv) as Hx. by rewrite Ep in Hx. }
  rewrite Hap. cbn [bind]. rewrite (v_from _ _ _ _ _ Hv). cbn [bind]. rewrite (v_upto _ _ _ _ _ Hv). cbn [bind sl_base].
  eexists. split; [done|]. split.
  - unfold shows, node_line. rewrite (sound_explode K fetch s _ Ha _ _ _ _ _ Hso Hb'). split_and!; [by rewrite F2|done|by rewrite map_length, mread_length|].
    fold (nbase a pfx). intros i x Hx. rewrite list_lookup_fmap. pose proof (sound_sbytes K fetch s _ _ _ _ _ Hso) as Hsb. split.
    + destruct (decide (i < ncount full (length cs))%nat) as [Hi|Hi].
      2:{ rewrite (proj2 (lookup_ge_None _ _)); [done|]. rewrite mread_length. lia. }
      rewrite mread_lookup by done. rewrite (slot_read K fetch s _ _ _ _ _ _ Hso Hi). simpl. intros [= Ew]. apply line_word in Ew.
      unfold slotw in Ew. destruct (child_at full cs i) as [[b1 c1]|] eqn:Ec; [|done]. subst x.
      apply (sub_live K fetch HK s t _ Hc). rewrite sub_snoc, E. by rewrite Ec.
    + intros Hlx. destruct (live_sub K fetch HK _ _ _ _ Hc Hlx) as (t' & b1 & c1 & [= <-] & _ & E1 & ->).
      rewrite sub_snoc, E in E1. destruct (child_at full cs i) as [[b2 c2]|] eqn:Ec; [|done]. injection E1 as -> ->.
      assert (Hi : (i < ncount full (length cs))%nat) by (destruct (decide (i < ncount full (length cs))%nat) as [?|Hi]; [done|]; rewrite child_at_end in Ec by (done || lia); done).
      rewrite mread_lookup by done. rewrite (slot_read K fetch s _ _ _ _ _ _ Hso Hi). simpl. unfold slotw. by rewrite Ec.
  - intros l prefix ls [= _ <- _]. simpl. eauto 10.
Qed.

Lemma sub_contents p : forall b t b' c x, sub b t p = Some (b', c) -> x ∈ contents c -> x ∈ contents t.
Proof.
  induction p as [|i p IH]; intros b t b' c x; simpl.
  - by intros [= <- ->].
  - destruct t as [|full a pfx cs]; [done|]. destruct (child_at full cs i) as [[b2 c2]|] eqn:E; [|done]. intros Hs Hx.
    rewrite contents_node. apply elem_of_list_bind. exists (b2, c2). split; [by eapply IH|by eapply child_at_elem].
Qed.

Lemma live_leaf (HK : universe K) y T p w : core (sy_tree y) T -> live (sy_tree y) p w -> isLeaf w = true ->
  K (fetch (getLeafValue w)) /\ get fetch y (fetch (getLeafValue w)) = Some (getLeafValue w).
Proof.
  intros Hc Hl Hw. destruct (live_sub K fetch HK _ _ _ _ Hc Hl) as (t & b & c & -> & Hb & E & ->). pose proof (co_alloc _ _ _ _ Hc) as Ha.
  pose proof (core_sound K fetch _ [] _ Hc) as Hso. simpl in Hso. destruct Hso as [S1 S2 [q S3]].
  destruct (sub_wf K fetch p _ _ _ _ _ Hb S3 E) as [Hb' [q' Hq]].
  assert (Hso : sound K fetch (sy_tree y) (regs t) c).
  { split; [intros r Hr; apply S1; eapply sub_incl; eauto|eapply sub_rep; eauto|by exists (q ++ q')]. }
  rewrite (proj1 (proj2 (sound_enc K fetch _ _ Ha _ _ Hso Hb'))) in Hw. destruct c as [k v|]; [|done].
  rewrite (sound_leaf K fetch _ _ _ _ _ Hso Hb').
  assert (Hin : (k, v) ∈ ocontents (Some t)) by (simpl; eapply sub_contents; [done|left]).
  destruct (co_contents K fetch _ _ _ _ Hc Hin) as (HKk & _ & Hf). rewrite Hf. split; [done|].
  apply (get_iff K fetch HK y (Some t)); [done|by apply (uv_bytes _ HK)|by apply (uv_nonempty _ HK)|done].
Qed.

(** The answer to "root". *)
Definition root_shown (y : sys) (a : answer) : Prop :=
  match a with
  | AEmpty => forall k, K k -> get fetch y k = None
  | ADump d => shows (sy_tree y) [] (t_root (sy_tree y)) d /\
    forall l prefix ls, d = DNode l prefix ls -> forall k v, K k -> get fetch y k = Some v -> prefix `prefix_of` k
  | _ => False
  end.

Lemma admin_root n tr y : reachable n tr y -> exists a, admin (sy_tree y) [str "root"] = Ok a /\ root_shown y a.
Proof.
  intros Hr. destruct (rcore K fetch _ _ _ Hr) as (HK & T & Hc).
  assert (Hget : forall k v, K k -> get fetch y k = Some v -> (k, v) ∈ ocontents T).
  { intros k v Hk Hg. eapply (get_iff K fetch HK y T); [done|by apply (uv_bytes _ HK)|by apply (uv_nonempty _ HK)|done]. }
  change (admin (sy_tree y) [str "root"]) with (if t_root (sy_tree y) =? 0 then Ok AEmpty else do d <- debug_print_node (sy_tree y) (t_root (sy_tree y)); Ok (ADump d)).
  destruct (N.eqb_spec (t_root (sy_tree y)) 0) as [E|E].
  - exists AEmpty. split; [done|]. intros k Hk. destruct (get fetch y k) as [v|] eqn:Eg; [|done]. specialize (Hget _ _ Hk Eg).
    destruct T as [t|]; [|by apply elem_of_nil in Hget]. exfalso. pose proof (root_byte_lt K fetch HK _ _ Hc) as Hb. pose proof (core_sound K fetch _ [] _ Hc) as Hso. simpl in Hso.
    apply (proj2 (proj2 (sound_enc K fetch _ _ (co_alloc _ _ _ _ Hc) _ _ Hso Hb))). rewrite <- E. symmetry. exact (co_root _ _ _ _ Hc).
  - destruct (dump_live HK _ _ _ _ Hc (live_root _ E)) as (d & Ed & Hs & Hp). rewrite Ed. cbn [bind]. eexists. split; [done|]. split; [done|].
    intros l prefix ls -> k v Hk Hg. specialize (Hget _ _ Hk Hg). destruct T as [t|]; [|by apply elem_of_nil in Hget].
    destruct (Hp _ _ _ eq_refl) as (full & a & cs & b & Es). simpl in Es. injection Es as _ Es. simpl in Hget. subst t.
    pose proof (co_wf _ _ _ _ Hc) as Hw. simpl in Hw. destruct (in_child K fetch [] _ _ _ _ _ _ Hw Hget) as (b1 & c1 & _ & _ & Hpre).
    simpl in Hpre. etrans; [|exact Hpre]. by exists [b1].
Qed.

Lemma admin_leaves n tr y p w : reachable n tr y -> live (sy_tree y) p w -> isLeaf w = true ->
  K (fetch (getLeafValue w)) /\ get fetch y (fetch (getLeafValue w)) = Some (getLeafValue w).
Proof. intros Hr. destruct (rcore K fetch _ _ _ Hr) as (HK & T & Hc). by eapply live_leaf. Qed.

Lemma admin_rest n tr y c args : reachable n tr y -> c <> str "node" -> exists a, admin (sy_tree y) (c :: args) = Ok a.
Proof.
  intros Hr Hc. destruct (admin_root _ _ _ Hr) as (a & Ha & _). unfold admin.
  destruct (bytes_eqb c (str "info")); [by eexists|]. destruct (bytes_eqb c (str "allocators")); [by eexists|]. destruct (bytes_eqb c (str "blocks")); [by eexists|].
  destruct (bytes_eqb c (str "root")).
  - change (admin (sy_tree y) [str "root"]) with (if t_root (sy_tree y) =? 0 then Ok AEmpty else do d <- debug_print_node (sy_tree y) (t_root (sy_tree y)); Ok (ADump d)) in Ha. by exists a.
  - destruct (bytes_eqb c (str "node")) eqn:E; [|by eexists]. exfalso. apply Hc. by apply bytes_eqb_spec.
Qed.

Lemma admin_node n tr y p w : reachable n tr y -> live (sy_tree y) p w -> w < 2 ^ 63 ->
  exists d, admin (sy_tree y) [str "node"; dec w] = Ok (ADump d) /\ shows (sy_tree y) p w d.
Proof.
  intros Hr Hl Hw. destruct (rcore K fetch _ _ _ Hr) as (HK & T & Hc). destruct (dump_live HK _ _ _ _ Hc Hl) as (d & Ed & Hs & _).
  exists d. split; [|done].
  change (admin (sy_tree y) [str "node"; dec w]) with (do d <- debug_print_node (sy_tree y) (uint64 (atoi (dec w))); Ok (ADump d)).
  rewrite atoi_dec by (change (2 ^ 63) with 9223372036854775808 in Hw; lia).
  unfold uint64. rewrite Z.mod_small by (change (2 ^ 63) with 9223372036854775808 in Hw; lia). rewrite N2Z.id, Ed. done.
Qed.

(** Every node lies in a block that "blocks" and Stats count, and the counted memory is what was handed out. *)
Lemma admin_blocks n tr y p w r : reachable n tr y -> live (sy_tree y) p w -> node_reg (sy_tree y) w r ->
  r.1 / blockSlots + 1 < si_blocks (tree_stats (sy_tree y)) /\ 8 * (r.1 + N.of_nat r.2) <= si_bytes (tree_stats (sy_tree y)) /\
  admin (sy_tree y) [str "blocks"] = Ok (ABlocks (si_blocks (tree_stats (sy_tree y)) - 1)).
Proof.
  intros Hr Hl Hg. destruct (rcore K fetch _ _ _ Hr) as (HK & T & Hc). destruct (core_live K fetch HK _ _ Hc) as (_ & _ & H).
  destruct (H _ _ _ Hl Hg) as ([H0|(H1 & H2 & H3)] & _ & _).
  - exfalso. destruct (live_node K fetch HK _ _ _ _ _ Hc Hl Hg) as (t & b & full & a & pfx & cs & -> & Hb & E & ->). simpl in H0.
    destruct (Live.sub_view K fetch _ _ _ _ _ _ _ _ _ Hc Hb E) as (_ & _ & (q & Hq) & _). pose proof (ncount_bounds K fetch _ _ _ _ _ Hq). unfold nslots in H0. lia.
  - cbn [tree_stats si_blocks si_bytes]. change blockSlots with 262144 in *. change blockSize with 2097152. split_and!; [lia| |].
    + pose proof (N.div_mod' r.1 262144). nia.
    + change (admin (sy_tree y) [str "blocks"]) with (@Ok answer (ABlocks (t_nextFreeBlock (sy_tree y)))). do 2 f_equal. lia.
Qed.
End AdminFacts.
