(** * Kids: uniform access to the children of both kinds of nodes by slot index. *)
From Verif Require Export Iter Live Order.

Definition slotw (full : bool) (cs : list (N * trie)) (i : nat) : N :=
  match child_at full cs i with Some (b, c) => enc b c | None => 0 end.

(** Children stored at slot index [k] or later. *)
Definition kids (full : bool) (cs : list (N * trie)) (k : nat) : list (N * trie) :=
  if full then filter (fun c => N.of_nat k <= c.1) cs else drop k cs.

Lemma filter_all_true {A} (P : A -> Prop) `{!forall x, Decision (P x)} (l : list A) : (forall x, x ∈ l -> P x) -> filter P l = l.
Proof.
  induction l as [|x l IH]; intros Hl; [done|]. rewrite filter_cons. rewrite decide_True by (apply Hl; left).
  f_equal. apply IH. intros y Hy. apply Hl. by right.
Qed.

Lemma filter_none {A} (P : A -> Prop) `{!forall x, Decision (P x)} (l : list A) : (forall x, x ∈ l -> ~ P x) -> filter P l = [].
Proof.
  induction l as [|x l IH]; intros Hl; [done|]. rewrite filter_cons. rewrite decide_False by (apply Hl; left).
  apply IH. intros y Hy. apply Hl. by right.
Qed.

Lemma sbytes_cons {A} b (x : A) cs : sbytes ((b, x) :: cs) -> b < 256 /\ sbytes cs /\ forall c, c ∈ cs -> b < c.1.
Proof.
  intros [Hs Hb]. simpl in *. apply SSorted_cons in Hs as [Hs Hlt]. inversion Hb; subst. split_and!; [done|done|].
  intros c Hc. apply Hlt. by apply elem_of_list_fmap_1.
Qed.

Lemma kids_full_step cs k : sbytes cs -> kids true cs k =
  match assoc (N.of_nat k) cs with Some c => (N.of_nat k, c) :: kids true cs (S k) | None => kids true cs (S k) end.
Proof.
  unfold kids. induction cs as [|[b x] cs IH]; intros Hs; [done|]. apply sbytes_cons in Hs as (Hb & Hs & Hlt).
  rewrite !filter_cons. cbn [fst assoc]. destruct (N.eqb_spec (N.of_nat k) b) as [<-|Hne].
  - rewrite decide_True by lia. rewrite decide_False by lia. f_equal.
    rewrite (filter_all_true _ cs); [|intros c Hc; specialize (Hlt c Hc); lia].
    symmetry. apply filter_all_true. intros c Hc. specialize (Hlt c Hc). lia.
  - destruct (decide (N.of_nat k <= b)) as [Hle|Hgt].
    + rewrite decide_True by lia. rewrite (proj2 (assoc_None _ cs)).
      * f_equal. rewrite !filter_all_true; [done|..]; intros c Hc; specialize (Hlt c Hc); lia.
      * intros Hin. apply elem_of_list_fmap in Hin as (c & Hc1 & Hc). specialize (Hlt c Hc). lia.
    + rewrite decide_False by lia. by apply IH.
Qed.

Lemma kids_step full cs k : sbytes cs -> kids full cs k =
  match child_at full cs k with Some c => c :: kids full cs (S k) | None => kids full cs (S k) end.
Proof.
  intros Hs. unfold child_at. destruct full.
  - rewrite kids_full_step by done. by destruct (assoc (N.of_nat k) cs).
  - unfold kids. destruct (cs !! k) as [c|] eqn:E; [by apply drop_S|].
    apply lookup_ge_None in E. rewrite !drop_ge by lia. done.
Qed.

Lemma kids_0 full cs : kids full cs 0 = cs.
Proof. unfold kids. destruct full; [|done]. apply filter_all_true. intros c _. lia. Qed.

Lemma kids_end full cs k : sbytes cs -> (ncount full (length cs) <= k)%nat -> kids full cs k = [].
Proof.
  intros [_ Hb] Hk. unfold kids, ncount in *. destruct full.
  - apply filter_none. intros c Hc. rewrite Forall_forall in Hb. specialize (Hb c.1 ltac:(by apply elem_of_list_fmap_1)). lia.
  - by apply drop_ge.
Qed.

Lemma kids_in full cs k c : c ∈ kids full cs k -> c ∈ cs.
Proof.
  unfold kids. destruct full.
  - intros H. by apply elem_of_list_filter in H as [_ H].
  - intros H. rewrite <- (take_drop k cs). apply elem_of_app. by right.
Qed.

(** The frame of the child at a slot. *)
Lemma child_frame full cs i b c : sbytes cs -> child_at full cs i = Some (b, c) ->
  exists l, cs = l ++ (b, c) :: kids full cs (S i) /\ slot_idx full b (length l) = N.of_nat i.
Proof.
  intros Hs. unfold child_at. destruct full.
  - destruct (assoc (N.of_nat i) cs) as [x|] eqn:E; [|done]. intros [= <- <-].
    apply assoc_split in E as (l & r & -> & Hl). exists l. split; [|done]. f_equal. f_equal.
    destruct Hs as [Hs _]. rewrite map_app in Hs. simpl in Hs. apply SSorted_app in Hs as (_ & Hs2 & Hlt).
    apply SSorted_cons in Hs2 as [_ Hlt2]. unfold kids. rewrite filter_app, filter_cons. cbn [fst].
    rewrite decide_False by lia. rewrite filter_none, filter_all_true; [done|..].
    + intros y Hy. specialize (Hlt2 y.1 ltac:(by apply elem_of_list_fmap_1)). lia.
    + intros y Hy. specialize (Hlt y.1 (N.of_nat i) ltac:(by apply elem_of_list_fmap_1) ltac:(left)). lia.
  - intros H. exists (take i cs). unfold kids, slot_idx. split.
    + symmetry. by apply take_drop_middle.
    + apply lookup_lt_Some in H. rewrite take_length. lia.
Qed.

Lemma child_at_frame full l b c r : sbytes (l ++ (b, c) :: r) -> 
  child_at full (l ++ (b, c) :: r) (N.to_nat (slot_idx full b (length l))) = Some (b, c) /\
  kids full (l ++ (b, c) :: r) (S (N.to_nat (slot_idx full b (length l)))) = r /\
  kids full (l ++ (b, c) :: r) (N.to_nat (slot_idx full b (length l))) = (b, c) :: r /\
  (N.to_nat (slot_idx full b (length l)) < ncount full (length (l ++ (b, c) :: r)))%nat.
Proof.
  intros Hs. assert (E : child_at full (l ++ (b, c) :: r) (N.to_nat (slot_idx full b (length l))) = Some (b, c)).
  { unfold child_at, slot_idx. destruct full.
    - rewrite N2Nat.id. rewrite (assoc_elem b c); [done|by apply sbytes_NoDup|]. apply elem_of_app. right. left.
    - rewrite Nat2N.id. by apply list_lookup_middle. }
  assert (E2 : kids full (l ++ (b, c) :: r) (S (N.to_nat (slot_idx full b (length l)))) = r).
  { unfold kids, slot_idx. destruct full.
    - rewrite Nat2N.inj_succ, N2Nat.id. destruct Hs as [Hs _]. rewrite map_app in Hs. simpl in Hs.
      apply SSorted_app in Hs as (_ & Hs2 & Hlt). apply SSorted_cons in Hs2 as [_ Hlt2].
      rewrite filter_app, filter_cons. cbn [fst]. rewrite decide_False by lia. rewrite filter_none, filter_all_true; [done|..].
      + intros y Hy. specialize (Hlt2 y.1 ltac:(by apply elem_of_list_fmap_1)). lia.
      + intros y Hy. specialize (Hlt y.1 b ltac:(by apply elem_of_list_fmap_1) ltac:(left)). lia.
    - rewrite Nat2N.id. rewrite (cons_middle (b, c) l r), app_assoc. apply drop_app_alt. rewrite app_length. simpl. lia. }
  split_and!; [done|done| |].
  - rewrite kids_step by done. by rewrite E, E2.
  - apply sbytes_mid in Hs as (Hb & _). unfold slot_idx, ncount. destruct full; [lia|]. rewrite app_length. simpl. lia.
Qed.

(** ** Reading the slots of a node *)

Section Kids.
Context (K : list N -> Prop) (fetch : N -> list N) (s : tree) (L : list (N * nat)) (Ha : alloc_inv s L).
Local Notation wf := (wf K fetch).

(** A subtree of the tree held by [s]. *)
Record sound (t : trie) : Prop := {
  so_regs : forall r, r ∈ regs t -> r ∈ L;
  so_rep : rep (t_mem s) t;
  so_wf : exists q, wf q t
}.

Lemma sound_child full a pfx cs b c : sound (Node full a pfx cs) -> (b, c) ∈ cs -> sound c /\ b < 256.
Proof.
  intros [H1 H2 [q H3]] Hin. destruct (child_wf _ _ _ _ _ _ _ _ _ H3 Hin) as [Hw Hb]. split; [|done]. split.
  - intros r Hr. apply H1. by eapply child_regs.
  - apply rep_node_iff in H2 as [_ H2]. rewrite Forall_forall in H2. exact (H2 _ Hin).
  - by eexists.
Qed.

Lemma sound_plug C t : sound (plug C t) -> sound t.
Proof.
  revert t. induction C as [|f C IH]; intros t H; [done|]. simpl in H. apply IH in H.
  eapply (sound_child (f_full f) (f_a f) (f_pfx f)); [exact H|]. apply elem_of_app. right. left.
Qed.

Lemma sound_sbytes full a pfx cs : sound (Node full a pfx cs) -> sbytes cs.
Proof. intros [_ _ [q H]]. by apply wf_node_iff in H as (H & _). Qed.

Lemma sound_view full a pfx cs : sound (Node full a pfx cs) -> view s full a pfx cs.
Proof. intros [H1 H2 [q H3]]. by eapply node_view. Qed.

Lemma sound_explode full a pfx cs b : sound (Node full a pfx cs) -> b < 256 ->
  explodeNode (enc b (Node full a pfx cs)) = (b, a, ncount full (length cs), plen8 (length pfx)).
Proof. intros [H1 H2 [q H3]] Hb. by eapply explode_enc. Qed.

Lemma sound_enc t b : sound t -> b < 256 -> to_byte (enc b t) = b /\ isLeaf (enc b t) = is_leaf t /\ enc b t <> 0.
Proof. intros [H1 H2 [q H3]] Hb. by eapply enc_facts. Qed.

Lemma sound_leaf k v b : sound (Leaf k v) -> b < 256 -> getLeafValue (enc b (Leaf k v)) = v.
Proof. intros [_ _ [q H]] Hb. apply leaf_value; [done|]. by inversion H. Qed.

Lemma sound_count full a pfx cs : sound (Node full a pfx cs) ->
  (2 <= ncount full (length cs) <= 256)%nat /\ ((fullAllocFrom <=? ncount full (length cs))%nat = full).
Proof. intros [_ _ [q H]]. by eapply ncount_bounds. Qed.

Definition nbase (a : N) (pfx : list N) : N := a + N.of_nat (prefix_slots (length pfx)).

Lemma slot_read full a pfx cs i : sound (Node full a pfx cs) -> (i < ncount full (length cs))%nat ->
  mget (t_mem s) (nbase a pfx + N.of_nat i) = slotw full cs i.
Proof.
  intros [_ Hrep _] Hi. apply rep_node_iff in Hrep as [[_ Hm] _]. unfold nbase, slotw, child_at, ncount in *. destruct full.
  - rewrite Hm by lia. rewrite assoc_bws. by destruct (assoc (N.of_nat i) cs).
  - rewrite bws_length in Hm. assert (H : mread (t_mem s) (a + N.of_nat (prefix_slots (length pfx))) (length cs) !! i = map snd (bws cs) !! i) by (by rewrite Hm).
    rewrite mread_lookup in H by done. unfold bws in H. rewrite map_map in H. rewrite list_lookup_fmap in H.
    destruct (cs !! i) as [[b c]|] eqn:E; simpl in H; [congruence|]. apply lookup_ge_None in E. lia.
Qed.

Lemma slotw_zero full a pfx cs i : sound (Node full a pfx cs) -> (slotw full cs i =? 0) = (match child_at full cs i with Some _ => false | None => true end).
Proof.
  intros Hs. unfold slotw. destruct (child_at full cs i) as [[b c]|] eqn:E; [|done].
  apply N.eqb_neq. apply child_at_elem in E. destruct (sound_child _ _ _ _ _ _ Hs E) as [Hc Hb]. by apply sound_enc.
Qed.

Lemma next_nonzero_spec full a pfx cs n : sound (Node full a pfx cs) -> forall k, (k + n = ncount full (length cs))%nat ->
  let nx := next_nonzero (t_mem s) (nbase a pfx) k n in
  kids full cs nx = kids full cs k /\ (k <= nx <= ncount full (length cs))%nat /\
  child_at full cs nx = head (kids full cs k) /\
  ((nx <? ncount full (length cs))%nat = match kids full cs k with [] => false | _ => true end).
Proof.
  intros Hs. pose proof (sound_sbytes _ _ _ _ Hs) as Hb. induction n as [|n IH]; intros k Hk; cbn [next_nonzero].
  - assert (Hz : kids full cs k = []) by (apply kids_end; [done|lia]).
    split_and!; [done|lia|lia| |].
    + rewrite Hz. simpl. rewrite kids_step in Hz by done. by destruct (child_at full cs k).
    + rewrite Hz. apply Nat.ltb_ge. lia.
  - rewrite (slot_read full a pfx cs k Hs) by lia. rewrite (slotw_zero _ a pfx) by done.
    destruct (child_at full cs k) as [c|] eqn:E.
    + split_and!; [done|lia|lia|..].
      * rewrite E. rewrite kids_step by done. by rewrite E.
      * rewrite (kids_step _ _ k) by done. rewrite E. apply Nat.ltb_lt. lia.
    + destruct (IH (S k) ltac:(lia)) as (H1 & H2 & H3 & H4). rewrite (kids_step _ _ k) by done. rewrite E. split_and!; [done|lia|lia|done|done].
Qed.

Definition kvals (l : list (N * trie)) : list (list N * N) := l ≫= fun c => contents c.2.

Lemma kvals_cons b c l : kvals ((b, c) :: l) = contents c ++ kvals l.
Proof. done. Qed.
Lemma kvals_app l1 l2 : kvals (l1 ++ l2) = kvals l1 ++ kvals l2.
Proof. apply bind_app. Qed.

(** Leading leaves, then the first child that is a node. *)
Definition split_kids (full : bool) (cs : list (N * trie)) (k : nat) (ls : list (N * trie)) (o : option (nat * N)) : Prop :=
  exists rest, kids full cs k = ls ++ rest /\ Forall (fun c => is_leaf c.2 = true) ls /\
    match rest with
    | [] => o = None
    | (b, c) :: r => is_leaf c = false /\ exists i, o = Some (i, enc b c) /\ child_at full cs i = Some (b, c) /\
        kids full cs (S i) = r /\ (k <= i < ncount full (length cs))%nat
    end.

Lemma split_kids_none full cs k ls o : sbytes cs -> child_at full cs k = None -> split_kids full cs (S k) ls o -> split_kids full cs k ls o.
Proof.
  intros Hs E (rest & H1 & H2 & H3). exists rest. rewrite kids_step by done. rewrite E. split_and!; try done.
  destruct rest as [|[b c] r]; [done|]. destruct H3 as (H3 & i & H4 & H5 & H6 & H7). split; [done|]. exists i. split_and!; try done; lia.
Qed.

Lemma split_kids_leaf full cs k b c ls o : sbytes cs -> child_at full cs k = Some (b, c) -> is_leaf c = true ->
  split_kids full cs (S k) ls o -> split_kids full cs k ((b, c) :: ls) o.
Proof.
  intros Hs E Hl (rest & H1 & H2 & H3). exists rest. rewrite kids_step by done. rewrite E, H1. split_and!; try done.
  - by constructor.
  - destruct rest as [|[b' c'] r]; [done|]. destruct H3 as (H3 & i & H4 & H5 & H6 & H7). split; [done|]. exists i. split_and!; try done; lia.
Qed.

Lemma scan_children_spec full a pfx cs n : sound (Node full a pfx cs) -> forall k pre, (k + n = ncount full (length cs))%nat ->
  exists ls o, scan_children (t_mem s) (nbase a pfx) k n pre = (pre ++ map snd (kvals ls), o) /\ split_kids full cs k ls o.
Proof.
  intros Hs. pose proof (sound_sbytes _ _ _ _ Hs) as Hb. induction n as [|n IH]; intros k pre Hk; cbn [scan_children].
  - exists [], None. rewrite app_nil_r. split; [done|]. exists []. split_and!; [|constructor|done]. apply kids_end; [done|lia].
  - rewrite (slot_read full a pfx cs k Hs) by lia. rewrite (slotw_zero _ a pfx) by done. unfold slotw.
    destruct (child_at full cs k) as [[b c]|] eqn:E.
    + pose proof (child_at_elem _ _ _ _ _ E) as Hin. destruct (sound_child _ _ _ _ _ _ Hs Hin) as [Hc Hbb].
      destruct (sound_enc c b Hc Hbb) as (_ & Hl & _). rewrite Hl. destruct (is_leaf c) eqn:El.
      * destruct c as [kk v|]; [|done]. rewrite (sound_leaf kk v b Hc Hbb).
        destruct (IH (S k) (pre ++ [v]) ltac:(lia)) as (ls & o & E1 & E2). exists ((b, Leaf kk v) :: ls), o.
        rewrite E1, kvals_cons. simpl. rewrite <- app_assoc. split; [done|]. by apply split_kids_leaf.
      * exists [], (Some (k, enc b c)). rewrite app_nil_r. split; [done|]. exists ((b, c) :: kids full cs (S k)).
        rewrite (kids_step _ _ k) by done. rewrite E. split_and!; [done|constructor|done|]. exists k. split_and!; try done; lia.
    + destruct (IH (S k) pre ltac:(lia)) as (ls & o & E1 & E2). exists ls, o. split; [done|]. by apply split_kids_none.
Qed.

Lemma count_children_spec full a pfx cs n : sound (Node full a pfx cs) -> forall k lv, (k + n = ncount full (length cs))%nat ->
  exists ls o, count_children (t_mem s) (nbase a pfx) k n lv = ((lv + length (kvals ls))%nat, o) /\ split_kids full cs k ls o.
Proof.
  intros Hs. pose proof (sound_sbytes _ _ _ _ Hs) as Hb. induction n as [|n IH]; intros k lv Hk; cbn [count_children].
  - exists [], None. rewrite Nat.add_0_r. split; [done|]. exists []. split_and!; [|constructor|done]. apply kids_end; [done|lia].
  - rewrite (slot_read full a pfx cs k Hs) by lia. rewrite (slotw_zero _ a pfx) by done. unfold slotw.
    destruct (child_at full cs k) as [[b c]|] eqn:E.
    + pose proof (child_at_elem _ _ _ _ _ E) as Hin. destruct (sound_child _ _ _ _ _ _ Hs Hin) as [Hc Hbb].
      destruct (sound_enc c b Hc Hbb) as (_ & Hl & _). rewrite Hl. destruct (is_leaf c) eqn:El.
      * destruct c as [kk v|]; [|done].
        destruct (IH (S k) (S lv) ltac:(lia)) as (ls & o & E1 & E2). exists ((b, Leaf kk v) :: ls), o.
        rewrite E1, kvals_cons. simpl. split; [by rewrite Nat.add_succ_r|]. by apply split_kids_leaf.
      * exists [], (Some (k, enc b c)). rewrite Nat.add_0_r. split; [done|]. exists ((b, c) :: kids full cs (S k)).
        rewrite (kids_step _ _ k) by done. rewrite E. split_and!; [done|constructor|done|]. exists k. split_and!; try done; lia.
    + destruct (IH (S k) lv ltac:(lia)) as (ls & o & E1 & E2). exists ls, o. split; [done|]. by apply split_kids_none.
Qed.

Lemma find_up_spec full a pfx cs n : sound (Node full a pfx cs) -> forall k, (k + n = ncount full (length cs))%nat ->
  find_up (t_mem s) (nbase a pfx) k n = match kids full cs k with [] => None | (b, c) :: _ => Some (enc b c) end.
Proof.
  intros Hs. pose proof (sound_sbytes _ _ _ _ Hs) as Hb. induction n as [|n IH]; intros k Hk; cbn [find_up].
  - by rewrite kids_end by (done || lia).
  - rewrite (slot_read full a pfx cs k Hs) by lia. rewrite (slotw_zero _ a pfx) by done. rewrite kids_step by done. unfold slotw.
    destruct (child_at full cs k) as [[b c]|] eqn:E; [done|]. apply IH. lia.
Qed.

Lemma find_down_spec full a pfx cs k : sound (Node full a pfx cs) -> (k < ncount full (length cs))%nat -> kids full cs (S k) = [] ->
  find_down (t_mem s) (nbase a pfx) k = match last cs with None => None | Some (b, c) => Some (enc b c) end.
Proof.
  intros Hs. pose proof (sound_sbytes _ _ _ _ Hs) as Hb. induction k as [|k IH]; intros Hk Hz; cbn [find_down];
    rewrite (slot_read full a pfx cs _ Hs) by lia; rewrite (slotw_zero _ a pfx) by done; unfold slotw.
  - pose proof (kids_step full cs 0 Hb) as H0. rewrite kids_0, Hz in H0. destruct (child_at full cs 0) as [[b c]|]; by rewrite H0.
  - destruct (child_at full cs (S k)) as [[b c]|] eqn:E.
    + destruct (child_frame _ _ _ _ _ Hb E) as (l & El & _). rewrite Hz in El. rewrite El. by rewrite last_snoc.
    + apply IH; [lia|]. rewrite kids_step by done. by rewrite E.
Qed.
End Kids.
