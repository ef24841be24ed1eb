(** * CountStats: the statistics of Count, node by node. *)
From Verif Require Export QueryTop.

(** ** Reading a node *)

(** The number of slots of the node of word [w] and the length of its prefix: the byte of the
    word, or the first word of the node if that byte is 255. *)
Definition node_size (w : N) : nat := let '(_, _, count, _) := explodeNode w in count.
Definition prefix_len (s : tree) (w : N) : nat :=
  let '(_, a, _, pl) := explodeNode w in if (pl =? 255)%nat then N.to_nat (mget (t_mem s) a) else pl.

(** [ks] lists the slots of the node at [p] that hold an inner node and are not the last used
    slot.  Count comes back to the node once after each of them. *)
Definition comes_back (s : tree) (p : list nat) (ks : list nat) : Prop :=
  NoDup ks /\ forall i, i ∈ ks <->
    (exists w, live s (p ++ [i]) w /\ isLeaf w = false) /\ exists j w, (i < j)%nat /\ live s (p ++ [j]) w.

(** An inner node: place, word, and the slots that Count comes back from. *)
Record nstat := NStat { ns_place : list nat; ns_word : N; ns_back : list nat }.
Definition ns_of (s : tree) (e : nstat) : Prop :=
  live s (ns_place e) (ns_word e) /\ isLeaf (ns_word e) = false /\ comes_back s (ns_place e) (ns_back e).

(** The sum of [f] over the nodes, each taken once more for each slot come back from. *)
Definition per_visit (f : N -> nat) (es : list nstat) : nat :=
  sum_list_with (fun e => S (length (ns_back e)) * f (ns_word e))%nat es.

(** ** The same sums in the ghost trie *)

Fixpoint more (ks : list (N * trie)) : nat :=
  match ks with
  | [] => 0
  | c :: r => (if is_leaf c.2 then 0 else match r with [] => 0 | _ => 1 end) + more r
  end.

Section Sum.
Context (f : nat -> nat -> nat).
Definition nf (full : bool) (pfx : list N) (cs : list (N * trie)) : nat := f (ncount full (length cs)) (length pfx).
Fixpoint tsum (t : trie) : nat :=
  match t with
  | Leaf _ _ => 0
  | Node full _ pfx cs => S (more cs) * nf full pfx cs + sum_list_with (fun c => tsum c.2) cs
  end.
Definition ksum (cs : list (N * trie)) : nat := sum_list_with (fun c => tsum c.2) cs.
Lemma tsum_node full a pfx cs : tsum (Node full a pfx cs) = (S (more cs) * nf full pfx cs + ksum cs)%nat.
Proof. done. Qed.
Lemma ksum_cons b c l : ksum ((b, c) :: l) = (tsum c + ksum l)%nat.
Proof. done. Qed.
Lemma ksum_app l1 l2 : ksum (l1 ++ l2) = (ksum l1 + ksum l2)%nat.
Proof. apply sum_list_with_app. Qed.
Lemma ksum_leaves ls : Forall (fun c : N * trie => is_leaf c.2 = true) ls -> ksum ls = 0%nat.
Proof. induction 1 as [|[b c] ls Hc _ IH]; [done|]. rewrite ksum_cons, IH. by destruct c. Qed.
End Sum.

Lemma more_leaves ls rest : Forall (fun c : N * trie => is_leaf c.2 = true) ls -> more (ls ++ rest) = more rest.
Proof. induction 1 as [|c ls Hc _ IH]; [done|]. simpl. by rewrite Hc, IH. Qed.

(** One visit, as counter.go:69-82 computes it from the prefix length. *)
Lemma count_node_eq c n len : count_node c n (plen8 len) len (prefix_slots len) =
  Counter (c_nodesWithPrefix c + if decide (len = 0%nat) then 0 else 1) (alter S n (c_nodeSizes c)) (c_totalPrefixLength c + len)
    (c_totalPrefixBytes c + (8 * ((len + 7) / 8) + if decide (255 <= len)%nat then 8 else 0))
    (c_largePrefixes c + if decide (255 <= len)%nat then 1 else 0).
Proof.
  unfold count_node. destruct (decide (len = 0%nat)) as [->|Hne].
  - change (0 <? plen8 0)%nat with false. cbn iota zeta. change ((0 + 7) / 8)%nat with 0%nat. f_equal; simpl; lia.
  - rewrite (proj2 (Nat.ltb_lt 0 (plen8 len))) by (unfold plen8; lia). cbn iota zeta. cbn [c_nodesWithPrefix c_nodeSizes c_totalPrefixLength c_totalPrefixBytes c_largePrefixes].
    unfold prefix_slots. destruct (decide (255 <= len)%nat) as [Hg|Hg].
    + rewrite (proj2 (Nat.leb_le 255 len)) by done. rewrite (proj2 (Nat.eqb_eq (plen8 len) 255)) by (unfold plen8; lia). f_equal; lia.
    + rewrite (proj2 (Nat.leb_gt 255 len)) by lia. rewrite (proj2 (Nat.eqb_neq (plen8 len) 255)) by (unfold plen8; lia). f_equal; lia.
Qed.

Lemma count_loop_sizes s fuel : forall raw k st nodes leaves c nodes' leaves' c', length (c_nodeSizes c) = 257%nat ->
  count_loop fuel s raw k st nodes leaves c = Ok (nodes', leaves', c') -> length (c_nodeSizes c') = 257%nat.
Proof.
  induction fuel as [|fuel IH]; intros raw k st nodes leaves c nodes' leaves' c' Hl E; [done|].
  cbn [count_loop] in E. destruct (explodeNode raw) as [[[key node] cnt] pl].
  destruct (node_data s node) as [d|w| |]; try done. cbn [bind] in E.
  destruct (skip_prefix (t_mem s) d pl) as [[[len sl] d1]|w| |]; try done. cbn [bind] in E.
  destruct (if (k <? cnt)%nat then sl_upto d1 cnt else Ok tt) as [u|w| |]; try done. cbn [bind] in E. cbv zeta in E.
  assert (Hl' : length (c_nodeSizes (count_node c cnt pl len sl)) = 257%nat).
  { unfold count_node. cbn [c_nodeSizes]. rewrite alter_length. by destruct (0 <? pl)%nat. }
  destruct (count_children (t_mem s) (sl_base d1) k (cnt - k) leaves) as [l1 [[i a]|]].
  - by eapply IH.
  - destruct st as [|[raw' nx'] st]; [by injection E as _ _ <-|]. by eapply IH.
Qed.

Section CountStats.
Context (K : list N -> Prop) (fetch : N -> list N) (HK : universe K).
Local Notation core := (core K fetch).
Local Notation sound := (sound K fetch).

(** ** The loop *)

Section Loop.
Context (f : nat -> nat -> nat) (val : counter -> nat)
  (Hval : forall c n len, (n <= 256)%nat -> length (c_nodeSizes c) = 257%nat ->
    val (count_node c n (plen8 len) len (prefix_slots len)) = (val c + f n len)%nat).

Definition pos_sum (p : cpos) : nat := (S (more (cp_kids p)) * nf f (cp_full p) (cp_pfx p) (cp_cs p) + ksum f (cp_kids p))%nat.

Lemma count_loop_stat s L : alloc_inv s L -> forall fuel p st nodes leaves c,
  cp_ok K fetch s L p -> Forall (cp_ok K fetch s L) st -> length (c_nodeSizes c) = 257%nat ->
  forall nodes' leaves' c', count_loop fuel s (enc (cp_b p) (cp_node p)) (cp_k p) (map cp_word st) nodes leaves c = Ok (nodes', leaves', c') ->
  val c' = (val c + pos_sum p + sum_list_with pos_sum st)%nat.
Proof.
  intros Ha. induction fuel as [|fuel IH]; intros p st nodes leaves c Hp Hst Hlen nodes' leaves' c' E0; [done|].
  destruct p as [b full a pfx cs k]. destruct Hp as (Hs & Hb & Hk). unfold pos_sum at 1. unfold cp_node, cp_kids in *. cbn [cp_b cp_full cp_a cp_pfx cp_cs cp_k] in *.
  cbn [count_loop] in E0. rewrite (sound_explode K fetch s L Ha _ _ _ _ _ Hs Hb) in E0. pose proof (sound_view K fetch s L Ha _ _ _ _ Hs) as Hv.
  rewrite (v_data _ _ _ _ _ Hv) in E0. cbn [bind] in E0. rewrite (v_skip _ _ _ _ _ Hv) in E0. cbn [bind sl_base] in E0.
  rewrite (v_upto _ _ _ _ _ Hv) in E0.
  replace (if (k <? ncount full (length cs))%nat then Ok tt else Ok tt) with (@Ok unit tt) in E0 by (by destruct (k <? _)%nat). cbn [bind] in E0.
  destruct (sound_count K fetch s L _ _ _ _ Hs) as [Hn Hfa]. rewrite Hfa in E0. fold (nbase a pfx) in E0.
  destruct (count_node_visits c (ncount full (length cs)) (plen8 (length pfx)) (length pfx) (prefix_slots (length pfx)) ltac:(lia) Hlen) as [_ Hlen'].
  pose proof (Hval c (ncount full (length cs)) (length pfx) ltac:(lia) Hlen) as Hc1.
  set (c1 := count_node c _ _ _ _) in *. change (f (ncount full (length cs)) (length pfx)) with (nf f full pfx cs) in Hc1. set (v := nf f full pfx cs) in *.
  destruct (count_children_spec K fetch s L Ha full a pfx cs (ncount full (length cs) - k) Hs k leaves ltac:(lia)) as (ls & o & E & rest & H1 & H2 & H3).
  rewrite E in E0. rewrite H1, (more_leaves _ _ H2), ksum_app, (ksum_leaves f _ H2).
  pose proof (sound_sbytes K fetch s L _ _ _ _ Hs) as Hsb.
  destruct rest as [|[b' t'] r].
  - subst o. change (ksum f []) with 0%nat. change (more []) with 0%nat. destruct st as [|q st].
    + cbn [map] in E0. injection E0 as _ _ <-. simpl. lia.
    + cbn [map] in E0. inversion Hst as [|?? Hq Hst']; subst. unfold cp_word at 1 in E0.
      rewrite (IH q st _ _ c1 Hq Hst' Hlen' _ _ _ E0). simpl. lia.
  - destruct H3 as (Hnl & i & -> & Hci & Hki & Hi). pose proof (child_at_elem _ _ _ _ _ Hci) as Hin.
    destruct (sound_child K fetch s L _ _ _ _ _ _ Hs Hin) as [Hsc Hbc]. destruct t' as [|full' a' pfx' cs']; [done|].
    destruct (next_nonzero_spec K fetch s L Ha full a pfx cs (ncount full (length cs) - S i) Hs (S i) ltac:(lia)) as (N1 & N2 & _ & N4).
    set (nx := if full then next_nonzero _ _ _ _ else S i) in E0.
    assert (Hnx : kids full cs nx = r /\ (nx <= ncount full (length cs))%nat /\ ((nx <? ncount full (length cs))%nat = match r with [] => false | _ => true end)).
    { unfold nx. destruct full.
      - rewrite N1, N4, Hki. split_and!; [done|lia|done].
      - split_and!; [done|lia|]. unfold kids, ncount in *. destruct (Nat.ltb_spec (S i) (length cs)).
        + destruct r; [|done]. apply (f_equal length) in Hki. rewrite drop_length in Hki. simpl in Hki. lia.
        + rewrite drop_ge in Hki by lia. by subst r. }
    destruct Hnx as (X1 & X2 & X3). rewrite X3 in E0.
    set (q := CPos b full a pfx cs nx). set (st1 := match r with [] => st | _ => q :: st end).
    replace (if match r with [] => false | _ :: _ => true end then (enc b (Node full a pfx cs), nx) :: map cp_word st else map cp_word st)
      with (map cp_word st1) in E0 by (unfold st1; by destruct r).
    assert (Hst1 : Forall (cp_ok K fetch s L) st1) by (unfold st1; destruct r; [done|]; constructor; [split_and!; done|done]).
    assert (Hsum : (sum_list_with pos_sum st1 = more ((b', Node full' a' pfx' cs') :: r) * v + ksum f r + sum_list_with pos_sum st)%nat).
    { unfold st1. destruct r as [|c0 r0]; [done|]. cbn [sum_list_with]. unfold pos_sum at 1, cp_kids. cbn [cp_full cp_cs cp_k cp_pfx q]. rewrite X1. done. }
    specialize (IH (CPos b' full' a' pfx' cs' 0) st1 (S nodes) (leaves + length (kvals ls))%nat c1 ltac:(split_and!; [done|done|simpl; lia]) Hst1 Hlen' _ _ _ E0).
    rewrite IH, Hsum, Hc1, ksum_cons, tsum_node. unfold pos_sum, cp_kids. cbn [cp_full cp_cs cp_k cp_pfx]. rewrite kids_0. lia.
Qed.
End Loop.

(** ** The places *)

Definition back_in (t : trie) (ks : list nat) : Prop :=
  match t with
  | Leaf _ _ => ks = []
  | Node full _ _ cs => NoDup ks /\ forall i, i ∈ ks <->
      (exists b c, child_at full cs i = Some (b, c) /\ is_leaf c = false) /\ exists j x, (i < j)%nat /\ child_at full cs j = Some x
  end.

Lemma kids_head full cs k : sbytes cs -> kids full cs k <> [] -> exists j x, (k <= j)%nat /\ child_at full cs j = Some x.
Proof.
  intros Hsb. remember (ncount full (length cs) - k)%nat as n eqn:En. revert k En. induction n as [|n IH]; intros k En Hne.
  - rewrite kids_end in Hne by (done || lia). done.
  - rewrite kids_step in Hne by done. destruct (child_at full cs k) as [x|] eqn:E; [by exists k, x|].
    destruct (IH (S k) ltac:(lia) Hne) as (j & x & Hj & Hx). exists j, x. split; [lia|done].
Qed.

Lemma kids_nil full cs k j x : sbytes cs -> (k <= j)%nat -> child_at full cs j = Some x -> kids full cs k <> [].
Proof.
  intros Hsb Hj Hx. remember (j - k)%nat as n eqn:En. revert k Hj En. induction n as [|n IH]; intros k Hj En.
  - assert (k = j) as -> by lia. rewrite kids_step by done. by rewrite Hx.
  - rewrite kids_step by done. destruct (child_at full cs k); [done|]. apply IH; lia.
Qed.

Lemma more_list full cs : sbytes cs -> forall n k, (k + n = ncount full (length cs))%nat ->
  exists ks, NoDup ks /\ length ks = more (kids full cs k) /\ forall i, i ∈ ks <-> (k <= i)%nat /\
    (exists b c, child_at full cs i = Some (b, c) /\ is_leaf c = false) /\ exists j x, (i < j)%nat /\ child_at full cs j = Some x.
Proof.
  intros Hsb. induction n as [|n IH]; intros k Hk.
  - exists []. rewrite kids_end by (done || lia). split_and!; [constructor|done|]. intros i. rewrite elem_of_nil. split; [done|].
    intros (Hi & (b & c & E & _) & _). rewrite child_at_end in E by (done || lia). done.
  - destruct (IH (S k) ltac:(lia)) as (ks & P1 & P2 & P3). rewrite kids_step by done.
    assert (Hskip : (forall b c, child_at full cs k = Some (b, c) -> is_leaf c = false -> kids full cs (S k) = []) ->
      forall i, i ∈ ks <-> (k <= i)%nat /\ (exists b c, child_at full cs i = Some (b, c) /\ is_leaf c = false) /\ exists j x, (i < j)%nat /\ child_at full cs j = Some x).
    { intros Hno i. rewrite P3. split; [intros (? & ?); split; [lia|done]|]. intros (Hi & (b & c & E & Hl) & Hj). split_and!; [|by exists b, c|done].
      destruct (decide (i = k)) as [->|]; [|lia]. exfalso. destruct Hj as (j & x & Hj & Hx). by destruct (kids_nil full cs (S k) j x Hsb Hj Hx); eapply Hno. }
    destruct (child_at full cs k) as [[b c]|] eqn:Ec; cbn [more snd].
    + destruct (is_leaf c) eqn:El.
      * exists ks. split_and!; [done|by rewrite P2|]. apply Hskip. intros ?? [= <- <-]. by rewrite El.
      * destruct (kids full cs (S k)) as [|c1 r] eqn:Er.
        -- exists ks. split_and!; [done|by rewrite P2|]. by apply Hskip.
        -- exists (k :: ks). split_and!.
           ++ constructor; [|done]. intros Hin. apply P3 in Hin. lia.
           ++ simpl length. rewrite P2. done.
           ++ intros i. rewrite elem_of_cons, P3. split.
              ** intros [->|(? & ?)]; [|split; [lia|done]]. split_and!; [lia|by exists b, c|].
                 destruct (kids_head full cs (S k) Hsb) as (j & x & Hj & Hx); [by rewrite Er|]. exists j, x. split; [lia|done].
              ** intros (Hi & H). destruct (decide (i = k)) as [->|]; [by left|right]. split; [lia|done].
    + exists ks. split_and!; [done|done|]. by apply Hskip.
Qed.

(** Entries: place, node with its byte, slots. *)
Notation entry := (list nat * (N * trie) * list nat)%type.
Definition fsum (f : nat -> nat -> nat) (t : trie) : nat := match t with Leaf _ _ => 0 | Node full _ pfx cs => nf f full pfx cs end.
Definition esum (f : nat -> nat -> nat) (es : list entry) : nat := sum_list_with (fun e => S (length e.2) * fsum f e.1.2.2)%nat es.
Definition eplace (e : entry) : list nat := e.1.1.
Definition push (k : nat) (e : entry) : entry := (k :: e.1.1, e.1.2, e.2).

Lemma esum_push f k es : esum f (map (push k) es) = esum f es.
Proof. unfold esum. induction es as [|e es IH]; [done|]. cbn [map sum_list_with]. by rewrite IH. Qed.

Lemma entries_ok s L t : sound s L t -> forall b, exists es : list entry, NoDup (map eplace es) /\ (forall f, esum f es = tsum f t) /\
  (forall e, e ∈ es -> sub b t (eplace e) = Some e.1.2 /\ is_leaf e.1.2.2 = false /\ back_in e.1.2.2 e.2) /\
  forall p, node_at b t p -> p ∈ map eplace es.
Proof.
  induction t as [k v|full a pfx cs IH] using trie_ind2; intros Hs b.
  - exists []. split_and!; [constructor|done|by intros e He%elem_of_nil|]. intros p (b' & c & E & Hc).
    destruct p as [|i p]; [|done]. injection E as <- <-. done.
  - pose proof (sound_sbytes K fetch s L _ _ _ _ Hs) as Hsb.
    assert (Hk : forall n k, (k + n = ncount full (length cs))%nat -> exists es : list entry, NoDup (map eplace es) /\
      (forall f, esum f es = ksum f (kids full cs k)) /\
      (forall e, e ∈ es -> (exists i p, eplace e = i :: p /\ (k <= i)%nat) /\ sub b (Node full a pfx cs) (eplace e) = Some e.1.2 /\ is_leaf e.1.2.2 = false /\ back_in e.1.2.2 e.2) /\
      forall i p, (k <= i)%nat -> node_at b (Node full a pfx cs) (i :: p) -> (i :: p) ∈ map eplace es).
    { induction n as [|n IHn]; intros k Hk.
      - exists []. rewrite kids_end by (done || lia). split_and!; [constructor|done|by intros e He%elem_of_nil|]. 
        intros i p Hi (b' & c & E & _). cbn [sub] in E. rewrite child_at_end in E by (done || lia). done.
      - destruct (IHn (S k) ltac:(lia)) as (es & P1 & P2 & P3 & P4). rewrite kids_step by done.
        destruct (child_at full cs k) as [[bc c]|] eqn:Ec.
        + destruct (child_frame _ _ _ _ _ Hsb Ec) as (l & El & _). assert (Hin : (bc, c) ∈ cs) by (rewrite El; apply elem_of_app; right; left).
          destruct (sound_child K fetch s L _ _ _ _ _ _ Hs Hin) as [Hc _]. rewrite Forall_forall in IH.
          destruct (IH _ Hin Hc bc) as (qs & Q1 & Q2 & Q3 & Q4). cbn [snd] in *.
          assert (Hm : map eplace (map (push k) qs) = map (cons k) (map eplace qs)) by (rewrite !map_map; done).
          exists (map (push k) qs ++ es). split_and!.
          * rewrite map_app, Hm. apply NoDup_app. split_and!; [apply NoDup_fmap_2; [|done]; congruence| |done].
            intros p (p' & -> & _)%elem_of_list_fmap (e & Ee & He)%elem_of_list_fmap. destruct (P3 e He) as ((i & p2 & E2 & Hi) & _).
            rewrite E2 in Ee. injection Ee as <- _. lia.
          * intros f. unfold esum. rewrite sum_list_with_app. fold (esum f (map (push k) qs)) (esum f es). by rewrite esum_push, Q2, P2, ksum_cons.
          * intros e [(e' & -> & He)%elem_of_list_fmap|He]%elem_of_app.
            -- split; [by exists k, (eplace e')|]. destruct (Q3 e' He) as (R1 & R2 & R3). split_and!; [|done|done].
               unfold push, eplace. cbn [fst snd sub]. rewrite Ec. exact R1.
            -- destruct (P3 e He) as ((i & p & E & Hi) & R). split; [|done]. exists i, p. split; [done|lia].
          * intros i p Hi Hp. rewrite map_app, elem_of_app. destruct (decide (i = k)) as [->|Hne].
            -- left. rewrite Hm. apply elem_of_list_fmap. exists p. split; [done|]. apply Q4. destruct Hp as (b' & c' & E & Hl). cbn [sub] in E. rewrite Ec in E. by exists b', c'.
            -- right. apply P4; [lia|done].
        + exists es. split_and!; [done|done| |].
          * intros e He. destruct (P3 e He) as ((i & p & E & Hi) & R). split; [|done]. exists i, p. split; [done|lia].
          * intros i p Hi Hp. apply P4; [|done]. destruct (decide (i = k)) as [->|Hne]; [|lia].
            exfalso. destruct Hp as (b' & c' & E & Hl). cbn [sub] in E. by rewrite Ec in E. }
    destruct (Hk (ncount full (length cs)) O eq_refl) as (es & P1 & P2 & P3 & P4). rewrite kids_0 in P2.
    destruct (more_list full cs Hsb (ncount full (length cs)) O eq_refl) as (ks & M1 & M2 & M3). rewrite kids_0 in M2.
    exists (([], (b, Node full a pfx cs), ks) :: es). split_and!.
    + constructor; [|done]. intros (e & Ee & He)%elem_of_list_fmap. destruct (P3 e He) as ((i & p & E & _) & _). by rewrite E in Ee.
    + intros f. unfold esum. cbn [sum_list_with]. fold (esum f es). rewrite P2, tsum_node. cbn [fst snd fsum]. by rewrite M2.
    + intros e [->|He]%elem_of_cons; [|by apply P3]. split_and!; [done|done|]. cbn [fst snd back_in]. split; [done|]. intros i. rewrite M3. split; [by intros (_ & ?)|]. intros ?. split; [lia|done].
    + intros p Hp. cbn [map]. apply elem_of_cons. destruct p as [|i p]; [by left|]. right. apply P4; [lia|done].
Qed.

(** ** The statistics *)

(** The statistics of a counter are the sums over the visits of the nodes [es]. *)
Definition stats_are (s : tree) (c : counter) (es : list nstat) : Prop :=
  c_nodesWithPrefix c = per_visit (fun w => if decide (prefix_len s w = 0%nat) then 0%nat else 1%nat) es /\
  c_totalPrefixLength c = per_visit (prefix_len s) es /\
  c_totalPrefixBytes c = per_visit (fun w => 8 * ((prefix_len s w + 7) / 8) + if decide (255 <= prefix_len s w)%nat then 8 else 0)%nat es /\
  c_largePrefixes c = per_visit (fun w => if decide (255 <= prefix_len s w)%nat then 1%nat else 0%nat) es /\
  visits c = per_visit (fun _ => 1%nat) es /\ length (c_nodeSizes c) = 257%nat /\
  forall i n, c_nodeSizes c !! i = Some n -> n = per_visit (fun w => if decide (node_size w = i) then 1%nat else 0%nat) es.

Lemma per_visit_empty s c : c = counter0 -> stats_are s c [].
Proof.
  intros ->. split_and!; try done. intros i n. unfold counter0, c_nodeSizes. intros H%lookup_replicate_1. by destruct H as [-> _].
Qed.

Lemma view_plen s L full a pfx cs b : alloc_inv s L -> sound s L (Node full a pfx cs) -> b < 256 ->
  prefix_len s (enc b (Node full a pfx cs)) = length pfx /\ node_size (enc b (Node full a pfx cs)) = ncount full (length cs).
Proof.
  intros Ha Hs Hb. unfold prefix_len, node_size. rewrite (sound_explode K fetch s L Ha _ _ _ _ _ Hs Hb). split; [|done].
  pose proof (v_skip _ _ _ _ _ (sound_view K fetch s L Ha _ _ _ _ Hs)) as Hv. destruct (plen8 (length pfx) =? 255)%nat eqn:E.
  - apply Nat.eqb_eq in E. rewrite E in Hv. unfold skip_prefix in Hv. rewrite Nat.eqb_refl in Hv. unfold sl_get in Hv. cbn [sl_len sl_base] in Hv.
    destruct (N.of_nat 0 <? dlen a); [|done]. cbn [bind] in Hv. destruct (sl_from _ _) as [d| | |]; [|done..]. cbn [bind] in Hv.
    injection Hv as H1 _ _. rewrite <- H1. f_equal. f_equal. lia.
  - apply Nat.eqb_neq in E. unfold plen8 in *. lia.
Qed.

Lemma count_stats y T : core (sy_tree y) T -> exists nodes leaves c es,
  returns (fun n => count n (sy_tree y) []) (nodes, leaves, c) /\ node_places (sy_tree y) (map ns_place es) /\
  Forall (ns_of (sy_tree y)) es /\ stats_are (sy_tree y) c es.
Proof using HK.
  intros Hc. destruct (count_ok K fetch HK y T [] Hc) as (nodes & leaves & c & vs & (n0 & Hret) & _); [constructor|].
  exists nodes, leaves, c. pose proof (Hret n0 ltac:(lia)) as E. unfold count, partial_search in E.
  destruct T as [t|].
  2:{ rewrite (co_root _ _ _ _ Hc) in E. simpl in E. injection E as _ _ <-. exists []. split_and!; [by exists n0| |constructor|by apply per_visit_empty].
      destruct (node_places_ok K fetch HK _ _ Hc) as (ps & P1 & P2). by destruct ps. }
  pose proof (core_sound K fetch _ [] t Hc) as Hso. simpl in Hso.
  pose proof (root_byte_lt K fetch HK _ _ Hc) as Hb. pose proof (co_alloc _ _ _ _ Hc) as Ha. simpl in Ha.
  assert (Hsn : forall p b' c', sub (root_byte t) t p = Some (b', c') -> sound (sy_tree y) (regs t) c' /\ b' < 256).
  { intros p b' c' E'. pose proof (co_rep _ _ _ _ Hc) as Hrep. simpl in Hrep.
    destruct (sub_wf K fetch _ _ _ _ _ _ Hb (co_wf _ _ _ _ Hc) E') as (Hb' & q & Hq).
    split; [|done]. split; [|by eapply sub_rep|by exists q]. intros r Hr. by eapply sub_incl. }
  assert (Hen : forall p b' c', sub (root_byte t) t p = Some (b', c') -> isLeaf (enc b' c') = is_leaf c').
  { intros p b' c' E'. destruct (Hsn _ _ _ E'). by apply (sound_enc K fetch (sy_tree y) (regs t) Ha c' b'). }
  destruct (entries_ok _ _ _ Hso (root_byte t)) as (es & S1 & S2 & S3 & S4).
  set (conv := fun e : entry => NStat (eplace e) (enc e.1.2.1 e.1.2.2) e.2).
  assert (Hpl : map ns_place (map conv es) = map eplace es) by (rewrite map_map; done).
  assert (Hpv : forall f g, (forall p b' full a pfx cs, sub (root_byte t) t p = Some (b', Node full a pfx cs) -> g (enc b' (Node full a pfx cs)) = nf f full pfx cs) ->
    per_visit g (map conv es) = tsum f t).
  { intros f g Hg. rewrite <- S2. unfold per_visit, esum. clear S1 S2 S4 Hpl. induction es as [|e es IHe]; [done|]. cbn [map sum_list_with].
    rewrite IHe by (intros e' He'; apply S3; by right). f_equal. destruct (S3 e ltac:(left)) as (R1 & R2 & _).
    destruct e as [[p [b' c']] ks]. cbn [conv fst snd ns_back ns_word eplace] in *. destruct c' as [|full a pfx cs]; [done|]. cbn [fsum]. by rewrite (Hg _ _ _ _ _ _ R1). }
  exists (map conv es). split_and!.
  - by exists n0.
  - rewrite Hpl. split; [done|]. intros p. split.
    + intros (e & -> & He)%elem_of_list_fmap. destruct (S3 e He) as (R1 & R2 & _). destruct e as [[p [b' c']] ks]. cbn [fst snd eplace] in *.
      exists (enc b' c'). split; [by eapply sub_live|]. by rewrite (Hen _ _ _ R1).
    + intros (w & Hl & Hw). destruct (live_sub K fetch HK _ _ _ _ Hc Hl) as (t' & b' & c' & [= <-] & _ & E' & ->).
      apply S4. exists b', c'. split; [done|]. by rewrite <- (Hen _ _ _ E').
  - apply list.Forall_forall. intros e' (e & -> & He)%elem_of_list_fmap. destruct (S3 e He) as (R1 & R2 & R3). destruct e as [[p [b' c']] ks].
    unfold conv. cbn [fst snd eplace] in *. split_and!; cbn [ns_word ns_place ns_back]; [by eapply sub_live| by rewrite (Hen _ _ _ R1)|]. cbn [ns_place ns_back].
    destruct c' as [|full a pfx cs]; [done|]. destruct R3 as [N1 N2]. split; [done|]. intros i. rewrite N2.
    assert (Hch : forall j x, child_at full cs j = Some x -> sub (root_byte t) t (p ++ [j]) = Some x) by (intros j x Hx; by rewrite sub_snoc, R1, Hx).
    assert (Hch' : forall j x, sub (root_byte t) t (p ++ [j]) = Some x -> child_at full cs j = Some x) by (intros j x; by rewrite sub_snoc, R1).
    split.
    + intros ((b1 & c1 & E1 & L1) & j & [b2 c2] & Hj & E2). apply Hch in E1, E2. split.
      * exists (enc b1 c1). split; [by eapply sub_live|by rewrite (Hen _ _ _ E1)].
      * exists j, (enc b2 c2). split; [done|by eapply sub_live].
    + intros ((w & Hl & Hw) & j & w2 & Hj & Hl2).
      destruct (live_sub K fetch HK _ _ _ _ Hc Hl) as (t' & b1 & c1 & [= <-] & _ & E1 & ->).
      destruct (live_sub K fetch HK _ _ _ _ Hc Hl2) as (t' & b2 & c2 & [= <-] & _ & E2 & ->). split.
      * exists b1, c1. split; [by apply Hch'|]. by rewrite <- (Hen _ _ _ E1).
      * exists j, (b2, c2). split; [done|by apply Hch'].
  - assert (Hnd : forall p b' full a pfx cs, sub (root_byte t) t p = Some (b', Node full a pfx cs) ->
      prefix_len (sy_tree y) (enc b' (Node full a pfx cs)) = length pfx /\ node_size (enc b' (Node full a pfx cs)) = ncount full (length cs)).
    { intros p b' full a pfx cs E'. destruct (Hsn _ _ _ E') as [X1 X2]. by eapply view_plen. }
    assert (Er : t_root (sy_tree y) = enc (root_byte t) t) by exact (co_root _ _ _ _ Hc). rewrite Er in E. cbn [bind] in E. destruct (sound_enc K fetch _ _ Ha _ _ Hso Hb) as (_ & H2 & H3).
    rewrite (proj2 (N.eqb_neq _ _)) in E by done. rewrite H2 in E. destruct t as [k v|full a pfx cs].
    { cbn [is_leaf] in E. injection E as _ _ <-. assert (es = []) as -> by (destruct es as [|e es]; [done|]; destruct (S3 e ltac:(left)) as (R1 & R2 & _); destruct e as [[[|] [b' c']] ks]; cbn [fst snd eplace sub] in *; [by injection R1 as <- <-|done]).
      by apply per_visit_empty. }
    cbn [is_leaf] in E. set (t := Node full a pfx cs) in *. set (bb := root_byte t) in *.
    assert (Hst : forall f val, val counter0 = 0%nat -> (forall c n len, (n <= 256)%nat -> length (c_nodeSizes c) = 257%nat ->
      val (count_node c n (plen8 len) len (prefix_slots len)) = (val c + f n len)%nat) -> val c = tsum f t).
    { intros f val Hz Hval. rewrite (count_loop_stat f val Hval _ _ Ha n0 (CPos bb full a pfx cs 0) [] 1 0 counter0 ltac:(split_and!; [done|done|simpl; lia]) ltac:(constructor) eq_refl _ _ _ E).
      rewrite Hz. unfold pos_sum, cp_kids. cbn [cp_full cp_cs cp_k cp_pfx sum_list_with]. rewrite kids_0. unfold t. rewrite tsum_node. lia. }
    split_and!.
    + rewrite (Hpv (fun _ len => if decide (len = 0%nat) then 0%nat else 1%nat)); [|intros ?????? E'; destruct (Hnd _ _ _ _ _ _ E') as [-> _]; done].
      apply Hst; [done|]. intros c1 n len _ _. rewrite count_node_eq. cbn [c_nodesWithPrefix]. destruct (decide _); lia.
    + rewrite (Hpv (fun _ len => len)); [|intros ?????? E'; destruct (Hnd _ _ _ _ _ _ E') as [-> _]; done].
      apply Hst; [done|]. intros c1 n len _ _. by rewrite count_node_eq.
    + rewrite (Hpv (fun _ len => 8 * ((len + 7) / 8) + if decide (255 <= len)%nat then 8 else 0)%nat); [|intros ?????? E'; destruct (Hnd _ _ _ _ _ _ E') as [-> _]; done].
      apply Hst; [done|]. intros c1 n len _ _. by rewrite count_node_eq.
    + rewrite (Hpv (fun _ len => if decide (255 <= len)%nat then 1 else 0)%nat); [|intros ?????? E'; destruct (Hnd _ _ _ _ _ _ E') as [-> _]; done].
      apply Hst; [done|]. intros c1 n len _ _. by rewrite count_node_eq.
    + rewrite (Hpv (fun _ _ => 1%nat)) by done. apply Hst; [done|]. intros c1 n len Hn Hl.
      rewrite (proj1 (count_node_visits c1 n (plen8 len) len (prefix_slots len) Hn Hl)). lia.
    + by eapply (count_loop_sizes (sy_tree y)); [|exact E].
    + intros i n Hi. rewrite (Hpv (fun m _ => if decide (m = i) then 1 else 0)%nat); [|intros ?????? E'; destruct (Hnd _ _ _ _ _ _ E') as [_ ->]; done].
      rewrite <- (Hst (fun m _ => if decide (m = i) then 1 else 0)%nat (fun c => default 0%nat (c_nodeSizes c !! i))).
      * by rewrite Hi.
      * unfold counter0. cbn [c_nodeSizes]. destruct (replicate 257 0%nat !! i) as [x|] eqn:Ex; [|done]. by apply lookup_replicate_1 in Ex as [-> _].
      * intros c1 m len Hm Hl. rewrite count_node_eq. cbn [c_nodeSizes]. destruct (decide (m = i)) as [->|Hne].
        -- rewrite list_lookup_alter. destruct (lookup_lt_is_Some_2 (c_nodeSizes c1) i) as [x Hx]; [lia|]. rewrite Hx. simpl. lia.
        -- rewrite list_lookup_alter_ne by done. lia.
Qed.
End CountStats.

Lemma c88_count K fetch n tr y : reachable K fetch n tr y -> exists nodes leaves c es,
  returns (fun n => count n (sy_tree y) []) (nodes, leaves, c) /\ node_places (sy_tree y) (map ns_place es) /\
  Forall (ns_of (sy_tree y)) es /\ stats_are (sy_tree y) c es.
Proof. intros Hr. destruct (rcore _ _ _ _ _ Hr) as (HK & T & Hc). by eapply count_stats. Qed.
