(** * CountFacts: what Count returns. *)
From Verif Require Export MinMax.

Section Count.
Context (K : list N -> Prop) (fetch : N -> list N) (HK : universe K).
Local Notation core := (core K fetch).
Local Notation wf := (wf K fetch).
Local Notation sound := (sound K fetch).

(** A position of the counter: word and next slot of a node, with the ghost node. *)
Record cpos := CPos { cp_b : N; cp_full : bool; cp_a : N; cp_pfx : list N; cp_cs : list (N * trie); cp_k : nat }.
Definition cp_node (p : cpos) : trie := Node (cp_full p) (cp_a p) (cp_pfx p) (cp_cs p).
Definition cp_word (p : cpos) : N * nat := (enc (cp_b p) (cp_node p), cp_k p).
Definition cp_kids (p : cpos) : list (N * trie) := kids (cp_full p) (cp_cs p) (cp_k p).
Definition cp_ok (s : tree) (L : list (N * nat)) (p : cpos) : Prop :=
  sound s L (cp_node p) /\ cp_b p < 256 /\ (cp_k p <= ncount (cp_full p) (length (cp_cs p)))%nat.

Definition cp_nodes (st : list cpos) : nat := sum_list_with (fun p => nsum (cp_kids p)) st.
Definition cp_leaves (st : list cpos) : nat := sum_list_with (fun p => length (kvals (cp_kids p))) st.
Definition cp_rounds (st : list cpos) : nat := sum_list_with (fun p => S (2 * nsum (cp_kids p))) st.

Lemma cp_rounds_cons p st : cp_rounds (p :: st) = (S (2 * nsum (cp_kids p)) + cp_rounds st)%nat.
Proof. done. Qed.
Lemma cp_nodes_cons p st : cp_nodes (p :: st) = (nsum (cp_kids p) + cp_nodes st)%nat.
Proof. done. Qed.
Lemma cp_leaves_cons p st : cp_leaves (p :: st) = (length (kvals (cp_kids p)) + cp_leaves st)%nat.
Proof. done. Qed.

Definition visits (c : counter) : nat := sum_list_with id (c_nodeSizes c).

Lemma alter_S_sum (l : list nat) i : (i < length l)%nat -> sum_list_with id (alter S i l) = S (sum_list_with id l).
Proof.
  revert i. induction l as [|x l IH]; intros [|i] Hi; simpl in *; [lia|lia|lia|].
  change (list_alter S i l) with (alter S i l). rewrite IH by lia. unfold id. lia.
Qed.

Lemma count_node_visits c count pl len sl : (count <= 256)%nat -> length (c_nodeSizes c) = 257%nat ->
  visits (count_node c count pl len sl) = S (visits c) /\ length (c_nodeSizes (count_node c count pl len sl)) = 257%nat.
Proof.
  intros Hc Hl. unfold count_node. cbv zeta.
  assert (E : forall x, c_nodeSizes (if (0 <? pl)%nat then x else c) = c_nodeSizes (if (0 <? pl)%nat then x else c)) by done.
  split.
  - unfold visits. simpl. destruct (0 <? pl)%nat; simpl; apply alter_S_sum; lia.
  - simpl. rewrite alter_length. by destruct (0 <? pl)%nat.
Qed.

Lemma leaves_nsum ls : Forall (fun c : N * trie => is_leaf c.2 = true) ls -> nsum ls = 0%nat.
Proof. induction 1 as [|[b c] ls Hc _ IH]; [done|]. rewrite nsum_cons, IH. by destruct c. Qed.

Lemma count_loop_ok s L : alloc_inv s L -> forall fuel p st nodes leaves c,
  cp_ok s L p -> Forall (cp_ok s L) st -> length (c_nodeSizes c) = 257%nat ->
  (2 * nsum (cp_kids p) + cp_rounds st < fuel)%nat ->
  exists c', count_loop fuel s (enc (cp_b p) (cp_node p)) (cp_k p) (map cp_word st) nodes leaves c =
    Ok ((nodes + nsum (cp_kids p) + cp_nodes st)%nat, (leaves + length (kvals (cp_kids p)) + cp_leaves st)%nat, c') /\
    (visits c + S (nsum (cp_kids p) + cp_nodes st + length st) <= visits c')%nat.
Proof.
  intros Ha. induction fuel as [|fuel IH]; intros p st nodes leaves c Hp Hst Hlen Hf; [lia|].
  destruct p as [b full a pfx cs k]. destruct Hp as (Hs & Hb & Hk). unfold cp_node, cp_kids in *. cbn [cp_b cp_full cp_a cp_pfx cp_cs cp_k] in *.
  cbn [count_loop]. rewrite (sound_explode K fetch s L Ha _ _ _ _ _ Hs Hb). pose proof (sound_view K fetch s L Ha _ _ _ _ Hs) as Hv.
  rewrite (v_data _ _ _ _ _ Hv). cbn [bind]. rewrite (v_skip _ _ _ _ _ Hv). cbn [bind sl_base].
  rewrite (v_upto _ _ _ _ _ Hv).
  replace (if (k <? ncount full (length cs))%nat then Ok tt else Ok tt) with (@Ok unit tt) by (by destruct (k <? _)%nat). cbn [bind].
  destruct (sound_count K fetch s L _ _ _ _ Hs) as [Hn ->]. fold (nbase a pfx).
  destruct (count_node_visits c (ncount full (length cs)) (plen8 (length pfx)) (length pfx) (prefix_slots (length pfx)) ltac:(lia) Hlen) as [Hvis Hlen'].
  set (c1 := count_node c _ _ _ _) in *.
  destruct (count_children_spec K fetch s L Ha full a pfx cs (ncount full (length cs) - k) Hs k leaves ltac:(lia)) as (ls & o & E & rest & H1 & H2 & H3).
  rewrite E. rewrite H1. rewrite nsum_app, kvals_app, app_length, (leaves_nsum ls H2).
  pose proof (sound_sbytes K fetch s L _ _ _ _ Hs) as Hsb.
  destruct rest as [|[b' t'] r].
  - subst o. change (nsum []) with 0%nat. change (kvals []) with (@nil (list N * N)). simpl length. destruct st as [|q st].
    + cbn [map]. eexists. split; [do 2 f_equal; unfold cp_nodes, cp_leaves; simpl; f_equal; lia|]. unfold cp_nodes. simpl. rewrite Hvis. lia.
    + cbn [map]. inversion Hst as [|?? Hq Hst']; subst. unfold cp_word at 1. unfold cp_node at 1.
      destruct (IH q st nodes (leaves + length (kvals ls))%nat c1 Hq Hst' Hlen') as (c' & E' & Hc').
      { rewrite cp_rounds_cons in Hf. unfold cp_kids in *. lia. }
      exists c'. rewrite E', cp_nodes_cons, cp_leaves_cons. unfold cp_kids in *. split; [do 2 f_equal; f_equal; lia|]. simpl length. lia.
  - destruct H3 as (Hnl & i & -> & Hci & Hki & Hi). pose proof (child_at_elem _ _ _ _ _ Hci) as Hin.
    destruct (sound_child K fetch s L _ _ _ _ _ _ Hs Hin) as [Hsc Hbc]. destruct t' as [|full' a' pfx' cs']; [done|].
    destruct (next_nonzero_spec K fetch s L Ha full a pfx cs (ncount full (length cs) - S i) Hs (S i) ltac:(lia)) as (N1 & N2 & _ & N4).
    set (nx := if full then next_nonzero _ _ _ _ else S i).
    assert (Hnx : kids full cs nx = r /\ (nx <= ncount full (length cs))%nat /\ ((nx <? ncount full (length cs))%nat = match r with [] => false | _ => true end)).
    { unfold nx. destruct full.
      - rewrite N1, N4, Hki. split_and!; [done|lia|done].
      - split_and!; [done|lia|]. unfold kids, ncount in *. destruct (Nat.ltb_spec (S i) (length cs)).
        + destruct r; [|done]. apply (f_equal length) in Hki. rewrite drop_length in Hki. simpl in Hki. lia.
        + rewrite drop_ge in Hki by lia. by subst r. }
    destruct Hnx as (X1 & X2 & X3). rewrite X3.
    set (q := CPos b full a pfx cs nx). set (st1 := match r with [] => st | _ => q :: st end).
    replace (if match r with [] => false | _ :: _ => true end then (enc b (Node full a pfx cs), nx) :: map cp_word st else map cp_word st)
      with (map cp_word st1) by (unfold st1; by destruct r).
    assert (Hst1 : Forall (cp_ok s L) st1) by (unfold st1; destruct r; [done|]; constructor; [split_and!; done|done]).
    assert (Hro : (cp_rounds st1 <= S (2 * nsum r) + cp_rounds st)%nat).
    { unfold st1. destruct r; [lia|]. rewrite cp_rounds_cons. unfold cp_kids. simpl cp_full. simpl cp_cs. simpl cp_k. rewrite X1. lia. }
    assert (Hno : (cp_nodes st1 = nsum r + cp_nodes st)%nat).
    { unfold st1. destruct r; [done|]. rewrite cp_nodes_cons. unfold cp_kids. simpl cp_full. simpl cp_cs. simpl cp_k. by rewrite X1. }
    assert (Hle : (cp_leaves st1 = length (kvals r) + cp_leaves st)%nat).
    { unfold st1. destruct r; [done|]. rewrite cp_leaves_cons. unfold cp_kids. simpl cp_full. simpl cp_cs. simpl cp_k. by rewrite X1. }
    assert (Hls : (length st <= length st1)%nat) by (unfold st1; destruct r; simpl; lia).
    destruct (IH (CPos b' full' a' pfx' cs' 0) st1 (S nodes) (leaves + length (kvals ls))%nat c1) as (c' & E' & Hc'); [|done|done| |].
    { split_and!; [done|done|simpl; lia]. }
    { unfold cp_kids. simpl. rewrite kids_0. rewrite H1, nsum_app, nsum_cons, nnodes_node in Hf. lia. }
    unfold cp_kids in E', Hc'. cbn [cp_b cp_full cp_a cp_pfx cp_cs cp_k cp_node] in E', Hc'. unfold cp_node in E'. cbn [cp_b cp_full cp_a cp_pfx cp_cs cp_k] in E'.
    rewrite kids_0 in E', Hc'. exists c'. rewrite E'. rewrite nsum_cons, nnodes_node, kvals_cons, contents_node, app_length.
    split.
    + f_equal. f_equal. f_equal; [lia|]. unfold kvals in *. lia.
    + lia.
Qed.

Lemma count_loop_mono s fuel : forall raw k st nodes leaves c x fuel', count_loop fuel s raw k st nodes leaves c = Ok x ->
  (fuel <= fuel')%nat -> count_loop fuel' s raw k st nodes leaves c = Ok x.
Proof.
  induction fuel as [|fuel IH]; intros raw k st nodes leaves c x fuel' E Hle; [done|]. destruct fuel' as [|fuel']; [lia|].
  cbn [count_loop] in E |- *. destruct (explodeNode raw) as [[[key node] cnt] pl].
  destruct (node_data s node) as [d|w| |]; try done. cbn [bind] in E |- *.
  destruct (skip_prefix (t_mem s) d pl) as [[[len sl] d1]|w| |]; try done. cbn [bind] in E |- *.
  destruct (if (k <? cnt)%nat then sl_upto d1 cnt else Ok tt) as [u|w| |]; try done. cbn [bind] in E |- *. cbv zeta in E |- *.
  destruct (count_children (t_mem s) (sl_base d1) k (cnt - k) leaves) as [l1 [[i a]|]].
  - eapply IH; [exact E|lia].
  - destruct st as [|[raw' nx'] st]; [done|]. eapply IH; [exact E|lia].
Qed.
End Count.
