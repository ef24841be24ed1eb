(** * PrepFacts: what Lookup and PrepareUpdate return and lock. *)
From Verif Require Export Delete Core.

Section Prep.
Context (K : list N -> Prop) (fetch : N -> list N) (HK : universe K).
Local Notation core := (core K fetch).
Local Notation wf := (wf K fetch).

Lemma sub_facts s C t : core s (Some (plug C t)) ->
  wf (path_of C) t /\ rep (t_mem s) t /\ (forall r, r ∈ regs t -> r ∈ regs (plug C t)).
Proof.
  intros [H1 H2 H3 H4 H5]. simpl in *. split_and!.
  - exact (wf_plug_path _ _ [] _ _ H3).
  - by apply rep_plug in H2 as [_ ?].
  - intros r Hr. rewrite regs_plug. apply elem_of_app. by left.
Qed.

Lemma sub_view s C full a pfx cs : core s (Some (plug C (Node full a pfx cs))) -> view s full a pfx cs.
Proof.
  intros Hc. destruct (sub_facts _ _ _ Hc) as (Hw & Hr & Hs).
  eapply node_view; [apply Hc|done..].
Qed.

Lemma sub_region s C full a pfx cs : core s (Some (plug C (Node full a pfx cs))) ->
  0 < a /\ a < 2 ^ 39 /\ N.of_nat (nslots full pfx (length cs)) <= dlen a /\
  block_of a < t_nextFreeBlock s /\ t_nextFreeBlock s < maxBlockCount.
Proof.
  intros Hc. destruct (sub_facts _ _ _ Hc) as (Hw & Hr & Hs).
  eapply node_region; [apply Hc|done..].
Qed.

Lemma par_gen s C t : core s (Some (plug C t)) -> par_of C <> 0 ->
  generation s (par_of C) = Ok (lget (t_locks s) (lock_id (par_of C))).
Proof.
  intros Hc Hp. destruct C as [|f C]; [done|]. simpl in *.
  unfold fill in Hc. apply sub_region in Hc as (_ & _ & _ & H1 & H2). by apply generation_eq.
Qed.

Lemma ptr_word s C t : core s (Some (plug C t)) -> pget s (ptr_of C) = hole_word C t.
Proof.
  intros [H1 H2 H3 H4 H5]. simpl in *. destruct C as [|f C]; [done|].
  simpl. apply (wf_plug_ctx_ok _ _ []) in H3. apply rep_plug in H2 as [H2 _].
  exact (repC_ptr _ _ _ _ H3 H2 eq_refl).
Qed.

Lemma par_nonzero s f C t : core s (Some (plug (f :: C) t)) -> f_a f <> 0.
Proof. intros Hc. simpl in Hc. unfold fill in Hc. apply sub_region in Hc as (? & _). lia. Qed.

Lemma hole_byte_lt s C t : core s (Some (plug C t)) -> is_leaf t = false -> hole_byte C t < 256.
Proof.
  intros Hc Hl. destruct C as [|f C]; [destruct t; [done|]; simpl; lia|]. simpl.
  destruct (sub_facts s C (fill f t) Hc) as (Hw & _). apply wf_node_iff in Hw as (Hs & _).
  by apply sbytes_mid in Hs as (? & _).
Qed.

Lemma hole_byte_last C full a pfx cs : hole_byte C (Node full a pfx cs) = default 0 (last (path_of C)).
Proof. destruct C as [|f C]; [done|]. simpl. by rewrite app_assoc, last_snoc. Qed.

Lemma hole_explode s C full a pfx cs : core s (Some (plug C (Node full a pfx cs))) ->
  explodeNode (hole_word C (Node full a pfx cs)) =
  (hole_byte C (Node full a pfx cs), a, ncount full (length cs), plen8 (length pfx)).
Proof.
  intros Hc. destruct (sub_facts _ _ _ Hc) as (Hw & Hr & Hs).
  eapply explode_enc; [apply Hc|done|done|]. by eapply hole_byte_lt.
Qed.

Lemma hole_enc s C t : core s (Some (plug C t)) -> is_leaf t = false ->
  to_byte (hole_word C t) = hole_byte C t /\ isLeaf (hole_word C t) = false /\ hole_word C t <> 0.
Proof.
  intros Hc Hl. destruct (sub_facts _ _ _ Hc) as (Hw & Hr & Hs).
  rewrite <- Hl. eapply enc_facts; [apply Hc|done|done|]. by eapply hole_byte_lt.
Qed.

(** Root words. *)
Lemma root_word_leaf s k v : core s (Some (Leaf k v)) ->
  t_root s <> 0 /\ isLeaf (t_root s) = true /\ getLeafValue (t_root s) = v /\
  K k /\ fetch v = k /\ v < vlim /\ exists b k', k = b :: k' /\ b < 256 /\ t_root s = buildLeaf b v /\ to_byte (t_root s) = b.
Proof.
  intros [H1 _ H3 _ _]. simpl in *. inversion H3 as [? ? ? _ Hk Hv Hf|]; subst.
  rewrite H1. unfold hole_word. simpl.
  pose proof (uv_nonempty K HK _ Hk) as Hne. pose proof (uv_bytes K HK _ Hk) as Hb.
  destruct (fetch v) as [|b k'] eqn:E; [done|]. inversion Hb; subst. simpl.
  split_and!; try done.
  - by apply buildLeaf_nonzero.
  - by apply buildLeaf_isLeaf.
  - rewrite buildLeaf_value by done. by apply N.mod_small.
  - exists b, k'. split_and!; try done. by apply buildLeaf_byte.
Qed.

(** ** Lookup *)

Lemma explode_zero : explodeNode 0 = (0, 0, 1%nat, 0%nat).
Proof. vm_compute. done. Qed.
Lemma isLeaf_zero : isLeaf 0 = false.
Proof. vm_compute. done. Qed.

Lemma search_empty s key : t_nextFreeBlock s < maxBlockCount -> mget (t_mem s) 0 = 0 ->
  forall fuel depth, (depth <= length key < fuel + depth)%nat -> search_loop fuel s key 0 1 0 depth = Ok (0, false).
Proof.
  intros Hnb H0. induction fuel as [|fuel IH]; intros depth Hf; [simpl in Hf; lia|]. simpl.
  assert (E : node_data s 0 = Ok (Slice 0 262144)).
  { unfold node_data. change (block_of 0) with 0. destruct (maxBlockCount <=? 0) eqn:E; [by vm_compute in E|].
    destruct (N.max 1 (t_nextFreeBlock s) <=? 0) eqn:E2; [apply N.leb_le in E2; lia|]. f_equal. }
  rewrite E. cbn [bind]. rewrite Nat.add_0_r. destruct (Nat.leb_spec (length key) depth); [done|].
  destruct (lookup_lt_is_Some_2 key depth ltac:(lia)) as [k Ek]. rewrite (key_at_Some _ _ _ Ek). cbn [bind].
  change (fullAllocFrom <=? 1)%nat with false. cbn iota.
  change (sl_upto (Slice 0 262144) 1) with (@Ok unit tt). cbn [bind sl_base scan].
  change (0 + N.of_nat 0) with 0. rewrite H0.
  change (to_byte 0) with 0. destruct (N.leb_spec k 0); cbn [fst snd].
  - assert (k = 0) as -> by lia. change (to_byte 0) with 0. rewrite N.eqb_refl, isLeaf_zero, explode_zero.
    apply IH. lia.
  - change (to_byte 0) with 0. rewrite (proj2 (N.eqb_neq 0 k)) by lia. done.
Qed.

Lemma search_ok s T key : core s T -> bytes key -> key <> [] ->
  exists v f, search s key = Ok (v, f) /\
    (if f then exists k, (k, v) ∈ ocontents T else v = 0) /\
    (forall w, (key, w) ∈ ocontents T -> f = true /\ v = w).
Proof.
  intros Hc Hb Hne. unfold search. destruct T as [[k v|full a pfx cs]|].
  - destruct (root_word_leaf _ _ _ Hc) as (_ & -> & Hv & Hk & Hf & _ & b & k' & -> & Hb' & _ & Hby).
    destruct key as [|c key]; [done|]. change (key_at (c :: key) 0) with (@Ok N c). cbn [bind].
    rewrite Hby. simpl. destruct (N.eqb_spec b c) as [->|].
    + exists v, true. rewrite Hv. split; [done|]. split; [exists (c :: k'); left|].
      intros w Hin. apply elem_of_list_singleton in Hin. by simplify_eq.
    + exists 0, false. split; [done|]. split; [done|].
      intros w Hin. apply elem_of_list_singleton in Hin. by simplify_eq.
  - pose proof (hole_enc s [] (Node full a pfx cs) Hc eq_refl) as (_ & Hl & _).
    pose proof (hole_explode s [] full a pfx cs Hc) as Hx.
    rewrite (co_root _ _ _ _ Hc). change (enc_root (Some (Node full a pfx cs))) with (hole_word [] (Node full a pfx cs)). rewrite Hl, Hx.
    destruct (sub_facts s [] _ Hc) as (Hw & Hr & Hs).
    destruct (search_loop_ok K fetch s _ key (Node full a pfx cs) (co_alloc _ _ _ _ Hc) Hb [])
      with (full := full) (a := a) (pfx := pfx) (cs := cs) (fuel := S (length key)) (depth := 0%nat) as (v & f & E & Hf & Hu);
      [done..|lia|].
    exists v, f. split; [done|]. split; [done|]. intros w Hin. by apply Hu.
  - rewrite (co_root _ _ _ _ Hc). simpl enc_root. rewrite isLeaf_zero, explode_zero.
    rewrite search_empty; [|apply (ai_nb _ _ (co_alloc _ _ _ _ Hc))|apply (co_zero _ _ _ _ Hc); by left|lia].
    exists 0, false. split; [done|]. split; [done|]. by intros ? ?%elem_of_nil.
Qed.

(** ** Comparing a node prefix with the key *)

Lemma prefix_cmp_spec key depth buf i :
  match prefix_cmp key depth buf i with
  | PExhausted => drop (depth + i) key `prefix_of` buf
  | PMatch => buf `prefix_of` drop (depth + i) key
  | PMismatch j => exists n b c, j = (i + n)%nat /\ buf !! n = Some b /\ drop (depth + i) key !! n = Some c /\
      b <> c /\ take n buf = take n (drop (depth + i) key)
  end.
Proof.
  revert i. induction buf as [|b buf IH]; intros i; simpl; [apply prefix_nil|].
  destruct (key !! (depth + i)%nat) as [c|] eqn:E.
  - rewrite (drop_S _ _ _ E). destruct (N.eqb_spec c b) as [->|Hne].
    + specialize (IH (S i)). rewrite Nat.add_succ_r in IH. destruct (prefix_cmp key depth buf (S i)).
      * by apply prefix_cons.
      * destruct IH as (n & b' & c' & -> & H1 & H2 & H3 & H4). exists (S n), b', c'. split_and!; try done; try lia; simpl; by rewrite H4.
      * by apply prefix_cons.
    + exists 0%nat, b, c. split_and!; try done; try lia; congruence.
  - apply lookup_ge_None in E. rewrite drop_ge by done. apply prefix_nil.
Qed.

(** The key is not exhausted by a stored path. *)
Lemma not_exhausted key p pfx : K key -> (exists (k : list N) b, K k /\ (p ++ pfx ++ [b]) `prefix_of` k) ->
  p `prefix_of` key -> ~ drop (length p) key `prefix_of` pfx.
Proof.
  intros Hk (k & b & Hk' & Hp) [q ->]. rewrite drop_app. intros [q' ->].
  assert (E : p ++ q = k).
  { apply (uv_free K HK); [done..|]. etrans; [|done]. rewrite <- app_assoc, app_assoc. by apply prefix_app_r. }
  subst k. apply prefix_length in Hp. rewrite !app_length in Hp. simpl in Hp. lia.
Qed.

Lemma next_byte key p pfx : K key -> (exists (k : list N) b, K k /\ (p ++ pfx ++ [b]) `prefix_of` k) ->
  p `prefix_of` key -> pfx `prefix_of` drop (length p) key ->
  exists b, (p ++ pfx ++ [b]) `prefix_of` key /\ key !! (length p + length pfx)%nat = Some b /\ b < 256.
Proof.
  intros Hk Hex Hp Hpf. destruct Hp as [q ->]. rewrite drop_app in Hpf. destruct Hpf as [q' ->].
  destruct q' as [|b q'].
  { exfalso. apply (not_exhausted _ _ _ Hk Hex); [by eexists|]. rewrite drop_app, app_nil_r. done. }
  exists b. assert (Hp : (p ++ pfx ++ [b]) `prefix_of` (p ++ pfx ++ b :: q')).
  { exists q'. by rewrite <- !app_assoc. }
  split; [done|]. pose proof (prefix_next _ _ _ _ Hp) as E. split; [done|].
  pose proof (uv_bytes K HK _ Hk) as Hb. eapply Forall_lookup_1 in Hb; [|done]. done.
Qed.

(** ** Valid update operations *)

Record ubase (key : list N) (op : uop) (o : occ_t) : Prop := {
  ub_key : u_key op = key;
  ub_K : K key;
  ub_node : u_node op = o_addr o;
  ub_parent : u_parent op = o_par o;
  ub_ptr : u_nodePtr op = o_ptr o;
  ub_data : u_data op = Slice (o_addr o) (dlen (o_addr o));
  ub_prefix : u_prefix op = o_pfx o;
  ub_pslots : u_prefixSlots op = prefix_slots (length (o_pfx o));
  ub_count : u_count op = ncount (o_full o) (length (o_hs o));
  ub_path : o_path o `prefix_of` key;
  ub_raw : to_byte (u_raw op) = default 0 (last (o_path o))
}.

(** [dirty]: some delete was finalized since this operation was prepared. *)
Definition ukind_ok (dirty : bool) (key : list N) (op : uop) (o : occ_t) : Prop :=
  let at_leaf := u_depth op = (length (o_path o) + length (o_pfx o))%nat /\
                 (o_path o ++ o_pfx o ++ [u_k op]) `prefix_of` key /\ u_k op < 256 in
  match u_kind op with
  | nodePrefixMiss =>
    u_depth op = length (o_path o) /\
    exists b c, o_pfx o !! u_mismatch op = Some b /\ key !! (length (o_path o) + u_mismatch op)%nat = Some c /\ b <> c /\
      (o_path o ++ take (u_mismatch op) (o_pfx o) ++ [c]) `prefix_of` key
  | nodeLeafInsert256 =>
    at_leaf /\ o_full o = true /\ u_k op ∉ map fst (o_hs o) /\
    u_leafPtr op = PSlot (slot_of true (o_addr o) (o_pfx o) (u_k op) 0)
  | nodeLeafUpdate256 =>
    at_leaf /\ o_full o = true /\ u_currentLeaf op = buildLeaf (u_k op) (u_value op) /\ u_value op < vlim /\
    u_leafPtr op = PSlot (slot_of true (o_addr o) (o_pfx o) (u_k op) 0) /\
    K (fetch (u_value op)) /\ (o_path o ++ o_pfx o ++ [u_k op]) `prefix_of` fetch (u_value op) /\
    (dirty = false -> (u_k op, HLeaf (fetch (u_value op)) (u_value op)) ∈ o_hs o) /\
    (forall hd, (u_k op, hd) ∈ o_hs o -> hd = HLeaf (fetch (u_value op)) (u_value op))
  | nodeLeafInsert =>
    at_leaf /\ o_full o = false /\ exists hl hr, o_hs o = hl ++ hr /\ u_position op = length hl /\
      (forall b, b ∈ map fst hl -> b < u_k op) /\ (forall b, b ∈ map fst hr -> u_k op < b)
  | nodeLeafUpdate =>
    at_leaf /\ o_full o = false /\ u_currentLeaf op = buildLeaf (u_k op) (u_value op) /\ u_value op < vlim /\
    exists hl hr, o_hs o = hl ++ (u_k op, HLeaf (fetch (u_value op)) (u_value op)) :: hr /\
      u_leafPtr op = PSlot (slot_of false (o_addr o) (o_pfx o) (u_k op) (length hl))
  | _ => False
  end.

Definition uvalid (dirty : bool) (key : list N) (op : uop) (o : occ_t) : Prop :=
  ubase key op o /\ ukind_ok dirty key op o.

(** What the caller may conclude from [found]. *)
Definition found_ok (T : option trie) (key : list N) (found : bool) (v : N) : Prop :=
  (if found then exists k q, (k, v) ∈ ocontents T /\ q <> [] /\ q `prefix_of` k /\ q `prefix_of` key else v = 0) /\
  (forall w, (key, w) ∈ ocontents T -> found = true /\ v = w).

Definition is_found (k : ukind) : bool :=
  match k with rootLeafUpdate | nodeLeafUpdate | nodeLeafUpdate256 => true | _ => false end.

Lemma contents_under p C t k v : wf p (plug C t) -> (p ++ path_of C) `prefix_of` k -> (k, v) ∈ contents (plug C t) ->
  (k, v) ∈ contents t.
Proof.
  intros Hw Hp Hin. rewrite contents_plug in Hin. apply elem_of_app in Hin as [Hin|[Hin|Hin]%elem_of_app]; [|done|].
  - exfalso. eapply wf_outside; [done| |done]. apply elem_of_app. by left.
  - exfalso. eapply wf_outside; [done| |done]. apply elem_of_app. by right.
Qed.

Lemma child_contents p full a pfx cs k w b : wf p (Node full a pfx cs) ->
  (p ++ pfx ++ [b]) `prefix_of` k -> (k, w) ∈ contents (Node full a pfx cs) ->
  exists c, (b, c) ∈ cs /\ (k, w) ∈ contents c.
Proof.
  intros Hw Hp Hin. rewrite contents_node in Hin. apply elem_of_list_bind in Hin as ([b' c] & Hin & Hc).
  destruct (child_wf _ _ _ _ _ _ _ _ _ Hw Hc) as [Hw' _].
  destruct (wf_contents K fetch _ _ _ _ Hw' Hin) as (Hp' & _).
  apply prefix_next in Hp, Hp'. assert (b' = b) by congruence. subst. by exists c.
Qed.

(** ** PrepareUpdate *)

Lemma with_lock_ok {A} s held node ng parent pg (k : tree -> res A) :
  locks_inv (t_locks s) held -> lget (t_locks s) (lock_id node) = ng ->
  (parent <> 0 -> lget (t_locks s) (lock_id parent) = pg) ->
  (with_lock s node ng parent pg k = Retry /\ exists i, i ∈ lids2 node parent /\ i ∈ held) \/
  (exists l', with_lock s node ng parent pg k = k (set_locks s l') /\ locks_inv l' (lids2 node parent ++ held)).
Proof.
  intros Hl Hn Hp. unfold with_lock. pose proof (lock_nodes2_ok _ _ _ _ _ _ Hl Hn Hp) as H.
  destruct (lock_nodes2 _ _ _ _ _) as [l'|]; [right; by exists l'|by left].
Qed.

Lemma slot_full a pfx k i : a + N.of_nat (prefix_slots (length pfx)) + k = slot_of true a pfx k i.
Proof. done. Qed.
Lemma slot_small a pfx k i : a + N.of_nat (prefix_slots (length pfx)) + N.of_nat i = slot_of false a pfx k i.
Proof. done. Qed.

Lemma wf_under C t : wf [] (plug C t) -> wf (path_of C) t.
Proof. apply (wf_plug_path K fetch []). Qed.

Lemma not_stored C full a pfx cs key b w : wf [] (plug C (Node full a pfx cs)) ->
  (path_of C ++ pfx ++ [b]) `prefix_of` key -> b ∉ map fst cs -> (key, w) ∉ contents (plug C (Node full a pfx cs)).
Proof.
  intros Hw Hp Hb Hin. eapply (contents_under []) in Hin; [|done|].
  - eapply child_contents in Hin; [|by apply wf_under|done]. destruct Hin as (c & Hc & _).
    apply Hb. apply elem_of_list_fmap. by exists (b, c).
  - etrans; [|done]. apply prefix_app_r. done.
Qed.

Lemma found_leaf C full a pfx l b k v r key : wf [] (plug C (Node full a pfx (l ++ (b, Leaf k v) :: r))) ->
  (path_of C ++ pfx ++ [b]) `prefix_of` key ->
  found_ok (Some (plug C (Node full a pfx (l ++ (b, Leaf k v) :: r)))) key true v.
Proof.
  intros Hw Hp. assert (Hin : (b, Leaf k v) ∈ l ++ (b, Leaf k v) :: r) by (apply elem_of_app; right; left).
  pose proof (wf_under _ _ Hw) as Hw'. destruct (child_wf _ _ _ _ _ _ _ _ _ Hw' Hin) as [Hwl _].
  split.
  - exists k, (path_of C ++ pfx ++ [b]). split_and!; [|by destruct (path_of C), pfx|by inversion Hwl|done].
    simpl. rewrite contents_plug. apply elem_of_app; right; apply elem_of_app; left.
    rewrite contents_node. apply elem_of_list_bind. exists (b, Leaf k v). split; [by left|done].
  - intros w Hin'. split; [done|]. eapply (contents_under []) in Hin'; [|done|].
    + eapply child_contents in Hin'; [|done|done]. destruct Hin' as (c & Hc & Hin').
      apply wf_node_iff in Hw' as (Hs & _). apply sbytes_NoDup in Hs.
      apply (assoc_elem _ _ _ Hs) in Hc. apply (assoc_elem _ _ _ Hs) in Hin. rewrite Hin in Hc. injection Hc as <-.
      apply elem_of_list_singleton in Hin'. by simplify_eq.
    + etrans; [|done]. by apply prefix_app_r.
Qed.

Lemma fst_unique {A B} (l : list (A * B)) a x y : NoDup (map fst l) -> (a, x) ∈ l -> (a, y) ∈ l -> x = y.
Proof.
  intros Hnd [i Hi]%elem_of_list_lookup [j Hj]%elem_of_list_lookup.
  assert (i = j) by (eapply (NoDup_lookup (map fst l)); [done| |]; rewrite list_lookup_fmap, ?Hi, ?Hj; done). congruence.
Qed.

Definition pu_post (s : tree) (T : trie) (held : list N) (aid : nat) (key : list N) (R : res (bool * uop * tree)) : Prop :=
  match R with
  | Retry => exists o i, occr T o /\ i ∈ lids2 (o_addr o) (o_par o) /\ i ∈ held
  | Ok (found, op, s1) =>
    found = is_found (u_kind op) /\ u_alloc op = aid /\
    (exists l', s1 = set_locks s l' /\ locks_inv l' (lids2 (u_node op) (u_parent op) ++ held)) /\
    (exists o, occr T o /\ uvalid false key op o) /\
    found_ok (Some T) key found (u_value op)
  | _ => False
  end.

Lemma pu_loop_ok s T held aid key : core s (Some T) -> K key -> locks_inv (t_locks s) held ->
  forall fuel C full a pfx cs pg, T = plug C (Node full a pfx cs) -> path_of C `prefix_of` key ->
  (length key < fuel + length (path_of C))%nat ->
  (par_of C <> 0 -> lget (t_locks s) (lock_id (par_of C)) = pg) ->
  pu_post s T held aid key
    (pu_loop fuel s aid key (hole_word C (Node full a pfx cs)) (ptr_of C) (par_of C) pg (length (path_of C))).
Proof.
  intros Hc Hk Hl. induction fuel as [|fuel IH]; intros C full a pfx cs pg -> Hpath Hfuel Hpg.
  { apply prefix_length in Hpath. simpl in Hfuel. lia. }
  destruct (sub_facts _ _ _ Hc) as (Hw & Hrep & Hreg). pose proof (sub_view _ _ _ _ _ _ Hc) as Hv.
  pose proof (sub_region _ _ _ _ _ _ Hc) as (Ha0 & _).
  pose proof (occ_at_plug C _ _ (occ_at_here C full a pfx cs)) as Hocc.
  set (t := Node full a pfx cs) in *.
  assert (Hpg' : (if par_of C =? 0 then Ok pg else generation s (par_of C)) = Ok pg).
  { destruct (N.eqb_spec (par_of C) 0); [done|]. rewrite (par_gen s C t Hc) by done. by rewrite Hpg. }
  pose proof (co_alloc _ _ _ _ Hc) as Hall. simpl in Hall.
  pose proof (co_wf _ _ _ _ Hc) as HwT. simpl in HwT.
  assert (Hex : exists (k : list N) b, K k /\ (path_of C ++ pfx ++ [b]) `prefix_of` k).
  { by apply wf_node_iff in Hw as (_ & _ & ? & _). }
  cbn [pu_loop]. pose proof (hole_explode s C full a pfx cs Hc) as Hexp. fold t in Hexp. rewrite Hexp.
  rewrite (v_gen _ _ _ _ _ Hv). cbn [bind]. rewrite (ptr_word s C _ Hc), N.eqb_refl. cbn [negb].
  rewrite Hpg'. cbn [bind]. rewrite N.eqb_refl. cbn [negb].
  rewrite (v_data _ _ _ _ _ Hv). cbn [bind]. rewrite (v_append _ _ _ _ _ Hv). cbn [bind].
  pose proof (prefix_cmp_spec key (length (path_of C)) pfx 0) as Hcmp. rewrite Nat.add_0_r in Hcmp.
  assert (Hbase : forall kind k pos dep mm lp cl v kd, ubase key
    (Uop key v aid kind k pos a (par_of C) kd dep pfx mm (ptr_of C) (Slice a (dlen a)) (prefix_slots (length pfx))
       lp cl (hole_word C t)) (Occ (path_of C) (ptr_of C) (par_of C) a full pfx (heads cs)) <-> kd = ncount full (length cs)).
  { intros. split.
    - intros [? ? ? ? ? ? ? ? Hcnt _ _]. simpl in Hcnt. by rewrite heads_length in Hcnt.
    - intros ->. split; simpl; try done; [by rewrite heads_length|].
      destruct (hole_enc s C t Hc eq_refl) as (-> & _ & _). apply hole_byte_last. }
  destruct (prefix_cmp key (length (path_of C)) pfx 0) as [|i|] eqn:Ecmp.
  - exfalso. by apply (not_exhausted key (path_of C) pfx).
  - destruct Hcmp as (n & b & c & -> & Hb & Hcc & Hbc & Htk). rewrite Nat.add_0_l.
    rewrite lookup_drop in Hcc.
    assert (Hlen : (length (path_of C) + n < length key)%nat) by (by apply lookup_lt_Some in Hcc).
    destruct (lookup_lt_is_Some_2 key (length (path_of C)) ltac:(lia)) as [k0 Ek0].
    rewrite (key_at_Some _ _ _ Ek0). cbn [bind].
    assert (Hpre : (path_of C ++ take n pfx ++ [c]) `prefix_of` key).
    { destruct Hpath as [q ->]. rewrite drop_app in Htk. rewrite lookup_app_r in Hcc by lia.
      replace (length (path_of C) + n - length (path_of C))%nat with n in Hcc by lia.
      rewrite Htk. apply prefix_app. rewrite <- (take_S_r _ _ _ Hcc). exists (drop (S n) q). by rewrite take_drop. }
    match goal with |- context [with_lock s a ?ng (par_of C) pg ?kk] =>
      destruct (with_lock_ok s held a ng (par_of C) pg kk Hl eq_refl Hpg) as [(-> & i & H1 & H2)|(l' & -> & Hl')] end.
    + eexists _, i. split; [exact Hocc|]. done.
    + split; [done|]. split; [done|]. split; [by exists l'|]. split.
      * eexists. split; [exact Hocc|]. split; [by apply Hbase|]. cbn. split; [done|]. by exists b, c.
      * split; [done|]. intros w Hin. exfalso.
        assert (Hu : (key, w) ∈ contents t) by (eapply (contents_under []); done).
        unfold t in Hu. rewrite contents_node in Hu. apply elem_of_list_bind in Hu as ([b' c'] & Hin' & Hc').
        destruct (child_wf _ _ _ _ _ _ _ _ _ Hw Hc') as [Hw' _].
        destruct (wf_contents K fetch _ _ _ _ Hw' Hin') as ([q Hq] & _).
        assert (key !! (length (path_of C) + n)%nat = Some b); [|congruence].
        rewrite Hq, <- !app_assoc. rewrite lookup_app_r by lia.
        replace (length (path_of C) + n - length (path_of C))%nat with n by lia. by apply lookup_app_l_Some.
  - rewrite (v_from _ _ _ _ _ Hv). cbn [bind].
    destruct (next_byte key (path_of C) pfx Hk Hex Hpath Hcmp) as (k & Hpk & Ek & Hk256).
    rewrite (key_at_Some _ _ _ Ek). cbn [bind].
    destruct (ncount_bounds K fetch _ _ _ _ _ Hw) as [Hn ->].
    assert (Hdep : forall kd pos mm lp cl v kind, u_depth (Uop key v aid kind k pos a (par_of C) kd
       (length (path_of C) + length pfx) pfx mm (ptr_of C) (Slice a (dlen a)) (prefix_slots (length pfx))
       lp cl (hole_word C t)) = (length (path_of C) + length pfx)%nat) by done.
    destruct full.
    + rewrite (view_get _ _ _ _ _ (N.to_nat k) Hv) by (simpl; lia). cbn [bind sl_base]. rewrite N2Nat.id.
      destruct (full_child K fetch s _ (path_of C) a pfx cs k Hall Hreg Hw Hrep Hk256) as [-> Hch].
      destruct (assoc k cs) as [c|] eqn:Ec.
      * change (default 0 (enc k <$> Some c)) with (enc k c). destruct Hch as (H1 & H2 & H3). rewrite (proj2 (N.eqb_neq _ _)) by done. rewrite H2.
        destruct (assoc_split _ _ _ Ec) as (l1 & l2 & -> & Hnl).
        destruct c as [k' v'|full' a' pfx' cs']; cbn [is_leaf].
        -- assert (Hin : (k, Leaf k' v') ∈ l1 ++ (k, Leaf k' v') :: l2) by (apply elem_of_app; right; left).
           destruct (child_wf _ _ _ _ _ _ _ _ _ Hw Hin) as [Hwl _]. inversion Hwl as [? ? ? Hpk' Hk' Hv' Hf'|]; subst.
           rewrite leaf_value by done.
           match goal with |- context [with_lock s a ?ng (par_of C) pg ?kk] =>
             destruct (with_lock_ok s held a ng (par_of C) pg kk Hl eq_refl Hpg) as [(-> & i & Hi1 & Hi2)|(l' & -> & Hl')] end.
           ++ eexists _, i. split; [exact Hocc|]. done.
           ++ split; [done|]. split; [done|]. split; [by exists l'|]. split.
              ** eexists. split; [exact Hocc|]. split; [by apply Hbase|]. cbn. split_and!; try done. 
                 --- intros _. rewrite heads_app. apply elem_of_app; right. left.
                 --- intros hd Hhd. eapply fst_unique; [|exact Hhd|rewrite heads_app; apply elem_of_app; right; left].
                     rewrite heads_fst. apply sbytes_NoDup. by apply wf_node_iff in Hw as (? & _).
              ** by apply found_leaf.
        -- assert (Hin : (k, Node full' a' pfx' cs') ∈ l1 ++ (k, Node full' a' pfx' cs') :: l2) by (apply elem_of_app; right; left).
           assert (Hpl : plug C t = plug (Frame true a pfx l1 k l2 :: C) (Node full' a' pfx' cs')) by done.
           pose proof (IH (Frame true a pfx l1 k l2 :: C) full' a' pfx' cs' (lget (t_locks s) (lock_id a))) as Hrec.
           replace (S (length (path_of C) + length pfx)) with (length (path_of C ++ pfx ++ [k]))
             by (rewrite !app_length; simpl; lia).
           apply Hrec; try done. cbn [path_of f_pfx f_b]. rewrite !app_length. simpl length. lia.
      * change (default 0 (enc k <$> None)) with 0. rewrite N.eqb_refl.
        match goal with |- context [with_lock s a ?ng (par_of C) pg ?kk] =>
             destruct (with_lock_ok s held a ng (par_of C) pg kk Hl eq_refl Hpg) as [(-> & i & Hi1 & Hi2)|(l' & -> & Hl')] end.
        -- eexists _, i. split; [exact Hocc|]. done.
        -- apply assoc_None in Ec.
           split; [done|]. split; [done|]. split; [by exists l'|]. split.
           ++ eexists. split; [exact Hocc|]. split; [by apply Hbase|]. cbn. split_and!; try done. by rewrite heads_fst.
           ++ split; [done|]. intros w Hin. exfalso. by eapply (not_stored C true a pfx cs key k w).
    + change (ncount false (length cs)) with (length cs) in *.
      pose proof (v_upto _ _ _ _ _ Hv) as Hup. change (ncount false (length cs)) with (length cs) in Hup.
      rewrite Hup. cbn [bind sl_base].
      destruct (small_scan K fetch s _ (path_of C) a pfx cs k Hall Hreg Hw Hrep) as
        [(l1 & c & l2 & Ecs & E & Hb & Hlf)|(Hnk & l1 & l2 & brk & i & w & Ecs & Hl1 & Hl2 & E & Hpos & Hw')].
      * rewrite E. rewrite Hb, N.eqb_refl, Hlf.
        destruct c as [k' v'|full' a' pfx' cs']; cbn [is_leaf].
        -- assert (Hin : (k, Leaf k' v') ∈ cs) by (rewrite Ecs; apply elem_of_app; right; left).
           destruct (child_wf _ _ _ _ _ _ _ _ _ Hw Hin) as [Hwl _]. inversion Hwl as [? ? ? _ Hk' Hv' Hf'|]; subst.
           rewrite leaf_value by done.
           match goal with |- context [with_lock s a ?ng (par_of C) pg ?kk] =>
             destruct (with_lock_ok s held a ng (par_of C) pg kk Hl eq_refl Hpg) as [(-> & i & Hi1 & Hi2)|(l' & -> & Hl')] end.
           ++ eexists _, i. split; [exact Hocc|]. done.
           ++ split; [done|]. split; [done|]. split; [by exists l'|]. split.
              ** eexists. split; [exact Hocc|]. split; [by apply Hbase|]. cbn. split_and!; try done.
                 exists (heads l1), (heads l2). rewrite heads_app, heads_length. done.
              ** by apply found_leaf.
        -- subst cs. 
           pose proof (IH (Frame false a pfx l1 k l2 :: C) full' a' pfx' cs' (lget (t_locks s) (lock_id a))) as Hrec.
           replace (S (length (path_of C) + length pfx)) with (length (path_of C ++ pfx ++ [k]))
             by (rewrite !app_length; simpl; lia).
           apply Hrec; try done. cbn [path_of f_pfx f_b]. rewrite !app_length. simpl length. lia.
      * rewrite E. rewrite (proj2 (N.eqb_neq _ _)) by done.
        match goal with |- context [with_lock s a ?ng (par_of C) pg ?kk] =>
             destruct (with_lock_ok s held a ng (par_of C) pg kk Hl eq_refl Hpg) as [(-> & j & Hi1 & Hi2)|(l' & -> & Hl')] end.
        -- eexists _, j. split; [exact Hocc|]. done.
        -- split; [done|]. split; [done|]. split; [by exists l'|]. split.
           ++ eexists. split; [exact Hocc|]. split; [by apply Hbase|]. cbn. split_and!; try done.
              exists (heads l1), (heads l2). rewrite Ecs, heads_app, heads_length, !heads_fst. split_and!; try done. by rewrite <- Ecs.
           ++ split; [done|]. intros w' Hin. exfalso. by eapply (not_stored C false a pfx cs key k w').
Qed.
End Prep.
