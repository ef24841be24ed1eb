(** * Live: the nodes reachable from the root, read off the memory words, and the space an
    allocator may still hand out. *)
From Verif Require Export Spec Step.

(** Word [x] is reached from the root through the child slots [p] (outermost first). *)
Inductive live (s : tree) : list nat -> N -> Prop :=
| live_root : t_root s <> 0 -> live s [] (t_root s)
| live_child p w key a count pl d len slots d1 i x :
    live s p w -> isLeaf w = false -> explodeNode w = (key, a, count, pl) ->
    node_data s a = Ok d -> skip_prefix (t_mem s) d pl = Ok (len, slots, d1) ->
    (i < count)%nat -> sl_get (t_mem s) d1 i = Ok x -> x <> 0 -> live s (p ++ [i]) x.

(** The memory region (address, slots) of the node behind word [w]. *)
Definition node_reg (s : tree) (w : N) (r : N * nat) : Prop :=
  exists key a count pl d len slots d1, isLeaf w = false /\ explodeNode w = (key, a, count, pl) /\
    node_data s a = Ok d /\ skip_prefix (t_mem s) d pl = Ok (len, slots, d1) /\ r = (a, (slots + count)%nat).

(** The regions that [newNode] may hand out without asking for a new block: recycled
    ranges, and the rest of every allocator's current block. *)
Definition free_regs (s : tree) : list (N * nat) := map ireg (all_items s) ++ all_bregs s.

Definition rdisj (r r' : N * nat) : Prop := forall x, x ∈ seqN r.1 r.2 -> x ∈ seqN r'.1 r'.2 -> False.

(** ** Paths in the ghost trie *)

Definition child_at (full : bool) (cs : list (N * trie)) (i : nat) : option (N * trie) :=
  if full then (fun t => (N.of_nat i, t)) <$> assoc (N.of_nat i) cs else cs !! i.

Fixpoint sub (b : N) (t : trie) (p : list nat) : option (N * trie) :=
  match p with
  | [] => Some (b, t)
  | i :: p' =>
    match t with
    | Leaf _ _ => None
    | Node full _ _ cs => match child_at full cs i with Some (b', c) => sub b' c p' | None => None end
    end
  end.

Lemma child_at_elem full cs i b c : child_at full cs i = Some (b, c) -> (b, c) ∈ cs.
Proof.
  unfold child_at. destruct full.
  - destruct (assoc (N.of_nat i) cs) as [t|] eqn:E; [|done]. intros [= <- <-]. by apply assoc_Some_elem.
  - by apply elem_of_list_lookup_2.
Qed.

Lemma sub_snoc p : forall b t i, sub b t (p ++ [i]) =
  match sub b t p with
  | Some (_, Node full _ _ cs) => child_at full cs i
  | _ => None
  end.
Proof.
  induction p as [|j p IH]; intros b t i; simpl.
  - destruct t as [|full a pfx cs]; [done|]. by destruct (child_at full cs i) as [[]|].
  - destruct t as [|full a pfx cs]; [done|]. destruct (child_at full cs j) as [[b' c]|]; [|done]. apply IH.
Qed.

Lemma sub_regs p : forall b t b' full a pfx cs, sub b t p = Some (b', Node full a pfx cs) ->
  (a, nslots full pfx (length cs)) ∈ regs t.
Proof.
  induction p as [|i p IH]; intros b t b' full a pfx cs; simpl.
  - intros [= <- ->]. rewrite regs_node. left.
  - destruct t as [|full' a' pfx' cs']; [done|]. destruct (child_at full' cs' i) as [[b2 c]|] eqn:E; [|done].
    intros H. eapply child_regs; [by eapply child_at_elem|]. by eapply IH.
Qed.

Lemma sub_incl p : forall b t b' t' r, sub b t p = Some (b', t') -> r ∈ regs t' -> r ∈ regs t.
Proof.
  induction p as [|i p IH]; intros b t b' t' r; simpl.
  - by intros [= <- ->].
  - destruct t as [|full' a' pfx' cs']; [done|]. destruct (child_at full' cs' i) as [[b2 c]|] eqn:E; [|done].
    intros H Hr. eapply child_regs; [by eapply child_at_elem|]. by eapply IH.
Qed.

Lemma bind_two {A B} (f : A -> list B) (cs : list A) i j x y b c : i <> j -> cs !! i = Some x -> cs !! j = Some y ->
  b ∈ f x -> c ∈ f y -> exists l, (cs ≫= f) ≡ₚ b :: c :: l.
Proof.
  revert i j x y b c. induction cs as [|z cs IH]; intros i j x y b c Hij Hi Hj Hb Hc; [done|].
  assert (Haux : forall k u d, cs !! k = Some u -> d ∈ f u -> exists l, (cs ≫= f) ≡ₚ d :: l).
  { intros k u d Hk Hd. assert (Hin : d ∈ (cs ≫= f)) by (apply elem_of_list_bind; exists u; split; [done|by eapply elem_of_list_lookup_2]).
    apply elem_of_list_split in Hin as (l1 & l2 & ->). exists (l1 ++ l2). symmetry. apply Permutation_middle. }
  rewrite bind_cons. destruct i as [|i], j as [|j]; simpl in Hi, Hj.
  - lia.
  - injection Hi as ->. destruct (Haux _ _ _ Hj Hc) as [l Hl].
    apply elem_of_list_split in Hb as (l1 & l2 & ->). exists (l1 ++ l2 ++ l). rewrite Hl, <- app_assoc. simpl. solve_Permutation.
  - injection Hj as ->. destruct (Haux _ _ _ Hi Hb) as [l Hl].
    apply elem_of_list_split in Hc as (l1 & l2 & ->). exists (l1 ++ l2 ++ l). rewrite Hl, <- app_assoc. simpl. solve_Permutation.
  - destruct (IH i j x y b c) as [l Hl]; [lia|done..|]. exists (f z ++ l). rewrite Hl. solve_Permutation.
Qed.

Lemma child_at_pos p0 K fetch full a pfx cs i b c : wf K fetch p0 (Node full a pfx cs) -> child_at full cs i = Some (b, c) ->
  exists k, cs !! k = Some (b, c) /\ (if full then b = N.of_nat i else k = i).
Proof.
  intros Hwf. unfold child_at. destruct full.
  - destruct (assoc (N.of_nat i) cs) as [t|] eqn:E; [|done]. intros [= <- <-]. apply assoc_Some_elem in E.
    apply elem_of_list_lookup in E as [k Hk]. by exists k.
  - intros H. by exists i.
Qed.

Lemma sub_two K fetch p1 : forall p2 p0 b t b1 full1 a1 pfx1 cs1 b2 full2 a2 pfx2 cs2, wf K fetch p0 t -> p1 <> p2 ->
  sub b t p1 = Some (b1, Node full1 a1 pfx1 cs1) -> sub b t p2 = Some (b2, Node full2 a2 pfx2 cs2) ->
  exists l, regs t ≡ₚ (a1, nslots full1 pfx1 (length cs1)) :: (a2, nslots full2 pfx2 (length cs2)) :: l.
Proof.
  induction p1 as [|i p1 IH]; intros [|j p2] p0 b t b1 full1 a1 pfx1 cs1 b2 full2 a2 pfx2 cs2 Hwf Hne H1 H2.
  - done.
  - cbn [sub] in H1. injection H1 as -> ->. cbn [sub] in H2. destruct (child_at full1 cs1 j) as [[b' c]|] eqn:E; [|done].
    apply sub_regs in H2. rewrite regs_node.
    assert (Hin : (a2, nslots full2 pfx2 (length cs2)) ∈ (cs1 ≫= fun c => regs c.2)).
    { apply elem_of_list_bind. exists (b', c). split; [done|by eapply child_at_elem]. }
    apply elem_of_list_split in Hin as (l1 & l2 & ->). exists (l1 ++ l2). constructor. symmetry. apply Permutation_middle.
  - cbn [sub] in H2. injection H2 as -> ->. cbn [sub] in H1. destruct (child_at full2 cs2 i) as [[b' c]|] eqn:E; [|done].
    apply sub_regs in H1. rewrite regs_node.
    assert (Hin : (a1, nslots full1 pfx1 (length cs1)) ∈ (cs2 ≫= fun c => regs c.2)).
    { apply elem_of_list_bind. exists (b', c). split; [done|by eapply child_at_elem]. }
    apply elem_of_list_split in Hin as (l1 & l2 & ->). exists (l1 ++ l2). rewrite <- Permutation_middle. apply perm_swap.
  - cbn [sub] in H1, H2. destruct t as [|full a pfx cs]; [done|].
    destruct (child_at full cs i) as [[bi ci]|] eqn:Ei; [|done]. destruct (child_at full cs j) as [[bj cj]|] eqn:Ej; [|done].
    destruct (decide (i = j)) as [->|Hij].
    + rewrite Ei in Ej. injection Ej as <- <-. apply child_at_elem in Ei.
      destruct (child_wf _ _ _ _ _ _ _ _ _ Hwf Ei) as [Hwc _].
      destruct (IH p2 _ bi ci _ _ _ _ _ _ _ _ _ _ Hwc ltac:(congruence) H1 H2) as [l Hl]. rewrite regs_node.
      apply elem_of_list_split in Ei as (l1 & l2 & ->). rewrite bind_app, bind_cons. cbn [snd].
      exists ((a, nslots full pfx (length (l1 ++ (bi, ci) :: l2))) :: (l1 ≫= fun c => regs c.2) ++ l ++ (l2 ≫= fun c => regs c.2)).
      rewrite Hl. solve_Permutation.
    + destruct (child_at_pos _ _ _ _ _ _ _ _ _ _ Hwf Ei) as (ki & Hki & Hi).
      destruct (child_at_pos _ _ _ _ _ _ _ _ _ _ Hwf Ej) as (kj & Hkj & Hj).
      assert (ki <> kj). { intros ->. rewrite Hki in Hkj. injection Hkj as <- <-. destruct full; [lia|congruence]. }
      destruct (bind_two (fun c => regs c.2) cs ki kj _ _ (a1, nslots full1 pfx1 (length cs1)) (a2, nslots full2 pfx2 (length cs2)) H Hki Hkj) as [l Hl].
      * simpl. by eapply sub_regs.
      * simpl. by eapply sub_regs.
      * rewrite regs_node. exists ((a, nslots full pfx (length cs)) :: l). rewrite Hl. solve_Permutation.
Qed.

Section Live.
Context (K : list N -> Prop) (fetch : N -> list N) (HK : universe K).
Local Notation core := (core K fetch).
Local Notation wf := (wf K fetch).

Lemma sub_rep m p : forall b t b' t', rep m t -> sub b t p = Some (b', t') -> rep m t'.
Proof.
  induction p as [|i p IH]; intros b t b' t' Hr; simpl.
  - by intros [= <- ->].
  - destruct t as [|full a pfx cs]; [done|]. destruct (child_at full cs i) as [[b2 c]|] eqn:E; [|done].
    intros H. eapply IH; [|done]. apply rep_node_iff in Hr as [_ Hr]. rewrite Forall_forall in Hr.
    apply child_at_elem in E. exact (Hr _ E).
Qed.

Lemma sub_wf p : forall b t b' t' p0, b < 256 -> wf p0 t -> sub b t p = Some (b', t') -> b' < 256 /\ exists q, wf (p0 ++ q) t'.
Proof.
  induction p as [|i p IH]; intros b t b' t' p0 Hb Hw; simpl.
  - intros [= <- ->]. split; [done|]. exists []. by rewrite app_nil_r.
  - destruct t as [|full a pfx cs]; [done|]. destruct (child_at full cs i) as [[b2 c]|] eqn:E; [|done].
    intros H. apply child_at_elem in E. destruct (child_wf _ _ _ _ _ _ _ _ _ Hw E) as [Hc Hb2].
    destruct (IH _ _ _ _ _ Hb2 Hc H) as (? & q & Hq). split; [done|]. exists (pfx ++ [b2] ++ q).
    rewrite <- !app_assoc in Hq. done.
Qed.

(** What a live node word decodes to. *)
Lemma sub_view s t b p b' full a pfx cs : core s (Some t) -> b < 256 -> sub b t p = Some (b', Node full a pfx cs) ->
  (forall r, r ∈ regs (Node full a pfx cs) -> r ∈ oregs (Some t)) /\ rep (t_mem s) (Node full a pfx cs) /\
  (exists q, wf q (Node full a pfx cs)) /\ b' < 256 /\ view s full a pfx cs /\
  explodeNode (enc b' (Node full a pfx cs)) = (b', a, ncount full (length cs), plen8 (length pfx)).
Proof.
  intros Hc Hb Hs. destruct Hc as [_ Hrep Hwf Ha _]. simpl in Hrep, Hwf.
  assert (Hr : forall r, r ∈ regs (Node full a pfx cs) -> r ∈ oregs (Some t)).
  { intros r Hr. simpl. by eapply sub_incl. }
  pose proof (sub_rep _ _ _ _ _ _ Hrep Hs) as Hrep'.
  destruct (sub_wf _ _ _ _ _ _ Hb Hwf Hs) as (Hb' & q & Hq). simpl in Hq.
  split_and!; [done|done|by exists q|done| |].
  - exact (node_view _ _ s _ _ _ _ _ _ Ha Hr Hq Hrep').
  - exact (explode_enc _ _ s _ _ b' _ _ _ _ Ha Hr Hq Hb').
Qed.

Lemma live_sub s T p w : core s T -> live s p w ->
  exists t b c, T = Some t /\ root_byte t < 256 /\ sub (root_byte t) t p = Some (b, c) /\ w = enc b c.
Proof.
  intros Hc. induction 1 as [Hne|p w key a count pl d len slots d1 i x Hl IH Hleaf Hex Hd Hsk Hi Hg Hx].
  - destruct T as [t|]; [|by rewrite (co_root _ _ _ _ Hc) in Hne]. exists t, (root_byte t), t.
    split_and!; try done; [|exact (co_root _ _ _ _ Hc)].
    pose proof (co_wf _ _ _ _ Hc) as Hw. simpl in Hw. destruct t as [k v|]; simpl; [|lia].
    assert (HKk : K k) by (by inversion Hw). pose proof (uv_bytes _ HK _ HKk) as Hbk.
    destruct k as [|k0 k]; simpl; [lia|]. by inversion Hbk.
  - destruct IH as (t & b & c & -> & Hb & Hs & ->).
    destruct c as [k v|full a' pfx cs].
    { exfalso. destruct (sub_wf _ _ _ _ _ _ Hb (co_wf _ _ _ _ Hc) Hs) as (Hb' & q & Hq).
      rewrite (proj1 (proj2 (enc_facts K fetch s (oregs (Some t)) _ b (Leaf k v) (co_alloc _ _ _ _ Hc) ltac:(by intros r Hr%elem_of_nil) Hq Hb'))) in Hleaf. done. }
    destruct (sub_view _ _ _ _ _ _ _ _ _ Hc Hb Hs) as (Hr & Hrep & (q & Hq) & Hb' & Hv & He).
    rewrite He in Hex. injection Hex as <- <- <- <-. rewrite (v_data _ _ _ _ _ Hv) in Hd. injection Hd as <-.
    rewrite (v_skip _ _ _ _ _ Hv) in Hsk. injection Hsk as <- <- <-. rewrite (view_get _ _ _ _ _ _ Hv Hi) in Hg. injection Hg as <-.
    exists t. setoid_rewrite sub_snoc. rewrite Hs. unfold child_at, ncount in *. apply rep_node_iff in Hrep as [[_ Hm] _].
    destruct full.
    + rewrite Hm in Hx |- * by lia. rewrite assoc_bws in Hx |- *. destruct (assoc (N.of_nat i) cs) as [c|] eqn:E; [|done].
      exists (N.of_nat i), c. done.
    + destruct (cs !! i) as [[bi ci]|] eqn:E; [|by apply lookup_ge_None in E; lia]. exists bi, ci. split_and!; try done.
      rewrite bws_length in Hm. assert (H : mread (t_mem s) (a' + N.of_nat (prefix_slots (length pfx))) (length cs) !! i = map snd (bws cs) !! i) by (by rewrite Hm).
      rewrite mread_lookup in H by done. unfold bws in H. rewrite map_map in H. rewrite list_lookup_fmap, E in H. simpl in H. congruence.
Qed.

Lemma live_node s T p w r : core s T -> live s p w -> node_reg s w r ->
  exists t b full a pfx cs, T = Some t /\ root_byte t < 256 /\ sub (root_byte t) t p = Some (b, Node full a pfx cs) /\
    r = (a, nslots full pfx (length cs)).
Proof.
  intros Hc Hl (key & a & count & pl & d & len & slots & d1 & Hleaf & Hex & Hd & Hsk & ->).
  destruct (live_sub _ _ _ _ Hc Hl) as (t & b & c & -> & Hb & Hs & ->). exists t, b.
  destruct c as [k v|full a' pfx cs].
  { exfalso. destruct (sub_wf _ _ _ _ _ _ Hb (co_wf _ _ _ _ Hc) Hs) as (Hb' & q & Hq).
    rewrite (proj1 (proj2 (enc_facts K fetch s (oregs (Some t)) _ b (Leaf k v) (co_alloc _ _ _ _ Hc) ltac:(by intros r Hr%elem_of_nil) Hq Hb'))) in Hleaf. done. }
  destruct (sub_view _ _ _ _ _ _ _ _ _ Hc Hb Hs) as (Hr & Hrep & (q & Hq) & Hb' & Hv & He).
  rewrite He in Hex. injection Hex as <- <- <- <-. rewrite (v_data _ _ _ _ _ Hv) in Hd. injection Hd as <-.
  rewrite (v_skip _ _ _ _ _ Hv) in Hsk. injection Hsk as <- <- <-. exists full, a', pfx, cs. done.
Qed.

Lemma cover_two_disj l r1 r2 : NoDup (cover (r1 :: r2 :: l)) -> rdisj r1 r2.
Proof.
  intros H x H1 H2. rewrite !cover_cons in H. apply NoDup_app in H as (_ & H & _). apply (H x H1). apply elem_of_app. by left.
Qed.

Lemma cover_perm l l' : l ≡ₚ l' -> cover l ≡ₚ cover l'.
Proof. unfold cover. by intros ->. Qed.

Definition live_memory (s : tree) : Prop :=
  Forall (region_ok (t_nextFreeBlock s)) (free_regs s) /\ NoDup (cover (free_regs s)) /\
  forall p w r, live s p w -> node_reg s w r ->
    region_ok (t_nextFreeBlock s) r /\ (forall x, x ∈ seqN r.1 r.2 -> x ∉ cover (free_regs s)) /\
    (forall p' w' r', live s p' w' -> node_reg s w' r' -> p <> p' -> rdisj r r').

Lemma core_live s T : core s T -> live_memory s.
Proof.
  intros Hc. pose proof (co_alloc _ _ _ _ Hc) as Ha. pose proof (ai_nodup _ _ Ha) as Hnd. pose proof (ai_regs _ _ Ha) as Hrg.
  change (map ireg (all_items s) ++ all_bregs s) with (free_regs s) in *.
  rewrite cover_app in Hnd. apply NoDup_app in Hnd as (Hn1 & Hn2 & Hn3). apply Forall_app in Hrg as [Hg1 Hg2].
  split_and!; [done|done|]. intros p w r Hl Hr.
  destruct (live_node _ _ _ _ _ Hc Hl Hr) as (t & b & full & a & pfx & cs & -> & Hb & Hs & ->).
  pose proof (sub_regs _ _ _ _ _ _ _ _ Hs) as Hin. split_and!.
  - rewrite Forall_forall in Hg1. by apply Hg1.
  - intros x Hx. apply Hn2. apply elem_of_cover. eexists. split; [done|done].
  - intros p' w' r' Hl' Hr' Hne.
    destruct (live_node _ _ _ _ _ Hc Hl' Hr') as (t' & b' & full' & a' & pfx' & cs' & [= <-] & _ & Hs' & ->).
    destruct (sub_two K fetch _ _ _ _ _ _ _ _ _ _ _ _ _ _ _ (co_wf _ _ _ _ Hc) Hne Hs Hs') as [l Hperm].
    apply (cover_two_disj l). rewrite <- (cover_perm _ _ Hperm). done.
Qed.

(** A new node never overlaps a live one. *)
Lemma core_new_node s T aid slots n s' : core s T -> (aid < length (t_allocs s))%nat -> (1 <= slots)%nat -> N.of_nat slots <= 262142 ->
  new_node s aid slots = Ok (n, s') ->
  forall p w r, live s p w -> node_reg s w r -> rdisj r (n, slots).
Proof.
  intros Hc Haid H1 H2 E p w r Hl Hr. pose proof (co_alloc _ _ _ _ Hc) as Ha.
  destruct (new_node_ok s aid slots _ Ha Haid H1 H2) as [E'|(n' & s'' & E' & Hp)]; [congruence|].
  rewrite E in E'. injection E' as <- <-. destruct Hp as [Ha' _].
  destruct (live_node _ _ _ _ _ Hc Hl Hr) as (t & b & full & a & pfx & cs & -> & Hb & Hs & ->).
  pose proof (sub_regs _ _ _ _ _ _ _ _ Hs) as Hin. intros x Hx Hn.
  pose proof (ai_nodup _ _ Ha') as Hnd. change (((n, slots) :: oregs (Some t)) ++ map ireg (all_items s') ++ all_bregs s')
    with ((n, slots) :: oregs (Some t) ++ map ireg (all_items s') ++ all_bregs s') in Hnd.
  rewrite cover_cons in Hnd. apply NoDup_app in Hnd as (_ & Hd & _). apply (Hd x Hn).
  rewrite cover_app. apply elem_of_app. left. apply elem_of_cover. eexists. split; [exact Hin|done].
Qed.
End Live.

Lemma c21_live K fetch n tr y : reachable K fetch n tr y -> live_memory (sy_tree y).
Proof.
  intros [HK Hr Hl]. destruct (runs_inv K fetch HK n tr y Hr ltac:(lia)) as (T & lost & Hi).
  exact (core_live K fetch HK _ _ (iv_core _ _ _ _ _ _ _ Hi)).
Qed.

Lemma c21_new K fetch n tr y aid slots a s' : reachable K fetch n tr y -> (aid < naids y)%nat ->
  (1 <= slots)%nat -> N.of_nat slots <= 262142 -> new_node (sy_tree y) aid slots = Ok (a, s') ->
  forall p w r, live (sy_tree y) p w -> node_reg (sy_tree y) w r -> rdisj r (a, slots).
Proof.
  intros [HK Hr Hl] Haid. destruct (runs_inv K fetch HK n tr y Hr ltac:(lia)) as (T & lost & Hi).
  exact (core_new_node K fetch HK _ _ aid slots a s' (iv_core _ _ _ _ _ _ _ Hi) Haid).
Qed.
