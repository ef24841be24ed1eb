(** * Change: the steps of a Finalize seen on the ghost trie: allocate and fill fresh
    memory, publish it with one word, unlock, recycle, count. *)
From Verif Require Export DelPrep.

Definition ooccr (T : option trie) (o : occ_t) : Prop := from_option (fun t => occr t o) False T.

Section Change.
Context (K : list N -> Prop) (fetch : N -> list N) (HK : universe K).
Local Notation core := (core K fetch).
Local Notation wf := (wf K fetch).

(** Fresh regions [F] allocated and written; the tree is untouched. *)
Record prepd (s : tree) (T : option trie) (s1 : tree) (F : list (N * nat)) : Prop := {
  pr_same : same_tree s s1;
  pr_inv : alloc_inv s1 (F ++ oregs T);
  pr_mem : forall x, x ∉ cover F -> mget (t_mem s1) x = mget (t_mem s) x;
  pr_safe : forall r x, safe_from s r x -> (exists r', r' ∈ t_resv s /\ r' <= r) -> x ∉ cover F /\ safe_from s1 r x
}.

Lemma prepd_refl s T : core s T -> prepd s T s [].
Proof.
  intros Hc. split; [apply same_tree_refl|apply Hc|done|]. intros r x H _. split; [apply not_elem_of_nil|done].
Qed.

Lemma prepd_alloc s T s1 F s2 n slots : prepd s T s1 F -> allocd s1 s2 n slots (F ++ oregs T) ->
  prepd s T s2 ((n, slots) :: F).
Proof.
  intros [H1 H2 H3 H4] [A1 A2 A3 A4]. split.
  - by eapply same_tree_trans.
  - done.
  - intros x Hx. rewrite cover_cons, not_elem_of_app in Hx. destruct Hx. rewrite A3 by done. auto.
  - intros r x Hs Hr. destruct (H4 r x Hs Hr) as [Hx Hs1]. rewrite <- (st_resv _ _ H1) in Hr.
    destruct (A4 r x Hs1 Hr) as [Hx' Hs2]. split; [|done]. rewrite cover_cons, not_elem_of_app. done.
Qed.

Lemma prepd_mem s T s1 F m : prepd s T s1 F -> (forall x, x ∉ cover F -> mget m x = mget (t_mem s1) x) ->
  prepd s T (set_mem s1 m) F.
Proof.
  intros [H1 H2 H3 H4] Hm. split.
  - destruct H1; split; done.
  - by apply (alloc_inv_ext s1).
  - intros x Hx. change (t_mem (set_mem s1 m)) with m. rewrite Hm by done. auto.
  - intros r x Hs Hr. destruct (H4 r x Hs Hr) as [Hx Hs1]. split; [done|]. by apply (safe_from_ext s1).
Qed.

Record upd (s : tree) (T : option trie) (s' : tree) (T' : option trie) (G : list (N * nat))
    (l : mem) (rl e : N) (d : Z) : Prop := {
  up_root : t_root s' = enc_root T';
  up_rep : from_option (rep (t_mem s')) True T';
  up_wf : from_option (wf []) True T';
  up_alloc : alloc_inv s' (G ++ oregs T');
  up_zero : zeroed s';
  up_locks : t_locks s' = l;
  up_rl : t_rootLock s' = rl;
  up_epoch : t_epoch s' = e;
  up_resv : t_resv s' = t_resv s;
  up_nallocs : length (t_allocs s') = length (t_allocs s);
  up_len : len s' = (len s + d)%Z;
  up_safe : forall r x, safe_from s r x -> (exists r', r' ∈ t_resv s /\ r' <= r) -> r <= t_epoch s -> safe_from s' r x;
  up_fresh : forall x, x ∈ cover (G ++ oregs T') -> x ∈ cover (oregs T) \/ forall r, (exists r', r' ∈ t_resv s /\ r' <= r) -> ~ safe_from s r x;
  up_mem : forall r x, safe_from s r x -> (exists r', r' ∈ t_resv s /\ r' <= r) -> x ∉ cover (oregs T') -> mget (t_mem s') x = mget (t_mem s) x
}.

Lemma upd_core s T s' T' l rl e d : upd s T s' T' [] l rl e d -> core s' T'.
Proof. intros H. split; apply H. Qed.

Lemma prepd_zero s T s1 F : prepd s T s1 F -> core s T -> zeroed s1.
Proof.
  intros Hp Hc x Hx. rewrite (pr_mem _ _ _ _ Hp).
  - apply (co_zero _ _ _ _ Hc). eapply unused_mono; [|exact Hx]. apply (pr_same _ _ _ _ Hp).
  - intros H0. revert Hx. eapply live_used; [apply Hp|]. rewrite cover_app. apply elem_of_app. by left.
Qed.

Lemma prepd_fresh s T s1 F x : prepd s T s1 F -> x ∈ cover F -> forall r, (exists r', r' ∈ t_resv s /\ r' <= r) -> ~ safe_from s r x.
Proof. intros Hp Hx r Hr Hs. by destruct (pr_safe _ _ _ _ Hp r x Hs Hr) as [? _]. Qed.

Lemma prepd_disj s T s1 F x : prepd s T s1 F -> x ∈ cover (oregs T) -> x ∉ cover F.
Proof.
  intros Hp Hx HF. destruct (pr_inv _ _ _ _ Hp) as [Hn _ _ _ _ _]. rewrite cover_app in Hn.
  apply NoDup_app in Hn as (Hn & _). rewrite cover_app in Hn. apply NoDup_app in Hn as (_ & Hn & _). by apply (Hn x).
Qed.

(** Nothing published: the allocated memory is lost. *)
Lemma prepd_upd s T s1 F : core s T -> prepd s T s1 F ->
  upd s T s1 T F (t_locks s) (t_rootLock s) (t_epoch s) 0.
Proof.
  intros Hc Hp. pose proof (fun x => prepd_disj s T s1 F x Hp) as Hd. pose proof Hp as Hp'. destruct Hp' as [[] H2 H3 H4]. split; try congruence; try done.
  - rewrite st_root. apply Hc.
  - destruct T as [t|]; [|done]. simpl. eapply rep_agree; [exact (co_rep _ _ _ _ Hc)|].
    intros x Hx. apply H3. by apply Hd.
  - apply Hc.
  - by eapply prepd_zero.
  - lia.
  - intros r x Hs Hr _. by destruct (H4 r x Hs Hr) as [_ ?].
  - intros x. rewrite cover_app. intros [Hx|Hx]%elem_of_app; [right|by left]. by eapply prepd_fresh.
  - intros r x Hs Hr _. apply H3. by apply (H4 r x Hs).
Qed.

Lemma upd_leak s T s' T' G1 G2 l rl e d : upd s T s' T' (G1 ++ G2) l rl e d -> upd s T s' T' G2 l rl e d.
Proof.
  intros []. split; try done.
  - eapply alloc_inv_app. by rewrite app_assoc.
  - intros x Hx. apply up_fresh0. rewrite <- app_assoc, cover_app. apply elem_of_app. by right.
Qed.

Lemma upd_perm s T s' T' G G' l rl e d : G ≡ₚ G' -> upd s T s' T' G l rl e d -> upd s T s' T' G' l rl e d.
Proof.
  intros E []. split; try done.
  - eapply alloc_inv_perm; [|done]. by rewrite E.
  - intros x Hx. apply up_fresh0. by rewrite E.
Qed.

Lemma pset_slot_mem s a w : t_mem (pset s (PSlot a) w) = mset (t_mem s) a w.
Proof. done. Qed.

Lemma cover_disj (l1 l2 : list (N * nat)) x : NoDup (cover (l1 ++ l2)) -> x ∈ cover l1 -> x ∉ cover l2.
Proof. rewrite cover_app. intros (_ & H & _)%NoDup_app. apply H. Qed.

Lemma enc_root_plug f C t t' : enc_root (Some (plug (f :: C) t)) = enc_root (Some (plug (f :: C) t')).
Proof.
  destruct (exists_last (l := f :: C)) as (C0 & f0 & E0); [done|]. rewrite E0, !plug_app.
  unfold enc_root, hole_word, fill. simpl. by rewrite !app_length.
Qed.

(** Publishing: the word in the hole of [C] is replaced. *)
Lemma upd_publish s C t s1 t' F G : core s (Some (plug C t)) -> prepd s (Some (plug C t)) s1 F ->
  F ++ regs t ≡ₚ G ++ regs t' -> wf (path_of C) t' -> rep (t_mem s1) t' ->
  upd s (Some (plug C t)) (pset s1 (ptr_of C) (hole_word C t')) (Some (plug C t')) G
    (t_locks s) (t_rootLock s) (t_epoch s) 0.
Proof.
  intros Hc Hp HG Hw Hr.
  assert (Hregs : G ++ regs (plug C t') ≡ₚ F ++ regs (plug C t)).
  { rewrite !regs_plug, !app_assoc. by rewrite HG. }
  pose proof (pr_inv _ _ _ _ Hp) as Hinv. simpl in Hinv.
  assert (Hinv' : alloc_inv s1 (G ++ regs (plug C t'))) by (eapply alloc_inv_perm; [by symmetry|done]).
  set (s2 := pset s1 (ptr_of C) (hole_word C t')).
  assert (E : t_locks s2 = t_locks s1 /\ t_rootLock s2 = t_rootLock s1 /\ t_epoch s2 = t_epoch s1 /\ t_resv s2 = t_resv s1 /\
    t_allocs s2 = t_allocs s1 /\ t_live s2 = t_live s1 /\ t_nextFreeBlock s2 = t_nextFreeBlock s1)
    by (unfold s2; destruct C; done).
  destruct E as (E1 & E2 & E3 & E4 & E5 & E6 & E7).
  destruct (prepd_upd _ _ _ _ Hc Hp) as [U1 U2 U3 U4 U5 U6 U7 U8 U9 U10 U11 U12 U13 U14].
  assert (Hnd : NoDup (cover (regs t' ++ cregs C))).
  { destruct Hinv' as [Hn _ _ _ _ _]. rewrite cover_app in Hn. apply NoDup_app in Hn as (Hn & _).
    rewrite cover_app in Hn. apply NoDup_app in Hn as (_ & _ & Hn). by rewrite <- regs_plug. }
  assert (Hok : ctx_ok C) by exact (wf_plug_ctx_ok _ _ [] _ _ (co_wf _ _ _ _ Hc)).
  assert (Hslot : forall x, ptr_of C = PSlot x -> x ∈ cover (cregs C)).
  { intros x Hx. destruct C as [|f C']; [done|]. injection Hx as <-. inversion Hok; subst.
    simpl. rewrite cover_cons. apply elem_of_app. left. simpl. by eapply f_slot_region. }
  assert (Hmem : forall x, ptr_of C <> PSlot x -> mget (t_mem s2) x = mget (t_mem s1) x).
  { intros x Hx. unfold s2. destruct C as [|f C']; [done|]. simpl. apply mget_mset_ne. intros <-. done. }
  assert (Hsafe2 : forall r x, safe_from s1 r x -> safe_from s2 r x) by (intros; by apply (safe_from_ext s1)).
  split; simpl; try congruence.
  - unfold s2. destruct C as [|f C']; [done|]. 
    change (t_root s1 = enc_root (Some (plug (f :: C') t'))). rewrite U1. apply enc_root_plug.
  - apply rep_plug. split.
    + eapply repC_update; [done| | | |].
      * rewrite cover_app in Hnd. by apply NoDup_app in Hnd as (_ & _ & ?).
      * pose proof (co_rep _ _ _ _ Hc) as Hrep. simpl in Hrep. by apply rep_plug in Hrep as [? _].
      * intros x Hx Hne. rewrite Hmem by done. apply (pr_mem _ _ _ _ Hp). eapply prepd_disj; [done|].
        simpl. rewrite regs_plug, cover_app. apply elem_of_app. by right.
      * intros x Hx. unfold s2. rewrite Hx. simpl. apply mget_mset_eq. apply enc_lt64.
        destruct C as [|f C']; [done|]. inversion Hok as [|? ? Hf _]; subst. apply (sbytes_mid _ _ _ _ Hf).
    + eapply rep_agree; [done|]. intros x Hx. apply Hmem. intros Hx'%Hslot. by eapply cover_disj.
  - by eapply wf_plug_replace; [apply Hc|].
  - by apply (alloc_inv_ext s1).
  - intros x Hx. unfold unused in Hx. rewrite E7 in Hx. rewrite Hmem; [by apply U5|]. intros H0%Hslot.
    revert Hx. eapply live_used; [exact Hinv|]. rewrite cover_app. apply elem_of_app. right. rewrite regs_plug, cover_app. apply elem_of_app. by right.
  - rewrite (len_ext s1) by done. done.
  - intros r x Hs Hr' He. auto.
  - intros x Hx. rewrite Hregs in Hx. auto.
  - intros r x Hs Hr' Hx. rewrite Hmem.
    + apply (pr_mem _ _ _ _ Hp). by apply (pr_safe _ _ _ _ Hp r x Hs).
    + intros H0%Hslot. apply Hx. rewrite regs_plug, cover_app. apply elem_of_app. by right.
Qed.

(** Publishing at the root of the tree. *)
Lemma upd_root s T s1 T' F G : core s T -> prepd s T s1 F ->
  F ++ oregs T ≡ₚ G ++ oregs T' -> from_option (wf []) True T' -> from_option (rep (t_mem s1)) True T' ->
  upd s T (pset s1 PRoot (enc_root T')) T' G (t_locks s) (t_rootLock s) (t_epoch s) 0.
Proof.
  intros Hc Hp HG Hw Hr. destruct (prepd_upd _ _ _ _ Hc Hp) as [U1 U2 U3 U4 U5 U6 U7 U8 U9 U10 U11 U12 U13 U14].
  split; try done.
  - apply (alloc_inv_ext s1); try done. eapply alloc_inv_perm; [exact HG|done].
  - intros r x Hs Hr' He. apply (safe_from_ext s1); auto.
  - intros x Hx. rewrite <- HG in Hx. auto.
  - intros r x Hs Hr' _. apply (pr_mem _ _ _ _ Hp). by apply (pr_safe _ _ _ _ Hp r x Hs).
Qed.

Lemma upd_locks s T s1 T1 G l rl e d l' : upd s T s1 T1 G l rl e d -> upd s T (set_locks s1 l') T1 G l' rl e d.
Proof.
  intros []. split; try done.
  - by apply (alloc_inv_ext s1).
  - intros r x Hs Hr He. apply (safe_from_ext s1); auto.
Qed.

Lemma upd_rootLock s T s1 T1 G l rl e d rl' : upd s T s1 T1 G l rl e d -> upd s T (set_rootLock s1 rl') T1 G l rl' e d.
Proof.
  intros []. split; try done.
  - by apply (alloc_inv_ext s1).
  - intros r x Hs Hr He. apply (safe_from_ext s1); auto.
Qed.

Lemma upd_items s T s1 T1 G l rl e d aid z : upd s T s1 T1 G l rl e d -> (aid < length (t_allocs s))%nat ->
  exists s2, add_items s1 aid z = Ok s2 /\ upd s T s2 T1 G l rl e (d + z)%Z.
Proof.
  intros [] Haid. rewrite <- up_nallocs0 in Haid.
  destruct (add_items_ok s1 aid z Haid) as (s2 & E & H1 & H2 & H3 & H4 & H5 & H6 & H7 & H8 & H9 & H10 & H11).
  exists s2. split; [done|]. split; try congruence; try (rewrite ?H3, ?H5; done).
  - by apply H2.
  - by apply (zeroed_ext s1).
  - lia.
  - intros r x Hs Hr He. auto.
Qed.

Lemma upd_recycle s T s1 T1 G l rl d aid node slots : upd s T s1 T1 ((node, slots) :: G) l rl (t_epoch s) d ->
  (aid < length (t_allocs s))%nat -> slots <> recyclerLen -> (0 < slots)%nat ->
  exists s2 e, recycle s1 aid node slots = Ok s2 /\ (e = t_epoch s \/ e = u64 (t_epoch s + 1)) /\ upd s T s2 T1 G l rl e d.
Proof.
  intros [] Haid Hsl Hsp. rewrite <- up_nallocs0 in Haid.
  destruct (recycle_ok s1 aid node slots _ up_alloc0 Haid Hsl Hsp) as
    (s2 & E & H1 & H2 & H3 & H4 & H5 & H6 & H7 & H8 & H9 & H10 & H11 & H12).
  exists s2, (t_epoch s2). split; [done|]. rewrite up_epoch0 in H10. split; [done|].
  split; try congruence; try (rewrite ?H2, ?H4; done).
  - by apply (zeroed_ext s1).
  - intros r x Hs Hr He. destruct (decide (x ∈ seqN node slots)).
    + apply H12; [done|]. lia.
    + apply H11; auto.
  - intros x Hx. apply up_fresh0. simpl. rewrite cover_cons. apply elem_of_app. by right.
Qed.

Lemma recycle_258 s aid node : recycle s aid node recyclerLen = Panic OutOfRange.
Proof. done. Qed.

(** Writing one slot of a node-256. *)
Lemma upd_slot256 s C a pfx cs cs' b w : core s (Some (plug C (Node true a pfx cs))) ->
  b < 256 -> wf (path_of C) (Node true a pfx cs') ->
  w = default 0 (enc b <$> assoc b cs') ->
  (forall b', b' <> b -> assoc b' cs' = assoc b' cs) ->
  (forall c, c ∈ cs' -> c ∈ cs \/ is_leaf c.2 = true) ->
  (forall c, c ∈ cs -> is_leaf c.2 = false -> c ∈ cs') ->
  upd s (Some (plug C (Node true a pfx cs))) (pset s (PSlot (slot_of true a pfx b 0)) w) (Some (plug C (Node true a pfx cs')))
    [] (t_locks s) (t_rootLock s) (t_epoch s) 0.
Proof.
  intros Hc Hb Hw -> Has Hn1 Hn2.
  set (t := Node true a pfx cs) in *. set (t' := Node true a pfx cs').
  destruct (sub_facts _ _ _ _ _ Hc) as (Hw0 & Hrep0 & Hreg0).
  set (x0 := slot_of true a pfx b 0).
  assert (Hx0 : x0 ∈ seqN a (nslots true pfx (length cs))).
  { apply elem_of_seqN. unfold x0, slot_of, slot_idx, nslots, ncount. lia. }
  assert (Hregs : regs t' ≡ₚ regs t).
  { unfold t, t'. rewrite !regs_node. change (nslots true pfx (length cs')) with (nslots true pfx (length cs)). f_equiv.
    assert (Hf : forall l : list (N * trie), l ≫= (fun c => regs c.2) = filter (fun c => is_leaf c.2 = false) l ≫= (fun c => regs c.2)).
    { induction l as [|[b' [k v|full' a' p' cs'']] l IH]; [done|..].
      - rewrite filter_cons_False by done. by rewrite <- IH.
      - rewrite filter_cons_True by done. rewrite !bind_cons. by rewrite IH. }
    rewrite (Hf cs), (Hf cs'). apply bind_Permutation. (* same children *)
    apply NoDup_Permutation.
    - apply NoDup_filter. apply wf_node_iff in Hw as (Hs & _). apply sbytes_NoDup in Hs. by apply NoDup_fmap_1 in Hs.
    - apply NoDup_filter. apply wf_node_iff in Hw0 as (Hs & _). apply sbytes_NoDup in Hs. by apply NoDup_fmap_1 in Hs.
    - intros c. rewrite !elem_of_list_filter. split; intros [H1 H2].
      + split; [done|]. destruct (Hn1 _ H2) as [|H3]; [done|congruence].
      + split; [done|]. by apply Hn2. }
  assert (HregsT : regs (plug C t') ≡ₚ regs (plug C t)) by (rewrite !regs_plug; by rewrite Hregs).
  pose proof (co_alloc _ _ _ _ Hc) as Hall. simpl in Hall.
  assert (Hnd : NoDup (cover (regs t ++ cregs C))).
  { destruct Hall as [Hn _ _ _ _ _]. rewrite cover_app in Hn. apply NoDup_app in Hn as (Hn & _). by rewrite <- regs_plug. }
  assert (Hmem : forall x, x <> x0 -> mget (t_mem (pset s (PSlot x0) (default 0 (enc b <$> assoc b cs')))) x = mget (t_mem s) x).
  { intros x Hx. simpl. by apply mget_mset_ne. }
  assert (Hx0t : x0 ∈ cover (regs t)) by (unfold t; rewrite regs_node, cover_cons; apply elem_of_app; by left).
  split; simpl; try done.
  - rewrite (co_root _ _ _ _ Hc). destruct C as [|f C']; [done|]. apply enc_root_plug.
  - pose proof (co_rep _ _ _ _ Hc) as Hrep. simpl in Hrep. apply rep_plug in Hrep as [HrC _]. apply rep_plug. split.
    + change (hole_word C t') with (hole_word C t). eapply repC_agree; [done|]. intros x Hx. apply Hmem. intros ->.
      by eapply cover_disj.
    + apply rep_node_iff in Hrep0 as [[Hpf Hnm] Hch]. apply rep_node_iff. split.
      * split.
        -- eapply prefix_at_agree; [done|]. intros x Hx. apply Hmem. intros ->. rewrite elem_of_seqN in Hx.
           unfold x0, slot_of, slot_idx in Hx. lia.
        -- intros b' Hb'. rewrite assoc_bws. destruct (decide (b' = b)) as [->|Hne].
           ++ apply mget_mset_eq. destruct (assoc b cs'); [|done]. by apply enc_lt64.
           ++ rewrite (Has _ Hne). rewrite <- (assoc_bws b' cs), <- (Hnm b' Hb'). apply Hmem.
              unfold x0, slot_of, slot_idx. lia.
      * rewrite Forall_forall in Hch |- *. intros c Hin. destruct (Hn1 _ Hin) as [Hin'|Hl].
        -- eapply rep_agree; [by apply Hch|]. intros x Hx. apply Hmem. intros ->.
           unfold t in Hnd. rewrite regs_node in Hnd. simpl in Hnd. rewrite cover_cons in Hnd.
           apply NoDup_app in Hnd as (_ & Hnd & _). apply (Hnd x0 Hx0). rewrite cover_app. apply elem_of_app. left.
           apply elem_of_cover in Hx as (r & Hr & Hx). apply elem_of_cover. exists r. split; [|done].
           apply elem_of_list_bind. by exists c.
        -- destruct c as [? [|]]; [constructor|done].
  - eapply wf_plug_replace; [apply Hc|done].
  - eapply alloc_inv_perm; [by symmetry|]. by apply (alloc_inv_ext s).
  - intros x Hx. simpl. rewrite mget_mset_ne; [by apply (co_zero _ _ _ _ Hc)|]. intros <-.
    revert Hx. eapply (live_used s); [exact Hall|]. rewrite regs_plug, cover_app. apply elem_of_app. by left.
  - rewrite (len_ext s) by done. lia.
  - intros r x Hs _ _. by apply (safe_from_ext s).
  - intros x Hx. left. by rewrite <- HregsT.
  - intros r x _ _ Hx. apply Hmem. intros ->. apply Hx. rewrite regs_plug, cover_app. apply elem_of_app. left.
    rewrite Hregs. exact Hx0t.
Qed.
End Change.
