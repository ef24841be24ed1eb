(** * StepPhase: what Finalize and Abort do before and after the access that takes effect.
    Before it they read, scan the reservations, take memory and write only to the memory they have taken.  After it
    they give back their locks and use the epoch, the reservation and their own allocator. *)
From Verif Require Export StepPath.

(** Before: the values the scans have seen and the memory taken.  After: whether the epoch may still be incremented,
    the lock words to be given back, in this order, and whether the root lock is. *)
Inductive phase :=
| PA (L : list N) (F : list (N * nat))
| PB (b : bool) (l : list N) (r : bool).

(** The order of [w_unlock3]. *)
Definition uids3 (child node parent : N) : list N :=
  if parent =? 0 then lids2 child node
  else [lock_id parent] ++ (if lock_id node =? lock_id parent then [] else [lock_id node])
       ++ (if (lock_id child =? lock_id parent) || (lock_id child =? lock_id node) then [] else [lock_id child]).

(** The lock words a call gives back, in this order. *)
Definition uorder (c : call) (hd : handle) : list N :=
  match c, hd with
  | CFinD _, HD _ op => match d_kind op with replaceNodeWithNode => uids3 (d_child op) (d_node op) (d_parent op) | _ => dlids op end
  | CAbortD _, HD _ op => match d_kind op with replaceNodeWithNode => uids3 (d_parent op) (d_node op) (d_child op) | _ => dlids op end
  | _, _ => olids hd
  end.

Section Phase.
(** [n]: the number of reservations; [aid]: the client; [U], [rt]: the lock words it gives back, in this order, and whether it
    gives back the root lock. *)
Context (n aid : nat) (U : list N) (rt : bool).

Definition whole (L : list N) : Prop := exists j, length L = (j * n)%nat.

Definition ph_act (σ : phase) (a : wact) (C : phase -> N -> Prop) : Prop :=
  match σ with
  | PA L F =>
    match a with
    | WLoad _ | WBlock _ => forall v, C σ v
    | WSet d i _ => sl_base d + N.of_nat i ∈ cover F /\ forall v, C σ v
    | WBytes d pfx => (forall x, x ∈ seqN (sl_base d) (prefix_slots (length pfx)) -> x ∈ cover F) /\ forall v, C σ v
    | WPub q _ => (exists x, q = PSlot x /\ x ∈ cover F /\ forall v, C σ v) \/ forall v, C (PB true U rt) v
    | WSwap _ _ _ => forall v, C (PB true U rt) v
    | WResv i => i = (length L mod n)%nat /\ forall v, C (PA (L ++ [v]) F) v
    | WTake a' slots m => a' = aid /\ (1 <= slots)%nat /\ N.of_nat slots <= 262142 /\
        (exists L0 L1, L = L0 ++ L1 /\ whole L0 /\ length L1 = n /\ m = minl L1) /\ forall v, C (PA L ((v, slots) :: F)) v
    | _ => False
    end
  | PB b l r =>
    match a with
    | WUnlock i => exists l', l = i :: l' /\ forall v, C (PB b l' r) v
    | WUnlockRoot => r = true /\ forall v, C (PB b l false) v
    | WEpoch | WKeep _ _ _ _ | WFlush _ | WItems _ _ => forall v, C σ v
    | WTick => b = true /\ forall v, C (PB false l r) v
    | WEnd a' => a' = aid /\ forall v, C σ v
    | _ => False
    end
  end.

Fixpoint ph {A} (σ : phase) (p : wprog A) (Q : phase -> A -> Prop) {struct p} : Prop :=
  match p with
  | WRet a => Q σ a
  | WStop _ => match σ with PA _ _ => True | PB _ _ _ => False end
  | WDo a k => ph_act σ a (fun σ' v => ph σ' (k v) Q)
  end.

Lemma ph_act_mono σ a (C C' : phase -> N -> Prop) : (forall σ' v, C σ' v -> C' σ' v) -> ph_act σ a C -> ph_act σ a C'.
Proof. intros H. destruct σ as [L F|b l r], a; simpl; naive_solver. Qed.

Lemma ph_mono {A} σ (p : wprog A) (Q Q' : phase -> A -> Prop) : (forall σ' a, Q σ' a -> Q' σ' a) -> ph σ p Q -> ph σ p Q'.
Proof.
  intros H. revert σ. induction p as [a|e|a k IH]; intros σ; simpl; [apply H|done|]. apply ph_act_mono. intros σ' v. apply IH.
Qed.

Lemma ph_bind {A B} σ (p : wprog A) (k : A -> wprog B) Q : ph σ p (fun σ' a => ph σ' (k a) Q) -> ph σ (wbind p k) Q.
Proof.
  revert σ. induction p as [a|e|a c IH]; intros σ; simpl; [done|done|]. apply ph_act_mono. intros σ' v. apply IH.
Qed.

(** The rest follows for all results of the first part. *)
Lemma ph_seq {A B} σ (p : wprog A) (k : A -> wprog B) (R : phase -> A -> Prop) Q :
  ph σ p R -> (forall σ' a, R σ' a -> ph σ' (k a) Q) -> ph σ (wbind p k) Q.
Proof. intros H1 H2. apply ph_bind. by eapply ph_mono. Qed.

Lemma ph_res {A B} L F (r : res A) (k : A -> wprog B) Q : (forall a, r = Ok a -> ph (PA L F) (k a) Q) -> ph (PA L F) (wbind (w_res r) k) Q.
Proof. intros H. destruct r as [a| | |]; simpl; [by apply H|done..]. Qed.

(** ** Taking memory *)

Lemma ph_min F L0 : whole L0 -> forall k i m L1, (i + k)%nat = n -> length L1 = i -> 
  m = fold_left (fun m r => if r <? m then r else m) L1 maxUint64 ->
  ph (PA (L0 ++ L1) F) (w_min i k m) (fun σ' v => exists L', σ' = PA (L0 ++ L') F /\ length L' = n /\ v = minl L').
Proof.
  intros [j Hj]. induction k as [|k IH]; intros i m L1 Hn Hi Hm; cbn [w_min].
  - exists L1. split_and!; [done|lia|done].
  - apply ph_bind. cbn [w_do ph ph_act]. split.
    + rewrite app_length, Hj, Hi. rewrite Nat.add_comm, Nat.mod_add by lia. rewrite Nat.mod_small by lia. done.
    + intros v. rewrite <- app_assoc. apply IH; [lia|rewrite app_length; simpl; lia|]. rewrite fold_left_app. simpl. by rewrite <- Hm.
Qed.

Lemma ph_new F L slots : whole L -> (1 <= slots)%nat -> N.of_nat slots <= 262142 ->
  ph (PA L F) (w_new n aid slots) (fun σ' x => exists L', whole L' /\ σ' = PA L' ((x, slots) :: F)).
Proof.
  intros HL H1 H2. unfold w_new. eapply ph_seq.
  - pose proof (ph_min F L HL n 0%nat maxUint64 [] eq_refl eq_refl eq_refl) as H. rewrite app_nil_r in H. exact H.
  - intros σ' m (L' & -> & HL' & ->). cbn [w_do ph ph_act]. split_and!; try done.
    + exists L, L'. done.
    + intros v. exists (L ++ L'). split; [|done]. destruct HL as [j Hj]. exists (S j). rewrite app_length, Hj, HL'. simpl. lia.
Qed.

Lemma ph_data L F x : ph (PA L F) (w_data x) (fun σ' d => σ' = PA L F /\ sl_base d = x).
Proof. by intros v. Qed.

(** The node taken is the first region. *)
Definition got (F : list (N * nat)) (slots off : nat) (σ : phase) (r : N * slice) : Prop :=
  exists L', whole L' /\ σ = PA L' ((r.1, slots) :: F) /\ sl_base r.2 = r.1 + N.of_nat off.

Lemma ph_allocate F L count pl : whole L -> (1 <= count)%nat -> N.of_nat (count + prefix_slots pl) <= 262142 ->
  ph (PA L F) (w_allocate n aid count pl) (got F (count + prefix_slots pl) 0).
Proof.
  intros HL H1 H2. unfold w_allocate. eapply ph_seq; [apply ph_new; (done || lia)|]. intros σ' x (L' & HL' & ->).
  eapply ph_seq; [apply ph_data|]. intros σ' d [-> Hd]. exists L'. split_and!; [done|done|]. simpl. lia.
Qed.

Lemma ph_allocate_prefix F L count pfx : whole L -> (1 <= count)%nat -> N.of_nat (count + prefix_slots (length pfx)) <= 262142 ->
  ph (PA L F) (w_allocate_prefix n aid count pfx) (got F (count + prefix_slots (length pfx)) (prefix_slots (length pfx))).
Proof.
  intros HL H1 H2. unfold w_allocate_prefix. eapply ph_seq; [apply ph_new; (done || lia)|]. intros σ' x (L' & HL' & ->).
  eapply ph_seq; [apply ph_data|]. intros σ' d [-> Hd]. destruct pfx as [|b p].
  { exists L'. split_and!; [done|done|]. simpl. rewrite Hd. change (prefix_slots 0) with 0%nat. lia. }
  apply ph_bind. cbn [w_do ph ph_act]. split.
  - intros y Hy. rewrite cover_cons. apply elem_of_app. left. rewrite Hd in Hy. apply elem_of_seqN in Hy. apply elem_of_seqN. cbn [fst snd]. lia.
  - intros _. apply ph_res. intros d'. unfold sl_from. destruct (_ <=? _); [|done]. intros [= <-]. exists L'. split_and!; [done|done|].
    cbn [fst snd sl_base]. by rewrite Hd.
Qed.

(** ** Writing to it *)

Definition stay (L : list N) (F : list (N * nat)) {A} (σ : phase) (a : A) : Prop := σ = PA L F.

Lemma ph_set L F d i w : sl_base d + N.of_nat i ∈ cover F -> ph (PA L F) (w_do (WSet d i w)) (stay L F).
Proof. done. Qed.

Lemma in_first F x slots i : i < N.of_nat slots -> x + i ∈ cover ((x, slots) :: F).
Proof. intros H. rewrite cover_cons. apply elem_of_app. left. apply elem_of_seqN. cbn [fst snd]. lia. Qed.

Lemma ph_children L F d x slots off a b : sl_base d = x + N.of_nat off -> (2 + off <= slots)%nat ->
  ph (PA L ((x, slots) :: F)) (w_children d a b) (stay L ((x, slots) :: F)).
Proof.
  intros Hd Hs. assert (Hi : forall i, (i < 2)%nat -> sl_base d + N.of_nat i ∈ cover ((x, slots) :: F)).
  { intros i Hi. rewrite Hd, <- N.add_assoc. apply in_first. lia. }
  unfold w_children. destruct (_ <? _); (split; [apply Hi; lia|]; intros ?; split; [apply Hi; lia|]; done).
Qed.

Lemma ph_words L F k : forall b, ph (PA L F) (w_words b k) (fun σ' ws => σ' = PA L F /\ length ws = k).
Proof.
  induction k as [|k IH]; intros b; [done|]. cbn [w_words]. apply ph_bind. intros w. eapply ph_seq; [apply IH|].
  intros σ' ws [-> Hw]. simpl. by rewrite Hw.
Qed.

Lemma ph_write L F ws : forall b, (forall y, y ∈ seqN b (length ws) -> y ∈ cover F) -> ph (PA L F) (w_write b ws) (stay L F).
Proof.
  induction ws as [|w ws IH]; intros b Hb; [done|]. cbn [w_write]. apply ph_bind. left. exists b. split_and!; [done| |].
  - apply Hb. apply elem_of_seqN. simpl. lia.
  - intros ?. apply IH. intros y Hy. apply Hb. apply elem_of_seqN in Hy. apply elem_of_seqN. simpl. lia.
Qed.

Lemma ph_copy L F d src i k : (forall y, y ∈ seqN (sl_base d) k -> y ∈ cover F) -> ph (PA L F) (w_copy d src i k) (stay L F).
Proof.
  intros Hd. unfold w_copy. destruct (_ <=? _); [|done]. eapply ph_seq; [apply ph_words|]. intros σ' ws [-> Hw]. apply ph_write.
  intros y Hy. apply Hd. apply elem_of_seqN in Hy. apply elem_of_seqN. rewrite take_length in Hy. lia.
Qed.

Lemma ph_scatter L F ws d : (forall y, y ∈ seqN (sl_base d) 256 -> y ∈ cover F) -> ph (PA L F) (w_scatter d ws) (stay L F).
Proof.
  intros Hd. induction ws as [|w ws IH]; [done|]. cbn [w_scatter]. apply ph_bind. split; [|intros ?; apply IH].
  apply Hd. apply elem_of_seqN. pose proof (to_byte_lt w). lia.
Qed.

(** ** Afterwards *)

Definition after {A} (σ : phase) (a : A) : Prop := exists b, σ = PB b [] false.
Definition fresh {A} (σ : phase) (a : A) : Prop := σ = PB true U rt.

Lemma ph_unlock b i l r : ph (PB b (i :: l) r) (w_unlock i) (fun σ _ => σ = PB b l r).
Proof. by exists l. Qed.

Lemma ph_unlock2 b node parent r : ph (PB b (lids2 node parent) r) (w_unlock2 node parent) (fun σ _ => σ = PB b [] r).
Proof.
  unfold w_unlock2, lids2. destruct (N.eqb_spec parent 0) as [E|E]; [apply ph_unlock|]. rewrite (N.eqb_sym (lock_id node)).
  destruct (N.eqb_spec (lock_id parent) (lock_id node)) as [E2|E2].
  - rewrite E2. eapply ph_seq; [apply ph_unlock|]. by intros σ _ ->.
  - eapply ph_seq; [apply ph_unlock|]. intros σ _ ->. apply ph_unlock.
Qed.

Lemma ph_unlock3 b child node parent r : ph (PB b (uids3 child node parent) r) (w_unlock3 child node parent) (fun σ _ => σ = PB b [] r).
Proof.
  unfold w_unlock3, uids3. destruct (N.eqb_spec parent 0) as [E|E]; [apply ph_unlock2|].
  eapply ph_seq; [apply ph_unlock|]. intros σ _ ->.
  destruct (_ =? _); cbn [app]; eapply (ph_seq _ _ _ (fun σ _ => σ = PB b (if (lock_id child =? lock_id parent) || (lock_id child =? lock_id node) then [] else [lock_id child]) r));
    [done| |apply ph_unlock|]; intros σ _ ->; (destruct (_ || _); [done|apply ph_unlock]).
Qed.

Lemma ph_recycle a x slots l r : slots <> recyclerLen -> ph (PB true l r) (w_recycle a x slots) (fun σ _ => exists b, σ = PB b l r).
Proof.
  intros H. unfold w_recycle. destruct (Nat.ltb_spec recyclerLen slots); [by eexists|]. destruct (Nat.leb_spec recyclerLen slots); [lia|].
  apply ph_bind. intros e. apply ph_bind. intros f. cbn [ph]. destruct (f =? 0); [by exists true|]. cbn [wbind w_do ph ph_act]. split; [done|]. intros v1 v2. by exists false.
Qed.

Lemma ph_items b l r a d : ph (PB b l r) (w_items a d) (fun σ _ => σ = PB b l r).
Proof. done. Qed.
Lemma ph_count_if b l r u a : ph (PB b l r) (w_count_if u a) (fun σ _ => σ = PB b l r).
Proof. by destruct u. Qed.
Lemma ph_end b l r : ph (PB b l r) (w_end aid) (fun σ _ => σ = PB b l r).
Proof. done. Qed.
Lemma ph_unlock_root b l : ph (PB b l true) w_unlock_root (fun σ _ => σ = PB b l false).
Proof. done. Qed.
Lemma ph_swap L F q old new : ph (PA L F) (w_swap q old new) fresh.
Proof. by intros v. Qed.
Lemma ph_pub L F q w : ph (PA L F) (w_pub q w) fresh.
Proof. right. by intros v. Qed.
End Phase.

Section FinPhase.
Context (K : list N -> Prop) (fetch : N -> list N) (HK : universe K).
Local Notation core := (core K fetch).
Local Notation hok := (hok K fetch).

Lemma whole_nil n : whole n [].
Proof. by exists 0%nat. Qed.

(** Sizes of live nodes. *)
Lemma occ_sizes s T o : core s T -> ooccr T o ->
  (1 <= ncount (o_full o) (length (o_hs o)) <= 256)%nat /\
  (o_full o = false -> (ncount (o_full o) (length (o_hs o)) = length (o_hs o))%nat) /\
  (forall c m, (c <= 256)%nat -> (m <= length (o_pfx o))%nat -> N.of_nat (c + prefix_slots m) <= 262142).
Proof.
  intros Hc Ho. destruct T as [t|]; [|done]. destruct (occ_zip _ _ Ho) as (C & cs & -> & E1 & E2 & E3 & E4).
  destruct (sub_facts _ _ _ _ _ Hc) as (Hw & _). pose proof (ncount_bounds _ _ _ _ _ _ _ Hw) as [Hcb _].
  rewrite E4, heads_length. split_and!; try lia; try done.
  - intros ->. done.
  - apply (pfx_facts K fetch HK _ _ _ _ _ Hw).
Qed.

(** The merged node fits. *)
Lemma merge_sizes s t o b1 b2 me cfull ca cpfx cn : core s (Some t) -> ooccr (Some t) o -> o_full o = false ->
  o_hs o = [(b1, me); (b2, HNode cfull ca cpfx cn)] \/ o_hs o = [(b2, HNode cfull ca cpfx cn); (b1, me)] ->
  (1 <= cn)%nat /\ N.of_nat (cn + prefix_slots (length (o_pfx o ++ [b2] ++ cpfx))) <= 262142.
Proof.
  intros Hc Ho Hof Hhs. destruct (occ_zip _ _ Ho) as (C & cs & -> & E1 & E2 & E3 & E4). rewrite E4 in Hhs. rewrite Hof in *.
  assert (Hin : exists ch, (b2, ch) ∈ cs /\ head_of ch = HNode cfull ca cpfx cn).
  { destruct (heads_two cs b1 me b2 (HNode cfull ca cpfx cn) Hhs) as (t1 & t2 & Hp & Ht1 & Ht2).
    exists t2. split; [rewrite Hp; right; left|done]. }
  destruct Hin as (ch & Hin & Hch). destruct ch as [k v|f' a' p' ccs]; [done|]. simpl in Hch. injection Hch as -> -> -> <-.
  destruct (elem_of_list_split _ _ Hin) as (cl & cr & Ecs).
  assert (Hc2 : core s (Some (plug (Frame false (o_addr o) (o_pfx o) cl b2 cr :: C) (Node cfull ca cpfx ccs)))).
  { simpl. unfold fill. simpl. by rewrite <- Ecs. }
  destruct (sub_facts _ _ _ _ _ Hc2) as (Hwc & _). pose proof (ncount_bounds _ _ _ _ _ _ _ Hwc) as [Hcb _].
  apply wf_node_iff in Hwc as (_ & _ & (k0 & b0 & Hk0 & Hq0) & _). simpl path_of in Hq0.
  destruct (key_facts _ HK k0 (path_of C ++ o_pfx o ++ [b2] ++ cpfx) Hk0) as [_ Hsz].
  { etrans; [|exact Hq0]. exists [b0]. by rewrite <- !app_assoc. }
  split; [lia|]. apply Hsz; [lia|]. rewrite !app_length. lia.
Qed.

Tactic Notation "nx" tactic3(t) := eapply ph_seq; [t|let H := fresh in intros ? ? H; hnf in H; subst].

Lemma upd_phase n aid s T q f op fk m v : core s T -> hok s T aid q (HU f op) -> fin_size (HU f op) <> recyclerLen ->
  ph n aid (olids (HU f op)) (oroot (HU f op)) (PA [] []) (w_finalize_update n op fk m v) after.
Proof.
  intros Hc (_ & Ha & Hkey & Hv) Hfs. unfold w_finalize_update. rewrite Ha. eapply (ph_seq _ _ _ _ _ _ _ after).
  2:{ intros σ u [b ->]. eapply ph_seq; [apply ph_end|]. intros ? ? ->. by eexists. }
  unfold w_finalize_update_body. rewrite Ha. cbn [olids oroot fin_size] in *. unfold ulids. destruct (u_isroot (u_kind op)) eqn:Er.
  - destruct Hv as (_ & HKk & _ & Hv). destruct (u_kind op) eqn:Ek; try done.
    + nx (apply ph_swap). nx (apply ph_unlock_root). nx (apply ph_count_if). by eexists.
    + eapply ph_seq; [apply ph_allocate; [apply whole_nil|lia|done]|]. intros σ [x d] (L & _ & -> & Hd). cbn [fst snd] in *.
      nx (eapply ph_children; [exact Hd|simpl; lia]). nx (apply ph_swap). nx (apply ph_unlock_root). nx (apply ph_count_if). by eexists.
    + destruct m. { nx (apply ph_swap). nx (apply ph_unlock_root). by eexists. }
      apply ph_res. intros pl _. eapply ph_seq.
      { apply ph_allocate_prefix; [apply whole_nil|lia|]. apply (key_facts K HK (p_key q) (p_key q)); [done..|lia|]. rewrite Hkey, take_length. lia. }
      intros σ [x d] (L & _ & -> & Hd). cbn [fst snd] in *. apply ph_res. intros ka _. apply ph_res. intros kb _.
      nx (eapply ph_children; [exact Hd|lia]). nx (apply ph_swap). nx (apply ph_count_if). nx (apply ph_unlock_root). by eexists.
  - destruct Hv as (o & Ho & [Hb Hk]). destruct (occ_sizes _ _ _ Hc Ho) as (Hcnt & Hcf & Hsz). rewrite <- (ub_count _ _ _ _ Hb) in Hcnt, Hcf.
    assert (Hslots : u_prefixSlots op = prefix_slots (length (u_prefix op))) by (rewrite (ub_prefix _ _ _ _ Hb); apply Hb).
    assert (Hpfx : (length (u_prefix op) <= length (o_pfx o))%nat) by (by rewrite (ub_prefix _ _ _ _ Hb)).
    assert (Htail : forall z, ph n aid (lids2 (u_node op) (u_parent op)) false (PB true (lids2 (u_node op) (u_parent op)) false)
      (go _ <- w_unlock_uop op; go _ <- w_recycle aid (u_node op) (u_count op + u_prefixSlots op); go _ <- w_items aid z; WRet true) after).
    { intros z. nx (apply ph_unlock2). eapply ph_seq; [by apply ph_recycle|]. intros σ _ [b ->]. nx (apply ph_items). by eexists. }
    assert (Hupd : ph n aid (lids2 (u_node op) (u_parent op)) false (PA [] []) (if m then
        go u <- w_swap (u_leafPtr op) (u_currentLeaf op) (buildLeaf (u_k op) v); go _ <- w_unlock_uop op; WRet u
      else
        go a <- w_res (key_at (u_key op) (u_depth op + 1 + common_prefix (drop (u_depth op + 1) (u_key op)) (drop (u_depth op + 1) fk)));
        go b <- w_res (key_at fk (u_depth op + 1 + common_prefix (drop (u_depth op + 1) (u_key op)) (drop (u_depth op + 1) fk)));
        go (x, d) <- w_allocate_prefix n aid 2 (take (common_prefix (drop (u_depth op + 1) (u_key op)) (drop (u_depth op + 1) fk)) (drop (u_depth op + 1) (u_key op)));
        go _ <- w_children d (buildLeaf a v) (updateLeafKey (u_currentLeaf op) b);
        go u <- w_swap (u_leafPtr op) (u_currentLeaf op) (buildNode (u_k op) x 2 (common_prefix (drop (u_depth op + 1) (u_key op)) (drop (u_depth op + 1) fk)));
        go _ <- w_count_if u aid; go _ <- w_unlock_uop op; WRet u) after).
    { destruct m. { nx (apply ph_swap). nx (apply ph_unlock2). by eexists. }
      apply ph_res. intros ka _. apply ph_res. intros kb _. eapply ph_seq.
      { apply ph_allocate_prefix; [apply whole_nil|lia|]. apply (key_facts K HK (p_key q) (p_key q)); [apply Hb|done|lia|].
        rewrite Hkey, take_length, drop_length. lia. }
      intros σ [x d] (L & _ & -> & Hd). cbn [fst snd] in *.
      nx (eapply ph_children; [exact Hd|lia]). nx (apply ph_swap). nx (apply ph_count_if). nx (apply ph_unlock2). by eexists. }
    unfold ukind_ok in Hk. destruct (u_kind op) eqn:Ek; try done.
    + (* nodePrefixMiss *)
      destruct Hk as (_ & b & c & Hb1 & _). rewrite <- (ub_prefix _ _ _ _ Hb) in Hb1. apply lookup_lt_Some in Hb1.
      apply ph_res. intros ka _. apply ph_res. intros kb _. cbv zeta. eapply ph_seq.
      { apply ph_allocate_prefix; [apply whole_nil|lia|]. apply Hsz; [lia|]. rewrite drop_length. lia. }
      intros σ [x d] (L & HL & -> & Hd). cbn [fst snd] in *. apply ph_res. intros src _.
      nx (apply ph_copy; rewrite Hd; intros y Hy; apply elem_of_seqN in Hy; replace y with (x + (y - x)) by lia; apply in_first; lia).
      eapply ph_seq.
      { apply ph_allocate_prefix; [exact HL|lia|]. apply Hsz; [lia|]. rewrite take_length. lia. }
      intros σ [x2 d2] (L2 & _ & -> & Hd2). cbn [fst snd] in *.
      nx (eapply ph_children; [exact Hd2|lia]). nx (apply ph_pub). apply Htail.
    + (* nodeLeafInsert *)
      destruct Hk as ((_ & _ & Hk256) & Hof & hl & hr & Hhs & Hpos & _). specialize (Hcf Hof).
      assert (Hple : (u_position op <= u_count op)%nat) by (rewrite Hcf, Hhs, app_length; lia).
      destruct (Nat.ltb_spec (u_count op) fullAllocAfter) as [Hlt|Hge].
      * assert (fullAllocAfter <= 255)%nat by (vm_compute; lia).
        eapply ph_seq. { apply ph_allocate; [apply whole_nil|lia|]. apply Hsz; lia. }
        intros σ [x d] (L & _ & -> & Hd). cbn [fst snd] in *. cbv zeta.
        nx (apply ph_copy; rewrite Hd; intros y Hy; apply elem_of_seqN in Hy; replace y with (x + (y - x)) by lia; apply in_first; lia).
        nx (apply ph_set; rewrite Hd; rewrite <- N.add_assoc; apply in_first; lia).
        apply ph_res. unfold sl_from. intros d'. destruct (_ <=? _); [|done]. intros [= <-].
        nx (apply ph_copy; cbn [sl_base]; rewrite Hd; intros y Hy; apply elem_of_seqN in Hy; replace y with (x + (y - x)) by lia; apply in_first; lia).
        nx (apply ph_pub). apply Htail.
      * eapply ph_seq. { apply ph_allocate_prefix; [apply whole_nil|lia|]. apply Hsz; lia. }
        intros σ [x d] (L & _ & -> & Hd). cbn [fst snd] in *.
        assert (Hin : forall y, y ∈ seqN (sl_base d) 256 -> y ∈ cover ((x, (256 + prefix_slots (length (u_prefix op)))%nat) :: [])).
        { rewrite Hd. intros y Hy. apply elem_of_seqN in Hy. replace y with (x + (y - x)) by lia. apply in_first. lia. }
        apply ph_res. intros _ _. nx (apply ph_write; rewrite replicate_length; exact Hin).
        apply ph_res. intros src _. apply ph_res. intros _ _.
        nx (apply ph_set, Hin, elem_of_seqN; lia).
        eapply ph_seq; [apply ph_words|]. intros σ ws [-> _]. nx (by apply ph_scatter). nx (apply ph_pub). apply Htail.
    + (* nodeLeafInsert256 *)
      nx (apply ph_swap). nx (apply ph_count_if). nx (apply ph_unlock2). by eexists.
Qed.

Lemma del_phase n aid s T q key op : core s T -> hok s T aid q (HD key op) -> fin_size (HD key op) <> recyclerLen ->
  ph n aid (uorder (CFinD aid) (HD key op)) (oroot (HD key op)) (match d_kind op with notFound => PB true [] false | _ => PA [] [] end) (w_finalize_delete n op) after.
Proof.
  intros Hc (Ha & _ & _ & Hv) Hfs. unfold w_finalize_delete. rewrite Ha. eapply (ph_seq _ _ _ _ _ _ _ after).
  2:{ intros σ u [b ->]. nx (apply ph_end). by eexists. }
  unfold w_finalize_delete_body. rewrite Ha. cbn [olids oroot fin_size] in *. destruct (d_isroot (d_kind op)) eqn:Er.
  - destruct Hv as (Ek & _). unfold uorder, dlids. rewrite Ek. nx (apply ph_pub). nx (apply ph_unlock_root). nx (apply ph_items). by eexists.
  - unfold is_del256 in *. unfold uorder, dlids. destruct (d_kind op) eqn:Ek; try done; [by eexists|..].
    + (* deleteLeaf *)
      destruct Hv as (o & Ho & [Hb Hk]). unfold dkind_ok in Hk. rewrite Ek in Hk. destruct (occ_sizes _ _ _ Hc Ho) as (Hcnt & Hcf & Hsz).
      destruct Hk as (Hof & _ & Hd0 & Ec & H3 & Epl & Eps & hl & b & hr & Hhs & Hpos). specialize (Hcf Hof). rewrite Hcf, <- Ec in Hcnt.
      assert (Hlp : (d_leafPosition op < d_count op)%nat) by (rewrite Ec, Hhs, app_length; simpl; lia).
      rewrite <- Epl in Eps.
      eapply ph_seq. { apply ph_allocate; [apply whole_nil|lia|]. apply Hsz; lia. }
      intros σ [x d] (L & _ & -> & Hd). cbn [fst snd] in *. cbv zeta. apply ph_res. intros _ _.
      nx (apply ph_copy; rewrite Hd; intros y Hy; apply elem_of_seqN in Hy; replace y with (x + (y - x)) by lia; apply in_first; lia).
      apply ph_res. unfold sl_from. intros d'. destruct (_ <=? _); [|done]. intros [= <-].
      nx (apply ph_copy; cbn [sl_base]; rewrite Hd; intros y Hy; apply elem_of_seqN in Hy; replace y with (x + (y - x)) by lia; apply in_first; lia).
      nx (apply ph_pub). nx (apply ph_unlock2). eapply ph_seq; [by apply ph_recycle|]. intros σ _ [b' ->]. nx (apply ph_items). by eexists.
    + (* deleteLeaf256 *)
      nx (apply ph_swap). eapply (ph_seq _ _ _ _ _ _ _ (fresh [] false)); [by destruct a|]. intros ? _ ->. by eexists.
    + (* replaceNodeWithLeaf *)
      nx (apply ph_pub). nx (apply ph_unlock2). eapply ph_seq; [by apply ph_recycle|]. intros σ _ [b' ->]. nx (apply ph_items). by eexists.
    + (* replaceNodeWithNode *)
      destruct Hv as (o & Ho & [Hb Hk]). unfold dkind_ok in Hk. rewrite Ek in Hk.
      destruct Hk as (Hof & _ & b1 & b2 & cfull & ca & cpfx & cn & Hhs & Eca & Ed & Ecn & Eps & Epfx).
      destruct T as [t|]; [|done]. destruct (merge_sizes _ _ _ _ _ _ _ _ _ _ Hc Ho Hof Hhs) as (Hc1 & Hc2).
      assert (Hn0 : d_node op <> 0) by (rewrite (db_node _ _ Hb); by eapply occ_nonzero).
      eapply ph_seq. { apply ph_allocate_prefix; [apply whole_nil|lia|]. rewrite Epfx, Ecn. exact Hc2. }
      intros σ [x d] (L & _ & -> & Hd). cbn [fst snd] in *.
      nx (apply ph_copy; cbn [sl_base]; rewrite Hd; intros y Hy; apply elem_of_seqN in Hy; replace y with (x + (y - x)) by lia; apply in_first; lia).
      nx (apply ph_pub). nx (apply ph_unlock3).
      eapply ph_seq; [by apply ph_recycle|]. intros σ _ [b' ->]. nx (apply ph_items). by eexists.
Qed.

Lemma abort_u_phase n aid s T q f op : hok s T aid q (HU f op) ->
  ph n aid (olids (HU f op)) (oroot (HU f op)) (PB true (olids (HU f op)) (oroot (HU f op))) (w_abort_update op) after.
Proof.
  intros (_ & Ha & _ & Hv). unfold w_abort_update. rewrite Ha. eapply (ph_seq _ _ _ _ _ _ _ (fun σ _ => σ = PB true [] false)).
  - cbn [olids oroot]. unfold ulids. destruct (u_kind op); try (apply ph_unlock_root); apply ph_unlock2.
  - intros ? _ ->. eapply ph_mono; [|apply ph_end]. intros ? ? ->. by eexists.
Qed.

Lemma abort_d_phase n aid s T q key op : core s T -> hok s T aid q (HD key op) -> ~ root_merge op ->
  ph n aid (uorder (CAbortD aid) (HD key op)) (oroot (HD key op)) (PB true (uorder (CAbortD aid) (HD key op)) (oroot (HD key op))) (w_abort_delete op) after.
Proof.
  intros Hc (Ha & _ & _ & Hv) Hm. unfold w_abort_delete. rewrite Ha. eapply (ph_seq _ _ _ _ _ _ _ (fun σ _ => σ = PB true [] false)).
  - cbn [olids oroot]. unfold uorder, dlids. destruct (d_kind op) eqn:Ek; simpl in Hv; try done; try (apply ph_unlock2); try (apply ph_unlock3).
  - intros ? _ ->. eapply ph_mono; [|apply ph_end]. intros ? ? ->. by eexists.
Qed.

(** The phase a call begins in. *)
Definition start (c : call) (hd : handle) : phase :=
  match c, hd with
  | CFinU _ _ _ _, _ => PA [] []
  | CFinD _, HD _ op => match d_kind op with notFound => PB true [] false | _ => PA [] [] end
  | _, _ => PB true (uorder c hd) (oroot hd)
  end.

Lemma fin_phase n aid y T q hd c : core (sy_tree y) T -> hok (sy_tree y) T aid q hd -> sy_open y !! aid = Some hd ->
  fin_client c = Some aid -> proper K fetch y c -> fin_size hd <> recyclerLen ->
  ph n aid (uorder c hd) (oroot hd) (start c hd) (fin_prog n hd c) after.
Proof.
  intros Hc Hh Ho Hcl Hp Hfs. destruct c as [| |aid' fk m v|aid'| |aid'|aid'| |]; try done; injection Hcl as ->; cbn [proper] in Hp.
  - destruct Hp as (f & op & E & _). rewrite Ho in E. injection E as ->. cbn [fin_prog start].
    eapply ph_seq; [by eapply upd_phase|]. intros σ u [b ->]. by eexists.
  - destruct Hp as (f & op & E). rewrite Ho in E. injection E as ->. cbn [fin_prog start].
    eapply ph_seq; [by eapply abort_u_phase|]. intros σ u [b ->]. by eexists.
  - destruct Hp as (op & E). rewrite Ho in E. injection E as ->. cbn [fin_prog start].
    eapply ph_seq; [by eapply del_phase|]. intros σ u [b ->]. by eexists.
  - destruct Hp as (key & op & E & Hm). rewrite Ho in E. injection E as ->. cbn [fin_prog start].
    eapply ph_seq; [by eapply abort_d_phase|]. intros σ u [b ->]. by eexists.
Qed.
End FinPhase.
