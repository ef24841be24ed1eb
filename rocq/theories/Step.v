(** * Step: every proper API call preserves the invariant; what it replies; when it can
    panic or spin. *)
From Verif Require Export Restart Inv.

Section Step.
Context (K : list N -> Prop) (fetch : N -> list N) (HK : universe K).
Local Notation core := (core K fetch).
Local Notation wf := (wf K fetch).
Local Notation fin := (FinU.fin K fetch).
Local Notation hok := (hok K fetch).

Record inv (y : sys) (h : hist) (n : N) (T : option trie) (lost : nat) : Prop := {
  iv_core : core (sy_tree y) T;
  iv_locks : locks_inv (t_locks (sy_tree y)) (held (sy_open y));
  iv_rl : t_rootLock (sy_tree y) = N.of_nat (length (rootops (sy_open y)));
  iv_rl1 : (length (rootops (sy_open y)) <= 1)%nat;
  iv_ops : forall aid hd, sy_open y !! aid = Some hd ->
    exists p, h_pend h !! aid = Some p /\ hok (sy_tree y) T aid p hd;
  iv_none : forall aid, sy_open y !! aid = None -> h_pend h !! aid = None;
  iv_aid : forall aid hd, sy_open y !! aid = Some hd -> (aid < length (t_allocs (sy_tree y)))%nat;
  iv_resv : length (t_resv (sy_tree y)) = length (t_allocs (sy_tree y));
  iv_idle : forall aid r, t_resv (sy_tree y) !! aid = Some r -> sy_open y !! aid = None -> r = maxUint64;
  iv_busy : forall aid r hd, t_resv (sy_tree y) !! aid = Some r -> sy_open y !! aid = Some hd -> r <= t_epoch (sy_tree y);
  iv_epoch : t_epoch (sy_tree y) <= n;
  iv_maps : maps (h_map h) (h_susp h) T;
  iv_len : len (sy_tree y) = (Z.of_nat (length (ocontents T)) - Z.of_nat lost - h_off h)%Z;
  iv_lost : (lost <= h_nsusp h)%nat
}.

(** ** The initial state *)

Lemma init_items n : all_items (newTree n) = [].
Proof.
  unfold all_items. change (t_allocs (newTree n)) with (replicate n newAllocator).
  induction n as [|n IH]; [done|]. change (replicate (S n) newAllocator) with (newAllocator :: replicate n newAllocator).
  rewrite bind_cons, IH. done.
Qed.

Lemma init_bregs n : cover (all_bregs (newTree n)) = [].
Proof.
  unfold all_bregs. change (t_allocs (newTree n)) with (replicate n newAllocator).
  induction n as [|n IH]; [done|]. change (replicate (S n) newAllocator) with (newAllocator :: replicate n newAllocator).
  rewrite map_cons, cover_cons, IH. done.
Qed.

Lemma inv_init n : inv (init n) h0 0 None 0.
Proof.
  split; cbn [sy_tree sy_open init h_pend h_map h_susp h_nsusp h0]; try done.
  - split; try done. split; try done.
    + rewrite init_items. simpl. rewrite init_bregs. constructor.
    + rewrite init_items. simpl. apply Forall_forall. intros r Hr. apply elem_of_list_fmap in Hr as (a & -> & Ha).
        apply elem_of_replicate in Ha as [-> _]. left. by vm_compute.
    + apply Forall_forall. intros a Ha. simpl in Ha. apply elem_of_replicate in Ha as [-> _]. done.
    + apply Forall_forall. intros a Ha. simpl in Ha. apply elem_of_replicate in Ha as [-> _]. done.
    + rewrite init_items. constructor.
  - split; [constructor|]. intros i. split; [|by intros ?%elem_of_nil]. vm_compute. done.
  - vm_compute. lia.
  - simpl. by rewrite !replicate_length.
  - intros aid r Hr _. apply lookup_replicate in Hr as [-> _]. done.
  - split; [intros k v; by rewrite lookup_empty|by intros k v ?%elem_of_nil].
  - unfold len; simpl. induction n as [|n IH]; [done|]. simpl. done.
Qed.

(** ** Finishing an operation *)

Definition pends_to (f : pend -> pend) (h h' : hist) (aid : nat) : Prop :=
  h_pend h' !! aid = None /\ forall j, j <> aid -> h_pend h' !! j = f <$> h_pend h !! j.

Lemma small_epoch e n : e <= n -> n < maxUint64 -> u64 (e + 1) = e + 1.
Proof. intros H1 H2. unfold u64, maxUint64 in *. apply N.mod_small. change (2 ^ 64) with 18446744073709551616. lia. Qed.

Lemma inv_finish y h n T lost aid hd s' T' rl G d f h' lost' :
  inv y h n T lost -> n < maxUint64 -> sy_open y !! aid = Some hd ->
  fin (sy_tree y) T s' T' (held (delete aid (sy_open y))) rl G d ->
  rl = N.of_nat (length (rootops (delete aid (sy_open y)))) ->
  pends_to f h h' aid ->
  (t_resv s' = t_resv (sy_tree y) -> t_epoch (sy_tree y) <= t_epoch s' ->
   forall j hd' p, j <> aid -> sy_open y !! j = Some hd' -> h_pend h !! j = Some p ->
    hok (sy_tree y) T j p hd' -> hok s' T' j (f p) hd') ->
  maps (h_map h') (h_susp h') T' ->
  (Z.of_nat (length (ocontents T')) - Z.of_nat lost' = Z.of_nat (length (ocontents T)) - Z.of_nat lost + d)%Z ->
  (lost' <= h_nsusp h')%nat -> h_off h' = h_off h ->
  inv (Sys (end_op s' aid) (delete aid (sy_open y))) h' (n + 1) T' lost'.
Proof.
  intros Hi Hn Ho Hfin Hrl [Hp1 Hp2] Hok Hm Hlen Hlost Hoff.
  destruct Hfin as [(l & e & Hu & He & Hl) _ _].
  assert (Hcore : core s' T') by (by eapply upd_core).
  assert (Hepe : t_epoch s' = e) by apply Hu.
  assert (Hresv : t_resv s' = t_resv (sy_tree y)) by apply Hu.
  assert (Hna : length (t_allocs s') = length (t_allocs (sy_tree y))) by apply Hu.
  pose proof (iv_epoch _ _ _ _ _ Hi) as Hep. rewrite (small_epoch _ _ Hep Hn) in He.
  assert (Hep' : t_epoch (sy_tree y) <= t_epoch s') by lia.
  specialize (Hok Hresv Hep').
  split; cbn [sy_tree sy_open].
  - by apply (core_ext K fetch s').
  - simpl. by rewrite (up_locks _ _ _ _ _ _ _ _ _ _ _ Hu).
  - simpl. by rewrite (up_rl _ _ _ _ _ _ _ _ _ _ _ Hu).
  - pose proof (iv_rl1 _ _ _ _ _ Hi) as H. rewrite (rootops_delete _ _ _ Ho) in H. destruct (oroot hd); lia.
  - intros j hd' Hj. apply lookup_delete_Some in Hj as [Hne Hj].
    destruct (iv_ops _ _ _ _ _ Hi j hd' Hj) as (p & Hp & Hh). exists (f p). rewrite Hp2 by done. rewrite Hp. split; [done|].
    apply (hok_ext K fetch s'); try done; [simpl; by rewrite list_lookup_insert_ne|]. by apply Hok.
  - intros j Hj. destruct (decide (j = aid)) as [->|Hne]; [done|]. rewrite Hp2 by done.
    rewrite lookup_delete_ne in Hj by done. by rewrite (iv_none _ _ _ _ _ Hi j Hj).
  - intros j hd' Hj. apply lookup_delete_Some in Hj as [Hne Hj]. simpl. rewrite Hna. by eapply iv_aid.
  - simpl. rewrite insert_length, Hresv, Hna. apply Hi.
  - intros j r Hr Hj. simpl in Hr. destruct (decide (j = aid)) as [->|Hne].
    + apply list_lookup_insert_Some in Hr as [(_ & -> & _)|[? _]]; done.
    + rewrite list_lookup_insert_ne, Hresv in Hr by done. rewrite lookup_delete_ne in Hj by done. by eapply iv_idle.
  - intros j r hd' Hr Hj. apply lookup_delete_Some in Hj as [Hne Hj]. simpl in Hr |- *.
    rewrite list_lookup_insert_ne, Hresv in Hr by done. pose proof (iv_busy _ _ _ _ _ Hi _ _ _ Hr Hj). lia.
  - simpl. lia.
  - done.
  - assert (len (end_op s' aid) = len s') as -> by done. rewrite (up_len _ _ _ _ _ _ _ _ _ _ _ Hu), (iv_len _ _ _ _ _ Hi), Hoff. lia.
  - done.
Qed.

(** ** Starting an operation *)

Lemma inv_begin y h n T lost aid hd s1 key e :
  inv y h n T lost -> (aid < naids y)%nat -> sy_open y !! aid = None -> e <= t_epoch (sy_tree y) ->
  t_mem s1 = t_mem (sy_tree y) -> t_root s1 = t_root (sy_tree y) -> t_allocs s1 = t_allocs (sy_tree y) ->
  t_nextFreeBlock s1 = t_nextFreeBlock (sy_tree y) -> t_epoch s1 = t_epoch (sy_tree y) -> t_live s1 = t_live (sy_tree y) ->
  t_resv s1 = <[aid := e]> (t_resv (sy_tree y)) ->
  locks_inv (t_locks s1) (olids hd ++ held (sy_open y)) ->
  (if oroot hd then t_rootLock (sy_tree y) = 0 /\ t_rootLock s1 = 1 else t_rootLock s1 = t_rootLock (sy_tree y)) ->
  hok s1 T aid (Pend key false false) hd ->
  inv (Sys s1 (<[aid := hd]> (sy_open y))) (Hist (h_map h) (<[aid := Pend key false false]> (h_pend h)) (h_susp h) (h_nsusp h) (h_off h)) n T lost.
Proof.
  intros Hi Haid Ho He E1 E2 E3 E4 E5 E6 E7 Hl Hr Hok.
  assert (Hrl : t_rootLock s1 = N.of_nat (length (rootops (<[aid := hd]> (sy_open y)))) /\ (length (rootops (<[aid := hd]> (sy_open y))) <= 1)%nat).
  { rewrite rootops_insert by done. pose proof (iv_rl _ _ _ _ _ Hi). pose proof (iv_rl1 _ _ _ _ _ Hi). destruct (oroot hd); simpl; lia. }
  destruct Hrl as [Hrl1 Hrl2].
  split; cbn [sy_tree sy_open h_pend h_map h_susp h_nsusp]; try done.
  - apply (core_ext K fetch (sy_tree y)); try done. apply Hi.
  - eapply locks_inv_perm; [|exact Hl]. by rewrite held_insert.
  - intros j hd' Hj. destruct (decide (j = aid)) as [->|Hne].
    + rewrite lookup_insert in Hj. rewrite lookup_insert. injection Hj as <-. eauto.
    + rewrite lookup_insert_ne in Hj by done. rewrite lookup_insert_ne by done. destruct (iv_ops _ _ _ _ _ Hi j hd' Hj) as (p & Hp & Hh). exists p.
      split; [done|]. apply (hok_ext K fetch (sy_tree y)); try done. rewrite E7. by rewrite list_lookup_insert_ne.
  - intros j Hj. destruct (decide (j = aid)) as [->|Hne]; [by rewrite lookup_insert in Hj|].
    rewrite lookup_insert_ne in Hj by done. rewrite lookup_insert_ne by done. by eapply iv_none.
  - intros j hd' Hj. rewrite E3. destruct (decide (j = aid)) as [->|Hne]; [done|].
    rewrite lookup_insert_ne in Hj by done. by eapply iv_aid.
  - rewrite E3, E7, insert_length. apply Hi.
  - intros j r Hr' Hj. destruct (decide (j = aid)) as [->|Hne]; [by rewrite lookup_insert in Hj|].
    rewrite lookup_insert_ne in Hj by done. rewrite E7, list_lookup_insert_ne in Hr' by done. by eapply iv_idle.
  - intros j r hd' Hr' Hj. rewrite E5. rewrite E7 in Hr'. destruct (decide (j = aid)) as [->|Hne].
    + apply list_lookup_insert_Some in Hr' as [(_ & -> & _)|[? _]]; done.
    + rewrite list_lookup_insert_ne in Hr' by done. rewrite lookup_insert_ne in Hj by done. by eapply iv_busy.
  - rewrite E5. apply Hi.
  - apply Hi.
  - rewrite (len_ext (sy_tree y)) by done. apply Hi.
  - apply Hi.
Qed.

Lemma inv_epoch y h n m T lost : inv y h n T lost -> t_epoch (sy_tree y) <= m -> inv y h m T lost.
Proof. intros [H1 H2 H3 H4 H5 H6 H7 H8 H9 H10 H11 H12 H13 H14] Hm. by split. Qed.

Lemma inv_start y h n T lost aid hd s1 key :
  inv y h n T lost -> n < maxUint64 -> (aid < naids y)%nat -> sy_open y !! aid = None ->
  t_mem s1 = t_mem (sy_tree y) -> t_root s1 = t_root (sy_tree y) -> t_allocs s1 = t_allocs (sy_tree y) ->
  t_nextFreeBlock s1 = t_nextFreeBlock (sy_tree y) -> t_epoch s1 = t_epoch (sy_tree y) -> t_live s1 = t_live (sy_tree y) ->
  t_resv s1 = <[aid := t_epoch (sy_tree y)]> (t_resv (sy_tree y)) ->
  locks_inv (t_locks s1) (olids hd ++ held (sy_open y)) ->
  (if oroot hd then t_rootLock (sy_tree y) = 0 /\ t_rootLock s1 = 1 else t_rootLock s1 = t_rootLock (sy_tree y)) ->
  hok s1 T aid (Pend key false false) hd ->
  inv (Sys s1 (<[aid := hd]> (sy_open y))) (Hist (h_map h) (<[aid := Pend key false false]> (h_pend h)) (h_susp h) (h_nsusp h) (h_off h)) (n + 1) T lost.
Proof.
  intros Hi Hn Haid Ho E1 E2 E3 E4 E5 E6 E7 Hl Hr Hok. eapply inv_epoch.
  - by eapply (inv_begin _ _ _ _ _ _ _ _ _ (t_epoch (sy_tree y))).
  - cbn [sy_tree]. rewrite E5. pose proof (iv_epoch _ _ _ _ _ Hi). lia.
Qed.

(** Calls that leave everything in place. *)
Lemma inv_same y h n T lost s1 :
  inv y h n T lost -> core s1 T ->
  t_locks s1 = t_locks (sy_tree y) -> t_rootLock s1 = t_rootLock (sy_tree y) ->
  length (t_allocs s1) = length (t_allocs (sy_tree y)) ->
  t_epoch s1 = t_epoch (sy_tree y) -> len s1 = len (sy_tree y) -> t_resv s1 = t_resv (sy_tree y) ->
  (forall j p hd, hok (sy_tree y) T j p hd -> hok s1 T j p hd) ->
  inv (Sys s1 (sy_open y)) h (n + 1) T lost.
Proof.
  intros Hi Hc E1 E2 E3 E4 E5 E6 Hok. split; cbn [sy_tree sy_open]; rewrite ?E1, ?E2, ?E3, ?E4, ?E5, ?E6; try done; try apply Hi.
  - intros j hd Hj. destruct (iv_ops _ _ _ _ _ Hi j hd Hj) as (p & ? & ?). eauto.
  - pose proof (iv_epoch _ _ _ _ _ Hi). lia.
Qed.

(** Clearing a word that is not part of the tree. *)
Lemma inv_zap y h n T lost x : inv y h n T lost -> x ∉ cover (oregs T) -> ~ unused (sy_tree y) x ->
  inv (Sys (pset (sy_tree y) (PSlot x) 0) (sy_open y)) h n T lost.
Proof.
  intros Hi Hx Hu. split; cbn [sy_tree sy_open]; try apply Hi.
  - apply core_zap; [apply Hi|done|done].
  - intros j hd Hj. destruct (iv_ops _ _ _ _ _ Hi j hd Hj) as (p & Hp & Hok). exists p. split; [done|]. by apply (hok_ext K fetch (sy_tree y)).
Qed.

(** ** What a call may do *)

(** Slots the Finalize of an open operation gives back to the allocator. *)
Definition fin_size (hd : handle) : nat :=
  match hd with
  | HU _ op => if u_isroot (u_kind op) then 0 else u_count op + u_prefixSlots op
  | HD _ op => if d_isroot (d_kind op) || is_del256 op then 0 else d_count op + d_prefixSlots op
  | HP _ _ => 0
  end.

Definition reply_ok (h : hist) (T : option trie) (c : call) (r : reply) : Prop :=
  match c, r with
  | CLookup _ key, RLookup v found =>
    (if found then exists k, (k, v) ∈ ocontents T else v = 0) /\
    (forall w, (key, w) ∈ ocontents T -> found = true /\ v = w)
  | CPrepU _ key, RPrepU found v => found_ok T key found v
  | CPrepD _ key, RPrepD (Some v) =>
    (exists k, (k, v) ∈ ocontents T) /\ (forall w, (key, w) ∈ ocontents T -> v = w)
  | CPrepD _ key, RPrepD None => forall w, (key, w) ∉ ocontents T
  | CFinU aid _ _ _, RBool b => exists p, h_pend h !! aid = Some p /\ (b = false -> p_del p = true)
  | CFinD aid, RBool b => exists p, h_pend h !! aid = Some p /\ (b = false -> p_over p = true)
  | CAbortU _, RUnit | CAbortD _, RUnit | CFlush _, RUnit | CRestart _ _ _, RRestart _ => True
  | _, _ => False
  end.

(** Only an acknowledged Finalize changes the stored pairs. *)
Definition acked (r : reply) : bool := match r with RBool b => b | _ => false end.

Definition changes (h : hist) (T T' : option trie) (lost lost' : nat) (c : call) : Prop :=
  match c with
  | CFinU aid _ _ value => exists p d, h_pend h !! aid = Some p /\ upserted T T' (p_key p) (value mod 2 ^ 55) d /\ lost' = lost
  | CFinD aid => exists p, h_pend h !! aid = Some p /\
      ((exists v, removed T T' (p_key p) v /\ lost' = lost) \/ (p_over p = true /\ T' = T /\ lost' = S lost))
  | _ => False
  end.

(** The node that a Finalize unlinks without recycling it (delete.go:285-299). *)
Definition leak (y : sys) (c : call) : option N :=
  match c with
  | CFinD aid => match sy_open y !! aid with Some (HD _ op) => merged op | _ => None end
  | _ => None
  end.

Definition unlinked (y : sys) (c : call) (y' : sys) (T T' : option trie) : Prop :=
  exists G, gone T T' G /\ Forall (fun r => leak y c = Some r.1 \/ noted (sy_tree y') r) G.

(** What the other open operations can rely on.  Memory that was reachable since an operation
    began ([safe_from] its reservation [e]) is not reused, and only words of the current tree are
    written, with one exception: a delete in a node-256 that was replaced meanwhile clears a word
    of the old node. *)
Definition fin_by (c : call) : option nat :=
  match c with CFinU aid _ _ _ | CFinD aid => Some aid | _ => None end.

(** The nodes whose locks an operation holds. *)
Definition oaddrs (hd : handle) : list N :=
  if oroot hd then [] else match hd with HU _ op => touched (u_node op) (u_parent op) | HD _ op => dtouched op | HP _ _ => [] end.

Definition zapped (y : sys) (h : hist) (c : call) (r : reply) (s' : tree) (x : N) : Prop :=
  exists aid key op p b v, c = CFinD aid /\ r = RBool true /\ sy_open y !! aid = Some (HD key op) /\
    is_del256 op = true /\ d_leafPtr op = PSlot x /\ h_pend h !! aid = Some p /\ fetch v = p_key p /\
    b < 256 /\ v < vlim /\ mget (t_mem (sy_tree y)) x = buildLeaf b v /\ mget (t_mem s') x = 0.

Record flow (y : sys) (h : hist) (c : call) (r : reply) (y' : sys) (T T' : option trie) : Prop := {
  fl_safe : forall e x, e ∈ t_resv (sy_tree y) -> e <= t_epoch (sy_tree y) ->
    safe_from (sy_tree y) e x -> safe_from (sy_tree y') e x;
  fl_mem : forall e x, e ∈ t_resv (sy_tree y) -> e <= t_epoch (sy_tree y) ->
    safe_from (sy_tree y) e x -> x ∉ cover (oregs T') ->
    mget (t_mem (sy_tree y')) x = mget (t_mem (sy_tree y)) x \/ zapped y h c r (sy_tree y') x;
  fl_fresh : forall e x, e ∈ t_resv (sy_tree y) -> e <= t_epoch (sy_tree y) ->
    safe_from (sy_tree y) e x -> x ∈ cover (oregs T') -> x ∈ cover (oregs T);
  fl_gone : exists G, gone T T' G /\ forall x, x ∈ cover G -> x ∉ cover (oregs T');
  fl_kept : T' = T \/ (oexts T T' /\ (exists o, ooccr T o) /\ exists aid, c = CFinD aid /\ r = RBool true) \/
    exists aid hd X, fin_by c = Some aid /\ sy_open y !! aid = Some hd /\ keeps T T' X /\
      (forall a, a ∈ X -> a <> 0 /\ lock_id a ∈ olids hd) /\ (oroot hd = false -> exists o, ooccr T o) /\
      (forall a, a ∈ X -> a ∈ oaddrs hd)
}.

Lemma flow_same y h c r y' T : t_mem (sy_tree y') = t_mem (sy_tree y) ->
  t_allocs (sy_tree y') = t_allocs (sy_tree y) -> t_nextFreeBlock (sy_tree y') = t_nextFreeBlock (sy_tree y) ->
  flow y h c r y' T T.
Proof.
  intros E1 E2 E3. split; [|intros; left; by rewrite E1|done|exists []; split; [apply gone_refl|by intros x ?%elem_of_nil]|by left].
  intros e x _ _. by apply safe_from_ext.
Qed.

Lemma flow_fin y h c r o' s' aid T T' hl rl G d : fin (sy_tree y) T s' T' hl rl G d ->
  (T' = T \/ (oexts T T' /\ (exists o, ooccr T o) /\ exists aid, c = CFinD aid /\ r = RBool true) \/
    exists aid hd X, fin_by c = Some aid /\ sy_open y !! aid = Some hd /\ keeps T T' X /\
      (forall a, a ∈ X -> a <> 0 /\ lock_id a ∈ olids hd) /\ (oroot hd = false -> exists o, ooccr T o) /\
      (forall a, a ∈ X -> a ∈ oaddrs hd)) ->
  flow y h c r (Sys (end_op s' aid) o') T T'.
Proof.
  intros [(l & e & Hu & _) Hg HG] Hk. split; cbn [sy_tree].
  - intros e0 x H1 H2 H3. apply (safe_from_ext s'); [done|done|]. eapply up_safe; [exact Hu|done|by exists e0|done].
  - intros e0 x H1 H2 H3 Hx. left. apply (up_mem _ _ _ _ _ _ _ _ _ _ _ Hu e0 x H3); [by exists e0|done].
  - intros e0 x H1 H2 H3 Hx. destruct (up_fresh _ _ _ _ _ _ _ _ _ _ _ Hu x) as [?|H]; [done|done|]. destruct (H e0); [by exists e0|done].
  - by exists G.
  - done.
Qed.

Lemma flow_zap y h aid p o' s' T x b v hl rl d key op : fin (pset (sy_tree y) (PSlot x) 0) T s' T hl rl [] d ->
  sy_open y !! aid = Some (HD key op) -> is_del256 op = true -> d_leafPtr op = PSlot x ->
  mget (t_mem (sy_tree y)) x = buildLeaf b v -> b < 256 -> v < vlim -> h_pend h !! aid = Some p -> fetch v = p_key p ->
  flow y h (CFinD aid) (RBool true) (Sys (end_op s' aid) o') T T.
Proof.
  intros Hf Ho H256 Hptr Hx Hb Hv Hp Hk. pose proof Hf as [(l & e & Hu & _) _ _].
  destruct (flow_fin (Sys (pset (sy_tree y) (PSlot x) 0) (sy_open y)) h (CFinD aid) (RBool true) o' s' aid T T hl rl [] d Hf) as [F1 _ F3 F4 F5]; [by left|].
  cbn [sy_tree sy_open] in *. change (t_resv (pset _ _ _)) with (t_resv (sy_tree y)) in *.
  change (t_epoch (pset _ _ _)) with (t_epoch (sy_tree y)) in *.
  assert (Hs : forall e z, safe_from (sy_tree y) e z -> safe_from (pset (sy_tree y) (PSlot x) 0) e z) by (intros e0 z; by apply safe_from_ext).
  split; cbn [sy_tree]; try done.
  - intros e0 z H1 H2 H3. auto.
  - intros e0 z H1 H2 H3 Hz. pose proof (up_mem _ _ _ _ _ _ _ _ _ _ _ Hu e0 z (Hs _ _ H3) (ex_intro _ e0 (conj H1 (N.le_refl e0))) Hz) as E.
    change (t_mem (end_op s' aid)) with (t_mem s'). rewrite E. destruct (decide (z = x)) as [->|Hne].
    + right. exists aid, key, op, p, b, v. split_and!; try done. change (t_mem (end_op s' aid)) with (t_mem s'). rewrite E. simpl. by apply mget_mset_eq.
    + left. simpl. by apply mget_mset_ne.
Qed.

Definition step_postf (y : sys) (h : hist) (n : N) (T : option trie) (lost : nat) (c : call) (R : res (reply * sys)) : Prop :=
  match R with
  | Ok (r, y') => reply_ok h T c r /\ exists T' lost', inv y' (hstep h (c, r)) (n + 1) T' lost' /\
      flow y h c r y' T T' /\
      (if acked r then changes h T T' lost lost' c /\ unlinked y c y' T T' else T' = T /\ lost' = lost)
  | Retry => match c with CPrepU _ _ | CPrepD _ _ => sy_open y <> ∅ | _ => False end
  | Panic OutOfBlocks => match c with CFinU _ _ _ _ | CFinD _ => True | _ => False end
  | Panic OutOfRange => exists aid hd, (match c with CFinU a _ _ _ => a = aid | CFinD a => a = aid | _ => False end) /\
      sy_open y !! aid = Some hd /\ fin_size hd = recyclerLen
  | _ => False
  end.

(** The same without [flow]. *)
Definition step_post (y : sys) (h : hist) (n : N) (T : option trie) (lost : nat) (c : call) (R : res (reply * sys)) : Prop :=
  match R with
  | Ok (r, y') => reply_ok h T c r /\ exists T' lost', inv y' (hstep h (c, r)) (n + 1) T' lost' /\
      (if acked r then changes h T T' lost lost' c /\ unlinked y c y' T T' else T' = T /\ lost' = lost)
  | Retry => match c with CPrepU _ _ | CPrepD _ _ => sy_open y <> ∅ | _ => False end
  | Panic OutOfBlocks => match c with CFinU _ _ _ _ | CFinD _ => True | _ => False end
  | Panic OutOfRange => exists aid hd, (match c with CFinU a _ _ _ => a = aid | CFinD a => a = aid | _ => False end) /\
      sy_open y !! aid = Some hd /\ fin_size hd = recyclerLen
  | _ => False
  end.

Lemma step_weaken y h n T lost c R : step_postf y h n T lost c R -> step_post y h n T lost c R.
Proof. destruct R as [[r y']|[]| |]; try done. intros (H1 & T' & lost' & H2 & _ & H3). split; [done|]. by exists T', lost'. Qed.

Lemma busy_open y h n T lost : inv y h n T lost ->
  t_rootLock (sy_tree y) <> 0 \/ (exists i, i ∈ held (sy_open y)) -> sy_open y <> ∅.
Proof.
  intros Hi [H|(i & H)] E.
  - apply H. rewrite (iv_rl _ _ _ _ _ Hi), E. done.
  - rewrite E in H. unfold held in H. rewrite map_to_list_empty in H. by apply elem_of_nil in H.
Qed.

(** Other operations, when nothing is changed. *)
Lemma hok_same s T s' hl rl d j p hd : core s T -> fin s T s' T hl rl [] d -> t_resv s' = t_resv s -> t_epoch s <= t_epoch s' ->
  hok s T j p hd -> hok s' T j p hd.
Proof.
  intros Hc [(l & e & Hu & He & Hl) Hgone HG] Hresv Hep. destruct hd as [found op|key op|l0 b0]; [done| |]; simpl.
  2:{ intros (r & Hr & Hre). exists r. rewrite Hresv. split; [done|lia]. }
  intros (H1 & H2 & H3 & H4). do 3 (split; [done|]).
  destruct (d_isroot _); [done|]. destruct (is_del256 op); [|done].
  destruct H4 as (b & x & r & Hb & Hraw & Hptr & Hr & Hre & Hcase). exists b, x, r. rewrite Hresv. do 4 (split; [done|]).
  split; [lia|]. destruct Hcase as [?|(H5 & H6 & H7 & H8)]; [by left|right]. do 3 (split; [done|]).
  apply (up_safe _ _ _ _ _ _ _ _ _ _ _ Hu); try done. exists r. split; [by eapply elem_of_list_lookup_2|done].
Qed.

Lemma pend_le_upd p : pend_le p (see_upd p).
Proof. done. Qed.
Lemma pend_le_del p : pend_le p (see_del p).
Proof. done. Qed.

Lemma drop_pends h aid : pends_to id h (Hist (h_map h) (delete aid (h_pend h)) (h_susp h) (h_nsusp h) (h_off h)) aid.
Proof.
  split; simpl; [by rewrite lookup_delete|]. intros j Hj. rewrite lookup_delete_ne by done. by destruct (_ !! j).
Qed.
Lemma fmap_pends f h M S n z aid : pends_to f h (Hist M (f <$> delete aid (h_pend h)) S n z) aid.
Proof.
  split; simpl; [by rewrite lookup_fmap, lookup_delete|]. intros j Hj. by rewrite lookup_fmap, lookup_delete_ne.
Qed.

(** ** Lookup and flush *)

Lemma step_lookup y h n T lost aid key : inv y h n T lost -> proper K fetch y (CLookup aid key) ->
  step_postf y h n T lost (CLookup aid key) (api y (CLookup aid key)).
Proof.
  intros Hi (Haid & Ho & Hb & Hne). unfold api, Search.lookup.
  assert (Hc1 : core (start_op (sy_tree y) aid) T) by (apply (core_ext K fetch (sy_tree y)); try done; apply Hi).
  destruct (search_ok K fetch HK _ _ key Hc1 Hb Hne) as (v & f & E & H1 & H2). cbv zeta. rewrite E. cbn [bind].
  simpl. split; [done|]. exists T, lost. split; [|split; [by apply flow_same|done]].
  assert (Er : <[aid := maxUint64]> (<[aid := t_epoch (sy_tree y)]> (t_resv (sy_tree y))) = t_resv (sy_tree y)).
  { rewrite list_insert_insert. destruct (lookup_lt_is_Some_2 (t_resv (sy_tree y)) aid) as [r Hr].
    { rewrite (iv_resv _ _ _ _ _ Hi). done. }
    rewrite <- (iv_idle _ _ _ _ _ Hi _ _ Hr Ho). by apply list_insert_id. }
  eapply inv_same; try done.
  - by apply (core_ext K fetch (start_op (sy_tree y) aid)).
  - intros j p hd. apply hok_ext; try done. simpl. by rewrite Er.
Qed.

Lemma step_flush y h n T lost aid : inv y h n T lost -> proper K fetch y (CFlush aid) ->
  step_postf y h n T lost (CFlush aid) (api y (CFlush aid)).
Proof.
  intros Hi Haid. simpl in Haid. unfold api, flush_stats.
  destruct (get_alloc_ok (sy_tree y) aid Haid) as (a & Ega & Ha). rewrite Ega. cbn [bind]. simpl. split; [done|].
  exists T, lost.
  destruct (add_items_ok (sy_tree y) aid (- al_items a) Haid) as (s1 & E & Hl & Hal & E1 & E2 & E3 & E4 & E5 & E6 & E7 & E8 & Hs).
  unfold add_items in E. rewrite Ega in E. cbn [bind] in E. injection E as E.
  assert (Ealloc : t_allocs (set_live (put_alloc (sy_tree y) aid (al_add_items a (- al_items a))) (t_live (sy_tree y) + al_items a)) = t_allocs s1) by (by rewrite <- E).
  split; [|split; [|done]].
  2:{ split; [|by intros; left|done|exists []; split; [apply gone_refl|by intros x ?%elem_of_nil]|by left]. cbn [sy_tree].
      intros e x _ _ H. apply (safe_from_ext s1); [done|by rewrite <- E|]. by apply Hs. }
  eapply inv_same; try done.
  - destruct (iv_core _ _ _ _ _ Hi) as [C1 C2 C3 C4 C5]. split; try done.
    apply (alloc_inv_ext s1); [done|by rewrite <- E|]. by apply Hal.
  - rewrite Ealloc. done.
  - assert (len (set_live (put_alloc (sy_tree y) aid (al_add_items a (- al_items a))) (t_live (sy_tree y) + al_items a)) = (len s1 + al_items a)%Z) as ->.
    { rewrite <- E. unfold len. cbn [t_live set_live t_allocs put_alloc set_allocs]. rewrite fold_add, (fold_add _ (t_live (sy_tree y))). lia. }
    lia.
  - intros j p hd. destruct hd as [found op|key op|l0 b0]; [done| |done]. simpl. intros (H1 & H2 & H3 & H4). do 3 (split; [done|]).
    destruct (d_isroot _); [done|]. destruct (is_del256 op); [|done].
    destruct H4 as (b & x & r & Hb & Hraw & Hptr & Hr & Hre & Hcase). exists b, x, r. do 5 (split; [done|]).
    destruct Hcase as [?|(H5 & H6 & H7 & H8)]; [by left|right]. do 3 (split; [done|]).
    apply (safe_from_ext s1); [done|by rewrite <- E|]. by apply Hs.
Qed.

(** ** Prepare *)

Lemma step_prepu y h n T lost aid key : inv y h n T lost -> n < maxUint64 -> proper K fetch y (CPrepU aid key) ->
  step_postf y h n T lost (CPrepU aid key) (api y (CPrepU aid key)).
Proof.
  intros Hi Hn (Haid & Ho & Hk). unfold api.
  pose proof (prepare_update_ok K fetch HK _ T _ aid key (iv_core _ _ _ _ _ Hi) Hk (iv_locks _ _ _ _ _ Hi)) as H.
  destruct (prepare_update (sy_tree y) aid key) as [[[found op] s1]|w| |]; try done; cbn [bind]; simpl in H |- *.
  2: { by eapply busy_open. }
  destruct H as (Hf & Ha & Hu & Hfound & Hcase). split; [done|]. exists T, lost.
  split; [|split; [by destruct Hcase as [(_ & _ & _ & ->)|(_ & (l' & -> & _) & _)]; apply flow_same|done]].
  destruct Hcase as [(Hr & Hroot & Hrl & ->)|(Hr & (l' & -> & Hl) & t & o & -> & Hocc & Hv)].
  - apply inv_start; try done; simpl.
    + unfold ulids. rewrite Hr. apply Hi.
    + by rewrite Hr.
    + by rewrite Hr.
  - apply inv_start; try done; simpl.
    + by rewrite Hr.
    + rewrite Hr. do 3 (split; [done|]). by exists o.
Qed.

Lemma step_prepd y h n T lost aid key : inv y h n T lost -> n < maxUint64 -> proper K fetch y (CPrepD aid key) ->
  step_postf y h n T lost (CPrepD aid key) (api y (CPrepD aid key)).
Proof.
  intros Hi Hn (Haid & Ho & Hb & Hne). unfold api.
  pose proof (prepare_delete_ok K fetch HK _ T _ aid key (iv_core _ _ _ _ _ Hi) Hb Hne (iv_locks _ _ _ _ _ Hi)) as H.
  destruct (prepare_delete (sy_tree y) aid key) as [[[op|] s1]|w| |]; try done; cbn [bind]; simpl in H |- *.
  3: { by eapply busy_open. }
  - destruct H as (Ha & Hex & Hw & Hcase). split; [done|]. exists T, lost.
    split; [|split; [by destruct Hcase as [(_ & _ & _ & ->)|(_ & (l' & -> & _) & _)]; apply flow_same|done]].
    destruct Hcase as [(Hr & Hroot & Hrl & ->)|(Hr & (l' & -> & Hl) & t & o & -> & Hocc & Hv)].
    + apply inv_start; try done; simpl.
      * assert (dlids op = []) as -> by (unfold dlids, d_isroot in *; by destruct (d_kind op)). apply Hi.
      * by rewrite Hr.
      * rewrite Hr. split_and!; try done. apply Hroot.
    + apply inv_start; try done; simpl.
      * by rewrite Hr.
      * rewrite Hr. split; [done|]. split; [done|]. split; [apply Hv|]. destruct (is_del256 op) eqn:E256; [|by exists o].
        destruct Hv as [_ Hv]. unfold dkind_ok, is_del256 in *. destruct (d_kind op); try done.
        destruct Hv as (Hfull & b & Hb' & Hraw & Hptr & Hin). exists b, (slot_of true (o_addr o) (o_pfx o) b 0), (t_epoch (sy_tree y)).
        do 3 (split; [done|]). split; [|split].
        -- cbn [t_resv set_locks start_op set_resv]. apply list_lookup_insert. rewrite (iv_resv _ _ _ _ _ Hi). done.
        -- simpl. lia.
        -- left. exists o. done.
  - destruct H as [-> Hno]. split; [done|]. exists T, lost. split; [|split; [by apply flow_same|done]].
    assert (Er : <[aid := maxUint64]> (<[aid := t_epoch (sy_tree y)]> (t_resv (sy_tree y))) = t_resv (sy_tree y)).
    { rewrite list_insert_insert. destruct (lookup_lt_is_Some_2 (t_resv (sy_tree y)) aid) as [r Hr].
      { rewrite (iv_resv _ _ _ _ _ Hi). done. }
      rewrite <- (iv_idle _ _ _ _ _ Hi _ _ Hr Ho). by apply list_insert_id. }
    eapply inv_same; try done.
    + apply (core_ext K fetch (sy_tree y)); try done. apply Hi.
    + intros j p hd. apply hok_ext; try done. simpl. by rewrite Er.
Qed.

(** ** Finalize *)

Lemma held_disj y h n T lost aid hd j hd' i : inv y h n T lost -> sy_open y !! aid = Some hd ->
  j <> aid -> sy_open y !! j = Some hd' -> i ∈ olids hd' -> i ∉ olids hd.
Proof.
  intros Hi Ho Hj Hj' Hin Hin'. destruct (iv_locks _ _ _ _ _ Hi) as [Hnd _].
  rewrite (held_delete _ _ _ Ho) in Hnd. apply NoDup_app in Hnd as (_ & H & _). apply (H i Hin').
  apply (held_elem _ j hd'); [|done]. by rewrite lookup_delete_ne.
Qed.

Lemma other_root y h n T lost aid hd j hd' : inv y h n T lost -> sy_open y !! aid = Some hd -> oroot hd = true ->
  j <> aid -> sy_open y !! j = Some hd' -> oroot hd' = false.
Proof.
  intros Hi Ho Hr Hj Hj'. destruct (oroot hd') eqn:E; [|done]. pose proof (iv_rl1 _ _ _ _ _ Hi) as H.
  rewrite (rootops_delete _ _ _ Ho), Hr in H.
  assert (1 <= length (rootops (delete aid (sy_open y))))%nat; [|lia].
  apply (rootops_elem _ j hd'); [|done]. by rewrite lookup_delete_ne.
Qed.

(** The rest of the open operations when [aid] leaves. *)
Lemma rl_after y h n T lost aid hd : inv y h n T lost -> sy_open y !! aid = Some hd ->
  (if oroot hd then gen_dec (t_rootLock (sy_tree y)) else t_rootLock (sy_tree y)) =
  N.of_nat (length (rootops (delete aid (sy_open y)))).
Proof.
  intros Hi Ho. rewrite (iv_rl _ _ _ _ _ Hi). pose proof (iv_rl1 _ _ _ _ _ Hi) as H.
  rewrite (rootops_delete _ _ _ Ho) in *. destruct (oroot hd); [|done].
  assert (length (rootops (delete aid (sy_open y))) = 0%nat) as -> by lia. done.
Qed.

Lemma locks_after y h n T lost aid hd : inv y h n T lost -> sy_open y !! aid = Some hd ->
  locks_inv (t_locks (sy_tree y)) (olids hd ++ held (delete aid (sy_open y))).
Proof. intros Hi Ho. eapply locks_inv_perm; [|apply Hi]. by apply held_delete. Qed.

Lemma touched_locked s T o node parent (L : list N) : core s T -> ooccr T o -> node = o_addr o ->
  lock_id node ∈ L -> (parent <> 0 -> lock_id parent ∈ L) ->
  forall a, a ∈ touched node parent -> a <> 0 /\ lock_id a ∈ L.
Proof.
  intros Hc Ho -> H1 H2 a Ha. unfold touched in Ha. apply elem_of_cons in Ha as [->|Ha].
  - split; [by eapply occ_nonzero|done].
  - destruct (N.eqb_spec parent 0); [by apply elem_of_nil in Ha|]. apply elem_of_list_singleton in Ha as ->. auto.
Qed.

(** One operation finalized with [keeps]; [X] are its locked nodes. *)
Lemma others_keep y h n T lost aid hd s' T' X G hl rl d f :
  inv y h n T lost -> sy_open y !! aid = Some hd -> fin (sy_tree y) T s' T' hl rl G d -> keeps T T' X ->
  (forall a, a ∈ X -> a <> 0 /\ lock_id a ∈ olids hd) ->
  (oroot hd = false -> T' = T \/ exists o, ooccr T o) ->
  f = see_upd \/ f = see_del ->
  t_resv s' = t_resv (sy_tree y) -> t_epoch (sy_tree y) <= t_epoch s' ->
   forall j hd' p, j <> aid -> sy_open y !! j = Some hd' -> h_pend h !! j = Some p ->
    hok (sy_tree y) T j p hd' -> hok s' T' j (f p) hd'.
Proof.
  intros Hi Ho Hfin Hkeep HX Hroot Hf Hresv Hep j hd' p Hj Hj' _ Hok.
  assert (pend_le p (f p) /\ p_over (f p) = true) as [Hle Hov] by (destruct Hf as [->| ->]; done).
  eapply (hok_keep K fetch _ _ _ _ X (olids hd)); try done; [apply Hi| |].
  - intros i Hin. by eapply held_disj.
  - intros Hr. destruct (oroot hd) eqn:E; [|by apply Hroot]. by rewrite (other_root _ _ _ _ _ _ _ _ _ Hi Ho E Hj Hj') in Hr.
Qed.

Lemma upserted_len T T' key v d : upserted T T' key v d ->
  Z.of_nat (length (ocontents T')) = (Z.of_nat (length (ocontents T)) + d)%Z.
Proof.
  intros [_ [[[_ E] ->]|[(w & rest & E1 & E2) ->]]].
  - rewrite E. simpl. lia.
  - rewrite E1, E2. simpl. lia.
Qed.

(** An API call whose scans of the reservations, if it makes any, see the given values (Scan.v). *)
Definition api_as (sc : scans) (y : sys) (c : call) : res (reply * sys) :=
  match c with
  | CFinU aid fk m value =>
    match sy_open y !! aid with
    | Some (HU _ op) =>
      do (u, s1) <- finalize_update_as sc (sy_tree y) op fk m value;
      Ok (RBool u, Sys s1 (delete aid (sy_open y)))
    | _ => NoFuel
    end
  | CFinD aid =>
    match sy_open y !! aid with
    | Some (HD _ op) =>
      do (u, s1) <- finalize_delete_as sc (sy_tree y) op;
      Ok (RBool u, Sys s1 (delete aid (sy_open y)))
    | _ => NoFuel
    end
  | _ => api y c
  end.

Lemma api_as_None y c : api_as None y c = api y c.
Proof. destruct c; try done. unfold api_as, api. destruct (_ !! _) as [[]|]; try done. by rewrite finalize_update_as_None. Qed.

Lemma step_finu sc y h n T lost aid fk m value : scanned sc (sy_tree y) -> inv y h n T lost -> n < maxUint64 -> proper K fetch y (CFinU aid fk m value) ->
  step_postf y h n T lost (CFinU aid fk m value) (api_as sc y (CFinU aid fk m value)).
Proof.
  intros Hsc Hi Hn (found & op & Ho & Hval & Hfound).
  destruct (iv_ops _ _ _ _ _ Hi _ _ Ho) as (p & Hp & Hok). pose proof Hok as (Hf & Ha & Hkey & Hv).
  pose proof (iv_aid _ _ _ _ _ Hi _ _ Ho) as Haid.
  pose proof (locks_after _ _ _ _ _ _ _ Hi Ho) as Hl. pose proof (rl_after _ _ _ _ _ _ _ Hi Ho) as Hrl.
  pose proof (iv_core _ _ _ _ _ Hi) as Hc.
  assert (Hm : is_found (u_kind op) = true -> fk = fetch (u_value op) /\ (if m then p_key p = fk else p_key p <> fk)).
  { intros E. rewrite <- Hf in E. destruct (Hfound E) as [H1 H2]. split; [done|]. rewrite Hkey in H2.
    destruct m; [symmetry; by apply H2|]. intros E'. by assert (false = true) by (by apply H2). }
  assert (Hpost : finu_post K fetch (p_del p) (sy_tree y) T (held (delete aid (sy_open y)))
     (if oroot (HU found op) then gen_dec (t_rootLock (sy_tree y)) else t_rootLock (sy_tree y))
     (if oroot (HU found op) then [] else touched (u_node op) (u_parent op)) (p_key p) (value mod 2 ^ 55) (fin_size (HU found op))
     (finalize_update_body_as sc (sy_tree y) op fk m value)).
  { simpl. simpl in Hl. unfold ulids in Hl. destruct (u_isroot (u_kind op)) eqn:Er.
    - assert (finalize_update_body_as sc (sy_tree y) op fk m value = as_if (scan1 sc) (sy_tree y) (fun s => finalize_update_body s op fk m value)) as ->
        by (unfold finalize_update_body_as; by destruct (u_kind op)).
      apply finu_post_as; [apply Hsc|]. intros l _. change (t_rootLock (sy_tree y)) with (t_rootLock (set_resv (sy_tree y) l)).
      apply fin_root_ok; try done; [by apply core_resv|by rewrite Hval|by rewrite Ha|]. intros E. apply Hm. by rewrite E.
    - destruct Hv as (o & Hocc & Hv). destruct T as [t|]; [|done].
      eapply fin_node_ok; try done; [by rewrite Hval|by rewrite Ha]. }
  unfold api_as. rewrite Ho. unfold finalize_update_as. rewrite Hrl in Hpost.
  destruct (finalize_update_body_as sc (sy_tree y) op fk m value) as [[[|] s1]|[]| |]; cbn [bind]; try done; simpl.
  - destruct Hpost as (T' & G & d & Hno & Hfin & Hkeep & Hups). split; [by exists p|]. exists T', lost.
    assert (HX : forall a, a ∈ (if oroot (HU found op) then [] else touched (u_node op) (u_parent op)) -> a <> 0 /\ lock_id a ∈ olids (HU found op)).
    { simpl. destruct (u_isroot (u_kind op)) eqn:Er; [by intros a ?%elem_of_nil|].
      destruct Hv as (o & Hocc & Hv & _). unfold ulids. rewrite Er.
      eapply touched_locked; try done; [apply Hv|apply lids2_node|apply lids2_parent]. }
    assert (Hnr : oroot (HU found op) = false -> exists o, ooccr T o).
    { simpl. intros Er. rewrite Er in Hv. destruct Hv as (o & Hocc & _). by exists o. }
    split; [|split; [eapply flow_fin; [exact Hfin|]; right; right; exists aid, (HU found op); eexists; done|]; split; [by exists p, d|]; exists G; split; [apply Hfin|]; eapply Forall_impl; [exact Hno|]; intros r Hr; right; exact Hr]. rewrite Ha, Hp.
    eapply (inv_finish _ _ _ _ _ _ _ _ _ _ _ _ see_upd); try done.
    + apply fmap_pends.
    + eapply others_keep; try done; [|by left]. right. by apply Hnr.
    + cbn [h_map h_susp]. destruct Hfin as [(l & e & Hu & _) _ _]. eapply maps_upsert; try done; [by eapply upd_core|apply Hi].
    + apply upserted_len in Hups. lia.
    + apply Hi.
  - destruct Hpost as [Hd Hfin]. split; [by exists p|]. exists T, lost. split; [|split; [eapply flow_fin; [exact Hfin|by left]|done]]. rewrite Ha.
    eapply (inv_finish _ _ _ _ _ _ _ _ _ _ _ _ id); try done; try apply Hi.
    + apply drop_pends.
    + intros Hresv Hep j hd' p' Hj Hj' Hp' Hok'. by eapply hok_same.
    + lia.
  - exists aid, (HU found op). done.
Qed.

Lemma removed_len T T' key v : removed T T' key v ->
  Z.of_nat (length (ocontents T')) = (Z.of_nat (length (ocontents T)) - 1)%Z.
Proof. intros E. unfold removed in E. rewrite E. simpl. lia. Qed.

Lemma dtouched_locked s T o key op dirty : core s T -> ooccr T o -> dvalid fetch dirty key op o -> is_del256 op = false ->
  forall a, a ∈ dtouched op -> a <> 0 /\ lock_id a ∈ dlids op.
Proof.
  intros Hc Ho [Hb Hk] H256. pose proof (occ_nonzero _ _ _ _ _ Hc Ho) as Hn0.
  pose proof (db_node _ _ Hb) as En.
  assert (Hn : d_node op <> 0) by (by rewrite En).
  unfold dkind_ok, dlids, is_del256, dtouched in *. destruct (d_kind op); try done.
  - eapply touched_locked; try done; [apply lids2_node|apply lids2_parent].
  - eapply touched_locked; try done; [apply lids2_node|apply lids2_parent].
  - intros a Ha. apply elem_of_cons in Ha as [->|Ha].
    + destruct Hk as (_ & _ & b1 & b2 & cf & ca & cp & cn & Hhs & -> & _). split; [|by apply lids3_child].
      eapply (occ_child_nonzero K fetch); [done|done|]. destruct Hhs as [->| ->]; [right; left|left].
    + revert a Ha. eapply touched_locked; try done; [by apply lids3_node|intros; by apply lids3_parent].
Qed.

(** History entry of an acknowledged delete. *)
Definition hdel (h : hist) (aid : nat) (p : pend) : hist :=
  if p_over p
  then Hist (delete (p_key p) (h_map h)) (see_del <$> delete aid (h_pend h)) (h_susp h ∪ {[p_key p]}) (S (h_nsusp h)) (h_off h)
  else Hist (delete (p_key p) (h_map h)) (see_del <$> delete aid (h_pend h)) (h_susp h ∖ {[p_key p]}) (h_nsusp h) (h_off h).

Lemma hdel_pends h aid p : pends_to see_del h (hdel h aid p) aid.
Proof. unfold hdel. destruct (p_over p); apply fmap_pends. Qed.
Lemma hdel_maps s T T' h aid p v : core s T -> removed T T' (p_key p) v -> maps (h_map h) (h_susp h) T ->
  maps (h_map (hdel h aid p)) (h_susp (hdel h aid p)) T'.
Proof.
  intros Hc Hr Hm. pose proof (maps_remove K fetch HK s T T' (p_key p) v (h_map h) (h_susp h) Hc Hr Hm) as H. unfold hdel.
  destruct (p_over p); simpl; [by apply (maps_weaken K fetch HK)|done].
Qed.
Lemma hdel_nsusp h aid p : (h_nsusp h <= h_nsusp (hdel h aid p))%nat.
Proof. unfold hdel. destruct (p_over p); simpl; lia. Qed.

Lemma hdel_off h aid p : h_off (hdel h aid p) = h_off h.
Proof. unfold hdel. by destruct (p_over p). Qed.

Lemma fin_refl s T hl : core s T -> locks_inv (t_locks s) hl -> fin s T s T hl (t_rootLock s) [] 0.
Proof.
  intros Hc Hl. split; [|apply gone_refl|by intros x' ?%elem_of_nil]. eexists _, _. split; [|split; [by left|done]].
  apply (prepd_upd _ _ _ _ _ _ Hc (prepd_refl _ _ _ _ Hc)).
Qed.

Lemma find_post_as mg s o T hl rl X v size f : seen o s ->
  (forall l, o = Some l \/ (o = None /\ l = t_resv s) -> find_post K fetch mg (set_resv s l) T hl rl X v size (f (set_resv s l))) ->
  find_post K fetch mg s T hl rl X v size (as_if o s f).
Proof.
  intros Hs H. destruct o as [l|]; cbn [as_if].
  - specialize (H l ltac:(by left)). destruct (f (set_resv s l)) as [[[|] s1]|[]| |]; cbn [bind]; try done.
    destruct H as (T' & G & H1 & H2 & H3). exists T', G. split; [done|]. split; [by eapply fin_as|done].
  - specialize (H (t_resv s) ltac:(by right)). by destruct s.
Qed.

Lemma del256_as sc s op : d_kind op = deleteLeaf256 ->
  as_if (scan1 sc) s (fun s => finalize_delete_body s op) = del256 s (d_alloc op) (d_leafPtr op) (d_raw op).
Proof.
  intros Ek. unfold finalize_delete_body, del256. rewrite Ek. destruct sc as [[l1 l2]|]; [|done]. cbn [scan1 fmap option_fmap option_map as_if fst].
  unfold pcas, add_items, get_alloc. destruct s as [m lk nf rt rl e rs al lv], (d_leafPtr op);
    cbn [pget pset set_resv t_mem t_root t_resv]; destruct (_ =? _); cbn [bind set_mem set_root set_resv t_allocs]; try done;
    by destruct (al !! d_alloc op).
Qed.

Lemma step_find sc y h n T lost aid : scanned sc (sy_tree y) -> inv y h n T lost -> n < maxUint64 -> proper K fetch y (CFinD aid) ->
  step_postf y h n T lost (CFinD aid) (api_as sc y (CFinD aid)).
Proof.
  intros Hsc Hi Hn (op & Ho).
  destruct (iv_ops _ _ _ _ _ Hi _ _ Ho) as (p & Hp & Hok). pose proof Hok as (Ha & Hkey & Hvl & Hv).
  pose proof (iv_aid _ _ _ _ _ Hi _ _ Ho) as Haid.
  pose proof (locks_after _ _ _ _ _ _ _ Hi Ho) as Hl. pose proof (rl_after _ _ _ _ _ _ _ Hi Ho) as Hrl.
  pose proof (iv_core _ _ _ _ _ Hi) as Hc. pose proof (iv_maps _ _ _ _ _ Hi) as Hmaps. pose proof (iv_lost _ _ _ _ _ Hi) as Hlost.
  unfold api_as. rewrite Ho. unfold finalize_delete_as.
  destruct (d_isroot (d_kind op) || negb (is_del256 op)) eqn:Ecase.
  - assert (Hpost : find_post K fetch (merged op) (sy_tree y) T (held (delete aid (sy_open y)))
      (if oroot (HD (fetch (d_value op)) op) then gen_dec (t_rootLock (sy_tree y)) else t_rootLock (sy_tree y))
      (if oroot (HD (fetch (d_value op)) op) then [] else dtouched op) (d_value op) (fin_size (HD (fetch (d_value op)) op))
      (as_if (scan1 sc) (sy_tree y) (fun s => finalize_delete_body s op))).
    { simpl. simpl in Hl. destruct (d_isroot (d_kind op)) eqn:Er; simpl.
      - assert (merged op = None) as -> by (unfold merged, d_isroot in *; by destruct (d_kind op)).
        apply find_post_as; [apply Hsc|]. intros l _. change (t_rootLock (sy_tree y)) with (t_rootLock (set_resv (sy_tree y) l)).
        apply fin_droot_ok; try done; [by apply core_resv|by rewrite Ha|].
        assert (dlids op = []) as E by (unfold dlids, d_isroot in *; by destruct (d_kind op)). by rewrite E in Hl.
      - destruct (is_del256 op) eqn:E256; [done|]. destruct Hv as (o & Hocc & Hv). destruct T as [t|]; [|done].
        apply find_post_as; [apply Hsc|]. intros l _. change (t_rootLock (sy_tree y)) with (t_rootLock (set_resv (sy_tree y) l)).
        eapply fin_dnode_ok; try done; [by apply core_resv|by rewrite Ha]. }
    rewrite Hrl in Hpost.
    destruct (as_if (scan1 sc) (sy_tree y) (fun s => finalize_delete_body s op)) as [[[|] s1]|[]| |]; cbn [bind]; try done; simpl.
    + destruct Hpost as (T' & G & Hno & Hfin & Hkeep & Hrem). split; [by exists p|]. rewrite Hkey in Hrem.
      exists T', lost.
      assert (HX : forall a, a ∈ (if oroot (HD (fetch (d_value op)) op) then [] else dtouched op) -> a <> 0 /\ lock_id a ∈ olids (HD (fetch (d_value op)) op)).
      { simpl. destruct (d_isroot (d_kind op)) eqn:Er; [by intros a ?%elem_of_nil|].
        destruct (is_del256 op) eqn:E256; [done|]. destruct Hv as (o & Hocc & Hv). by eapply dtouched_locked. }
      assert (Hnr : oroot (HD (fetch (d_value op)) op) = false -> exists o, ooccr T o).
      { simpl. intros Er. rewrite Er in Hv, Ecase. destruct (is_del256 op) eqn:E256; [done|].
        destruct Hv as (o & Hocc & _). by exists o. }
      split; [|split; [eapply flow_fin; [exact Hfin|]; right; right; exists aid, (HD (fetch (d_value op)) op); eexists; done|]; split; [exists p; split; [done|left; by exists (d_value op)]|]; exists G; split; [apply Hfin|]; cbn [leak]; rewrite Ho; exact Hno]. rewrite Ha, Hp. fold (hdel h aid p).
      eapply (inv_finish _ _ _ _ _ _ _ _ _ _ _ _ see_del); try done.
      * apply hdel_pends.
      * eapply others_keep; try done; [|by right]. right. by apply Hnr.
      * by eapply hdel_maps.
      * apply removed_len in Hrem. lia.
      * pose proof (hdel_nsusp h aid p). lia.
      * apply hdel_off.
    + exists aid, (HD (fetch (d_value op)) op). done.
  - destruct (d_isroot (d_kind op)) eqn:Er; [done|]. destruct (is_del256 op) eqn:E256; [|done]. simpl in Hrl. rewrite Er in Hrl.
    simpl in Hl. assert (dlids op = []) as E by (unfold dlids, is_del256 in *; by destruct (d_kind op)). rewrite E in Hl. simpl in Hl.
    assert (Hbody : as_if (scan1 sc) (sy_tree y) (fun s => finalize_delete_body s op) = del256 (sy_tree y) (d_alloc op) (d_leafPtr op) (d_raw op)).
    { apply del256_as. unfold is_del256 in E256. by destruct (d_kind op). }
    rewrite Hbody. destruct Hv as (b & x & r & Hb & Hraw & Hptr & Hr & Hre & Hcase). rewrite Hraw, Hptr, Ha.
    destruct Hcase as [(o & Hocc & Hfull & Hx & Hin)|(Hov & Hx & Hx0 & Hsafe)].
    + assert (Hpost : del256_post K fetch (p_over p) (sy_tree y) T (held (delete aid (sy_open y))) (d_value op)
                        (del256 (sy_tree y) aid (PSlot x) (buildLeaf b (d_value op)))).
      { destruct T as [t|]; [|done]. destruct o as [opath optr opar a full pfx hs]. simpl in Hfull, Hx, Hin. subst full x.
        destruct (occ_zip _ _ Hocc) as (C & cs & -> & E1 & E2 & E3 & E4). simpl in E1, E2, E3, E4. subst opath optr opar hs.
        by apply del256_ok. }
      destruct (del256 (sy_tree y) aid (PSlot x) (buildLeaf b (d_value op))) as [[[|] s1]| | |]; cbn [bind]; try done; simpl.
      * destruct Hpost as (T' & Hfin & Hext & Hrem). split; [by exists p|]. rewrite Hkey in Hrem.
        exists T', lost. split; [|split; [eapply flow_fin; [exact Hfin|]; right; left; split; [done|split; [by exists o|by exists aid]]|split; [exists p; split; [done|left; by exists (d_value op)]|exists []; split; [apply Hfin|constructor]]]]. rewrite Hp. fold (hdel h aid p). rewrite Hrl in Hfin.
        eapply (inv_finish _ _ _ _ _ _ _ _ _ _ _ _ see_del); try done.
        -- apply hdel_pends.
        -- intros Hresv Hep j hd' p' Hj Hj' Hp' Hok'. apply (hok_oext K fetch (sy_tree y) T s1 T' [] _ _ _ j p' (see_del p') hd') in Hfin; try done. by exists o.
        -- by eapply hdel_maps.
        -- apply removed_len in Hrem. lia.
        -- pose proof (hdel_nsusp h aid p). lia.
        -- apply hdel_off.
      * destruct Hpost as [Hd ->]. split; [by exists p|]. exists T, lost. split; [|split; [by apply flow_same|done]].
        eapply (inv_finish _ _ _ _ _ _ _ _ _ _ _ _ id); try done.
        -- by apply fin_refl.
        -- apply drop_pends.
        -- lia.
    + assert (Hu : ~ unused (sy_tree y) x).
      { intros [?|H]; [done|]. destruct Hsafe as [_ _ Hb']. rewrite N.mul_comm in H. apply N.div_le_lower_bound in H; [lia|done]. }
      pose proof (del256_stale K fetch (sy_tree y) T x (buildLeaf b (d_value op)) aid _ Hc Hx Hu Haid Hl) as Hpost.
      destruct (del256 (sy_tree y) aid (PSlot x) (buildLeaf b (d_value op))) as [[[|] s1]| | |]; cbn [bind]; try done; simpl.
      * destruct Hpost as [Hword Hfin]. split; [by exists p|]. exists T, (S lost).
        split; [|split; [by eapply flow_zap|split; [by exists p; auto|exists []; split; [apply gone_refl|constructor]]]]. rewrite Hp. rewrite Hov. rewrite Hrl in Hfin.
        pose proof (inv_zap _ _ _ _ _ _ Hi Hx Hu) as Hi0.
        eapply (inv_finish (Sys (pset (sy_tree y) (PSlot x) 0) (sy_open y)) _ _ _ _ _ _ _ _ _ _ _ see_del); try done.
        -- apply fmap_pends.
        -- eapply (others_keep (Sys (pset (sy_tree y) (PSlot x) 0) (sy_open y)) _ _ _ _ _ _ _ _ []); try done; [apply keeps_refl|by intros a ?%elem_of_nil|by left|by right].
        -- simpl. by apply (maps_lost K fetch HK).
        -- lia.
        -- simpl. lia.
      * subst s1. split; [by exists p|]. exists T, lost. split; [|split; [by apply flow_same|done]].
        eapply (inv_finish _ _ _ _ _ _ _ _ _ _ _ _ id); try done.
        -- by apply fin_refl.
        -- apply drop_pends.
        -- lia.
Qed.

(** ** Abort *)

Lemma fin_unlock s T hl l rl : core s T -> locks_inv l hl ->
  fin s T (set_rootLock (set_locks s l) rl) T hl rl [] 0.
Proof.
  intros Hc Hl. split; [|apply gone_refl|by intros x' ?%elem_of_nil]. exists l, (t_epoch s).
  split; [|split; [by left|done]].
  eapply upd_rootLock, upd_locks. apply (prepd_upd _ _ _ _ _ _ Hc (prepd_refl _ _ _ _ Hc)).
Qed.

Lemma step_unlock y h n T lost aid hd s' : inv y h n T lost -> n < maxUint64 -> sy_open y !! aid = Some hd ->
  (exists l, locks_inv l (held (delete aid (sy_open y))) /\
     s' = set_rootLock (set_locks (sy_tree y) l) (if oroot hd then gen_dec (t_rootLock (sy_tree y)) else t_rootLock (sy_tree y))) ->
  inv (Sys (end_op s' aid) (delete aid (sy_open y)))
    (Hist (h_map h) (delete aid (h_pend h)) (h_susp h) (h_nsusp h) (h_off h)) (n + 1) T lost.
Proof.
  intros Hi Hn Ho (l & Hl & ->). rewrite (rl_after _ _ _ _ _ _ _ Hi Ho).
  pose proof (fin_unlock (sy_tree y) T _ l (N.of_nat (length (rootops (delete aid (sy_open y))))) (iv_core _ _ _ _ _ Hi) Hl) as Hfin.
  eapply (inv_finish _ _ _ _ _ _ _ _ _ _ _ _ id); try done; try apply Hi.
  - apply drop_pends.
  - intros Hresv Hep j hd' p' Hj Hj' Hp' Hok'. eapply hok_same; try done. apply Hi.
  - lia.
Qed.

Lemma set_same s l : set_rootLock (set_locks s l) (t_rootLock s) = set_locks s l.
Proof. by destruct s. Qed.
Lemma set_same_root s rl : set_rootLock (set_locks s (t_locks s)) rl = set_rootLock s rl.
Proof. by destruct s. Qed.
Lemma set_same_all s : set_locks s (t_locks s) = s.
Proof. by destruct s. Qed.

Lemma step_abortu y h n T lost aid : inv y h n T lost -> n < maxUint64 -> proper K fetch y (CAbortU aid) ->
  step_postf y h n T lost (CAbortU aid) (api y (CAbortU aid)).
Proof.
  intros Hi Hn (found & op & Ho). destruct (iv_ops _ _ _ _ _ Hi _ _ Ho) as (p & Hp & (Hf & Ha & Hkey & Hv)).
  pose proof (locks_after _ _ _ _ _ _ _ Hi Ho) as Hl. simpl in Hl.
  pose proof (fun s' H => step_unlock y h n T lost aid _ s' Hi Hn Ho H) as Hstep. simpl in Hstep.
  unfold api. rewrite Ho. unfold abort_update. unfold ulids in Hl. destruct (u_isroot (u_kind op)) eqn:Er.
  - assert (E : match u_kind op with
           | replaceEmptyRootWithLeaf | replaceLeafRootWithNode | rootLeafUpdate => Ok (unlock_root (sy_tree y))
           | _ => unlock_uop (sy_tree y) op
           end = Ok (unlock_root (sy_tree y))) by (unfold u_isroot in Er; by destruct (u_kind op)).
    rewrite E. cbn [bind]. simpl. split; [done|]. exists T, lost. split; [|split; [by apply flow_same|done]]. rewrite Ha. apply Hstep.
    exists (t_locks (sy_tree y)). split; [done|]. rewrite set_same_root. done.
  - assert (E : match u_kind op with
           | replaceEmptyRootWithLeaf | replaceLeafRootWithNode | rootLeafUpdate => Ok (unlock_root (sy_tree y))
           | _ => unlock_uop (sy_tree y) op
           end = unlock_uop (sy_tree y) op) by (unfold u_isroot in Er; by destruct (u_kind op)).
    rewrite E. unfold unlock_uop. destruct (unlock_nodes2_ok _ _ _ _ Hl) as (l' & -> & Hl'). cbn [bind]. simpl. split; [done|].
    exists T, lost. split; [|split; [by apply flow_same|done]]. rewrite Ha. apply Hstep. exists l'. split; [done|]. by rewrite set_same.
Qed.

Lemma step_abortd y h n T lost aid : inv y h n T lost -> n < maxUint64 -> proper K fetch y (CAbortD aid) ->
  step_postf y h n T lost (CAbortD aid) (api y (CAbortD aid)).
Proof.
  intros Hi Hn (key & op & Ho & Hnm). destruct (iv_ops _ _ _ _ _ Hi _ _ Ho) as (p & Hp & (Ha & Hkey & Hvl & Hv)).
  pose proof (locks_after _ _ _ _ _ _ _ Hi Ho) as Hl. simpl in Hl.
  pose proof (fun s' H => step_unlock y h n T lost aid _ s' Hi Hn Ho H) as Hstep. simpl in Hstep.
  assert (Hgo : forall s', (exists l, locks_inv l (held (delete aid (sy_open y))) /\
     s' = set_rootLock (set_locks (sy_tree y) l) (if d_isroot (d_kind op) then gen_dec (t_rootLock (sy_tree y)) else t_rootLock (sy_tree y))) ->
     step_postf y h n T lost (CAbortD aid) (do s1 <- (do s2 <- Ok s'; Ok (end_op s2 aid)); Ok (RUnit, Sys s1 (delete aid (sy_open y))))).
  { intros s' Hs'. cbn [bind]. simpl. split; [done|]. exists T, lost.
    split; [by apply Hstep|split; [|done]]. destruct Hs' as (l & _ & ->). by apply flow_same. }
  clear Hstep. unfold api. rewrite Ho. unfold abort_delete. rewrite Ha. unfold dlids, unlock_dop in *.
  unfold d_isroot, is_del256 in *. destruct (d_kind op) eqn:Ek.
  - apply Hgo. exists (t_locks (sy_tree y)). by rewrite set_same, set_same_all.
  - apply Hgo. exists (t_locks (sy_tree y)). split; [done|]. by rewrite set_same_root.
  - destruct (unlock_nodes2_ok _ _ _ _ Hl) as (l' & -> & Hl'). apply Hgo. exists l'. by rewrite set_same.
  - apply Hgo. exists (t_locks (sy_tree y)). by rewrite set_same, set_same_all.
  - destruct (unlock_nodes2_ok _ _ _ _ Hl) as (l' & -> & Hl'). apply Hgo. exists l'. by rewrite set_same.
  - destruct Hv as (o & Hocc & [Hb Hk]). pose proof (iv_core _ _ _ _ _ Hi) as Hc.
    pose proof (occ_nonzero _ _ _ _ _ Hc Hocc) as Hn0. rewrite <- (db_node _ _ Hb) in Hn0.
    assert (Hpar : d_parent op <> 0) by (intros E; apply Hnm; by split).
    assert (Hch : d_child op <> 0).
    { unfold dkind_ok in Hk. rewrite Ek in Hk. destruct Hk as (_ & _ & b1 & b2 & cf & ca & cp & cn & Hhs & -> & _).
      eapply (occ_child_nonzero K fetch); [done|done|]. destruct Hhs as [->| ->]; [right; left|left]. }
    destruct (unlock_nodes3_ok (t_locks (sy_tree y)) (held (delete aid (sy_open y))) (d_parent op) (d_node op) (d_child op)) as (l' & -> & Hl'); [done| |].
    { eapply locks_inv_perm; [|exact Hl]. by rewrite lids3_swap. }
    apply Hgo. exists l'. by rewrite set_same.
Qed.

(** ** Restart *)

Lemma core_restart s s' T : restarted s s' -> core s T -> core s' T.
Proof.
  intros [Em Er En _ _ Ea _ _ _] [C1 C2 C3 C4 C5]. split; [congruence| |done| |].
  - destruct T as [t|]; [|done]. cbn in *. eapply rep_agree; [exact C2|]. intros x _. apply Em.
  - by eapply alloc_inv_restart.
  - intros x Hx. rewrite Em. apply C5. unfold unused in *. by rewrite En in Hx.
Qed.

Lemma enc_root_lt s T : core s T -> enc_root T <= maxUint64.
Proof.
  intros Hc. destruct T as [t|]; [|done]. assert (Hb : root_byte t < 256).
  { destruct t as [k v|]; [|done]. pose proof (co_wf _ _ _ _ Hc) as Hw. simpl in Hw. inversion Hw; subst. simpl.
    pose proof (uv_bytes K HK _ ltac:(eassumption)) as Hby. destruct (fetch v) as [|b k']; [done|]. by apply Forall_cons in Hby as [? _]. }
  change (enc_root (Some t)) with (enc (root_byte t) t). pose proof (enc_lt64 _ t Hb). rewrite maxUint64_val. lia.
Qed.

Lemma step_restart y h n T lost pack unpack order : inv y h n T lost -> n < maxUint64 ->
  proper K fetch y (CRestart pack unpack order) ->
  step_postf y h n T lost (CRestart pack unpack order) (api y (CRestart pack unpack order)).
Proof.
  intros Hi Hn (Ho & Hcd & Hord & Hl & Hna). pose proof (iv_core _ _ _ _ _ Hi) as Hc.
  destruct (restart_ok pack unpack (sy_tree y) _ order Hcd (co_alloc _ _ _ _ Hc) (co_zero _ _ _ _ Hc)) as (s' & E & Hrs).
  { rewrite (co_root _ _ _ _ Hc). by apply (enc_root_lt (sy_tree y)). }
  { pose proof (iv_epoch _ _ _ _ _ Hi). lia. }
  { done. }
  { done. }
  { done. }
  unfold api. rewrite E. simpl. split; [done|]. exists T, lost.
  pose proof Hrs as [Em Er En Ee Ev Ea Elv Elk Erl].
  split; [|split; [|done]].
  2:{ assert (Hnone : forall e, e ∈ t_resv (sy_tree y) -> e <= t_epoch (sy_tree y) -> False).
      { intros e (aid & He)%elem_of_list_lookup_1 Hle. rewrite (iv_idle _ _ _ _ _ Hi aid e He) in Hle by (by rewrite Ho).
        pose proof (iv_epoch _ _ _ _ _ Hi). lia. }
      split; cbn [sy_tree].
      - intros e x H1 H2. by destruct (Hnone e H1 H2).
      - intros e x H1 H2. by destruct (Hnone e H1 H2).
      - done.
      - exists []. split; [apply gone_refl|by intros x ?%elem_of_nil].
      - by left. }
  split; cbn [sy_tree sy_open h_pend h_map h_susp h_nsusp h_off]; try apply Hi; try done.
  - by eapply core_restart.
  - rewrite Elk. split; [constructor|]. intros i. rewrite lget_mempty. unfold held. rewrite map_to_list_empty. split; [|by intros ?%elem_of_nil]. by vm_compute.
  - unfold rootops. rewrite map_to_list_empty. simpl. lia.
  - intros aid _. apply (iv_none _ _ _ _ _ Hi). by rewrite Ho.
  - rewrite Ev, Ea, replicate_length, map_length. done.
  - intros aid r Hr _. rewrite Ev in Hr. by apply lookup_replicate in Hr as [-> _].
  - rewrite Ee. pose proof (iv_epoch _ _ _ _ _ Hi). lia.
  - rewrite (iv_len _ _ _ _ _ Hi). lia.
Qed.

(** ** All calls *)

Theorem step_okf_as sc y h n T lost c : scanned sc (sy_tree y) -> inv y h n T lost -> n < maxUint64 -> proper K fetch y c ->
  step_postf y h n T lost c (api_as sc y c).
Proof.
  intros Hsc Hi Hn Hp. destruct c.
  - by apply step_lookup.
  - by apply step_prepu.
  - by apply step_finu.
  - by apply step_abortu.
  - by apply step_prepd.
  - by apply step_find.
  - by apply step_abortd.
  - by apply step_flush.
  - by apply step_restart.
Qed.

Theorem step_okf y h n T lost c : inv y h n T lost -> n < maxUint64 -> proper K fetch y c ->
  step_postf y h n T lost c (api y c).
Proof. intros Hi Hn Hp. rewrite <- api_as_None. by apply step_okf_as. Qed.

Theorem step_ok y h n T lost c : inv y h n T lost -> n < maxUint64 -> proper K fetch y c ->
  step_post y h n T lost c (api y c).
Proof. intros Hi Hn Hp. apply step_weaken. by apply step_okf. Qed.

Theorem runs_inv n tr y : runs K fetch n tr y -> N.of_nat (length tr) <= maxUint64 ->
  exists T lost, inv y (replay tr) (N.of_nat (length tr)) T lost.
Proof.
  induction 1 as [|tr y c r y' _ IH Hp Ha]; intros Hlen.
  - exists None, 0%nat. apply inv_init.
  - rewrite app_length in Hlen. simpl in Hlen. destruct IH as (T & lost & Hi); [lia|].
    pose proof (step_ok _ _ _ _ _ c Hi ltac:(lia) Hp) as H. rewrite Ha in H. simpl in H.
    destruct H as (_ & T' & lost' & Hi' & _). exists T', lost'. rewrite replay_snoc, app_length. simpl.
    by replace (N.of_nat (length tr + 1)) with (N.of_nat (length tr) + 1) by lia.
Qed.
End Step.
