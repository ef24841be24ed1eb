(** * StepEarly: a Finalize before it takes effect (phase A of StepPhase.v).  Whatever the other clients do meanwhile, what
    it will do is fixed by the tree at its beginning and by the values its scans see, and it stays out of the way
    of the other clients. *)
From Verif Require Export StepRest FineProps FineWake.

(** The tree without reservations, with other locks. *)
Definition env (s : tree) (l : mem) (rl : N) : tree := set_rootLock (set_locks (erase s) l) rl.

Definition early (a : wact) : Prop :=
  match a with WLoad _ | WSet _ _ _ | WBytes _ _ | WPub _ _ | WSwap _ _ _ | WTake _ _ _ | WBlock _ => True | _ => False end.

Lemma do_wact_env s a l rl : early a -> do_wact (env s l rl) a = rmap (fun '(v, s1) => (v, env s1 l rl)) (do_wact s a).
Proof.
  intros Hn. destruct a as [p|d i w|d pfx|p w|p old new|i|aid slots m|node|i| | |aid node slots e| |aid|aid d|aid]; try done; unfold do_wact.
  - change (t_mem (env s l rl)) with (t_mem s). by destruct (sl_set _ _ _ _).
  - change (t_mem (env s l rl)) with (t_mem s). by destruct (store_prefix _ _ _).
  - by destruct p.
  - unfold pcas. destruct p as [|x]; cbn [pget pset].
    + change (t_root (env s l rl)) with (t_root s). by destruct (_ =? _).
    + change (t_mem (env s l rl)) with (t_mem s). by destruct (_ =? _).
  - unfold take_node, bump_alloc, receive_block, get_alloc. change (t_allocs (env s l rl)) with (t_allocs s).
    change (t_nextFreeBlock (env s l rl)) with (t_nextFreeBlock s).
    destruct (t_allocs s !! aid) as [a|]; cbn [bind rmap]; [|done].
    destruct (find_recycled _ _ _) as [[[t i] [x e]]|]; [done|]. destruct (_ <=? _); [|done]. by destruct (_ <? _).
  - unfold node_data. change (t_nextFreeBlock (env s l rl)) with (t_nextFreeBlock s).
    destruct (_ <=? _); [done|]. by destruct (_ <=? _).
Qed.

Lemma early_keeps s a v s1 : early a -> do_wact s a = Ok (v, s1) ->
  t_locks s1 = t_locks s /\ t_rootLock s1 = t_rootLock s /\ t_resv s1 = t_resv s /\ t_epoch s1 = t_epoch s.
Proof.
  intros Hn. destruct a as [p|d i w|d pfx|p w|p old new|i|aid slots m|node|i| | |aid node slots e| |aid|aid d|aid]; try done; unfold do_wact.
  - by intros [= <- <-].
  - destruct (sl_set _ _ _ _); try done. by intros [= <- <-].
  - destruct (store_prefix _ _ _); try done. by intros [= <- <-].
  - intros [= <- <-]. by destruct p.
  - unfold pcas. destruct (pget s p =? old); intros [= <- <-]; by destruct p.
  - unfold take_node, bump_alloc, receive_block, get_alloc.
    destruct (t_allocs s !! aid) as [a|]; cbn [bind rmap]; [|done].
    destruct (find_recycled _ _ _) as [[[t i] [x e]]|]; [by intros [= <- <-]|]. destruct (_ <=? _); [|by intros [= <- <-]].
    destruct (_ <? _); [|done]. by intros [= <- <-].
  - unfold node_data. destruct (_ <=? _); [done|]. destruct (_ <=? _); [done|]. by intros [= <- <-].
Qed.

(** Stores to memory. *)
Lemma store_mem s a v s1 : do_wact s a = Ok (v, s1) ->
  match a with
  | WSet d i w => t_allocs s1 = t_allocs s /\ t_nextFreeBlock s1 = t_nextFreeBlock s /\ t_root s1 = t_root s /\
      forall x, x <> sl_base d + N.of_nat i -> mget (t_mem s1) x = mget (t_mem s) x
  | WBytes d pfx => t_allocs s1 = t_allocs s /\ t_nextFreeBlock s1 = t_nextFreeBlock s /\ t_root s1 = t_root s /\
      forall x, x ∉ seqN (sl_base d) (prefix_slots (length pfx)) -> mget (t_mem s1) x = mget (t_mem s) x
  | WPub (PSlot y) w => t_allocs s1 = t_allocs s /\ t_nextFreeBlock s1 = t_nextFreeBlock s /\ t_root s1 = t_root s /\
      forall x, x <> y -> mget (t_mem s1) x = mget (t_mem s) x
  | _ => True
  end.
Proof.
  destruct a as [p|d i w|d pfx|p w|p old new|i|aid slots m|node|i| | |aid node slots e| |aid|aid d|aid]; try done; unfold do_wact.
  - unfold sl_set. destruct (_ <? _); [|done]. cbn [bind]. intros [= <- <-]. split_and!; try done. intros x Hx. apply mget_mset_ne. congruence.
  - destruct (store_prefix (t_mem s) d pfx) as [m| | |] eqn:E; try done. cbn [bind]. intros [= <- <-]. split_and!; try done. intros x Hx.
    cbn [set_mem t_mem]. rewrite elem_of_seqN in Hx. unfold store_prefix in E. destruct (Nat.leb_spec 255 (length pfx)) as [Hl|Hl].
    + rewrite prefix_slots_big in Hx by done. replace (length pfx + 15)%nat with (length pfx + 7 + 1 * 8)%nat in Hx by lia. rewrite Nat.div_add in Hx by lia.
      unfold sl_set, sl_from in E. destruct (N.of_nat 0 <? sl_len d); [|done]. cbn [bind] in E. destruct (N.of_nat 1 <=? sl_len d); [|done]. cbn [bind sl_base sl_len] in E.
      destruct (length pfx =? 0)%nat; [done|]. destruct (_ =? 0); [done|]. destruct (_ <? _); [done|]. injection E as <-.
      rewrite mget_store_bytes_out by (cbn [Nat.add]; lia). apply mget_mset_ne. lia.
    + cbn [bind] in E. rewrite prefix_slots_small in Hx by lia.
      destruct (length pfx =? 0)%nat; [done|]. destruct (_ =? 0); [done|]. destruct (_ <? _); [done|]. injection E as <-.
      apply mget_store_bytes_out. cbn [Nat.add]. lia.
  - intros [= <- <-]. destruct p as [|y]; [done|]. split_and!; try done. intros x Hx. apply mget_mset_ne. congruence.
Qed.

Section Early.
(** [n]: the number of reservations; [aid]: the client; [p0]: its program at the beginning; [s]: the tree without its steps. *)
Context (n aid : nat) (U : list N) (rt : bool) (p0 : wprog reply).

Record early_ok (s S : tree) (p : wprog reply) (L : list N) (F : list (N * nat)) : Prop := {
  ea_prog : forall l rl L', wexec_as p0 (env s l rl) (L ++ L') = wexec_as p (env S l rl) L';
  ea_ph : ph n aid U rt (PA L F) p after;
  ea_locks : t_locks S = t_locks s;
  ea_rl : t_rootLock S = t_rootLock s;
  ea_epoch : t_epoch S = t_epoch s;
  ea_root : t_root S = t_root s;
  ea_alloc : exists L0, alloc_inv S (F ++ L0);
  ea_safe : forall r x, (t_epoch s <= r \/ r ∈ t_resv s) -> safe_from s r x -> x ∉ cover F /\ safe_from S r x;
  ea_mem : forall x, x ∉ cover F -> mget (t_mem S) x = mget (t_mem s) x;
  ea_blk : t_nextFreeBlock s <= t_nextFreeBlock S;
  ea_len : length (t_allocs S) = length (t_allocs s);
  ea_n : length (t_resv s) = n;
  ea_na : length (t_allocs s) = n;
  ea_aid : (aid < n)%nat;
  ea_scan : forall q v e, L !! q = Some v -> t_resv s !! (q mod n)%nat = Some e -> v <= e \/ t_epoch s <= e;
  ea_own : forall q v, L !! q = Some v -> (q mod n)%nat = aid -> v <= t_epoch s
}.

(** Other clients change locks and reservations. *)
Lemma early_env s S p L F s' S' : early_ok s S p L F ->
  (forall l rl, env s' l rl = env s l rl) -> (forall l rl, env S' l rl = env S l rl) ->
  t_locks S' = t_locks s' -> t_rootLock S' = t_rootLock s' -> length (t_resv s') = n ->
  (forall i r, t_resv s' !! i = Some r -> t_resv s !! i = Some r \/ t_epoch s <= r) ->
  early_ok s' S' p L F.
Proof.
  intros [H1 H2 H3 H4 H5 H6 H7 H8 H9 H10 H11 H12 H13 H14 H15 H16] E1 E2 E3 E4 E5 E6.
  pose proof (f_equal t_epoch (E1 mempty 0)) as A1. pose proof (f_equal t_root (E1 mempty 0)) as A2. pose proof (f_equal t_allocs (E1 mempty 0)) as A3.
  pose proof (f_equal t_nextFreeBlock (E1 mempty 0)) as A4. pose proof (f_equal t_mem (E1 mempty 0)) as A5.
  pose proof (f_equal t_epoch (E2 mempty 0)) as B1. pose proof (f_equal t_root (E2 mempty 0)) as B2. pose proof (f_equal t_allocs (E2 mempty 0)) as B3.
  pose proof (f_equal t_nextFreeBlock (E2 mempty 0)) as B4. pose proof (f_equal t_mem (E2 mempty 0)) as B5.
  cbn [env set_rootLock set_locks erase set_resv t_epoch t_root t_allocs t_nextFreeBlock t_mem] in *.
  split; try done.
  - intros l rl L'. rewrite E1, E2. apply H1.
  - congruence.
  - congruence.
  - destruct H7 as [L0 H7]. exists L0. by apply (alloc_inv_ext S).
  - intros r x Hr Hs. destruct (H8 r x) as [G1 G2].
    + destruct Hr as [Hr|Hr]; [left; by rewrite <- A1|]. apply elem_of_list_lookup in Hr as [i Hi]. destruct (E6 _ _ Hi) as [Hr|Hr]; [right; by eapply elem_of_list_lookup_2|by left].
    + by apply (safe_from_ext s').
    + split; [done|]. by apply (safe_from_ext S).
  - intros x Hx. rewrite A5, B5. by apply H9.
  - by rewrite A4, B4.
  - by rewrite A3, B3.
  - by rewrite A3.
  - intros q v e Hq He. destruct (E6 _ _ He) as [Hr|Hr]; rewrite A1; [by eapply H15|by right].
  - intros q v Hq He. rewrite A1. by eapply H16.
Qed.

(** A whole scan sees a small enough reservation. *)
Lemma early_sees s S p L F L0 L1 r : early_ok s S p L F -> (exists L2, L = L0 ++ L1 ++ L2) -> whole n L0 -> length L1 = n -> (t_epoch s <= r \/ r ∈ t_resv s) ->
  exists r', r' ∈ L1 /\ r' <= r.
Proof.
  intros He [L2 ->] [j Hj] Hn Hr. pose proof (ea_aid _ _ _ _ _ He) as Ha.
  assert (Hat : forall i, (i < n)%nat -> exists v, L1 !! i = Some v /\ (L0 ++ L1 ++ L2) !! (j * n + i)%nat = Some v /\ ((j * n + i) mod n = i)%nat).
  { intros i Hi. destruct (lookup_lt_is_Some_2 L1 i) as [v Hv]; [lia|]. exists v. split_and!; try done.
    - rewrite lookup_app_r by lia. replace (j * n + i - length L0)%nat with i by lia. rewrite lookup_app_l by lia. done.
    - rewrite Nat.add_comm, Nat.mod_add by lia. by apply Nat.mod_small. }
  assert (Hown : t_epoch s <= r -> exists r', r' ∈ L1 /\ r' <= r).
  { intros Hle. destruct (Hat aid Ha) as (v & H1 & H2 & H3). exists v. split; [by eapply elem_of_list_lookup_2|].
    pose proof (ea_own _ _ _ _ _ He _ _ H2 H3). lia. }
  destruct Hr as [Hr|Hr]; [auto|]. apply elem_of_list_lookup in Hr as [i Hi].
  assert (i < n)%nat as Hin by (apply lookup_lt_Some in Hi; rewrite (ea_n _ _ _ _ _ He) in Hi; done).
  destruct (Hat i Hin) as (v & H1 & H2 & H3). rewrite <- H3 in Hi.
  destruct (ea_scan _ _ _ _ _ He _ _ _ H2 Hi) as [H|H]; [|auto]. exists v. split; [by eapply elem_of_list_lookup_2|done].
Qed.

(** The scans not made may as well have seen zeros. *)
Definition padded (L : list N) : list N := L ++ replicate (n + n) 0.

Lemma early_scanned s S p L F : early_ok s S p L F ->
  scanned (Some (take n (padded L), take n (drop n (padded L)))) s.
Proof.
  intros He. pose proof (ea_aid _ _ _ _ _ He) as Ha. pose proof (ea_n _ _ _ _ _ He) as Hn.
  assert (Hpart : forall L0 L1, whole n L0 -> length L1 = n -> (exists L2, padded L = L0 ++ L1 ++ L2) -> forall r, r ∈ t_resv s -> exists r', r' ∈ L1 /\ r' <= r).
  { intros L0 L1 H0 H1 [L2 E] r Hr. destruct (decide (length (L0 ++ L1) <= length L)%nat) as [Hl|Hl].
    - eapply (early_sees s S p L F L0 L1); try done; [|by right].
      rewrite app_assoc in E. assert (take (length (L0 ++ L1)) (padded L) = L0 ++ L1) as Et by (rewrite E; apply take_app).
      unfold padded in Et. rewrite take_app_le in Et by done. exists (drop (length (L0 ++ L1)) L). rewrite app_assoc. rewrite <- Et at 1. by rewrite take_drop.
    - exists 0. split; [|lia]. rewrite app_length in Hl.
      destruct L1 as [|v0 L1'] using rev_ind; [simpl in H1; lia|clear IHL1']. rewrite app_length in H1, Hl. simpl in H1, Hl.
      assert (padded L !! (length L0 + length L1')%nat = Some v0) as Hv.
      { rewrite E, lookup_app_r by lia. rewrite lookup_app_l by (rewrite app_length; simpl; lia). replace (length L0 + length L1' - length L0)%nat with (length L1') by lia.
        by rewrite lookup_app_r, Nat.sub_diag by lia. }
      unfold padded in Hv. rewrite lookup_app_r in Hv by lia. apply lookup_replicate in Hv as [-> _]. apply elem_of_app. right. by apply elem_of_list_singleton. }
  assert (Hlen : (n + n <= length (padded L))%nat) by (unfold padded; rewrite app_length, replicate_length; lia).
  split; intros l [= <-].
  - apply (Hpart []); [by exists 0%nat|rewrite take_length; lia|]. exists (drop n (padded L)). by rewrite app_nil_l, take_drop.
  - apply (Hpart (take n (padded L))); [exists 1%nat; rewrite take_length; lia|rewrite take_length, drop_length; lia|].
    exists (drop n (drop n (padded L))). by rewrite take_drop, take_drop.
Qed.

(** Its own steps. *)
Lemma early_act s S a k L F v S1 : early_ok s S (WDo a k) L F -> Forall2 N.le (t_resv S) (t_resv s) ->
  (forall e, t_resv s !! aid = Some e -> e <= t_epoch s) -> do_wact S a = Ok (v, S1) ->
  t_resv S1 = t_resv S /\
  ((exists L' F', early_ok s S1 (k v) L' F') \/ (early a /\ ph n aid U rt (PB true U rt) (k v) after)).
Proof.
  intros He Hle Hown Hd. pose proof He as [H1 H2 H3 H4 H5 H6 H7 H8 H9 H10 H11 H12 H13 H14 H15 H16]. cbn [ph] in H2.
  assert (Hgo : early a -> forall l rl L', wexec_as p0 (env s l rl) (L ++ L') = wexec_as (k v) (env S1 l rl) L').
  { intros Hea l rl L'. rewrite H1. rewrite wexec_as_do by (by destruct a). rewrite do_wact_env by done. by rewrite Hd. }
  pose proof (fun Hea => early_keeps S a v S1 Hea Hd) as Hkeep.
  assert (Hmem : early a -> (t_allocs S1 = t_allocs S /\ t_nextFreeBlock S1 = t_nextFreeBlock S /\ t_root S1 = t_root S /\
      (forall x, x ∉ cover F -> mget (t_mem S1) x = mget (t_mem S) x)) -> ph n aid U rt (PA L F) (k v) after ->
      t_resv S1 = t_resv S /\ exists L' F', early_ok s S1 (k v) L' F').
  { intros Hea (M1 & M2 & M3 & M4) Hph. destruct (early_keeps _ _ _ _ Hea Hd) as (K1 & K2 & K3 & K4). split; [done|]. exists L, F. split; try done.
    - by apply Hgo.
    - congruence.
    - congruence.
    - congruence.
    - congruence.
    - destruct H7 as [L0 H7]. exists L0. by apply (alloc_inv_ext S).
    - intros r x Hr Hs. destruct (H8 r x Hr Hs) as [G1 G2]. split; [done|]. by apply (safe_from_ext S).
    - intros x Hx. rewrite M4 by done. by apply H9.
    - by rewrite M2.
    - by rewrite M1. }
  destruct a as [q|d i w|d pfx|q w|q old new|i|a' slots m|node|i| | |a' node slots e| |a'|a' d|a']; cbn [ph_act] in H2; try done.
  - destruct Hmem as [R1 R2]; try done; [|split; [done|by left]]. cbn [do_wact] in Hd. by injection Hd as <- <-.
  - destruct H2 as [Hin H2]. destruct Hmem as [R1 R2]; try done; [|split; [done|by left]].
    pose proof (store_mem _ _ _ _ Hd) as (M1 & M2 & M3 & M4). split_and!; try done. intros x Hx. apply M4. intros ->. done.
  - destruct H2 as [Hin H2]. destruct Hmem as [R1 R2]; try done; [|split; [done|by left]].
    pose proof (store_mem _ _ _ _ Hd) as (M1 & M2 & M3 & M4). split_and!; try done. intros x Hx. apply M4. intros Hx'. by apply Hx, Hin.
  - destruct H2 as [(y & -> & Hin & H2)|H2].
    + destruct Hmem as [R1 R2]; try done; [|split; [done|by left]].
      pose proof (store_mem _ _ _ _ Hd) as (M1 & M2 & M3 & M4). split_and!; try done. intros x Hx. apply M4. intros ->. done.
    + split; [by apply (Hkeep I)|]. right. split; [done|]. by apply H2.
  - split; [by apply (Hkeep I)|]. right. split; [done|]. by apply H2.
  - cbn [do_wact] in Hd. destruct (t_resv S !! i) as [r|] eqn:Er; [|done]. injection Hd as <- <-. split; [done|]. left.
    destruct H2 as [Hi H2]. exists (L ++ [r]), F. split; try done.
    + intros l rl L'. rewrite <- app_assoc. rewrite H1. done.
    + destruct (Forall2_lookup_l _ _ _ _ _ Hle Er) as (e & He1 & He2).
      intros q v e' Hq He'. apply lookup_app_Some in Hq as [Hq|[Hq1 Hq2]]; [by eapply H15|].
      apply list_lookup_singleton_Some in Hq2 as [Hq3 <-]. assert (q = length L) as -> by lia. rewrite <- Hi in He'. left. congruence.
    + destruct (Forall2_lookup_l _ _ _ _ _ Hle Er) as (e & He1 & He2).
      intros q v Hq Hqa. apply lookup_app_Some in Hq as [Hq|[Hq1 Hq2]]; [by eapply H16|].
      apply list_lookup_singleton_Some in Hq2 as [Hq3 <-]. assert (q = length L) as -> by lia. rewrite Hi, Hqa in He1.
      specialize (Hown _ He1). lia.
  - destruct H2 as (-> & Hs1 & Hs2 & (L0 & L1 & -> & HL0 & HL1 & ->) & H2). destruct (Hkeep I) as (K1 & K2 & K3 & K4). split; [done|]. left.
    exists (L0 ++ L1), ((v, slots) :: F). pose proof Hd as Hd'. cbn [do_wact] in Hd. rewrite take_as in Hd. destruct H7 as [R0 H7].
    destruct (new_node_ok (set_resv S L1) aid slots (F ++ R0)) as [E|(x & s' & E & P1 & P2 & P3 & P4)]; [by apply (alloc_inv_ext S)|cbn [set_resv t_allocs]; lia|done|done| |].
    { rewrite E in Hd. done. }
    rewrite E in Hd. cbn [rmap bind] in Hd. injection Hd as <- <-.
    assert (Hsee : forall r, (t_epoch s <= r \/ r ∈ t_resv s) -> exists r', r' ∈ L1 /\ r' <= r).
    { intros r. apply (early_sees _ _ _ _ _ L0 L1 r He); try done. exists []. by rewrite app_nil_r. }
    split; try done.
    + intros l rl L'. rewrite Hgo by done. done.
    + congruence.
    + congruence.
    + congruence.
    + cbn [set_resv t_root]. rewrite (AllocFacts.st_root _ _ P2). done.
    + exists R0. by apply (alloc_inv_ext s').
    + intros r y Hr Hs. destruct (H8 r y Hr Hs) as [G1 G2]. destruct (P4 r y) as [G3 G4]; [by apply (safe_from_ext S)|exact (Hsee r Hr)|].
      split; [|by apply (safe_from_ext s')]. rewrite cover_cons, not_elem_of_app. done.
    + intros y Hy. rewrite cover_cons, not_elem_of_app in Hy. cbn [set_resv t_mem]. rewrite P3. cbn [set_resv t_mem]. apply H9, Hy.
    + cbn [set_resv t_nextFreeBlock]. pose proof (AllocFacts.st_nb _ _ P2) as Hb. cbn [set_resv t_nextFreeBlock] in Hb. lia.
    + cbn [set_resv t_allocs]. rewrite (AllocFacts.st_nallocs _ _ P2). done.
  - destruct Hmem as [R1 R2]; try done; [|split; [done|by left]]. cbn [do_wact] in Hd. destruct (node_data S node); try done. by injection Hd as <- <-.
Qed.
End Early.
