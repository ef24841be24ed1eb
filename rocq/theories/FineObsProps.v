(** * FineObsProps: what interrupted iterations and counts return. *)
From Verif Require Export FineObsTop.

Section ObsProps.
Context (K : list N -> Prop) (fetch : N -> list N).
Local Notation oreachable := (oreachable K fetch).
Local Notation ostep := (ostep K fetch).

Lemma oreach_oinv n tr x : oreachable n tr x -> exists w, oinv K fetch tr x w.
Proof. intros [HK Hr Hn Hc]. by eapply oruns_inv. Qed.

Lemma oreach_snoc n tr e x' : oreachable n (tr ++ [e]) x' -> exists x, oreachable n tr x /\ ostep x e x' /\ unshared (os_sys x').
Proof.
  intros [HK Hr Hn Hc]. remember (tr ++ [e]) as t eqn:Et. destruct Hr as [_|tr0 x e0 x' Hr Hs Hu]; [by destruct tr|].
  apply app_inj_tail in Et as [-> ->]. exists x. split_and!; try done. rewrite lookups_snoc in Hn, Hc.
  split; try done; [rewrite ncalls_app in Hn; lia|by eapply calm_app].
Qed.

(** ** The calls go on *)

Lemma tight_full aid n0 e w o : (forall key, J K fetch aid key n0 e w) -> known n0 w o ->
  N.of_nat (oreg o).2 = dlen (o_addr o) -> ~ compact (w_sys w).
Proof.
  intros HJ Ho Hl Hcm. pose proof (HJ []) as HJ0. pose proof (j_good _ _ _ _ _ _ _ HJ0) as Hg. pose proof (known_facts K fetch n0 _ _ Hg Ho) as Hf.
  pose proof (of_cnt _ _ Hf) as Hcnt. pose proof (offset_of_mod (o_addr o)) as Eo.
  assert (H2 : (2 <= (oreg o).2)%nat) by (unfold oreg, nslots; simpl; lia).
  set (x := o_addr o + N.of_nat (oreg o).2 - 2).
  assert (Hs : safe_from (w_tree w) e x).
  { apply (no_safe _ _ _ _ _ _ (j_known _ _ _ _ _ _ _ HJ0 _ Ho)). apply elem_of_seqN. unfold oreg in *. cbn [fst snd] in *. lia. }
  unfold dlen in Hl. rewrite Eo in Hl. pose proof (N.mod_lt (o_addr o) blockSlots ltac:(done)) as Hm.
  assert (Ex : x mod blockSlots = blockSlots - 2).
  { pose proof (N.div_mod (o_addr o) blockSlots ltac:(done)) as Ea. assert (2 <= N.of_nat (oreg o).2) by lia.
    unfold x. rewrite Ea. revert Hl Hm H. generalize (N.of_nat (oreg o).2) (o_addr o / blockSlots) (o_addr o mod blockSlots). intros r q m Hl Hm Hr.
    replace (blockSlots * q + m + r - 2) with (blockSlots - 2 + q * blockSlots) by lia. rewrite N.mod_add by done. by apply N.mod_small. }
  assert (Hlt : offset_of x < locksPerBlock).
  { eapply compact_near; try done; [|apply (sf_bregs _ _ _ Hs)|apply (sf_blk _ _ _ Hs)|].
    - apply (ai_nf _ _ (co_alloc _ _ _ _ (iv_core _ _ _ _ _ _ _ (g_inv _ _ _ Hg)))).
    - unfold dlen. rewrite offset_of_mod, Ex. by vm_compute. }
  rewrite offset_of_mod, Ex in Hlt. by vm_compute in Hlt.
Qed.

(** A running call can make its next access, which changes nothing; only a Next can fail, with an index out of range,
    and only if a node ends where its block ends. *)
Lemma o_goes_on n tr x aid c p : oreachable n tr x -> os_obs x !! aid = Some (ORunning c p) ->
  match p with
  | Ret _ | Stop Fuel => True
  | Act a _ => exists v, do_act (sy_tree (os_sys x)) a = Ok (v, sy_tree (os_sys x))
  | Stop (Crash y) => y = OutOfRange /\ (exists fuel it, c = ONext fuel it) /\ ~ compact (os_sys x)
  | Stop Again => False
  end.
Proof.
  intros Hr Hp. destruct (oreach_oinv _ _ _ Hr) as [w [(js & _ & Hg) _ Hrun]]. destruct (Hrun _ _ _ Hp) as (tr1 & tr2 & e & [_ HJ _ Hok]).
  pose proof (gi_sys _ _ _ _ _ Hg) as Es. cbn [fs_sys] in Es.
  destruct p as [r|[y| |]|a k]; try done; simpl in Hok.
  - specialize (Hok w (rtc_refl _ _)). destruct c as [fuel it|]; [|done]. destruct Hok as (-> & o & Ho & Hl). split_and!; [done|by exists fuel, it|].
    rewrite <- Es. by eapply tight_full.
  - destruct (Hok w (rtc_refl _ _)) as (v & Hd & _). exists v. by rewrite <- Es.
Qed.

(** ** Results *)

Lemma lookups_prefix t tr : t `prefix_of` lookups tr -> exists tr3, tr3 `prefix_of` tr /\ lookups tr3 = t.
Proof.
  revert t. induction tr as [|e tr IH]; intros t Ht.
  - apply prefix_nil_inv in Ht as ->. by exists [].
  - change (lookups (e :: tr)) with (as_lookup e ++ lookups tr) in Ht.
    assert (as_lookup e = [] \/ exists e', as_lookup e = [e']) as [E|[e' E]] by (destruct e; simpl; eauto).
    + rewrite E in Ht. destruct (IH _ Ht) as (tr3 & H1 & <-). exists (e :: tr3). split; [by apply prefix_cons|].
      change (lookups (e :: tr3)) with (as_lookup e ++ lookups tr3). by rewrite E.
    + rewrite E in Ht. destruct t as [|e1 t]; [exists []; split; [apply prefix_nil|done]|].
      pose proof (prefix_cons_inv_1 _ _ _ _ Ht) as ->. apply prefix_cons_inv_2 in Ht. destruct (IH _ Ht) as (tr3 & H1 & <-).
      exists (e :: tr3). split; [by apply prefix_cons|]. change (lookups (e :: tr3)) with (as_lookup e ++ lookups tr3). by rewrite E.
Qed.

Lemma prefix_lookups tr3 tr : tr3 `prefix_of` tr -> lookups tr3 `prefix_of` lookups tr.
Proof. intros [l ->]. unfold lookups. rewrite bind_app. by eexists. Qed.

(** At some moment between the reservation of the call and its return. *)
Definition osometime (tr1 : list oevent) (aid : nat) (c : ocall) (tr2 : list oevent) (P : hist -> Prop) : Prop :=
  exists tr3, tr3 `prefix_of` tr2 /\ P (oreplay (tr1 ++ OResv aid c :: tr3)).
(** At all these moments. *)
Definition othroughout (tr1 : list oevent) (aid : nat) (c : ocall) (tr2 : list oevent) (P : hist -> Prop) : Prop :=
  forall tr3, tr3 `prefix_of` tr2 -> P (oreplay (tr1 ++ OResv aid c :: tr3)).
Definition bound (k : list N) (h : hist) : Prop := is_Some (h_map h !! k).

Lemma lookups_resv tr1 aid c tr2 : lookups (tr1 ++ OResv aid c :: tr2) = lookups tr1 ++ EResv (CLookup aid [0]) :: lookups tr2.
Proof. unfold lookups. by rewrite bind_app. Qed.

Lemma omoment tr w js y aid c tr1 tr2 q : ginv K fetch (lookups tr) (FSys y js) w -> oduring tr aid c tr1 tr2 ->
  q ∈ span (S (length (lookups tr1))) w -> exists tr3, tr3 `prefix_of` tr2 /\ q.1 = oreplay (tr1 ++ OResv aid c :: tr3).
Proof.
  intros Hg [-> _] Hq. rewrite lookups_resv in Hg.
  destruct (in_span_eq K fetch _ _ _ _ _ _ _ Hg eq_refl Hq) as (t3 & H1 & H2). apply lookups_prefix in H1 as (tr3 & H1 & <-).
  exists tr3. split; [done|]. unfold oreplay. by rewrite lookups_resv.
Qed.

Lemma oseen tr w js y aid c tr1 tr2 k v : ginv K fetch (lookups tr) (FSys y js) w -> oduring tr aid c tr1 tr2 ->
  seen_leaf (S (length (lookups tr1))) w k v -> osometime tr1 aid c tr2 (binds k v).
Proof.
  intros Hg Hd (q & Hq & Hin). destruct (omoment _ _ _ _ _ _ _ _ _ Hg Hd Hq) as (tr3 & H1 & E). exists tr3. split; [done|]. unfold binds. rewrite <- E.
  pose proof (g_past _ _ _ (gi_good _ _ _ _ _ Hg)) as H. rewrite list.Forall_forall in H. destruct (H q) as [Hm _].
  { unfold span in Hq. rewrite <- (take_drop (S (length (lookups tr1))) (w_past w)). apply elem_of_app. by right. }
  by apply Hm in Hin.
Qed.

Lemma oalways tr w js y aid c tr1 tr2 k : ginv K fetch (lookups tr) (FSys y js) w -> oduring tr aid c tr1 tr2 ->
  othroughout tr1 aid c tr2 (bound k) -> always k (S (length (lookups tr1))) w.
Proof. intros Hg Hd Ht q Hq. destruct (omoment _ _ _ _ _ _ _ _ _ Hg Hd Hq) as (tr3 & H1 & ->). by apply Ht. Qed.

(** The values [vis] found by the call: in order, each with its key at some moment of the call, under the prefix (or a
    single one that shares its first byte). *)
Record found_in (tr1 : list oevent) (aid : nat) (c : ocall) (tr2 : list oevent) (sp : list N) (vis : list N) : Prop := {
  fi_sorted : StronglySorted lex_lt (map fetch vis);
  fi_each : forall v, v ∈ vis -> v < 2 ^ 55 /\ osometime tr1 aid c tr2 (binds (fetch v) v) /\
    (sp `prefix_of` fetch v \/ (vis = [v] /\ take 1 sp `prefix_of` fetch v))
}.

Lemma visited_found tr w js y aid c tr1 tr2 vis rest : ginv K fetch (lookups tr) (FSys y js) w -> oduring tr aid c tr1 tr2 ->
  visited fetch (S (length (lookups tr1))) (oprefix c) (ogoal c) w vis rest -> found_in tr1 aid c tr2 (oprefix c) vis.
Proof.
  intros Hg Hd [V1 V2 V3 V4]. split; [done|]. intros v Hv. destruct (V2 _ Hv) as (H1 & H2 & H3). split_and!; [done|by eapply oseen|done].
Qed.

Lemma o_return_inv n tr aid c r x : oreachable n (tr ++ [OReturn aid c r]) x -> exists w js y tr1 tr2 e,
  ginv K fetch (lookups tr) (FSys y js) w /\ oduring tr aid c tr1 tr2 /\ opost K fetch aid c (S (length (lookups tr1))) e r w.
Proof.
  intros Hr. destruct (oreach_snoc _ _ _ _ Hr) as (x0 & Hr0 & Hs & _). destruct (oreach_oinv _ _ _ Hr0) as [w [(js & _ & Hg) _ Hrun]].
  inversion Hs as [| | | |? ? ? ? ? ? H1]; subst. destruct (Hrun _ _ _ H1) as (tr1 & tr2 & e & [Hd HJ _ Hok]).
  exists w, js, y, tr1, tr2, e. split_and!; [done|done|]. by apply (Hok w).
Qed.

(** Count returns the length of such a list, which has every key that was there all the time. *)
Lemma o_count n tr aid fuel sp nodes leaves cnt x :
  oreachable n (tr ++ [OReturn aid (OCount fuel sp) (RCount nodes leaves cnt)]) x ->
  exists tr1 tr2 vis, oduring tr aid (OCount fuel sp) tr1 tr2 /\ found_in tr1 aid (OCount fuel sp) tr2 sp vis /\ leaves = length vis /\
    forall k, sp `prefix_of` k -> othroughout tr1 aid (OCount fuel sp) tr2 (bound k) -> k ∈ map fetch vis.
Proof.
  intros Hr. destruct (o_return_inv _ _ _ _ _ _ Hr) as (w & js & y & tr1 & tr2 & e & Hg & Hd & [_ (vis & El & Hv)]).
  exists tr1, tr2, vis. split_and!; [done|by eapply (visited_found _ _ _ _ _ (OCount fuel sp))|done|].
  intros k Hk Ht. destruct (vi_all _ _ _ _ _ _ _ Hv k) as [?|[]]; [by split|by eapply oalways|done].
Qed.

(** A Next that has prefetched values left returns the next one; after the last, it returns false. *)
Lemma o_next_ready n tr aid fuel it more it' x : oreachable n (tr ++ [OReturn aid (ONext fuel it) (RNext more it')]) x ->
  match it_prefetched it !! it_pp it with
  | Some v => more = true /\ it_value it' = v /\ it_prefetched it' = it_prefetched it /\ it_pp it' = S (it_pp it) /\ it_done it' = it_done it /\
      it_prefix it' = it_prefix it /\ it_resume it' = it_resume it
  | None => it_done it = true -> more = false /\ it' = it
  end.
Proof.
  intros Hr. destruct (o_return_inv _ _ _ _ _ _ Hr) as (w & js & y & tr1 & tr2 & e & Hg & Hd & Hp). cbn [opost] in Hp.
  destruct (it_prefetched it !! it_pp it) as [v|]; [by destruct Hp as [-> ->]|]. intros Ed. by rewrite Ed in Hp.
Qed.

Lemma o_next n tr aid fuel it more it' x : oreachable n (tr ++ [OReturn aid (ONext fuel it) (RNext more it')]) x ->
  it_prefetched it !! it_pp it = None -> it_done it = false ->
  exists tr1 tr2 vis, oduring tr aid (ONext fuel it) tr1 tr2 /\ found_in tr1 aid (ONext fuel it) tr2 (it_prefix it) vis /\
    it_prefix it' = it_prefix it /\ (it_done it' = false -> (256 < length vis)%nat) /\
    match vis with
    | [] => more = false
    | v :: _ => more = true /\ it_value it' = v /\
       ((it_prefetched it' = vis /\ it_pp it' = 1%nat) \/ (vis = [v] /\ it_done it' = true /\ it_prefetched it' = it_prefetched it /\ it_pp it' = O))
    end /\
    (it_resume it = [] -> forall k, it_prefix it `prefix_of` k -> othroughout tr1 aid (ONext fuel it) tr2 (bound k) ->
       k ∈ map fetch vis \/ (it_done it' = false /\ forall v, v ∈ vis -> lex_lt (fetch v) k)).
Proof.
  intros Hr Epp Ed. destruct (o_return_inv _ _ _ _ _ _ Hr) as (w & js & y & tr1 & tr2 & e & Hg & Hd & Hp). cbn [opost] in Hp.
  rewrite Epp, Ed in Hp. destruct Hp as (_ & Hsp & _ & vis & rest & Hv & Hdone & Hlong & Hvis).
  exists tr1, tr2, vis. split_and!; try done; [by eapply (visited_found _ _ _ _ _ (ONext fuel it))|].
  intros Er k Hk Ht. destruct (vi_all _ _ _ _ _ _ _ Hv k) as [?|Hrest]; [by split|by eapply oalways|by left|right].
  destruct (it_done it') eqn:Ed'; [by apply Hdone in Hrest|]. split; [done|]. intros v Hvv. by eapply (vi_rest _ _ _ _ _ _ _ Hv).
Qed.

(** A first Next that returns false: no key with the prefix was there all the time. *)
Lemma o_next_none n tr aid fuel it it' x : oreachable n (tr ++ [OReturn aid (ONext fuel it) (RNext false it')]) x ->
  it_prefetched it !! it_pp it = None -> it_done it = false -> it_resume it = [] ->
  exists tr1 tr2, oduring tr aid (ONext fuel it) tr1 tr2 /\
    forall k, it_prefix it `prefix_of` k -> ~ othroughout tr1 aid (ONext fuel it) tr2 (bound k).
Proof.
  intros Hr H1 H2 H3. destruct (o_next _ _ _ _ _ _ _ _ Hr H1 H2) as (tr1 & tr2 & vis & Hd & _ & _ & Hlong & Hm & Hall).
  exists tr1, tr2. split; [done|]. intros k Hk Ht. destruct vis as [|v vis]; [|by destruct Hm].
  destruct (Hall H3 k Hk Ht) as [?%elem_of_nil|[Hf _]]; [done|]. apply Hlong in Hf. simpl in Hf. lia.
Qed.

(** Bounds on what Count returns. *)
Lemma sorted_NoDup (l : list (list N)) : StronglySorted lex_lt l -> NoDup l.
Proof.
  induction 1 as [|x l Hl IH Hx]; constructor; [|done]. intros Hin. rewrite list.Forall_forall in Hx. apply Hx in Hin. by eapply lex_lt_irrefl.
Qed.

Lemma o_count_bounds n tr aid fuel sp nodes leaves cnt x :
  oreachable n (tr ++ [OReturn aid (OCount fuel sp) (RCount nodes leaves cnt)]) x ->
  exists tr1 tr2, oduring tr aid (OCount fuel sp) tr1 tr2 /\
    (forall ks, NoDup ks -> (forall k, k ∈ ks -> sp `prefix_of` k /\ othroughout tr1 aid (OCount fuel sp) tr2 (bound k)) -> (length ks <= leaves)%nat) /\
    (forall ks, (forall k v, sp `prefix_of` k -> osometime tr1 aid (OCount fuel sp) tr2 (binds k v) -> k ∈ ks) -> (leaves <= max 1 (length ks))%nat).
Proof.
  intros Hr. destruct (o_count _ _ _ _ _ _ _ _ _ Hr) as (tr1 & tr2 & vis & Hd & [F1 F2] & -> & Hall). exists tr1, tr2. split_and!; [done| |].
  - intros ks Hnd Hks. rewrite <- (map_length fetch vis). apply submseteq_length, NoDup_submseteq; [done|]. intros k Hk. destruct (Hks _ Hk). by apply Hall.
  - intros ks Hks. destruct (decide (length vis <= 1)%nat) as [?|Hlong]; [lia|].
    assert (length (map fetch vis) <= length ks)%nat; [|rewrite map_length in *; lia].
    apply submseteq_length, NoDup_submseteq; [by apply sorted_NoDup|]. intros k Hk. apply elem_of_list_fmap in Hk as (v & -> & Hv).
    destruct (F2 _ Hv) as (_ & H2 & [H3|(-> & _)]); [by eapply Hks|simpl in Hlong; lia].
Qed.
End ObsProps.
