(** * FineProps: what holds in all histories of calls interrupted between any two memory accesses. *)
From Verif Require Export ApiTop Rmw FineTop.


Section FineProps.
Context (K : list N -> Prop) (fetch : N -> list N).
Local Notation freachable := (freachable K fetch).
Local Notation fruns := (fruns K fetch unshared).
Local Notation get := (get fetch).

Lemma compact_freach n tr x : universe K -> FineRun.fruns K fetch compact n tr x -> ncalls tr < 2 ^ 31 -> freachable n tr x.
Proof.
  intros HK Hr Hn. split; [done|by apply compact_unshared|rewrite maxUint64_val; lia|by apply calm_small].
Qed.

Lemma freach_ginv n tr x : freachable n tr x -> exists w, ginv K fetch tr x w.
Proof. intros [HK Hr Hn Hc]. by eapply fruns_inv. Qed.

Lemma freach_wake n tr x : freachable n tr x -> exists w, ginv K fetch tr x w /\ w_wake w = no_wake false.
Proof. intros [HK Hr Hn Hc]. by eapply fruns_inv_as. Qed.

Lemma freach_inv n tr x : freachable n tr x -> exists T lost, inv K fetch (fs_sys x) (freplay tr) (ncalls tr) T lost.
Proof.
  intros Hr. destruct (freach_ginv _ _ _ Hr) as [w Hg]. exists (w_trie w), (w_lost w).
  rewrite <- (gi_sys _ _ _ _ _ Hg), <- (gi_hist _ _ _ _ _ Hg), <- (gi_n _ _ _ _ _ Hg). apply (gi_good _ _ _ _ _ Hg).
Qed.

Lemma freach_snoc n tr e x' : freachable n (tr ++ [e]) x' -> exists x, freachable n tr x /\ fstep K fetch x e x' /\ unshared (fs_sys x').
Proof.
  intros [HK Hr Hn Hc]. remember (tr ++ [e]) as t eqn:Et. destruct Hr as [_|tr0 x e0 x' Hr Hs Hu]; [by destruct tr|].
  apply app_inj_tail in Et as [-> ->]. exists x. split_and!; try done. split; try done; [rewrite ncalls_app in Hn; lia|by eapply calm_prefix].
Qed.

Lemma freach_prefix n tr tr' x' : freachable n (tr ++ tr') x' -> exists x, freachable n tr x.
Proof.
  revert x'. induction tr' as [|e tr' IH] using rev_ind; intros x' H; [rewrite app_nil_r in H; eauto|].
  rewrite app_assoc in H. apply freach_snoc in H as (x & Hx & _). by eapply IH.
Qed.

Lemma fpend_keys n tr x aid p : freachable n tr x -> h_pend (freplay tr) !! aid = Some p -> bytes (p_key p) /\ p_key p <> [].
Proof.
  revert x aid p. induction tr as [|e tr IH] using rev_ind; intros x' aid p Hr Hp; [unfold freplay in Hp; simpl in Hp; by rewrite lookup_empty in Hp|].
  destruct (freach_snoc _ _ _ _ Hr) as (x & Hr0 & Hs & _). rewrite freplay_snoc in Hp.
  destruct (freach_ginv _ _ _ Hr0) as [w Hg]. pose proof (fr_univ _ _ _ _ _ Hr) as HK.
  destruct Hs as [y y' jobs c r Hc Hre Hpr Ha|y jobs c aid0 Hc Hj Hpr|y jobs c aid0 e Hj|y jobs c aid0 a k hd v s' Hj Ho Hd|y jobs c aid0 Hj|y jobs c aid0 o Hj];
    cbn [fhstep] in Hp.
  - apply fin_pends in Hp as [(p' & Hp & ->)|Hp]; [by eapply IH|]. by destruct c.
  - by eapply IH.
  - destruct (gi_jobs _ _ _ _ _ Hg _ _ Hj) as (Hc & Hk & _). rewrite Hc in Hp. cbn [h_pend] in Hp.
    apply lookup_insert_Some in Hp as [[<- <-]|[_ Hp]]; [|by eapply IH]. cbn [p_key].
    destruct c; try done; cbn [call_key_ok job_key] in *.
    split; [by apply (uv_bytes K HK)|by apply (uv_nonempty K HK)].
  - by eapply IH.
  - by eapply IH.
  - assert (Hdel : h_pend (freplay tr) !! aid = Some p); [|by eapply IH].
    destruct o as [v0 f0|f0 op|[r|]]; cbn [returned h_pend] in Hp; try done; by apply lookup_delete_Some in Hp as [_ ?].
Qed.

Lemma fsusp_size tr : (size (h_susp (freplay tr)) <= h_nsusp (freplay tr))%nat.
Proof.
  induction tr as [|e tr IH] using rev_ind; [done|]. rewrite freplay_snoc.
  destruct e as [c r|c|c|aid a|aid|aid c r]; cbn [fhstep]; try done; [by apply susp_hstep|by destruct (job_of c)|].
  by destruct r as [| |[]| | |].
Qed.

Lemma freach_settled n tr x : freachable n tr x -> settled K fetch (fs_sys x) (freplay tr) (ncalls tr).
Proof.
  intros Hr. split; [apply Hr|by eapply freach_inv|apply Hr|intros aid p; by eapply fpend_keys|apply fsusp_size].
Qed.

(** ** Nothing crashes *)

Lemma f_no_crash n tr x : freachable n tr x -> ~ crashing x.
Proof.
  intros Hr (aid & c & p & Hj & Hp). destruct (freach_wake _ _ _ Hr) as (w & Hg & Hwk).
  destruct (gi_jobs _ _ _ _ _ Hg _ _ Hj) as (_ & _ & tr1 & tr2 & e & ns & _ & _ & _ & Hok).
  destruct p as [o|[]|a k]; try done. destruct Hp as [why Hp]. destruct (Hok w (rtc_refl _ _)) as (_ & v & s' & Hd & _).
  rewrite (lact_plain w) in Hd by (by rewrite Hwk). rewrite (gi_sys _ _ _ _ _ Hg) in Hd. congruence.
Qed.

Lemma f_goes_on n tr x aid jb : freachable n tr x -> fs_jobs x !! aid = Some jb -> exists e x', fstep K fetch x e x' /\ by_client aid e.
Proof.
  intros Hr Hj. destruct (freach_wake _ _ _ Hr) as (w & Hg & Hwk). destruct x as [y jobs]. cbn [fs_jobs] in Hj.
  pose proof (gi_jobs _ _ _ _ _ Hg _ _ Hj) as Hjob. destruct jb as [c e|c p].
  - destruct Hjob as (Hc & _). eexists _, _. split; [by apply fs_resv|done].
  - destruct Hjob as (_ & _ & tr1 & tr2 & e & ns & _ & _ & Hb & Hok). destruct p as [o|[]|a k]; try done.
    + eexists _, _. split; [by apply fs_return|done].
    + eexists _, _. split; [by apply fs_again|done].
    + destruct (Hok w (rtc_refl _ _)) as (_ & v & s' & Hd & _). rewrite (lact_plain w) in Hd by (by rewrite Hwk). rewrite (gi_sys _ _ _ _ _ Hg) in Hd.
      destruct (j_mine _ _ _ _ _ _ _ (ba_J _ _ _ _ _ _ _ _ _ Hb)) as [(l & b & Ho) _]. rewrite (gi_sys _ _ _ _ _ Hg) in Ho.
      eexists _, _. split; [by eapply fs_act|done].
Qed.

(** ** Results *)

(** At some moment between the reservation that begins the call and its return. *)
Definition sometime (tr1 : list event) (c : call) (tr2 : list event) (P : hist -> Prop) : Prop :=
  exists tr3, tr3 `prefix_of` tr2 /\ P (freplay (tr1 ++ EResv c :: tr3)).

Definition binds (k : list N) (v : N) (h : hist) : Prop := h_map h !! k = Some v \/ (h_map h !! k = None /\ k ∈ h_susp h).

Lemma in_span_eq tr w c tr1 tr2 x q : ginv K fetch tr x w -> tr = tr1 ++ EResv c :: tr2 -> q ∈ span (S (length tr1)) w ->
  exists tr3, tr3 `prefix_of` tr2 /\ q.1 = freplay (tr1 ++ EResv c :: tr3).
Proof.
  intros Hg Htr Hq. unfold span in Hq. apply elem_of_list_lookup in Hq as [i Hi]. rewrite lookup_drop in Hi.
  assert (Hf : map fst (w_past w) !! (S (length tr1) + i)%nat = Some q.1) by (rewrite list_lookup_fmap, Hi; done).
  rewrite (gi_past _ _ _ _ _ Hg), list_lookup_fmap in Hf. apply fmap_Some in Hf as (j & Hj & Hf).
  apply lookup_seq in Hj as [-> Hj]. exists (take i tr2). split; [exists (drop i tr2); by rewrite take_drop|]. rewrite Hf. f_equal. subst tr.
  replace (0 + (S (length tr1) + i))%nat with (length tr1 + S i)%nat by lia. rewrite firstn_app. rewrite (take_ge tr1) by lia.
  by replace (length tr1 + S i - length tr1)%nat with (S i) by lia.
Qed.

Lemma in_span tr w aid c tr1 tr2 x q : ginv K fetch tr x w -> during tr aid c tr1 tr2 -> q ∈ span (S (length tr1)) w ->
  exists tr3, tr3 `prefix_of` tr2 /\ q.1 = freplay (tr1 ++ EResv c :: tr3).
Proof. intros Hg [Htr _]. by eapply in_span_eq. Qed.

Lemma look_moments tr w aid c key e tr1 tr2 x v f : ginv K fetch tr x w -> during tr aid c tr1 tr2 ->
  J K fetch aid key (S (length tr1)) e w -> look_post fetch key (S (length tr1)) w (v, f) ->
  (if f then v < 2 ^ 55 /\ sometime tr1 c tr2 (binds (fetch v) v) else v = 0) /\
  ((f = true /\ fetch v = key) \/ sometime tr1 c tr2 (fun h => h_map h !! key = None)).
Proof.
  intros Hg Hd HJ [L1 L2 L3]. cbn [fst snd] in *. split.
  - destruct f; [|by apply L3]. destruct (L2 eq_refl) as [Hv (q & Hq & Hin)]. split; [done|].
    destruct (in_span _ _ _ _ _ _ _ _ Hg Hd Hq) as (tr3 & Hp & E). exists tr3. split; [done|]. unfold binds. rewrite <- E.
    assert (Hs : snap_ok K fetch q).
    { pose proof (g_past _ _ _ (gi_good _ _ _ _ _ Hg)) as H. rewrite list.Forall_forall in H. apply H. unfold span in Hq.
      rewrite <- (take_drop (S (length tr1)) (w_past w)). apply elem_of_app. by right. }
    by apply Hs in Hin.
  - destruct (decide (Forall (fun q => is_Some (h_map q.1 !! key)) (span (S (length tr1)) w))) as [Ha|Ha].
    + left. apply L1. intros q Hq. rewrite list.Forall_forall in Ha. by apply Ha.
    + right. apply not_Forall_Exists in Ha; [|apply _]. apply list.Exists_exists in Ha as (q & Hq & Hn).
      destruct (in_span _ _ _ _ _ _ _ _ Hg Hd Hq) as (tr3 & Hp & E). exists tr3. split; [done|]. rewrite <- E.
      by apply eq_None_not_Some.
Qed.

Lemma return_inv x aid c r x' : fstep K fetch x (EReturn aid c r) x' ->
  exists o, fs_jobs x !! aid = Some (Running c (Ret o)) /\ r = returned o /\ x' = FSys (return_to aid c o (fs_sys x)) (delete aid (fs_jobs x)).
Proof. intros Hs. inversion Hs; subst. eauto. Qed.

(** The candidate a call returns and whether it reports the key as found. *)
Definition answer (r : reply) : N * bool :=
  match r with
  | RLookup v f | RPrepU f v => (v, f)
  | RPrepD (Some v) => (v, true)
  | _ => (0, false)
  end.

Lemma f_answer n tr x aid c r : freachable n (tr ++ [EReturn aid c r]) x ->
  exists tr1 tr2, tr = tr1 ++ EResv c :: tr2 /\ job_of c = Some aid /\ Forall (fun e => ~ borders aid e) tr2 /\
    let (v, f) := answer r in
    (if f then v < 2 ^ 55 /\ sometime tr1 c tr2 (binds (fetch v) v) else v = 0) /\
    ((f = true /\ fetch v = job_key c) \/ sometime tr1 c tr2 (fun h => h_map h !! job_key c = None)).
Proof.
  intros Hr. destruct (freach_snoc _ _ _ _ Hr) as (x0 & Hr0 & Hs & _). destruct (freach_ginv _ _ _ Hr0) as [w Hg].
  apply return_inv in Hs as (o & Hj & -> & _).
  destruct (gi_jobs _ _ _ _ _ Hg _ _ Hj) as (Hc & _ & tr1 & tr2 & e & ns & Hd & _ & Hb & Hok).
  pose proof (Hok w (rtc_refl _ _)) as Hp. exists tr1, tr2. pose proof Hd as [-> Hf]. split_and!; try done.
  pose proof (ba_J _ _ _ _ _ _ _ _ _ Hb) as HJ.
  destruct c as [a key|a key|? ? ? ?|?|a key|?|?|?|? ? ?], o as [v0 f0|f0 op|[r|]]; try done; cbn [post returned answer job_key] in *.
  - destruct Hp as (_ & _ & Hl). by eapply look_moments.
  - destruct Hp as (_ & _ & _ & Hl). by eapply look_moments.
  - destruct Hp as (_ & _ & _ & Hl & _). exact (look_moments _ _ _ _ _ _ _ _ _ _ true Hg Hd HJ Hl).
  - destruct Hp as (_ & _ & Hl). exact (look_moments _ _ _ _ _ _ _ _ _ _ false Hg Hd HJ Hl).
Qed.

(** ** The map, the effects of Finalize and Abort, Len, locks, reservations, memory *)

Lemma f_map n tr x k : freachable n tr x -> bytes k -> k <> [] ->
  (forall v, h_map (freplay tr) !! k = Some v -> get (fs_sys x) k = Some v) /\
  (forall v, get (fs_sys x) k = Some v -> binds k v (freplay tr)) /\
  (k ∉ h_susp (freplay tr) -> get (fs_sys x) k = h_map (freplay tr) !! k).
Proof. intros Hr. by apply (st_map K fetch _ _ (ncalls tr)), freach_settled with n. Qed.

Lemma call_inv x c r x' : fstep K fetch x (ECall c r) x' ->
  job_of c = None /\ proper K fetch (fs_sys x) c /\ api (fs_sys x) c = Ok (r, fs_sys x') /\ fs_jobs x' = fs_jobs x.
Proof. intros Hs. by inversion Hs; subst. Qed.

(** Where a step is not Finalize of this kind, the bindings stay. *)
Lemma f_update n tr x aid fk m value b x' : freachable n tr x -> fstep K fetch x (ECall (CFinU aid fk m value) (RBool b)) x' ->
  exists p, h_pend (freplay tr) !! aid = Some p /\ (b = false -> p_del p = true) /\
    forall k, bytes k -> k <> [] -> get (fs_sys x') k =
      if b then (if decide (k = p_key p) then Some (value mod 2 ^ 55) else get (fs_sys x) k) else get (fs_sys x) k.
Proof. intros Hr (_ & Hp & Ha & _)%call_inv. by eapply st_update, Ha; [eapply freach_settled|]. Qed.

Lemma f_delete n tr x aid b x' : freachable n tr x -> fstep K fetch x (ECall (CFinD aid) (RBool b)) x' ->
  exists p, h_pend (freplay tr) !! aid = Some p /\ (b = false -> p_over p = true) /\
    (forall k, bytes k -> k <> [] -> k <> p_key p -> get (fs_sys x') k = get (fs_sys x) k) /\
    (b = true -> get (fs_sys x') (p_key p) = None \/ (p_over p = true /\ get (fs_sys x') (p_key p) = get (fs_sys x) (p_key p))) /\
    (b = false -> get (fs_sys x') (p_key p) = get (fs_sys x) (p_key p)).
Proof. intros Hr (_ & Hp & Ha & _)%call_inv. by eapply st_delete, Ha; [eapply freach_settled|]. Qed.

Lemma f_outcomes n tr x c : freachable n tr x -> job_of c = None -> proper K fetch (fs_sys x) c ->
  match api (fs_sys x) c with
  | Ok _ => True
  | Panic OutOfBlocks => match c with CFinU _ _ _ _ | CFinD _ => True | _ => False end
  | Panic OutOfRange => exists aid hd, (match c with CFinU a _ _ _ => a = aid | CFinD a => a = aid | _ => False end) /\
      sy_open (fs_sys x) !! aid = Some hd /\ fin_size hd = 258%nat
  | _ => False
  end.
Proof.
  intros Hr Hc Hp. pose proof (st_outcomes K fetch _ _ _ c (freach_settled _ _ _ Hr) Hp) as H.
  destruct (api (fs_sys x) c) as [|[]| |]; try done. destruct H as [H _]. by destruct c.
Qed.

Lemma f_short n tr x c : (forall k, K k -> (length k <= 9)%nat) -> freachable n tr x -> job_of c = None -> proper K fetch (fs_sys x) c ->
  match api (fs_sys x) c with
  | Ok _ => True
  | Panic OutOfBlocks => match c with CFinU _ _ _ _ | CFinD _ => True | _ => False end
  | _ => False
  end.
Proof.
  intros HK Hr Hc Hp. pose proof (st_short K fetch _ _ _ c HK (freach_settled _ _ _ Hr) Hp) as H.
  destruct (api (fs_sys x) c) as [|[]| |]; try done. destruct H as [H _]. by destruct c.
Qed.

Lemma f_len n tr x : freachable n tr x ->
  (Z.of_nat (size (h_map (freplay tr))) - Z.of_nat (h_nsusp (freplay tr)) <= len (sy_tree (fs_sys x)) + h_off (freplay tr) <=
   Z.of_nat (size (h_map (freplay tr))) + Z.of_nat (h_nsusp (freplay tr)))%Z.
Proof. intros Hr. by eapply ApiProps.st_len, freach_settled. Qed.

Lemma f_live n tr x : freachable n tr x -> live_memory (sy_tree (fs_sys x)).
Proof.
  intros Hr. destruct (freach_inv _ _ _ Hr) as (T & lost & Hi).
  exact (core_live K fetch (fr_univ _ _ _ _ _ Hr) _ _ (iv_core _ _ _ _ _ _ _ Hi)).
Qed.

Lemma f_resv n tr x aid : freachable n tr x -> (aid < naids (fs_sys x))%nat ->
  exists r, t_resv (sy_tree (fs_sys x)) !! aid = Some r /\
    match sy_open (fs_sys x) !! aid with None => r = maxUint64 | Some _ => r <= t_epoch (sy_tree (fs_sys x)) end.
Proof. intros Hr. by eapply ApiProps.st_resv, freach_settled. Qed.

Lemma f_idle n tr x : freachable n tr x -> sy_open (fs_sys x) = ∅ ->
  (forall i, ~ locked (fs_sys x) i) /\ t_rootLock (sy_tree (fs_sys x)) = 0 /\ (forall aid, ~ reserved (fs_sys x) aid).
Proof.
  intros Hr Ho. destruct (freach_inv _ _ _ Hr) as (T & lost & Hi). split_and!.
  - intros i Hl. apply (st_locked K fetch _ _ _ _ (freach_settled _ _ _ Hr)) in Hl as (aid & hd & H & _). by rewrite Ho in H.
  - rewrite (iv_rl _ _ _ _ _ _ _ Hi), Ho. done.
  - intros aid (r & Hl & Hne). apply Hne. apply (iv_idle _ _ _ _ _ _ _ Hi _ _ Hl). by rewrite Ho.
Qed.

(** An open operation belongs to a client that is between Prepare and Finalize, or in the middle of a call. *)
Lemma f_open n tr x aid l b : freachable n tr x -> sy_open (fs_sys x) !! aid = Some (HP l b) ->
  exists c p, fs_jobs x !! aid = Some (Running c p).
Proof. intros Hr. destruct (freach_ginv _ _ _ Hr) as [w Hg]. apply (gi_open _ _ _ _ _ Hg). Qed.

(** ** Finalize replaces what Prepare reported *)

Definition fclient (e : event) : option nat :=
  match e with
  | ECall c _ => caller c
  | EBegin c | EResv c => job_of c
  | EAct aid _ | EAgain aid | EReturn aid _ _ => Some aid
  end.

Lemma f_keep_open x e x' aid hd : fstep K fetch x e x' -> fclient e <> Some aid ->
  (forall j c e, fs_jobs x !! j = Some (Waiting c e) -> job_of c = Some j) ->
  sy_open (fs_sys x) !! aid = Some hd -> sy_open (fs_sys x') !! aid = Some hd.
Proof.
  intros Hs Hne Hw Ho. destruct Hs as [y y' jobs c r Hc Hre Hpr Ha|y jobs c aid0 Hc Hj Hpr|y jobs c aid0 e Hj|y jobs c aid0 a k hd0 v s' Hj Ho0 Hd|y jobs c aid0 Hj|y jobs c aid0 o Hj];
    cbn [fs_sys fclient sy_open] in *; try done.
  - by eapply keep_open.
  - rewrite lookup_insert_ne; [done|]. intros ->. by rewrite (Hw _ _ _ Hj) in Hne.
  - rewrite lookup_insert_ne; [done|congruence].
  - destruct o as [v0 f0|f0 op|[r|]]; cbn [return_to sy_open]; (rewrite lookup_insert_ne || rewrite lookup_delete_ne); congruence.
Qed.

Lemma f_open_since n tr1 e tr2 x aid (P : handle -> Prop) : freachable n (tr1 ++ e :: tr2) x ->
  (forall x1, freachable n (tr1 ++ [e]) x1 -> exists hd, sy_open (fs_sys x1) !! aid = Some hd /\ P hd) ->
  Forall (fun e => fclient e <> Some aid) tr2 -> exists hd, sy_open (fs_sys x) !! aid = Some hd /\ P hd.
Proof.
  intros Hr He. revert x Hr. induction tr2 as [|e2 tr2 IH] using rev_ind; intros x Hr Hf; [by apply He|].
  apply Forall_app in Hf as [Hf H2]. apply Forall_inv in H2.
  change (tr1 ++ e :: tr2 ++ [e2]) with (tr1 ++ (e :: tr2) ++ [e2]) in Hr. rewrite app_assoc in Hr.
  destruct (freach_snoc _ _ _ _ Hr) as (x0 & Hr0 & Hs & _). destruct (IH _ Hr0 Hf) as (hd & Ho & HP). exists hd. split; [|done].
  eapply f_keep_open; try done. destruct (freach_ginv _ _ _ Hr0) as [w Hg]. intros j c e' Hj.
  by destruct (gi_jobs _ _ _ _ _ Hg _ _ Hj) as (Hc & _).
Qed.

Lemma f_prepu_open n tr aid key found v x : freachable n (tr ++ [EReturn aid (CPrepU aid key) (RPrepU found v)]) x ->
  exists hd, sy_open (fs_sys x) !! aid = Some hd /\ exists op, hd = HU found op /\ u_key op = key /\ u_value op = v.
Proof.
  intros Hr. destruct (freach_snoc _ _ _ _ Hr) as (x0 & Hr0 & Hs & _). destruct (freach_ginv _ _ _ Hr0) as [w Hg].
  apply return_inv in Hs as (o & Hj & Eo & ->).
  destruct (gi_jobs _ _ _ _ _ Hg _ _ Hj) as (_ & _ & tr1 & tr2 & e & ns & Hd & _ & Hb & Hok).
  pose proof (Hok w (rtc_refl _ _)) as Hp. destruct o as [v0 f0|f0 op|[r|]]; try done. injection Eo as -> ->.
  cbn [fs_sys return_to sy_open]. rewrite lookup_insert. eexists. split; [done|]. exists op. split_and!; try done.
  destruct Hp as (_ & _ & (p & Hpe & _ & _ & Hk & _) & _). cbn [snd] in Hk. rewrite Hk.
  destruct (ba_pend _ _ _ _ _ _ _ _ _ Hb) as (p' & Hpe' & Hk' & _). cbn [job_key] in Hk'. unfold pnd in *. congruence.
Qed.

Lemma f_prepd_open n tr aid key v x : freachable n (tr ++ [EReturn aid (CPrepD aid key) (RPrepD (Some v))]) x ->
  exists hd, sy_open (fs_sys x) !! aid = Some hd /\ exists op, hd = HD key op /\ d_value op = v.
Proof.
  intros Hr. destruct (freach_snoc _ _ _ _ Hr) as (x0 & Hr0 & Hs & _).
  apply return_inv in Hs as (o & Hj & Eo & ->). destruct o as [v0 f0|f0 op|[r|]]; try done. injection Eo as ->.
  cbn [fs_sys return_to sy_open job_key]. rewrite lookup_insert. eexists. split; [done|]. by exists r.
Qed.

Lemma f_rmw_update n tr1 aid key found v tr2 x fk m value x' :
  freachable n (tr1 ++ EReturn aid (CPrepU aid key) (RPrepU found v) :: tr2) x -> Forall (fun e => fclient e <> Some aid) tr2 ->
  fstep K fetch x (ECall (CFinU aid fk m value) (RBool true)) x' ->
  get (fs_sys x) key = (if found then (if decide (fetch v = key) then Some v else None) else None) /\
  get (fs_sys x') key = Some (value mod 2 ^ 55).
Proof.
  intros Hr Hf Hs. pose proof Hs as (_ & Hp & Ha & _)%call_inv.
  destruct (f_open_since _ _ _ _ _ aid _ Hr (f_prepu_open _ _ _ _ _ _) Hf) as (hd & Ho & op & -> & <- & <-).
  pose proof (freach_settled _ _ _ Hr) as Hst. pose proof (fr_univ _ _ _ _ _ Hr) as HK.
  destruct (update_replaces K fetch HK _ _ _ _ _ _ _ _ Hst Hp Ha) as (f' & op' & Ho' & Hg). rewrite Ho in Ho'. injection Ho' as <- <-.
  split; [done|]. destruct (st_update K fetch _ _ _ _ _ _ _ _ _ Hst Hp Ha) as (p & Hpe & _ & Hg').
  destruct (st_keys _ _ _ _ _ Hst _ _ Hpe) as [Hkb Hkn].
  destruct (st_inv _ _ _ _ _ Hst) as (T & lost & Hi). destruct (iv_ops _ _ _ _ _ _ _ Hi _ _ Ho) as (p' & Hpe' & _ & _ & Ek & _).
  assert (p' = p) as -> by congruence. rewrite Ek. rewrite Hg' by done. by rewrite decide_True.
Qed.

Definition eacked (e : event) : bool := match e with ECall _ r => acked r | _ => false end.

Lemma f_pend_quiet h e aid p : fclient e <> Some aid -> eacked e = false -> h_pend h !! aid = Some p ->
  h_pend (fhstep h e) !! aid = Some p.
Proof.
  intros Hc Ha Hp. destruct e as [c r|c|c|a ac|a|a c r]; cbn [fhstep fclient] in *; try done.
  - by apply (pend_quiet h (c, r)).
  - destruct (job_of c) as [j|]; [|done]. cbn [h_pend]. rewrite lookup_insert_ne; congruence.
  - destruct r as [| |[]| | |]; try done; cbn [h_pend]; rewrite lookup_delete_ne; congruence.
Qed.

(** While a call runs, its client has no other operation. *)
Lemma f_during n tr1 c tr2 x aid : freachable n (tr1 ++ EResv c :: tr2) x -> job_of c = Some aid -> Forall (fun e => ~ borders aid e) tr2 ->
  (exists p, fs_jobs x !! aid = Some (Running c p)) /\ exists l b, sy_open (fs_sys x) !! aid = Some (HP l b).
Proof.
  intros Hr Hc. revert x Hr. induction tr2 as [|e2 tr2 IH] using rev_ind; intros x Hr Hf.
  - destruct (freach_snoc _ _ _ _ Hr) as (x0 & Hr0 & Hs & _). destruct (freach_ginv _ _ _ Hr0) as [w Hg].
    inversion Hs as [| |y jobs c0 aid0 e Hj| | |]; subst. destruct (gi_jobs _ _ _ _ _ Hg _ _ Hj) as (Hc' & _).
    assert (aid0 = aid) as -> by congruence. cbn [fs_jobs fs_sys sy_open]. rewrite !lookup_insert. eauto.
  - apply Forall_app in Hf as [Hf H2]. apply Forall_inv in H2.
    change (tr1 ++ EResv c :: tr2 ++ [e2]) with (tr1 ++ (EResv c :: tr2) ++ [e2]) in Hr. rewrite app_assoc in Hr.
    destruct (freach_snoc _ _ _ _ Hr) as (x0 & Hr0 & Hs & _). destruct (IH _ Hr0 Hf) as [(p & Hj) (l & b & Ho)].
    destruct (freach_ginv _ _ _ Hr0) as [w Hg].
    destruct Hs as [y y' jobs c0 r Hc0 Hre Hpr Ha|y jobs c0 aid0 Hc0 Hj0 Hpr|y jobs c0 aid0 e Hj0|y jobs c0 aid0 a k hd0 v s' Hj0 Ho0 Hd|y jobs c0 aid0 Hj0|y jobs c0 aid0 o Hj0];
      cbn [fs_sys fs_jobs sy_open] in *.
    + split; [eauto|]. exists l, b. eapply keep_open; try done. intros Hcl.
      destruct c0; try done; simpl in Hpr, Hcl; simplify_eq; destruct_and?; repeat match goal with H : exists _, _ |- _ => destruct H end; destruct_and?; congruence.
    + split; [|eauto]. exists p. rewrite lookup_insert_ne; [done|congruence].
    + assert (aid0 <> aid) by congruence. rewrite !lookup_insert_ne by done. eauto.
    + destruct (decide (aid0 = aid)) as [->|Hne]; [|rewrite !lookup_insert_ne by done; eauto].
      rewrite !lookup_insert. assert (c0 = c) as -> by congruence. split; [eauto|]. rewrite Ho in Ho0. injection Ho0 as <-.
      destruct a; simpl; eauto; destruct (_ =? _); eauto.
    + split; [|eauto]. destruct (decide (aid0 = aid)) as [->|Hne]; [|rewrite !lookup_insert_ne by done; eauto].
      rewrite !lookup_insert. assert (c0 = c) as -> by congruence. eauto.
    + assert (aid0 <> aid) by (intros ->; by apply H2). rewrite lookup_delete_ne by done. split; [eauto|].
      destruct o as [v0 f0|f0 op|[r|]]; cbn [return_to sy_open]; first [rewrite lookup_insert_ne by done|rewrite lookup_delete_ne by done]; eauto.
Qed.

(** An operation counts as overlapped only if another Finalize succeeded since its call began. *)
Lemma f_over_since n tr1 c tr2 e tr3 x aid : freachable n (tr1 ++ EResv c :: tr2 ++ e :: tr3) x -> job_of c = Some aid ->
  (match e with EReturn a _ (RPrepU _ _) | EReturn a _ (RPrepD (Some _)) => a = aid | _ => False end) ->
  Forall (fun e => ~ borders aid e) tr2 -> Forall (fun e => fclient e <> Some aid) tr3 ->
  Forall (fun e => eacked e = false) (tr2 ++ tr3) ->
  h_pend (freplay (tr1 ++ EResv c :: tr2 ++ e :: tr3)) !! aid = Some (Pend (job_key c) false false).
Proof.
  intros Hr Hc He H2 H3 [A2 A3]%Forall_app.
  assert (Hp2 : h_pend (freplay (tr1 ++ EResv c :: tr2)) !! aid = Some (Pend (job_key c) false false)).
  { assert (Hr2 : exists x2, freachable n (tr1 ++ EResv c :: tr2) x2).
    { apply (freach_prefix n (tr1 ++ EResv c :: tr2) (e :: tr3) x). by rewrite <- app_assoc, <- app_comm_cons. }
    clear -Hr2 Hc H2 A2. destruct Hr2 as [x2 Hr2]. revert x2 Hr2. induction tr2 as [|e2 tr2 IH] using rev_ind; intros x2 Hr2.
    - rewrite freplay_snoc. cbn [fhstep]. rewrite Hc. cbn [h_pend]. apply lookup_insert.
    - apply Forall_app in H2 as [H2 B]. apply Forall_inv in B. apply Forall_app in A2 as [A2 D]. apply Forall_inv in D.
      change (tr1 ++ EResv c :: tr2 ++ [e2]) with (tr1 ++ (EResv c :: tr2) ++ [e2]) in *. rewrite app_assoc in *. rewrite freplay_snoc.
      destruct (freach_snoc _ _ _ _ Hr2) as (x0 & Hr0 & Hs & _). specialize (IH H2 A2 _ Hr0).
      destruct (f_during _ _ _ _ _ _ Hr0 Hc H2) as [(p & Hj) (l & b & Ho)].
      destruct e2 as [c0 r|c0|c0|a ac|a|a c0 r]; cbn [fhstep borders] in *; try done.
      + apply (pend_quiet _ (c0, r)); try done. cbn [fst]. apply call_inv in Hs as (_ & Hpr & _ & _). intros Hcl.
        destruct c0; try done; simpl in Hpr, Hcl; simplify_eq; destruct_and?; repeat match goal with H : exists _, _ |- _ => destruct H end; destruct_and?; congruence.
      + destruct (job_of c0) as [j|]; [|done]. cbn [h_pend]. rewrite lookup_insert_ne; congruence.
      + assert (a <> aid) by (intros ->; by apply B). destruct r as [| |[]| | |]; try done; cbn [h_pend]; by rewrite lookup_delete_ne. }
  clear Hr A2 H2. induction tr3 as [|e3 tr3 IH] using rev_ind.
  - rewrite app_comm_cons, app_assoc, freplay_snoc. destruct e as [| | | | |a c0 [| |[]| | |]]; try done.
  - apply Forall_app in H3 as [H3 B]. apply Forall_inv in B. apply Forall_app in A3 as [A3 D]. apply Forall_inv in D.
    replace (tr1 ++ EResv c :: tr2 ++ e :: tr3 ++ [e3]) with ((tr1 ++ EResv c :: tr2 ++ e :: tr3) ++ [e3]) by (by rewrite <- !app_assoc, <- app_comm_cons, <- app_assoc).
    rewrite freplay_snoc. apply f_pend_quiet; auto.
Qed.

Lemma f_rmw_delete n tr1 aid key v tr2 tr3 x x' :
  freachable n (tr1 ++ EResv (CPrepD aid key) :: tr2 ++ EReturn aid (CPrepD aid key) (RPrepD (Some v)) :: tr3) x ->
  Forall (fun e => ~ borders aid e) tr2 -> Forall (fun e => fclient e <> Some aid) tr3 ->
  fstep K fetch x (ECall (CFinD aid) (RBool true)) x' ->
  (get (fs_sys x) key = Some v /\ get (fs_sys x') key = None) \/
  (Exists (fun e => eacked e = true) (tr2 ++ tr3) /\ get (fs_sys x') key = get (fs_sys x) key).
Proof.
  intros Hr H2 H3 Hs. pose proof Hs as (_ & Hp & Ha & _)%call_inv.
  assert (Hr' : freachable n ((tr1 ++ EResv (CPrepD aid key) :: tr2) ++ EReturn aid (CPrepD aid key) (RPrepD (Some v)) :: tr3) x) by (by rewrite <- app_assoc, <- app_comm_cons).
  destruct (f_open_since _ _ _ _ _ aid _ Hr' (f_prepd_open _ _ _ _ _) H3) as (hd & Ho & op & -> & <-).
  pose proof (freach_settled _ _ _ Hr) as Hst. pose proof (fr_univ _ _ _ _ _ Hr) as HK.
  destruct (delete_replaces K fetch HK _ _ _ _ _ Hst Hp Ha) as (p & op' & Hpe & Ho' & Hg). rewrite Ho in Ho'. injection Ho' as -> <-.
  destruct Hg as [Hg|[Hov Hg]]; [by left|]. right. split; [|done].
  destruct (decide (Forall (fun e => eacked e = false) (tr2 ++ tr3))) as [Hq|Hq].
  - exfalso. pose proof (f_over_since n tr1 (CPrepD aid (p_key p)) tr2 _ tr3 x aid Hr eq_refl eq_refl H2 H3 Hq) as E.
    rewrite E in Hpe. apply (f_equal (option_map p_over)) in Hpe. simpl in Hpe. congruence.
  - apply not_Forall_Exists in Hq; [|apply _]. eapply Exists_impl; [exact Hq|]. intros e He. simpl in He. by destruct (eacked e).
Qed.

Lemma compact_holds n tr x : universe K -> FineRun.fruns K fetch compact n tr x -> ncalls tr < 2 ^ 31 ->
  ~ crashing x /\
  (forall aid jb, fs_jobs x !! aid = Some jb -> exists e x', fstep K fetch x e x' /\ by_client aid e) /\
  forall k, bytes k -> k <> [] ->
    (forall v, h_map (freplay tr) !! k = Some v -> get (fs_sys x) k = Some v) /\
    (k ∉ h_susp (freplay tr) -> get (fs_sys x) k = h_map (freplay tr) !! k).
Proof.
  intros HK Hr Hn. pose proof (compact_freach _ _ _ HK Hr Hn) as Hf. split; [by eapply f_no_crash|].
  split; [intros; by eapply f_goes_on|]. intros k H1 H2. destruct (f_map n tr x k Hf H1 H2) as (A & _ & B). done.
Qed.
End FineProps.
