(** * StepObsProps: what iterations and counts return while one Finalize or Abort at a time is in progress. *)
From Verif Require Export StepObsSim StepWriter.

(** ** Moments *)

Lemma shown_prefix l m : l `prefix_of` shown m -> exists m3, m3 `prefix_of` m /\ shown m3 = l.
Proof.
  revert l. induction m as [|x m IH]; intros l Hl.
  - apply prefix_nil_inv in Hl as ->. by exists [].
  - rewrite shown_cons in Hl.
    assert (shown1 x = [] \/ exists z, shown1 x = [z]) as [E|[z E]].
    { destruct x as [[e|e] o]; unfold shown1; cbn [fst snd]; [right; by eexists|]. destruct e; cbn [as_lookup map]; eauto. }
    + rewrite E in Hl. destruct (IH _ Hl) as (m3 & H1 & <-). exists (x :: m3). split; [by apply prefix_cons|]. by rewrite shown_cons, E.
    + rewrite E in Hl. destruct l as [|z1 l]; [exists []; split; [apply prefix_nil|done]|].
      pose proof (prefix_cons_inv_1 _ _ _ _ Hl) as ->. apply prefix_cons_inv_2 in Hl. destruct (IH _ Hl) as (m3 & H1 & <-).
      exists (x :: m3). split; [by apply prefix_cons|]. by rewrite shown_cons, E.
Qed.

Section ObsProps.
Context (K : list N -> Prop) (fetch : N -> list N) (HK : universe K) (few : bool).

(** The values [vis] found by the call: in order, each bound to its key ([B]) at some moment of the call, under the prefix
    (or a single one that shares its first byte, C16). *)
Record xfound (B : list N -> N -> hist -> Prop) (m1 : xmarked) (aid : nat) (c : ocall) (m2 : xmarked) (vis : list N) : Prop := {
  xf_sorted : StronglySorted lex_lt (map fetch vis);
  xf_each : forall v, v ∈ vis -> v < 2 ^ 55 /\ xsometime m1 aid c m2 (B (fetch v) v) /\
    (oprefix c `prefix_of` fetch v \/ (vis = [v] /\ take 1 (oprefix c) `prefix_of` fetch v))
}.

(** What a call may return at the end of [m]: Count the number of such values, with every key that was there all the
    time among them.  Next the next prefetched value; if it has to search, the first of such values. *)
Definition true_result (B : list N -> N -> hist -> Prop) (m : xmarked) (aid : nat) (c : ocall) (r : oreply) : Prop :=
  exists m1 m2, xduring m aid c m1 m2 /\
  match c, r with
  | OCount _ sp, RCount _ leaves _ => exists vis, xfound B m1 aid c m2 vis /\ leaves = length vis /\
      forall k, sp `prefix_of` k -> xthroughout m1 aid c m2 (bound k) -> k ∈ map fetch vis
  | ONext _ it, RNext more it' =>
    match it_prefetched it !! it_pp it with
    | Some v => more = true /\ it' = Iter v (it_stack it) (it_prefetched it) (S (it_pp it)) (it_prefix it) (it_resume it) (it_done it)
    | None => if it_done it then more = false /\ it' = it
      else exists vis, xfound B m1 aid c m2 vis /\ it_prefix it' = it_prefix it /\ (it_done it' = false -> (256 < length vis)%nat) /\
        match vis with
        | [] => more = false
        | v :: _ => more = true /\ it_value it' = v /\
           ((it_prefetched it' = vis /\ it_pp it' = 1%nat) \/ (vis = [v] /\ it_done it' = true /\ it_prefetched it' = it_prefetched it /\ it_pp it' = O))
        end /\
        (it_resume it = [] -> forall k, it_prefix it `prefix_of` k -> xthroughout m1 aid c m2 (bound k) ->
           k ∈ map fetch vis \/ (it_done it' = false /\ forall v, v ∈ vis -> lex_lt (fetch v) k))
    end
  | _, _ => False
  end.

Definition xresults (B : list N -> N -> hist -> Prop) (m : xmarked) : Prop :=
  forall m1 aid c r m2, m = m1 ++ (XO (OReturn aid c r), None) :: m2 -> true_result B m1 aid c r.

Lemma xmoment m w y G aid c m1 m2 q st : ginv K fetch (gt (shown m)) (FSys y G) w -> placed (shown m) st -> xduring m aid c m1 m2 ->
  q ∈ span (mark m1) w -> exists m3, m3 `prefix_of` m2 /\ q.1 = xreplay (m1 ++ (XO (OResv aid c), None) :: m3).
Proof.
  intros Hg Hpl [-> _] Hq. set (c' := CLookup aid [0]).
  assert (E : forall m3, gt (shown (m1 ++ (XO (OResv aid c), None) :: m3)) = (gt (shown m1) ++ [EBegin c']) ++ EResv c' :: gt (shown m3)).
  { intros m3. rewrite shown_app, shown_cons, gt_app. cbn [shown1 fst as_lookup map app]. rewrite gt_cons. unfold ge. cbn [fst snd app]. by rewrite <- app_assoc. }
  assert (Hn : forall e o, (WF e, o) ∈ shown m2 -> o = None).
  { intros e o Hin. apply (placed_marks _ _ Hpl e o). rewrite shown_app, shown_cons. apply elem_of_app. right. apply elem_of_app. by right. }
  rewrite E in Hg. destruct (in_span_eq K fetch _ _ c' (gt (shown m1) ++ [EBegin c']) (gt (shown m2)) _ q Hg eq_refl) as (t3 & H1 & H2).
  { unfold mark in Hq. rewrite app_length. cbn [length]. by rewrite Nat.add_1_r. }
  destruct (gt_moment _ _ (freplay ((gt (shown m1) ++ [EBegin c']) ++ [EResv c'])) Hn H1) as (lc & Hlc & Ef). apply shown_prefix in Hlc as (m3 & Hm3 & <-).
  exists m3. split; [done|]. rewrite H2. unfold xreplay. rewrite lreplay_gt, E.
  change (EResv c' :: t3) with ([EResv c'] ++ t3). change (EResv c' :: gt (shown m3)) with ([EResv c'] ++ gt (shown m3)).
  rewrite !(app_assoc _ [EResv c']). rewrite (freplay_app _ t3), (freplay_app _ (gt (shown m3))). done.
Qed.

Lemma xseen m w y G aid c m1 m2 st k v : ginv K fetch (gt (shown m)) (FSys y G) w -> placed (shown m) st -> xduring m aid c m1 m2 ->
  seen_leaf (mark m1) w k v -> xsometime m1 aid c m2 (binds k v).
Proof.
  intros Hg Hpl Hd (q & Hq & Hin). destruct (xmoment _ _ _ _ _ _ _ _ _ _ Hg Hpl Hd Hq) as (m3 & H1 & E). exists m3. split; [done|]. unfold binds. rewrite <- E.
  pose proof (g_past _ _ _ (gi_good _ _ _ _ _ Hg)) as H. rewrite list.Forall_forall in H. destruct (H q) as [Hm _].
  { unfold span in Hq. rewrite <- (take_drop (mark m1) (w_past w)). apply elem_of_app. by right. }
  by apply Hm in Hin.
Qed.

Lemma xalways m w y G aid c m1 m2 st k : ginv K fetch (gt (shown m)) (FSys y G) w -> placed (shown m) st -> xduring m aid c m1 m2 ->
  xthroughout m1 aid c m2 (bound k) -> always k (mark m1) w.
Proof. intros Hg Hpl Hd Ht q Hq. destruct (xmoment _ _ _ _ _ _ _ _ _ _ Hg Hpl Hd Hq) as (m3 & H1 & ->). by apply Ht. Qed.

Lemma xvisited m w y G aid c m1 m2 st vis rest : ginv K fetch (gt (shown m)) (FSys y G) w -> placed (shown m) st -> xduring m aid c m1 m2 ->
  visited fetch (mark m1) (oprefix c) (ogoal c) w vis rest -> xfound binds m1 aid c m2 vis.
Proof.
  intros Hg Hpl Hd [V1 V2 V3 V4]. split; [done|]. intros v Hv. destruct (V2 _ Hv) as (H1 & H2 & H3). split_and!; [done|by eapply xseen|done].
Qed.

(** ** Results *)

Lemma xsim_result m X st w aid c r : xsim K fetch few m X st w -> placed (shown m) st -> xs_obs X !! aid = Some (ORunning c (Ret r)) -> true_result binds m aid c r.
Proof.
  intros [(js & _ & y & G & us & ur & Hg & _) _ Hrun] Hpl Ho. destruct (Hrun _ _ _ Ho) as (m1 & m2 & e & [Hd HJ _ Hok]).
  exists m1, m2. split; [done|]. pose proof (Hok w (rtc_refl _ _)) as Hp. destruct c as [fuel it|fuel sp], r as [more it'|nodes leaves cnt]; try done; cbn [opost] in Hp.
  - destruct (it_prefetched it !! it_pp it) as [v|]; [done|]. destruct (it_done it); [done|].
    destruct Hp as (_ & Hsp & _ & vis & rest & Hv & Hdone & Hlong & Hvis). exists vis. split_and!; try done; [by eapply (xvisited _ _ _ _ _ (ONext fuel it))|].
    intros Er k Hk Ht. destruct (vi_all _ _ _ _ _ _ _ Hv k) as [?|Hrest]; [by split|by eapply xalways|by left|right].
    destruct (it_done it') eqn:Ed'; [by apply Hdone in Hrest|]. split; [done|]. intros v Hvv. by eapply (vi_rest _ _ _ _ _ _ _ Hv).
  - destruct Hp as [_ (vis & El & Hv)]. exists vis. split_and!; [by eapply (xvisited _ _ _ _ _ (OCount fuel sp))|done|].
    intros k Hk Ht. destruct (vi_all _ _ _ _ _ _ _ Hv k) as [?|[]]; [by split|by eapply xalways|done].
Qed.

Lemma xtruthful_snoc m x : xtruthful fetch m -> (forall aid c r, x = (XW (WF (EReturn aid c r)), None) -> true_answer fetch (shown m) aid c r) -> xtruthful fetch (m ++ [x]).
Proof.
  intros Ht Hx m1 aid c r m2 E. destruct m2 as [|z m2] using rev_ind.
  - apply app_inj_tail in E as [-> ->]. by apply Hx.
  - clear IHm2. rewrite app_comm_cons, app_assoc in E. apply app_inj_tail in E as [-> _]. by eapply Ht.
Qed.
Lemma xhonest_snoc m e o : xhonest m -> (forall c r, o = Some (c, r) -> true_reply (xreplay m) c r) -> xhonest (m ++ [(e, o)]).
Proof.
  intros Ht Hx m1 e' c r m2 E. destruct m2 as [|z m2] using rev_ind.
  - apply app_inj_tail in E as [-> [= -> ->]]. by apply Hx.
  - clear IHm2. rewrite app_comm_cons, app_assoc in E. apply app_inj_tail in E as [-> _]. by eapply Ht.
Qed.
Lemma xresults_snoc B m x : xresults B m -> (forall aid c r, x = (XO (OReturn aid c r), None) -> true_result B m aid c r) -> xresults B (m ++ [x]).
Proof.
  intros Ht Hx m1 aid c r m2 E. destruct m2 as [|z m2] using rev_ind.
  - apply app_inj_tail in E as [-> ->]. by apply Hx.
  - clear IHm2. rewrite app_comm_cons, app_assoc in E. apply app_inj_tail in E as [-> _]. by eapply Ht.
Qed.

Definition only_writes (m : xmarked) : Prop := forall e o, (XO e, o) ∈ m -> o = None.

(** The whole: an order of the writes, and what all calls return with it. *)
Record xmeaning (m : xmarked) (X : xsys) (st : option (call * option reply)) : Prop := {
  xm_placed : placed (shown m) st;
  xm_marks : only_writes m;
  xm_sim : exists w, xsim K fetch few m X st w;
  xm_truthful : xtruthful fetch m;
  xm_honest : xhonest m;
  xm_results : xresults binds m
}.

Lemma xmeaning_init n : xmeaning [] (xinit n) None.
Proof.
  split; [constructor| | |by intros [|]..].
  - intros e o H. by apply elem_of_nil in H.
  - destruct (sim_init K fetch few n) as [w Hs]. exists w. split; cbn [xinit xs_obs].
    + exists ∅. split; [|exact Hs]. split; intros aid; [intros ?; by rewrite lookup_empty| |intros ?; by rewrite lookup_empty]. intros _. done.
    + intros aid c e H. by rewrite lookup_empty in H.
    + intros aid c p H. by rewrite lookup_empty in H.
Qed.

Lemma xmeaning_step m X st e X' : xmeaning m X st -> xallowed few m X e -> xstep K fetch X e X' -> xcalls (map fst m ++ [e]) < 2 ^ 31 ->
  exists o st', xmeaning (m ++ [(e, o)]) X' st'.
Proof.
  intros [Hpl Hmk [w Hs] Ht Hh Hres] Ha Hst Hlt. destruct (xsim_step K fetch HK few m X st w e X' Hs Hpl Ha Hst Hlt) as (o & st' & w' & H1 & H2 & H3 & H4 & H5).
  exists o, st'. split; [done| |by exists w'| |by apply xhonest_snoc|].
  - intros e1 o1 Hin. apply elem_of_app in Hin as [Hin|Hin%elem_of_list_singleton]; [by eapply Hmk|]. injection Hin as <- ->. by eapply H5.
  - apply xtruthful_snoc; [done|]. intros aid c r [= -> ->]. by apply H4.
  - apply xresults_snoc; [done|]. intros aid c r [= -> ->]. inversion Hst as [|? ? ? ? ? ? Ho]; subst. inversion Ho as [| | | |? ? ? ? ? ? Hobs]; subst. by eapply xsim_result.
Qed.

Lemma x_sim_w m X st : xmeaning m X st -> exists js, sim K fetch few (shown m) (WSys (FSys (xs_sys X) js) (ws_fin (xs_w X))) st /\ joint js (fs_jobs (xs_f X)) (xs_obs X).
Proof. intros Hm. destruct (xm_sim _ _ _ Hm) as [w [(js & Hj & Hs) _ _]]. exists js. split; [by exists w|done]. Qed.

Lemma x_short m X st e : xmeaning m X st -> short_keys K -> one_at_once (xs_w X) e -> sized (xs_w X) e.
Proof. intros Hm H9 H1. destruct (x_sim_w _ _ _ Hm) as (js & Hs & _). exact (short_sized K fetch HK few _ _ _ e Hs H9 H1). Qed.

(** ** The tree while no Finalize is in progress *)

Lemma x_rest m X st : xmeaning m X st -> ws_fin (xs_w X) = ∅ -> st = None /\ holds fetch (xreplay m) (xs_sys X).
Proof.
  intros Hm Hf. destruct (x_sim_w _ _ _ Hm) as (js & Hs & _). pose proof (sim_rest _ _ _ _ _ _ Hs Hf) as ->. split; [done|]. exact (sim_holds K fetch HK few _ _ Hs).
Qed.

(** ** Nothing crashes *)

(** The rest of a Finalize leaves the allocators where they are. *)
Definition bump (a : allocator) : N * N := (al_offset a, al_nextFree a).

Lemma insert_bump s a' al al' : t_allocs s !! a' = Some al -> bump al' = bump al -> map bump (<[a' := al']> (t_allocs s)) = map bump (t_allocs s).
Proof.
  intros Ha E. apply list_eq. intros i. rewrite !list_lookup_fmap. destruct (decide (i = a')) as [->|Hn]; [|by rewrite list_lookup_insert_ne].
  rewrite list_lookup_insert by (by eapply lookup_lt_Some). rewrite Ha. cbn. by rewrite E.
Qed.

Lemma pb_bump n aid U rt {A} (p : wprog A) Q : forall b l0 r0 s a s', ph n aid U rt (PB b l0 r0) p Q -> wexec p s = Ok (a, s') -> map bump (t_allocs s') = map bump (t_allocs s).
Proof.
  induction p as [a0|e|a k IH]; intros b l0 r0 s r s' H E; cbn [wexec] in E.
  - by injection E as _ <-.
  - by destruct e as [[]| |].
  - cbn [StepPhase.ph] in H. destruct (do_wact s a) as [[v s1]| | |] eqn:Ed; try done. cbn [bind] in E.
    destruct a as [q|d i0 w|d pfx|q w|q old new|i0|a' slots m|node|i0| | |a' node slots e| |a'|a' d|a']; cbn [ph_act] in H; try done; cbn [do_wact] in Ed.
    + destruct H as (l' & Hu & H). destruct (unlock_word (t_locks s) i0) as [l| | |] eqn:El; try done. injection Ed as <- <-. by rewrite (IH _ _ _ _ _ _ _ (H _) E).
    + destruct H as [Hu H]. injection Ed as <- <-. by rewrite (IH _ _ _ _ _ _ _ (H _) E).
    + injection Ed as <- <-. by rewrite (IH _ _ _ _ _ _ _ (H _) E).
    + unfold keep_node, get_alloc in Ed. destruct (t_allocs s !! a') as [al|] eqn:Ea; try done. cbn [bind] in Ed. injection Ed as <- <-.
      rewrite (IH _ _ _ _ _ _ _ (H _) E). cbn. by eapply insert_bump.
    + destruct H as [Hb H]. injection Ed as <- <-. by rewrite (IH _ _ _ _ _ _ _ (H _) E).
    + unfold flush_stats, get_alloc in Ed. destruct (t_allocs s !! a') as [al|] eqn:Ea; try done. cbn [bind] in Ed. injection Ed as <- <-.
      rewrite (IH _ _ _ _ _ _ _ (H _) E). cbn. by eapply insert_bump.
    + unfold add_items, get_alloc in Ed. destruct (t_allocs s !! a') as [al|] eqn:Ea; try done. cbn [bind] in Ed. injection Ed as <- <-.
      rewrite (IH _ _ _ _ _ _ _ (H _) E). cbn. by eapply insert_bump.
    + destruct H as [_ H]. injection Ed as <- <-. by rewrite (IH _ _ _ _ _ _ _ (H _) E).
Qed.

Lemma compact_bump Y y : map bump (t_allocs (sy_tree y)) = map bump (t_allocs (sy_tree Y)) -> t_nextFreeBlock (sy_tree y) = t_nextFreeBlock (sy_tree Y) -> compact Y -> compact y.
Proof.
  intros Eb En Hc b Hb. rewrite En in Hb. destruct (Hc b Hb) as (a & Ha & H1 & H2). apply elem_of_list_lookup in Ha as [i Ha].
  assert (map bump (t_allocs (sy_tree y)) !! i = Some (bump a)) as Hi by (by rewrite Eb, list_lookup_fmap, Ha).
  rewrite list_lookup_fmap in Hi. destruct (t_allocs (sy_tree y) !! i) as [a1|] eqn:Ea; [|done]. injection Hi as E1 E2.
  exists a1. split; [by eapply elem_of_list_lookup_2|]. rewrite E1, E2. done.
Qed.

(** A node that ends where its block ends: then the block is used beyond its first 4096 words, also in the tree between two
    steps of the Finalize. *)
Lemma tight_mode tr w y G us ur Y fin st aid n0 e o : ginv K fetch tr (FSys y G) w -> mode K fetch us ur Y y fin st -> (forall key, J K fetch aid key n0 e w) -> known n0 w o ->
  N.of_nat (oreg o).2 = dlen (o_addr o) -> ~ compact Y.
Proof.
  intros Hgi Hm HJ Ho Hl Hcm. pose proof (tight_full K fetch aid n0 e w o HJ Ho Hl) as Hno. rewrite (gi_sys _ _ _ _ _ Hgi) in Hno. cbn [fs_sys] in Hno.
  destruct st as [[c [r|]]|]; cbn [mode] in Hm.
  - destruct Hm as (a1 & hd & p & b & -> & Hc & Hn & HoY & Hnp & Hp & He & Hb). apply er_Ok in He as (s2 & E & Es). apply Hno.
    pose proof (pb_bump _ _ _ _ _ _ _ _ _ _ _ _ Hp E) as H1. pose proof (pb_wexec _ _ _ _ _ _ _ _ _ _ _ _ Hp E) as H2. apply erase_fields in Es as (_ & _ & E3 & _ & _ & _ & E7 & _).
    eapply (compact_bump Y); [by rewrite <- E7|by rewrite <- E3, (re_nfb _ _ _ _ _ H2)|done].
  - destruct Hm as (a1 & hd & p & L & F & -> & Hc & Hn & HoY & Hpr & Hsz & Hea).
    pose proof (HJ []) as HJ0. pose proof (j_good _ _ _ _ _ _ _ HJ0) as Hg. pose proof (known_facts K fetch n0 _ _ Hg Ho) as Hf.
    pose proof (of_cnt _ _ Hf) as Hcnt. pose proof (offset_of_mod (o_addr o)) as Eo.
    assert (H2 : (2 <= (oreg o).2)%nat) by (unfold oreg, nslots; simpl; lia).
    set (x := o_addr o + N.of_nat (oreg o).2 - 2).
    assert (Hs : safe_from (w_tree w) e x).
    { apply (no_safe _ _ _ _ _ _ (j_known _ _ _ _ _ _ _ HJ0 _ Ho)). apply elem_of_seqN. unfold oreg in *. cbn [fst snd] in *. lia. }
    unfold dlen in Hl. rewrite Eo in Hl. pose proof (N.mod_lt (o_addr o) blockSlots ltac:(done)) as Hmo.
    assert (Ex : x mod blockSlots = blockSlots - 2).
    { pose proof (N.div_mod (o_addr o) blockSlots ltac:(done)) as Ea. assert (2 <= N.of_nat (oreg o).2) by lia.
      unfold x. rewrite Ea. revert Hl Hmo H. generalize (N.of_nat (oreg o).2) (o_addr o / blockSlots) (o_addr o mod blockSlots). intros r q m Hl Hmo Hr.
      replace (blockSlots * q + m + r - 2) with (blockSlots - 2 + q * blockSlots) by lia. rewrite N.mod_add by done. by apply N.mod_small. }
    assert (Hmi : e ∈ t_resv (w_tree w)) by (by eapply elem_of_list_lookup_2, (j_mine _ _ _ _ _ _ _ HJ0)).
    unfold w_tree in Hs, Hmi. rewrite (gi_sys _ _ _ _ _ Hgi) in Hs, Hmi. cbn [fs_sys] in Hs, Hmi.
    destruct (ea_safe _ _ _ _ _ _ _ _ _ _ Hea e x (or_intror Hmi) Hs) as [_ HsY].
    assert (Hlt : offset_of x < locksPerBlock).
    { destruct (ea_alloc _ _ _ _ _ _ _ _ _ _ Hea) as [L0 Hai]. eapply (compact_near Y); try done; [|apply (sf_bregs _ _ _ HsY)|apply (sf_blk _ _ _ HsY)|].
      - apply (ai_nf _ _ Hai).
      - unfold dlen. rewrite offset_of_mod, Ex. by vm_compute. }
    rewrite offset_of_mod, Ex in Hlt. by vm_compute in Hlt.
  - destruct Hm as (-> & Es & _). apply erase_fields in Es as (_ & _ & E3 & _ & _ & _ & E7 & _). apply Hno. by eapply (compact_bump Y); [by rewrite E7|by rewrite E3|].
Qed.

Definition obs_goes_on (X : xsys) : Prop := forall aid c p, xs_obs X !! aid = Some (ORunning c p) ->
  match p with
  | Ret _ | Stop Fuel => True
  | Act a _ => exists v, do_act (sy_tree (xs_sys X)) a = Ok (v, sy_tree (xs_sys X))
  | Stop (Crash y) => y = OutOfRange /\ (exists fuel it, c = ONext fuel it) /\ ~ compact (xs_sys X)
  | Stop Again => False
  end.

Lemma x_goes_on m X st : xmeaning m X st -> goes_on (xs_w X) /\ obs_goes_on X.
Proof.
  intros Hm. split.
  - destruct (x_sim_w _ _ _ Hm) as (js & Hs & Hj). destruct (sim_goes_on K fetch HK few _ _ _ Hs) as [H1 H2]. split; [|exact H2].
    intros (aid & c & p & HJ & Hp). apply H1. destruct (joint_job _ _ _ _ _ Hj HJ) as [_ E]. by exists aid, c, p.
  - destruct (xm_sim _ _ _ Hm) as [w [(js & Hj & Hs) _ Hrun]]. intros aid c p Ho. destruct (Hrun _ _ _ Ho) as (m1 & m2 & e & [_ HJ _ Hok]).
    pose proof (jt_obs _ _ _ Hj _ _ Ho) as Hjs. destruct p as [r|[y| |]|a k]; try done; simpl in Hok.
    + specialize (Hok w (rtc_refl _ _)). destruct c as [fuel it|]; [|done]. destruct Hok as (-> & o & Ho1 & Hl1). split_and!; [done|by exists fuel, it|].
      destruct Hs as (y & G & us & ur & Hg & Hl & Hmo & _). cbn [ws_f ws_fin fs_sys fs_jobs] in *. by eapply tight_mode.
    + destruct (Hok w (rtc_refl _ _)) as (v & Hd & _ & Hs1). pose proof Hs as (y & G & us & ur & Hg & Hl & Hmo & _). cbn [ws_f ws_fin fs_sys fs_jobs] in *.
      rewrite (gi_sys _ _ _ _ _ Hg) in Hd. cbn [fs_sys] in Hd. destruct a as [q|node|i|i g|i| |]; try done; [by eexists|].
      destruct (mode_act_spare K fetch _ _ _ _ _ _ _ _ _ aid (ABlock node) _ _ (HP [] false) Hg Hmo I Hd) as (S2 & H1 & _); [by eapply job_not_fin|done|].
      cbn [do_act] in *. destruct (node_data (sy_tree (xs_sys X)) node); try done. by eexists.
Qed.
End ObsProps.

Section OneFin.
Context (K : list N -> Prop) (fetch : N -> list N) (HK : universe K).

Theorem x_one_fin_meaning (P : xsys -> xevent -> Prop) n tr X : (forall X e, P X e -> x_one_fin X e /\ (x_sized X e \/ short_keys K)) ->
  xruns K fetch P n tr X -> xcalls tr < 2 ^ 31 -> exists m st, map fst m = tr /\ xmeaning K fetch true m X st.
Proof.
  intros HP Hr. induction Hr as [|tr X e X' Hr IH Hone Hst]; intros Hlt.
  - exists [], None. split; [done|apply (xmeaning_init K fetch)].
  - destruct IH as (m & st & <- & Hm); [unfold xcalls in *; rewrite list.omap_app, wcalls_app in Hlt; lia|]. destruct (HP _ _ Hone) as [H1 H2].
    destruct (xmeaning_step K fetch HK true m X st e X' Hm) as (o & st' & Hm'); try done.
    + destruct e as [e|e]; [|done]. destruct H1 as [H1 H3]. split_and!; [done| | |done].
      * destruct H2 as [H2|H2]; [done|by eapply (x_short K fetch HK)].
      * intros aid c o -> Hj. split; [intros op ->; left; by apply H3|intros _ op ->; by apply H3].
    + exists (m ++ [(e, o)]), st'. split; [by rewrite map_app|done].
Qed.
End OneFin.
