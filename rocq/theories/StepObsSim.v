(** * StepObsSim: iterations and counts while one Finalize or Abort at a time is in progress. *)
From Verif Require Export FineObsProps StepObs StepAnswer.

Lemma shown_snoc m x : shown (m ++ [x]) = shown m ++ shown1 x.
Proof. unfold shown. rewrite bind_app. cbn [mbind list_bind]. by rewrite app_nil_r. Qed.
Lemma shown_app m m' : shown (m ++ m') = shown m ++ shown m'.
Proof. unfold shown. by rewrite bind_app. Qed.
Lemma shown_cons x m : shown (x :: m) = shown1 x ++ shown m.
Proof. done. Qed.

Lemma shown_calls m : wcalls (map fst (shown m)) = xcalls (map fst m).
Proof.
  induction m as [|x m IH] using rev_ind; [done|]. rewrite shown_snoc, !map_app, wcalls_app, IH. unfold xcalls. rewrite (list.omap_app _ (map fst m)), wcalls_app. f_equal.
  destruct x as [[e|e] o]; [done|]. by destruct e.
Qed.

Section ObsSim.
Context (K : list N -> Prop) (fetch : N -> list N) (HK : universe K) (few : bool).
Local Notation rely := (rely K fetch).
Local Notation ginv := (ginv K fetch).
Local Notation simw := (simw K fetch few).
Local Notation returning := (returning few).
Local Notation onwards := (onwards K fetch).
Local Notation okr aid c n0 := (okr K fetch aid maxUint64 (ofail c n0) True).

(** The number of moments before the reservation. *)
Definition mark (m1 : xmarked) : nat := S (S (length (gt (shown m1)))).

Record xrunning (m : xmarked) (w : world) (aid : nat) (c : ocall) (p : prog oreply) (m1 m2 : xmarked) (e : N) : Prop := {
  xr_during : xduring m aid c m1 m2;
  xr_J : forall key, J K fetch aid key (mark m1) e w;
  xr_hold : hold aid [] false w;
  xr_ok : okr aid c (mark m1) p (opost K fetch aid c (mark m1) e) w
}.

Record xsim (m : xmarked) (X : xsys) (st : option (call * option reply)) (w : world) : Prop := {
  xi_sim : exists js, joint js (fs_jobs (xs_f X)) (xs_obs X) /\ simw (shown m) (WSys (FSys (xs_sys X) js) (ws_fin (xs_w X))) st w;
  xi_wait : forall aid c e, xs_obs X !! aid = Some (OWaiting c e) -> bytes (oprefix c) /\ bytes (oresume c);
  xi_run : forall aid c p, xs_obs X !! aid = Some (ORunning c p) -> exists m1 m2 e, xrunning m w aid c p m1 m2 e
}.

(** ** Calls that go on *)

Lemma rely_open j w w' : rtc (rely j maxUint64) w w' -> sy_open (w_sys w') !! j = sy_open (w_sys w) !! j.
Proof. induction 1 as [|w w1 w2 Hr _ IH]; [done|]. rewrite IH. by rewrite (r_open _ _ _ _ _ _ Hr). Qed.

Lemma rely_J j key n0 e w w' : rtc (rely j maxUint64) w w' -> J K fetch j key n0 e w -> J K fetch j key n0 e w'.
Proof. induction 1 as [|w w1 w2 Hr _ IH]; [done|]. intros HJ. apply IH. eapply J_evo; [apply Hr|done]. Qed.

Lemma xrunning_step m w w' aid c p m1 m2 e x : xrunning m w aid c p m1 m2 e -> ~ xborders aid x.1 ->
  rtc (rely aid maxUint64) w w' -> xrunning (m ++ [x]) w' aid c p m1 (m2 ++ [x]) e.
Proof.
  intros [[-> Hd] HJ Hh Hok] Hb Hr. split.
  - split; [by rewrite <- app_assoc|]. apply Forall_app. split; [done|by apply Forall_singleton].
  - intros key. eapply rely_J; [done|]. apply HJ.
  - split; [|by intros ? ? ?%elem_of_nil]. rewrite (rely_open _ _ _ Hr). apply Hh.
  - by eapply okr_rtc.
Qed.

Lemma xrunning_onward m w w' aid c p x es : onwards es w w' -> (exists m1 m2 e, xrunning m w aid c p m1 m2 e) ->
  Forall (fun e => ~ by_client aid e) es -> ~ xborders aid x.1 -> exists m1 m2 e, xrunning (m ++ [x]) w' aid c p m1 m2 e.
Proof.
  intros Ho (m1 & m2 & e & Hr) Hb Hx. exists m1, (m2 ++ [x]), e. eapply xrunning_step; [done..|].
  destruct (xr_hold _ _ _ _ _ _ _ _ Hr) as [Hh _]. by eapply Ho.
Qed.

(** ** A load of such a call *)

(** What it loads is what it would load if the Finalize in progress were a single step, or the value does not matter. *)
Lemma xread l Y js fin st w aid c n0 a (k : N -> prog oreply) (Q : oreply -> world -> Prop) v S1 jb : simw l (WSys (FSys Y js) fin) st w -> js !! aid = Some jb ->
  okr aid c n0 (Act a k) Q w -> do_act (sy_tree Y) a = Ok (v, S1) -> S1 = sy_tree Y /\ okr aid c n0 (k v) Q w.
Proof.
  intros (y & G & us & ur & Hg & Hl & Hm & _) Hj Hok Hd. cbn [ws_f ws_fin fs_sys fs_jobs] in *.
  destruct (Hok w (rtc_refl _ _)) as (v1 & Hd1 & Hok1 & Hsafe). rewrite (gi_sys _ _ _ _ _ Hg) in Hd1. cbn [fs_sys] in Hd1.
  assert (Hro : S1 = sy_tree Y).
  { destruct a; try done; cbn [do_act] in Hd; [by injection Hd as <- <-|]. destruct (node_data _ _); try done. by injection Hd as <- <-. }
  split; [done|].
  assert (Hsame : act_safe aid a w -> spare a us ur -> okr aid c n0 (k v) Q w).
  { intros Hs Ht. destruct (mode_act_spare K fetch _ _ _ _ _ _ _ _ _ _ _ _ _ (HP [] false) Hg Hm Hs Hd1) as (S2 & H1 & _).
    - by eapply job_not_fin.
    - by intros aid' c' p' _ _.
    - rewrite Hd in H1. by injection H1 as -> _. }
  destruct a; try done; [destruct Hsafe as [Hs|Hany]; [by apply Hsame|apply Hany]|]. by apply Hsame.
Qed.

(** ** All steps *)

(** What the conditions on the histories give for one step of a history of StepRun.v. *)
Definition xallowed (m : xmarked) (X : xsys) (e : xevent) : Prop :=
  match e with
  | XW e => one_at_once (xs_w X) e /\ sized (xs_w X) e /\ returning (shown m) (xs_w X) e /\ (few = false -> hands_off (xs_w X) e)
  | XO _ => True
  end.

(** The answers of the other calls. *)
Definition xtruthful (m : xmarked) : Prop :=
  forall m1 aid c r m2, m = m1 ++ (XW (WF (EReturn aid c r)), None) :: m2 -> true_answer fetch (shown m1) aid c r.
Definition xhonest (m : xmarked) : Prop := forall m1 e c r m2, m = m1 ++ (e, Some (c, r)) :: m2 -> true_reply (xreplay m1) c r.

Lemma wstep_joint X js obs e X' : joint js (fs_jobs (ws_f X)) obs -> wstep K fetch X e X' ->
  (forall aid, wbegins e aid -> obs !! aid = None) -> (wrestarts e -> obs = ∅) ->
  (forall aid c e, js !! aid = Some (Waiting c e) -> job_of c = Some aid) ->
  exists js', joint js' (fs_jobs (ws_f X')) obs /\
    wstep K fetch (WSys (FSys (fs_sys (ws_f X)) js) (ws_fin X)) e (WSys (FSys (fs_sys (ws_f X')) js') (ws_fin X')) /\
    forall aid o, obs !! aid = Some o -> forall o', Forall (fun e => ~ by_client aid e) (ge (e, o')).
Proof.
  intros Hj Hs Hb Hr Hw.
  assert (Hmark : forall aid (o' : option (call * reply)), Forall (fun e => ~ by_client aid e) (match o' with Some (c, r) => [ECall c r] | None => [] end)).
  { intros aid [[c r]|]; [apply Forall_singleton; by intros []|constructor]. }
  destruct Hs as [x e x' fin Hre Hf|x fin c aid hd Hc Hfn Ho Hp|Y jobs fin aid c a k v s' Hf Hd|Y jobs fin aid c r Hf]; cbn [ws_f ws_fin fs_sys fs_jobs] in *.
  - destruct x as [y jobs], x' as [y' jobs']. cbn [fs_sys fs_jobs] in *.
    destruct (joint_step K fetch _ _ _ _ _ _ _ Hj Hf Hb Hr) as (js' & Hj' & Hs & Hby).
    { intros aid c e0 Hjb. destruct (joint_job _ _ _ _ _ Hj Hjb) as [_ Hjs]. by eapply Hw. }
    exists js'. split_and!; [done|by constructor|]. intros aid o Ho o'. unfold ge. cbn [fst snd]. apply Forall_app. split; [|apply Hmark].
    specialize (Hby _ _ Ho). destruct e; repeat (constructor; try done).
  - exists js. split_and!; [done| |intros a o Ha o'; apply Hmark]. exact (ws_begin K fetch (FSys (fs_sys x) js) fin c aid hd Hc Hfn Ho Hp).
  - exists js. split_and!; [done| |intros a0 o Ha o'; apply Hmark]. by eapply (ws_act K fetch Y js).
  - exists js. split_and!; [done| |intros a o Ha o'; apply Hmark]. by apply (ws_return K fetch Y js).
Qed.

Lemma wstep_back X js obs e X' : joint js (fs_jobs (ws_f X)) obs -> wstep K fetch X e X' ->
  forall l, returning l X e -> returning l (WSys (FSys (fs_sys (ws_f X)) js) (ws_fin X)) e.
Proof.
  intros Hj Hs l Hu aid c o -> Hjs. eapply Hu; [done|]. cbn [ws_f fs_jobs] in Hjs.
  inversion Hs as [? ? ? ? _ Hf| | |]; subst. inversion Hf as [| | | | |? ? ? ? o1 Hj1]; subst. cbn [ws_f fs_jobs] in *.
  destruct (joint_job _ _ _ _ _ Hj Hj1) as [_ E]. rewrite E in Hjs. injection Hjs as ->. congruence.
Qed.

Lemma sim_waits l Y js fin st w aid c e : simw l (WSys (FSys Y js) fin) st w -> js !! aid = Some (Waiting c e) -> job_of c = Some aid.
Proof. intros (y & G & us & ur & _ & Hl & _) Hj. by destruct (lk_wait _ _ _ _ _ Hl _ _ _ Hj). Qed.

Lemma xsim_step m X st w e X' : xsim m X st w -> placed (shown m) st -> xallowed m X e -> xstep K fetch X e X' ->
  xcalls (map fst m ++ [e]) < 2 ^ 31 ->
  exists o st' w', placed (shown (m ++ [(e, o)])) st' /\ xsim (m ++ [(e, o)]) X' st' w' /\
    (forall c r, o = Some (c, r) -> true_reply (xreplay m) c r) /\ (forall aid c r, e = XW (WF (EReturn aid c r)) -> true_answer fetch (shown m) aid c r) /\
    (forall e', e = XO e' -> o = None).
Proof.
  intros [(js & Hj & Hs) Hw Hr] Hpl Hal Hst Hlt.
  assert (Hlt0 : ncalls (gt (shown m)) < 2 ^ 31).
  { pose proof (placed_calls _ _ Hpl) as H. rewrite shown_calls in H. unfold xcalls in *. rewrite list.omap_app, wcalls_app in Hlt. lia. }
  destruct Hst as [W W' obs e Hst Hb Hre|f f' fin obs obs' e Hst Hof].
  - unfold xs_sys, xs_f in *. cbn [xs_w xs_obs] in *. destruct Hal as (A1 & A2 & A3 & A4).
    destruct (wstep_joint _ _ _ _ _ Hj Hst Hb Hre) as (js' & Hj' & Hst' & Hby); [intros aid c e0; by eapply sim_waits|].
    destruct (sim_move K fetch HK few (shown m) _ st e (WSys (FSys (fs_sys (ws_f W')) js') (ws_fin W')) w Hs Hpl) as (o & st' & w' & G1 & G2 & G3 & G4 & G5); try done.
    { by eapply wstep_back. }
    { rewrite wcalls_app, shown_calls. unfold xcalls in Hlt. rewrite list.omap_app, wcalls_app in Hlt. exact Hlt. }
    exists o, st', w'. split_and!; [by rewrite shown_snoc| |done|intros aid c r [= ->]; by apply G5|done].
    split; unfold xs_sys, xs_f; cbn [xs_w xs_obs].
    + exists js'. rewrite shown_snoc. done.
    + done.
    + intros aid c p Hp. eapply xrunning_onward; [done|by apply Hr|by eapply Hby|by intros ?].
  - assert (Hpl' : forall es, as_lookup e = es -> (forall e0, e <> OF e0) -> shown (m ++ [(XO e, None)]) = shown m ++ map (fun e => (WF e, None)) es).
    { intros es <- Hne. rewrite shown_snoc. unfold shown1. cbn [fst]. by destruct e. }
    inversion Hst as [|? ? aid c H1 H2 H3 H4 H5 H6|y jobs ? aid c e0 H1|? ? aid c a k v s' H1 H2|y jobs ? aid c r H1]; subst.
    + by destruct Hof.
    + unfold xs_sys, xs_f in *. cbn [xs_w xs_obs ws_f ws_fin] in *. destruct f' as [Y jobs]. cbn [fs_sys fs_jobs] in *.
      assert (Hjs : js !! aid = None) by (by rewrite (jt_jobs _ _ _ Hj)).
      pose proof (sim_begin K fetch few _ _ _ _ _ (CLookup aid [0]) aid w Hs eq_refl Hjs ltac:(cbn [proper]; split_and!; try done; by apply Forall_singleton)) as Hs'.
      exists None, st, w. rewrite (Hpl' _ eq_refl) by done. cbn [map as_lookup]. split_and!; [by constructor| |done..].
      split; unfold xs_sys, xs_f; cbn [xs_w xs_obs ws_f ws_fin fs_sys fs_jobs].
      * eexists. split; [by apply (joint_obs js _ _ aid (OWaiting c (t_epoch (sy_tree Y))))|]. by rewrite (Hpl' _ eq_refl).
      * intros a c0 e0 Ha. apply lookup_insert_Some in Ha as [[-> [= <- <-]]|[_ Ha]]; [done|by eapply Hw].
      * intros a c0 p Ha. apply lookup_insert_Some in Ha as [[_ ?]|[_ Ha]]; [done|]. eapply (xrunning_onward _ w w _ _ _ _ []); [apply onwards_refl|by apply Hr|constructor|by intros ?].
    + unfold xs_sys, xs_f in *. cbn [xs_w xs_obs ws_f ws_fin fs_sys fs_jobs] in *.
      pose proof (jt_obs _ _ _ Hj _ _ H1) as Hjs. cbn [shadow] in Hjs.
      destruct (sim_resv K fetch HK few _ _ _ _ _ _ _ _ w Hs Hjs Hlt0) as (w' & Hs' & Hon).
      exists None, st, w'. rewrite (Hpl' _ eq_refl) by done. cbn [map as_lookup]. split_and!; [by constructor| |done..].
      split; unfold xs_sys, xs_f; cbn [xs_w xs_obs ws_f ws_fin fs_sys fs_jobs].
      * eexists. split; [apply (joint_obs js _ _ aid (ORunning c (oprogram c))); [done|by eapply (jt_apart _ _ _ Hj)]|]. by rewrite (Hpl' _ eq_refl).
      * intros a c0 e1 Ha. apply lookup_insert_Some in Ha as [[_ ?]|[_ Ha]]; [done|by eapply Hw].
      * intros a c0 p Ha. apply lookup_insert_Some in Ha as [[-> [= <- <-]]|[Hne Ha]].
        -- destruct Hs' as (y' & G & us & ur & Hg & Hl & Hm & _). cbn [ws_f ws_fin fs_sys fs_jobs] in *.
           assert (HG : G !! a = Some (Running (CLookup a [0]) (program_of (CLookup a [0])))) by (by rewrite (lk_jobs _ _ _ _ _ Hl), lookup_insert).
           destruct (gi_jobs _ _ _ _ _ Hg a _ HG) as (_ & _ & t1 & t2 & e' & ns & _ & _ & Hb & _).
           pose proof (j_mine _ _ _ _ _ _ _ (ba_J _ _ _ _ _ _ _ _ _ Hb)) as Hmi.
           assert (HJ : forall key, J K fetch a key (mark m) e' w').
           { intros key. apply J_start; [apply (gi_good _ _ _ _ _ Hg)|done|].
             rewrite <- (map_length fst), (gi_past _ _ _ _ _ Hg), map_length, seq_length, gt_snoc, app_length. unfold mark, ge. cbn. lia. }
           exists m, [], e'. split.
           ++ split; [done|constructor].
           ++ done.
           ++ split; [|by intros ? ? ?%elem_of_nil]. cbn [negb]. destruct (running_open K fetch _ _ _ _ _ _ _ Hg HG) as (l1 & b1 & Ho). rewrite (gi_sys _ _ _ _ _ Hg). cbn [fs_sys].
              pose proof (ghost_some K fetch _ _ _ _ _ _ _ _ Hm Ho) as Ho'. cbn [sy_open] in Ho'. rewrite lookup_insert in Ho'. by injection Ho' as <- <-.
           ++ destruct (Hw _ _ _ H1). by apply oprogram_ok.
        -- eapply xrunning_onward; [done|by apply Hr| |simpl; congruence]. repeat constructor; simpl; congruence.
    + unfold xs_sys, xs_f in *. cbn [xs_w xs_obs ws_f ws_fin fs_sys fs_jobs] in *.
      destruct (Hr _ _ _ H1) as (m1 & m2 & e & Hrun). pose proof (jt_obs _ _ _ Hj _ _ H1) as Hjs.
      destruct (xread _ _ _ _ _ _ _ _ _ _ _ _ _ _ _ Hs Hjs (xr_ok _ _ _ _ _ _ _ _ Hrun) H2) as [-> Hok].
      exists None, st, w. rewrite (Hpl' _ eq_refl) by done. cbn [map as_lookup]. rewrite app_nil_r. split_and!; [done| |done..].
      split; unfold xs_sys, xs_f; cbn [xs_w xs_obs ws_f ws_fin fs_sys fs_jobs].
      * exists js. rewrite (Hpl' _ eq_refl) by done. cbn [map as_lookup]. rewrite app_nil_r. split; [|by destruct (fs_sys f)]. split.
        -- intros a0 o Ha. apply lookup_insert_Some in Ha as [[-> <-]|[_ Ha]]; [by apply (jt_obs _ _ _ Hj) in H1|by apply (jt_obs _ _ _ Hj)].
        -- intros a0 Ha. apply lookup_insert_None in Ha as [Ha _]. by apply (jt_jobs _ _ _ Hj).
        -- intros a0 o Ha. apply lookup_insert_Some in Ha as [[-> <-]|[_ Ha]]; by eapply (jt_apart _ _ _ Hj).
      * intros a0 c0 e0 Ha. apply lookup_insert_Some in Ha as [[_ ?]|[_ Ha]]; [done|by eapply Hw].
      * intros a0 c0 p0 Ha. apply lookup_insert_Some in Ha as [[-> [= <- <-]]|[_ Ha]].
        -- exists m1, (m2 ++ [(XO (OAct a0 a), None)]), e. eapply xrunning_step; [|by intros []|apply rtc_refl]. destruct Hrun as [R1 R2 R3 R4]. by split.
        -- eapply (xrunning_onward _ w w _ _ _ _ []); [apply onwards_refl|by apply Hr|constructor|by intros ?].
    + unfold xs_sys, xs_f in *. cbn [xs_w xs_obs ws_f ws_fin fs_sys fs_jobs] in *.
      destruct (Hr _ _ _ H1) as (m1 & m2 & e & Hrun). pose proof (jt_obs _ _ _ Hj _ _ H1) as Hjs. cbn [shadow] in Hjs.
      destruct (sim_leave K fetch few _ _ _ _ _ _ _ _ 0 false w Hs Hlt0 Hjs (xr_hold _ _ _ _ _ _ _ _ Hrun)) as (w' & Hs' & Hon).
      exists None, st, w'. rewrite (Hpl' _ eq_refl) by done. cbn [map as_lookup]. split_and!; [by constructor| |done..].
      split; unfold xs_sys, xs_f; cbn [xs_w xs_obs ws_f ws_fin fs_sys fs_jobs].
      * eexists. split; [apply joint_gone; [done|by eapply (jt_apart _ _ _ Hj)]|]. by rewrite (Hpl' _ eq_refl).
      * intros a c0 e0 Ha. apply lookup_delete_Some in Ha as [_ Ha]. by eapply Hw.
      * intros a c0 p Ha. apply lookup_delete_Some in Ha as [Hne Ha]. eapply xrunning_onward; [done|by apply Hr|by repeat constructor|done].
Qed.
End ObsSim.
