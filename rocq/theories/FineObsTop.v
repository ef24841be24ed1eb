(** * FineObsTop: histories in which clients also iterate and count satisfy the invariant of FineTop.v. *)
From Verif Require Export FineObsRead FineProps.

Section ObsTop.
Context (K : list N -> Prop) (fetch : N -> list N) (HK : universe K).
Local Notation rely := (rely K fetch).
Local Notation ginv := (ginv K fetch).

(** ** The calls seen as lookups *)

Definition shadow (aid : nat) (o : ojob) : job :=
  match o with
  | OWaiting _ e => Waiting (CLookup aid [0]) e
  | ORunning _ _ => Running (CLookup aid [0]) (program_of (CLookup aid [0]))
  end.

Record joint (js jobs : gmap nat job) (obs : gmap nat ojob) : Prop := {
  jt_obs : forall aid o, obs !! aid = Some o -> js !! aid = Some (shadow aid o);
  jt_jobs : forall aid, obs !! aid = None -> js !! aid = jobs !! aid;
  jt_apart : forall aid o, obs !! aid = Some o -> jobs !! aid = None
}.

Lemma joint_job js jobs obs aid jb : joint js jobs obs -> jobs !! aid = Some jb -> obs !! aid = None /\ js !! aid = Some jb.
Proof.
  intros [H1 H2 H3] Hj. destruct (obs !! aid) as [o|] eqn:Eo; [by rewrite (H3 _ _ Eo) in Hj|]. split; [done|]. by rewrite (H2 _ Eo).
Qed.

Lemma joint_insert js jobs obs aid jb : joint js jobs obs -> obs !! aid = None -> joint (<[aid := jb]> js) (<[aid := jb]> jobs) obs.
Proof.
  intros [H1 H2 H3] Ho. split.
  - intros j o Hj. destruct (decide (aid = j)) as [->|Hne]; [congruence|]. rewrite lookup_insert_ne by done. by apply H1.
  - intros j Hj. destruct (decide (aid = j)) as [->|Hne]; [by rewrite !lookup_insert|]. rewrite !lookup_insert_ne by done. by apply H2.
  - intros j o Hj. destruct (decide (aid = j)) as [->|Hne]; [congruence|]. rewrite lookup_insert_ne by done. by eapply H3.
Qed.

Lemma joint_delete js jobs obs aid : joint js jobs obs -> obs !! aid = None -> joint (delete aid js) (delete aid jobs) obs.
Proof.
  intros [H1 H2 H3] Ho. split.
  - intros j o Hj. destruct (decide (aid = j)) as [->|Hne]; [congruence|]. rewrite lookup_delete_ne by done. by apply H1.
  - intros j Hj. destruct (decide (aid = j)) as [->|Hne]; [by rewrite !lookup_delete|]. rewrite !lookup_delete_ne by done. by apply H2.
  - intros j o Hj. destruct (decide (aid = j)) as [->|Hne]; [congruence|]. rewrite lookup_delete_ne by done. by eapply H3.
Qed.

Lemma joint_obs js jobs obs aid o : joint js jobs obs -> jobs !! aid = None -> joint (<[aid := shadow aid o]> js) jobs (<[aid := o]> obs).
Proof.
  intros [H1 H2 H3] Hn. split.
  - intros j o' Hj. destruct (decide (aid = j)) as [->|Hne].
    + rewrite lookup_insert in Hj. rewrite lookup_insert. congruence.
    + rewrite lookup_insert_ne in Hj by done. rewrite lookup_insert_ne by done. by apply H1.
  - intros j Hj. destruct (decide (aid = j)) as [->|Hne]; [by rewrite lookup_insert in Hj|]. rewrite lookup_insert_ne in Hj by done. rewrite lookup_insert_ne by done. by apply H2.
  - intros j o' Hj. destruct (decide (aid = j)) as [->|Hne]; [done|]. rewrite lookup_insert_ne in Hj by done. by eapply H3.
Qed.

Lemma joint_gone js jobs obs aid : joint js jobs obs -> jobs !! aid = None -> joint (delete aid js) jobs (delete aid obs).
Proof.
  intros [H1 H2 H3] Hn. split.
  - intros j o Hj. apply lookup_delete_Some in Hj as [Hne Hj]. rewrite lookup_delete_ne by done. by apply H1.
  - intros j Hj. destruct (decide (aid = j)) as [->|Hne]; [by rewrite lookup_delete, Hn|]. rewrite lookup_delete_ne in Hj by done. rewrite lookup_delete_ne by done. by apply H2.
  - intros j o Hj. apply lookup_delete_Some in Hj as [Hne Hj]. by eapply H3.
Qed.

Lemma joint_step y jobs js obs e y' jobs' : joint js jobs obs -> fstep K fetch (FSys y jobs) e (FSys y' jobs') ->
  (forall aid, begins e aid -> obs !! aid = None) -> (restarts e -> obs = ∅) ->
  (forall aid c e, jobs !! aid = Some (Waiting c e) -> job_of c = Some aid) ->
  exists js', joint js' jobs' obs /\ fstep K fetch (FSys y js) e (FSys y' js') /\ forall aid o, obs !! aid = Some o -> ~ by_client aid e.
Proof.
  intros Hj Hs Hb Hr Hw.
  assert (Hc : forall aid jb (a : nat) o, jobs !! aid = Some jb -> obs !! a = Some o -> aid <> a).
  { intros aid jb a o H1 H2 ->. apply (joint_job _ _ _ _ _ Hj) in H1 as [H1 _]. congruence. }
  inversion Hs as [? ? ? c r H1 H2 H3 H4|? ? c aid H1 H2 H3|? ? c aid e0 H1|? ? c aid a k hd v s' H1 H2 H3|? ? c aid H1|? ? c aid o H1]; subst.
  - exists js. split_and!; [done| |intros ? ? _ []]. apply fs_call; try done. intros Hre. rewrite (Hr Hre) in Hj. apply map_eq. intros i.
    rewrite (jt_jobs _ _ _ Hj i (lookup_empty _)). by rewrite (H2 Hre).
  - pose proof (Hb _ H1) as Ho. eexists. split_and!; [by apply joint_insert| |].
    + apply fs_begin; try done. by rewrite (jt_jobs _ _ _ Hj).
    + intros j o Hj' E. simpl in E. congruence.
  - destruct (joint_job _ _ _ _ _ Hj H1) as [Ho Hjs]. eexists. split_and!; [by apply joint_insert|by apply fs_resv|].
    intros j o Hj' E. simpl in E. rewrite (Hw _ _ _ H1) in E. congruence.
  - destruct (joint_job _ _ _ _ _ Hj H1) as [Ho Hjs]. eexists. split_and!; [by apply joint_insert|by eapply fs_act|].
    intros j o Hj' E. simpl in E. congruence.
  - destruct (joint_job _ _ _ _ _ Hj H1) as [Ho Hjs]. eexists. split_and!; [by apply joint_insert|by eapply fs_again|].
    intros j o Hj' E. simpl in E. congruence.
  - destruct (joint_job _ _ _ _ _ Hj H1) as [Ho Hjs]. eexists. split_and!; [by apply joint_delete|by eapply fs_return|].
    intros j o' Hj' E. simpl in E. congruence.
Qed.

(** ** What is known of a running call *)

(** The keys it must find: those with the prefix, unless it resumes an iteration. *)
Definition ogoal (c : ocall) (k : list N) : Prop := oresume c = [] /\ oprefix c `prefix_of` k.

Definition ofail (c : ocall) (n0 : nat) (y : why) (w : world) : Prop :=
  match c with
  | ONext _ _ => y = OutOfRange /\ exists o, known n0 w o /\ N.of_nat (oreg o).2 = dlen (o_addr o)
  | OCount _ _ => False
  end.

Definition opost (aid : nat) (c : ocall) (n0 : nat) (e : N) (r : oreply) (w : world) : Prop :=
  match c, r with
  | ONext fuel it, RNext more it' =>
    match it_prefetched it !! it_pp it with
    | Some v => more = true /\ it' = Iter v (it_stack it) (it_prefetched it) (S (it_pp it)) (it_prefix it) (it_resume it) (it_done it)
    | None => if it_done it then more = false /\ it' = it
      else next_post K fetch aid n0 e (it_prefix it) (ogoal c) it (more, it') w
    end
  | OCount fuel sp, RCount nodes leaves cnt => count_post K fetch aid n0 e sp (ogoal c) (nodes, leaves, cnt) w
  | _, _ => False
  end.

Local Notation okr aid c n0 := (okr K fetch aid maxUint64 (ofail c n0) True).

Lemma okr_map {A B} aid c n0 (p : prog A) (k : A -> prog B) (f : A -> B) (Q : A -> world -> Prop) (Q' : B -> world -> Prop) w :
  (forall a, k a = Ret (f a)) -> (forall a w', Q a w' -> Q' (f a) w') -> okr aid c n0 p Q w -> okr aid c n0 (pbind p k) Q' w.
Proof.
  intros Hk HQ. revert w. induction p as [a|y|a k' IH]; intros w H; [|by destruct y|]; simpl in *.
  - rewrite Hk. intros w' Hr. by apply HQ, H.
  - intros w1 Hr. destruct (H w1 Hr) as (v & H1 & H2 & H3). exists v. split; [done|]. split; [by apply IH|].
    destruct a; try done. destruct H3 as [H3|H3]; [by left|right]. intros v'. by apply IH.
Qed.

Lemma oprogram_ok aid c n0 e w : bytes (oprefix c) -> bytes (oresume c) -> (forall key, J K fetch aid key n0 e w) ->
  okr aid c n0 (oprogram c) (opost aid c n0 e) w.
Proof.
  intros Hb Hr HJ. destruct c as [fuel it|fuel sp]; cbn [oprefix oresume] in *.
  - destruct (it_prefetched it !! it_pp it) as [v|] eqn:Epp.
    { cbn [oprogram]. unfold p_next. rewrite Epp. cbn [pbind]. intros w' _. cbn [opost]. by rewrite Epp. }
    destruct (it_done it) eqn:Ed.
    { cbn [oprogram]. unfold p_next. rewrite Epp, Ed. cbn [pbind]. intros w' _. cbn [opost]. by rewrite Epp, Ed. }
    apply (okr_map _ _ _ _ _ (fun r => RNext r.1 r.2) (next_post K fetch aid n0 e (it_prefix it) (ogoal (ONext fuel it)) it)).
    { by intros [? ?]. }
    { intros [more it'] w' H. cbn [opost fst snd]. by rewrite Epp, Ed. }
    apply next_ok; try done.
    + by intros k [_ ?].
    + intros w' o _ Ho Hl. split; [done|]. by exists o.
    + destruct (it_resume it) eqn:Er; [by left|right]. unfold ogoal. cbn [oresume]. rewrite Er. by intros x [? _].
  - apply (okr_map _ _ _ _ _ (fun r => RCount r.1.1 r.1.2 r.2) (count_post K fetch aid n0 e sp (ogoal (OCount fuel sp)))).
    { by intros [[? ?] ?]. }
    { by intros [[? ?] ?] w' H. }
    apply count_ok; try done. by intros k [_ ?].
Qed.

(** ** The invariant *)

(** The current call of [aid] has not returned. *)
Definition oborders (aid : nat) (e : oevent) : Prop :=
  match e with OResv a _ | OReturn a _ _ => a = aid | _ => False end.
Definition oduring (tr : list oevent) (aid : nat) (c : ocall) (tr1 tr2 : list oevent) : Prop :=
  tr = tr1 ++ OResv aid c :: tr2 /\ Forall (fun e => ~ oborders aid e) tr2.

Record running (tr : list oevent) (w : world) (aid : nat) (c : ocall) (p : prog oreply) (tr1 tr2 : list oevent) (e : N) : Prop := {
  rn_during : oduring tr aid c tr1 tr2;
  rn_J : forall key, J K fetch aid key (S (length (lookups tr1))) e w;
  rn_hold : hold aid [] false w;
  rn_ok : okr aid c (S (length (lookups tr1))) p (opost aid c (S (length (lookups tr1))) e) w
}.

Record oinv (tr : list oevent) (x : osys) (w : world) : Prop := {
  oi_ginv : exists js, joint js (fs_jobs (os_f x)) (os_obs x) /\ ginv (lookups tr) (FSys (os_sys x) js) w;
  oi_wait : forall aid c e, os_obs x !! aid = Some (OWaiting c e) -> bytes (oprefix c) /\ bytes (oresume c);
  oi_run : forall aid c p, os_obs x !! aid = Some (ORunning c p) -> exists tr1 tr2 e, running tr w aid c p tr1 tr2 e;
  oi_wake : w_wake w = no_wake false
}.

Lemma lookups_snoc tr e : lookups (tr ++ [e]) = lookups tr ++ as_lookup e.
Proof. unfold lookups. rewrite bind_app. cbn [mbind list_bind]. by rewrite app_nil_r. Qed.

Lemma running_step tr w w' aid c p tr1 tr2 e ev : running tr w aid c p tr1 tr2 e -> ~ oborders aid ev ->
  rely aid maxUint64 w w' -> running (tr ++ [ev]) w' aid c p tr1 (tr2 ++ [ev]) e.
Proof.
  intros [[-> Hd] HJ Hh Hok] Hb Hr. split.
  - split; [by rewrite <- app_assoc|]. apply Forall_app. split; [done|by apply Forall_singleton].
  - intros key. eapply J_evo; [apply Hr|]. apply HJ.
  - split; [|by intros ? ? ?%elem_of_nil]. rewrite (r_open _ _ _ _ _ _ Hr). apply Hh.
  - eapply okr_rtc; [by apply rtc_once|done].
Qed.

(** The other calls of iterations and counts go on. *)
Lemma running_onward tr w w' aid c p ev x : ginv (lookups tr) x w -> onward K fetch ev w w' -> w_n w' < maxUint64 ->
  (exists tr1 tr2 e, running tr w aid c p tr1 tr2 e) -> ~ by_client aid ev -> forall oe, ~ oborders aid oe ->
  exists tr1 tr2 e, running (tr ++ [oe]) w' aid c p tr1 tr2 e.
Proof.
  intros Hg Ho Hn (tr1 & tr2 & e & Hr) Hb oe Hoe. exists tr1, (tr2 ++ [oe]), e. eapply running_step; [done..|].
  destruct (rn_hold _ _ _ _ _ _ _ _ Hr) as [Hh _]. by eapply Ho.
Qed.

Lemma calm_app tr tr' : calm (tr ++ tr') -> calm tr.
Proof. intros Hc. induction tr' as [|e tr' IH] using rev_ind; [by rewrite app_nil_r in Hc|]. apply IH. rewrite app_assoc in Hc. by eapply calm_prefix. Qed.

Lemma oinv_step tr x w oe x' : oinv tr x w -> ostep K fetch x oe x' -> unshared (os_sys x') ->
  ncalls (lookups (tr ++ [oe])) < maxUint64 -> calm (lookups (tr ++ [oe])) -> exists w', oinv (tr ++ [oe]) x' w'.
Proof.
  intros [(js & Hj & Hg) Hw Hr Hwk] Hs Hu Hn Hc. rewrite lookups_snoc in Hn, Hc.
  destruct Hs as [f f' obs e H1 H2 H3|f obs aid c H1 H2 H3 H4 H5 H6|y jobs obs aid c e H1|f obs aid c a k v s' H1 H2|y jobs obs aid c r H1];
    unfold os_sys in *; cbn [os_f os_obs fs_sys fs_jobs as_lookup] in *.
  - destruct f as [y jobs], f' as [y' jobs']. cbn [fs_sys fs_jobs] in *.
    destruct (joint_step _ _ _ _ _ _ _ Hj H1 H2 H3) as (js' & Hj' & Hs & Hb).
    { intros aid c e0 Hjb. destruct (joint_job _ _ _ _ _ Hj Hjb) as [_ Hjs]. apply (gi_jobs _ _ _ _ _ Hg _ _ Hjs). }
    destruct (ginv_step K fetch HK _ _ _ _ _ Hwk Hg Hs Hu Hn Hc) as (w' & Hg' & Ho & Ewk). rewrite Hwk in Ewk. exists w'. split; [..|done]; unfold os_sys; cbn [os_f os_obs fs_sys fs_jobs].
    + exists js'. split; [done|]. by rewrite lookups_snoc.
    + done.
    + intros aid c p Hp. eapply running_onward; try done; [|by eapply Hr|by eapply Hb|by intros ?].
      by rewrite (gi_n _ _ _ _ _ Hg').
  - destruct f as [y jobs]. cbn [fs_sys fs_jobs] in *.
    destruct (ginv_begin K fetch _ y js w (CLookup aid [0]) aid Hg Hc eq_refl) as (w' & Hg' & Ho & Ewk).
    { by rewrite (jt_jobs _ _ _ Hj). }
    { cbn [proper]. split_and!; try done. by apply Forall_singleton. }
    rewrite Hwk in Ewk. exists w'. split; [..|done]; unfold os_sys; cbn [os_f os_obs fs_sys fs_jobs].
    + eexists. split; [by eapply joint_obs|]. by rewrite lookups_snoc.
    + intros a c0 e0 Ha. destruct (decide (aid = a)) as [->|Hne]; [rewrite lookup_insert in Ha; injection Ha as <- <-; done|].
      rewrite lookup_insert_ne in Ha by done. by eapply Hw.
    + intros a c0 p Ha. destruct (decide (aid = a)) as [->|Hne]; [by rewrite lookup_insert in Ha|].
      rewrite lookup_insert_ne in Ha by done. eapply running_onward; [exact Hg|exact Ho| |by eapply Hr|simpl; congruence|by intros ?].
      by rewrite (gi_n _ _ _ _ _ Hg').
  - pose proof (jt_obs _ _ _ Hj _ _ H1) as Hjs. cbn [shadow] in Hjs.
    destruct (ginv_resv K fetch HK _ y js w (CLookup aid [0]) aid e Hg Hc Hjs) as (w' & Hg' & Ho & Ewk).
    rewrite Hwk in Ewk. exists w'. split; [..|done]; unfold os_sys; cbn [os_f os_obs fs_sys fs_jobs].
    + eexists. split; [|by rewrite lookups_snoc]. apply (joint_obs _ _ _ aid (ORunning c (oprogram c))); [done|by eapply (jt_apart _ _ _ Hj)].
    + intros a c0 e0 Ha. destruct (decide (aid = a)) as [->|Hne]; [by rewrite lookup_insert in Ha|].
      rewrite lookup_insert_ne in Ha by done. by eapply Hw.
    + intros a c0 p Ha. destruct (decide (aid = a)) as [->|Hne].
      * rewrite lookup_insert in Ha. injection Ha as <- <-.
        destruct (gi_jobs _ _ _ _ _ Hg' a _ (lookup_insert _ _ _)) as (_ & _ & t1 & t2 & e' & ns & _ & _ & Hb & _).
        pose proof (j_mine _ _ _ _ _ _ _ (ba_J _ _ _ _ _ _ _ _ _ Hb)) as Hm.
        assert (HJ : forall key, J K fetch a key (S (length (lookups tr))) e' w').
        { intros key. apply J_start; [apply (gi_good _ _ _ _ _ Hg')|done|].
          rewrite <- (map_length fst), (gi_past _ _ _ _ _ Hg'), map_length, seq_length, app_length. simpl. lia. }
        exists tr, [], e'. split.
        -- split; [done|constructor].
        -- done.
        -- split; [|by intros ? ? ?%elem_of_nil]. rewrite (gi_sys _ _ _ _ _ Hg'). cbn [fs_sys sy_open]. by rewrite lookup_insert.
        -- destruct (Hw _ _ _ H1). by apply oprogram_ok.
      * rewrite lookup_insert_ne in Ha by done. eapply running_onward; [exact Hg|exact Ho| |by eapply Hr|simpl; congruence|simpl; congruence].
        by rewrite (gi_n _ _ _ _ _ Hg').
  - destruct (Hr _ _ _ H1) as (tr1 & tr2 & e & Hrun).
    destruct (rn_ok _ _ _ _ _ _ _ _ Hrun w (rtc_refl _ _)) as (v0 & Hd & Hok & _). rewrite (gi_sys _ _ _ _ _ Hg) in Hd. cbn [fs_sys] in Hd.
    rewrite H2 in Hd. injection Hd as -> ->. exists w. rewrite app_nil_r in Hc, Hn.
    split; [..|done]; unfold os_sys; cbn [os_f os_obs fs_sys fs_jobs]; try rewrite lookups_snoc; cbn [as_lookup]; try rewrite app_nil_r.
    + exists js. split; [|by destruct (fs_sys f)]. split.
      * intros a0 o Ha. destruct (decide (aid = a0)) as [->|Hne].
        -- rewrite lookup_insert in Ha. injection Ha as <-. by apply (jt_obs _ _ _ Hj) in H1.
        -- rewrite lookup_insert_ne in Ha by done. by apply (jt_obs _ _ _ Hj).
      * intros a0 Ha. apply (jt_jobs _ _ _ Hj). destruct (decide (aid = a0)) as [->|Hne]; [by rewrite lookup_insert in Ha|by rewrite lookup_insert_ne in Ha].
      * intros a0 o Ha. destruct (decide (aid = a0)) as [->|Hne]; [by eapply (jt_apart _ _ _ Hj)|]. rewrite lookup_insert_ne in Ha by done. by eapply (jt_apart _ _ _ Hj).
    + intros a0 c0 e0 Ha. destruct (decide (aid = a0)) as [->|Hne]; [by rewrite lookup_insert in Ha|].
      rewrite lookup_insert_ne in Ha by done. by eapply Hw.
    + assert (Hkeep : forall a0 c0 p0 tr1 tr2 e, running tr w a0 c0 p0 tr1 tr2 e -> running (tr ++ [OAct aid a]) w a0 c0 p0 tr1 (tr2 ++ [OAct aid a]) e).
      { intros a0 c0 p0 t1 t2 e0 [[-> R1] R2 R3 R4]. split; try done. split; [by rewrite <- app_assoc|]. apply Forall_app. split; [done|apply Forall_singleton; by intros []]. }
      intros a0 c0 p0 Ha. destruct (decide (aid = a0)) as [->|Hne].
      * rewrite lookup_insert in Ha. injection Ha as <- <-. exists tr1, (tr2 ++ [OAct a0 a]), e. apply Hkeep. destruct Hrun as [R1 R2 R3 R4]. by split.
      * rewrite lookup_insert_ne in Ha by done. destruct (Hr _ _ _ Ha) as (t1 & t2 & e0 & Hrun0). exists t1, (t2 ++ [OAct aid a]), e0. by apply Hkeep.
  - pose proof (jt_obs _ _ _ Hj _ _ H1) as Hjs. cbn [shadow] in Hjs. destruct (Hr _ _ _ H1) as (tr1 & tr2 & e & Hrun).
    destruct (ginv_leave K fetch _ y js w (CLookup aid [0]) _ aid (RLookup 0 false) Hg Hc Hjs (rn_hold _ _ _ _ _ _ _ _ Hrun)) as (w' & Hg' & Ho & Ewk); [right; by exists 0, false|].
    rewrite Hwk in Ewk. exists w'. split; [..|done]; unfold os_sys; cbn [os_f os_obs fs_sys fs_jobs].
    + eexists. split; [|by rewrite lookups_snoc]. apply joint_gone; [done|by eapply (jt_apart _ _ _ Hj)].
    + intros a c0 e0 Ha. apply lookup_delete_Some in Ha as [Hne Ha]. by eapply Hw.
    + intros a c0 p Ha. apply lookup_delete_Some in Ha as [Hne Ha]. eapply running_onward; [exact Hg|exact Ho| |by eapply Hr|done..].
      by rewrite (gi_n _ _ _ _ _ Hg').
Qed.

Lemma oinv_init n : oinv [] (oinit n) (World (init n) h0 None 0 (fun _ => 0) 0 [(h0, None)] (no_wake false)).
Proof.
  split; [..|done]; cbn [oinit os_obs].
  - exists ∅. split; [|apply ginv_init].
    split; intros aid; [intros ?; by rewrite lookup_empty| |intros ?; by rewrite lookup_empty]. intros _. done.
  - intros aid c e H. by rewrite lookup_empty in H.
  - intros aid c p H. by rewrite lookup_empty in H.
Qed.

Theorem oruns_inv n tr x : oruns K fetch unshared n tr x -> ncalls (lookups tr) < maxUint64 -> calm (lookups tr) -> exists w, oinv tr x w.
Proof.
  intros Hr. induction Hr as [_|tr x e x' Hr IH Hs Hu]; intros Hn Hc.
  - eexists. apply oinv_init.
  - destruct IH as [w Hi].
    + rewrite lookups_snoc, ncalls_app in Hn. lia.
    + rewrite lookups_snoc in Hc. by eapply calm_app.
    + by eapply oinv_step.
Qed.
End ObsTop.
