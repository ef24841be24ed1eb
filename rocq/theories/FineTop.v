(** * FineTop: histories of interrupted calls satisfy the invariant. *)
From Verif Require Export FineDel.

(** The end of a call may wait. *)
Lemma ok_close K fetch {A} aid nmax (p : prog A) (Q : A -> world -> Prop) w : ok K fetch aid nmax p Q w ->
  ok K fetch aid nmax p (fun a w' => forall w'', rtc (rely K fetch aid nmax) w' w'' -> Q a w'') w.
Proof.
  revert w. induction p as [a|e|a c IH]; intros w H; [|by destruct e|]; simpl in *.
  - intros w' Hr w'' Hr'. apply H. by etrans.
  - intros w1 Hr. destruct (H w1 Hr) as (H1 & v & s' & H2 & H3). split; [done|]. exists v, s'. split; [done|]. by apply IH.
Qed.

Lemma ok_map K fetch {A B} aid nmax (p : prog A) (f : A -> B) (Q : A -> world -> Prop) (Q' : B -> world -> Prop) w :
  (forall a w', Q a w' -> Q' (f a) w') -> ok K fetch aid nmax p Q w -> ok K fetch aid nmax (run a <- p; Ret (f a)) Q' w.
Proof.
  intros HQ H. apply ok_bind. eapply ok_mono; [|by apply ok_close]. intros a w' Ha. apply ok_ret. intros w'' Hr. by apply HQ, Ha.
Qed.

Section FineTop.
Context (K : list N -> Prop) (fetch : N -> list N) (HK : universe K).
Local Notation good := (good K fetch).
Local Notation rely := (rely K fetch).
Local Notation ok := (ok K fetch).
Local Notation base := (base K fetch).

(** The keys of calls. *)
Definition call_key_ok (c : call) : Prop :=
  match c with
  | CLookup _ key | CPrepD _ key => bytes key /\ key <> []
  | CPrepU _ key => K key
  | _ => False
  end.

(** What is known when a call is about to return. *)
Definition post (aid : nat) (c : call) (n0 : nat) (e ns nmax : N) (o : outcome) (w : world) : Prop :=
  match c, o with
  | CLookup _ key, OLook v f => look_Q K fetch aid key n0 e (v, f) w
  | CPrepU _ key, OPrepU f op => upd_Q K fetch aid key n0 e ns nmax (f, op) w
  | CPrepD _ key, OPrepD r => del_Q K fetch aid key n0 e ns nmax r w
  | _, _ => False
  end.

Lemma program_ok aid c n0 e ns nmax w : nmax <= ns + 2 ^ 31 -> job_of c = Some aid -> call_key_ok c ->
  base aid (job_key c) n0 e ns nmax w -> hold aid [] false w ->
  ok aid nmax (program_of c) (post aid c n0 e ns nmax) w.
Proof.
  intros Hmax Hj Hk Hb Hh. destruct c as [a key|a key|? ? ? ?|?|a key|?|?|?|? ? ?]; try done; simpl in Hj; injection Hj as ->; simpl in Hk; cbn [program_of job_key] in *.
  - destruct Hk as [Hk1 Hk2]. apply ok_bind. eapply ok_mono.
    2:{ apply ok_close. apply (look_ok K fetch HK aid key n0 e nmax w Hk1 Hk2); [apply (ba_J _ _ _ _ _ _ _ _ _ Hb)|apply Hh]. }
    intros [v f] w' Ha. apply ok_ret. intros w'' Hr. by apply Ha.
  - apply ok_bind. eapply ok_mono.
    2:{ apply ok_close. by apply (upd_ok K fetch HK aid key Hk n0 e ns nmax Hmax w). }
    intros [f op] w' Ha. apply ok_ret. intros w'' Hr. by apply Ha.
  - destruct Hk as [Hk1 Hk2]. apply ok_bind. eapply ok_mono.
    2:{ apply ok_close. by apply (del_ok K fetch HK aid key Hk1 Hk2 n0 e ns nmax Hmax w). }
    intros r w' Ha. apply ok_ret. intros w'' Hr. by apply Ha.
Qed.

(** ** Jobs *)

Definition new_call (aid : nat) (e : event) : Prop := match e with EResv c => job_of c = Some aid | _ => False end.

(** A call of [aid] begins or returns. *)
Definition borders (aid : nat) (e : event) : Prop :=
  match e with EResv c => job_of c = Some aid | EReturn aid' _ _ => aid' = aid | _ => False end.

(** The current call of [aid], begun with the reservation [EResv c], has not returned. *)
Definition during (tr : list event) (aid : nat) (c : call) (tr1 tr2 : list event) : Prop :=
  tr = tr1 ++ EResv c :: tr2 /\ Forall (fun e => ~ borders aid e) tr2.

Definition attempt (tr : list event) (aid : nat) (ns : N) : Prop :=
  exists tra ea trb, tr = tra ++ ea :: trb /\ starts aid ea /\ Forall (fun e => ~ ends aid e) trb /\ ns = ncalls tra.

(** If there are few calls in the whole run, they are counted from the beginning. *)
Definition counted (tr : list event) (w : world) (aid : nat) (ns : N) : Prop := if w_few w then ns = 0 else attempt tr aid ns.

Definition job_ok (tr : list event) (w : world) (aid : nat) (jb : job) : Prop :=
  match jb with
  | Waiting c e => job_of c = Some aid /\ call_key_ok c /\ (aid < naids (w_sys w))%nat /\ sy_open (w_sys w) !! aid = None /\ e <= t_epoch (w_tree w)
  | Running c p => job_of c = Some aid /\ call_key_ok c /\ exists tr1 tr2 e ns, during tr aid c tr1 tr2 /\ counted tr w aid ns /\
      base aid (job_key c) (S (length tr1)) e ns (ns + 2 ^ 31) w /\
      ok aid (ns + 2 ^ 31) p (post aid c (S (length tr1)) e ns (ns + 2 ^ 31)) w
  end.

Lemma late_nil prev T : late_ok prev T [].
Proof. intros o1 o2 l0 l E _ _ _ Hin. symmetry in E. apply app_eq_nil in E as [_ ->]. by apply elem_of_nil in Hin. Qed.

Record ginv (tr : list event) (x : fsys) (w : world) : Prop := {
  gi_good : good w;
  gi_sys : w_sys w = fs_sys x;
  gi_hist : w_hist w = freplay tr;
  gi_n : w_n w = ncalls tr;
  gi_past : map fst (w_past w) = map (fun j => freplay (take j tr)) (seq 0 (S (length tr)));
  gi_jobs : forall aid jb, fs_jobs x !! aid = Some jb -> job_ok tr w aid jb;
  gi_open : forall aid l b, sy_open (fs_sys x) !! aid = Some (HP l b) -> exists c p, fs_jobs x !! aid = Some (Running c p)
}.

Lemma ncalls_app tr tr' : ncalls (tr ++ tr') = ncalls tr + ncalls tr'.
Proof. unfold ncalls. rewrite filter_app, app_length. lia. Qed.

Lemma ncalls_one e : ncalls [e] = if is_ecall e then 1 else 0.
Proof. unfold ncalls. by destruct e. Qed.

Lemma attempt_calm tr aid ns : calm tr -> attempt tr aid ns -> ns <= ncalls tr /\ ncalls tr < ns + 2 ^ 31.
Proof.
  intros Hc (tra & ea & trb & -> & Hs & Hf & ->). pose proof (Hc tra ea trb [] aid ltac:(by rewrite app_nil_r) Hs Hf) as Hn.
  assert (is_ecall ea = false) as Ee by (by destruct ea).
  replace (tra ++ ea :: trb) with (tra ++ [ea] ++ trb) by done. rewrite !ncalls_app, ncalls_one, Ee. lia.
Qed.

Lemma attempt_snoc tr aid ns e : attempt tr aid ns -> ~ ends aid e -> attempt (tr ++ [e]) aid ns.
Proof.
  intros (tra & ea & trb & -> & Hs & Hf & ->) He. exists tra, ea, (trb ++ [e]). split_and!; try done; [by rewrite <- app_assoc|].
  apply Forall_app. split; [done|by apply Forall_singleton].
Qed.

Lemma during_snoc tr aid c tr1 tr2 e : during tr aid c tr1 tr2 -> ~ borders aid e -> during (tr ++ [e]) aid c tr1 (tr2 ++ [e]).
Proof.
  intros [-> Hf] He. split; [by rewrite <- app_assoc|]. apply Forall_app. split; [done|by apply Forall_singleton].
Qed.

Lemma calm_prefix tr e : calm (tr ++ [e]) -> calm tr.
Proof. intros Hc tr1 ea tr2 tr3 aid -> Hs Hf. apply (Hc tr1 ea tr2 (tr3 ++ [e]) aid); try done. by rewrite <- !app_assoc, <- app_comm_cons, <- app_assoc. Qed.

Lemma past_snoc tr e (past : list (hist * option trie)) T :
  map fst past = map (fun j => freplay (take j tr)) (seq 0 (S (length tr))) ->
  map fst (past ++ [(freplay (tr ++ [e]), T)]) = map (fun j => freplay (take j (tr ++ [e]))) (seq 0 (S (length (tr ++ [e])))).
Proof.
  intros E. rewrite map_app, E. rewrite app_length.
  replace (S (length tr + length [e])) with (S (length tr) + 1)%nat by (simpl; lia). rewrite seq_app, map_app. f_equal.
  - apply map_ext_in. intros j Hj%in_seq. by rewrite take_app_le by lia.
  - simpl. by rewrite take_ge by (rewrite app_length; simpl; lia).
Qed.

(** The other clients' jobs. *)
Lemma job_step tr w w' e j jb : calm (tr ++ [e]) -> w_n w' = ncalls (tr ++ [e]) ->
  w_few w' = w_few w -> (w_few w = true -> w_n w' < 2 ^ 31) ->
  job_ok tr w j jb -> ~ ends j e -> ~ new_call j e ->
  (forall l b nmax, sy_open (w_sys w) !! j = Some (HP l b) -> w_n w' < nmax -> rely j nmax w w') ->
  (sy_open (w_sys w) !! j = None -> sy_open (w_sys w') !! j = None) -> naids (w_sys w') = naids (w_sys w) -> t_epoch (w_tree w) <= t_epoch (w_tree w') ->
  job_ok (tr ++ [e]) w' j jb.
Proof.
  intros Hc Hn Hfew Hlt Hjob H1 H2 Hr Ho Hna Hep. destruct jb as [c e0|c p].
  - destruct Hjob as (A1 & A2 & A3 & A4 & A5). rewrite <- Hna in A3. split_and!; try done; [by apply Ho|lia].
  - destruct Hjob as (A1 & A2 & tr1 & tr2 & e0 & ns & Hd & Hat & Hb & Hok). split; [done|]. split; [done|].
    exists tr1, (tr2 ++ [e]), e0, ns. assert (Hat' : counted (tr ++ [e]) w' j ns).
    { unfold counted in *. rewrite Hfew. destruct (w_few w); [done|]. by apply attempt_snoc. }
    split; [apply during_snoc; [done|by destruct e]|]. split; [done|].
    destruct (j_mine _ _ _ _ _ _ _ (ba_J _ _ _ _ _ _ _ _ _ Hb)) as [(l & b & Hopen) _].
    assert (Hrel : rely j (ns + 2 ^ 31) w w') by (eapply Hr; [done|]; unfold counted in Hat', Hat; rewrite Hfew in Hat'; destruct (w_few w);
      [rewrite Hat; by apply Hlt|rewrite Hn; by apply (attempt_calm _ j)]).
    split; [eapply (base_step K fetch j); [|by left|done]; done|]. by eapply ok_rely.
Qed.

(** The client of a step. *)
Definition by_client (aid : nat) (e : event) : Prop :=
  match e with
  | EBegin c | EResv c => job_of c = Some aid
  | EAct a _ | EAgain a | EReturn a _ _ => a = aid
  | ECall c _ => False
  end.

(** What a step means for the calls of other clients in progress. *)
Definition onward (e : event) (w w' : world) : Prop :=
  forall j l b nmax, ~ by_client j e -> sy_open (w_sys w) !! j = Some (HP l b) -> w_n w' < nmax -> rely j nmax w w'.

(** ** Each kind of step *)

(** Finalize, Abort, FlushStats. *)
Lemma ginv_call_as sc tr y jobs w c r y' k : awake w c k -> scanned sc (sy_tree y) -> ginv tr (FSys y jobs) w -> ncalls (tr ++ [ECall c r]) < maxUint64 -> calm (tr ++ [ECall c r]) ->
  job_of c = None -> ~ is_restart c -> proper K fetch y c -> api_as sc y c = Ok (r, y') ->
  exists w', ginv (tr ++ [ECall c r]) (FSys y' jobs) w' /\ onward (ECall c r) w w' /\ w_wake w' = k.
Proof.
  intros Hk Hsc [Hg Esys Eh En Ep Hjobs Hopen] Hn Hc Hj Hnr Hp Ha. cbn [fs_sys fs_jobs] in *.
  rewrite ncalls_app, ncalls_one in Hn. cbn [is_ecall] in Hn. rewrite <- En in Hn. rewrite <- Esys in Hsc, Hp, Ha.
  destruct (call_world_as K fetch HK sc w c r y' k Hsc Hg Hn Hj Hnr Hp Ha Hk) as (w' & Esys' & Ewk & Eh' & En' & Ep' & Hg' & Hrel).
  destruct (api_moves_as _ _ _ _ _ Hj Hnr Ha) as (_ & Hep & Hop).
  assert (Hna : naids (w_sys w') = naids (w_sys w)).
  { unfold naids. rewrite <- (iv_resv _ _ _ _ _ _ _ (g_inv _ _ _ Hg)), <- (iv_resv _ _ _ _ _ _ _ (g_inv _ _ _ Hg')), Esys'.
    destruct Hop as [(_ & _ & ->)|(aid & hd & _ & Hhd & Hnp & _ & Hr)]; [done|].
    destruct hd as [f op|key op|l b]; [rewrite (Hr _ eq_refl), insert_length; done|rewrite (Hr _ eq_refl), insert_length; done|by destruct (Hnp l b)]. }
  assert (Hnn : w_n w' = ncalls (tr ++ [ECall c r])) by (rewrite ncalls_app, ncalls_one, En', En; done).
  assert (Hfew : w_few w' = w_few w) by (rewrite Ewk; destruct Hk as (_ & _ & _ & [->|(-> & -> & _)]); done).
  exists w'. split; [|split; [intros j l b nmax _ Ho Hlt; eapply Hrel; [done|]; by rewrite <- En'|done]]. split; cbn [fs_sys fs_jobs]; try done.
  - rewrite Eh', Eh, freplay_snoc. done.
  - rewrite Ep', Eh', Eh. change (hstep (freplay tr) (c, r)) with (fhstep (freplay tr) (ECall c r)). rewrite <- freplay_snoc. by apply past_snoc.
  - intros j jb Hjb. eapply (job_step tr w w' (ECall c r)); try done; [|by apply Hjobs|by intros ?|by intros ?| | |].
    { rewrite <- Hfew. apply (wo_few _ (g_wake _ _ _ Hg')). }
    + intros l b nmax Ho Hlt. eapply Hrel; [done|]. by rewrite <- En'.
    + rewrite Esys'. destruct Hop as [(_ & -> & _)|(aid & hd & _ & _ & _ & -> & _)]; [done|]. intros Ho. by apply lookup_delete_None; right.
    + rewrite Esys'. pose proof (iv_epoch _ _ _ _ _ _ _ (g_inv _ _ _ Hg)). destruct Hep as [->| ->]; [done|].
      unfold u64. rewrite maxUint64_val in Hn. rewrite N.mod_small by lia. lia.
  - intros aid l b Ho. apply (Hopen aid l b). rewrite <- Esys.
    destruct Hop as [(_ & E & _)|(aid' & hd & _ & _ & _ & E & _)]; rewrite E in Ho; [done|]. by apply lookup_delete_Some in Ho as [_ ?].
Qed.

(** No lock is yet to be given back, and the calls may be counted on. *)
Definition calm_wake (w : world) : Prop := w_ids w = [] /\ wk_root (w_wake w) = false /\ (w_few w = true -> w_n w + 1 < 2 ^ 31).

Lemma ginv_call tr y jobs w c r y' : calm_wake w -> ginv tr (FSys y jobs) w -> ncalls (tr ++ [ECall c r]) < maxUint64 -> calm (tr ++ [ECall c r]) ->
  job_of c = None -> ~ is_restart c -> proper K fetch y c -> api y c = Ok (r, y') ->
  exists w', ginv (tr ++ [ECall c r]) (FSys y' jobs) w' /\ onward (ECall c r) w w' /\ w_wake w' = w_wake w.
Proof. intros (H1 & H2 & H3). rewrite <- api_as_None. apply ginv_call_as; [|done]. split_and!; try done. by left. Qed.

(** A restart; no call is in progress. *)
Lemma ginv_restart tr y w c r y' : calm_wake w -> ginv tr (FSys y ∅) w -> ncalls (tr ++ [ECall c r]) < maxUint64 ->
  is_restart c -> proper K fetch y c -> api y c = Ok (r, y') ->
  exists w', ginv (tr ++ [ECall c r]) (FSys y' ∅) w' /\ onward (ECall c r) w w' /\ w_wake w' = w_wake w.
Proof.
  intros (Hw1 & Hw2 & Hw3) [Hg Esys Eh En Ep Hjobs Hopen] Hn Hr Hp Ha. cbn [fs_sys fs_jobs] in *.
  rewrite ncalls_app, ncalls_one in Hn. cbn [is_ecall] in Hn. rewrite <- En in Hn. rewrite <- Esys in Hp, Ha.
  pose proof (g_inv _ _ _ Hg) as Hi.
  pose proof (step_okf K fetch HK _ _ _ _ _ c Hi ltac:(apply Hg) Hp) as Hst. rewrite Ha in Hst.
  destruct Hst as (Hrep & T' & lost' & Hi' & _).
  assert (Ey : sy_open y' = ∅ /\ forall i, lget (t_locks (sy_tree y')) i = 0).
  { destruct c as [| | | | | | | |pack unpack order]; try done. destruct Hp as (Ho & Hcd & Hord & Hl & Hna).
    pose proof (iv_core _ _ _ _ _ _ _ Hi) as Hcore.
    destruct (restart_ok pack unpack (w_tree w) _ order Hcd (co_alloc _ _ _ _ Hcore) (co_zero _ _ _ _ Hcore)) as (s' & E & Hrs); try done.
    { rewrite (co_root _ _ _ _ Hcore). by eapply enc_root_lt. }
    { pose proof (iv_epoch _ _ _ _ _ _ _ Hi). lia. }
    unfold api in Ha. rewrite E in Ha. simpl in Ha. injection Ha as _ <-. cbn [sy_open sy_tree]. split; [done|]. intros i.
    rewrite (rs_locks _ _ Hrs). apply lget_mempty. }
  destruct Ey as [Eo El].
  exists (World y' (hstep (w_hist w) (c, r)) T' lost' (fun _ => 0) (w_n w + 1) (w_past w ++ [(hstep (w_hist w) (c, r), T')]) (w_wake w)).
  assert (Ef : hstep (w_hist w) (c, r) = freplay (tr ++ [ECall c r])) by (rewrite freplay_snoc, Eh; done).
  split.
  2:{ split; [|done]. intros j l b nmax _ Ho _. exfalso. rewrite Esys in Ho. by destruct (Hopen _ _ _ Ho) as (? & ? & ?). }
  split; cbn [fs_sys fs_jobs w_sys w_hist w_n w_past]; try done.
  - split; cbn [w_sys w_hist w_trie w_lost w_unl w_n w_past]; try done.
    + by rewrite last_snoc.
    + apply Forall_app. split; [apply Hg|]. apply Forall_singleton. split; [apply Hi'|]. eexists. apply Hi'.
    + intros i. rewrite El, Eo. unfold held. rewrite map_to_list_empty. done.
    + intros aid key op x. rewrite Eo. done.
    + split; cbn [w_sys w_trie w_unl w_n w_wake]; rewrite ?Hw1, ?Hw2; try done. * by intros i ?%elem_of_nil. * by apply late_nil.
  - rewrite ncalls_app, ncalls_one, En. done.
  - rewrite Ef. by apply past_snoc.
  - intros aid l b. rewrite Eo. done.
Qed.

Lemma good_same w h : good w -> w_hist w = h -> good (World (w_sys w) h (w_trie w) (w_lost w) (w_unl w) (w_n w) (w_past w ++ [(h, w_trie w)]) (w_wake w)).
Proof.
  intros Hg <-. split; cbn [w_sys w_hist w_trie w_lost w_unl w_n w_past]; try apply Hg.
  - by rewrite last_snoc.
  - apply Forall_app. split; [apply Hg|]. apply Forall_singleton. by apply good_snap.
  - intros aid key op x Ho H2 H3. eapply slot_kept; try done; [apply (g_inv _ _ _ Hg)|]. by eapply (g_256 _ _ _ Hg).
  - by destruct (g_wake _ _ _ Hg).
Qed.

(** A step that only goes on. *)
Definition wait (w : world) : world :=
  World (w_sys w) (w_hist w) (w_trie w) (w_lost w) (w_unl w) (w_n w) (w_past w ++ [(w_hist w, w_trie w)]) (w_wake w).

Lemma wait_rely w j nmax : good w -> w_n w < nmax -> rely j nmax w (wait w).
Proof. intros Hg Hn. apply rely_same; try done. by apply good_same. Qed.

Lemma ginv_wait tr x w e jobs' : ginv tr x w -> ncalls (tr ++ [e]) = ncalls tr -> freplay (tr ++ [e]) = freplay tr ->
  (forall j jb, jobs' !! j = Some jb -> job_ok (tr ++ [e]) (wait w) j jb) ->
  (forall aid c p, fs_jobs x !! aid = Some (Running c p) -> exists c' p', jobs' !! aid = Some (Running c' p')) ->
  ginv (tr ++ [e]) (FSys (fs_sys x) jobs') (wait w).
Proof.
  intros [Hg Esys Eh En Ep Hjobs Hopen] Hn He Hj Ho. split; cbn [fs_sys fs_jobs wait w_sys w_hist w_n w_past]; try done.
  - by apply good_same.
  - by rewrite He.
  - by rewrite Hn.
  - rewrite Eh, <- He. by apply past_snoc.
  - intros aid l b H. destruct (Hopen _ _ _ H) as (c & p & Hp). by eapply Ho.
Qed.

Lemma job_wait tr w e j jb : good w -> w_n w = ncalls tr -> calm (tr ++ [e]) -> ncalls (tr ++ [e]) = ncalls tr ->
  job_ok tr w j jb -> ~ ends j e -> ~ new_call j e -> job_ok (tr ++ [e]) (wait w) j jb.
Proof.
  intros Hg En Hc Hn Hjob H1 H2. eapply (job_step tr w (wait w) e); try done.
  - cbn [wait w_n]. by rewrite Hn.
  - apply (wo_few _ (g_wake _ _ _ Hg)).
  - intros l b nmax _ Hlt. by apply wait_rely.
Qed.

Lemma ginv_begin tr y jobs w c aid : ginv tr (FSys y jobs) w -> calm (tr ++ [EBegin c]) ->
  job_of c = Some aid -> jobs !! aid = None -> proper K fetch y c ->
  exists w', ginv (tr ++ [EBegin c]) (FSys y (<[aid := Waiting c (t_epoch (sy_tree y))]> jobs)) w' /\ onward (EBegin c) w w' /\ w_wake w' = w_wake w.
Proof.
  intros Hi Hc Hj Hn Hp. pose proof Hi as [Hg Esys Eh En Ep Hjobs Hopen]. cbn [fs_sys fs_jobs] in *.
  assert (Hnc : ncalls (tr ++ [EBegin c]) = ncalls tr) by (rewrite ncalls_app, ncalls_one; cbn [is_ecall]; lia).
  exists (wait w). split; [|split; [intros j l b nmax _ _ Hlt; by apply wait_rely|done]]. apply (ginv_wait tr (FSys y jobs)); try done.
  - by rewrite freplay_snoc.
  - intros j jb Hjb. destruct (decide (j = aid)) as [->|Hne].
    + rewrite lookup_insert in Hjb. injection Hjb as <-. cbn [job_ok wait w_sys]. rewrite Esys.
      destruct c; try done; simpl in Hj; injection Hj as ->; simpl in Hp |- *; [|destruct Hp as (? & ? & ?)|]; naive_solver.
    + rewrite lookup_insert_ne in Hjb by done. apply job_wait; try done; try (by intros ?); by apply Hjobs.
  - cbn [fs_jobs]. intros a c0 p0 Ha. exists c0, p0. rewrite lookup_insert_ne; [done|]. intros ->. by rewrite Hn in Ha.
Qed.

Lemma ginv_again tr y jobs w c aid : ginv tr (FSys y jobs) w -> calm (tr ++ [EAgain aid]) ->
  jobs !! aid = Some (Running c (Stop Again)) ->
  exists w', ginv (tr ++ [EAgain aid]) (FSys y (<[aid := Running c (program_of c)]> jobs)) w' /\ onward (EAgain aid) w w' /\ w_wake w' = w_wake w.
Proof.
  intros Hi Hc Hj. pose proof Hi as [Hg Esys Eh En Ep Hjobs Hopen]. cbn [fs_sys fs_jobs] in *.
  assert (Hnc : ncalls (tr ++ [EAgain aid]) = ncalls tr) by (rewrite ncalls_app, ncalls_one; cbn [is_ecall]; lia).
  exists (wait w). split; [|split; [intros j l b nmax _ _ Hlt; by apply wait_rely|done]]. apply (ginv_wait tr (FSys y jobs)); try done.
  - by rewrite freplay_snoc.
  - intros j jb Hjb. destruct (decide (j = aid)) as [->|Hne].
    + rewrite lookup_insert in Hjb. injection Hjb as <-.
      destruct (Hjobs _ _ Hj) as (Hja & Hk & tr1 & tr2 & e & ns & Hd & Hat & Hb & Hok). split; [done|]. split; [done|].
      set (ns' := if w_few w then 0 else w_n w).
      exists tr1, (tr2 ++ [EAgain aid]), e, ns'. split; [apply during_snoc; [done|by intros ?]|].
      split. { unfold counted, ns'. cbn [wait w_wake]. destruct (w_few w); [done|]. exists tr, (EAgain aid), []. by split_and!. }
      assert (Hb' : base aid (job_key c) (S (length tr1)) e ns (ns + 2 ^ 31) (wait w)).
      { eapply (base_step K fetch aid); [done|left|done]. apply wait_rely; [done|]. apply Hb. }
      assert (Hb2 : base aid (job_key c) (S (length tr1)) e ns' (ns' + 2 ^ 31) (wait w)).
      { destruct Hb' as [B1 B2 B3]. split; try done; [cbn [wait w_n]|unfold ns'; cbn [wait w_wake]; by intros ->].
        unfold ns'. pose proof (wo_few _ (g_wake _ _ _ Hg)). destruct (w_few w); [split; [|apply H]; try done|]; lia. }
      split; [done|]. apply program_ok; try done. split; [done|]. by intros i u ?%elem_of_nil.
    + rewrite lookup_insert_ne in Hjb by done. apply job_wait; try done; try (by intros ?). by apply Hjobs.
  - cbn [fs_jobs]. intros a c0 p0 Ha. destruct (decide (a = aid)) as [->|Hne].
    + exists c, (program_of c). by rewrite lookup_insert.
    + exists c0, p0. by rewrite lookup_insert_ne.
Qed.

Lemma ginv_resv tr y jobs w c aid e : ginv tr (FSys y jobs) w -> calm (tr ++ [EResv c]) ->
  jobs !! aid = Some (Waiting c e) ->
  exists w', ginv (tr ++ [EResv c])
      (FSys (Sys (set_resv (sy_tree y) (<[aid := e]> (t_resv (sy_tree y)))) (<[aid := HP [] false]> (sy_open y)))
            (<[aid := Running c (program_of c)]> jobs)) w' /\ onward (EResv c) w w' /\ w_wake w' = w_wake w.
Proof.
  intros Hi Hc Hj. pose proof Hi as [Hg Esys Eh En Ep Hjobs Hopen]. cbn [fs_sys fs_jobs] in *.
  assert (Hnc : ncalls (tr ++ [EResv c]) = ncalls tr) by (rewrite ncalls_app, ncalls_one; cbn [is_ecall]; lia).
  destruct (Hjobs _ _ Hj) as (Hja & Hk & Hna & Hno & Hep). pose proof (g_inv _ _ _ Hg) as Hinv.
  set (s1 := set_resv (w_tree w) (<[aid := e]> (t_resv (w_tree w)))).
  set (h' := Hist (h_map (w_hist w)) (<[aid := Pend (job_key c) false false]> (h_pend (w_hist w))) (h_susp (w_hist w)) (h_nsusp (w_hist w)) (h_off (w_hist w))).
  assert (Eh' : freplay (tr ++ [EResv c]) = h') by (rewrite freplay_snoc; cbn [fhstep]; rewrite Hja, <- Eh; done).
  assert (Hra : s1.(t_resv) !! aid = Some e).
  { unfold s1. cbn [set_resv t_resv]. apply list_lookup_insert. rewrite (iv_resv _ _ _ _ _ _ _ Hinv). done. }
  assert (Hi' : inv K fetch (Sys s1 (<[aid := HP [] false]> (sy_open (w_sys w)))) h' (w_n w) (w_trie w) (w_lost w)).
  { eapply inv_begin; try done. - simpl. apply Hinv. - simpl. eauto. }
  set (w' := World (Sys s1 (<[aid := HP [] false]> (sy_open (w_sys w)))) h' (w_trie w) (w_lost w) (w_unl w) (w_n w) (w_past w ++ [(h', w_trie w)]) (w_wake w)).
  assert (Hg' : good w').
  { split; cbn [w' w_sys w_hist w_trie w_lost w_unl w_n w_past w_wake sy_open sy_tree]; try done; try apply Hg.
    - by rewrite last_snoc.
    - apply Forall_app. split; [apply Hg|]. apply Forall_singleton. split; [apply Hi'|]. eexists. apply Hi'.
    - intros i. cbn [s1 set_resv t_locks]. rewrite (g_locks _ _ _ Hg i). f_equal. apply bool_decide_ext. rewrite held_insert by done. done.
    - intros j key op x Hop H2 H3. destruct (decide (j = aid)) as [->|Hne]; [by rewrite lookup_insert in Hop|].
      eapply (slot_kept K fetch (Sys s1 (<[aid := HP [] false]> (sy_open (w_sys w))))); try done.
      rewrite lookup_insert_ne in Hop by done. by eapply (g_256 _ _ _ Hg).
    - destruct (g_wake _ _ _ Hg) as [W1 W2 W3 W4 W5]. split; cbn [w' w_sys w_trie w_unl w_n w_wake sy_open]; try done.
      + intros i Hin. rewrite held_insert by done. by apply W1.
      + intros Hr. rewrite rootops_insert by done. by apply W2. }
  assert (Hlen : length (w_past w) = S (length tr)).
  { rewrite <- (map_length fst), Ep, map_length, seq_length. done. }
  assert (Hrel : forall j nmax, j <> aid -> w_n w' < nmax -> rely j nmax w w').
  { intros j nmax Hne Hlt. apply rely_same; try done; cbn [w' w_sys w_hist sy_open sy_tree s1 set_resv t_resv h' h_pend].
    - by rewrite lookup_insert_ne.
    - by rewrite list_lookup_insert_ne.
    - by rewrite lookup_insert_ne. }
  exists w'. rewrite <- Esys. split; [|split; [intros j l b nmax Hne _ Hlt; apply Hrel; [|done]; intros ->; by apply Hne|done]].
  split; cbn [fs_sys fs_jobs w' w_sys w_hist w_n w_past]; try done.
  - by rewrite Hnc.
  - rewrite <- Eh'. by apply past_snoc.
  - intros j jb Hjb. destruct (decide (j = aid)) as [->|Hne].
    + rewrite lookup_insert in Hjb. injection Hjb as <-. split; [done|]. split; [done|].
      set (ns := if w_few w then 0 else w_n w).
      exists tr, [], e, ns. split; [split; [done|constructor]|].
      split. { unfold counted, ns. cbn [w' w_wake]. destruct (w_few w); [done|]. exists tr, (EResv c), []. by split_and!. }
      assert (Hb : base aid (job_key c) (S (length tr)) e ns (ns + 2 ^ 31) w').
      { split.
        - apply J_start; [done| |].
          + split; [|done]. cbn [w' w_sys sy_open]. rewrite lookup_insert. eauto.
          + cbn [w' w_past]. rewrite app_length. simpl. lia.
        - cbn [w' w_n]. unfold ns. pose proof (wo_few _ (g_wake _ _ _ Hg)). destruct (w_few w); [split; [|apply H]; try done|]; lia.
        - exists (Pend (job_key c) false false). split; [unfold pnd; cbn [w' w_hist h' h_pend]; apply lookup_insert|]. split; [done|].
          intros _ q Hq. unfold span in Hq. cbn [w' w_past] in Hq. rewrite drop_app_alt in Hq by done.
          apply elem_of_list_singleton in Hq. by subst q.
        - unfold ns. cbn [w' w_wake]. by intros ->.
        - intros (h & Hq) _ o Ho. left. unfold span in Hq. cbn [w' w_past w_trie w_wake] in *. rewrite drop_app_alt in Hq by done.
          apply elem_of_list_singleton in Hq. injection Hq as _ Eq. rewrite Eq in Ho. exists o. split; [done|apply osame_refl]. }
      split; [done|]. apply program_ok; try done. split; [|by intros i u ?%elem_of_nil]. cbn [w' w_sys sy_open]. apply lookup_insert.
    + rewrite lookup_insert_ne in Hjb by done. eapply (job_step tr w w' (EResv c)); try done.
      * by rewrite Hnc.
      * apply (wo_few _ (g_wake _ _ _ Hg)).
      * by apply Hjobs.
      * by intros ?.
      * simpl. congruence.
      * intros l b nmax _ Hlt. by apply Hrel.
      * cbn [w' w_sys sy_open]. by rewrite lookup_insert_ne.
  - cbn [sy_open]. intros a l b Ho. destruct (decide (a = aid)) as [->|Hne].
    + exists c, (program_of c). by rewrite lookup_insert.
    + rewrite lookup_insert_ne in Ho by done. rewrite lookup_insert_ne by done. apply (Hopen _ l b). by rewrite <- Esys.
Qed.

Lemma ginv_act tr y jobs w c aid a k hd v s' : ginv tr (FSys y jobs) w -> calm (tr ++ [EAct aid a]) ->
  jobs !! aid = Some (Running c (Act a k)) -> sy_open y !! aid = Some hd -> lact w a = Ok (v, s') ->
  exists w', ginv (tr ++ [EAct aid a]) (FSys (Sys s' (<[aid := hp_act hd a v]> (sy_open y))) (<[aid := Running c (k v)]> jobs)) w' /\ onward (EAct aid a) w w' /\ w_wake w' = w_wake w.
Proof.
  intros Hi Hc Hj Ho Hd. pose proof Hi as [Hg Esys Eh En Ep Hjobs Hopen]. cbn [fs_sys fs_jobs] in *.
  assert (Hnc : ncalls (tr ++ [EAct aid a]) = ncalls tr) by (rewrite ncalls_app, ncalls_one; cbn [is_ecall]; lia).
  destruct (Hjobs _ _ Hj) as (Hja & Hk & tr1 & tr2 & e & ns & Hdu & Hat & Hb & Hok).
  pose proof (j_mine _ _ _ _ _ _ _ (ba_J _ _ _ _ _ _ _ _ _ Hb)) as [(l & b & Hop) _].
  destruct (Hok w (rtc_refl _ _)) as ((Ha & _) & v0 & s0 & Hd0 & Hok'). rewrite <- Esys in Ho. rewrite Hd in Hd0. injection Hd0 as <- <-.
  assert (Ehd : hdl aid w = hd) by (unfold hdl; by rewrite Ho). rewrite Ehd in Ha. rewrite Hop in Ho. injection Ho as <-.
  set (w' := acted aid a v s' w).
  assert (Hsame := lact_same _ _ _ _ Hd). destruct Hsame as (E1 & E2 & E3 & E4 & E5 & E6 & E7).
  assert (Esys' : w_sys w' = Sys s' (<[aid := hp_act (HP l b) a v]> (sy_open (w_sys w)))) by (unfold w'; cbn [acted w_sys]; by rewrite Ehd).
  exists w'. rewrite <- Esys. split.
  2:{ split; [|done]. intros j l' b' nmax Hne _ Hlt. eapply rely_acted; try done. }
  split; cbn [fs_sys fs_jobs]; try done.
  - by eapply good_acted.
  - cbn [w' acted w_hist]. rewrite freplay_snoc. done.
  - cbn [w' acted w_n]. by rewrite Hnc.
  - cbn [w' acted w_past]. rewrite Eh. replace (freplay tr) with (freplay (tr ++ [EAct aid a])) by (by rewrite freplay_snoc). by apply past_snoc.
  - intros j jb Hjb. destruct (decide (j = aid)) as [->|Hne].
    + rewrite lookup_insert in Hjb. injection Hjb as <-. split; [done|]. split; [done|].
      exists tr1, (tr2 ++ [EAct aid a]), e, ns. split; [apply during_snoc; [done|by intros ?]|].
      split; [unfold counted in *; cbn [w' acted w_wake]; destruct (w_few w); [done|]; apply attempt_snoc; [done|by intros ?]|]. split; [|done].
      eapply (base_step K fetch aid); [done| |done]. right. eapply (acted_quiet K fetch aid); try done.
      instantiate (1 := b). instantiate (1 := map (fun i => (i, w_unl w i)) l).
      all: assert (El : map fst (map (fun i => (i, w_unl w i)) l) = l) by (rewrite map_map; apply map_id).
      * split; [by rewrite El|]. intros i u (i' & [= -> ->] & _)%elem_of_list_fmap. done.
      * by rewrite El.
    + rewrite lookup_insert_ne in Hjb by done. eapply (job_step tr w w' (EAct aid a)); try done; try (by intros ?).
      * cbn [w' acted w_n]. by rewrite Hnc.
      * apply (wo_few _ (g_wake _ _ _ Hg)).
      * by apply Hjobs.
      * intros l' b' nmax _ Hlt. by eapply rely_acted.
      * rewrite Esys'. cbn [sy_open]. by rewrite lookup_insert_ne.
      * rewrite Esys'. unfold naids. cbn [sy_tree]. by rewrite E3.
      * rewrite Esys'. cbn [sy_tree]. by rewrite E5.
  - cbn [sy_open]. intros j l' b' Ho. destruct (decide (j = aid)) as [->|Hne].
    + exists c, (k v). by rewrite lookup_insert.
    + rewrite lookup_insert_ne in Ho by done. rewrite lookup_insert_ne by done. apply (Hopen _ l' b'). by rewrite <- Esys.
Qed.

(** A call returns with nothing open. *)
Lemma ginv_leave tr y jobs w c p aid r : ginv tr (FSys y jobs) w -> calm (tr ++ [EReturn aid c r]) ->
  jobs !! aid = Some (Running c p) -> hold aid [] false w ->
  (r = RPrepD None \/ exists v f, r = RLookup v f) ->
  exists w', ginv (tr ++ [EReturn aid c r]) (FSys (Sys (end_op (sy_tree y) aid) (delete aid (sy_open y))) (delete aid jobs)) w' /\ onward (EReturn aid c r) w w' /\ w_wake w' = w_wake w.
Proof.
  intros Hi Hc Hj Hh Hr. pose proof Hi as [Hg Esys Eh En Ep Hjobs Hopen]. cbn [fs_sys fs_jobs] in *.
  assert (Hnc : ncalls (tr ++ [EReturn aid c r]) = ncalls tr) by (rewrite ncalls_app, ncalls_one; cbn [is_ecall]; lia).
  pose proof (g_inv _ _ _ Hg) as Hinv. destruct Hh as [Ho _]. simpl in Ho.
  set (h' := Hist (h_map (w_hist w)) (delete aid (h_pend (w_hist w))) (h_susp (w_hist w)) (h_nsusp (w_hist w)) (h_off (w_hist w))).
  assert (Eh' : freplay (tr ++ [EReturn aid c r]) = h').
  { rewrite freplay_snoc, <- Eh. destruct Hr as [->|(v & f & ->)]; done. }
  pose proof (inv_leave _ _ _ _ _ _ _ _ Hinv Ho) as Hi'. fold h' in Hi'.
  set (y' := Sys (end_op (w_tree w) aid) (delete aid (sy_open (w_sys w)))) in *.
  set (w' := World y' h' (w_trie w) (w_lost w) (w_unl w) (w_n w) (w_past w ++ [(h', w_trie w)]) (w_wake w)).
  assert (Hg' : good w').
  { split; cbn [w' w_sys w_hist w_trie w_lost w_unl w_n w_past w_wake]; try done; try apply Hg.
    - by rewrite last_snoc.
    - apply Forall_app. split; [apply Hg|]. apply Forall_singleton. split; [apply Hi'|]. eexists. apply Hi'.
    - intros i. cbn [y' sy_tree sy_open end_op set_resv t_locks]. rewrite (g_locks _ _ _ Hg i). f_equal. apply bool_decide_ext.
      rewrite (held_delete _ _ _ Ho). done.
    - intros j key op x Hop H2 H3. eapply (slot_kept K fetch y'); try done. cbn [y' sy_open] in Hop.
      apply lookup_delete_Some in Hop as [_ Hop]. by eapply (g_256 _ _ _ Hg).
    - destruct (g_wake _ _ _ Hg) as [W1 W2 W3 W4 W5]. split; cbn [w' w_sys w_trie w_unl w_n w_wake y' sy_open]; try done.
      + intros i Hin. destruct (W1 i Hin) as [W6 W7]. split; [|done]. by rewrite (held_delete _ _ _ Ho) in W6.
      + intros Hr'. pose proof (W2 Hr') as W6. by rewrite (rootops_delete _ _ _ Ho) in W6. }
  assert (Hrel : forall j nmax, aid <> j -> w_n w' < nmax -> rely j nmax w w').
  { intros j nmax Hne Hlt. apply rely_same; try done; cbn [w' w_sys w_hist y' sy_open sy_tree end_op set_resv t_resv h' h_pend].
    - by rewrite lookup_delete_ne.
    - by rewrite list_lookup_insert_ne.
    - by rewrite lookup_delete_ne. }
  exists w'. rewrite <- Esys. split; [|split; [intros j l b nmax Hne _ Hlt; by apply Hrel|done]].
  split; cbn [fs_sys fs_jobs w' w_sys w_hist w_n w_past]; try done.
  - by rewrite Hnc.
  - rewrite <- Eh'. by apply past_snoc.
  - intros j jb Hjb. apply lookup_delete_Some in Hjb as [Hne Hjb].
    eapply (job_step tr w w' (EReturn aid c r)); try done; try (by intros ?).
    + by rewrite Hnc.
    + apply (wo_few _ (g_wake _ _ _ Hg)).
    + by apply Hjobs.
    + intros l b nmax _ Hlt. by apply Hrel.
    + cbn [w' w_sys y' sy_open]. by rewrite lookup_delete_ne.
  - cbn [y' sy_open]. intros j l b Hj'. apply lookup_delete_Some in Hj' as [Hne Hj']. rewrite lookup_delete_ne by done.
    apply (Hopen _ l b). by rewrite <- Esys.
Qed.

(** PrepareUpdate or PrepareDelete returns with an operation open. *)
Lemma ginv_open tr y jobs w c p0 aid r hd L b p : ginv tr (FSys y jobs) w -> calm (tr ++ [EReturn aid c r]) ->
  jobs !! aid = Some (Running c p0) -> hold aid L b w -> map fst L = olids hd -> b = oroot hd -> (forall l b, hd <> HP l b) ->
  h_pend (w_hist w) !! aid = Some p -> hok K fetch (w_tree w) (w_trie w) aid p hd ->
  (forall key op x, hd = HD key op -> is_del256 op = true -> d_leafPtr op = PSlot x -> was_slot (w_past w) x) ->
  freplay (tr ++ [EReturn aid c r]) = freplay tr ->
  exists w', ginv (tr ++ [EReturn aid c r]) (FSys (Sys (sy_tree y) (<[aid := hd]> (sy_open y))) (delete aid jobs)) w' /\ onward (EReturn aid c r) w w' /\ w_wake w' = w_wake w.
Proof.
  intros Hi Hc Hj [Ho _] HL Hb Hnp Hp Hok H256 Hf. pose proof Hi as [Hg Esys Eh En Ep Hjobs Hopen]. cbn [fs_sys fs_jobs] in *.
  assert (Hnc : ncalls (tr ++ [EReturn aid c r]) = ncalls tr) by (rewrite ncalls_app, ncalls_one; cbn [is_ecall]; lia).
  pose proof (g_inv _ _ _ Hg) as Hinv. rewrite HL, Hb in Ho.
  set (y' := Sys (w_tree w) (<[aid := hd]> (sy_open (w_sys w)))).
  assert (Hi' : inv K fetch y' (w_hist w) (w_n w) (w_trie w) (w_lost w)).
  { eapply inv_swap; try done.
    - pose proof (iv_locks _ _ _ _ _ _ _ Hinv) as Hl. eapply locks_inv_perm; [|exact Hl]. by rewrite (held_delete _ _ _ Ho).
    - pose proof (iv_rl _ _ _ _ _ _ _ Hinv) as Hl. by rewrite (rootops_delete _ _ _ Ho) in Hl.
    - pose proof (iv_rl1 _ _ _ _ _ _ _ Hinv) as Hl. by rewrite (rootops_delete _ _ _ Ho) in Hl. }
  set (w' := World y' (w_hist w) (w_trie w) (w_lost w) (w_unl w) (w_n w) (w_past w ++ [(w_hist w, w_trie w)]) (w_wake w)).
  assert (Hg' : good w').
  { split; cbn [w' w_sys w_hist w_trie w_lost w_unl w_n w_past w_wake]; try done; try apply Hg.
    - by rewrite last_snoc.
    - apply Forall_app. split; [apply Hg|]. apply Forall_singleton. by apply good_snap.
    - intros i. cbn [y' sy_tree sy_open]. rewrite (g_locks _ _ _ Hg i). f_equal. apply bool_decide_ext.
      rewrite (held_delete _ _ _ Ho). rewrite <- insert_delete_insert. rewrite held_insert by apply lookup_delete. done.
    - intros j key op x Hop H2 H3. eapply (slot_kept K fetch y'); try done. cbn [y' sy_open] in Hop.
      destruct (decide (j = aid)) as [->|Hne].
      + rewrite lookup_insert in Hop. injection Hop as ->. by eapply H256.
      + rewrite lookup_insert_ne in Hop by done. by eapply (g_256 _ _ _ Hg).
    - destruct (g_wake _ _ _ Hg) as [W1 W2 W3 W4 W5]. split; cbn [w' w_sys w_trie w_unl w_n w_wake y' sy_open]; try done.
      + intros i Hin. destruct (W1 i Hin) as [W6 W7]. split; [|done]. rewrite <- insert_delete_insert. rewrite held_insert by apply lookup_delete.
        by rewrite (held_delete _ _ _ Ho) in W6.
      + intros Hr'. pose proof (W2 Hr') as W6. rewrite <- insert_delete_insert, rootops_insert by apply lookup_delete.
        by rewrite (rootops_delete _ _ _ Ho) in W6. }
  assert (Hrel : forall j nmax, aid <> j -> w_n w' < nmax -> rely j nmax w w').
  { intros j nmax Hne Hlt. apply rely_same; try done. cbn [w' w_sys y' sy_open]. by rewrite lookup_insert_ne. }
  exists w'. rewrite <- Esys. split; [|split; [intros j l b' nmax Hne _ Hlt; by apply Hrel|done]].
  split; cbn [fs_sys fs_jobs w' w_sys w_hist w_n w_past]; try done.
  - by rewrite Hf.
  - by rewrite Hnc.
  - rewrite Eh, <- Hf. by apply past_snoc.
  - intros j jb Hjb. apply lookup_delete_Some in Hjb as [Hne Hjb].
    eapply (job_step tr w w' (EReturn aid c r)); try done; try (by intros ?).
    + by rewrite Hnc.
    + apply (wo_few _ (g_wake _ _ _ Hg)).
    + by apply Hjobs.
    + intros l b' nmax _ Hlt. by apply Hrel.
    + cbn [w' w_sys y' sy_open]. by rewrite lookup_insert_ne.
  - cbn [y' sy_open]. intros j l b' Hj'. destruct (decide (j = aid)) as [->|Hne].
    + rewrite lookup_insert in Hj'. injection Hj' as ->. by destruct (Hnp l b').
    + rewrite lookup_insert_ne in Hj' by done. rewrite lookup_delete_ne by done. apply (Hopen _ l b'). by rewrite <- Esys.
Qed.

(** The call does not return with a delete that takes one lock word for two nodes, or no other client has written since
    the call began. *)
Definition returns_well (tr : list event) (aid : nat) (o : outcome) : Prop :=
  forall op, o = OPrepD (Some op) -> ~ clash op \/ forall p, h_pend (freplay tr) !! aid = Some p -> p_over p = false.

Lemma ginv_return_well tr y jobs w c aid o : ginv tr (FSys y jobs) w -> calm (tr ++ [EReturn aid c (returned o)]) ->
  jobs !! aid = Some (Running c (Ret o)) -> returns_well tr aid o ->
  exists w', ginv (tr ++ [EReturn aid c (returned o)]) (FSys (return_to aid c o y) (delete aid jobs)) w' /\ onward (EReturn aid c (returned o)) w w' /\ w_wake w' = w_wake w.
Proof.
  intros Hi Hc Hj Hu. destruct (gi_jobs _ _ _ Hi _ _ Hj) as (Hja & Hk & tr1 & tr2 & e & ns & Hdu & Hat & Hb & Hok).
  pose proof (Hok w (rtc_refl _ _)) as Hp. destruct c as [a key|a key|? ? ? ?|?|a key|?|?|?|? ? ?], o as [v f|f op|r]; try done; simpl in Hp.
  - destruct Hp as (_ & Hfree & _). eapply ginv_leave; try done; [|right; eauto]. split; [done|]. by intros i u ?%elem_of_nil.
  - destruct Hp as (_ & (L & b & Hh & HL & Hbb) & (p & Hpe & Hhok) & _). cbn [fst snd] in *.
    eapply ginv_open; try done. by rewrite freplay_snoc.
  - destruct Hp as (_ & Hp). destruct r as [op|].
    + destruct Hp as ((L & b & Hh & HL & Hbb) & Hcl & _ & H256 & _).
      destruct Hcl as (p & Hpe & Hhok). { destruct (Hu op eq_refl) as [?|Hx]; [by left|right]. destruct (ba_pend _ _ _ _ _ _ _ _ _ Hb) as (p & Hpe & _). exists p. split; [done|].
        apply Hx. by rewrite <- (gi_hist _ _ _ Hi). }
      cbn [return_to job_key]. eapply ginv_open; try done.
      * intros key' op' x [= <- <-]. apply H256.
      * by rewrite freplay_snoc.
    + destruct Hp as [Hh _]. eapply ginv_leave; try done. by left.
Qed.

Lemma unshared_well tr aid c o y : unshared (return_to aid c o y) -> returns_well tr aid o.
Proof. intros Hu op ->. left. apply (Hu aid (job_key c)). cbn [return_to sy_open]. apply lookup_insert. Qed.

Lemma ginv_return tr y jobs w c aid o : ginv tr (FSys y jobs) w -> calm (tr ++ [EReturn aid c (returned o)]) ->
  jobs !! aid = Some (Running c (Ret o)) -> unshared (return_to aid c o y) ->
  exists w', ginv (tr ++ [EReturn aid c (returned o)]) (FSys (return_to aid c o y) (delete aid jobs)) w' /\ onward (EReturn aid c (returned o)) w w' /\ w_wake w' = w_wake w.
Proof. intros Hi Hc Hj Hu. eapply ginv_return_well; try done. by eapply unshared_well. Qed.

(** ** All histories *)

Lemma ginv_step tr x w e x' : w_wake w = no_wake false -> ginv tr x w -> fstep K fetch x e x' -> unshared (fs_sys x') -> ncalls (tr ++ [e]) < maxUint64 -> calm (tr ++ [e]) ->
  exists w', ginv (tr ++ [e]) x' w' /\ onward e w w' /\ w_wake w' = w_wake w.
Proof.
  intros Hw Hg Hs Hu Hn Hc. assert (Hcw : calm_wake w) by (unfold calm_wake; rewrite Hw; done).
  destruct Hs as [y y' jobs c r H1 H2 H3 H4|y jobs c aid H1 H2 H3|y jobs c aid e H1|y jobs c aid a k hd v s' H1 H2 H3|y jobs c aid H1|y jobs c aid o H1].
  + assert (is_restart c \/ ~ is_restart c) as [Hre|Hre] by (destruct c; simpl; tauto).
    * rewrite (H2 Hre) in *. by eapply ginv_restart.
    * by eapply ginv_call.
  + by eapply ginv_begin.
  + by eapply ginv_resv.
  + eapply ginv_act; try done. rewrite lact_plain by (by rewrite Hw). by rewrite (gi_sys _ _ _ Hg).
  + by eapply ginv_again.
  + by eapply ginv_return.
Qed.

Lemma ginv_init few n : ginv [] (finit n) (World (init n) h0 None 0 (fun _ => 0) 0 [(h0, None)] (no_wake few)).
Proof.
  pose proof (inv_init K fetch n) as Hi. split; try done.
  split; cbn [w_sys w_hist w_trie w_lost w_unl w_n w_past]; try done.
  - apply Forall_singleton. split; [apply Hi|]. eexists. apply Hi.
  - split; cbn [w_sys w_trie w_unl w_n w_wake no_wake wk_ids]; try done; [by intros i ?%elem_of_nil|by apply late_nil].
Qed.

Lemma fruns_inv_as n tr x : fruns K fetch unshared n tr x -> ncalls tr < maxUint64 -> calm tr -> exists w, ginv tr x w /\ w_wake w = no_wake false.
Proof.
  intros Hr. induction Hr as [_|tr x e x' Hr IH Hs Hu]; intros Hn Hc.
  - eexists. split; [apply (ginv_init false)|done].
  - destruct IH as [w [Hg Hw]]; [rewrite ncalls_app in Hn; lia|by eapply calm_prefix|].
    destruct (ginv_step _ _ _ _ _ Hw Hg Hs Hu Hn Hc) as (w' & ? & _ & E). exists w'. by rewrite E.
Qed.

Theorem fruns_inv n tr x : fruns K fetch unshared n tr x -> ncalls tr < maxUint64 -> calm tr -> exists w, ginv tr x w.
Proof. intros Hr Hn Hc. destruct (fruns_inv_as n tr x Hr Hn Hc) as (w & Hg & _). by exists w. Qed.

(** ** Compact trees *)

Lemma calm_small tr : ncalls tr < 2 ^ 31 -> calm tr.
Proof.
  intros Hn tr1 e tr2 tr3 aid -> _ _. replace (tr1 ++ e :: tr2 ++ tr3) with (tr1 ++ [e] ++ tr2 ++ tr3) in Hn by done.
  rewrite !ncalls_app in Hn. lia.
Qed.

(** As long as all node memory handed out is in the first 4096 words of its block, no two nodes share a lock word. *)
Lemma compact_step tr x w e x' : ginv tr x w -> unshared (fs_sys x) -> fstep K fetch x e x' -> compact (fs_sys x') -> unshared (fs_sys x').
Proof.
  intros Hg Hu Hs Hcm.
  destruct Hs as [y y' jobs c r H1 H2 H3 H4|y jobs c aid H1 H2 H3|y jobs c aid e H1|y jobs c aid a k hd v s' H1 H2 H3|y jobs c aid H1|y jobs c aid o H1]; cbn [fs_sys fs_jobs] in *; try done.
  + intros aid key op Ho. assert (is_restart c \/ ~ is_restart c) as [Hre|Hre] by (destruct c; simpl; tauto).
    * exfalso. destruct c as [| | | | | | | |pack unpack order]; try done. unfold api in H4. destruct (new_tree_from_state _ _) as [[s1 z]| |?]; try done. by injection H4 as _ <-.
    * destruct (api_moves _ _ _ _ H1 Hre H4) as (_ & _ & [(_ & E & _)|(aid' & hd & _ & _ & _ & E & _)]); rewrite E in Ho.
      -- by eapply Hu.
      -- apply lookup_delete_Some in Ho as [_ Ho]. by eapply Hu.
  + intros j key op Ho. cbn [sy_open] in Ho. destruct (decide (j = aid)) as [->|Hne]; [by rewrite lookup_insert in Ho|].
    rewrite lookup_insert_ne in Ho by done. by eapply Hu.
  + intros j key op Ho. cbn [sy_open] in Ho. destruct (decide (j = aid)) as [->|Hne].
    * rewrite lookup_insert in Ho. injection Ho as Ho. pose proof (gi_jobs _ _ _ Hg _ _ H1) as (_ & _ & tr1 & tr2 & e & ns & _ & _ & Hb & _).
      destruct (j_mine _ _ _ _ _ _ _ (ba_J _ _ _ _ _ _ _ _ _ Hb)) as [(l & b & Hop) _]. rewrite (gi_sys _ _ _ Hg) in Hop. cbn [fs_sys] in Hop. rewrite Hop in H2.
      injection H2 as <-. by destruct a; simpl in Ho; try destruct (v =? 0).
    * rewrite lookup_insert_ne in Ho by done. by eapply Hu.
  + intros j key op Ho. destruct (gi_jobs _ _ _ Hg _ _ H1) as (Hja & Hk & tr1 & tr2 & e & ns & Hdu & Hat & Hb & Hok).
    pose proof (Hok w (rtc_refl _ _)) as Hp. unfold return_to in Ho, Hcm. destruct o as [v f|f op1|[op1|]]; cbn [sy_open] in Ho.
    * apply lookup_delete_Some in Ho as [_ Ho]. by eapply Hu.
    * destruct (decide (j = aid)) as [->|Hne]; [by rewrite lookup_insert in Ho|]. rewrite lookup_insert_ne in Ho by done. by eapply Hu.
    * destruct (decide (j = aid)) as [->|Hne].
      -- rewrite lookup_insert in Ho. injection Ho as _ <-. destruct c; try done. simpl in Hp. destruct Hp as (_ & _ & _ & _ & _ & Hp). apply Hp.
         rewrite (gi_sys _ _ _ Hg). exact Hcm.
      -- rewrite lookup_insert_ne in Ho by done. by eapply Hu.
    * apply lookup_delete_Some in Ho as [_ Ho]. by eapply Hu.
Qed.

Theorem compact_unshared n tr x : fruns K fetch compact n tr x -> ncalls tr < 2 ^ 31 -> fruns K fetch unshared n tr x.
Proof.
  intros Hr. induction Hr as [_|tr x e x' Hr IH Hs Hcm]; intros Hn.
  - constructor. intros aid key op. cbn [init sy_open]. by rewrite lookup_empty.
  - assert (Hn' : ncalls tr < 2 ^ 31) by (rewrite ncalls_app in Hn; lia). specialize (IH Hn').
    econstructor; [exact IH|exact Hs|]. destruct (fruns_inv n tr x IH) as [w Hg]; [rewrite maxUint64_val; lia|by apply calm_small|].
    eapply compact_step; [exact Hg| |exact Hs|done]. by destruct IH.
Qed.
End FineTop.
