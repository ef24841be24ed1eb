(** * StepSim: a history in which one Finalize or Abort at a time is in progress looks to the other clients like one in which it
    is a single step (FineRun.v), taken where it links its change into the tree. *)
From Verif Require Export StepEarly StepPlace.

(** The Finalize or Abort has changed the tree: its next access is one of those that come after that. *)
Definition late (p : wprog reply) : Prop :=
  match p with
  | WDo (WUnlock _ | WUnlockRoot | WEpoch | WKeep _ _ _ _ | WTick | WFlush _ | WItems _ _ | WEnd _) _ => True
  | _ => False
  end.

(** The access uses a lock of the operation. *)
Definition touches (a : act) (hd : handle) : Prop :=
  match a with
  | AGen i | ACas i _ | ABack i => i ∈ olids hd
  | ARootCas | ARootBack => oroot hd = true
  | _ => False
  end.

(** While it gives its locks back no other client reads or writes these. *)
Definition hands_off (x : wsys) (e : wevent) : Prop :=
  match e with
  | WF (EAct _ a) => forall aid c p hd, ws_fin x !! aid = Some (c, p) -> late p ->
      sy_open (fs_sys (ws_f x)) !! aid = Some hd -> ~ touches a hd
  | _ => True
  end.

(** ** The history of single steps *)

(** A call stores its reservation immediately after it has loaded the epoch. *)
Definition ge (x : wevent * option (call * reply)) : list event :=
  match x.1 with WF (EBegin _) => [] | WF (EResv c) => [EBegin c; EResv c] | WF e => [e] | _ => [] end ++
  match x.2 with Some (c, r) => [ECall c r] | None => [] end.
Definition gt (l : marked) : list event := concat (map ge l).

Lemma gt_snoc l x : gt (l ++ [x]) = gt l ++ ge x.
Proof. unfold gt. rewrite map_app, concat_app. simpl. by rewrite app_nil_r. Qed.
Lemma gt_app l l' : gt (l ++ l') = gt l ++ gt l'.
Proof. unfold gt. by rewrite map_app, concat_app. Qed.

Lemma freplay_app tr tr' : freplay (tr ++ tr') = fold_left fhstep tr' (freplay tr).
Proof. unfold freplay. by rewrite fold_left_app. Qed.

Lemma lreplay_gt l : lreplay l = freplay (gt l).
Proof.
  induction l as [|x l IH] using rev_ind; [done|]. unfold lreplay. rewrite fold_left_app. fold (lreplay l). rewrite gt_snoc, freplay_app, <- IH.
  destruct x as [[e|c|a b|a c r] [[c' r']|]]; cbn [fold_left lstep ge fst snd app]; try done; destruct e; done.
Qed.

Lemma wcalls_app tr tr' : wcalls (tr ++ tr') = wcalls tr + wcalls tr'.
Proof. unfold wcalls. rewrite filter_app, app_length. lia. Qed.
Lemma wcalls_one e : wcalls [e] = if is_wcall e then 1 else 0.
Proof. unfold wcalls. by destruct e as [[]| | |]. Qed.

Definition owed (st : option (call * option reply)) : N := match st with Some (_, None) => 1 | _ => 0 end.

Lemma placed_calls l st : placed l st -> ncalls (gt l) + owed st <= wcalls (map fst l).
Proof.
  induction 1 as [|l st e H IH|l c H IH|l c r H IH|l c o aid a H IH Hc|l c r aid a H IH Hc|l c r aid H IH Hc];
    try (rewrite gt_snoc, map_app, wcalls_app, ncalls_app; cbn [map fst]; rewrite wcalls_one; unfold ge; cbn [fst snd app owed is_wcall] in *); try (by vm_compute);
    rewrite ?ncalls_one; cbn [is_ecall]; change (ncalls []) with 0; try lia.
  destruct e; rewrite ?app_nil_r; try rewrite ncalls_one; cbn [is_ecall]; change (ncalls []) with 0; try lia.
  change (ncalls [EBegin c; EResv c]) with 0. lia.
Qed.

(** Marks stand at steps of Finalize and Abort. *)
Lemma placed_marks l st : placed l st -> forall e o, (WF e, o) ∈ l -> o = None.
Proof.
  induction 1 as [|l st e H IH|l c H IH|l c r H IH|l c o aid a H IH Hc|l c r aid a H IH Hc|l c r aid H IH Hc]; intros e' o' Hin; [by apply elem_of_nil in Hin|..];
    apply elem_of_app in Hin as [Hin|Hin%elem_of_list_singleton]; try (by apply (IH e')); congruence.
Qed.

(** ** Steps of other clients and the reservations *)

Lemma do_act_erase s a : do_act (erase s) a = rmap (fun '(v, s1) => (v, erase s1)) (do_act s a).
Proof.
  destruct a as [[|x]|node|i|i g|i| |]; try done; unfold do_act.
  - unfold node_data. change (t_nextFreeBlock (erase s)) with (t_nextFreeBlock s). destruct (_ <=? _); [done|]. by destruct (_ <=? _).
  - change (t_locks (erase s)) with (t_locks s). by destruct (lock_cas _ _ _ _).
  - change (t_rootLock (erase s)) with (t_rootLock s). by destruct (_ =? _).
Qed.

Lemma do_act_env s a v s1 : do_act s a = Ok (v, s1) -> (forall l rl, env s1 l rl = env s l rl) /\ t_resv s1 = t_resv s.
Proof.
  destruct a as [p|node|i|i g|i| |]; unfold do_act.
  - by intros [= <- <-].
  - destruct (node_data s node); try done. by intros [= <- <-].
  - by intros [= <- <-].
  - destruct (lock_cas _ _ _ _); by intros [= <- <-].
  - by intros [= <- <-].
  - destruct (_ =? _); by intros [= <- <-].
  - by intros [= <- <-].
Qed.

Lemma er_Ok {A} (r : res (A * tree)) a s : er r = Ok (a, s) -> exists s1, r = Ok (a, s1) /\ erase s1 = s.
Proof. destruct r as [[a1 s1]| | |]; try done. intros [= <- <-]. by exists s1. Qed.

Section Sim.
Context (K : list N -> Prop) (fetch : N -> list N) (HK : universe K).
Local Notation ginv := (ginv K fetch).

(** ** The relation between the two histories *)

(** [Y]: the tree and the operations of the history; [y]: of the one of single steps; [us], [ur]: the locks that a Finalize
    that has taken effect has yet to give back, in this order, and whether the root lock is one of them. *)
Definition mode (us : list N) (ur : bool) (Y y : sys) (fin : gmap nat (call * wprog reply)) (st : option (call * option reply)) : Prop :=
  match st with
  | None => fin = ∅ /\ erase (sy_tree Y) = erase (sy_tree y) /\ sy_open Y = sy_open y
  | Some (c, None) => exists aid hd p L F, fin = {[aid := (c, p)]} /\ fin_client c = Some aid /\ sy_open y !! aid = Some hd /\
      sy_open Y = sy_open y /\ proper K fetch y c /\ fin_size hd <> recyclerLen /\
      let n := length (t_resv (sy_tree y)) in early_ok n aid (uorder c hd) (oroot hd) (fin_prog n hd c) (sy_tree y) (sy_tree Y) p L F
  | Some (c, Some r) => exists aid hd p b, fin = {[aid := (c, p)]} /\ fin_client c = Some aid /\ sy_open y !! aid = None /\
      sy_open Y = <[aid := hd]> (sy_open y) /\ (forall l b, hd <> HP l b) /\
      ph (length (t_resv (sy_tree y))) aid (uorder c hd) (oroot hd) (PB b us ur) p after /\ er (wexec p (sy_tree Y)) = Ok (r, erase (sy_tree y)) /\
      (b = true -> t_epoch (sy_tree Y) < maxUint64) /\ (forall i, i ∈ us -> i ∈ olids hd) /\ (ur = true -> oroot hd = true)
  end.

(** The locks yet to be given back, as the calls of other clients see them: they have been given back in [y] but not in [Y].  Without
    [wk_few] the other clients do not look. *)
Definition wakes (k : wake) (us : list N) (ur : bool) (Y y : sys) (st : option (call * option reply)) : Prop :=
  match st with Some (_, Some _) => True | _ => us = [] /\ ur = false end /\
  if wk_few k then wk_ids k = us /\ wk_root k = ur /\ NoDup us /\
    (forall i, i ∈ us -> lget (t_locks (sy_tree Y)) i = gen_dec (lget (t_locks (sy_tree y)) i)) /\ (ur = true -> t_rootLock (sy_tree Y) = 1)
  else wk_ids k = [] /\ wk_root k = false.

Lemma wakes_idle k us ur Y y st : wakes k us ur Y y st -> us = [] -> ur = false -> wk_ids k = [] /\ wk_root k = false.
Proof. intros [_ H] -> ->. destruct (wk_few k); [|done]. by destruct H as (-> & -> & _). Qed.

Lemma wakes_locks k us ur Y y Y' y' st : wakes k us ur Y y st ->
  (forall i, i ∈ us -> lget (t_locks (sy_tree Y')) i = lget (t_locks (sy_tree Y)) i /\ lget (t_locks (sy_tree y')) i = lget (t_locks (sy_tree y)) i) ->
  (ur = true -> t_rootLock (sy_tree Y') = t_rootLock (sy_tree Y)) -> wakes k us ur Y' y' st.
Proof.
  intros [H0 H] H1 H2. split; [done|]. destruct (wk_few k); [|done]. destruct H as (A1 & A2 & A3 & A4 & A5). split_and!; try done.
  - intros i Hi. destruct (H1 i Hi) as [-> ->]. by apply A4.
  - intros Hu. rewrite H2 by done. by apply A5.
Qed.

(** Nothing is to be given back. *)
Lemma wakes_none k Y y Y' y' st st' : wakes k [] false Y y st -> wakes k [] false Y' y' st'.
Proof.
  intros [_ H]. split; [by destruct st' as [[? []]|]|]. destruct (wk_few k); [|done]. destruct H as (A1 & A2 & _). split_and!; try done.
  - apply NoDup_nil_2.
  - by intros i ?%elem_of_nil.
Qed.

(** The access does not use these locks. *)
Definition spare (a : act) (us : list N) (ur : bool) : Prop :=
  match a with AGen i | ACas i _ | ABack i => i ∉ us | ARootCas | ARootBack => ur = false | _ => True end.

Lemma spare_dec a us ur : spare a us ur \/ ~ spare a us ur.
Proof. destruct a; cbn [spare]; try (by left); try (destruct (decide (i ∈ us)); tauto); destruct ur; auto. Qed.

Lemma spare_keeps s a v s1 us ur : do_act s a = Ok (v, s1) -> spare a us ur ->
  (forall i, i ∈ us -> lget (t_locks s1) i = lget (t_locks s) i) /\ (ur = true -> t_rootLock s1 = t_rootLock s).
Proof.
  destruct a as [p|node|i|i g|i| |]; cbn [do_act spare].
  - by intros [= <- <-].
  - destruct (node_data s node); try done. by intros [= <- <-].
  - by intros [= <- <-].
  - unfold lock_cas. destruct (_ =? _); intros [= <- <-] Hi; [|done]. split; [|done]. intros j Hj. apply lget_mset_ne. congruence.
  - intros [= <- <-] Hi. split; [|done]. intros j Hj. apply lget_mset_ne. congruence.
  - destruct (_ =? _); intros [= <- <-] Hi; [|done]. split; [done|]. congruence.
  - intros [= <- <-] Hi. split; [done|]. congruence.
Qed.

Record links (J : gmap nat job) (Y y : sys) (G : gmap nat job) : Prop := {
  lk_jobs : forall j, G !! j = match J !! j with Some (Running c p) => Some (Running c p) | _ => None end;
  lk_wait : forall j c e, J !! j = Some (Waiting c e) -> job_of c = Some j /\ call_key_ok K c /\ (j < length (t_resv (sy_tree y)))%nat /\
    sy_open Y !! j = None /\ e <= t_epoch (sy_tree y);
  lk_resv : Forall2 N.le (t_resv (sy_tree Y)) (t_resv (sy_tree y))
}.

(** [few]: whether the other clients see the locks that are yet to be given back; then no delete takes one lock word for two nodes. *)
Definition simw (few : bool) (l : marked) (X : wsys) (st : option (call * option reply)) (w : world) : Prop :=
  exists y G us ur, ginv (gt l) (FSys y G) w /\ links (fs_jobs (ws_f X)) (fs_sys (ws_f X)) y G /\ mode us ur (fs_sys (ws_f X)) y (ws_fin X) st /\
    wakes (w_wake w) us ur (fs_sys (ws_f X)) y st /\ w_few w = few /\ (few = true -> unshared (fs_sys (ws_f X))) /\
    forall aid p, h_pend (freplay (gt l)) !! aid = Some p -> bytes (p_key p) /\ p_key p <> [].
Definition sim (few : bool) (l : marked) (X : wsys) (st : option (call * option reply)) : Prop := exists w, simw few l X st w.

(** What steps mean for a call in progress whose client makes none of them. *)
Definition onwards (es : list event) (w w' : world) : Prop :=
  forall j l b, Forall (fun e => ~ by_client j e) es -> sy_open (w_sys w) !! j = Some (HP l b) -> rtc (rely K fetch j maxUint64) w w'.

Lemma onwards_refl es w : onwards es w w.
Proof. intros j l b _ _. apply rtc_refl. Qed.

Lemma onwards_one tr x e w w' : ginv tr x w' -> onward K fetch e w w' -> onwards [e] w w'.
Proof.
  intros Hg Ho j l b Hb Hj. apply Forall_cons in Hb as [Hb _]. apply rtc_once. eapply Ho; try done. apply (gi_good _ _ _ _ _ Hg).
Qed.

Lemma onwards_two es es' w w1 w' : onwards es w w1 -> onwards es' w1 w' -> onwards (es ++ es') w w'.
Proof.
  intros H1 H2 j l b Hb Hj. apply Forall_app in Hb as [Hb1 Hb2]. pose proof (H1 j l b Hb1 Hj) as Hr. etrans; [exact Hr|]. apply (H2 j l b); [done|].
  clear H1 H2 Hb1 Hb2. induction Hr as [|w w1 w2 Hr _ IH]; [done|]. apply IH. by rewrite (r_open _ _ _ _ _ _ Hr).
Qed.

Lemma erase_fields s s' : erase s = erase s' ->
  t_mem s = t_mem s' /\ t_locks s = t_locks s' /\ t_nextFreeBlock s = t_nextFreeBlock s' /\ t_root s = t_root s' /\ t_rootLock s = t_rootLock s' /\
  t_epoch s = t_epoch s' /\ t_allocs s = t_allocs s' /\ t_live s = t_live s'.
Proof. destruct s, s'. unfold erase, set_resv. simpl. intros [=]. by subst. Qed.

(** The rest of phase B. *)
Lemma mode_rest us ur Y y fin c r aid hd p b : ph (length (t_resv (sy_tree y))) aid (uorder c hd) (oroot hd) (PB b us ur) p after ->
  er (wexec p (sy_tree Y)) = Ok (r, erase (sy_tree y)) -> mode us ur Y y fin (Some (c, Some r)) ->
  exists s2, wexec p (sy_tree Y) = Ok (r, s2) /\ erase s2 = erase (sy_tree y) /\ rest b us ur (sy_tree Y) s2.
Proof.
  intros Hp He _. apply er_Ok in He as (s2 & E & Es). exists s2. split_and!; try done. by eapply pb_wexec.
Qed.

Lemma inv_ginv tr y G w : ginv tr (FSys y G) w -> inv K fetch y (freplay tr) (ncalls tr) (w_trie w) (w_lost w) /\ ncalls tr < maxUint64.
Proof.
  intros Hg. pose proof (gi_good _ _ _ _ _ Hg) as Hgd. pose proof (g_inv _ _ _ Hgd) as Hi. rewrite (gi_sys _ _ _ _ _ Hg), (gi_hist _ _ _ _ _ Hg), (gi_n _ _ _ _ _ Hg) in Hi.
  split; [done|]. rewrite <- (gi_n _ _ _ _ _ Hg). apply Hgd.
Qed.

(** What readers and beginning calls use. *)
Lemma mode_epoch tr us ur Y y G w fin st : ginv tr (FSys y G) w -> mode us ur Y y fin st ->
  t_epoch (sy_tree Y) <= t_epoch (sy_tree y) /\ length (t_allocs (sy_tree Y)) = length (t_allocs (sy_tree y)).
Proof.
  intros Hg Hm. destruct st as [[c [r|]]|].
  - pose proof Hm as (aid & hd & p & b & _ & _ & _ & _ & _ & Hp & He & Hb & Hsub). destruct (mode_rest _ _ _ _ _ _ _ _ _ _ _ Hp He Hm) as (s2 & _ & Es & Hr).
    apply erase_fields in Es as (_ & _ & _ & _ & _ & E6 & E7 & _). rewrite <- E6, <- E7. split; [|symmetry; apply Hr].
    destruct (re_epoch _ _ _ _ _ Hr) as [->|[Hbt ->]]; [done|]. specialize (Hb Hbt). rewrite maxUint64_val in Hb. unfold u64. rewrite N.mod_small by lia. lia.
  - destruct Hm as (aid & hd & p & L & F & _ & _ & _ & _ & _ & _ & He). rewrite (ea_epoch _ _ _ _ _ _ _ _ _ _ He). split; [done|]. apply He.
  - destruct Hm as (_ & Es & _). apply erase_fields in Es as (_ & _ & _ & _ & _ & E6 & E7 & _). by rewrite E6, E7.
Qed.

(** The open operations are the same, but for the one of the Finalize that has taken effect. *)
Lemma mode_open us ur Y y fin st j : mode us ur Y y fin st -> sy_open Y !! j = sy_open y !! j \/
  (exists c r aid p hd, st = Some (c, Some r) /\ fin = {[aid := (c, p)]} /\ sy_open Y !! aid = Some hd /\ (forall l b, hd <> HP l b) /\ sy_open y !! aid = None /\ j = aid).
Proof.
  intros Hm. destruct st as [[c [r|]]|].
  - destruct Hm as (aid & hd & p & b & Hf & _ & Hn & Ho & Hnp & _). destruct (decide (j = aid)) as [->|Hne].
    + right. exists c, r, aid, p, hd. rewrite Ho, lookup_insert. done.
    + left. by rewrite Ho, lookup_insert_ne.
  - left. destruct Hm as (aid & hd & p & L & F & _ & _ & _ & -> & _). done.
  - left. by destruct Hm as (_ & _ & ->).
Qed.

Lemma proper_fin y y' c aid : fin_client c = Some aid -> sy_open y' !! aid = sy_open y !! aid -> proper K fetch y c -> proper K fetch y' c.
Proof. intros Hc Ho. destruct c; try done; injection Hc as ->; cbn [proper]; by rewrite Ho. Qed.

Lemma proper_kind y c aid hd : fin_client c = Some aid -> sy_open y !! aid = Some hd -> proper K fetch y c ->
  match c, hd with CFinU _ _ _ _, HU _ _ | CAbortU _, HU _ _ | CFinD _, HD _ _ | CAbortD _, HD _ _ => True | _, _ => False end.
Proof.
  intros Hc Ho. destruct c; try done; injection Hc as ->; cbn [proper]; rewrite Ho.
  - intros (f & op & [= ->] & _). done.
  - by intros (f & op & [= ->]).
  - by intros (op & [= ->]).
  - by intros (key & op & [= ->] & _).
Qed.

Lemma kind_noHP c hd l b : match c, hd with CFinU _ _ _ _, HU _ _ | CAbortU _, HU _ _ | CFinD _, HD _ _ | CAbortD _, HD _ _ => True | _, _ => False end -> hd <> HP l b.
Proof. by destruct c, hd. Qed.

(** ** A call of another client starts, returns or ends *)

Lemma mode_turn us ur Y y fin st j R R' O o : mode us ur Y y fin st ->
  (forall aid c p, fin !! aid = Some (c, p) -> aid <> j) ->
  (forall i, i <> j -> O !! i = sy_open Y !! i) -> (forall i, i <> j -> o !! i = sy_open y !! i) -> O !! j = o !! j ->
  length R = length (t_resv (sy_tree y)) ->
  (forall i r, R !! i = Some r -> t_resv (sy_tree y) !! i = Some r \/ t_epoch (sy_tree y) <= r) ->
  mode us ur (Sys (set_resv (sy_tree Y) R') O) (Sys (set_resv (sy_tree y) R) o) fin st.
Proof.
  intros Hm Hj HO Ho Hoj HR HRr. destruct st as [[c [r|]]|].
  - destruct Hm as (aid & hd & p & b & -> & Hc & Hn & HoY & Hnp & Hp & He & Hb & Hsub). assert (aid <> j) as Hne by (eapply Hj; apply lookup_singleton).
    exists aid, hd, p, b. cbn [sy_tree sy_open set_resv t_resv t_epoch]. split_and!; try done; try apply Hsub.
    + by rewrite Ho.
    + apply map_eq. intros i. destruct (decide (i = aid)) as [->|Hia]; [rewrite lookup_insert, HO, HoY by done; apply lookup_insert|]. rewrite lookup_insert_ne by done.
      destruct (decide (i = j)) as [->|Hij]; [done|]. by rewrite HO, Ho, HoY, lookup_insert_ne by done.
    + by rewrite HR.
    + apply pb_noscan in Hp. change (erase (set_resv (sy_tree y) R)) with (erase (sy_tree y)). rewrite <- He, <- !wexec_erase by done. done.
  - destruct Hm as (aid & hd & p & L & F & -> & Hc & Hn & HoY & Hp & Hfs & He). assert (aid <> j) as Hne by (eapply Hj; apply lookup_singleton).
    exists aid, hd, p, L, F. cbn [sy_tree sy_open set_resv t_resv]. split_and!; try done.
    + by rewrite Ho.
    + apply map_eq. intros i. destruct (decide (i = j)) as [->|Hij]; [done|]. by rewrite HO, Ho, HoY.
    + eapply proper_fin; [done| |done]. by apply Ho.
    + rewrite HR. cbv zeta. eapply early_env; try done; apply He.
  - destruct Hm as (-> & Es & HoY). split_and!; [done|exact Es|]. cbn [sy_open]. apply map_eq. intros i. destruct (decide (i = j)) as [->|Hij]; [done|]. by rewrite HO, Ho, HoY.
Qed.

(** ** An access of another client *)

Lemma mode_load tr y G w us ur Y fin st j : ginv tr (FSys y G) w -> mode us ur Y y fin st ->
  t_root (sy_tree Y) = t_root (sy_tree y) /\ t_nextFreeBlock (sy_tree y) <= t_nextFreeBlock (sy_tree Y) /\
  forall x, act_safe j (ALoad (PSlot x)) w -> mget (t_mem (sy_tree Y)) x = mget (t_mem (sy_tree y)) x.
Proof.
  intros Hg Hm. destruct st as [[c [r|]]|].
  - pose proof Hm as (aid & hd & p & b & _ & _ & _ & _ & _ & Hp & He & Hb & Hsub). destruct (mode_rest _ _ _ _ _ _ _ _ _ _ _ Hp He Hm) as (s2 & _ & Es & Hr).
    apply erase_fields in Es as (E1 & _ & E3 & E4 & _). rewrite <- E4, <- E3, <- E1. rewrite (re_root _ _ _ _ _ Hr), (re_nfb _ _ _ _ _ Hr), (re_mem _ _ _ _ _ Hr). done.
  - destruct Hm as (aid & hd & p & L & F & _ & _ & _ & _ & _ & _ & He). split_and!; [apply He|apply He|]. intros x Hx. apply He.
    destruct Hx as [->|(e & [_ Hmine] & Hs)].
    + destruct (ea_alloc _ _ _ _ _ _ _ _ _ _ He) as [L0 Ha]. intros Hx. assert (0 ∈ cover (F ++ L0)) as Hx2 by (rewrite cover_app; apply elem_of_app; by left).
      pose proof (live_pos _ _ _ Ha Hx2). lia.
    + rewrite (gi_sys _ _ _ _ _ Hg) in Hmine, Hs. cbn [fs_sys] in *. apply (ea_safe _ _ _ _ _ _ _ _ _ _ He e x); [|done]. right. by eapply elem_of_list_lookup_2.
  - destruct Hm as (_ & Es & _). apply erase_fields in Es as (E1 & _ & E3 & E4 & _). by rewrite E1, E3, E4.
Qed.

(** One that does not use the locks yet to be given back. *)
Lemma mode_act_spare tr y G w us ur Y fin st j a v s1 hd' : ginv tr (FSys y G) w -> mode us ur Y y fin st -> act_safe j a w ->
  do_act (sy_tree y) a = Ok (v, s1) -> (forall aid c p, fin !! aid = Some (c, p) -> aid <> j) ->
  (forall aid c p, fin !! aid = Some (c, p) -> late p -> spare a us ur) ->
  exists S1, do_act (sy_tree Y) a = Ok (v, S1) /\ t_resv S1 = t_resv (sy_tree Y) /\ t_resv s1 = t_resv (sy_tree y) /\ t_epoch s1 = t_epoch (sy_tree y) /\
    mode us ur (Sys S1 (<[j := hd']> (sy_open Y))) (Sys s1 (<[j := hd']> (sy_open y))) fin st.
Proof.
  intros Hg Hm Hsafe Hd Hj Hlate. destruct (do_act_env _ _ _ _ Hd) as [Eenv Eresv]. pose proof (mode_load _ _ _ _ _ _ _ _ _ j Hg Hm) as (Lroot & Lblk & Lmem).
  assert (Eep : t_epoch s1 = t_epoch (sy_tree y)) by (exact (f_equal t_epoch (Eenv mempty 0))).
  (* the handles *)
  assert (Hturn : forall S1, do_act (sy_tree Y) a = Ok (v, S1) -> t_resv S1 = t_resv (sy_tree Y) ->
    mode us ur (Sys S1 (sy_open Y)) (Sys s1 (sy_open y)) fin st -> 
    exists S1, do_act (sy_tree Y) a = Ok (v, S1) /\ t_resv S1 = t_resv (sy_tree Y) /\ t_resv s1 = t_resv (sy_tree y) /\ t_epoch s1 = t_epoch (sy_tree y) /\
    mode us ur (Sys S1 (<[j := hd']> (sy_open Y))) (Sys s1 (<[j := hd']> (sy_open y))) fin st).
  { intros S1 H1 H2 H3. exists S1. split_and!; try done.
    pose proof (mode_turn _ _ _ _ _ _ j (t_resv s1) (t_resv S1) (<[j := hd']> (sy_open Y)) (<[j := hd']> (sy_open y)) H3 Hj) as Ht.
    cbn [sy_tree sy_open] in Ht. replace (set_resv S1 (t_resv S1)) with S1 in Ht by (by destruct S1). replace (set_resv s1 (t_resv s1)) with s1 in Ht by (by destruct s1).
    apply Ht; [intros i Hi; by rewrite lookup_insert_ne|intros i Hi; by rewrite lookup_insert_ne|by rewrite !lookup_insert|done|intros i r Hr; by left]. }
  (* states that agree *)
  assert (Hsame : erase (sy_tree Y) = erase (sy_tree y) -> exists S1, do_act (sy_tree Y) a = Ok (v, S1) /\ erase S1 = erase s1).
  { intros Es. pose proof (do_act_erase (sy_tree Y) a) as H1. rewrite Es, do_act_erase, Hd in H1. cbn [rmap bind] in H1.
    apply (er_Ok (do_act (sy_tree Y) a)). symmetry. exact H1. }
  assert (Hresv : forall S1, do_act (sy_tree Y) a = Ok (v, S1) -> t_resv S1 = t_resv (sy_tree Y)) by (intros S1 H; by apply do_act_env in H as [_ ?]).
  destruct st as [[c [r|]]|].
  - pose proof Hm as (aid & hd & p & b & -> & Hc & Hn & HoY & Hnp & Hp & He & Hb & Hsub). destruct (mode_rest _ _ _ _ _ _ _ _ _ _ _ Hp He Hm) as (s2 & Ew & Es & Hr).
    assert (HoY2 : sy_open Y !! aid = Some hd) by (rewrite HoY; apply lookup_insert).
    pose proof (erase_fields _ _ Es) as (E1 & E2 & E3 & E4 & E5 & E6 & E7 & E8).
    assert (Hfin : forall S1 s2', do_act (sy_tree Y) a = Ok (v, S1) -> wexec p S1 = Ok (r, s2') -> erase s2' = erase s1 ->
      exists S1, do_act (sy_tree Y) a = Ok (v, S1) /\ t_resv S1 = t_resv (sy_tree Y) /\ t_resv s1 = t_resv (sy_tree y) /\ t_epoch s1 = t_epoch (sy_tree y) /\
      mode us ur (Sys S1 (<[j := hd']> (sy_open Y))) (Sys s1 (<[j := hd']> (sy_open y))) {[aid := (c, p)]} (Some (c, Some r))).
    { intros S1 s2' H1 H2 H3. apply (Hturn S1); [done|by apply Hresv|]. exists aid, hd, p, b. cbn [sy_tree sy_open]. split_and!; try done; try apply Hsub.
      - by rewrite Eresv.
      - rewrite H2. cbn [er rmap bind]. by rewrite H3.
      - intros Hbt. apply do_act_env in H1 as [H1 _]. assert (t_epoch S1 = t_epoch (sy_tree Y)) as -> by (exact (f_equal t_epoch (H1 mempty 0))). by apply Hb. }
    destruct p as [r0|e|a0 k0].
    + cbn [wexec] in Ew. injection Ew as -> <-. destruct (Hsame Es) as (S1 & H1 & H2). by apply (Hfin S1 S1).
    + done.
    + assert (Hnt : spare a us ur).
      { eapply Hlate; [apply lookup_singleton|]. cbn [ph] in Hp. destruct a0; cbn [ph_act] in Hp; try done. }
      remember (WDo a0 k0) as p eqn:Ep. clear Ep.
      destruct a as [q|node|i|i g|i| |]; cbn [spare] in Hnt; cbn [do_act] in Hd.
      * injection Hd as <- <-. apply (Hfin (sy_tree Y) s2); [|done|done]. cbn [do_act]. destruct q as [|x]; cbn [pget]; [by rewrite Lroot|by rewrite Lmem].
      * destruct (node_data (sy_tree y) node) as [d| | |] eqn:En; try done. injection Hd as <- <-. apply (Hfin (sy_tree Y) s2); [|done|done]. cbn [do_act].
        unfold node_data in En |- *. rewrite <- E3, (re_nfb _ _ _ _ _ Hr) in En. by rewrite En.
      * injection Hd as <- <-. apply (Hfin (sy_tree Y) s2); [|done|done]. cbn [do_act]. rewrite <- E2. by rewrite (re_locks _ _ _ _ _ Hr).
      * unfold lock_cas in Hd. rewrite <- E2, (re_locks _ _ _ _ _ Hr) in Hd by done.
        destruct (lget (t_locks (sy_tree Y)) i =? g) eqn:Eg.
        -- injection Hd as <- <-. apply (Hfin (set_lock i (gen_inc g) (sy_tree Y)) (set_lock i (gen_inc g) s2)).
           ++ cbn [do_act]. unfold lock_cas. rewrite Eg. done.
           ++ rewrite (pb_lock _ _ _ _ _ _ _ _ _ _ _ _ Hnt Hp), Ew. done.
           ++ unfold set_lock. rewrite E2. exact (f_equal (fun s => set_locks s (mset (t_locks (sy_tree y)) i (gen_inc g))) Es).
        -- injection Hd as <- <-. apply (Hfin (sy_tree Y) s2); [|done|done]. cbn [do_act]. unfold lock_cas. by rewrite Eg.
      * injection Hd as <- <-. set (g := gen_dec (lget (t_locks (sy_tree Y)) i)).
        apply (Hfin (set_lock i g (sy_tree Y)) (set_lock i g s2)).
        -- cbn [do_act]. unfold g, set_lock. done.
        -- rewrite (pb_lock _ _ _ _ _ _ _ _ _ _ _ _ Hnt Hp), Ew. done.
        -- unfold set_lock, g. rewrite E2, <- (re_locks _ _ _ _ _ Hr), E2 by done.
           exact (f_equal (fun s => set_locks s (mset (t_locks (sy_tree y)) i (gen_dec (lget (t_locks (sy_tree y)) i)))) Es).
      * pose proof Hnt as Hrt. rewrite <- E5, (re_rl _ _ _ _ _ Hr Hrt) in Hd.
        destruct (t_rootLock (sy_tree Y) =? 0) eqn:Eg.
        -- injection Hd as <- <-. apply (Hfin (set_rootLock (sy_tree Y) 1) (set_rootLock s2 1)); [cbn [do_act]; by rewrite Eg| |].
           ++ rewrite (pb_root _ _ _ _ _ _ _ _ _ _ _ Hrt Hp), Ew. done.
           ++ exact (f_equal (fun s => set_rootLock s 1) Es).
        -- injection Hd as <- <-. apply (Hfin (sy_tree Y) s2); [|done|done]. cbn [do_act]. by rewrite Eg.
      * pose proof Hnt as Hrt. injection Hd as <- <-.
        apply (Hfin (set_rootLock (sy_tree Y) (gen_dec (t_rootLock (sy_tree Y)))) (set_rootLock s2 (gen_dec (t_rootLock (sy_tree Y))))); [done| |].
        -- rewrite (pb_root _ _ _ _ _ _ _ _ _ _ _ Hrt Hp), Ew. done.
        -- unfold unlock_root. rewrite <- E5, (re_rl _ _ _ _ _ Hr Hrt). exact (f_equal (fun s => set_rootLock s (gen_dec (t_rootLock (sy_tree Y)))) Es).
  - destruct Hm as (aid & hd & p & L & F & -> & Hc & Hn & HoY & Hp & Hfs & He).
    assert (Hfin : forall S1, do_act (sy_tree Y) a = Ok (v, S1) -> t_locks S1 = t_locks s1 -> t_rootLock S1 = t_rootLock s1 ->
      exists S1, do_act (sy_tree Y) a = Ok (v, S1) /\ t_resv S1 = t_resv (sy_tree Y) /\ t_resv s1 = t_resv (sy_tree y) /\ t_epoch s1 = t_epoch (sy_tree y) /\
      mode us ur (Sys S1 (<[j := hd']> (sy_open Y))) (Sys s1 (<[j := hd']> (sy_open y))) {[aid := (c, p)]} (Some (c, None))).
    { intros S1 H1 H2 H3. apply (Hturn S1); [done|by apply Hresv|]. exists aid, hd, p, L, F. cbn [sy_tree sy_open]. split_and!; try done.
      - by apply (proper_fin y _ _ aid).
      - rewrite Eresv. cbv zeta. eapply early_env; try done.
        + intros l rl. by apply do_act_env in H1 as [H1 _].
        + by rewrite Eresv.
        + rewrite Eresv. intros i r Hr. by left. }
    pose proof (ea_locks _ _ _ _ _ _ _ _ _ _ He) as El. pose proof (ea_rl _ _ _ _ _ _ _ _ _ _ He) as Er.
    destruct a as [q|node|i|i g|i| |]; cbn [do_act] in Hd.
    + injection Hd as <- <-. apply (Hfin (sy_tree Y)); try done. cbn [do_act]. destruct q as [|x]; cbn [pget]; [by rewrite Lroot|by rewrite Lmem].
    + destruct (node_data (sy_tree y) node) as [d| | |] eqn:En; try done. injection Hd as <- <-. apply (Hfin (sy_tree Y)); try done. cbn [do_act].
      unfold node_data in En |- *. destruct (N.leb_spec maxBlockCount (block_of node)); try done.
      destruct (N.leb_spec (N.max 1 (t_nextFreeBlock (sy_tree y))) (block_of node)); try done. destruct (N.leb_spec (N.max 1 (t_nextFreeBlock (sy_tree Y))) (block_of node)); [lia|].
      done.
    + injection Hd as <- <-. apply (Hfin (sy_tree Y)); try done. cbn [do_act]. by rewrite El.
    + destruct (lock_cas (t_locks (sy_tree y)) i g (gen_inc g)) as [l|] eqn:Eg; injection Hd as <- <-.
      * apply (Hfin (set_locks (sy_tree Y) l)); try done. cbn [do_act]. by rewrite El, Eg.
      * apply (Hfin (sy_tree Y)); try done. cbn [do_act]. by rewrite El, Eg.
    + injection Hd as <- <-. eapply Hfin; [done| |done]. cbn [set_locks t_locks]. by rewrite El.
    + destruct (t_rootLock (sy_tree y) =? 0) eqn:Eg; injection Hd as <- <-.
      * apply (Hfin (set_rootLock (sy_tree Y) 1)); try done. cbn [do_act]. by rewrite Er, Eg.
      * apply (Hfin (sy_tree Y)); try done. cbn [do_act]. by rewrite Er, Eg.
    + injection Hd as <- <-. eapply Hfin; [done|done|]. unfold unlock_root. cbn [set_rootLock t_rootLock]. by rewrite Er.
  - destruct Hm as (-> & Es & HoY). destruct (Hsame Es) as (S1 & H1 & H2). apply (Hturn S1); [done|by apply Hresv|]. done.
Qed.

Lemma lact_spare w us ur Y y st a : w_sys w = y -> wakes (w_wake w) us ur Y y st -> spare a us ur -> lact w a = do_act (sy_tree y) a.
Proof.
  intros <- [_ H] Hs. destruct (w_few w); [|destruct H as [H1 H2]; by apply lact_plain]. destruct H as (<- & <- & _).
  destruct a as [p|node|i|i g|i| |]; cbn [spare lact] in *; try done.
  - unfold lgen. by rewrite bool_decide_false.
  - by rewrite bool_decide_false.
  - by rewrite Hs.
Qed.

Lemma mode_act tr y G w us ur Y fin st j a v s1 hd' l0 b0 : ginv tr (FSys y G) w -> mode us ur Y y fin st -> wakes (w_wake w) us ur Y y st -> act_safe j a w ->
  sy_open y !! j = Some (HP l0 b0) -> act_ok a (HP l0 b0) ->
  lact w a = Ok (v, s1) -> (forall aid c p, fin !! aid = Some (c, p) -> aid <> j) ->
  (w_few w = false -> forall aid c p hd, fin !! aid = Some (c, p) -> late p -> sy_open Y !! aid = Some hd -> ~ touches a hd) ->
  exists S1, do_act (sy_tree Y) a = Ok (v, S1) /\ t_resv S1 = t_resv (sy_tree Y) /\ t_resv s1 = t_resv (sy_tree y) /\ t_epoch s1 = t_epoch (sy_tree y) /\
    mode us ur (Sys S1 (<[j := hd']> (sy_open Y))) (Sys s1 (<[j := hd']> (sy_open y))) fin st /\
    wakes (w_wake w) us ur (Sys S1 (<[j := hd']> (sy_open Y))) (Sys s1 (<[j := hd']> (sy_open y))) st.
Proof.
  intros Hg Hm Hw Hsafe Ho Hok Hd Hj Hlate. pose proof (gi_sys _ _ _ _ _ Hg) as Esys. cbn [fs_sys] in Esys.
  destruct (spare_dec a us ur) as [Hs|Hs].
  { rewrite (lact_spare _ _ _ _ _ _ _ Esys Hw Hs) in Hd.
    destruct (mode_act_spare _ _ _ _ _ _ _ _ _ _ _ _ _ hd' Hg Hm Hsafe Hd Hj) as (S1 & H1 & H2 & H3 & H4 & H5); [done|].
    exists S1. split_and!; try done. destruct (spare_keeps _ _ _ _ _ _ Hd Hs) as [A1 _]. destruct (spare_keeps _ _ _ _ _ _ H1 Hs) as [B1 B2].
    eapply wakes_locks; [done| |done]. intros i Hi. split; [by apply B1|by apply A1]. }
  (* one that does *)
  assert (exists c r, st = Some (c, Some r)) as (c & r & ->).
  { destruct st as [[c [r|]]|]; [by exists c, r|..]; destruct Hw as [[-> ->] _]; exfalso; apply Hs; destruct a; cbn [spare]; try done; apply not_elem_of_nil. }
  pose proof Hm as (aid & hd & p & b & -> & Hc & Hn & HoY & Hnp & Hp & He & Hb & Hsub).
  assert (HoY2 : sy_open Y !! aid = Some hd) by (rewrite HoY; apply lookup_insert).
  assert (Hlp : late p).
  { destruct p as [r0|e|a0 k0]; [|done|].
    - destruct Hp as [b' [= -> -> ->]]. exfalso. apply Hs. destruct a; cbn [spare]; try done; apply not_elem_of_nil.
    - cbn [ph] in Hp. destruct a0; cbn [ph_act] in Hp; try done. }
  pose proof Hw as [_ Hk]. destruct (w_few w) eqn:Efew.
  2:{ exfalso. apply (Hlate eq_refl aid c p hd); [apply lookup_singleton|done..|]. destruct Hsub as [Hs1 Hs2].
      destruct a as [q|node|i|i g|i| |]; cbn [spare touches] in *; try done; try (apply Hs1; destruct (decide (i ∈ us)); tauto); apply Hs2; by destruct ur. }
  destruct Hk as (K1 & K2 & K3 & K4 & K5). pose proof (gi_good _ _ _ _ _ Hg) as Hgd. pose proof (g_wake _ _ _ Hgd) as Hwk.
  assert (Hstay : do_act (sy_tree Y) a = Ok (v, sy_tree Y) -> s1 = sy_tree y -> exists S1, do_act (sy_tree Y) a = Ok (v, S1) /\ t_resv S1 = t_resv (sy_tree Y) /\ t_resv s1 = t_resv (sy_tree y) /\ t_epoch s1 = t_epoch (sy_tree y) /\
    mode us ur (Sys S1 (<[j := hd']> (sy_open Y))) (Sys s1 (<[j := hd']> (sy_open y))) {[aid := (c, p)]} (Some (c, Some r)) /\
    wakes (w_wake w) us ur (Sys S1 (<[j := hd']> (sy_open Y))) (Sys s1 (<[j := hd']> (sy_open y))) (Some (c, Some r))).
  { intros H1 ->. exists (sy_tree Y). split_and!; try done.
    pose proof (mode_turn _ _ _ _ _ _ j (t_resv (sy_tree y)) (t_resv (sy_tree Y)) (<[j := hd']> (sy_open Y)) (<[j := hd']> (sy_open y)) Hm Hj) as Ht.
    replace (set_resv (sy_tree Y) (t_resv (sy_tree Y))) with (sy_tree Y) in Ht by (by destruct (sy_tree Y)).
    replace (set_resv (sy_tree y) (t_resv (sy_tree y))) with (sy_tree y) in Ht by (by destruct (sy_tree y)).
    apply Ht; [intros i Hi; by rewrite lookup_insert_ne|intros i Hi; by rewrite lookup_insert_ne|by rewrite !lookup_insert|done|intros i r' Hr; by left]. }
  assert (Hid : forall i, i ∈ us -> i ∉ held (sy_open y) /\ gen_odd (lget (t_locks (sy_tree Y)) i) = true).
  { intros i Hi. rewrite <- K1 in Hi. pose proof (wo_ids _ Hwk i Hi) as [H1 H2]. rewrite Esys in H1. split; [done|]. rewrite K4 by (by rewrite <- K1).
    pose proof (g_locks _ _ _ Hgd i) as El. rewrite Esys in El. rewrite El, bool_decide_false by done.
    replace (w_unl w i) with (w_unl w i - 1 + 1) by lia. rewrite gen_of_undo. apply gen_of_odd. }
  destruct a as [q|node|i|i g|i| |]; cbn [spare] in Hs; try done; cbn [lact] in Hd.
  - assert (Hi : i ∈ us) by (destruct (decide (i ∈ us)); tauto). injection Hd as <- <-. apply Hstay; [|by rewrite Esys]. cbn [do_act]. unfold lgen.
    rewrite Esys, K1, bool_decide_true by done. by rewrite K4.
  - assert (Hi : i ∈ us) by (destruct (decide (i ∈ us)); tauto). rewrite K1, bool_decide_true in Hd by done. injection Hd as <- <-. apply Hstay; [|by rewrite Esys].
    cbn [do_act]. unfold lock_cas. cbn [act_ok] in Hok. destruct (N.eqb_spec (lget (t_locks (sy_tree Y)) i) g) as [<-|]; [|done].
    destruct (Hid i Hi). congruence.
  - exfalso. assert (Hi : i ∈ us) by (destruct (decide (i ∈ us)); tauto). destruct (Hid i Hi) as [H1 _]. apply H1. cbn [act_ok] in Hok.
    by apply (held_elem _ j (HP l0 b0)).
  - assert (ur = true) as Hu by (by destruct ur). rewrite K2, Hu in Hd. injection Hd as <- <-. apply Hstay; [|by rewrite Esys]. cbn [do_act]. by rewrite K5.
  - exfalso. assert (ur = true) as Hu by (by destruct ur). rewrite <- K2 in Hu. pose proof (wo_root _ Hwk Hu) as H1. rewrite Esys in H1.
    rewrite (rootops_delete _ _ _ Ho) in H1. cbn [act_ok] in Hok. rewrite Hok in H1. lia.
Qed.
End Sim.
