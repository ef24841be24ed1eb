(** * StepLin: the steps of histories in which one Finalize or Abort at a time is in progress, and what such histories mean. *)
From Verif Require Export StepSim.

Section Lin.
Context (K : list N -> Prop) (fetch : N -> list N) (HK : universe K) (few : bool).
Local Notation ginv := (ginv K fetch).
Local Notation mode := (mode K fetch).
Local Notation links := (links K).
Local Notation sim := (sim K fetch few).
Local Notation simw := (simw K fetch few).
Local Notation onwards := (onwards K fetch).

(** ** The step at which a Finalize or Abort takes effect *)

Lemma fin_moves sc tr y G w c aid hd r y' : ginv tr (FSys y G) w -> fin_client c = Some aid -> sy_open y !! aid = Some hd -> proper K fetch y c ->
  api_as sc y c = Ok (r, y') ->
  sy_open y' = delete aid (sy_open y) /\ t_resv (sy_tree y') = <[aid := maxUint64]> (t_resv (sy_tree y)) /\ t_epoch (sy_tree y) <= t_epoch (sy_tree y').
Proof.
  intros Hg Hc Ho Hp Ha. destruct (inv_ginv _ _ _ _ _ _ Hg) as [Hi Hn].
  destruct (api_moves_as sc y c r y') as (_ & He & Hmv); [by destruct c|intros H; by destruct c|done|].
  assert (ecall_aid c = Some aid) as Hec by (by destruct c).
  destruct Hmv as [(E & _)|(aid' & hd' & E & Ho' & Hnp & E1 & E2)]; [congruence|].
  rewrite E in Hec. injection Hec as ->. rewrite Ho in Ho'. injection Ho' as <-. split_and!; [done| |].
  - apply E2. destruct (iv_ops _ _ _ _ _ _ _ Hi _ _ Ho) as (p & _ & Hh). destruct hd as [f op|k op|l b]; [| |by edestruct Hnp]; cbn [hd_alloc]; by destruct Hh as (? & ? & ?).
  - destruct He as [->| ->]; [done|]. pose proof (iv_epoch _ _ _ _ _ _ _ Hi). rewrite maxUint64_val in Hn. unfold u64. rewrite N.mod_small by lia. lia.
Qed.

Lemma effect tr y G w c aid hd L b l0 r0 q S1 k : awake w c k -> ginv tr (FSys y G) w -> fin_client c = Some aid -> sy_open y !! aid = Some hd ->
  proper K fetch y c -> fin_size hd <> recyclerLen ->
  let n := length (t_resv (sy_tree y)) in
  (n + n <= length L)%nat -> scanned (Some (take n L, take n (drop n L))) (sy_tree y) ->
  er (dropL (wexec_as (fin_prog n hd c) (sy_tree y) L)) = er (wexec q S1) -> ph n aid (uorder c hd) (oroot hd) (PB b l0 r0) q after ->
  (forall r, ncalls (tr ++ [ECall c r]) < 2 ^ 31) ->
  exists r y' w', ginv (tr ++ [ECall c r]) (FSys y' G) w' /\ onward K fetch (ECall c r) w w' /\ true_reply (freplay tr) c r /\ er (wexec q S1) = Ok (r, erase (sy_tree y')) /\
    sy_open y' = delete aid (sy_open y) /\ t_resv (sy_tree y') = <[aid := maxUint64]> (t_resv (sy_tree y)) /\ t_epoch (sy_tree y) <= t_epoch (sy_tree y') /\ w_wake w' = k.
Proof.
  intros Hwk Hg Hc Ho Hp Hfs n HL Hsc Eq Hq Hlt. destruct (inv_ginv _ _ _ _ _ _ Hg) as [Hi Hn]. destruct y as [s o]. cbn [sy_tree sy_open] in *.
  rewrite (fin_prog_as s n L HL o c aid hd Ho Hc) in Eq by (by eapply (proper_kind K fetch (Sys s o))).
  pose proof (step_okf_as K fetch HK _ (Sys s o) _ _ _ _ c Hsc Hi Hn Hp) as Hst. pose proof (pb_results _ _ _ _ _ _ _ _ _ S1 Hq) as Hres.
  set (sc := Some (take n L, take n (drop n L))) in *.
  destruct (api_as sc (Sys s o) c) as [[r y']|why| |] eqn:Ha; cbn [rmap bind er] in Eq.
  - pose proof (fin_moves _ _ _ _ _ _ _ _ _ _ Hg Hc Ho Hp Ha) as (E1 & E2 & E3). cbn [sy_tree sy_open] in *.
    assert (true_reply (freplay tr) c r) as Htr. { destruct Hst as (Hrep & _). destruct c, r; try done. }
    destruct (ginv_call_as K fetch HK sc tr (Sys s o) G w c r y' k) as (w' & Hg' & Hon & Ek); try done; [..|by exists r, y', w'].
    + pose proof (Hlt r). rewrite maxUint64_val. lia.
    + by apply calm_small.
    + by destruct c.
    + intros H. by destruct c.
  - exfalso. cbn [step_postf] in Hst. destruct why; try done.
    + destruct Hst as (aid' & hd' & H1 & H2 & H3). assert (aid' = aid) as -> by (destruct c; try done; by injection Hc as ->).
      cbn [sy_open] in H2. rewrite Ho in H2. by injection H2 as <-.
    + destruct (wexec q S1) as [[? ?]|[]| |]; done.
  - by destruct c.
  - done.
Qed.

(** ** Other clients are other than the one whose Finalize is in progress *)

Lemma running_open tr y G w j c p : ginv tr (FSys y G) w -> G !! j = Some (Running c p) -> exists l b, sy_open y !! j = Some (HP l b).
Proof.
  intros Hg Hj. destruct (gi_jobs _ _ _ _ _ Hg _ _ Hj) as (_ & _ & tr1 & tr2 & e & ns & _ & _ & Hb & _).
  destruct (j_mine _ _ _ _ _ _ _ (ba_J _ _ _ _ _ _ _ _ _ Hb)) as [H _]. by rewrite (gi_sys _ _ _ _ _ Hg) in H.
Qed.

Lemma mode_fin us ur Y y fin st aid c p : mode us ur Y y fin st -> fin !! aid = Some (c, p) ->
  (exists hd, sy_open Y !! aid = Some hd) /\ forall l b, sy_open y !! aid <> Some (HP l b).
Proof.
  intros Hm Hf. destruct st as [[c' [r|]]|].
  - destruct Hm as (aid' & hd & p' & b & -> & Hc & Hn & HoY & _). apply lookup_singleton_Some in Hf as [<- _]. rewrite HoY, lookup_insert, Hn. split; [by eexists|done].
  - destruct Hm as (aid' & hd & p' & L & F & -> & Hc & Hn & HoY & Hp & _). apply lookup_singleton_Some in Hf as [<- _]. rewrite HoY, Hn. split; [by eexists|].
    intros l b [= ->]. by eapply kind_noHP; [eapply proper_kind|].
  - destruct Hm as (-> & _). done.
Qed.

Lemma job_not_fin tr y G w J us ur Y fin st j jb : ginv tr (FSys y G) w -> links J Y y G -> mode us ur Y y fin st -> J !! j = Some jb ->
  forall aid c p, fin !! aid = Some (c, p) -> aid <> j.
Proof.
  intros Hg Hl Hm Hj aid c p Hf ->. destruct (mode_fin _ _ _ _ _ _ _ _ _ Hm Hf) as [[hd Ho] Hnp]. destruct jb as [c' e|c' p'].
  - destruct (lk_wait _ _ _ _ _ Hl _ _ _ Hj) as (_ & _ & _ & H & _). congruence.
  - destruct (running_open _ _ _ _ j c' p' Hg) as (l & b & H); [by rewrite (lk_jobs _ _ _ _ _ Hl), Hj|]. by eapply Hnp.
Qed.

Lemma ghost_none us ur Y y fin st j : mode us ur Y y fin st -> sy_open Y !! j = None -> sy_open y !! j = None.
Proof. intros Hm H. destruct (mode_open _ _ _ _ _ _ _ _ j Hm) as [E|(c & r & aid & p & hd & _ & _ & H1 & _ & _ & ->)]; congruence. Qed.

Lemma ghost_some us ur Y y fin st j hd : mode us ur Y y fin st -> sy_open y !! j = Some hd -> sy_open Y !! j = Some hd.
Proof. intros Hm H. destruct (mode_open _ _ _ _ _ _ _ _ j Hm) as [E|(c & r & aid & p & hd' & _ & _ & H1 & _ & H2 & ->)]; congruence. Qed.

(** A call in progress. *)
Lemma links_running tr y G w J Y j c p : ginv tr (FSys y G) w -> links J Y y G -> J !! j = Some (Running c p) -> G !! j = Some (Running c p).
Proof. intros _ Hl Hj. by rewrite (lk_jobs _ _ _ _ _ Hl), Hj. Qed.

(** ** Reservations *)

Lemma le_insert (l l' : list N) i a b : Forall2 N.le l l' -> a <= b -> Forall2 N.le (<[i := a]> l) (<[i := b]> l').
Proof. intros H Hab. by apply Forall2_insert. Qed.

Lemma le_insert_r (l l' : list N) i : Forall2 N.le l l' -> (forall r, l !! i = Some r -> r <= maxUint64) -> Forall2 N.le l (<[i := maxUint64]> l').
Proof.
  intros H Hr. apply Forall2_same_length_lookup_2; [rewrite insert_length; by eapply Forall2_length|]. intros j x z Hx Hz.
  destruct (decide (j = i)) as [->|Hne].
  - apply list_lookup_insert_Some in Hz as [(_ & <- & _)|(? & ? )]; [by apply Hr|done].
  - rewrite list_lookup_insert_ne in Hz by done. by eapply Forall2_lookup_lr.
Qed.

(** ** Keys of open operations *)

Definition pends_ok (h : hist) : Prop := forall aid p, h_pend h !! aid = Some p -> bytes (p_key p) /\ p_key p <> [].

Lemma pends_call h c r : pends_ok h -> job_of c = None -> pends_ok (hstep h (c, r)).
Proof. intros H Hc aid p Hp. apply fin_pends in Hp as [(p' & Hp & ->)|Hp]; [by eapply H|]. by destruct c. Qed.

Lemma pends_resv h c aid : pends_ok h -> job_of c = Some aid -> call_key_ok K c -> pends_ok (fhstep h (EResv c)).
Proof.
  intros H Hc Hk aid' p Hp. cbn [fhstep] in Hp. rewrite Hc in Hp. cbn [h_pend] in Hp.
  apply lookup_insert_Some in Hp as [[<- <-]|[_ Hp]]; [|by eapply H]. cbn [p_key]. destruct c; try done; cbn [call_key_ok job_key] in *.
  split; [by apply (uv_bytes K HK)|by apply (uv_nonempty K HK)].
Qed.

Lemma pends_return h aid c r : pends_ok h -> pends_ok (fhstep h (EReturn aid c r)).
Proof.
  intros H aid' p Hp. apply (H aid' p). destruct r as [v0 f0|f0 v0|[v0|]| | |]; cbn [fhstep h_pend] in Hp; try done; by apply lookup_delete_Some in Hp as [_ ?].
Qed.

Lemma small_max tr : ncalls tr < 2 ^ 31 -> ncalls tr < maxUint64.
Proof. rewrite maxUint64_val. lia. Qed.

Lemma unshared_insert y s aid hd : unshared y -> (forall key op, hd = HD key op -> ~ clash op) -> unshared (Sys s (<[aid := hd]> (sy_open y))).
Proof. intros H Hh i key op Ho. cbn [sy_open] in Ho. apply lookup_insert_Some in Ho as [[_ ->]|[_ Ho]]; [by eapply Hh|by eapply H]. Qed.
Lemma unshared_delete y s aid : unshared y -> unshared (Sys s (delete aid (sy_open y))).
Proof. intros H i key op Ho. cbn [sy_open] in Ho. apply lookup_delete_Some in Ho as [_ Ho]. by eapply H. Qed.

(** ** FlushStats and restarts *)

Lemma flush_erase s aid : flush_stats (erase s) aid = rmap erase (flush_stats s aid).
Proof. unfold flush_stats. change (get_alloc (erase s) aid) with (get_alloc s aid). by destruct (get_alloc s aid). Qed.

Lemma flush_resv s aid s' : flush_stats s aid = Ok s' -> t_resv s' = t_resv s /\ t_epoch s' = t_epoch s.
Proof. unfold flush_stats. destruct (get_alloc s aid); try done. by intros [= <-]. Qed.

Lemma write_erase pack s order : write_state pack (erase s) order = write_state pack s order.
Proof. reflexivity. Qed.

Lemma sim_call l J Y Y' st c r w : simw l (WSys (FSys Y J) ∅) st w -> placed l st ->
  fin_client c = None -> job_of c = None -> (is_restart c -> J = ∅) -> proper K fetch Y c -> api Y c = Ok (r, Y') ->
  ncalls (gt (l ++ [(WF (ECall c r), None)])) < 2 ^ 31 ->
  exists w', simw (l ++ [(WF (ECall c r), None)]) (WSys (FSys Y' J) ∅) st w' /\ onwards [ECall c r] w w'.
Proof.
  intros (y & G & us & ur & Hg & Hl & Hm & Hw & Hfew & Hun & Hk) Hpl Hfc Hjc Hre Hp Ha Hlt. cbn [ws_f ws_fin fs_sys fs_jobs] in *.
  destruct st as [[c' [r'|]]|].
  1: { destruct Hm as (aid & hd & p & b & H & _). symmetry in H. by apply map_non_empty_singleton in H. }
  1: { destruct Hm as (aid & hd & p & L & F & H & _). symmetry in H. by apply map_non_empty_singleton in H. }
  destruct Hm as (_ & Es & Eo). pose proof (erase_fields _ _ Es) as (E1 & E2 & E3 & E4 & E5 & E6 & E7 & E8).
  rewrite gt_snoc in *. unfold ge in *. cbn [fst snd app] in *. destruct Y as [S O], y as [s o]. cbn [sy_tree sy_open] in *. subst o.
  pose proof Hw as [[-> ->] _]. destruct (wakes_idle _ _ _ _ _ _ Hw eq_refl eq_refl) as [Wk1 Wk2].
  assert (Hcw : calm_wake w).
  { split_and!; [done..|]. intros _. rewrite (gi_n _ _ _ _ _ Hg). rewrite ncalls_app, ncalls_one in Hlt. exact Hlt. }
  destruct c as [| | | | | | |aid|pack unpack order]; try done; unfold api in Ha; cbn [sy_tree sy_open] in Ha.
  - pose proof (flush_erase S aid) as H1. rewrite Es, flush_erase in H1. destruct (flush_stats S aid) as [S1| | |] eqn:EF; try done. cbn [bind sy_tree sy_open] in Ha. injection Ha as <- <-.
    destruct (flush_stats s aid) as [s1| | |] eqn:Ef; try done. cbn [rmap bind] in H1.
    assert (erase S1 = erase s1) as H2 by congruence. clear H1.
    destruct (flush_resv _ _ _ EF) as [R1 R2]. destruct (flush_resv _ _ _ Ef) as [r1 r2].
    destruct (ginv_call K fetch HK _ _ _ _ (CFlush aid) RUnit (Sys s1 O) Hcw Hg) as (w' & Hg' & Hon & Ewk); try done.
    + by apply small_max.
    + by apply calm_small.
    + intros [].
    + cbn [proper] in *. unfold naids in *. cbn [sy_tree] in *. by rewrite <- E7.
    + unfold api. cbn [sy_tree sy_open]. by rewrite Ef.
    + exists w'. split; [|by eapply onwards_one]. exists (Sys s1 O), G, [], false. rewrite Ewk, gt_snoc. unfold ge. cbn [fst snd app]. split_and!; try done.
      * destruct Hl as [L1 L2 L3]. split; cbn [sy_tree sy_open fs_sys ws_f fs_jobs] in *; [done| |by rewrite R1, r1]. rewrite r1, r2. done.
      * by eapply wakes_none.
      * rewrite freplay_snoc. by apply pends_call.
  - specialize (Hre I). subst J.
    assert (G = ∅) as ->. { apply map_eq. intros i. rewrite (lk_jobs _ _ _ _ _ Hl), !lookup_empty. done. }
    rewrite <- (write_erase pack S), Es, write_erase in Ha. 
    assert (len S = len s) as El by (unfold len; by rewrite E7, E8). rewrite El in Ha.
    destruct (ginv_restart K fetch HK _ _ _ (CRestart pack unpack order) r Y' Hcw Hg) as (w' & Hg' & Hon & Ewk); try done.
    + by apply small_max.
    + cbn [proper] in *. unfold naids, all_written in *. cbn [sy_tree sy_open] in *. by rewrite <- E7, <- E3, <- E8.
    + exists w'. split; [|by eapply onwards_one]. exists Y', ∅, [], false. rewrite Ewk, gt_snoc. unfold ge. cbn [fst snd app ws_f ws_fin fs_sys fs_jobs]. split_and!; try done.
      * by eapply wakes_none.
      * intros _ aid key op Ho. destruct (new_tree_from_state _ _) as [[? ?]| |]; try done.
        injection Ha as _ <-. cbn [sy_open] in Ho. by rewrite lookup_empty in Ho.
      * rewrite freplay_snoc. by apply pends_call.
Qed.

(** ** Calls of other clients *)

Lemma sim_begin l J Y fin st c aid w : simw l (WSys (FSys Y J) fin) st w -> job_of c = Some aid -> J !! aid = None -> proper K fetch Y c ->
  simw (l ++ [(WF (EBegin c), None)]) (WSys (FSys Y (<[aid := Waiting c (t_epoch (sy_tree Y))]> J)) fin) st w.
Proof.
  intros (y & G & us & ur & Hg & Hl & Hm & Hw & Hfew & Hun & Hk) Hc HJ Hp. cbn [ws_f ws_fin fs_sys fs_jobs] in *.
  destruct (inv_ginv _ _ _ _ _ _ Hg) as [Hi Hn]. destruct (mode_epoch _ _ _ _ _ _ _ _ _ _ _ Hg Hm) as [He Hna].
  exists y, G, us, ur. rewrite gt_snoc. unfold ge. cbn [fst snd app ws_f ws_fin fs_sys fs_jobs]. rewrite app_nil_r. split_and!; try done.
  destruct Hl as [L1 L2 L3]. split; try done.
  - intros j. destruct (decide (j = aid)) as [->|Hne]; [by rewrite L1, HJ, lookup_insert|]. by rewrite L1, lookup_insert_ne.
  - intros j c' e Hj. apply lookup_insert_Some in Hj as [[<- [= <- <-]]|[_ Hj]]; [|by eapply L2].
    rewrite (iv_resv _ _ _ _ _ _ _ Hi), <- Hna. destruct c; try done; injection Hc as ->; destruct Hp as (H1 & H2 & H3); done.
Qed.

Lemma sim_resv l J Y fin st c aid e w : simw l (WSys (FSys Y J) fin) st w -> J !! aid = Some (Waiting c e) -> ncalls (gt l) < 2 ^ 31 ->
  exists w', simw (l ++ [(WF (EResv c), None)])
    (WSys (FSys (Sys (set_resv (sy_tree Y) (<[aid := e]> (t_resv (sy_tree Y)))) (<[aid := HP [] false]> (sy_open Y))) (<[aid := Running c (program_of c)]> J)) fin) st w' /\ onwards [EBegin c; EResv c] w w'.
Proof.
  intros (y & G & us & ur & Hg & Hl & Hm & Hw & Hfew & Hun & Hk) HJ Hlt. cbn [ws_f ws_fin fs_sys fs_jobs] in *.
  destruct (inv_ginv _ _ _ _ _ _ Hg) as [Hi Hn]. destruct (lk_wait _ _ _ _ _ Hl _ _ _ HJ) as (Hc & Hkey & Haid & Ho & He).
  assert (HG : G !! aid = None) by (by rewrite (lk_jobs _ _ _ _ _ Hl), HJ).
  assert (Hp : proper K fetch y c).
  { pose proof (ghost_none _ _ _ _ _ _ _ Hm Ho) as Ho'. rewrite (iv_resv _ _ _ _ _ _ _ Hi) in Haid. destruct c; try done; injection Hc as ->; done. }
  destruct (ginv_begin K fetch _ _ _ _ c aid Hg) as (w1 & Hg1 & Hon1 & Ewk1); try done.
  { apply calm_small. rewrite ncalls_app, ncalls_one. cbn [is_ecall]. lia. }
  destruct (ginv_resv K fetch HK _ _ _ _ c aid (t_epoch (sy_tree y)) Hg1) as (w2 & Hg2 & Hon2 & Ewk2).
  { apply calm_small. rewrite !ncalls_app, !ncalls_one. cbn [is_ecall]. lia. }
  { apply lookup_insert. }
  rewrite insert_insert in Hg2. rewrite <- app_assoc in Hg2. cbn [app] in Hg2.
  exists w2. split; [|change [EBegin c; EResv c] with ([EBegin c] ++ [EResv c]); apply (onwards_two _ _ _ _ _ w1); by eapply onwards_one].
  eexists _, _, us, ur. rewrite Ewk2, Ewk1, gt_snoc. unfold ge. cbn [fst snd app ws_f ws_fin fs_sys fs_jobs]. split_and!; [exact Hg2| | | |done| |].
  - destruct Hl as [L1 L2 L3]. split; cbn [sy_tree sy_open set_resv t_resv t_epoch].
    + intros j. destruct (decide (j = aid)) as [->|Hne]; [by rewrite !lookup_insert|]. by rewrite !lookup_insert_ne, L1.
    + intros j c' e' Hj. apply lookup_insert_Some in Hj as [[_ Hj]|[Hne Hj]]; [done|]. rewrite insert_length, lookup_insert_ne by done. by eapply L2.
    + by apply le_insert.
  - apply (mode_turn _ _ _ _ _ _ _ _ aid); try done.
    + exact (job_not_fin _ _ _ _ _ _ _ _ _ _ _ _ Hg Hl Hm HJ).
    + intros i Hi'. by rewrite lookup_insert_ne.
    + intros i Hi'. by rewrite lookup_insert_ne.
    + by rewrite !lookup_insert.
    + by rewrite insert_length.
    + intros i r Hr. destruct (decide (i = aid)) as [->|Hne].
      * right. apply list_lookup_insert_Some in Hr as [(_ & <- & _)|(? & _)]; [done|done].
      * left. by rewrite list_lookup_insert_ne in Hr.
  - done.
  - intros Hft. by apply unshared_insert; [apply Hun|].
  - change [EBegin c; EResv c] with ([EBegin c] ++ [EResv c]). rewrite app_assoc, !freplay_snoc. cbn [fhstep]. by eapply pends_resv.
Qed.

Lemma sim_act l J Y fin st c aid a k hd v S1 w : simw l (WSys (FSys Y J) fin) st w -> ncalls (gt l) < 2 ^ 31 ->
  J !! aid = Some (Running c (Act a k)) -> sy_open Y !! aid = Some hd -> do_act (sy_tree Y) a = Ok (v, S1) ->
  (few = false -> forall aid c p hd, fin !! aid = Some (c, p) -> late p -> sy_open Y !! aid = Some hd -> ~ touches a hd) ->
  exists w', simw (l ++ [(WF (EAct aid a), None)])
    (WSys (FSys (Sys S1 (<[aid := hp_act hd a v]> (sy_open Y))) (<[aid := Running c (k v)]> J)) fin) st w' /\ onwards [EAct aid a] w w'.
Proof.
  intros (y & G & us & ur & Hg & Hl & Hm & Hw & Hfew & Hun & Hk) Hlt HJ Ho Hd Ht. cbn [ws_f ws_fin fs_sys fs_jobs] in *.
  pose proof (links_running _ _ _ _ _ _ _ _ _ Hg Hl HJ) as HG. destruct (running_open _ _ _ _ _ _ _ Hg HG) as (l0 & b0 & Ho').
  pose proof (ghost_some _ _ _ _ _ _ _ _ Hm Ho') as Ho2. rewrite Ho in Ho2. injection Ho2 as ->.
  destruct (gi_jobs _ _ _ _ _ Hg _ _ HG) as (_ & _ & tr1 & tr2 & e & ns & _ & _ & _ & Hok).
  destruct (Hok w (rtc_refl _ _)) as ([Haok Hsafe] & v' & s1 & Hd' & _).
  assert (Ehd : hdl aid w = HP l0 b0) by (unfold hdl; rewrite (gi_sys _ _ _ _ _ Hg); cbn [fs_sys]; by rewrite Ho'). rewrite Ehd in Haok.
  destruct (mode_act K fetch _ _ _ _ _ _ _ _ _ _ _ _ _ (hp_act (HP l0 b0) a v) _ _ Hg Hm Hw Hsafe Ho' Haok Hd') as (S2 & H1 & H2 & H3 & H4 & H5 & H6); [by eapply job_not_fin|by rewrite Hfew|].
  rewrite Hd in H1. injection H1 as <- <-.
  destruct (ginv_act K fetch _ _ _ _ _ _ _ _ _ _ _ Hg ltac:(apply calm_small; rewrite ncalls_app, ncalls_one; cbn [is_ecall]; lia) HG Ho' Hd') as (w' & Hg' & Hon & Ewk).
  exists w'. split; [|by eapply onwards_one]. eexists _, _, us, ur. rewrite Ewk, gt_snoc. unfold ge. cbn [fst snd app ws_f ws_fin fs_sys fs_jobs]. split_and!; [exact Hg'| |exact H5|exact H6|done| |by rewrite freplay_snoc].
  2:{ intros Hft. apply unshared_insert; [by apply Hun|]. intros key op E. destruct a; cbn [hp_act] in E; try done; by destruct (v =? 0). }
  destruct Hl as [L1 L2 L3]. split; cbn [sy_tree sy_open].
  - intros j. destruct (decide (j = aid)) as [->|Hne]; [by rewrite !lookup_insert|]. by rewrite !lookup_insert_ne, L1.
  - intros j c' e' Hj. apply lookup_insert_Some in Hj as [[_ Hj]|[Hne Hj]]; [done|]. rewrite H3, H4, lookup_insert_ne by done. by eapply L2.
  - by rewrite H2, H3.
Qed.

Lemma sim_again l J Y fin st c aid w : simw l (WSys (FSys Y J) fin) st w -> ncalls (gt l) < 2 ^ 31 ->
  J !! aid = Some (Running c (Stop Again)) ->
  exists w', simw (l ++ [(WF (EAgain aid), None)]) (WSys (FSys Y (<[aid := Running c (program_of c)]> J)) fin) st w' /\ onwards [EAgain aid] w w'.
Proof.
  intros (y & G & us & ur & Hg & Hl & Hm & Hw & Hfew & Hun & Hk) Hlt HJ. cbn [ws_f ws_fin fs_sys fs_jobs] in *.
  pose proof (links_running _ _ _ _ _ _ _ _ _ Hg Hl HJ) as HG.
  destruct (ginv_again K fetch HK _ _ _ _ _ _ Hg ltac:(apply calm_small; rewrite ncalls_app, ncalls_one; cbn [is_ecall]; lia) HG) as (w' & Hg' & Hon & Ewk).
  exists w'. split; [|by eapply onwards_one]. eexists _, _, us, ur. rewrite Ewk, gt_snoc. unfold ge. cbn [fst snd app ws_f ws_fin fs_sys fs_jobs]. split_and!; [exact Hg'| |exact Hm|exact Hw|done|done|by rewrite freplay_snoc].
  destruct Hl as [L1 L2 L3]. split; cbn [sy_tree sy_open]; try done.
  - intros j. destruct (decide (j = aid)) as [->|Hne]; [by rewrite !lookup_insert|]. by rewrite !lookup_insert_ne, L1.
  - intros j c' e' Hj. apply lookup_insert_Some in Hj as [[_ Hj]|[Hne Hj]]; [done|]. by eapply L2.
Qed.

Lemma sim_return l J Y fin st c aid o w : simw l (WSys (FSys Y J) fin) st w -> ncalls (gt l) < 2 ^ 31 ->
  J !! aid = Some (Running c (Ret o)) -> returns_well (gt l) aid o -> (few = true -> forall op, o = OPrepD (Some op) -> ~ clash op) ->
  exists w', simw (l ++ [(WF (EReturn aid c (returned o)), None)]) (WSys (FSys (return_to aid c o Y) (delete aid J)) fin) st w' /\
    onwards [EReturn aid c (returned o)] w w'.
Proof.
  intros (y & G & us & ur & Hg & Hl & Hm & Hw & Hfew & Hun & Hk) Hlt HJ Hu Hcl. cbn [ws_f ws_fin fs_sys fs_jobs] in *.
  destruct (inv_ginv _ _ _ _ _ _ Hg) as [Hi Hn].
  pose proof (links_running _ _ _ _ _ _ _ _ _ Hg Hl HJ) as HG. pose proof (job_not_fin _ _ _ _ _ _ _ _ _ _ _ _ Hg Hl Hm HJ) as Hne.
  assert (exists R R' O' o', return_to aid c o Y = Sys (set_resv (sy_tree Y) R') O' /\ return_to aid c o y = Sys (set_resv (sy_tree y) R) o' /\
    (forall i, i <> aid -> O' !! i = sy_open Y !! i) /\ (forall i, i <> aid -> o' !! i = sy_open y !! i) /\ O' !! aid = o' !! aid /\
    length R = length (t_resv (sy_tree y)) /\ (forall i r, R !! i = Some r -> t_resv (sy_tree y) !! i = Some r \/ t_epoch (sy_tree y) <= r) /\
    Forall2 N.le R' R) as (R & R' & O' & o' & E1 & E2 & A1 & A2 & A3 & A4 & A5 & A6).
  { assert (Hins : forall hd, exists R R' O' o', Sys (sy_tree Y) (<[aid := hd]> (sy_open Y)) = Sys (set_resv (sy_tree Y) R') O' /\
      Sys (sy_tree y) (<[aid := hd]> (sy_open y)) = Sys (set_resv (sy_tree y) R) o' /\
    (forall i, i <> aid -> O' !! i = sy_open Y !! i) /\ (forall i, i <> aid -> o' !! i = sy_open y !! i) /\ O' !! aid = o' !! aid /\
    length R = length (t_resv (sy_tree y)) /\ (forall i r, R !! i = Some r -> t_resv (sy_tree y) !! i = Some r \/ t_epoch (sy_tree y) <= r) /\
    Forall2 N.le R' R).
    { intros hd. exists (t_resv (sy_tree y)), (t_resv (sy_tree Y)), (<[aid := hd]> (sy_open Y)), (<[aid := hd]> (sy_open y)). split_and!; try done.
      - by destruct Y as [[] ?].
      - by destruct y as [[] ?].
      - intros i H. by rewrite lookup_insert_ne.
      - intros i H. by rewrite lookup_insert_ne.
      - by rewrite !lookup_insert.
      - intros i r H. by left.
      - apply Hl. }
    assert (Hdel : exists R R' O' o', Sys (end_op (sy_tree Y) aid) (delete aid (sy_open Y)) = Sys (set_resv (sy_tree Y) R') O' /\
      Sys (end_op (sy_tree y) aid) (delete aid (sy_open y)) = Sys (set_resv (sy_tree y) R) o' /\
    (forall i, i <> aid -> O' !! i = sy_open Y !! i) /\ (forall i, i <> aid -> o' !! i = sy_open y !! i) /\ O' !! aid = o' !! aid /\
    length R = length (t_resv (sy_tree y)) /\ (forall i r, R !! i = Some r -> t_resv (sy_tree y) !! i = Some r \/ t_epoch (sy_tree y) <= r) /\
    Forall2 N.le R' R).
    { eexists _, _, _, _. split_and!; try done.
      - intros i H. by rewrite lookup_delete_ne.
      - intros i H. by rewrite lookup_delete_ne.
      - by rewrite !lookup_delete.
      - by rewrite insert_length.
      - intros i r Hr. destruct (decide (i = aid)) as [->|Hia].
        + right. apply list_lookup_insert_Some in Hr as [(_ & <- & _)|(? & _)]; [|done]. pose proof (iv_epoch _ _ _ _ _ _ _ Hi). lia.
        + left. by rewrite list_lookup_insert_ne in Hr.
      - apply le_insert; [apply Hl|done]. }
    destruct o as [v f|f op|[op|]]; cbn [return_to]; [apply Hdel|apply Hins|apply Hins|apply Hdel]. }
  destruct (ginv_return_well K fetch _ _ _ _ _ _ _ Hg ltac:(apply calm_small; rewrite ncalls_app, ncalls_one; cbn [is_ecall]; lia) HG Hu) as (w' & Hg' & Hon & Ewk).
  exists w'. split; [|by eapply onwards_one]. eexists _, _, us, ur. rewrite Ewk, gt_snoc. unfold ge. cbn [fst snd app ws_f ws_fin fs_sys fs_jobs]. split_and!; [exact Hg'| | | |done| |].
  - destruct Hl as [L1 L2 L3]. rewrite E1, E2. split; cbn [sy_tree sy_open set_resv t_resv t_epoch].
    + intros j. destruct (decide (j = aid)) as [->|Hja]; [by rewrite !lookup_delete|]. by rewrite !lookup_delete_ne, L1.
    + intros j c' e' Hj. apply lookup_delete_Some in Hj as [Hja Hj]. rewrite A1, A4 by done. by eapply L2.
    + done.
  - rewrite E1, E2. by apply (mode_turn _ _ _ _ _ _ _ _ aid).
  - rewrite E1, E2. by eapply wakes_locks.
  - intros Hft. specialize (Hcl Hft). specialize (Hun Hft). destruct o as [v f|f op|[op|]]; cbn [return_to]; try (by apply unshared_delete); apply unshared_insert; try done.
    intros key op' [= _ <-]. by apply Hcl.
  - rewrite freplay_snoc. by apply pends_return.
Qed.

(** A call that has taken no lock ends, whatever is left of it. *)
Lemma sim_leave l J Y fin st c aid q v f w : simw l (WSys (FSys Y J) fin) st w -> ncalls (gt l) < 2 ^ 31 ->
  J !! aid = Some (Running c q) -> hold aid [] false w ->
  exists w', simw (l ++ [(WF (EReturn aid c (RLookup v f)), None)]) (WSys (FSys (Sys (end_op (sy_tree Y) aid) (delete aid (sy_open Y))) (delete aid J)) fin) st w' /\
    onwards [EReturn aid c (RLookup v f)] w w'.
Proof.
  intros (y & G & us & ur & Hg & Hl & Hm & Hw & Hfew & Hun & Hk) Hlt HJ Hh. cbn [ws_f ws_fin fs_sys fs_jobs] in *.
  destruct (inv_ginv _ _ _ _ _ _ Hg) as [Hi Hn].
  pose proof (links_running _ _ _ _ _ _ _ _ _ Hg Hl HJ) as HG. pose proof (job_not_fin _ _ _ _ _ _ _ _ _ _ _ _ Hg Hl Hm HJ) as Hne.
  destruct (ginv_leave K fetch _ _ _ _ _ _ _ (RLookup v f) Hg ltac:(apply calm_small; rewrite ncalls_app, ncalls_one; cbn [is_ecall]; lia) HG Hh) as (w' & Hg' & Hon & Ewk); [right; by exists v, f|].
  exists w'. split; [|by eapply onwards_one]. eexists _, _, us, ur. rewrite Ewk, gt_snoc. unfold ge. cbn [fst snd app ws_f ws_fin fs_sys fs_jobs]. split_and!; [exact Hg'| | | |done| |].
  - destruct Hl as [L1 L2 L3]. split; cbn [sy_tree sy_open end_op set_resv t_resv t_epoch].
    + intros j. destruct (decide (j = aid)) as [->|Hja]; [by rewrite !lookup_delete|]. by rewrite !lookup_delete_ne, L1.
    + intros j c' e' Hj. apply lookup_delete_Some in Hj as [Hja Hj]. rewrite insert_length, lookup_delete_ne by done. by eapply L2.
    + by apply le_insert.
  - apply (mode_turn _ _ _ _ _ _ _ _ aid); try done.
    + intros i H. by rewrite lookup_delete_ne.
    + intros i H. by rewrite lookup_delete_ne.
    + by rewrite !lookup_delete.
    + by rewrite insert_length.
    + intros i r Hr. destruct (decide (i = aid)) as [->|Hia].
      * right. apply list_lookup_insert_Some in Hr as [(_ & <- & _)|(? & _)]; [|done]. pose proof (iv_epoch _ _ _ _ _ _ _ Hi). lia.
      * left. by rewrite list_lookup_insert_ne in Hr.
  - by eapply wakes_locks.
  - intros Hft. by apply unshared_delete, Hun.
  - rewrite freplay_snoc. by apply pends_return.
Qed.

(** ** Steps of Finalize and Abort *)

Lemma env_self s : env s (t_locks s) (t_rootLock s) = erase s.
Proof. by destruct s. Qed.

Lemma early_effect n aid U rt p0 s S a k L F v S1 : early_ok n aid U rt p0 s S (WDo a k) L F -> do_wact S a = Ok (v, S1) -> early a ->
  ph n aid U rt (PB true U rt) (k v) after -> er (dropL (wexec_as p0 s (padded n L))) = er (wexec (k v) S1).
Proof.
  intros He Hd Hea Hp. destruct (early_keeps _ _ _ _ Hea Hd) as (K1 & K2 & K3 & K4).
  assert (E : forall p t L, er (dropL (wexec_as p t L)) = dropL (wexec_as (A := reply) p (erase t) L)).
  { intros p t L'. rewrite wexec_as_erase. by destruct (wexec_as p t L') as [[[? ?] ?]| | |]. }
  rewrite E, <- (env_self s). unfold padded. rewrite (ea_prog _ _ _ _ _ _ _ _ _ _ He), wexec_as_do by (by destruct a).
  rewrite do_wact_env by done. rewrite Hd. cbn [rmap bind]. rewrite <- (ea_locks _ _ _ _ _ _ _ _ _ _ He), <- (ea_rl _ _ _ _ _ _ _ _ _ _ He), <- K1, <- K2, env_self.
  apply pb_noscan in Hp. rewrite dropL_noscan by done. by apply wexec_erase.
Qed.

(** A step after the effect: the locks still to be given back afterwards are not changed. *)
Lemma pb_step n aid U rt b l r a (C : phase -> N -> Prop) S v S1 : ph_act n aid U rt (PB b l r) a C -> do_wact S a = Ok (v, S1) ->
  (t_resv S1 = t_resv S \/ t_resv S1 = <[aid := maxUint64]> (t_resv S)) /\
  exists b' l' r', C (PB b' l' r') v /\ (b' = true -> b = true /\ t_epoch S1 = t_epoch S) /\
    (exists l0, l = l0 ++ l') /\ (r' = true -> r = true) /\
    (NoDup l -> forall i, i ∈ l' -> lget (t_locks S1) i = lget (t_locks S) i) /\ (r' = true -> t_rootLock S1 = t_rootLock S).
Proof.
  assert (Hnil : exists l0, l = l0 ++ l) by (by exists []).
  intros H Hd. destruct a as [p|d i w|d pfx|p w|p old new|i|aid' slots m|node|i| | |aid' node slots e| |aid'|aid' d|aid']; try done; cbn [ph_act] in H; unfold do_wact in Hd.
  - destruct H as (l' & -> & H). unfold unlock_word in Hd. destruct (gen_odd _); try done. cbn [bind] in Hd. injection Hd as <- <-. split; [by left|].
    exists b, l', r. split_and!; try done; [by exists [i]|]. intros [Hni _]%NoDup_cons j Hj. cbn [set_locks t_locks]. apply lget_mset_ne. congruence.
  - destruct H as [-> H]. injection Hd as <- <-. split; [by left|]. by exists b, l, false.
  - injection Hd as <- <-. split; [by left|]. by exists b, l, r.
  - unfold keep_node, get_alloc in Hd. destruct (t_allocs S !! aid') as [al|]; try done. cbn [bind] in Hd. injection Hd as <- <-. split; [by left|]. by exists b, l, r.
  - destruct H as [-> H]. injection Hd as <- <-. split; [by left|]. by exists false, l, r.
  - unfold flush_stats, get_alloc in Hd. destruct (t_allocs S !! aid') as [al|]; try done. cbn [bind] in Hd. injection Hd as <- <-. split; [by left|]. by exists b, l, r.
  - unfold add_items, get_alloc in Hd. destruct (t_allocs S !! aid') as [al|]; try done. cbn [bind] in Hd. injection Hd as <- <-. split; [by left|]. by exists b, l, r.
  - destruct H as [-> H]. injection Hd as <- <-. split; [by right|]. by exists b, l, r.
Qed.

Lemma le_insert_l (l l' : list N) i : Forall2 N.le l l' -> (forall z, l' !! i = Some z -> z = maxUint64) -> Forall2 N.le (<[i := maxUint64]> l) l'.
Proof.
  intros H Hr. apply Forall2_same_length_lookup_2; [rewrite insert_length; by eapply Forall2_length|]. intros j x z Hx Hz.
  destruct (decide (j = i)) as [->|Hne].
  - apply list_lookup_insert_Some in Hx as [(_ & <- & _)|(? & ? )]; [by rewrite (Hr _ Hz)|done].
  - rewrite list_lookup_insert_ne in Hx by done. by eapply Forall2_lookup_lr.
Qed.

(** ** The locks it gives back *)

Lemma merge_addrs s T aid q key op : core K fetch s T -> hok K fetch s T aid q (HD key op) -> d_kind op = replaceNodeWithNode ->
  d_node op <> 0 /\ d_child op <> 0.
Proof.
  intros Hc (_ & _ & _ & Hv) Ek. unfold is_del256 in Hv. rewrite Ek in Hv. destruct Hv as (o & Ho & [Hb Hk]). unfold dkind_ok in Hk. rewrite Ek in Hk.
  destruct Hk as (_ & _ & b1 & b2 & cfull & ca & cpfx & cn & Hhs & Eca & _).
  destruct (occ_kid K fetch _ _ _ b2 cfull ca cpfx cn Hc Ho) as (oc & Hoc & Ea & _). { destruct Hhs as [->| ->]; [right; left|left]. }
  rewrite (db_node _ _ Hb), Eca, <- Ea. split; by eapply (occ_nonzero K fetch).
Qed.

Lemma uids3_elem i child node parent : i ∈ uids3 child node parent ->
  i = lock_id child \/ (node <> 0 /\ i = lock_id node) \/ (parent <> 0 /\ (i = lock_id node \/ i = lock_id parent)).
Proof.
  unfold uids3. destruct (N.eqb_spec parent 0) as [E|E].
  - intros [->|[? ->]]%lids2_elem; [by left|right; by left].
  - rewrite !elem_of_app, elem_of_list_singleton. destruct (_ =? _), (_ || _); rewrite ?elem_of_nil, ?elem_of_list_singleton; naive_solver.
Qed.

Lemma lids2_nodup a b : NoDup (lids2 a b).
Proof.
  unfold lids2. destruct (_ =? 0); [apply NoDup_singleton|]. destruct (N.eqb_spec (lock_id b) (lock_id a)); [apply NoDup_singleton|].
  apply NoDup_cons. split; [|apply NoDup_singleton]. by rewrite elem_of_list_singleton.
Qed.

Lemma uids3_nodup child node parent : NoDup (uids3 child node parent).
Proof.
  unfold uids3. destruct (_ =? 0); [apply lids2_nodup|].
  destruct (N.eqb_spec (lock_id node) (lock_id parent)), (N.eqb_spec (lock_id child) (lock_id parent)), (N.eqb_spec (lock_id child) (lock_id node));
    cbn [orb app]; rewrite ?NoDup_cons, ?elem_of_cons, ?elem_of_nil; split_and!; try (apply NoDup_nil_2); naive_solver.
Qed.

Lemma uids3_order child node parent : node <> 0 -> lock_id child <> lock_id node -> (parent <> 0 -> lock_id parent <> lock_id child) ->
  uids3 child node parent = lids3 child node parent.
Proof.
  intros Hn H1 H2. unfold uids3, lids3. destruct (N.eqb_spec parent 0) as [E|E]; [done|]. specialize (H2 E). unfold lids2.
  rewrite (proj2 (N.eqb_neq node 0)), (proj2 (N.eqb_neq (lock_id parent) (lock_id child))), (proj2 (N.eqb_neq (lock_id child) (lock_id parent))),
    (proj2 (N.eqb_neq (lock_id child) (lock_id node))), (proj2 (N.eqb_neq (lock_id node) (lock_id child))) by congruence. cbn [orb].
  destruct (N.eqb_spec (lock_id node) (lock_id parent)) as [E3|E3].
  - rewrite (proj2 (N.eqb_eq (lock_id parent) (lock_id node))) by done. cbn [app]. by rewrite E3.
  - by rewrite (proj2 (N.eqb_neq (lock_id parent) (lock_id node))) by congruence.
Qed.

Lemma uorder_sub y T aid q hd c : core K fetch (sy_tree y) T -> hok K fetch (sy_tree y) T aid q hd -> fin_client c = Some aid -> sy_open y !! aid = Some hd -> proper K fetch y c ->
  forall i, i ∈ uorder c hd -> i ∈ olids hd.
Proof.
  intros Hc Hh Hcl Ho Hp i. destruct c as [| |aid' fk m v|aid'| |aid'|aid'| |]; try done; injection Hcl as ->; cbn [proper] in Hp.
  - destruct Hp as (op & E). rewrite Ho in E. injection E as ->. cbn [uorder olids]. unfold dlids. destruct (d_kind op) eqn:Ek; try done.
    destruct (merge_addrs _ _ _ _ _ _ Hc Hh Ek) as [Hn Hch]. intros [->|[[_ ->]|[? [->| ->]]]]%uids3_elem;
      [by apply lids3_child|by apply lids3_node|by apply lids3_node|by apply lids3_parent].
  - destruct Hp as (key & op & E & Hm). rewrite Ho in E. injection E as ->. cbn [uorder olids]. unfold dlids. destruct (d_kind op) eqn:Ek; try done.
    destruct (merge_addrs _ _ _ _ _ _ Hc Hh Ek) as [Hn Hch]. assert (d_parent op <> 0) as Hpa by (intros H; apply Hm; done).
    intros [->|[[_ ->]|[? [->| ->]]]]%uids3_elem; [by apply lids3_parent|by apply lids3_node|by apply lids3_node|by apply lids3_child].
Qed.

Lemma uorder_nodup c hd : NoDup (olids hd) -> NoDup (uorder c hd).
Proof.
  intros H. destruct c, hd as [? op|? op|? ?]; try done; cbn [uorder olids] in *; destruct (d_kind op); try done; apply uids3_nodup.
Qed.

(** The locks it has yet to give back when it takes effect. *)
Definition waking (w : world) (c : call) (hd : handle) : wake := if few then Wake (uorder c hd) (oroot hd) (w_trie w) true else w_wake w.

Lemma waking_ok tr y G w c aid hd : ginv tr (FSys y G) w -> w_few w = few -> (few = true -> unshared y) -> w_ids w = [] -> wk_root (w_wake w) = false -> ncalls tr + 1 < 2 ^ 31 ->
  fin_client c = Some aid -> sy_open y !! aid = Some hd -> proper K fetch y c -> awake w c (waking w c hd).
Proof.
  intros Hg Hfew Hun H1 H2 Hlt Hc Ho Hp. split_and!; [done|done|intros _; by rewrite (gi_n _ _ _ _ _ Hg)|]. unfold waking. destruct few; [right|by left].
  destruct (inv_ginv _ _ _ _ _ _ Hg) as [Hi _]. destruct (iv_ops _ _ _ _ _ _ _ Hi _ _ Ho) as (q & _ & Hh). pose proof (iv_core _ _ _ _ _ _ _ Hi) as Hco.
  split_and!; try done. exists aid, hd. cbn [wk_ids wk_root]. rewrite (gi_sys _ _ _ _ _ Hg). cbn [fs_sys].
  split_and!; try done; [by eapply uorder_sub|]. intros T' [->|[Hf Hcut]].
  - intros o1 o2 l0 l E A1 A2 A3 A4. left. exists o1. split; [done|apply osame_refl].
  - replace (uorder c hd) with (olids hd).
    { eapply (late_fin K fetch); try done. intros key op ->. by apply (Hun eq_refl aid key). }
    destruct c as [| |aid' fk m v|aid'| |aid'|aid'| |]; try done; cbn [proper] in Hp; injection Hc as ->.
    destruct Hp as (op & E). rewrite Ho in E. injection E as ->. cbn [uorder olids]. unfold dlids. destruct (d_kind op) eqn:Ek; try done.
    destruct (merge_addrs _ _ _ _ _ _ Hco Hh Ek) as [Hn Hch]. pose proof (Hun eq_refl _ _ _ Ho) as Hcl. unfold clash in Hcl. symmetry. apply uids3_order; naive_solver.
Qed.

(** The step at which it takes effect. *)
Lemma sim_effect l e J Y y G w c aid hd p L S1 : ginv (gt l) (FSys y G) w -> links J Y y G -> pends_ok (freplay (gt l)) ->
  w_ids w = [] -> wk_root (w_wake w) = false -> w_few w = few -> (few = true -> unshared Y) ->
  sy_open Y = sy_open y -> fin_client c = Some aid -> sy_open y !! aid = Some hd -> proper K fetch y c -> fin_size hd <> recyclerLen ->
  let n := length (t_resv (sy_tree y)) in
  (n + n <= length L)%nat -> scanned (Some (take n L, take n (drop n L))) (sy_tree y) ->
  er (dropL (wexec_as (fin_prog n hd c) (sy_tree y) L)) = er (wexec p S1) -> ph n aid (uorder c hd) (oroot hd) (PB true (uorder c hd) (oroot hd)) p after ->
  t_resv S1 = t_resv (sy_tree Y) -> t_epoch S1 = t_epoch (sy_tree y) -> t_locks S1 = t_locks (sy_tree y) -> t_rootLock S1 = t_rootLock (sy_tree y) ->
  match e with WF _ => False | _ => True end ->
  (forall r, ncalls (gt (l ++ [(e, Some (c, r))])) < 2 ^ 31) ->
  exists r w', true_reply (lreplay l) c r /\ simw (l ++ [(e, Some (c, r))]) (WSys (FSys (Sys S1 (sy_open Y)) J) {[aid := (c, p)]}) (Some (c, Some r)) w' /\
    onwards [ECall c r] w w'.
Proof.
  intros Hg Hl Hk Hw1 Hw2 Hfew Hun HoY Hc Ho Hp Hfs n HL Hsc Eq Hph Hr Hep Hlk Hrl He Hlt. destruct (inv_ginv _ _ _ _ _ _ Hg) as [Hi Hn].
  assert (Hge : forall r, gt (l ++ [(e, Some (c, r))]) = gt l ++ [ECall c r]) by (intros r; rewrite gt_snoc; unfold ge; cbn [fst snd]; by destruct e).
  assert (Hun' : few = true -> unshared y). { intros Hft i key op Hop. rewrite <- HoY in Hop. by eapply (Hun Hft). }
  assert (Hwk : awake w c (waking w c hd)).
  { eapply waking_ok; try done. specialize (Hlt RUnit). rewrite Hge, ncalls_app, ncalls_one in Hlt. exact Hlt. }
  destruct (effect (gt l) y G w c aid hd L true (uorder c hd) (oroot hd) p S1 _ Hwk Hg Hc Ho Hp Hfs HL Hsc Eq Hph) as (r & y' & w' & Hg' & Hon & E0 & E1 & E2 & E3 & E4 & E5).
  { intros r. rewrite <- Hge. apply Hlt. }
  destruct (iv_ops _ _ _ _ _ _ _ Hi _ _ Ho) as (q & _ & Hh).
  assert (Hsub : forall i, i ∈ uorder c hd -> i ∈ olids hd) by (eapply uorder_sub; try done; apply Hi).
  exists r, w'. split; [by rewrite lreplay_gt|]. split; [|by eapply onwards_one]. exists y', G, (uorder c hd), (oroot hd). rewrite Hge, E5. cbn [ws_f ws_fin fs_sys fs_jobs]. split_and!; [done| | | | | |].
  - destruct Hl as [L1 L2 L3]. split; cbn [sy_tree sy_open].
    + done.
    + intros j c' e' Hj. destruct (L2 _ _ _ Hj) as (A1 & A2 & A3 & A4 & A5). rewrite E3, insert_length. split_and!; try done. lia.
    + rewrite Hr, E3. apply le_insert_r; [done|]. intros z Hz. destruct (Forall2_lookup_l _ _ _ _ _ L3 Hz) as (z' & Hz' & Hle).
      pose proof (iv_busy _ _ _ _ _ _ _ Hi _ _ _ Hz' Ho). pose proof (iv_epoch _ _ _ _ _ _ _ Hi). lia.
  - exists aid, hd, p, true. cbn [sy_tree sy_open]. rewrite E2, E3, insert_length, lookup_delete. split_and!; try done.
    + rewrite HoY. apply map_eq. intros j. destruct (decide (j = aid)) as [->|Hne]; [by rewrite lookup_insert|]. by rewrite lookup_insert_ne, lookup_delete_ne by done.
    + intros l0 b0. eapply kind_noHP. by eapply proper_kind.
    + intros _. rewrite Hep. pose proof (iv_epoch _ _ _ _ _ _ _ Hi). lia.
  - unfold waking. split; [done|]. destruct few; [|by rewrite Hfew]. cbn [wk_few wk_ids wk_root].
    assert (Hnd : NoDup (uorder c hd)).
    { apply uorder_nodup. pose proof (li_nodup _ _ (iv_locks _ _ _ _ _ _ _ Hi)) as Hnd. rewrite (held_delete _ _ _ Ho) in Hnd. by apply NoDup_app in Hnd as (? & _). }
    apply er_Ok in E1 as (s2 & E1 & Es). pose proof (erase_fields _ _ Es) as (_ & Ek & _). split_and!; try done.
    + intros i Hi'. cbn [sy_tree]. rewrite <- Ek, (pb_back _ _ _ _ _ _ _ _ _ _ _ Hph E1 Hnd i Hi'), Hlk.
      pose proof (g_locks _ _ _ (gi_good _ _ _ _ _ Hg) i) as Hgl. rewrite (gi_sys _ _ _ _ _ Hg) in Hgl. cbn [fs_sys] in Hgl.
      rewrite Hgl, bool_decide_true by (eapply held_elem; [done|by apply Hsub]). by rewrite gen_of_next, gen_of_undo.
    + intros Hrt. cbn [sy_tree]. rewrite Hrl, (iv_rl _ _ _ _ _ _ _ Hi). pose proof (rootops_elem _ _ _ Ho Hrt). pose proof (iv_rl1 _ _ _ _ _ _ _ Hi). lia.
  - unfold waking. by destruct few.
  - intros Hft i key op Hop. by eapply (Hun Hft).
  - rewrite freplay_snoc. apply pends_call; [done|]. by destruct c.
Qed.

Lemma scanned_zeros n s : (0 < n)%nat -> scanned (Some (take n (padded n []), take n (drop n (padded n [])))) s.
Proof.
  intros Hn. unfold padded. rewrite app_nil_l, drop_replicate, !take_replicate. split; intros l [= <-] r _; exists 0; (split; [|lia]);
    apply elem_of_replicate; split; try done; lia.
Qed.

Lemma sim_wbegin l J Y st c aid hd w : simw l (WSys (FSys Y J) ∅) st w -> placed l st ->
  fin_client c = Some aid -> sy_open Y !! aid = Some hd -> proper K fetch Y c -> fin_size hd <> 258%nat ->
  (forall o st', placed (l ++ [(WBegin c, o)]) st' -> ncalls (gt (l ++ [(WBegin c, o)])) < 2 ^ 31) ->
  exists o st' w', placed (l ++ [(WBegin c, o)]) st' /\ (forall c' r, o = Some (c', r) -> true_reply (lreplay l) c' r) /\
    simw (l ++ [(WBegin c, o)]) (WSys (FSys Y J) (<[aid := (c, fin_prog (length (t_resv (sy_tree Y))) hd c)]> ∅)) st' w' /\ onwards (ge (WBegin c, o)) w w'.
Proof.
  intros (y & G & us & ur & Hg & Hl & Hm & Hw & Hfew & Hun & Hk) Hpl Hc Ho Hp Hfs Hlt. cbn [ws_f ws_fin fs_sys fs_jobs] in *. rewrite insert_empty.
  destruct st as [[c' [r'|]]|].
  1: { destruct Hm as (aid' & hd' & p & b & H & _). symmetry in H. by apply map_non_empty_singleton in H. }
  1: { destruct Hm as (aid' & hd' & p & L & F & H & _). symmetry in H. by apply map_non_empty_singleton in H. }
  destruct Hm as (_ & Es & Eo). pose proof (erase_fields _ _ Es) as (E1 & E2 & E3 & E4 & E5 & E6 & E7 & E8).
  destruct (inv_ginv _ _ _ _ _ _ Hg) as [Hi Hn]. pose proof Hw as [[-> ->] _]. destruct (wakes_idle _ _ _ _ _ _ Hw eq_refl eq_refl) as [Wk1 Wk2].
  assert (length (t_resv (sy_tree Y)) = length (t_resv (sy_tree y))) as -> by (eapply Forall2_length, Hl). rewrite Eo in Ho.
  assert (Hp' : proper K fetch y c) by (eapply proper_fin; [done| |exact Hp]; by rewrite Eo).
  destruct (iv_ops _ _ _ _ _ _ _ Hi _ _ Ho) as (q & _ & Hh).
  pose proof (fin_phase K fetch HK (length (t_resv (sy_tree y))) aid y (w_trie w) q hd c (iv_core _ _ _ _ _ _ _ Hi) Hh Ho Hc Hp' Hfs) as Hph.
  assert (Haid : (aid < length (t_resv (sy_tree y)))%nat) by (rewrite (iv_resv _ _ _ _ _ _ _ Hi); by eapply iv_aid).
  assert (start c hd = PA [] [] \/ start c hd = PB true (uorder c hd) (oroot hd)) as [Est|Est].
  { unfold start. destruct c; try done; try (by left); try (by right). destruct hd as [|? op|]; try (by right). destruct (d_kind op) eqn:Ek; try (by left).
    right. cbn [uorder oroot]. unfold dlids. by rewrite Ek. }
  all: rewrite Est in Hph.
  - exists None, (Some (c, None)), w. split; [by constructor|]. split; [done|]. split; [|apply onwards_refl]. exists y, G, [], false. rewrite gt_snoc. unfold ge. cbn [fst snd app ws_f ws_fin fs_sys fs_jobs]. rewrite app_nil_r.
    split_and!; try done. exists aid, hd. do 3 eexists. split_and!; try done. cbv zeta. split; try done.
    + intros l0 rl L'. cbn [app]. f_equal. unfold env. by rewrite Es.
    + eexists. cbn [app]. eapply alloc_inv_ext; [exact E7|exact E3|]. apply (iv_core _ _ _ _ _ _ _ Hi).
    + intros r x _ Hs. split; [apply not_elem_of_nil|]. by eapply safe_from_ext.
    + intros x _. by rewrite E1.
    + by rewrite E3.
    + by rewrite E7.
    + by rewrite <- (iv_resv _ _ _ _ _ _ _ Hi).
  - destruct (sim_effect l (WBegin c) J Y y G w c aid hd (fin_prog (length (t_resv (sy_tree y))) hd c) (padded (length (t_resv (sy_tree y))) []) (sy_tree Y)) as (r & w' & Htr & Hr & Hon); try done.
    + unfold padded. rewrite app_nil_l, replicate_length. lia.
    + apply scanned_zeros. lia.
    + apply pb_noscan in Hph. rewrite dropL_noscan by done. rewrite <- !wexec_erase by done. by rewrite Es.
    + intros r. eapply Hlt. by apply pl_begin_effect.
    + exists (Some (c, r)), (Some (c, Some r)), w'. split; [by constructor|]. split; [by intros c' r' [= <- <-]|]. split; [by destruct Y|done].
Qed.

Lemma sim_wact l J Y fin st aid c a k v S1 w : simw l (WSys (FSys Y J) fin) st w -> placed l st ->
  fin !! aid = Some (c, WDo a k) -> do_wact (sy_tree Y) a = Ok (v, S1) ->
  (forall o st', placed (l ++ [(WAct aid a, o)]) st' -> ncalls (gt (l ++ [(WAct aid a, o)])) < 2 ^ 31) ->
  exists o st' w', placed (l ++ [(WAct aid a, o)]) st' /\ (forall c' r, o = Some (c', r) -> true_reply (lreplay l) c' r) /\
    simw (l ++ [(WAct aid a, o)]) (WSys (FSys (Sys S1 (sy_open Y)) J) (<[aid := (c, k v)]> fin)) st' w' /\ onwards (ge (WAct aid a, o)) w w'.
Proof.
  intros (y & G & us & ur & Hg & Hl & Hm & Hw & Hfew & Hun & Hk) Hpl Hf Hd Hlt. cbn [ws_f ws_fin fs_sys fs_jobs] in *.
  destruct (inv_ginv _ _ _ _ _ _ Hg) as [Hi Hn]. destruct st as [[c' [r|]]|].
  - destruct Hm as (aid' & hd & p & b & -> & Hc & Ho & HoY & Hnp & Hp & He & Hb & Hsub1 & Hsub2). apply lookup_singleton_Some in Hf as [-> [= -> ->]].
    assert (Hpl' : placed (l ++ [(WAct aid a, None)]) (Some (c, Some r))) by (by eapply pl_act).
    cbn [ph] in Hp. destruct (pb_step _ _ _ _ _ _ _ _ _ _ _ _ Hp Hd) as (Hr & b' & us' & ur' & Hp' & Hb' & (us0 & Eus) & Hur & Hkeep & Hkr).
    set (w' := if few then rouse w (Wake us' ur' (w_prev w) true) else w).
    assert (Hg' : ginv (gt l) (FSys y G) w' /\ onwards [] w w' /\ w_few w' = few /\ wakes (w_wake w') us' ur' (Sys S1 (sy_open Y)) y (Some (c, Some r))).
    { destruct Hw as [_ Hw]. unfold w'. destruct few; rewrite Hfew in Hw.
      - destruct Hw as (W1 & W2 & W3 & W4 & W5). pose proof W3 as W3'. rewrite Eus in W3'. apply NoDup_app in W3' as (_ & _ & W3').
        assert (Hfw : fewer (w_wake w) (Wake us' ur' (w_prev w) true)).
        { split_and!; cbn [wk_ids wk_root wk_prev wk_few]; try done; [exists us0; by rewrite W1|]. intros H. rewrite W2. by apply Hur. }
        split_and!; try done.
        + apply ginv_rouse; [done| |done]. apply calm_small. specialize (Hlt _ _ Hpl'). rewrite gt_snoc in Hlt. unfold ge in Hlt. cbn [fst snd app] in Hlt. by rewrite app_nil_r in Hlt.
        + intros j l0 b0 _ _. apply rtc_once. apply rouse_rely; [apply Hg|done|]. apply Hg.
        + split; [done|]. cbn [rouse w_wake wk_few wk_ids wk_root sy_tree]. split_and!; try done.
          * intros i Hin. rewrite (Hkeep W3 i Hin). apply W4. rewrite Eus. apply elem_of_app. by right.
          * intros H. rewrite (Hkr H). by apply W5, Hur.
      - split_and!; try done; [apply onwards_refl|]. split; [done|]. by rewrite Hfew. }
    destruct Hg' as (Hg' & Hon & Hfew' & Hw').
    exists None, (Some (c, Some r)), w'. split; [done|]. split; [done|]. split; [|exact Hon]. exists y, G, us', ur'. rewrite gt_snoc. unfold ge. cbn [fst snd app ws_f ws_fin fs_sys fs_jobs]. rewrite app_nil_r.
    split_and!; try done.
    + destruct Hl as [L1 L2 L3]. split; cbn [sy_tree sy_open]; try done. destruct Hr as [-> | ->]; [done|]. apply le_insert_l; [done|].
      intros z Hz. by eapply iv_idle.
    + rewrite insert_singleton. exists aid, hd, (k v), b'. cbn [sy_tree sy_open]. split_and!; try done.
      * cbn [wexec] in He. rewrite Hd in He. exact He.
      * intros Hbt. destruct (Hb' Hbt) as [Hbt' ->]. by apply Hb.
      * intros i Hi'. apply Hsub1. rewrite Eus. apply elem_of_app. by right.
      * intros H. by apply Hsub2, Hur.
  - destruct Hm as (aid' & hd & p & L & F & -> & Hc & Ho & HoY & Hp & Hfs & He). apply lookup_singleton_Some in Hf as [-> [= -> ->]].
    cbv zeta in He.
    pose proof Hw as [[-> ->] _]. destruct (wakes_idle _ _ _ _ _ _ Hw eq_refl eq_refl) as [Wk1 Wk2].
    pose proof (early_act _ _ _ _ _ _ _ _ _ _ _ v S1 He (lk_resv _ _ _ _ _ Hl)) as Hact.
    destruct Hact as (Hr & Hcase); [intros e Hz; by eapply iv_busy|done|].
    rewrite insert_singleton. destruct Hcase as [(L' & F' & He')|(Hea & Hph)].
    + exists None, (Some (c, None)), w. split; [by eapply pl_act|]. split; [done|]. split; [|apply onwards_refl]. exists y, G, [], false. rewrite gt_snoc. unfold ge. cbn [fst snd app ws_f ws_fin fs_sys fs_jobs]. rewrite app_nil_r.
      split_and!; try done; [| |by eapply wakes_none].
      * destruct Hl as [L1 L2 L3]. split; cbn [sy_tree sy_open]; try done. by rewrite Hr.
      * exists aid, hd, (k v), L', F'. done.
    + destruct (early_keeps _ _ _ _ Hea Hd) as (K1 & K2 & K3 & K4).
      destruct (sim_effect l (WAct aid a) J Y y G w c aid hd (k v) (padded (length (t_resv (sy_tree y))) L) S1) as (r & w' & Htr & Hr' & Hon); try done.
      * unfold padded. rewrite app_length, replicate_length. lia.
      * by eapply early_scanned.
      * by eapply early_effect.
      * rewrite K4. apply He.
      * rewrite K1. apply He.
      * rewrite K2. apply He.
      * intros r. eapply Hlt. by eapply pl_effect.
      * exists (Some (c, r)), (Some (c, Some r)), w'. split; [by eapply pl_effect|]. split; [by intros c' r' [= <- <-]|]. done.
  - destruct Hm as (-> & _). done.
Qed.

Lemma sim_wreturn l J Y fin st aid c r w : simw l (WSys (FSys Y J) fin) st w -> placed l st -> fin !! aid = Some (c, WRet r) ->
  exists st', placed (l ++ [(WReturn aid c r, None)]) st' /\
    simw (l ++ [(WReturn aid c r, None)]) (WSys (FSys (Sys (sy_tree Y) (delete aid (sy_open Y))) J) (delete aid fin)) st' w.
Proof.
  intros (y & G & us & ur & Hg & Hl & Hm & Hw & Hfew & Hun & Hk) Hpl Hf. cbn [ws_f ws_fin fs_sys fs_jobs] in *. destruct st as [[c' [r'|]]|].
  - destruct Hm as (aid' & hd & p & b & -> & Hc & Ho & HoY & Hnp & Hp & He & Hb & Hsub1 & Hsub2). apply lookup_singleton_Some in Hf as [-> [= -> ->]].
    destruct Hp as [b' [= -> -> ->]].
    apply er_Ok in He as (s2 & E & Es). cbn [wexec] in E. injection E as <- <-.
    exists None. split; [by eapply pl_return|]. exists y, G, [], false. rewrite gt_snoc. unfold ge. cbn [fst snd app ws_f ws_fin fs_sys fs_jobs]. rewrite app_nil_r. split_and!; try done; [| |by eapply wakes_none|intros Hft; by apply unshared_delete, Hun].
    + destruct Hl as [L1 L2 L3]. split; cbn [sy_tree sy_open]; try done. intros j c' e' Hj. destruct (L2 _ _ _ Hj) as (A1 & A2 & A3 & A4 & A5). split_and!; try done.
      rewrite lookup_delete_None. by right.
    + split_and!; cbn [sy_tree sy_open]; [by rewrite delete_singleton|done|]. by rewrite HoY, delete_insert.
  - destruct Hm as (aid' & hd & p & L & F & -> & Hc & Ho & HoY & Hp & Hfs & He). apply lookup_singleton_Some in Hf as [-> [= -> ->]].
    cbv zeta in He. pose proof (ea_ph _ _ _ _ _ _ _ _ _ _ He) as [b H]. done.
  - destruct Hm as (-> & _). done.
Qed.

Lemma sim_init n : sim [] (winit n) None.
Proof.
  eexists. exists (init n), ∅, [], false. split_and!.
  - exact (ginv_init K fetch few n).
  - split; cbn [winit ws_f finit fs_jobs fs_sys]; [intros j; by rewrite !lookup_empty|done|done].
  - done.
  - cbn [w_wake]. split; [done|]. destruct few; [|done]. split_and!; try done; [apply NoDup_nil_2|]. by intros i ?%elem_of_nil.
  - done.
  - intros _ aid key op Ho. cbn in Ho. by rewrite lookup_empty in Ho.
  - intros aid p H. unfold freplay in H. simpl in H. by rewrite lookup_empty in H.
Qed.
End Lin.
