(** * StepAnswer: what the other clients are told while one Finalize or Abort at a time is in progress. *)
From Verif Require Export StepProg StepLin.

(** ** Moments of the two histories *)

Lemma ge_cases x : (forall e o, x = (WF e, o) -> o = None) ->
  (exists c, x = (WF (EResv c), None) /\ ge x = [EBegin c; EResv c]) \/
  (length (ge x) <= 1)%nat /\ forall c, EResv c ∉ ge x.
Proof.
  intros Hx. destruct x as [e o]. destruct e as [e|c|aid a|aid c r]; unfold ge; cbn [fst snd].
  - rewrite (Hx e o eq_refl). destruct e as [c r|c|c|aid a|aid|aid c r]; try (by left; exists c); right; cbn [app length]; (split; [lia|]); intros c'; rewrite ?elem_of_list_singleton; set_solver.
  - right. destruct o as [[c' r']|]; cbn [app length]; (split; [lia|]); set_solver.
  - right. destruct o as [[c' r']|]; cbn [app length]; (split; [lia|]); set_solver.
  - right. destruct o as [[c' r']|]; cbn [app length]; (split; [lia|]); set_solver.
Qed.

Lemma gt_cons x l : gt (x :: l) = ge x ++ gt l.
Proof. done. Qed.

Lemma gt_split l c tr1 tr2 : (forall e o, (WF e, o) ∈ l -> o = None) -> gt l = tr1 ++ EResv c :: tr2 ->
  exists la lb, l = la ++ (WF (EResv c), None) :: lb /\ tr1 = gt la ++ [EBegin c] /\ tr2 = gt lb.
Proof.
  intros Hn. revert tr1. induction l as [|x l IH]; intros tr1 E; [by destruct tr1|]. rewrite gt_cons in E.
  assert (Hl : forall e o, (WF e, o) ∈ l -> o = None) by (intros e o H; apply (Hn e o); by right).
  destruct (ge_cases x) as [(c' & Hx & Eg)|[Hlen Hno]].
  - intros e o ->. apply (Hn e o). by left.
  - rewrite Eg in E. destruct tr1 as [|e1 [|e2 tr1]]; cbn [app] in E; [done| |].
    + injection E as <- <- E. exists [], l. by rewrite Hx.
    + injection E as <- <- E. destruct (IH Hl _ E) as (la & lb & -> & -> & ->). exists (x :: la), lb. split_and!; [done| |done].
      rewrite gt_cons, Eg. done.
  - destruct (ge x) as [|e [|]] eqn:Eg; cbn [length] in Hlen; [| |lia]; cbn [app] in E.
    + destruct (IH Hl _ E) as (la & lb & -> & -> & ->). exists (x :: la), lb. rewrite gt_cons, Eg. done.
    + destruct tr1 as [|e1 tr1]; cbn [app] in E; injection E as E1 E.
      * exfalso. apply (Hno c). rewrite E1. by left.
      * subst e1. destruct (IH Hl _ E) as (la & lb & -> & -> & ->). exists (x :: la), lb. rewrite gt_cons, Eg. done.
Qed.

Lemma gt_moment l tr h : (forall e o, (WF e, o) ∈ l -> o = None) -> tr `prefix_of` gt l ->
  exists lc, lc `prefix_of` l /\ fold_left fhstep tr h = fold_left fhstep (gt lc) h.
Proof.
  intros Hn. revert tr h. induction l as [|x l IH]; intros tr h [tr' E].
  { exists []. split; [done|]. destruct tr; done. }
  rewrite gt_cons in E. assert (Hl : forall e o, (WF e, o) ∈ l -> o = None) by (intros e o H; apply (Hn e o); by right).
  assert (Hrec : forall tr0, tr = ge x ++ tr0 -> tr0 `prefix_of` gt l -> exists lc, lc `prefix_of` (x :: l) /\ fold_left fhstep tr h = fold_left fhstep (gt lc) h).
  { intros tr0 -> Hp. destruct (IH Hl tr0 (fold_left fhstep (ge x) h) Hp) as (lc & Hlc & Ef). exists (x :: lc). split; [by apply prefix_cons|].
    by rewrite gt_cons, !fold_left_app, Ef. }
  destruct tr as [|e tr]; [exists []; split; [apply prefix_nil|done]|].
  destruct (ge_cases x) as [(c' & Hx & Eg)|[Hlen Hno]].
  - intros e0 o ->. apply (Hn e0 o). by left.
  - rewrite Eg in E. cbn [app] in E. injection E as <- E. destruct tr as [|e2 tr].
    + exists []. split; [apply prefix_nil|done].
    + cbn [app] in E. injection E as <- E. apply (Hrec tr); [by rewrite Eg|by exists tr'].
  - destruct (ge x) as [|e0 [|]] eqn:Eg; cbn [length] in Hlen; [| |lia]; cbn [app] in E.
    + apply (Hrec (e :: tr)); [done|by exists tr'].
    + injection E as -> E. apply (Hrec tr); [done|by exists tr'].
Qed.

(** At some moment between the reservation that begins the call and its return. *)
Definition at_some (la : marked) (c : call) (lb : marked) (P : hist -> Prop) : Prop :=
  exists lc, lc `prefix_of` lb /\ P (lreplay (la ++ (WF (EResv c), None) :: lc)).


Section Answer.
Context (K : list N -> Prop) (fetch : N -> list N) (HK : universe K) (few : bool).

(** The answer of a call that returns at the end of [l]. *)
Definition true_answer (l : marked) (aid : nat) (c : call) (r : reply) : Prop :=
  exists la lb, l = la ++ (WF (EResv c), None) :: lb /\ job_of c = Some aid /\ Forall (fun x => ~ wborders aid x.1) lb /\
    let (v, f) := answer r in
    (if f then v < 2 ^ 55 /\ at_some la c lb (binds (fetch v) v) else v = 0) /\
    ((f = true /\ fetch v = job_key c) \/ at_some la c lb (fun h => h_map h !! job_key c = None)).

Definition truthful (l : marked) : Prop :=
  forall l1 aid c r l2, l = l1 ++ (WF (EReturn aid c r), None) :: l2 -> true_answer l1 aid c r.

Lemma sometime_marked l c la lb tr1 tr2 P : (forall e o, (WF e, o) ∈ l -> o = None) -> l = la ++ (WF (EResv c), None) :: lb ->
  tr1 = gt la ++ [EBegin c] -> tr2 = gt lb -> sometime tr1 c tr2 P -> at_some la c lb P.
Proof.
  intros Hn -> -> -> (tr3 & Hp & HP).
  assert (Hlb : forall e o, (WF e, o) ∈ lb -> o = None) by (intros e o H; apply (Hn e o), elem_of_app; right; by right).
  destruct (gt_moment lb tr3 (freplay (gt la ++ [EBegin c; EResv c])) Hlb Hp) as (lc & Hlc & Ef). exists lc. split; [done|].
  rewrite lreplay_gt, gt_app, gt_cons. unfold ge. cbn [fst snd app].
  replace (gt la ++ EBegin c :: EResv c :: gt lc) with ((gt la ++ [EBegin c; EResv c]) ++ gt lc) by (by rewrite <- app_assoc).
  rewrite freplay_app, <- Ef, <- freplay_app, <- app_assoc. cbn [app]. by rewrite <- app_assoc in HP.
Qed.

Lemma sim_answer l J Y fin st aid c o : sim K fetch few l (WSys (FSys Y J) fin) st -> placed l st -> J !! aid = Some (Running c (Ret o)) ->
  true_answer l aid c (returned o).
Proof.
  intros (w & y & G & us & ur & Hg & Hl & Hm & Hw & Hfew & Hun & Hk) Hpl HJ. cbn [ws_f ws_fin fs_sys fs_jobs] in *.
  pose proof (links_running _ _ _ _ _ _ _ _ _ _ _ Hg Hl HJ) as HG.
  destruct (gi_jobs _ _ _ _ _ Hg _ _ HG) as (Hc & _ & tr1 & tr2 & e & ns & Hd & _ & Hb & Hok).
  pose proof (Hok w (rtc_refl _ _)) as Hp. pose proof (ba_J _ _ _ _ _ _ _ _ _ Hb) as HJ'. pose proof Hd as [Et Hf].
  pose proof (placed_marks _ _ Hpl) as Hn. destruct (gt_split _ _ _ _ Hn Et) as (la & lb & El & E1 & E2).
  assert (Hl2 : let (v, f) := answer (returned o) in
    (if f then v < 2 ^ 55 /\ sometime tr1 c tr2 (binds (fetch v) v) else v = 0) /\
    ((f = true /\ fetch v = job_key c) \/ sometime tr1 c tr2 (fun h => h_map h !! job_key c = None))).
  { destruct c as [a key|a key|? ? ? ?|?|a key|?|?|?|? ? ?], o as [v0 f0|f0 op|[r|]]; try done; cbn [post returned answer job_key] in *.
    - destruct Hp as (_ & _ & Hl'). by eapply look_moments.
    - destruct Hp as (_ & _ & _ & Hl'). by eapply look_moments.
    - destruct Hp as (_ & _ & _ & Hl' & _). exact (look_moments _ _ _ _ _ _ _ _ _ _ _ _ true Hg Hd HJ' Hl').
    - destruct Hp as (_ & _ & Hl'). exact (look_moments _ _ _ _ _ _ _ _ _ _ _ _ false Hg Hd HJ' Hl'). }
  exists la, lb. split_and!; try done.
  - subst tr2. rewrite list.Forall_forall in Hf. apply list.Forall_forall. intros [e0 o0] Hin Hbo. cbn [fst] in Hbo. destruct e0 as [e0| | |]; try done. cbn [wborders] in Hbo.
    assert (o0 = None) as -> by (apply (Hn e0 o0); rewrite El; apply elem_of_app; right; by right).
    apply (Hf e0); [|done]. unfold gt. apply elem_of_list_In, in_concat. exists (ge (WF e0, None)). split; [apply in_map, elem_of_list_In, Hin|].
    apply elem_of_list_In. unfold ge. cbn [fst snd]. rewrite app_nil_r. destruct e0; try done; set_solver.
  - destruct (answer (returned o)) as [v f]. destruct Hl2 as [H1 H2]. split.
    + destruct f; [|done]. destruct H1 as [Hv H1]. split; [done|]. by eapply sometime_marked.
    + destruct H2 as [H2|H2]; [by left|]. right. by eapply sometime_marked.
Qed.

Lemma truthful_snoc l x : truthful l -> (forall aid c r, x = (WF (EReturn aid c r), None) -> true_answer l aid c r) -> truthful (l ++ [x]).
Proof.
  intros Ht Hx l1 aid c r l2 E. destruct l2 as [|z l2] using rev_ind.
  - apply app_inj_tail in E as [-> ->]. by apply Hx.
  - clear IHl2. rewrite app_comm_cons, app_assoc in E. apply app_inj_tail in E as [-> _]. by eapply Ht.
Qed.

(** Every Finalize and Abort returns what its mark says, and that is as it should be at the mark. *)
Definition honest (l : marked) : Prop := forall l1 e c r l2, l = l1 ++ (e, Some (c, r)) :: l2 -> true_reply (lreplay l1) c r.

Lemma honest_snoc l e o : honest l -> (forall c r, o = Some (c, r) -> true_reply (lreplay l) c r) -> honest (l ++ [(e, o)]).
Proof.
  intros Ht Hx l1 e' c r l2 E. destruct l2 as [|z l2] using rev_ind.
  - apply app_inj_tail in E as [-> [= -> ->]]. by apply Hx.
  - clear IHl2. rewrite app_comm_cons, app_assoc in E. apply app_inj_tail in E as [-> _]. by eapply Ht.
Qed.

(** ** All steps *)

Definition returning (l : marked) (X : wsys) (e : wevent) : Prop :=
  forall aid c o, e = WF (EReturn aid c (returned o)) -> fs_jobs (ws_f X) !! aid = Some (Running c (Ret o)) ->
    returns_well (gt l) aid o /\ (few = true -> forall op, o = OPrepD (Some op) -> ~ clash op).

Lemma sim_move l X st e X' w : simw K fetch few l X st w -> placed l st -> one_at_once X e -> (few = false -> hands_off X e) -> sized X e -> returning l X e -> wstep K fetch X e X' ->
  wcalls (map fst l ++ [e]) < 2 ^ 31 ->
  exists o st' w', placed (l ++ [(e, o)]) st' /\ simw K fetch few (l ++ [(e, o)]) X' st' w' /\ onwards K fetch (ge (e, o)) w w' /\
    (forall c r, o = Some (c, r) -> true_reply (lreplay l) c r) /\ (forall aid c r, e = WF (EReturn aid c r) -> true_answer l aid c r).
Proof.
  intros Hs Hpl H1 Hqu Hfs Hu Hw Hlt. unfold one_at_once in H1. unfold hands_off in Hqu.
  assert (Hcalls : forall o st', placed (l ++ [(e, o)]) st' -> ncalls (gt (l ++ [(e, o)])) < 2 ^ 31).
  { intros o st' H. apply placed_calls in H. rewrite map_app in H. cbn [map fst] in H. lia. }
  assert (Hlt0 : ncalls (gt l) < 2 ^ 31). { pose proof (placed_calls _ _ Hpl). rewrite wcalls_app in Hlt. lia. }
  destruct Hw as [x e x' fin Hre Hf|x fin c aid hd Hc Hfn Ho Hp|Y J fin aid c a k v s' Hf Hd|Y J fin aid c r Hf]; cbn [ws_f ws_fin] in *.
  - assert (Hpl' : placed (l ++ [(WF e, None)]) st) by (by constructor).
    assert (Hgo : (exists w', simw K fetch few (l ++ [(WF e, None)]) (WSys x' fin) st w' /\ onwards K fetch (ge (WF e, None)) w w') ->
      (forall aid c r, e = EReturn aid c r -> true_answer l aid c r) ->
      exists o st' w', placed (l ++ [(WF e, o)]) st' /\ simw K fetch few (l ++ [(WF e, o)]) (WSys x' fin) st' w' /\ onwards K fetch (ge (WF e, o)) w w' /\
        (forall c r, o = Some (c, r) -> true_reply (lreplay l) c r) /\ (forall aid c r, WF e = WF (EReturn aid c r) -> true_answer l aid c r)).
    { intros (w' & Hs' & Hon) Ha. exists None, st, w'. split_and!; try done. intros aid c r [= ->]. by apply Ha. }
    destruct Hf as [y y' jobs c r Hc Hr Hp Ha|y jobs c aid0 Hc Hj Hp|y jobs c aid0 e Hj|y jobs c aid0 a k hd v s' Hj Ho Hd|y jobs c aid0 Hj|y jobs c aid0 o Hj];
      (apply Hgo; [|first [done|intros ? ? ? [= <- <- <-]; eapply sim_answer; [by exists w|done..]]]).
    + subst fin. eapply sim_call; try done; [apply Hre|by eapply Hcalls].
    + exists w. split; [by apply sim_begin|apply onwards_refl].
    + by apply sim_resv.
    + by eapply sim_act.
    + by apply sim_again.
    + destruct (Hu _ _ _ eq_refl Hj). by apply sim_return.
  - destruct x as [Y J]. subst fin. destruct (sim_wbegin K fetch HK few l J Y st c aid hd w) as (o & st' & w' & Hpl' & Htr & Hs' & Hon); try done; [by eapply Hfs|].
    by exists o, st', w'.
  - destruct (sim_wact K fetch HK few l J Y fin st aid c a k v s' w) as (o & st' & w' & Hpl' & Htr & Hs' & Hon); try done. by exists o, st', w'.
  - destruct (sim_wreturn K fetch few l J Y fin st aid c r w) as (st' & Hpl' & Hs'); try done. exists None, st', w. split_and!; try done. apply onwards_refl.
Qed.

Lemma sim_step l X st e X' : sim K fetch few l X st -> placed l st -> truthful l -> honest l -> one_at_once X e -> (few = false -> hands_off X e) -> sized X e -> returning l X e -> wstep K fetch X e X' ->
  wcalls (map fst l ++ [e]) < 2 ^ 31 ->
  exists o st', placed (l ++ [(e, o)]) st' /\ sim K fetch few (l ++ [(e, o)]) X' st' /\ truthful (l ++ [(e, o)]) /\ honest (l ++ [(e, o)]).
Proof.
  intros [w Hs] Hpl Ht Hh H1 Hqu Hfs Hu Hw Hlt. destruct (sim_move l X st e X' w) as (o & st' & w' & G1 & G2 & _ & G3 & G4); try done.
  exists o, st'. split_and!; [done|by exists w'| |by apply honest_snoc]. apply truthful_snoc; [done|]. intros aid c r [= -> ->]. by apply G4.
Qed.

Lemma sim_settled l X : sim K fetch few l X None -> exists y, settled K fetch y (lreplay l) (ncalls (gt l)) /\
  erase (sy_tree (fs_sys (ws_f X))) = erase (sy_tree y) /\ sy_open (fs_sys (ws_f X)) = sy_open y.
Proof.
  intros (w & y & G & us & ur & Hg & Hl & Hm & Hw & Hfew & Hun & Hk). destruct (inv_ginv _ _ _ _ _ _ Hg) as [Hi Hn]. exists y. destruct Hm as (_ & E1 & E2). split; [|done].
  rewrite lreplay_gt. split; try done; [by eauto|apply fsusp_size].
Qed.

Lemma erase_get Y y k : erase (sy_tree Y) = erase (sy_tree y) -> get fetch Y k = get fetch y k.
Proof. intros E. rewrite !get_search. rewrite <- (search_resv (sy_tree Y) []), <- (search_resv (sy_tree y) []). fold (erase (sy_tree Y)) (erase (sy_tree y)). by rewrite E. Qed.

Lemma sim_rest l X st : sim K fetch few l X st -> ws_fin X = ∅ -> st = None.
Proof.
  intros (w & y & G & us & ur & _ & _ & Hm & _) Hf. rewrite Hf in Hm. destruct st as [[c [r|]]|]; [| |done].
  - destruct Hm as (aid & hd & p & b & H & _). symmetry in H. by apply map_non_empty_singleton in H.
  - destruct Hm as (aid & hd & p & L & F & H & _). symmetry in H. by apply map_non_empty_singleton in H.
Qed.

(** Nodes of keys of at most 9 bytes have less than 258 slots. *)
Lemma short_sized l X st e : sim K fetch few l X st -> short_keys K -> one_at_once X e -> sized X e.
Proof.
  intros Hs H9 H1. destruct e as [|c| |]; try done. intros aid hd _ Ho. cbn [one_at_once] in H1. pose proof (sim_rest _ _ _ Hs H1) as ->.
  destruct (sim_settled _ _ Hs) as (y & Hse & _ & E). rewrite E in Ho. destruct (st_inv _ _ _ _ _ Hse) as (T & lost & Hi).
  pose proof (small_size K fetch y _ _ _ _ _ _ HK Hi H9 Ho). lia.
Qed.

Lemma sim_runs P n tr X :
  (forall l st X e X', wruns K fetch P n (map fst l) X -> placed l st -> P X e -> wstep K fetch X e X' -> one_at_once X e /\ (sized X e \/ short_keys K) /\ returning l X e /\ (few = false -> hands_off X e)) ->
  wruns K fetch P n tr X -> wcalls tr < 2 ^ 31 ->
  exists l st, map fst l = tr /\ placed l st /\ sim K fetch few l X st /\ truthful l /\ honest l.
Proof.
  intros HP Hr. induction Hr as [|tr X e X' Hr IH Hone Hw]; intros Hlt.
  - exists [], None. split_and!; [done|constructor|apply sim_init| |]; intros l1 ? ? ? ? E; by destruct l1.
  - destruct IH as (l & st & <- & Hpl & Hs & Ht & Hh); [rewrite wcalls_app in Hlt; lia|].
    destruct (HP _ _ _ _ _ Hr Hpl Hone Hw) as (H1 & H3 & H2 & Hqu). assert (Hsz : sized X e) by (destruct H3 as [?|?]; [done|by eapply short_sized]).
    destruct (sim_step l X st e X') as (o & st' & G1 & G2 & G3 & G4); try done. exists (l ++ [(e, o)]), st'. by rewrite map_app.
Qed.

(** ** The map and Len while no Finalize is in progress *)

(** The bindings and Len that the marked calls describe. *)
Definition holds (h : hist) (y : sys) : Prop :=
  (forall k, bytes k -> k <> [] ->
    (forall v, h_map h !! k = Some v -> get fetch y k = Some v) /\
    (forall v, get fetch y k = Some v -> binds k v h) /\
    (k ∉ h_susp h -> get fetch y k = h_map h !! k)) /\
  (Z.of_nat (size (h_map h)) - Z.of_nat (h_nsusp h) <= len (sy_tree y) + h_off h <= Z.of_nat (size (h_map h)) + Z.of_nat (h_nsusp h))%Z.

Lemma sim_holds l X : sim K fetch few l X None -> holds (lreplay l) (fs_sys (ws_f X)).
Proof.
  intros Hs. destruct (sim_settled _ _ Hs) as (y & Hse & Es & _). split.
  - intros k Hb Hne. pose proof (st_map K fetch y _ _ k Hse Hb Hne) as H. by rewrite (erase_get _ y k Es).
  - pose proof (ApiProps.st_len K fetch y _ _ Hse) as H. apply erase_fields in Es as (_ & _ & _ & _ & _ & _ & E7 & E8). unfold len in *. by rewrite E7, E8.
Qed.

Definition meant (tr : list wevent) (X : wsys) (l : marked) (st : option (call * option reply)) : Prop :=
  map fst l = tr /\ placed l st /\ truthful l /\ honest l /\ (ws_fin X = ∅ -> st = None /\ holds (lreplay l) (fs_sys (ws_f X))).

Lemma sim_meant tr X l st : map fst l = tr -> placed l st -> sim K fetch few l X st -> truthful l -> honest l -> meant tr X l st.
Proof. intros E Hpl Hs Ht Hh. unfold meant. split_and!; try done. intros Hf. pose proof (sim_rest _ _ _ Hs Hf) as ->. split; [done|]. by apply sim_holds. Qed.

(** ** Nothing crashes *)

Definition is_fin (c : call) : Prop := match c with CFinU _ _ _ _ | CFinD _ => True | _ => False end.

(** The rest of a Finalize or Abort: its next step can be taken, or all memory is in use. *)
Definition fin_goes_on (s : tree) (c : call) (p : wprog reply) : Prop :=
  match p with
  | WRet _ => True
  | WStop (Crash OutOfBlocks) => is_fin c
  | WStop _ => False
  | WDo a _ => match do_wact s a with Ok _ => True | Panic OutOfBlocks => is_fin c | _ => False end
  end.

Lemma sim_no_crash l X st : sim K fetch few l X st -> ~ crashing (ws_f X).
Proof.
  intros (w & y & G & us & ur & Hg & Hl & Hm & Hw & Hfew & Hun & Hk) (aid & c & p & HJ & Hp). destruct X as [[Y J] fin]. cbn [ws_f ws_fin fs_sys fs_jobs] in *.
  pose proof (links_running _ _ _ _ _ _ _ _ _ _ _ Hg Hl HJ) as HG.
  destruct (gi_jobs _ _ _ _ _ Hg _ _ HG) as (_ & _ & tr1 & tr2 & e & ns & _ & _ & _ & Hok).
  destruct p as [o|[]|a k]; try done. destruct Hp as [why Hp]. destruct (Hok w (rtc_refl _ _)) as ([Haok Hsafe] & v & s1 & Hd & _).
  destruct (running_open _ _ _ _ _ _ _ _ _ Hg HG) as (l0 & b0 & Ho).
  assert (Ehd : hdl aid w = HP l0 b0) by (unfold hdl; rewrite (gi_sys _ _ _ _ _ Hg); cbn [fs_sys]; by rewrite Ho). rewrite Ehd in Haok.
  destruct (mode_act K fetch _ _ _ _ _ _ _ _ _ _ _ _ _ (HP [] false) _ _ Hg Hm Hw Hsafe Ho Haok Hd) as (S1 & H1 & _); [by eapply job_not_fin| |congruence].
  intros _ aid' c' p' hd Hf _ _ Ht. destruct a; try done; cbn [do_act] in Hp; try done; repeat case_match; done.
Qed.

Lemma sim_fin_goes l X st aid c p : sim K fetch few l X st -> ws_fin X !! aid = Some (c, p) -> fin_goes_on (sy_tree (fs_sys (ws_f X))) c p.
Proof.
  intros (w & y & G & us & ur & Hg & Hl & Hm & Hw & Hfew & Hun & Hk) Hf. destruct X as [[Y J] fin]. cbn [ws_f ws_fin fs_sys fs_jobs] in *.
  destruct (inv_ginv _ _ _ _ _ _ Hg) as [Hi Hn]. destruct st as [[c' [r|]]|].
  - destruct Hm as (aid' & hd & p' & b & -> & Hc & Ho & HoY & Hnp & Hp & He & Hb). apply lookup_singleton_Some in Hf as [-> [= -> ->]].
    destruct p as [r0|e|a k]; [done|done|]. cbn [wexec fin_goes_on] in *. by destruct (do_wact (sy_tree Y) a).
  - destruct Hm as (aid' & hd & p' & L & F & -> & Hc & Ho & HoY & Hp & Hfs & He). apply lookup_singleton_Some in Hf as [-> [= -> ->]].
    cbv zeta in He. set (n := length (t_resv (sy_tree y))) in *. pose proof (early_scanned _ _ _ _ _ _ _ _ _ _ He) as Hsc.
    assert (HL : (n + n <= length (padded n L))%nat) by (unfold padded; rewrite app_length, replicate_length; lia).
    destruct y as [s o]. cbn [sy_tree sy_open] in *.
    pose proof (fin_prog_as s n (padded n L) HL o c aid hd Ho Hc ltac:(by eapply (proper_kind K fetch (Sys s o)))) as Eq.
    pose proof (step_okf_as K fetch HK _ (Sys s o) _ _ _ _ c Hsc Hi Hn Hp) as Hst.
    assert (E : er (dropL (wexec_as (fin_prog n hd c) s (padded n L))) = dropL (wexec_as p (erase (sy_tree Y)) (replicate (n + n) 0))).
    { assert (E : forall p t L, er (dropL (wexec_as p t L)) = dropL (wexec_as (A := reply) p (erase t) L)).
      { intros q t L'. rewrite wexec_as_erase. by destruct (wexec_as q t L') as [[[? ?] ?]| | |]. }
      rewrite E, <- (env_self s). unfold padded. rewrite (ea_prog _ _ _ _ _ _ _ _ _ _ He).
      by rewrite <- (ea_locks _ _ _ _ _ _ _ _ _ _ He), <- (ea_rl _ _ _ _ _ _ _ _ _ _ He), env_self. }
    rewrite Eq in E. clear Eq.
    assert (Hres : match dropL (wexec_as p (erase (sy_tree Y)) (replicate (n + n) 0)) with Ok _ => True | Panic OutOfBlocks => is_fin c | _ => False end).
    { rewrite <- E. destruct (api_as _ _ c) as [[r y']|why| |]; cbn [rmap bind er]; [done| |by destruct c|done]. cbn [step_postf] in Hst. destruct why; try done.
      destruct Hst as (a1 & h1 & A1 & A2 & A3). assert (a1 = aid) as -> by (destruct c; try done; by injection Hc as ->).
      cbn [sy_open] in A2. rewrite Ho in A2. by injection A2 as <-. }
    pose proof (ea_ph _ _ _ _ _ _ _ _ _ _ He) as Hph.
    destruct p as [r0|e|a k]; cbn [fin_goes_on].
    + done.
    + destruct e as [why| |]; try done; by destruct why.
    + assert (a = WResv (length L mod n)%nat \/ early a) as [->|Hea] by (cbn [ph] in Hph; destruct a; try done; cbn [ph_act] in Hph; (by right) || (destruct Hph as [-> _]; by left)).
      * cbn [do_wact]. destruct (lookup_lt_is_Some_2 (t_resv (sy_tree Y)) (length L mod n)%nat) as [v ->]; [|done].
        rewrite (Forall2_length _ _ _ (lk_resv _ _ _ _ _ Hl)). cbn [sy_tree]. apply Nat.mod_upper_bound. pose proof (ea_aid _ _ _ _ _ _ _ _ _ _ He). lia.
      * rewrite wexec_as_do in Hres by (by destruct a). rewrite do_wact_erase in Hres by (by destruct a).
        destruct (do_wact (sy_tree Y) a) as [[v s1]|why| |]; [done|..]; cbn [rmap bind dropL] in Hres; [|done|done]. by destruct why.
  - destruct Hm as (-> & _). done.
Qed.

Definition goes_on (X : wsys) : Prop :=
  ~ crashing (ws_f X) /\ forall aid c p, ws_fin X !! aid = Some (c, p) -> fin_goes_on (sy_tree (fs_sys (ws_f X))) c p.

Lemma sim_goes_on l X st : sim K fetch few l X st -> goes_on X.
Proof. intros Hs. split; [by eapply sim_no_crash|]. intros aid c p. by eapply sim_fin_goes. Qed.

End Answer.

(** ** Histories in which the other clients are interrupted anywhere *)
Section OneFin.
Context (K : list N -> Prop) (fetch : N -> list N) (HK : universe K).

Lemma sim_run (P : wsys -> wevent -> Prop) n tr X : (forall X e, P X e -> one_fin X e /\ (sized X e \/ short_keys K)) -> wruns K fetch P n tr X -> wcalls tr < 2 ^ 31 ->
  exists l st, map fst l = tr /\ placed l st /\ sim K fetch true l X st /\ truthful fetch l /\ honest l.
Proof.
  intros HP. apply sim_runs; [done|]. clear tr X. intros l st X e X' _ _ Hp _. destruct (HP _ _ Hp) as [[H1 H2] H3]. split_and!; [done|done| |done].
  intros aid c o -> Hj. split; [intros op ->; left; by apply H2|]. intros _ op ->. by apply H2.
Qed.

Theorem one_fin_meaning (P : wsys -> wevent -> Prop) n tr X : (forall X e, P X e -> one_fin X e /\ (sized X e \/ short_keys K)) -> wruns K fetch P n tr X -> wcalls tr < 2 ^ 31 ->
  exists l st, meant fetch tr X l st.
Proof. intros HP Hr Hlt. destruct (sim_run P n tr X HP Hr Hlt) as (l & st & E & Hpl & Hs & Ht & Hh). exists l, st. by eapply sim_meant. Qed.

Theorem one_fin_goes_on (P : wsys -> wevent -> Prop) n tr X : (forall X e, P X e -> one_fin X e /\ (sized X e \/ short_keys K)) -> wruns K fetch P n tr X -> wcalls tr < 2 ^ 31 -> goes_on X.
Proof. intros HP Hr Hlt. destruct (sim_run P n tr X HP Hr Hlt) as (l & st & _ & _ & Hs & _). by eapply sim_goes_on. Qed.
End OneFin.
