(** * FineStep: every step of a run is a step the other clients can rely on (FineInv.v). *)
From Verif Require Export FineInv.

(** ** Finalize, Abort and FlushStats *)

Definition hd_alloc (hd : handle) (aid : nat) : Prop :=
  match hd with HU _ op => u_alloc op = aid | HD _ op => d_alloc op = aid | HP _ _ => False end.

(** The client of such a step. *)
Definition ecall_aid (c : call) : option nat :=
  match c with CFinU aid _ _ _ | CAbortU aid | CFinD aid | CAbortD aid => Some aid | _ => None end.

Lemma api_moves_as sc y c r y' : job_of c = None -> ~ is_restart c -> api_as sc y c = Ok (r, y') ->
  lmoved (t_locks (sy_tree y)) (t_locks (sy_tree y')) /\
  (t_epoch (sy_tree y') = t_epoch (sy_tree y) \/ t_epoch (sy_tree y') = u64 (t_epoch (sy_tree y) + 1)) /\
  ((ecall_aid c = None /\ sy_open y' = sy_open y /\ t_resv (sy_tree y') = t_resv (sy_tree y)) \/
   exists aid hd, ecall_aid c = Some aid /\ sy_open y !! aid = Some hd /\ (forall l b, hd <> HP l b) /\ sy_open y' = delete aid (sy_open y) /\
     forall a, hd_alloc hd a -> t_resv (sy_tree y') = <[a := maxUint64]> (t_resv (sy_tree y))).
Proof.
  intros Hj Hr. destruct c as [aid key|aid key|aid fk m v|aid|aid key|aid|aid|aid|p u o]; try done; simpl.
  - destruct (sy_open y !! aid) as [[found op|key op|l b]|] eqn:Eo; try done. unfold finalize_update_as. intros H. unbind H.
    injection H as <- <-. unbind E. injection E as <- <-. cbn [sy_tree sy_open end_op set_resv t_locks t_epoch t_resv].
    pose proof (finu_moved_as _ _ _ _ _ _ _ _ E0). destruct (finu_r_as _ _ _ _ _ _ _ _ E0) as [Er Ee].
    split; [done|]. split; [done|]. right. exists aid, (HU found op). split_and!; try done. simpl. intros a <-. by rewrite Er.
  - destruct (sy_open y !! aid) as [[found op|key op|l b]|] eqn:Eo; try done. intros H. unbind H. injection H as <- <-.
    cbn [sy_tree sy_open]. pose proof (abu_moved _ _ _ E) as H1. unfold abort_update in E. unbind E. injection E as <-.
    assert (rsame (sy_tree y) x0) as [Er Ee] by (destruct (u_kind op); try injection E0 as <-; rk).
    cbn [end_op set_resv t_epoch t_resv] in *. split; [done|]. split; [by left|]. right. exists aid, (HU found op). split_and!; try done.
    simpl. intros a <-. by rewrite Er.
  - destruct (sy_open y !! aid) as [[found op|key op|l b]|] eqn:Eo; try done. unfold finalize_delete_as. intros H. unbind H.
    injection H as <- <-. unbind E. injection E as <- <-. cbn [sy_tree sy_open end_op set_resv t_locks t_epoch t_resv].
    assert (lmoved (t_locks (sy_tree y)) (t_locks t0)) by (revert E0; apply as_if_locks; intros ? ?; apply find_moved).
    assert (rstep (sy_tree y) t0) as [Er Ee] by (revert E0; apply as_if_r; intros ? ?; apply find_r).
    split; [done|]. split; [done|]. right. exists aid, (HD key op). split_and!; try done. simpl. intros a <-. by rewrite Er.
  - destruct (sy_open y !! aid) as [[found op|key op|l b]|] eqn:Eo; try done. intros H. unbind H. injection H as <- <-.
    cbn [sy_tree sy_open]. pose proof (abd_moved _ _ _ E) as H1. unfold abort_delete in E. unbind E. injection E as <-.
    assert (rsame (sy_tree y) x0) as [Er Ee].
    { destruct (d_kind op); try injection E0 as <-; try done; rk. unbind E0. injection E0 as <-. done. }
    cbn [end_op set_resv t_epoch t_resv] in *. split; [done|]. split; [by left|]. right. exists aid, (HD key op). split_and!; try done.
    simpl. intros a <-. by rewrite Er.
  - intros H. unbind H. injection H as <- <-. cbn [sy_tree sy_open]. pose proof (flush_locks _ _ _ E) as E1.
    destruct (flush_r _ _ _ E) as [Er Ee]. split; [rewrite E1; apply lmoved_refl|]. split; [by left|]. left. done.
Qed.

Lemma api_moves y c r y' : job_of c = None -> ~ is_restart c -> api y c = Ok (r, y') ->
  lmoved (t_locks (sy_tree y)) (t_locks (sy_tree y')) /\
  (t_epoch (sy_tree y') = t_epoch (sy_tree y) \/ t_epoch (sy_tree y') = u64 (t_epoch (sy_tree y) + 1)) /\
  ((ecall_aid c = None /\ sy_open y' = sy_open y /\ t_resv (sy_tree y') = t_resv (sy_tree y)) \/
   exists aid hd, ecall_aid c = Some aid /\ sy_open y !! aid = Some hd /\ (forall l b, hd <> HP l b) /\ sy_open y' = delete aid (sy_open y) /\
     forall a, hd_alloc hd a -> t_resv (sy_tree y') = <[a := maxUint64]> (t_resv (sy_tree y))).
Proof. rewrite <- api_as_None. apply api_moves_as. Qed.

Lemma hstep_pend h c r j p : job_of c = None -> ~ is_restart c -> ecall_aid c <> Some j -> h_pend h !! j = Some p ->
  (forall aid, ecall_aid c = Some aid -> is_Some (h_pend h !! aid)) -> (acked r = true -> is_Some (fin_by c)) ->
  exists p', h_pend (hstep h (c, r)) !! j = Some p' /\ pend_le p p' /\ (acked r = true -> p_over p' = true) /\
    ((exists aid, c = CFinD aid /\ r = RBool true) -> p_del p' = true).
Proof.
  intros Hj Hr Hne Hp Hsome Hack.
  assert (Hsame : forall aid, ecall_aid c = Some aid -> acked r = false ->
    exists p', delete aid (h_pend h) !! j = Some p' /\ pend_le p p' /\ (acked r = true -> p_over p' = true) /\
    ((exists aid, c = CFinD aid /\ r = RBool true) -> p_del p' = true)).
  { intros aid Ha Hf. exists p. rewrite lookup_delete_ne by congruence. split_and!; try done; [by rewrite Hf|]. intros (? & _ & ->). done. }
  destruct c as [aid key|aid key|aid fk m v|aid|aid key|aid|aid|aid|pk u o]; try done; simpl in Hne.
  - destruct r as [| | |[]| |]; try (apply Hsame; done). cbn [hstep].
    destruct (Hsome aid eq_refl) as [q ->]. simpl. exists (see_upd p). rewrite lookup_fmap, lookup_delete_ne, Hp by congruence.
    split_and!; try done. by intros (? & ? & _).
  - destruct r as [| | |[]| |]; try (apply Hsame; done). destruct Hack; done.
  - destruct r as [| | |[]| |]; try (apply Hsame; done). cbn [hstep].
    destruct (Hsome aid eq_refl) as [q ->]. exists (see_del p).
    assert (Hl : (see_del <$> delete aid (h_pend h)) !! j = Some (see_del p)) by (by rewrite lookup_fmap, lookup_delete_ne, Hp by congruence).
    destruct (p_over q); simpl; rewrite Hl; done.
  - destruct r as [| | |[]| |]; try (apply Hsame; done). destruct Hack; done.
  - exists p. simpl. split_and!; try done; [|by intros (? & ? & _)]. intros Ha. destruct (Hack Ha); done.
Qed.

Section FineStep.
Context (K : list N -> Prop) (fetch : N -> list N) (HK : universe K).
Local Notation core := (core K fetch).
Local Notation inv := (inv K fetch).
Local Notation hok := (hok K fetch).
Local Notation good := (good K fetch).
Local Notation evo := (evo K fetch).
Local Notation rely := (rely K fetch).

(** ** Steps that leave memory alone *)

Lemma evo_same aid w w' : good w' -> (forall e, mine aid w e -> mine aid w' e) ->
  w_past w' = w_past w ++ [(w_hist w', w_trie w')] ->
  t_mem (w_tree w') = t_mem (w_tree w) -> t_allocs (w_tree w') = t_allocs (w_tree w) ->
  t_nextFreeBlock (w_tree w') = t_nextFreeBlock (w_tree w) -> w_trie w' = w_trie w -> evo aid w w'.
Proof.
  intros Hg Hm Hp E1 E2 E3 ET. split; try done; [by left| | | |].
  - intros e x _. by apply safe_from_ext.
  - intros e x _ _ _. left. by rewrite E1.
  - intros e x _ _. by rewrite ET.
  - exists []. rewrite ET. split; [apply gone_refl|by intros x ?%elem_of_nil].
Qed.

Lemma rely_same aid nmax w w' : good w' -> w_past w' = w_past w ++ [(w_hist w', w_trie w')] ->
  t_mem (w_tree w') = t_mem (w_tree w) -> t_allocs (w_tree w') = t_allocs (w_tree w) ->
  t_nextFreeBlock (w_tree w') = t_nextFreeBlock (w_tree w) -> w_trie w' = w_trie w ->
  w_n w' = w_n w -> w_n w < nmax -> w_unl w' = w_unl w ->
  sy_open (w_sys w') !! aid = sy_open (w_sys w) !! aid -> t_resv (w_tree w') !! aid = t_resv (w_tree w) !! aid ->
  h_pend (w_hist w') !! aid = h_pend (w_hist w) !! aid -> w_wake w' = w_wake w -> rely aid nmax w w'.
Proof.
  intros Hg Hp E1 E2 E3 ET En Hn Eu Eo Er Eh Ew. split; try done.
  - apply evo_same; try done. intros e [? ?]. unfold mine. by rewrite Eo, Er.
  - rewrite En. lia.
  - rewrite Eh, ET. intros p ->. exists p. split; [done|]. split; [done|by left].
  - intros i. rewrite Eu, En. lia.
  - intros hd i _ _. by rewrite Eu.
  - by left.
  - apply wake_step_same; [done|by left].
Qed.

Lemma evo_acted aid w a v s' l b : good w -> sy_open (w_sys w) !! aid = Some (HP l b) -> act_ok a (HP l b) ->
  lact w a = Ok (v, s') -> evo aid w (acted aid a v s' w).
Proof.
  intros Hg Ho Ha Hd. pose proof (lact_same _ _ _ _ Hd) as (E1 & E2 & E3 & E4 & E5 & E6 & E7).
  apply evo_same; try done; [by eapply good_acted|]. intros e [_ He]. split; simpl; [|by rewrite E7].
  rewrite lookup_insert. unfold hdl. rewrite Ho. simpl.
  destruct a; simpl; repeat destruct (_ =? _); eauto.
Qed.

Lemma rely_acted aid j nmax w a v s' l b : good w -> sy_open (w_sys w) !! aid = Some (HP l b) -> act_ok a (HP l b) ->
  lact w a = Ok (v, s') -> j <> aid -> w_n w < nmax -> rely j nmax w (acted aid a v s' w).
Proof.
  intros Hg Ho Ha Hd Hj Hn. pose proof (lact_same _ _ _ _ Hd) as (E1 & E2 & E3 & E4 & E5 & E6 & E7).
  apply rely_same; try done; simpl.
  - by eapply good_acted.
  - by rewrite lookup_insert_ne.
  - by rewrite E7.
Qed.

(** ** Finalize, Abort, FlushStats *)

Lemma slot_kept y h n T lost past aid key op x : inv y h n T lost -> sy_open y !! aid = Some (HD key op) ->
  is_del256 op = true -> d_leafPtr op = PSlot x -> was_slot past x -> was_slot (past ++ [(h, T)]) x.
Proof.
  intros Hi Hj H256 Hptr Hw.
  destruct (decide (x ∈ cover (oregs T))) as [Hin|Hin]; [|by apply was_slot_snoc].
  destruct (iv_ops _ _ _ _ _ _ _ Hi _ _ Hj) as (q & Hq & Hokq). simpl in Hokq. destruct Hokq as (_ & _ & _ & Hv).
  assert (d_isroot (d_kind op) = false) as Er by (unfold is_del256, d_isroot in *; by destruct (d_kind op)).
  rewrite Er, H256 in Hv. destruct Hv as (b0 & x0 & r & Hb0 & _ & Hp0 & _ & _ & [(o & Hocc & Hf & Hx & _)|(_ & Hx & _)]).
  - rewrite Hptr in Hp0. injection Hp0 as <-. by eapply was_slot_live.
  - rewrite Hptr in Hp0. injection Hp0 as <-. done.
Qed.

Definition unl_after (w : world) (y' : sys) (i : N) : N :=
  w_unl w i + (if bool_decide (i ∈ held (sy_open (w_sys w)) /\ i ∉ held (sy_open y')) then 1 else 0).

Lemma unl_ok w y' : good w -> locks_inv (t_locks (sy_tree y')) (held (sy_open y')) ->
  lmoved (t_locks (w_tree w)) (t_locks (sy_tree y')) -> (forall i, i ∈ held (sy_open y') -> i ∈ held (sy_open (w_sys w))) ->
  forall i, lget (t_locks (sy_tree y')) i = gen_of (unl_after w y' i) (bool_decide (i ∈ held (sy_open y'))).
Proof.
  intros Hg Hl Hm Hsub i. unfold unl_after. pose proof (g_locks _ _ _ Hg i) as Hi. pose proof (li_odd _ _ Hl i) as Ho.
  destruct (decide (i ∈ held (sy_open (w_sys w)))) as [H1|H1], (decide (i ∈ held (sy_open y'))) as [H2|H2].
  - rewrite (bool_decide_true _ H2). rewrite bool_decide_false by naive_solver. rewrite N.add_0_r.
    rewrite bool_decide_true in Hi by done. destruct (Hm i) as [->|E]; [done|].
    rewrite Hi, gen_of_next in E. apply Ho in H2. rewrite E, gen_of_odd in H2. done.
  - rewrite (bool_decide_false (i ∈ held (sy_open y'))) by done. rewrite bool_decide_true by done.
    rewrite bool_decide_true in Hi by done. destruct (Hm i) as [E|E].
    + exfalso. apply H2, Ho. by rewrite E, Hi, gen_of_odd.
    + by rewrite E, Hi, gen_of_next.
  - naive_solver.
  - rewrite (bool_decide_false (i ∈ held (sy_open y'))) by done. rewrite bool_decide_false by naive_solver. rewrite N.add_0_r.
    rewrite bool_decide_false in Hi by done. destruct (Hm i) as [->|E]; [done|].
    exfalso. apply H2, Ho. by rewrite E, Hi, gen_of_inc, gen_of_odd.
Qed.

Lemma held_after (o : gmap nat handle) aid hd i : NoDup (held o) -> o !! aid = Some hd -> i ∈ olids hd ->
  i ∈ held o /\ i ∉ held (delete aid o).
Proof.
  intros Hnd Ho Hi. split; [by eapply held_elem|]. rewrite (held_delete _ _ _ Ho) in Hnd.
  apply NoDup_app in Hnd as (_ & H & _). by apply H.
Qed.

(** How the trie changes when an operation takes effect. *)
Definition cut (T T' : option trie) (hd : handle) : Prop :=
  T' = T \/ oexts T T' \/ exists X, keeps T T' X /\ forall a, a ∈ X -> a ∈ oaddrs hd.

(** What is yet to be given back after the step: nothing, or locks of the operation that took effect. *)
Definition awake (w : world) (c : call) (k : wake) : Prop :=
  w_ids w = [] /\ wk_root (w_wake w) = false /\ (w_few w = true -> w_n w + 1 < 2 ^ 31) /\
  (k = w_wake w \/ w_few w = true /\ wk_few k = true /\ wk_prev k = w_trie w /\
    exists aid hd, ecall_aid c = Some aid /\ sy_open (w_sys w) !! aid = Some hd /\
      (forall i, i ∈ wk_ids k -> i ∈ olids hd) /\ (wk_root k = true -> oroot hd = true) /\
      forall T', T' = w_trie w \/ fin_by c = Some aid /\ cut (w_trie w) T' hd -> late_ok (w_trie w) T' (wk_ids k)).

Lemma call_world_as sc w c r y' k : scanned sc (w_tree w) -> good w -> w_n w + 1 < maxUint64 -> job_of c = None -> ~ is_restart c ->
  proper K fetch (w_sys w) c -> api_as sc (w_sys w) c = Ok (r, y') -> awake w c k ->
  exists w', w_sys w' = y' /\ w_wake w' = k /\ w_hist w' = hstep (w_hist w) (c, r) /\ w_n w' = w_n w + 1 /\
    w_past w' = w_past w ++ [(w_hist w', w_trie w')] /\ good w' /\
    forall j nmax l b, sy_open (w_sys w) !! j = Some (HP l b) -> w_n w + 1 < nmax -> rely j nmax w w'.
Proof.
  intros Hsc Hg Hn Hj Hnr Hp Ha Hk. pose proof (g_inv _ _ _ Hg) as Hi.
  destruct (api_moves_as _ _ _ _ _ Hj Hnr Ha) as (Hlm & Hep & Hopen).
  pose proof (step_okf_as K fetch HK sc _ _ _ _ _ c Hsc Hi ltac:(apply Hg) Hp) as Hst. rewrite Ha in Hst.
  destruct Hst as (Hrep & T' & lost' & Hi' & Hfl & Hch).
  set (w' := World y' (hstep (w_hist w) (c, r)) T' lost' (unl_after w y') (w_n w + 1) (w_past w ++ [(hstep (w_hist w) (c, r), T')]) k).
  assert (Hsub : forall j hd, sy_open y' !! j = Some hd -> sy_open (w_sys w) !! j = Some hd /\ ecall_aid c <> Some j).
  { intros j hd Hjo. destruct Hopen as [(E & E1 & _)|(aid & hd' & E & _ & _ & E1 & _)]; rewrite E1 in Hjo.
    - split; [done|]. by rewrite E.
    - apply lookup_delete_Some in Hjo as [? ?]. split; [done|]. rewrite E. congruence. }
  assert (Hsubh : forall i, i ∈ held (sy_open y') -> i ∈ held (sy_open (w_sys w))).
  { intros i. destruct Hopen as [(_ & -> & _)|(aid & hd' & _ & Ho & _ & -> & _)]; [done|].
    rewrite (held_delete _ _ _ Ho). intros ?. apply elem_of_app. by right. }
  destruct (iv_locks _ _ _ _ _ _ _ Hi) as [Hnd _].
  assert (Hunl1 : forall aid hd i, ecall_aid c = Some aid -> sy_open (w_sys w) !! aid = Some hd -> i ∈ olids hd ->
    i ∉ held (sy_open y') /\ unl_after w y' i = w_unl w i + 1).
  { intros aid hd i Hea Hhd Hin. destruct Hopen as [(E & _)|(aid' & hd' & E & Hhd' & _ & E1 & _)]; [congruence|].
    rewrite Hea in E. injection E as <-. destruct (held_after _ _ _ _ Hnd Hhd Hin) as [H1 H2]. rewrite <- E1 in H2.
    split; [done|]. unfold unl_after. by rewrite bool_decide_true. }
  assert (Hwok : wok w').
  { destruct Hk as (K1 & K2 & K3 & [->|(K4 & K5 & K6 & aid & hd & K7 & K8 & K9 & K10 & K11)]); split; cbn [w' w_sys w_hist w_trie w_lost w_unl w_n w_past w_wake].
    - rewrite K1. by intros i ?%elem_of_nil.
    - by rewrite K2.
    - done.
    - by rewrite K1.
    - rewrite K1. intros o1 o2 l0 l E _ _ _ Hin. symmetry in E. apply app_eq_nil in E as [_ ->]. by apply elem_of_nil in Hin.
    - intros i Hin. destruct (Hunl1 aid hd i K7 K8 (K9 i Hin)) as [H1 ->]. split; [done|lia].
    - intros Hr. pose proof (iv_rl1 _ _ _ _ _ _ _ Hi) as H1. rewrite (rootops_delete _ _ _ K8), (K10 Hr) in H1.
      destruct Hopen as [(E & _)|(aid' & hd' & E & _ & _ & -> & _)]; [congruence|]. rewrite K7 in E. injection E as <-. lia.
    - intros _. by apply K3.
    - intros _. split; [done|lia].
    - rewrite K6. apply K11. destruct (fl_kept _ _ _ _ _ _ _ _ Hfl) as [?|[(H1 & _ & H3)|(aid' & hd' & X & H1 & H2 & H3 & H4 & H5 & H6)]].
      + by left.
      + right. assert (fin_by c = Some aid) as -> by (destruct H3 as (aid' & -> & _); simpl in *; congruence). split; [done|]. right; by left.
      + right. split; [destruct c; simpl in *; congruence|]. right; right. exists X. split; [done|]. assert (ecall_aid c = Some aid') by (destruct c; simpl in *; congruence).
        assert (aid' = aid) as -> by congruence. rewrite K8 in H2. by injection H2 as <-. }
  assert (Hgw : good w').
  { split; cbn [w' w_sys w_hist w_trie w_lost w_unl w_n w_past].
    - done.
    - lia.
    - by rewrite last_snoc.
    - apply Forall_app. split; [apply Hg|]. apply Forall_singleton. split; [apply Hi'|]. eexists. apply Hi'.
    - apply unl_ok; try done. apply Hi'.
    - intros aid key op x Ho H256 Hptr. eapply slot_kept; try done. destruct (Hsub _ _ Ho) as [Ho' _]. by eapply (g_256 _ _ _ Hg).
    - done. }
  exists w'. split_and!; try done. intros j nmax l b Ho Hnmax.
  assert (Hj' : ecall_aid c <> Some j).
  { destruct Hopen as [(E & _)|(aid & hd & E & Hhd & Hne & _)]; rewrite E; [done|]. intros [= ->]. rewrite Ho in Hhd.
    injection Hhd as <-. by apply (Hne l b). }
  assert (Hopj : sy_open y' !! j = sy_open (w_sys w) !! j).
  { destruct Hopen as [(E & -> & _)|(aid & hd & E & Hhd & Hne & -> & _)]; [done|]. rewrite lookup_delete_ne by congruence. done. }
  assert (Hrj : t_resv (sy_tree y') !! j = t_resv (w_tree w) !! j).
  { destruct Hopen as [(E & _ & ->)|(aid & hd & E & Hhd & Hne & _ & Hr)]; [done|].
    destruct (iv_ops _ _ _ _ _ _ _ Hi _ _ Hhd) as (p & _ & Hok). rewrite (Hr aid).
    - rewrite list_lookup_insert_ne by congruence. done.
    - destruct hd as [found op|key op|l0 b0]; simpl in *; [tauto|tauto|]. by apply (Hne l0 b0). }
  assert (Hack : acked r = true -> is_Some (fin_by c)).
  { intros Har. rewrite Har in Hch. destruct Hch as [Hch _]. destruct c; simpl in *; try done; eauto. }
  assert (Hpe : forall p, h_pend (w_hist w) !! j = Some p ->
    exists p', h_pend (hstep (w_hist w) (c, r)) !! j = Some p' /\ pend_le p p' /\ (acked r = true -> p_over p' = true) /\
    ((exists aid, c = CFinD aid /\ r = RBool true) -> p_del p' = true)).
  { intros p Hpj. eapply hstep_pend; try done. intros aid Haid. destruct Hopen as [(E & _)|(aid' & hd & E & Hhd & _)]; [congruence|].
    rewrite Haid in E. injection E as <-. destruct (iv_ops _ _ _ _ _ _ _ Hi _ _ Hhd) as (q & Hq & _). by exists q. }
  assert (Hee : forall e, mine j w e -> e ∈ t_resv (w_tree w) /\ e <= t_epoch (w_tree w)).
  { intros e [_ He]. split; [by eapply elem_of_list_lookup_2|]. by eapply (iv_busy _ _ _ _ _ _ _ Hi). }
  assert (Hunl : forall i, w_unl w i <= unl_after w y' i <= w_unl w i + 1).
  { intros i. unfold unl_after. destruct (bool_decide _); lia. }
  split; cbn [w' w_sys w_hist w_trie w_lost w_unl w_n w_past]; try done.
  - destruct Hfl as [F1 F2 F3 F4 F5]. split; cbn [w' w_sys w_hist w_trie w_lost w_unl w_n w_past]; try done.
    2: by left.
    + intros e [? ?]. unfold mine. cbn [w' w_sys]. by rewrite Hopj, Hrj.
    + intros e x Hm. destruct (Hee _ Hm). by apply F1.
    + intros e x Hm Hs Hx. destruct (Hee _ Hm) as [He1 He2]. destruct (F2 e x He1 He2 Hs Hx) as [?|Hz]; [by left|right].
      destruct Hz as (aid & key & op & p & b0 & v & -> & -> & Hop & H256 & Hptr & Hpa & Hf & Hb & Hv & Hm1 & Hm2).
      exists b0, v. split_and!; try done.
      * cbn [hstep]. rewrite Hpa, Hf. destruct (p_over p); simpl; apply lookup_delete.
      * by eapply (g_256 _ _ _ Hg).
    + intros e x Hm. destruct (Hee _ Hm). by apply F3.
  - lia.
  - intros p Hpj. destruct (Hpe p Hpj) as (p' & H1 & H2 & H3 & _). exists p'. split; [done|]. split; [done|].
    destruct (acked r) eqn:Er; [right; by apply H3|left; apply Hch].
  - intros i. pose proof (Hunl i). lia.
  - intros hd i Hhd Hin. unfold unl_after. rewrite bool_decide_false; [lia|]. intros [_ Hno]. apply Hno.
    apply (held_elem _ j hd); [by rewrite Hopj|done].
  - destruct (fl_kept _ _ _ _ _ _ _ _ Hfl) as [?|[(H1 & H2 & H3)|(aid & hd & X & H1 & H2 & H3 & H4 & H5 & _)]].
    + by left.
    + right; left. split; [done|]. split; [done|]. intros p' Hp'.
      destruct (iv_ops _ _ _ _ _ _ _ Hi _ _ Ho) as (p & Hpj & _). destruct (Hpe p Hpj) as (p2 & Hp2 & _ & _ & Hd).
      rewrite Hp' in Hp2. injection Hp2 as <-. auto.
    + right; right. exists X. split; [done|].
      assert (Hea : ecall_aid c = Some aid) by (destruct c; simpl in *; congruence).
      assert (Eo' : sy_open y' = delete aid (sy_open (w_sys w))).
      { destruct Hopen as [(E & _)|(aid' & hd' & E & Hhd & _ & E1 & _)]; [congruence|]. rewrite Hea in E. by injection E as <-. }
      split.
      * intros a Hin. destruct (H4 a Hin) as [Ha0 Hl]. split; [done|]. unfold unl_after.
        rewrite bool_decide_true; [lia|]. rewrite Eo'. by eapply held_after.
      * intros hd' Hhd' Hroot. destruct (oroot hd) eqn:Ero; [|by apply H5].
        assert (j <> aid) by congruence.
        by rewrite (other_root _ _ _ _ _ _ _ _ _ _ _ Hi H2 Ero H Hhd') in Hroot.
  - destruct Hk as (K1 & K2 & K3 & [->|(K4 & K5 & K6 & aid & hd & K7 & K8 & K9 & K10 & K11)]).
    + apply wake_step_same; [done|by right].
    + split; [cbn [w' w_wake]; congruence|right]. split; [done|]. split; [done|]. intros i Hin. cbn [w' w_unl].
      by apply (Hunl1 aid hd i K7 K8), K9.
Qed.
End FineStep.
