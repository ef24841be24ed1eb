(** * FineLock: what a client in the middle of PrepareUpdate or PrepareDelete knows about nodes whose lock word it
    has read, and what it knows once it has the locks. *)
From Verif Require Export FineLook.

Lemma occ_above p np par t o : occ p np par t o ->
  (o_path o = p /\ o_par o = par /\ o_ptr o = np) \/
  exists o1 b, occ p np par t o1 /\ o_addr o1 = o_par o /\ o_path o = o_path o1 ++ o_pfx o1 ++ [b].
Proof.
  induction 1 as [p np par full a pfx cs|p np par full a pfx l b t r o H IH]; [by left|right].
  destruct IH as [(E1 & E2 & _)|(o1 & b1 & H1 & H2 & H3)].
  - exists (Occ p np par a full pfx (heads (l ++ (b, t) :: r))), b. split_and!; try done. constructor.
  - exists o1, b1. split_and!; try done. by constructor.
Qed.

Section FineLock.
Context (K : list N -> Prop) (fetch : N -> list N) (HK : universe K).
Context (aid : nat) (key : list N) (n0 : nat) (e : N) (ns nmax : N) (Hmax : nmax <= ns + 2 ^ 31).
Local Notation good := (good K fetch).
Local Notation evo := (evo K fetch).
Local Notation rely := (rely K fetch aid nmax).
Local Notation ok := (ok K fetch aid nmax).
Local Notation J := (J K fetch aid key n0 e).
Local Notation known := (known n0).
Local Notation span := (span n0).
Local Notation always := (always key n0).
Local Notation stable := (stable K fetch aid key n0 e nmax).

(** The words of a node of the tree. *)
Lemma live_slot w o b x : good w -> ooccr (w_trie w) o -> oslot o b x ->
  (mget (t_mem (w_tree w)) x = 0 /\ o_full o = true /\ b ∉ map fst (o_hs o)) \/
  exists l hd r, o_hs o = l ++ (b, hd) :: r /\ x = slot_of (o_full o) (o_addr o) (o_pfx o) b (length l) /\
    mget (t_mem (w_tree w)) x = enc_head b hd /\
    match hd with
    | HLeaf k v => v < vlim /\ fetch v = k /\ K k /\ (o_path o ++ o_pfx o ++ [b]) `prefix_of` k
    | HNode f a p n => exists o', ooccr (w_trie w) o' /\ o_path o' = o_path o ++ o_pfx o ++ [b] /\ o_ptr o' = PSlot x /\
        o_par o' = o_addr o /\ o_addr o' = a /\ o_full o' = f /\ o_pfx o' = p /\ n = ncount f (length (o_hs o'))
    end.
Proof.
  intros Hg Ho [Hb Hx]. pose proof (iv_core _ _ _ _ _ _ _ (g_inv _ _ _ Hg)) as Hc.
  destruct (w_trie w) as [T|] eqn:ET; [|done]. destruct (occ_zip _ _ Ho) as (D & cs & E & Hp & _ & _ & Hh).
  rewrite E in Hc. destruct (sub_facts _ _ _ _ _ Hc) as (Hw & Hr & _). pose proof Hr as Hr'. apply rep_node_iff in Hr' as [[_ Hm] _].
  pose proof Hw as Hw'. apply wf_node_iff in Hw' as (Hsb & _).
  pose proof (sbytes_NoDup _ Hsb) as Hnd.
  assert (Hfull : o_full o = true -> mget (t_mem (w_tree w)) x = default 0 (enc b <$> assoc b cs) /\ x = slot_of true (o_addr o) (o_pfx o) b 0).
  { intros Ef. rewrite Ef in Hx, Hm. subst x. split; [|done]. unfold slot_of. cbn [slot_idx]. rewrite Hm by done. by rewrite assoc_bws. }
  assert (Hhas : forall l t r, cs = l ++ (b, t) :: r -> x = slot_of (o_full o) (o_addr o) (o_pfx o) b (length l) -> mget (t_mem (w_tree w)) x = enc b t ->
    exists l hd r, o_hs o = l ++ (b, hd) :: r /\ x = slot_of (o_full o) (o_addr o) (o_pfx o) b (length l) /\
    mget (t_mem (w_tree w)) x = enc_head b hd /\
    match hd with
    | HLeaf k v => v < vlim /\ fetch v = k /\ K k /\ (o_path o ++ o_pfx o ++ [b]) `prefix_of` k
    | HNode f a p n => exists o', ooccr (Some T) o' /\ o_path o' = o_path o ++ o_pfx o ++ [b] /\ o_ptr o' = PSlot x /\
        o_par o' = o_addr o /\ o_addr o' = a /\ o_full o' = f /\ o_pfx o' = p /\ n = ncount f (length (o_hs o'))
    end).
  { intros l t r Ecs Hxl Hmx. exists (heads l), (head_of t), (heads r). rewrite heads_length, enc_head_of, Hh, Ecs, heads_app.
    split_and!; try done. assert (Hin : (b, t) ∈ cs) by (rewrite Ecs; apply elem_of_app; right; left).
    destruct (child_wf _ _ _ _ _ _ _ _ _ Hw Hin) as [Hwt _]. destruct t as [k v|f2 a2 p2 cs2]; simpl.
    - destruct (wf_contents K fetch _ _ k v Hwt ltac:(by left)) as (Hpk & Hk & Hv & Hfv). rewrite <- Hp. done.
    - destruct (occ_child_of D (o_full o) (o_addr o) (o_pfx o) l b (Node f2 a2 p2 cs2) r eq_refl) as (o' & Ho' & H1 & H2 & H3 & H4 & H5 & H6 & H7).
      exists o'. rewrite H7, heads_length, H1, Hp, H2, <- Hxl. split_and!; try done. by rewrite E, Ecs. }
  destruct (o_full o) eqn:Ef.
  - destruct (Hfull eq_refl) as [Hmx Hxs]. destruct (assoc b cs) as [t|] eqn:Ea.
    + right. destruct (assoc_split _ _ _ Ea) as (l & r & Ecs & _). by apply (Hhas l t r).
    + left. split_and!; try done. rewrite Hh, heads_fst. by apply assoc_None.
  - right. destruct Hx as (i & Hi & Hxi). rewrite Hh, heads_fst in Hi.
    rewrite list_lookup_fmap in Hi. destruct (cs !! i) as [[b' c]|] eqn:Ei; [|done]. injection Hi as ->.
    pose proof (take_drop_middle _ _ _ Ei) as Ecs.
    assert (Hli : length (take i cs) = i) by (rewrite take_length; apply lookup_lt_Some in Ei; lia).
    apply (Hhas (take i cs) c (drop (S i) cs)); [done|by rewrite Hli|].
    rewrite bws_length in Hm. assert (H : mread (t_mem (w_tree w)) (o_addr o + N.of_nat (prefix_slots (length (o_pfx o)))) (length cs) !! i = map snd (bws cs) !! i) by (by rewrite Hm).
    rewrite mread_lookup in H by (by eapply lookup_lt_Some). unfold bws in H. rewrite map_map, list_lookup_fmap, Ei in H. simpl in H.
    subst x. unfold slot_of. cbn [slot_idx]. congruence.
Qed.

(** ** What holds all the time *)

Definition pnd (w : world) (p : pend) : Prop := h_pend (w_hist w) !! aid = Some p.

(** The trie just before the last effect was there at some moment of this attempt. *)
Definition seen_prev (w : world) : Prop := exists h, (h, w_prev w) ∈ span w.

(** Node [o], cut off by that effect, still has the children it had. *)
Definition iced (w : world) (o : occ_t) : Prop :=
  (forall x, x ∈ seqN (oreg o).1 (oreg o).2 -> x ∉ cover (oregs (w_trie w))) /\
  forall b x, oslot o b x -> mget (t_mem (w_tree w)) x = 0 \/ isLeaf (mget (t_mem (w_tree w)) x) = true \/
    exists o', ooccr (w_prev w) o' /\ o_path o' = o_path o ++ o_pfx o ++ [b] /\ o_ptr o' = PSlot x /\ o_par o' = o_addr o /\
      mget (t_mem (w_tree w)) x = onode b o'.

Record base (w : world) : Prop := {
  ba_J : J w;
  ba_n : ns <= w_n w < nmax;
  ba_pend : exists p, pnd w p /\ p_key p = key /\ (p_over p = false -> forall q, q ∈ span w -> q.2 = w_trie w);
  ba_few : w_few w = true -> ns = 0;
  ba_prev : seen_prev w -> w_ids w <> [] -> forall o, ooccr (w_prev w) o -> alive (w_trie w) o \/ iced w o
}.

(** The client holds these lock words; how often they were given back so far. *)
Definition hold (L : list (N * N)) (b : bool) (w : world) : Prop :=
  sy_open (w_sys w) !! aid = Some (HP (map fst L) b) /\ forall i u, (i, u) ∈ L -> w_unl w i = u.

(** A step of the client itself. *)
Record quiet (w w' : world) : Prop := {
  q_evo : evo aid w w';
  q_hist : w_hist w' = w_hist w;
  q_trie : w_trie w' = w_trie w;
  q_unl : w_unl w' = w_unl w;
  q_n : w_n w' = w_n w;
  q_wake : w_wake w' = w_wake w
}.

Lemma step_later w w' : rely w w' \/ quiet w w' -> later w w'.
Proof. intros [H|H]; [eapply evo_later, (r_evo _ _ _ _ _ _ H)|eapply evo_later, H]. Qed.

Lemma step_wake w w' : rely w w' \/ quiet w w' -> wake_step w w'.
Proof. intros [H|[]]; [apply (r_wake _ _ _ _ _ _ H)|]. apply wake_step_same; auto. Qed.

Lemma seen_later w w' : later w w' -> w_prev w' = w_prev w -> seen_prev w -> seen_prev w'.
Proof. intros Hl E (h & Hq). exists h. rewrite E. by eapply span_later. Qed.

(** What was frozen stays so. *)
Lemma iced_step w w' o : evo aid w w' -> J w -> known w o -> w_trie w' = w_trie w -> w_prev w' = w_prev w -> iced w o -> iced w' o.
Proof.
  intros Hev HJ Ho ET EP [H1 H2]. split; [by rewrite ET|]. intros b x Hs. pose proof (oslot_region _ _ _ Hs) as Hx.
  rewrite EP. destruct (e_mem _ _ _ _ _ Hev e x) as [->|(b0 & v & Hb0 & Hv & M1 & M2 & _)].
  - apply HJ.
  - by apply (no_safe _ _ _ _ _ _ (j_known _ _ _ _ _ _ _ HJ _ Ho)).
  - rewrite ET. by apply H1.
  - by apply H2.
  - by left.
Qed.

Lemma iced_new w w' o : evo aid w w' -> J w -> w_prev w' = w_trie w -> ooccr (w_trie w) o -> alive (w_trie w') o \/ iced w' o.
Proof.
  intros Hev HJ EP Ho. pose proof (j_good _ _ _ _ _ _ _ HJ) as Hg.
  destruct (e_gone _ _ _ _ _ Hev) as (G & Hgone & HG). destruct (Hgone _ Ho) as [?|Hin]; [by left|right].
  assert (Hd : forall x, x ∈ seqN (oreg o).1 (oreg o).2 -> x ∉ cover (oregs (w_trie w'))).
  { intros x Hx. apply HG. apply elem_of_cover. by exists (oreg o). }
  assert (Hk : known w o). { exists (w_hist w, w_trie w). split; [|done]. apply (span_last K fetch n0); apply HJ. }
  split; [done|]. intros b x Hs. pose proof (oslot_region _ _ _ Hs) as Hx. rewrite EP.
  destruct (e_mem _ _ _ _ _ Hev e x) as [->|(b0 & v & Hb0 & Hv & M1 & M2 & _)].
  - apply HJ.
  - by apply (no_safe _ _ _ _ _ _ (j_known _ _ _ _ _ _ _ HJ _ Hk)).
  - by apply Hd.
  - destruct (live_slot w o b x Hg Ho Hs) as [(E & _)|(l & hd & r & Eh & Ex & E & Hhd)]; [by left|right].
    rewrite E. assert (Hb : b < 256) by (by destruct Hs). destruct hd as [k v|f a p n].
    + left. simpl. by apply buildLeaf_isLeaf.
    + right. destruct Hhd as (o2 & Ho2 & P1 & P2 & P3 & A1 & A2 & A3 & A4). exists o2. split_and!; try done.
      simpl. unfold onode. by rewrite A1, A2, A3, <- A4.
  - by left.
Qed.

Lemma base_step w w' : rely w w' \/ quiet w w' -> base w -> base w'.
Proof.
  intros Hs [HJ Hn (p & Hp & Hk & Ho) Hfew Hprev].
  assert (Hev : evo aid w w') by (destruct Hs as [H|H]; [apply (r_evo _ _ _ _ _ _ H)|apply H]).
  split.
  - by eapply J_evo.
  - destruct Hs as [H|H]; [pose proof (r_n _ _ _ _ _ _ H); lia|]. by rewrite (q_n _ _ H).
  - assert (Hp' : exists p', pnd w' p' /\ pend_le p p' /\ (w_trie w' = w_trie w \/ p_over p' = true)).
    { destruct Hs as [H|H]; [by apply (r_pend _ _ _ _ _ _ H)|]. exists p. unfold pnd. rewrite (q_hist _ _ H).
      split_and!; try done. left. apply H. }
    destruct Hp' as (p' & Hp' & (Hk' & Hd' & Ho') & Hc). exists p'. split; [done|]. split; [congruence|]. intros Hov q Hq.
    destruct Hc as [Hc|Hc]; [|congruence]. assert (Hov' : p_over p = false) by (destruct (p_over p); [by rewrite Ho' in Hov|done]).
    unfold FineRead.span in Hq. destruct (e_past _ _ _ _ _ Hev) as [Ep|(Ep & _)]; rewrite Ep in Hq; [|rewrite Hc; by apply Ho].
    pose proof (j_n0 _ _ _ _ _ _ _ HJ). rewrite drop_app_le in Hq by lia.
    apply elem_of_app in Hq as [Hq|Hq%elem_of_list_singleton]; [|by subst q]. rewrite Hc. by apply Ho.
  - destruct (step_wake _ _ Hs) as [-> _]. done.
  - destruct (step_wake _ _ Hs) as [_ [((l & El) & EP & HT)|(E0 & EP & _)]].
    + intros (h & Hq) Hne o Ho'. assert (Hne0 : w_ids w <> []) by (rewrite El; intros E; by apply app_eq_nil in E as [_ ?]).
      destruct (HT Hne0) as [ET _]. rewrite ET. rewrite EP in Hq, Ho'.
      assert (Hq' : (h, w_prev w) ∈ span w \/ w_prev w = w_trie w).
      { unfold FineRead.span in *. destruct (e_past _ _ _ _ _ Hev) as [Ep|(Ep & _)]; rewrite Ep in Hq; [|by left].
        pose proof (j_n0 _ _ _ _ _ _ _ HJ). rewrite drop_app_le in Hq by lia.
        apply elem_of_app in Hq as [Hq|[= _ Hq]%elem_of_list_singleton]; [by left|right; congruence]. }
      destruct Hq' as [Hq'|E].
      2:{ left. exists o. rewrite E in Ho'. split; [done|apply osame_refl]. }
      destruct (Hprev ltac:(by exists h) Hne0 _ Ho') as [?|Hi]; [by left|right]. eapply iced_step; try done. exists (h, w_prev w). done.
    + intros _ _ o Ho'. rewrite EP in Ho'. by eapply iced_new.
Qed.

Lemma hold_rely L b w w' : rely w w' -> hold L b w -> hold L b w'.
Proof.
  intros H [H1 H2]. split; [by rewrite (r_open _ _ _ _ _ _ H)|]. intros i u Hin.
  rewrite (r_own _ _ _ _ _ _ H _ i H1); [by apply H2|]. simpl. apply elem_of_list_fmap. by exists (i, u).
Qed.

(** Conditions kept by all steps. *)
Definition lasting (P : world -> Prop) : Prop := forall w w', base w -> rely w w' \/ quiet w w' -> P w -> P w'.

Lemma lasting_later (P : world -> Prop) : (forall w w', later w w' -> P w -> P w') -> lasting P.
Proof. intros H w w' _ Hs. by apply H, step_later. Qed.
Lemma lasting_and P P' : lasting P -> lasting P' -> lasting (fun w => P w /\ P' w).
Proof. intros H1 H2 w w' Hb Hs [H3 H4]. split; [by eapply H1|by eapply H2]. Qed.
Lemma lasting_imp (A : Prop) P : lasting P -> lasting (fun w => A -> P w).
Proof. intros H w w' Hb Hs HP Ha. eapply H; try done. by apply HP. Qed.
Lemma lasting_pure (A : Prop) : lasting (fun _ => A).
Proof. by intros w w' _ _. Qed.

Lemma acted_quiet w a v s' L b : base w -> hold L b w -> act_ok a (HP (map fst L) b) -> lact w a = Ok (v, s') ->
  quiet w (acted aid a v s' w).
Proof.
  intros Hb [Ho _] Ha Hd. split; try done. eapply evo_acted; try done. apply (ba_J _ Hb).
Qed.

Lemma stable_hold L b P : lasting P -> stable (fun w => base w /\ hold L b w /\ P w).
Proof.
  intros HLp. split.
  - intros w (H & _). apply H.
  - intros w w' Hr (Hb & Hh & Hp). split_and!; [eapply base_step; eauto|by eapply hold_rely|eapply HLp; eauto].
  - intros w a v s' Ha Hd (Hb & Hh & Hp). pose proof (ba_J _ Hb) as HJ.
    destruct (read_acted K fetch aid e _ _ _ _ Ha Hd (j_good _ _ _ _ _ _ _ HJ) (j_mine _ _ _ _ _ _ _ HJ)) as [Hev Hsys].
    assert (Hq : quiet w (acted aid a v s' w)) by (by split).
    split_and!; [eapply base_step; eauto| |eapply HLp; eauto]. destruct Hh as [H1 H2]. split; [by rewrite Hsys|done].
Qed.

Lemma hold_rtc L b P w w' : lasting P -> rtc rely w w' -> base w -> hold L b w -> P w -> base w' /\ hold L b w' /\ P w'.
Proof.
  intros HLp Hr Hb Hh Hp. by apply (I_rtc K fetch aid key n0 e nmax (fun w => base w /\ hold L b w /\ P w) (stable_hold _ _ _ HLp) w w' Hr).
Qed.

(** ** Lock words *)

(** Lock word [i] had been given back [u] times at some moment of this attempt. *)
Definition since (i u : N) (w : world) : Prop :=
  (u <= w_unl w i /\ w_unl w i + ns <= u + w_n w) /\ (i ∈ w_ids w -> u < w_unl w i).

Lemma lasting_since i u : lasting (since i u).
Proof.
  intros w w' Hb Hs [[H1 H2] H3]. pose proof (step_wake _ _ Hs) as Hw. destruct Hs as [Hs|Hs].
  - pose proof (r_unl _ _ _ _ _ _ Hs i). split; [lia|]. intros Hin. destruct Hw as [_ [((l & El) & _)|(_ & _ & Hu)]].
    + assert (i ∈ w_ids w) by (rewrite El; apply elem_of_app; by right). specialize (H3 H0). lia.
    + rewrite (Hu i Hin). lia.
  - unfold since. by rewrite (q_unl _ _ Hs), (q_n _ _ Hs), (q_wake _ _ Hs).
Qed.

(** The value of a lock word: how often it was given back, and whether it is locked; a word that is yet to be
    given back is locked. *)
Definition gen_val (i : N) (u : N) (b : bool) (w : world) : Prop :=
  (i ∉ w_ids w /\ u = w_unl w i) \/ (i ∈ w_ids w /\ w_unl w i = u + 1 /\ b = true).

Lemma gen_now w i : base w -> exists u b, lgen w i = gen_of u b /\ gen_val i u b w.
Proof.
  intros H. pose proof (j_good _ _ _ _ _ _ _ (ba_J _ H)) as Hg. pose proof (g_locks _ _ _ Hg i) as E. unfold lgen, gen_val.
  destruct (decide (i ∈ w_ids w)) as [Hin|Hin]; [rewrite (bool_decide_true _ Hin)|rewrite (bool_decide_false _ Hin)].
  - destruct (wo_ids _ (g_wake _ _ _ Hg) i Hin) as [Hh H1]. rewrite bool_decide_false in E by done. exists (w_unl w i - 1), true.
    split; [|right; split_and!; [done|lia|done]]. rewrite E.
    assert (E1 : w_unl w i = w_unl w i - 1 + 1) by lia. rewrite E1 at 1. apply gen_of_undo.
  - eexists _, _. split; [exact E|by left].
Qed.

Lemma since_now i u b w : base w -> gen_val i u b w -> since i u w.
Proof.
  intros H Hv. pose proof (ba_n _ H). pose proof (j_good _ _ _ _ _ _ _ (ba_J _ H)) as Hg. unfold since. destruct Hv as [[Hn ->]|(Hin & E & _)].
  - split; [lia|done].
  - destruct (wo_late _ (g_wake _ _ _ Hg)) as [Hf H1]; [by intros E0; rewrite E0 in Hin; apply elem_of_nil in Hin|].
    pose proof (ba_few _ H Hf). lia.
Qed.

Lemma since_eq i u b b' w : base w -> since i u w -> gen_of u b = gen_of (w_unl w i) b' -> w_unl w i = u /\ b' = b.
Proof.
  intros Hb [[H1 H2] _] E. pose proof (ba_n _ Hb). apply (gen_of_inj u (w_unl w i) b b'); [done|done|]. unfold maxUint64 in *. lia.
Qed.

Lemma gen_eq i u u' b b' w : base w -> since i u w -> gen_val i u' b' w -> gen_of u b = gen_of u' b' -> u' = u /\ b' = b.
Proof.
  intros Hb [[H1 H2] H3] Hv E. pose proof (ba_n _ Hb). apply (gen_of_inj u u' b b'); [done| |].
  - destruct Hv as [[_ ->]|(Hin & Eu & _)]; [done|]. specialize (H3 Hin). lia.
  - destruct Hv as [[_ ->]|(Hin & Eu & _)]; unfold maxUint64 in *; lia.
Qed.

Lemma lasting_past i u : lasting (fun w => u < w_unl w i).
Proof.
  intros w w' Hb [Hs|Hs] H.
  - pose proof (r_unl _ _ _ _ _ _ Hs i). lia.
  - by rewrite (q_unl _ _ Hs).
Qed.

(** ** Acts *)

Lemma ok_cas {A} i u bg (k : N -> prog A) Q w L b P : lasting P -> (forall w, P w -> since i u w) ->
  gen_odd (gen_of u bg) = false -> base w -> hold L b w -> P w ->
  (forall w1, base w1 -> hold L b w1 -> P w1 -> ok (k 0) Q w1) ->
  (forall w1, base w1 -> hold ((i, u) :: L) b w1 -> P w1 -> ok (k 1) Q w1) -> ok (Act (ACas i (gen_of u bg)) k) Q w.
Proof.
  intros HLp Hs Hodd Hb Hh Hp K0 K1 w1 Hr. destruct (hold_rtc _ _ _ _ _ HLp Hr Hb Hh Hp) as (Hb1 & Hh1 & Hp1).
  pose proof Hh1 as [Ho1 Hu1].
  assert (Ha : act_ok (ACas i (gen_of u bg)) (HP (map fst L) b)) by done.
  split; [done|]. pose proof (g_locks _ _ _ (j_good _ _ _ _ _ _ _ (ba_J _ Hb1)) i) as Hg.
  assert (Eh : hdl aid w1 = HP (map fst L) b) by (unfold hdl; by rewrite Ho1).
  assert (Hno : lact w1 (ACas i (gen_of u bg)) = Ok (0, w_tree w1) -> exists v s', lact w1 (ACas i (gen_of u bg)) = Ok (v, s') /\
    ok (k v) Q (acted aid (ACas i (gen_of u bg)) v s' w1)).
  { intros Hd. pose proof (acted_quiet _ _ _ _ _ _ Hb1 Hh1 Ha Hd) as Hq.
    eexists _, _. split; [exact Hd|]. apply K0.
    + eapply base_step; eauto.
    + split; [cbn [acted w_sys sy_open]; rewrite lookup_insert, Eh; done|]. done.
    + eapply HLp; eauto. }
  destruct (decide (i ∈ w_ids w1)) as [Hin|Hin].
  { apply Hno. cbn [lact]. by rewrite bool_decide_true. }
  destruct (N.eqb_spec (lget (t_locks (w_tree w1)) i) (gen_of u bg)) as [E|E].
  - assert (Hd : lact w1 (ACas i (gen_of u bg)) = Ok (1, set_locks (w_tree w1) (mset (t_locks (w_tree w1)) i (gen_inc (gen_of u bg))))).
    { cbn [lact do_act]. rewrite bool_decide_false by done. unfold lock_cas. by rewrite (proj2 (N.eqb_eq _ _) E). }
    pose proof (acted_quiet _ _ _ _ _ _ Hb1 Hh1 Ha Hd) as Hq.
    eexists _, _. split; [exact Hd|]. apply K1.
    + eapply base_step; eauto.
    + split; [cbn [acted w_sys sy_open]; rewrite lookup_insert, Eh; done|].
      intros j u' [[= -> ->]|Hin2]%elem_of_cons; [|by apply Hu1]. cbn [acted w_unl].
      rewrite Hg in E. symmetry in E. by apply (since_eq _ _ _ _ _ Hb1 (Hs _ Hp1)) in E as [-> _].
    + eapply HLp; eauto.
  - apply Hno. cbn [lact do_act]. rewrite bool_decide_false by done. unfold lock_cas. by rewrite (proj2 (N.eqb_neq _ _) E).
Qed.

Lemma ok_back {A} i u (k : N -> prog A) Q w L b P : lasting P -> (i, u) ∈ L ->
  base w -> hold L b w -> P w ->
  (forall w1, base w1 -> hold (filter (fun q => fst q <> i) L) b w1 -> P w1 -> ok (k 0) Q w1) -> ok (Act (ABack i) k) Q w.
Proof.
  intros HLp Hin Hb Hh Hp K0 w1 Hr. destruct (hold_rtc _ _ _ _ _ HLp Hr Hb Hh Hp) as (Hb1 & Hh1 & Hp1).
  pose proof Hh1 as [Ho1 Hu1]. assert (Eh : hdl aid w1 = HP (map fst L) b) by (unfold hdl; by rewrite Ho1).
  assert (Ha : act_ok (ABack i) (HP (map fst L) b)) by (simpl; apply elem_of_list_fmap; by exists (i, u)).
  split; [by rewrite Eh|].
  assert (Hd : lact w1 (ABack i) = Ok (0, set_locks (w_tree w1) (mset (t_locks (w_tree w1)) i (gen_dec (lget (t_locks (w_tree w1)) i))))) by done.
  pose proof (acted_quiet _ _ _ _ _ _ Hb1 Hh1 Ha Hd) as Hq.
  eexists _, _. split; [exact Hd|]. apply K0.
  - eapply base_step; eauto.
  - split.
    + cbn [acted w_sys sy_open]. rewrite lookup_insert, Eh. cbn [hp_act]. do 2 f_equal. clear. induction L as [|[j v] L IH]; [done|].
      rewrite !filter_cons. cbn [map fst]. rewrite filter_cons. destruct (decide (j <> i)), (decide (fst (j, v) <> i)); try done. simpl. by rewrite IH.
    + intros j u' [_ Hj]%elem_of_list_filter. by apply Hu1.
  - eapply HLp; eauto.
Qed.

Lemma ok_rootcas {A} (k : N -> prog A) Q w L P : lasting P ->
  base w -> hold L false w -> P w ->
  (forall w1, base w1 -> hold L false w1 -> P w1 -> ok (k 0) Q w1) ->
  (forall w1, base w1 -> hold L true w1 -> P w1 -> ok (k 1) Q w1) -> ok (Act ARootCas k) Q w.
Proof.
  intros HLp Hb Hh Hp K0 K1 w1 Hr. destruct (hold_rtc _ _ _ _ _ HLp Hr Hb Hh Hp) as (Hb1 & Hh1 & Hp1).
  pose proof Hh1 as [Ho1 Hu1]. assert (Eh : hdl aid w1 = HP (map fst L) false) by (unfold hdl; by rewrite Ho1).
  assert (Ha : act_ok ARootCas (HP (map fst L) false)) by done.
  split; [done|].
  assert (Hno : lact w1 ARootCas = Ok (0, w_tree w1) -> exists v s', lact w1 ARootCas = Ok (v, s') /\ ok (k v) Q (acted aid ARootCas v s' w1)).
  { intros Hd. pose proof (acted_quiet _ _ _ _ _ _ Hb1 Hh1 Ha Hd) as Hq. eexists _, _. split; [exact Hd|]. apply K0.
    + eapply base_step; eauto.
    + split; [cbn [acted w_sys sy_open]; rewrite lookup_insert, Eh; done|done].
    + eapply HLp; eauto. }
  destruct (wk_root (w_wake w1)) eqn:Ew; [apply Hno; cbn [lact]; by rewrite Ew|].
  destruct (N.eqb_spec (t_rootLock (w_tree w1)) 0) as [E|E].
  - assert (Hd : lact w1 ARootCas = Ok (1, set_rootLock (w_tree w1) 1)) by (cbn [lact do_act]; rewrite Ew; by rewrite (proj2 (N.eqb_eq _ _) E)).
    pose proof (acted_quiet _ _ _ _ _ _ Hb1 Hh1 Ha Hd) as Hq. eexists _, _. split; [exact Hd|]. apply K1.
    + eapply base_step; eauto.
    + split; [cbn [acted w_sys sy_open]; rewrite lookup_insert, Eh; done|done].
    + eapply HLp; eauto.
  - apply Hno. cbn [lact do_act]. rewrite Ew. by rewrite (proj2 (N.eqb_neq _ _) E).
Qed.

Lemma ok_rootback {A} (k : N -> prog A) Q w L P : lasting P ->
  base w -> hold L true w -> P w ->
  (forall w1, base w1 -> hold L false w1 -> P w1 -> ok (k 0) Q w1) -> ok (Act ARootBack k) Q w.
Proof.
  intros HLp Hb Hh Hp K0 w1 Hr. destruct (hold_rtc _ _ _ _ _ HLp Hr Hb Hh Hp) as (Hb1 & Hh1 & Hp1).
  pose proof Hh1 as [Ho1 Hu1]. assert (Eh : hdl aid w1 = HP (map fst L) true) by (unfold hdl; by rewrite Ho1).
  assert (Ha : act_ok ARootBack (HP (map fst L) true)) by done.
  split; [by rewrite Eh|].
  assert (Hd : lact w1 ARootBack = Ok (0, unlock_root (w_tree w1))) by done.
  pose proof (acted_quiet _ _ _ _ _ _ Hb1 Hh1 Ha Hd) as Hq. eexists _, _. split; [exact Hd|]. apply K0.
  - eapply base_step; eauto.
  - split; [cbn [acted w_sys sy_open]; rewrite lookup_insert, Eh; done|done].
  - eapply HLp; eauto.
Qed.

Lemma ok_again {A} Q w : hold [] false w -> ok (@Stop A Again) Q w.
Proof. intros [H _]. exact H. Qed.

Lemma ok_lock1 {A} node u bg (k : unit -> prog A) Q w P : lasting P -> (forall w, P w -> since (lock_id node) u w) ->
  base w -> hold [] false w -> P w ->
  (forall w1, base w1 -> hold [(lock_id node, u)] false w1 -> P w1 -> ok (k tt) Q w1) ->
  ok (pbind (p_lock1 node (gen_of u bg)) k) Q w.
Proof.
  intros HLp Hs Hb Hh Hp H. unfold p_lock1. destruct (gen_odd (gen_of u bg)) eqn:Eo.
  { cbn [pbind]. by apply ok_again. }
  cbn [pbind]. eapply ok_cas; [exact HLp|done..| |].
  - intros w1 _ H1 _. change (0 =? 0) with true. cbn [pbind]. by apply ok_again.
  - intros w1 Hb1 Hh1 Hp1. change (1 =? 0) with false. cbn [pbind]. by apply H.
Qed.

Lemma ok_lock2 {A} node un bn parent up bp (k : unit -> prog A) Q w P : lasting P ->
  (forall w, P w -> since (lock_id node) un w) -> (parent <> 0 -> forall w, P w -> since (lock_id parent) up w) ->
  base w -> hold [] false w -> P w ->
  (forall w1 L, base w1 -> hold L false w1 -> P w1 -> map fst L = lids2 node parent ->
     (lock_id node, un) ∈ L -> (parent <> 0 -> lock_id parent = lock_id node \/ (lock_id parent, up) ∈ L) -> ok (k tt) Q w1) ->
  ok (pbind (p_lock2 node (gen_of un bn) parent (gen_of up bp)) k) Q w.
Proof.
  intros HLp Hs1 Hs2 Hb Hh Hp H. unfold p_lock2. destruct (N.eqb_spec parent 0) as [E0|E0].
  { eapply ok_lock1; [exact HLp|done..|]. intros w1 Hb1 Hh1 Hp1. apply (H w1 [(lock_id node, un)]); try done.
    - unfold lids2. by rewrite (proj2 (N.eqb_eq _ _) E0).
    - left. }
  destruct (gen_odd (gen_of un bn)) eqn:En; cbn [orb].
  { cbn [pbind]. by apply ok_again. }
  destruct (gen_odd (gen_of up bp)) eqn:Ep.
  { cbn [pbind]. by apply ok_again. }
  cbn [pbind]. eapply ok_cas; [exact HLp|done..| |].
  { intros w1 _ H1 _. change (0 =? 0) with true. cbn [pbind]. by apply ok_again. }
  intros w1 Hb1 Hh1 Hp1. change (1 =? 0) with false. cbn iota. destruct (N.eqb_spec (lock_id parent) (lock_id node)) as [E|E].
  { cbn [pbind]. apply (H w1 [(lock_id node, un)]); try done.
    - unfold lids2. rewrite (proj2 (N.eqb_neq _ _) E0). by rewrite (proj2 (N.eqb_eq _ _) E).
    - left.
    - by left. }
  cbn [pbind]. eapply ok_cas; [exact HLp|by apply Hs2|done..| |].
  - intros w2 Hb2 Hh2 Hp2. change (0 =? 0) with true. cbn [pbind]. eapply (ok_back _ un); [exact HLp|left|done..|].
    intros w3 _ H3 _. rewrite filter_cons in H3. cbn [fst] in H3. rewrite decide_False in H3 by naive_solver. by apply ok_again.
  - intros w2 Hb2 Hh2 Hp2. change (1 =? 0) with false. cbn [pbind].
    apply (H w2 [(lock_id parent, up); (lock_id node, un)]); try done.
    + unfold lids2. rewrite (proj2 (N.eqb_neq _ _) E0). by rewrite (proj2 (N.eqb_neq _ _) E).
    + right. left.
    + right. left.
Qed.

Lemma ok_lock3 {A} child uc bc node un bn parent up bp (k : unit -> prog A) Q w P : lasting P -> node <> 0 ->
  (forall w, P w -> since (lock_id child) uc w) ->
  (forall w, P w -> since (lock_id node) un w) -> (parent <> 0 -> forall w, P w -> since (lock_id parent) up w) ->
  base w -> hold [] false w -> P w ->
  (forall w1 L, base w1 -> hold L false w1 -> P w1 -> map fst L = lids3 child node parent ->
     (lock_id child, uc) ∈ L -> (lock_id node = lock_id child \/ (lock_id node, un) ∈ L) ->
     (parent <> 0 -> lock_id parent = lock_id child \/ lock_id parent = lock_id node \/ (lock_id parent, up) ∈ L) -> ok (k tt) Q w1) ->
  ok (pbind (p_lock3 child (gen_of uc bc) node (gen_of un bn) parent (gen_of up bp)) k) Q w.
Proof.
  intros HLp Hn0 Hs0 Hs1 Hs2 Hb Hh Hp H. unfold p_lock3. destruct (N.eqb_spec parent 0) as [E0|E0].
  { eapply ok_lock2; [exact HLp|done..|]. intros w1 L Hb1 Hh1 Hp1 HL Hc Hn. apply (H w1 L); try done.
    - unfold lids3. by rewrite (proj2 (N.eqb_eq _ _) E0).
    - by apply Hn. }
  destruct (gen_odd (gen_of uc bc)) eqn:Ec; cbn [orb].
  { cbn [pbind]. by apply ok_again. }
  destruct (gen_odd (gen_of un bn)) eqn:En; cbn [orb].
  { cbn [pbind]. by apply ok_again. }
  destruct (gen_odd (gen_of up bp)) eqn:Ep.
  { cbn [pbind]. by apply ok_again. }
  cbn [pbind]. eapply ok_cas; [exact HLp|exact Hs0|done..| |].
  { intros w1 _ H1 _. change (0 =? 0) with true. cbn [pbind]. by apply ok_again. }
  intros w1 Hb1 Hh1 Hp1. change (1 =? 0) with false. cbv zeta. cbn iota.
  (* the rest, once child and node are locked *)
  assert (Hrest : forall w2 L, base w2 -> hold L false w2 -> P w2 -> map fst L = lids2 child node ->
    (lock_id child, uc) ∈ L -> (lock_id node = lock_id child \/ (lock_id node, un) ∈ L) ->
    (forall i u, (i, u) ∈ L -> i = lock_id child \/ (i = lock_id node /\ negb (lock_id node =? lock_id child) = true)) ->
    ok (pbind (if (lock_id parent =? lock_id child) || (lock_id parent =? lock_id node) then Ret tt
      else Act (ACas (lock_id parent) (gen_of up bp)) (fun ok =>
        if ok =? 0 then
          Act (ABack (lock_id child)) (fun _ =>
            if negb (lock_id node =? lock_id child) then Act (ABack (lock_id node)) (fun _ => Stop Again) else Stop Again)
        else Ret tt)) k) Q w2).
  { intros w2 L Hb2 Hh2 Hp2 HL HLc HLn Hall.
    assert (Hids : lids3 child node parent = if (lock_id parent =? lock_id child) || (lock_id parent =? lock_id node) then lids2 child node
      else lock_id parent :: lids2 child node).
    { unfold lids3. rewrite (proj2 (N.eqb_neq _ _) E0). by destruct (_ || _). }
    destruct ((lock_id parent =? lock_id child) || (lock_id parent =? lock_id node)) eqn:Es.
    { cbn [pbind]. apply (H w2 L); try done; [by rewrite Hids|]. intros _.
      apply orb_prop in Es as [Es|Es]; apply N.eqb_eq in Es; auto. }
    cbn [pbind]. eapply ok_cas; [exact HLp|by apply Hs2|done..| |].
    - intros w3 Hb3 Hh3 Hp3. change (0 =? 0) with true. cbn [pbind]. eapply (ok_back _ uc); [exact HLp|done..|].
      intros w4 Hb4 Hh4 Hp4. destruct (negb (lock_id node =? lock_id child)) eqn:Eu.
      + cbn [pbind]. apply negb_true_iff, N.eqb_neq in Eu. destruct HLn as [?|HLn]; [done|].
        eapply (ok_back _ un); [exact HLp| |done..|].
        { apply elem_of_list_filter. split; [done|exact HLn]. }
        intros w5 _ H5 _.
        assert (EL : filter (fun q => fst q <> lock_id node) (filter (fun q => fst q <> lock_id child) L) = []).
        { clear -Hall. induction L as [|[i u] L IH]; [done|].
          assert (IH' := IH (fun i' u' Hi => Hall i' u' (elem_of_list_further _ _ _ Hi))). rewrite filter_cons. cbn [fst].
          destruct (decide (i <> lock_id child)); [|done]. rewrite filter_cons. cbn [fst]. destruct (decide (i <> lock_id node)); [|done].
          destruct (Hall i u); [left|done|naive_solver]. }
        rewrite EL in H5. by apply ok_again.
      + cbn [pbind].
        assert (EL : filter (fun q => fst q <> lock_id child) L = []).
        { clear -Hall Eu. induction L as [|[i u] L IH]; [done|].
          assert (IH' := IH (fun i' u' Hi => Hall i' u' (elem_of_list_further _ _ _ Hi))). rewrite filter_cons. cbn [fst].
          destruct (decide (i <> lock_id child)); [|done]. destruct (Hall i u) as [?|[_ ?]]; [left|done|congruence]. }
        rewrite EL in Hh4. by apply ok_again.
    - intros w3 Hb3 Hh3 Hp3. change (1 =? 0) with false. cbn [pbind]. apply (H w3 ((lock_id parent, up) :: L)); try done.
      + rewrite Hids. simpl. by rewrite HL.
      + by right.
      + destruct HLn; [by left|right; by right].
      + intros _. right. right. left. }
  destruct (N.eqb_spec (lock_id node) (lock_id child)) as [Eu|Eu]; cbn [negb] in *.
  - cbn [pbind]. apply (Hrest w1 [(lock_id child, uc)]); try done.
    + unfold lids2. rewrite (proj2 (N.eqb_neq _ _) Hn0). by rewrite (proj2 (N.eqb_eq _ _) Eu).
    + left.
    + by left.
    + intros i u [= -> ->]%elem_of_list_singleton. by left.
  - cbn [pbind]. eapply ok_cas; [exact HLp|exact Hs1|done..| |].
    + intros w2 Hb2 Hh2 Hp2. change (0 =? 0) with true. cbn [pbind]. eapply (ok_back _ uc); [exact HLp|left|done..|].
      intros w3 _ H3 _. rewrite filter_cons in H3. cbn [fst] in H3. rewrite decide_False in H3 by naive_solver. by apply ok_again.
    + intros w2 Hb2 Hh2 Hp2. change (1 =? 0) with false. cbn [pbind].
      apply (Hrest w2 [(lock_id node, un); (lock_id child, uc)]); try done.
      * unfold lids2. rewrite (proj2 (N.eqb_neq _ _) Hn0). by rewrite (proj2 (N.eqb_neq _ _) Eu).
      * right. left.
      * right. left.
      * intros i u [[= -> ->]|[= -> ->]%elem_of_list_singleton]%elem_of_cons; [right|left]; done.
Qed.
End FineLock.
