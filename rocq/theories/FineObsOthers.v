(** * FineObsOthers: what holds of everybody else while some clients iterate and count. *)
From Verif Require Export FineObsSim FineObsProps.

Section Others.
Context (K : list N -> Prop) (fetch : N -> list N).
Local Notation oreachable := (oreachable K fetch).
Local Notation ostep := (ostep K fetch).

(** ** Small trees *)

Theorem ocompact n tr x : universe K -> oruns K fetch compact n tr x -> ncalls (lookups tr) < 2 ^ 31 -> oreachable n tr x.
Proof.
  intros HK Hr. induction Hr as [_|tr x e x' Hr IH Hs Hcm]; intros Hn.
  - split; [done| |by vm_compute|by apply calm_small]. constructor. intros aid key op. cbn [init sy_open]. by rewrite lookup_empty.
  - assert (Hn' : ncalls (lookups tr) < 2 ^ 31) by (rewrite lookups_snoc, ncalls_app in Hn; lia). specialize (IH Hn').
    split; [done| |rewrite maxUint64_val; lia|by apply calm_small]. econstructor; [apply IH|exact Hs|].
    destruct (oreach_oinv K fetch _ _ _ IH) as [w [(js & Hj & Hg) _ _]]. assert (Hu : unshared (os_sys x)) by (by destruct IH as [_ []]).
    destruct Hs as [f f' obs e H1 H2 H3|f obs aid c H1 H2 H3 H4 H5 H6|y jobs obs aid c e H1|f obs aid c a k v s' H1 H2|y jobs obs aid c r H1];
      unfold os_sys in *; cbn [os_f os_obs fs_sys fs_jobs] in *; try done.
    + destruct f as [y jobs], f' as [y' jobs']. cbn [fs_sys fs_jobs] in *. destruct (joint_step K fetch _ _ _ _ _ _ _ Hj H1 H2 H3) as (js' & _ & Hs & _).
      { intros aid c e0 Hjb. destruct (joint_job _ _ _ _ _ Hj Hjb) as [_ Hjs]. apply (gi_jobs _ _ _ _ _ Hg _ _ Hjs). }
      by apply (compact_step K fetch _ _ _ _ _ Hg Hu Hs).
    + intros j key op Ho. cbn [sy_open] in Ho. destruct (decide (j = aid)) as [->|Hne]; [by rewrite lookup_insert in Ho|].
      rewrite lookup_insert_ne in Ho by done. by eapply Hu.
    + intros j key op Ho. cbn [sy_open] in Ho. apply lookup_delete_Some in Ho as [_ Ho]. by eapply Hu.
Qed.

Lemma ocompact_last n tr x : oruns K fetch compact n tr x -> compact (os_sys x).
Proof. by intros []. Qed.

Lemma o_small n tr x aid c p : universe K -> oruns K fetch compact n tr x -> ncalls (lookups tr) < 2 ^ 31 ->
  os_obs x !! aid = Some (ORunning c p) ->
  match p with
  | Ret _ | Stop Fuel => True
  | Act a _ => exists v, do_act (sy_tree (os_sys x)) a = Ok (v, sy_tree (os_sys x))
  | Stop _ => False
  end.
Proof.
  intros HK Hr Hn Hp. pose proof (o_goes_on K fetch _ _ _ _ _ _ (ocompact _ _ _ HK Hr Hn) Hp) as H.
  destruct p as [|[]|]; try done. destruct H as (_ & _ & H). by apply H, (ocompact_last n tr).
Qed.

(** ** The others *)

Lemma o_others_go_on n tr x : oreachable n tr x -> ~ crashing (os_f x).
Proof.
  intros Hr (aid & c & p & Hj & Hp). destruct (o_freach K fetch _ _ _ Hr) as (tr' & js & Hf & _ & Hjs & _).
  apply (f_no_crash K fetch _ _ _ Hf). exists aid, c, p. split; [by apply Hjs|done].
Qed.

Lemma o_map n tr x k : oreachable n tr x -> bytes k -> k <> [] ->
  (forall v, h_map (oreplay tr) !! k = Some v -> get fetch (os_sys x) k = Some v) /\
  (forall v, get fetch (os_sys x) k = Some v -> binds k v (oreplay tr)) /\
  (k ∉ h_susp (oreplay tr) -> get fetch (os_sys x) k = h_map (oreplay tr) !! k).
Proof.
  intros Hr Hb Hk. destruct (o_freach K fetch _ _ _ Hr) as (tr' & js & Hf & <- & _). by apply (f_map K fetch _ _ _ k Hf).
Qed.

Lemma o_len n tr x : oreachable n tr x ->
  (Z.of_nat (size (h_map (oreplay tr))) - Z.of_nat (h_nsusp (oreplay tr)) <= len (sy_tree (os_sys x)) + h_off (oreplay tr) <=
   Z.of_nat (size (h_map (oreplay tr))) + Z.of_nat (h_nsusp (oreplay tr)))%Z.
Proof. intros Hr. destruct (o_freach K fetch _ _ _ Hr) as (tr' & js & Hf & <- & _). by apply (f_len K fetch _ _ _ Hf). Qed.

Lemma o_live n tr x : oreachable n tr x -> live_memory (sy_tree (os_sys x)).
Proof. intros Hr. destruct (o_freach K fetch _ _ _ Hr) as (tr' & js & Hf & _). by apply (f_live K fetch _ _ _ Hf). Qed.

(** ** Their answers *)

Lemma still_running n tr1 aid c tr2 x : oreachable n (tr1 ++ OResv aid c :: tr2) x -> Forall (fun e => ~ oborders aid e) tr2 ->
  exists p, os_obs x !! aid = Some (ORunning c p).
Proof.
  revert x. induction tr2 as [|e tr2 IH] using rev_ind; intros x Hr Hf.
  - apply oreach_snoc in Hr as (x0 & _ & Hs & _). inversion Hs; subst. exists (oprogram c). apply lookup_insert.
  - apply Forall_app in Hf as [Hf He]. apply Forall_inv in He. change (tr1 ++ OResv aid c :: tr2 ++ [e]) with (tr1 ++ (OResv aid c :: tr2) ++ [e]) in Hr.
    rewrite app_assoc in Hr. apply oreach_snoc in Hr as (x0 & Hr & Hs & _). destruct (IH _ Hr Hf) as [p Hp].
    destruct Hs as [f f' obs e H1 H2 H3|f obs a0 c0 H1 H2 H3 H4 H5 H6|y jobs obs a0 c0 e H1|f obs a0 c0 a k v s' H1 H2|y jobs obs a0 c0 r H1]; cbn [os_obs oborders] in *.
    + by exists p.
    + rewrite lookup_insert_ne by congruence. by exists p.
    + rewrite lookup_insert_ne by done. by exists p.
    + destruct (decide (a0 = aid)) as [->|Hne]; [|rewrite lookup_insert_ne by done; by exists p]. rewrite lookup_insert. rewrite H1 in Hp. injection Hp as -> _. by eexists.
    + rewrite lookup_delete_ne by done. by exists p.
Qed.

Lemma acts_nothing t : Forall (fun e => exists a b, e = EAct a b) t -> forall h, fold_left fhstep t h = h.
Proof. induction 1 as [|e t (a & b & ->) Ha IH]; intros h; [done|]. simpl. apply IH. Qed.

Lemma seen_fold e l : seen_as e l -> forall h, fold_left fhstep l h = fold_left fhstep (as_lookup e) h.
Proof.
  intros H1 h. destruct H1 as [| | | |aid c r acts v f]; try done. rewrite fold_left_app, (acts_nothing (map (EAct aid) acts)); [done|].
  apply Forall_fmap, Forall_true. intros a. by exists aid, a.
Qed.

Lemma seen_all tr ls : Forall2 seen_as tr ls -> forall h, fold_left fhstep (concat ls) h = fold_left fhstep (lookups tr) h.
Proof.
  induction 1 as [|e l tr ls H1 H2 IH]; intros h; [done|]. cbn [concat]. change (lookups (e :: tr)) with (as_lookup e ++ lookups tr).
  by rewrite !fold_left_app, (seen_fold _ _ H1), IH.
Qed.

(** Moments of the history with Lookups instead are moments of the history. *)
Lemma seen_prefix tr ls : Forall2 seen_as tr ls -> forall t, t `prefix_of` concat ls -> exists tr3, tr3 `prefix_of` tr /\
  forall h, fold_left fhstep t h = fold_left fhstep (lookups tr3) h.
Proof.
  induction 1 as [|e l tr ls H1 H2 IH]; intros t Ht; cbn [concat] in Ht.
  - apply prefix_nil_inv in Ht as ->. by exists [].
  - assert (Hw : (exists t', t = l ++ t' /\ t' `prefix_of` concat ls) \/ exists d, d <> [] /\ l = t ++ d).
    { destruct Ht as [z Hz]. revert t Hz. clear. induction l as [|e l IH]; intros t Hz; [left; exists t; split; [done|by exists z]|].
      destruct t as [|e' t]; [right; by exists (e :: l)|]. injection Hz as <- Hz. destruct (IH t Hz) as [(t' & -> & Ht')|(d & Hd & ->)]; [left; by exists t'|right; by exists d]. }
    destruct Hw as [(t' & -> & Ht')|(d & Hd & ->)].
    + destruct (IH _ Ht') as (tr3 & Hp & E). exists (e :: tr3). split; [by apply prefix_cons|]. intros h. change (lookups (e :: tr3)) with (as_lookup e ++ lookups tr3).
      by rewrite !fold_left_app, (seen_fold _ _ H1), E.
    + exists []. split; [apply prefix_nil|]. intros h. cbn [lookups mbind list_bind fold_left].
      assert (Ha : Forall (fun e => exists a b, e = EAct a b) t).
      { clear -H1 Hd. inversion H1 as [? Ea Eb|? ? Ea Eb|? ? Ea Eb|? ? Ea Eb|aid c r acts v f Ea Eb]; subst.
        5: { destruct (exists_last Hd) as (d' & z & ->). rewrite app_assoc in Eb. apply app_inj_tail in Eb as [Eb _].
             assert (Forall (fun e => exists a b, e = EAct a b) (t ++ d')); [rewrite <- Eb; apply Forall_fmap, Forall_true; intros; by eexists _, _|by apply Forall_app in H as [? _]]. }
        all: destruct t as [|z t]; [by apply list.Forall_nil|]; try done; injection Eb as ? Eb; symmetry in Eb; apply app_eq_nil in Eb as [_ ?]; done. }
      by apply acts_nothing.
Qed.

Lemma seen_split tr ls : Forall2 seen_as tr ls -> forall A c B, concat ls = A ++ EResv c :: B -> exists tr1 e0 tr2 ls1 ls2,
  tr = tr1 ++ e0 :: tr2 /\ as_lookup e0 = [EResv c] /\ A = concat ls1 /\ B = concat ls2 /\ Forall2 seen_as tr1 ls1 /\ Forall2 seen_as tr2 ls2.
Proof.
  induction 1 as [|e l tr ls H1 H2 IH]; intros A c B E; cbn [concat] in E; [by destruct A|].
  assert (Hw : (exists A', A = l ++ A' /\ concat ls = A' ++ EResv c :: B) \/ exists d, l = A ++ EResv c :: d /\ B = d ++ concat ls).
  { revert A E. clear. induction l as [|e l IH]; intros A E; [left; by exists A|]. destruct A as [|e' A]; simpl in E; injection E as -> E.
    - right. exists l. by rewrite E.
    - destruct (IH _ E) as [(A' & -> & ?)|(d & -> & ->)]; [left; by exists A'|right; by exists d]. }
  destruct Hw as [(A' & -> & E')|(d & -> & ->)].
  - destruct (IH _ _ _ E') as (tr1 & e0 & tr2 & ls1 & ls2 & -> & Ea & -> & -> & F1 & F2). exists (e :: tr1), e0, tr2, (l :: ls1), ls2. split_and!; try done. by constructor.
  - assert (Hd : A = [] /\ d = [] /\ as_lookup e = [EResv c]).
    { clear -H1. inversion H1 as [? Ea Eb|? ? Ea Eb|? ? Ea Eb|? ? Ea Eb|aid c' r acts v f Ea Eb]; subst.
      5: { exfalso. assert (Hin : EResv c ∈ map (EAct aid) acts ++ [EReturn aid (CLookup aid [0]) (RLookup v f)]) by (rewrite Eb; set_solver).
           apply elem_of_app in Hin as [Hin|Hin]; [apply elem_of_list_fmap in Hin as (? & ? & _); done|by apply elem_of_list_singleton in Hin]. }
      all: destruct A as [|z A]; [|by destruct A]; try done; injection Eb as Eb Ed; subst; done. }
    destruct Hd as (-> & -> & Ea). exists [], e, tr, [], ls. by split_and!.
Qed.

Theorem o_answer n tr x aid c r : oreachable n (tr ++ [OF (EReturn aid c r)]) x ->
  exists tr1 tr2, tr = tr1 ++ OF (EResv c) :: tr2 /\ job_of c = Some aid /\ Forall (fun e => forall e', e = OF e' -> ~ borders aid e') tr2 /\
    let moment P := exists tr3, tr3 `prefix_of` tr2 /\ P (oreplay (tr1 ++ OF (EResv c) :: tr3)) in
    let (v, f) := answer r in
    (if f then v < 2 ^ 55 /\ moment (binds (fetch v) v) else v = 0) /\
    ((f = true /\ fetch v = job_key c) \/ moment (fun h => h_map h !! job_key c = None)).
Proof.
  intros Hr. destruct (oreach_snoc K fetch _ _ _ _ Hr) as (x0 & Hr0 & Hs & _).
  destruct (o_simulated K fetch _ _ _ Hr) as (ls & js & Hls & _ & Hf & _ & _). apply Forall2_app_inv_l in Hls as (ls0 & l1 & Hls & Hl1 & ->).
  inversion Hl1 as [|? l ? l2 H1 H2]; subst. inversion H2; subst. inversion H1; subst. rewrite concat_app in Hf. cbn [concat app] in Hf.
  destruct (f_answer K fetch _ _ _ _ _ _ Hf) as (A & B & E & Hc & HB & Hans).
  destruct (seen_split _ _ Hls _ _ _ E) as (tr1 & e0 & tr2 & ls1 & ls2 & -> & Ea & -> & -> & F1 & F2).
  assert (Hno : forall e l, e ∈ tr2 -> (forall l', seen_as e l' -> l ∈ l') -> ~ borders aid l).
  { intros e l He Hl. apply elem_of_list_lookup in He as [i Hi]. destruct (Forall2_lookup_l _ _ _ _ _ F2 Hi) as (l' & Hi' & Hsa).
    rewrite list.Forall_forall in HB. apply HB. rewrite elem_of_list_In. apply in_concat. exists l'. split; apply elem_of_list_In; [by eapply elem_of_list_lookup_2|by apply Hl]. }
  assert (Ee : e0 = OF (EResv c)).
  { destruct e0 as [e0|a c0|a c0|a c0|a c0 r0]; cbn [as_lookup] in Ea; try done; [congruence|]. exfalso. injection Ea as <-. cbn [job_of] in Hc. injection Hc as ->.
    destruct (still_running _ _ _ _ _ _ Hr0) as [p Hp].
    - apply list.Forall_forall. intros e He. destruct e as [|?|a c1|?|a c1 r1]; try by intros [].
      + intros ->. by apply (Hno _ (EResv (CLookup aid [0])) He); [intros l' Hl'; inversion Hl'; set_solver|].
      + intros ->. rewrite list.Forall_forall in HB. apply elem_of_list_lookup in He as [i Hi]. destruct (Forall2_lookup_l _ _ _ _ _ F2 Hi) as (l' & Hi' & Hsa).
        inversion Hsa; subst. apply (HB (EReturn aid (CLookup aid [0]) (RLookup v f))); [|done]. apply elem_of_list_In, in_concat. eexists. split; [by eapply elem_of_list_In, elem_of_list_lookup_2|].
        apply elem_of_list_In. set_solver.
    - destruct (oreach_oinv K fetch _ _ _ Hr0) as [w [(js0 & Hj & _) _ _]]. pose proof (jt_apart _ _ _ Hj _ _ Hp) as Hap.
      inversion Hs as [? ? ? ? Hfs| | | |]; subst. inversion Hfs; subst; cbn [os_f fs_jobs] in *; congruence. }
  subst e0. exists tr1, tr2. split_and!; try done.
  - apply list.Forall_forall. intros e He e' ->. apply (Hno _ e' He). intros l' Hl'. inversion Hl'. set_solver.
  - assert (Hmom : forall P, sometime (concat ls1) c (concat ls2) P -> exists tr3, tr3 `prefix_of` tr2 /\ P (oreplay (tr1 ++ OF (EResv c) :: tr3))).
    { intros P (t3 & Hp & HP). destruct (seen_prefix _ _ F2 _ Hp) as (tr3 & Hp3 & E3). exists tr3. split; [done|].
      unfold oreplay. replace (freplay (lookups (tr1 ++ OF (EResv c) :: tr3))) with (freplay (concat ls1 ++ EResv c :: t3)); [done|].
      unfold freplay, lookups. rewrite bind_app. cbn [mbind list_bind as_lookup]. rewrite !fold_left_app. cbn [app fold_left].
      rewrite (seen_all _ _ F1), E3. done. }
    cbn zeta. destruct (answer r) as [v f]. destruct Hans as [G1 G2]. split.
    + destruct f; [|done]. destruct G1. split; [done|by apply Hmom].
    + destruct G2 as [?|G2]; [by left|right; exact (Hmom _ G2)].
Qed.
End Others.
