(** * StepObsWriter: one client changes the tree, in any number of interrupted steps, and the others look up, count and
    iterate. *)
From Verif Require Export StepObsProps.

Definition mild (j : job) : Prop :=
  match j with
  | Waiting (CLookup _ _) _ => True
  | Running (CLookup _ _) p => result p only_looks /\ FineProg.plain p
  | _ => False
  end.
Definition xreaders (w : nat) (x : xsys) : Prop :=
  forall aid, aid <> w -> ws_fin (xs_w x) !! aid = None /\
    (forall j, fs_jobs (xs_f x) !! aid = Some j -> mild j) /\
    (forall hd, sy_open (xs_sys x) !! aid = Some hd -> exists l b, hd = HP l b).

Lemma mild_again c p : mild (Running c p) -> mild (Running c (program_of c)).
Proof. intros H. destruct c; try done. split; [apply result_look|]. cbn [program_of]. apply plain_bind; [apply plain_search|]. by intros []. Qed.
Lemma mild_start c e : mild (Waiting c e) -> mild (Running c (program_of c)).
Proof. intros H. destruct c; try done. split; [apply result_look|]. cbn [program_of]. apply plain_bind; [apply plain_search|]. by intros []. Qed.

Section Writer.
Context (K : list N -> Prop) (fetch : N -> list N) (HK : universe K).

Lemma xreaders_step w X e X' : xreaders w X -> x_one_writer w X e -> xstep K fetch X e X' -> xreaders w X'.
Proof.
  intros IH H1 Hst aid Hne. destruct (IH aid Hne) as (I1 & I2 & I3). destruct Hst as [W W' obs e Hs Hb Hre|f f' fin obs obs' e Hs Hof].
  - unfold xs_sys, xs_f in *. cbn [xs_w xs_obs x_one_writer] in *.
    destruct Hs as [x e x' fin Hrem Hs|x fin c aid1 hd Hc H2 H3 H4|y jobs fin aid1 c a k v s' Hc H2|y jobs fin aid1 c r Hc].
    + destruct Hs as [y y' jobs c1 r E1 E2 E3 E4|y jobs c1 aid1 E1 E2 E3|y jobs c1 aid1 e E1|y jobs c1 aid1 a k hd v s' E1 E2 E3|y jobs c1 aid1 E1|y jobs c1 aid1 o E1];
        cbn [ws_f ws_fin fs_sys fs_jobs sy_open] in *.
      * split_and!; try done. destruct Hrem as (R1 & _). destruct c1; try done; cbn [api] in E4.
        -- destruct (flush_stats _ _); cbn [bind] in E4; try done. by injection E4 as <- <-.
        -- destruct (new_tree_from_state _ _) as [[s1 ?]| |]; try done. injection E4 as <- <-. cbn [sy_open]. intros hd. by rewrite lookup_empty.
      * split_and!; try done. intros j. rewrite lookup_insert_Some. intros [[-> <-]|[_ Hj]]; [|by apply I2].
        destruct c1; try done; cbn [job_of] in E1; injection E1 as ->; by cbn in H1.
      * split; [done|]. split.
        -- intros j. rewrite lookup_insert_Some. intros [[-> <-]|[_ Hj]]; [|by apply I2]. by eapply mild_start, I2.
        -- intros hd. rewrite lookup_insert_Some. intros [[-> <-]|[_ Hj]]; [|by apply I3]. by eexists _, _.
      * split; [done|]. split.
        -- intros j. rewrite lookup_insert_Some. intros [[-> <-]|[_ Hj]]; [|by apply I2]. specialize (I2 _ E1). destruct c1; try done. destruct I2 as [I2 [_ I4]]. split; [apply I2|apply I4].
        -- intros hd'. rewrite lookup_insert_Some. intros [[-> <-]|[_ Hj]]; [|by apply I3]. destruct (I3 _ E2) as (l & b & ->).
           destruct a; cbn [hp_act]; repeat case_match; by eexists _, _.
      * split; [done|]. split; [|done]. intros j. rewrite lookup_insert_Some. intros [[-> <-]|[_ Hj]]; [|by apply I2]. by eapply mild_again, I2.
      * split; [done|]. split.
        -- intros j. rewrite lookup_delete_Some. intros [_ Hj]. by apply I2.
        -- destruct (decide (aid = aid1)) as [->|Hn]; [|by rewrite return_open]. specialize (I2 _ E1). destruct c1; try done. destruct I2 as [I2 _]. destruct o; try done.
           cbn [return_to sy_open]. intros hd. by rewrite lookup_delete.
    + cbn [ws_f ws_fin fs_sys fs_jobs sy_open] in *. split; [|done]. rewrite lookup_insert_ne; [done|]. intros ->. destruct (I3 _ H3) as (l & b & ->).
      destruct c; try done; cbn [fin_client] in Hc; injection Hc as ->; cbn [proper] in H4; naive_solver.
    + cbn [ws_f ws_fin fs_sys fs_jobs sy_open] in *. split; [|done]. rewrite lookup_insert_ne; [done|]. intros ->. congruence.
    + cbn [ws_f ws_fin fs_sys fs_jobs sy_open] in *. split; [by rewrite lookup_delete_None; right|]. split; [done|]. intros hd. rewrite lookup_delete_Some. intros [_ Hj]. by apply I3.
  - unfold xs_sys, xs_f in *. cbn [xs_w xs_obs ws_f ws_fin fs_sys fs_jobs] in *. split; [done|].
    inversion Hs; subst; cbn [fs_sys fs_jobs sy_open] in *; try done; (split; [done|]); intros hd.
    + rewrite lookup_insert_Some. intros [[-> <-]|[_ Hj]]; [by eexists _, _|by apply I3].
    + rewrite lookup_delete_Some. intros [_ Hj]. by apply I3.
Qed.

Lemma xreaders_run w n tr X : xruns K fetch (x_one_writer w) n tr X -> xreaders w X.
Proof. induction 1 as [|tr X e X' Hr IH H1 Hs]; [|by eapply xreaders_step]. intros aid Hne. cbn. by rewrite !lookup_empty. Qed.

Lemma x_writer_step w m X st e X' : xmeaning K fetch false m X st -> xreaders w X -> one_writer w (xs_w X) e -> wstep K fetch (xs_w X) e X' ->
  one_at_once (xs_w X) e /\ hands_off (xs_w X) e /\ by_writer w e.
Proof.
  intros Hm HR H1 Hs. destruct (x_sim_w K fetch false _ _ _ Hm) as (js & (wd & Y0 & G & us & ur & Hg & Hl & Hmo & _) & Hjo). unfold xreaders, xs_sys, xs_f in *. cbn [ws_f ws_fin fs_sys fs_jobs] in *.
  destruct X as [W obs]. cbn [xs_w xs_obs] in *.
  assert (Hone : ws_fin W !! w = None -> ws_fin W = ∅).
  { intros Hw. apply map_empty. intros i. destruct (decide (i = w)) as [->|Hne]; [done|]. by apply HR. }
  unfold one_at_once, hands_off. destruct Hs as [x e x' fin Hrem Hs|x fin c aid1 hd Hc H2 H3 H4|y jobs fin aid1 c a k v s' Hc H2|y jobs fin aid1 c r Hc]; try done.
  - destruct Hs as [y y' jobs c1 r E1 E2 E3 E4|y jobs c1 aid1 E1 E2 E3|y jobs c1 aid1 e E1|y jobs c1 aid1 a k hd v s' E1 E2 E3|y jobs c1 aid1 E1|y jobs c1 aid1 o E1]; try done.
    + destruct Hrem as (R1 & _). done.
    + split; [done|]. split; [|done]. intros aid c p hd' Hf Hla Ho Ht. cbn [ws_f ws_fin fs_sys fs_jobs sy_open] in *.
      destruct (joint_job _ _ _ _ _ Hjo E1) as [_ Hjs]. pose proof (job_not_fin K fetch _ _ _ _ _ _ _ _ _ _ _ _ Hg Hl Hmo Hjs _ _ _ Hf) as Hne.
      assert (aid = w) as ->. { destruct (decide (aid = w)); [done|]. destruct (HR aid) as [E _]; [done|]. congruence. }
      destruct (HR aid1) as (_ & Hj & _); [done|]. specialize (Hj _ E1). destruct c1; try done. destruct Hj as [_ [Ha _]]. by destruct a.
  - cbn [ws_f ws_fin] in *.
    assert (aid1 = w) as ->.
    { destruct (decide (aid1 = w)) as [->|Hne]; [done|]. destruct (HR aid1 Hne) as (_ & _ & Ho). destruct (Ho _ H3) as (l & b & ->).
      exfalso. destruct c; try done; cbn [fin_client] in Hc; injection Hc as ->; cbn [proper] in H4; naive_solver. }
    by auto.
Qed.

Definition x_by_writer (w : nat) (m : xmarked) : Prop := Forall (by_writer w) (map fst (shown m)).

Lemma x_by_writer_snoc w m x : x_by_writer w m -> (forall e, x.1 = XW e -> by_writer w e) -> x_by_writer w (m ++ [x]).
Proof.
  intros Hm Hx. unfold x_by_writer. rewrite shown_snoc, map_app. apply Forall_app. split; [done|]. destruct x as [[e|e] o]; unfold shown1; cbn [fst snd].
  - apply Forall_singleton. by apply Hx.
  - destruct e; cbn [as_lookup map]; repeat constructor.
Qed.
Lemma x_by_writer_app w m m' : x_by_writer w (m ++ m') -> x_by_writer w m.
Proof. unfold x_by_writer. rewrite shown_app, map_app. by intros [? _]%Forall_app. Qed.

Lemma x_clean w m st : placed (shown m) st -> x_by_writer w m -> forall m1 m2, m = m1 ++ m2 -> clean w (xreplay m1).
Proof.
  intros Hpl Hby m1 m2 ->. destruct (placed_writer _ _ _ Hpl Hby) as [_ Hw]. apply (clean_replay K fetch HK); [by eapply x_by_writer_app|].
  intros e c r Hin. eapply (Hw e c r). rewrite shown_app. apply elem_of_app. by left.
Qed.

Theorem x_writer_meaning (P : xsys -> xevent -> Prop) w n tr X : (forall X e, P X e -> x_one_writer w X e /\ (x_sized X e \/ short_keys K)) ->
  xruns K fetch P n tr X -> xcalls tr < 2 ^ 31 -> exists m st, map fst m = tr /\ xmeaning K fetch false m X st /\ x_by_writer w m.
Proof.
  intros HP Hr Hlt.
  assert (exists m st, map fst m = tr /\ xmeaning K fetch false m X st /\ x_by_writer w m /\ xreaders w X) as (m & st & ? & ? & ? & _); [|by exists m, st].
  induction Hr as [|tr X e X' Hr IH Hone Hst].
  - exists [], None. split_and!; [done|apply xmeaning_init|constructor|]. intros aid Hne. cbn. by rewrite !lookup_empty.
  - destruct IH as (m & st & <- & Hm & Hby & HR); [unfold xcalls in *; rewrite list.omap_app, wcalls_app in Hlt; lia|]. destruct (HP _ _ Hone) as [H1 H2].
    assert (Hcl : clean w (xreplay m)) by (eapply (x_clean w m _ (xm_placed _ _ _ _ _ _ Hm) Hby m []); by rewrite app_nil_r).
    assert (He : forall e', e = XW e' -> one_at_once (xs_w X) e' /\ hands_off (xs_w X) e' /\ by_writer w e').
    { intros e' ->. inversion Hst; subst. by eapply x_writer_step. }
    destruct (xmeaning_step K fetch HK false m X st e X' Hm) as (o & st' & Hm'); try done.
    + destruct e as [e|e]; [|done]. destruct (He e eq_refl) as (A1 & A2 & A3). split_and!; [done| | |done].
      * destruct H2 as [H2|H2]; [done|by eapply (x_short K fetch HK false)].
      * intros aid c o -> Hj. split; [|done]. intros op ->. right. rewrite <- lreplay_gt. destruct (decide (aid = w)) as [->|Hne].
        -- intros p Hpp. destruct Hcl as (_ & _ & Hcl). by destruct (Hcl _ Hpp).
        -- exfalso. destruct (HR aid Hne) as (_ & Hrd & _). specialize (Hrd _ Hj). destruct c; try done. by destruct Hrd.
    + exists (m ++ [(e, o)]), st'. split_and!; [by rewrite map_app|done| |by eapply xreaders_step].
      apply x_by_writer_snoc; [done|]. cbn [fst]. intros e' ->. by apply He.
Qed.

(** ** What it means *)

(** Bound at that moment. *)
Definition exact (k : list N) (v : N) (h : hist) : Prop := h_map h !! k = Some v.

Lemma xfound_exact m1 aid c m2 vis : (forall m3, m3 `prefix_of` m2 -> h_susp (xreplay (m1 ++ (XO (OResv aid c), None) :: m3)) = ∅) ->
  xfound fetch binds m1 aid c m2 vis -> xfound fetch exact m1 aid c m2 vis.
Proof.
  intros Hc [F1 F2]. split; [done|]. intros v Hv. destruct (F2 _ Hv) as (G1 & (m3 & Hm3 & G2) & G3). split_and!; [done| |done].
  exists m3. split; [done|]. destruct G2 as [G2|[_ G2]]; [done|]. rewrite (Hc _ Hm3) in G2. set_solver.
Qed.

Lemma true_result_exact m aid c r : (forall m1 m2, m = m1 ++ m2 -> h_susp (xreplay m1) = ∅) -> true_result fetch binds m aid c r -> true_result fetch exact m aid c r.
Proof.
  intros Hc (m1 & m2 & Hd & H). exists m1, m2. split; [done|].
  assert (Hf : forall vis, xfound fetch binds m1 aid c m2 vis -> xfound fetch exact m1 aid c m2 vis).
  { intros vis. apply xfound_exact. intros m3 [m4 ->]. destruct Hd as [-> _]. apply (Hc _ m4). by rewrite <- app_assoc. }
  destruct c, r; try done; [|naive_solver]. destruct (_ !! _); [done|]. destruct (it_done it); [done|]. naive_solver.
Qed.

Definition xexact (m : xmarked) : Prop :=
  forall m1 aid c r m2, m = m1 ++ (XW (WF (EReturn aid c r)), None) :: m2 -> exact_answer fetch (shown m1) aid c r.

Lemma exact_of_true w l aid c r : (forall l1 l2, l = l1 ++ l2 -> clean w (lreplay l1)) -> true_answer fetch l aid c r -> exact_answer fetch l aid c r.
Proof.
  intros Hcl (la & lb & E1 & Hj & Hbo & Hans). exists la, lb. split_and!; try done.
  destruct (answer r) as [v f]. destruct Hans as [H1 H2]. destruct (f && bool_decide (fetch v = job_key c)) eqn:Eb.
  - apply andb_prop in Eb as [-> Eb%bool_decide_eq_true]. destruct H1 as [_ (lc & Hlc & Hbind)]. exists lc. split; [done|]. rewrite <- Eb. destruct Hbind as [Hbi|[_ Hs]]; [done|].
    destruct Hlc as [ld ->]. destruct (Hcl (la ++ (WF (EResv c), None) :: lc) ld) as (Hs0 & _); [|rewrite Hs0 in Hs; set_solver].
    by rewrite E1, <- app_assoc.
  - destruct H2 as [[-> Hf]|H2]; [|done]. by rewrite bool_decide_eq_true_2 in Eb.
Qed.

Lemma x_exact few w m st X : xmeaning K fetch few m X st -> x_by_writer w m ->
  (forall e c r, (e, Some (c, r)) ∈ m -> fin_client c = Some w /\ write_of c r) /\ xexact m /\ xresults fetch exact m /\
  (ws_fin (xs_w X) = ∅ -> (forall k, bytes k -> k <> [] -> get fetch (xs_sys X) k = h_map (xreplay m) !! k) /\
    (len (sy_tree (xs_sys X)) + h_off (xreplay m) = Z.of_nat (size (h_map (xreplay m))))%Z).
Proof.
  intros Hm Hby. pose proof (x_clean w m st (xm_placed _ _ _ _ _ _ Hm) Hby) as Hcl. destruct (placed_writer _ _ _ (xm_placed _ _ _ _ _ _ Hm) Hby) as [_ Hw].
  assert (Hcl' : forall l l', shown m = l ++ l' -> clean w (lreplay l)).
  { intros l l' E. destruct (shown_prefix l m) as (m3 & [m4 ->] & <-); [by exists l'|]. by apply (Hcl m3 m4). }
  split_and!.
  - intros e c r Hin. apply elem_of_list_split in Hin as (m1 & m2 & ->).
    assert (Hc : fin_client c = Some w).
    { destruct e as [e|e]; [|assert (Some (c, r) = None) by (apply (xm_marks _ _ _ _ _ _ Hm e), elem_of_app; right; by left); done].
      eapply (Hw e c r). rewrite shown_app, shown_cons. apply elem_of_app. right. apply elem_of_app. left. by left. }
    split; [done|]. pose proof (xm_honest _ _ _ _ _ _ Hm _ _ _ _ _ eq_refl) as Htr. destruct (Hcl m1 _ eq_refl) as (_ & _ & Hp).
    destruct c as [| |a fk mt v|a| |a|a| |]; try done; cbn [fin_client] in Hc; injection Hc as ->; destruct r as [| | |[]| |]; try done.
    + destruct Htr as (p & Hp1 & Hb). destruct (Hp _ Hp1) as [_ Hd]. by rewrite Hb in Hd.
    + destruct Htr as (p & Hp1 & Hb). destruct (Hp _ Hp1) as [Hd _]. by rewrite Hb in Hd.
  - intros m1 aid c r m2 E. eapply (exact_of_true w); [|by eapply (xm_truthful _ _ _ _ _ _ Hm)]. intros l1 l2 El. eapply (Hcl' l1). rewrite E, shown_app, El, <- app_assoc. done.
  - intros m1 aid c r m2 E. apply true_result_exact; [|by eapply (xm_results _ _ _ _ _ _ Hm)]. intros m3 m4 ->. destruct (Hcl m3 (m4 ++ (XO (OReturn aid c r), None) :: m2)) as (Hs & _); [|done].
    by rewrite E, <- app_assoc.
  - intros Hf. destruct (x_rest K fetch HK few _ _ _ Hm Hf) as [_ [Hg Hl]]. destruct (Hcl m []) as (Hs0 & Hn0 & _); [by rewrite app_nil_r|]. split.
    + intros k Hb Hk. destruct (Hg k Hb Hk) as (_ & _ & H3). apply H3. rewrite Hs0. set_solver.
    + rewrite Hn0 in Hl. lia.
Qed.
End Writer.

(** ** As the properties say it *)

(** There is an order of the writes in which all calls return what they may. *)
Definition x_meant (fetch : N -> list N) (tr : list xevent) (X : xsys) : Prop :=
  exists m st, map fst m = tr /\ placed (shown m) st /\ only_writes m /\ xtruthful fetch m /\ xhonest m /\ xresults fetch binds m /\
    (ws_fin (xs_w X) = ∅ -> st = None /\ holds fetch (xreplay m) (xs_sys X)).

(** The same with exact bindings; all writes are those of client [w] and succeed. *)
Definition x_single_meant (fetch : N -> list N) (w : nat) (tr : list xevent) (X : xsys) : Prop :=
  exists m st, map fst m = tr /\ placed (shown m) st /\ only_writes m /\
    (forall e c r, (e, Some (c, r)) ∈ m -> fin_client c = Some w /\ write_of c r) /\ xexact fetch m /\ xresults fetch exact m /\
    (ws_fin (xs_w X) = ∅ -> st = None /\ (forall k, bytes k -> k <> [] -> get fetch (xs_sys X) k = h_map (xreplay m) !! k) /\
      (len (sy_tree (xs_sys X)) + h_off (xreplay m) = Z.of_nat (size (h_map (xreplay m))))%Z).

Section Said.
Context (K : list N -> Prop) (fetch : N -> list N) (HK : universe K).

Lemma meaning_said few m X st : xmeaning K fetch few m X st -> x_meant fetch (map fst m) X /\ goes_on (xs_w X) /\ obs_goes_on X.
Proof.
  intros Hm. split; [|by eapply (x_goes_on K fetch HK few)]. exists m, st. destruct Hm as [H1 H2 H3 H4 H5 H6] eqn:E. split_and!; try done.
  intros Hf. by eapply (x_rest K fetch HK few).
Qed.
Lemma single_said few w m X st : xmeaning K fetch few m X st -> x_by_writer w m -> x_single_meant fetch w (map fst m) X /\ goes_on (xs_w X) /\ obs_goes_on X.
Proof.
  intros Hm Hb. split; [|by eapply (x_goes_on K fetch HK few)]. exists m, st. destruct (x_exact K fetch HK few w m st X Hm Hb) as (H1 & H2 & H3 & H4).
  split_and!; try done; [apply Hm|apply Hm|]. intros Hf. split; [by eapply (x_rest K fetch HK few)|by apply H4].
Qed.

Lemma x_one_said n tr X : xruns K fetch (fun x e => x_one_fin x e /\ x_sized x e) n tr X -> xcalls tr < 2 ^ 31 -> x_meant fetch tr X /\ goes_on (xs_w X) /\ obs_goes_on X.
Proof.
  intros Hr Hn. destruct (x_one_fin_meaning K fetch HK (fun x e => x_one_fin x e /\ x_sized x e) n tr X) as (m & st & <- & Hm); [|done|done|by eapply meaning_said].
  intros Y e [H1 H2]. split; [done|by left].
Qed.
Lemma x_one_short n tr X : short_keys K -> xruns K fetch x_one_fin n tr X -> xcalls tr < 2 ^ 31 -> x_meant fetch tr X /\ goes_on (xs_w X) /\ obs_goes_on X.
Proof.
  intros H9 Hr Hn. destruct (x_one_fin_meaning K fetch HK x_one_fin n tr X) as (m & st & <- & Hm); [|done|done|by eapply meaning_said].
  intros Y e H1. split; [done|by right].
Qed.
Lemma x_single_said w n tr X : xruns K fetch (fun x e => x_one_writer w x e /\ x_sized x e) n tr X -> xcalls tr < 2 ^ 31 -> x_single_meant fetch w tr X /\ goes_on (xs_w X) /\ obs_goes_on X.
Proof.
  intros Hr Hn. destruct (x_writer_meaning K fetch HK (fun x e => x_one_writer w x e /\ x_sized x e) w n tr X) as (m & st & <- & Hm & Hb); [|done|done|by eapply single_said].
  intros Y e [H1 H2]. split; [done|by left].
Qed.
Lemma x_single_short w n tr X : short_keys K -> xruns K fetch (x_one_writer w) n tr X -> xcalls tr < 2 ^ 31 -> x_single_meant fetch w tr X /\ goes_on (xs_w X) /\ obs_goes_on X.
Proof.
  intros H9 Hr Hn. destruct (x_writer_meaning K fetch HK (x_one_writer w) w n tr X) as (m & st & <- & Hm & Hb); [|done|done|by eapply single_said].
  intros Y e H1. split; [done|by right].
Qed.
End Said.
