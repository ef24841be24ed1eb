(** * StepWriter: one client changes the tree, in any number of interrupted steps, and the others read. *)
From Verif Require Export StepAnswer.

Section Writer.
Context (K : list N -> Prop) (fetch : N -> list N) (HK : universe K).

(** ** Such a history has one Finalize or Abort at a time *)

Definition only_looks (o : outcome) : Prop := match o with OLook _ _ => True | _ => False end.
Definition reads (j : job) : Prop :=
  match j with
  | Waiting (CLookup _ _) _ => True
  | Running (CLookup _ _) p => result p only_looks
  | _ => False
  end.
Definition readers (w : nat) (x : wsys) : Prop :=
  forall aid, aid <> w -> ws_fin x !! aid = None /\
    (forall j, fs_jobs (ws_f x) !! aid = Some j -> reads j) /\
    (forall hd, sy_open (fs_sys (ws_f x)) !! aid = Some hd -> exists l b, hd = HP l b).

Lemma readers_fin w x aid c p : readers w x -> ws_fin x !! aid = Some (c, p) -> aid = w.
Proof. intros H Hf. destruct (decide (aid = w)) as [->|Hne]; [done|]. destruct (H aid Hne) as (E & _). congruence. Qed.

Lemma result_look aid key : result (program_of (CLookup aid key)) only_looks.
Proof. cbn [program_of]. eapply result_bind; [apply result_top|]. by intros []. Qed.

Lemma readers_run w n tr x : wruns K fetch (one_writer w) n tr x -> readers w x.
Proof.
  induction 1 as [|tr x e x' Hr IH H1 Hs]; intros aid Hne.
  { cbn. by rewrite !lookup_empty. }
  pose proof (clients_ok _ _ _ _ _ _ Hr) as Hok.
  destruct Hs as [x e x' fin Hrem Hs|x fin c aid1 hd Hc H2 H3 H4|y jobs fin aid1 c a k v s' Hc H2|y jobs fin aid1 c r Hc].
  - destruct Hs as [y y' jobs c1 r E1 E2 E3 E4|y jobs c1 aid1 E1 E2 E3|y jobs c1 aid1 e E1|y jobs c1 aid1 a k hd v s' E1 E2 E3|y jobs c1 aid1 E1|y jobs c1 aid1 o E1];
      cbn [ws_f ws_fin fs_sys fs_jobs sy_open] in *; destruct (IH aid Hne) as (I1 & I2 & I3); cbn [ws_f ws_fin fs_sys fs_jobs sy_open] in *.
    + split_and!; try done. destruct Hrem as (R1 & _). destruct c1; try done; cbn [api] in E4.
      * destruct (flush_stats _ _); cbn [bind] in E4; try done. by injection E4 as <- <-.
      * destruct (new_tree_from_state _ _) as [[s1 ?]| |]; try done. injection E4 as <- <-. cbn [sy_open]. intros hd. by rewrite lookup_empty.
    + split_and!; try done. intros j. rewrite lookup_insert_Some. intros [[-> <-]|[_ Hj]]; [|by apply I2].
      destruct c1; try done; cbn [job_of] in E1; injection E1 as ->; by cbn in H1.
    + split; [done|]. split.
      * intros j. rewrite lookup_insert_Some. intros [[-> <-]|[_ Hj]]; [|by apply I2]. specialize (I2 _ E1). destruct c1; try done. apply result_look.
      * intros hd. rewrite lookup_insert_Some. intros [[-> <-]|[_ Hj]]; [|by apply I3]. by eexists _, _.
    + split; [done|]. split.
      * intros j. rewrite lookup_insert_Some. intros [[-> <-]|[_ Hj]]; [|by apply I2]. specialize (I2 _ E1). destruct c1; try done. apply I2.
      * intros hd'. rewrite lookup_insert_Some. intros [[-> <-]|[_ Hj]]; [|by apply I3]. destruct (I3 _ E2) as (l & b & ->).
        destruct a; cbn [hp_act]; repeat case_match; by eexists _, _.
    + split; [done|]. split; [|done]. intros j. rewrite lookup_insert_Some. intros [[-> <-]|[_ Hj]]; [|by apply I2]. specialize (I2 _ E1). destruct c1; try done. apply result_look.
    + split; [done|]. split.
      * intros j. rewrite lookup_delete_Some. intros [_ Hj]. by apply I2.
      * destruct (decide (aid = aid1)) as [->|Hn]; [|by rewrite return_open]. specialize (I2 _ E1). destruct c1; try done. destruct o; try done.
        cbn [return_to sy_open]. intros hd. by rewrite lookup_delete.
  - destruct (IH aid Hne) as (I1 & I2 & I3); cbn [ws_f ws_fin fs_sys fs_jobs sy_open] in *.
    split; [|done]. rewrite lookup_insert_ne; [done|]. intros ->. destruct (I3 _ H3) as (l & b & ->).
    destruct c; try done; cbn [fin_client] in Hc; injection Hc as ->; cbn [proper] in H4; naive_solver.
  - destruct (IH aid Hne) as (I1 & I2 & I3); cbn [ws_f ws_fin fs_sys fs_jobs sy_open] in *.
    split; [|done]. rewrite lookup_insert_ne; [done|]. intros ->. congruence.
  - destruct (IH aid Hne) as (I1 & I2 & I3); cbn [ws_f ws_fin fs_sys fs_jobs sy_open] in *.
    split; [by rewrite lookup_delete_None; right|]. split; [done|]. intros hd. rewrite lookup_delete_Some. intros [_ Hj]. by apply I3.
Qed.

Definition by_writer (w : nat) (e : wevent) : Prop :=
  match e with
  | WBegin c => fin_client c = Some w
  | WF (ECall c _) => fin_client c = None /\ job_of c = None
  | _ => True
  end.

Lemma one_writer_step w n tr x e x' : wruns K fetch (one_writer w) n tr x -> one_writer w x e -> wstep K fetch x e x' -> one_at_once x e /\ hands_off x e /\ by_writer w e.
Proof.
  intros Hr H1 Hs. pose proof (readers_run _ _ _ _ Hr) as HR. pose proof (clients_ok _ _ _ _ _ _ Hr) as Hok.
  assert (Hone : ws_fin x !! w = None -> ws_fin x = ∅).
  { intros Hw. apply map_empty. intros i. destruct (decide (i = w)) as [->|Hne]; [done|]. by apply HR. }
  unfold one_at_once, hands_off. destruct Hs as [x e x' fin Hrem Hs|x fin c aid1 hd Hc H2 H3 H4|y jobs fin aid1 c a k v s' Hc H2|y jobs fin aid1 c r Hc]; try done.
  - destruct Hs as [y y' jobs c1 r E1 E2 E3 E4|y jobs c1 aid1 E1 E2 E3|y jobs c1 aid1 e E1|y jobs c1 aid1 a k hd v s' E1 E2 E3|y jobs c1 aid1 E1|y jobs c1 aid1 o E1]; try done.
    + destruct Hrem as (R1 & _). done.
    + split; [done|]. split; [|done]. intros aid c p hd' Hf Hl Ho Ht. pose proof (readers_fin _ _ _ _ _ HR Hf) as ->.
      destruct (decide (aid1 = w)) as [->|Hne].
      * specialize (Hok w). unfold client_ok in Hok. cbn [ws_f ws_fin fs_sys fs_jobs sy_open] in *. rewrite E1 in Hok. destruct Hok as (_ & Hn & _). congruence.
      * destruct (HR aid1 Hne) as (_ & Hj & _). cbn [ws_f ws_fin fs_sys fs_jobs sy_open] in *. specialize (Hj _ E1). destruct c1 as [a1 key| | | | | | | |]; try done.
        specialize (Hok aid1). unfold client_ok in Hok. cbn [ws_f ws_fin fs_sys fs_jobs sy_open] in Hok. rewrite E1 in Hok.
        destruct Hok as (_ & _ & _ & l & b & _ & Hl'). destruct (Hl' _ _ eq_refl) as ([Ha _] & _). by destruct a.
  - cbn [ws_f ws_fin] in *.
    assert (aid1 = w) as ->.
    { destruct (decide (aid1 = w)) as [->|Hne]; [done|]. destruct (HR aid1 Hne) as (_ & _ & Ho). cbn [ws_f] in Ho. destruct (Ho _ H3) as (l & b & ->).
      exfalso. destruct c; try done; cbn [fin_client] in Hc; injection Hc as ->; cbn [proper] in H4; naive_solver. }
    by auto.
Qed.

Lemma writer_events w n tr x : wruns K fetch (one_writer w) n tr x -> Forall (by_writer w) tr.
Proof.
  induction 1 as [|tr x e x' Hr IH HPx Hs]; [by constructor|].
  destruct (one_writer_step _ _ _ _ _ _ Hr HPx Hs) as (_ & _ & H2). apply Forall_app. split; [done|by constructor].
Qed.

(** ** What it means *)

Definition clean (w : nat) (h : hist) : Prop :=
  h_susp h = ∅ /\ h_nsusp h = O /\ forall p, h_pend h !! w = Some p -> p_over p = false /\ p_del p = false.

Lemma clean_event w h e : by_writer w (WF e) -> clean w h -> clean w (fhstep h e).
Proof.
  intros Hb (H1 & H2 & H3). destruct e as [c r|c|c|aid a|aid|aid c r]; cbn [fhstep]; try done.
  - destruct Hb as [Hb1 Hb2]. destruct c; try done; cbn [hstep]. by destruct r.
  - destruct (job_of c) as [aid|]; [|done]. split_and!; try done. intros p. cbn [h_pend]. rewrite lookup_insert_Some. intros [[-> <-]|[_ Hp]]; [done|by apply H3].
  - destruct r as [| |[|]| | |]; try done; split_and!; try done; intros p; cbn [h_pend]; rewrite lookup_delete_Some; intros [_ Hp]; by apply H3.
Qed.

Lemma clean_mark w h c r : fin_client c = Some w -> clean w h -> clean w (hstep h (c, r)).
Proof.
  intros Hc (H1 & H2 & H3).
  assert (Hd : clean w (Hist (h_map h) (delete w (h_pend h)) (h_susp h) (h_nsusp h) (h_off h))).
  { split_and!; try done. intros p. cbn [h_pend]. by rewrite lookup_delete. }
  destruct c as [| |a fk mt v|a| |a|a| |]; try done; cbn [fin_client] in Hc; injection Hc as ->; cbn [hstep]; try done.
  - destruct r as [| | |[]| |]; try done. destruct (h_pend h !! w) as [p|] eqn:E; [|split_and!; try done; intros p; rewrite E; done]. split_and!; cbn [h_susp h_nsusp h_pend]; [set_solver|done|].
    intros q. by rewrite lookup_fmap, lookup_delete.
  - destruct r as [| | |[]| |]; try done. destruct (h_pend h !! w) as [p|] eqn:E; [|split_and!; try done; intros p; rewrite E; done]. destruct (H3 _ eq_refl) as [-> _].
    split_and!; cbn [h_susp h_nsusp h_pend]; [set_solver|done|]. intros q. by rewrite lookup_fmap, lookup_delete.
Qed.

Lemma placed_writer w l st : placed l st -> Forall (by_writer w) (map fst l) ->
  (forall c o, st = Some (c, o) -> fin_client c = Some w) /\ (forall e c r, (e, Some (c, r)) ∈ l -> fin_client c = Some w).
Proof.
  induction 1 as [|l st e Hp IH|l c Hp IH|l c r Hp IH|l c o aid a Hp IH Hc|l c r aid a Hp IH Hc|l c r aid Hp IH Hc]; intros Hf.
  - split; [done|]. intros e c r H. by apply elem_of_nil in H.
  - rewrite map_app in Hf. apply Forall_app in Hf as [Hf _]. destruct (IH Hf) as [I1 I2]. split; [done|]. intros e' c r. rewrite elem_of_app, elem_of_list_singleton. intros [H|H]; [by eapply I2|done].
  - rewrite map_app in Hf. apply Forall_app in Hf as [Hf Hx]. apply Forall_cons in Hx as [Hx _]. destruct (IH Hf) as [I1 I2]. split; [by intros c' o [= <- <-]|].
    intros e' c' r. rewrite elem_of_app, elem_of_list_singleton. intros [H|H]; [by eapply I2|done].
  - rewrite map_app in Hf. apply Forall_app in Hf as [Hf Hx]. apply Forall_cons in Hx as [Hx _]. destruct (IH Hf) as [I1 I2]. split; [by intros c' o [= <- <-]|].
    intros e' c' r'. rewrite elem_of_app, elem_of_list_singleton. intros [H|H]; [by eapply I2|]. by injection H as -> -> ->.
  - rewrite map_app in Hf. apply Forall_app in Hf as [Hf _]. destruct (IH Hf) as [I1 I2]. split; [intros c' o' [= <- <-]; by eapply I1|]. intros e' c' r. rewrite elem_of_app, elem_of_list_singleton. intros [H|H]; [by eapply I2|done].
  - rewrite map_app in Hf. apply Forall_app in Hf as [Hf _]. destruct (IH Hf) as [I1 I2]. split; [intros c' o' [= <- <-]; by eapply I1|].
    intros e' c' r'. rewrite elem_of_app, elem_of_list_singleton. intros [H|H]; [by eapply I2|]. injection H as -> -> ->. by eapply I1.
  - rewrite map_app in Hf. apply Forall_app in Hf as [Hf _]. destruct (IH Hf) as [I1 I2]. split; [done|]. intros e' c' r'. rewrite elem_of_app, elem_of_list_singleton. intros [H|H]; [by eapply I2|done].
Qed.

Lemma clean_replay w l : Forall (by_writer w) (map fst l) -> (forall e c r, (e, Some (c, r)) ∈ l -> fin_client c = Some w) -> clean w (lreplay l).
Proof.
  induction l as [|[e o] l IH] using rev_ind; intros Hf Hm; [by split_and!|]. rewrite map_app in Hf. apply Forall_app in Hf as [Hf Hx]. apply Forall_cons in Hx as [Hx _].
  assert (Hc : clean w (lreplay l)) by (apply IH; [done|]; intros e' c r H; apply (Hm e' c r), elem_of_app; by left).
  unfold lreplay. rewrite fold_left_app. fold (lreplay l). cbn [fold_left]. unfold lstep. cbn [fst snd] in *.
  assert (Hc1 : clean w (match e with WF e => fhstep (lreplay l) e | _ => lreplay l end)) by (destruct e; try done; by apply clean_event).
  destruct o as [[c r]|]; [|done]. apply clean_mark; [|done]. apply (Hm e c r), elem_of_app. right. by left.
Qed.

(** The finite map after the marked calls: an update binds its key, a delete removes it. *)
Definition write_of (c : call) (r : reply) : Prop := match c, r with CFinU _ _ _ _, RBool true | CFinD _, RBool true | CAbortU _, RUnit | CAbortD _, RUnit => True | _, _ => False end.

(** An answer: the value the key had at one moment of the call, or absence at one moment of it. *)
Definition exact_answer (l : marked) (aid : nat) (c : call) (r : reply) : Prop :=
  exists la lb, l = la ++ (WF (EResv c), None) :: lb /\ job_of c = Some aid /\ Forall (fun x => ~ wborders aid x.1) lb /\
    let (v, f) := answer r in at_some la c lb (fun h => h_map h !! job_key c = if f && bool_decide (fetch v = job_key c) then Some v else None).

Lemma writer_clean w n l st X : wruns K fetch (one_writer w) n (map fst l) X -> placed l st -> clean w (lreplay l).
Proof. intros Hr Hpl. pose proof (writer_events _ _ _ _ Hr) as Hby. destruct (placed_writer _ _ _ Hpl Hby) as [_ Hm]. by apply clean_replay. Qed.

Lemma wruns_impl (P P' : wsys -> wevent -> Prop) n tr X : (forall X e, P X e -> P' X e) -> wruns K fetch P n tr X -> wruns K fetch P' n tr X.
Proof. intros HP. induction 1; econstructor; eauto. Qed.

Context (P : wsys -> wevent -> Prop) (w : nat) (HP : forall X e, P X e -> one_writer w X e /\ (sized X e \/ short_keys K)).

Lemma P_writer n tr X : wruns K fetch P n tr X -> wruns K fetch (one_writer w) n tr X.
Proof. apply wruns_impl. intros X0 e H. by apply HP. Qed.

Lemma writer_run n tr X : wruns K fetch P n tr X -> wcalls tr < 2 ^ 31 ->
  exists l st, map fst l = tr /\ placed l st /\ sim K fetch false l X st /\ truthful fetch l /\ honest l.
Proof.
  apply (sim_runs K fetch HK false). clear tr X. intros l st X e X' Hr%P_writer Hpl Hp Hs. destruct (HP _ _ Hp) as [Hp1 Hp2].
  destruct (one_writer_step _ _ _ _ _ _ Hr Hp1 Hs) as (H1 & H2 & _). split; [done|]. split; [done|]. split; [|done].
  intros aid c o -> Hj. split; [|done]. intros op ->. right. destruct (writer_clean _ _ _ _ _ Hr Hpl) as (_ & _ & Hcl). rewrite <- lreplay_gt. destruct (decide (aid = w)) as [->|Hne].
  - intros p Hpp. by destruct (Hcl _ Hpp).
  - exfalso. destruct (readers_run _ _ _ _ Hr aid Hne) as (_ & Hrd & _). specialize (Hrd _ Hj). by destruct c.
Qed.

Theorem one_writer_meaning n tr X : wruns K fetch P n tr X -> wcalls tr < 2 ^ 31 ->
  exists l st, map fst l = tr /\ placed l st /\
    (forall e c r, (e, Some (c, r)) ∈ l -> fin_client c = Some w /\ write_of c r) /\
    (forall l1 aid c r l2, l = l1 ++ (WF (EReturn aid c r), None) :: l2 -> exact_answer l1 aid c r) /\
    (ws_fin X = ∅ -> st = None /\ (forall k, bytes k -> k <> [] -> get fetch (fs_sys (ws_f X)) k = h_map (lreplay l) !! k) /\
      (len (sy_tree (fs_sys (ws_f X))) + h_off (lreplay l) = Z.of_nat (size (h_map (lreplay l))))%Z).
Proof.
  intros Hr Hlt. pose proof (writer_events _ _ _ _ (P_writer _ _ _ Hr)) as Hby. destruct (writer_run _ _ _ Hr Hlt) as (l & st & E & Hpl & Hs & Ht & Hh).
  destruct (sim_meant K fetch HK false tr X l st E Hpl Hs Ht Hh) as (_ & _ & _ & _ & Hrest). exists l, st. clear Hs.
  rewrite <- E in Hby. destruct (placed_writer _ _ _ Hpl Hby) as [_ Hm].
  assert (Hcl : forall l1 l2, l = l1 ++ l2 -> clean w (lreplay l1)).
  { intros l1 l2 ->. apply clean_replay; [rewrite map_app in Hby; by apply Forall_app in Hby as []|]. intros e c r H. apply (Hm e c r), elem_of_app. by left. }
  assert (Hcl0 : clean w (lreplay l)) by (apply (Hcl l []); by rewrite app_nil_r).
  split_and!; try done.
  - intros e c r Hin. pose proof (Hm _ _ _ Hin) as Hc. split; [done|]. apply elem_of_list_split in Hin as (l1 & l2 & ->).
    pose proof (Hh _ _ _ _ _ eq_refl) as Htr. destruct (Hcl l1 _ eq_refl) as (_ & _ & Hp).
    destruct c as [| |a fk mt v|a| |a|a| |]; try done; cbn [fin_client] in Hc; injection Hc as ->; destruct r as [| | |[]| |]; try done.
    + destruct Htr as (p & Hp1 & Hb). destruct (Hp _ Hp1) as [_ Hd]. by rewrite Hb in Hd.
    + destruct Htr as (p & Hp1 & Hb). destruct (Hp _ Hp1) as [Hd _]. by rewrite Hb in Hd.
  - intros l1 aid c r l2 El. destruct (Ht _ _ _ _ _ El) as (la & lb & E1 & Hj & Hbo & Hans). exists la, lb. split_and!; try done.
    destruct (answer r) as [v f]. destruct Hans as [H1 H2]. destruct (f && bool_decide (fetch v = job_key c)) eqn:Eb.
    + apply andb_prop in Eb as [-> Eb%bool_decide_eq_true]. destruct H1 as [_ (lc & Hlc & Hbind)]. exists lc. split; [done|]. rewrite <- Eb. destruct Hbind as [Hbi|[_ Hs]]; [done|].
      destruct Hlc as [ld ->]. destruct (Hcl (la ++ (WF (EResv c), None) :: lc) (ld ++ (WF (EReturn aid c r), None) :: l2)) as (Hs0 & _); [|rewrite Hs0 in Hs; set_solver].
      rewrite El, E1, <- !app_assoc. cbn [app]. by rewrite <- app_assoc.
    + destruct H2 as [[-> Hf]|H2]; [|done]. by rewrite bool_decide_eq_true_2 in Eb.
  - intros Hf. destruct (Hrest Hf) as [-> [Hg Hl]]. destruct Hcl0 as (Hs0 & Hn0 & _). split; [done|]. split.
    + intros k Hb Hk. destruct (Hg k Hb Hk) as (_ & _ & H3). apply H3. rewrite Hs0. set_solver.
    + rewrite Hn0 in Hl. lia.
Qed.

Theorem one_writer_goes_on n tr X : wruns K fetch P n tr X -> wcalls tr < 2 ^ 31 -> goes_on X.
Proof. intros Hr Hlt. destruct (writer_run _ _ _ Hr Hlt) as (l & st & _ & _ & Hs & _). by eapply sim_goes_on. Qed.
End Writer.

(** ** As the properties say it *)

(** The history has an order of the calls of client [w] in which every Lookup, and every Prepare, answers as the finite
    map at some moment between its reservation and its return; all calls of [w] succeed. *)
Definition single_meant (fetch : N -> list N) (w : nat) (tr : list wevent) (X : wsys) : Prop :=
  exists l st, map fst l = tr /\ placed l st /\
    (forall e c r, (e, Some (c, r)) ∈ l -> fin_client c = Some w /\ write_of c r) /\
    (forall l1 aid c r l2, l = l1 ++ (WF (EReturn aid c r), None) :: l2 -> exact_answer fetch l1 aid c r) /\
    (ws_fin X = ∅ -> st = None /\ (forall k, bytes k -> k <> [] -> get fetch (fs_sys (ws_f X)) k = h_map (lreplay l) !! k) /\
      (len (sy_tree (fs_sys (ws_f X))) + h_off (lreplay l) = Z.of_nat (size (h_map (lreplay l))))%Z).

Lemma one_meant K fetch n tr X : universe K -> wruns K fetch (fun x e => one_fin x e /\ sized x e) n tr X -> wcalls tr < 2 ^ 31 ->
  exists l st, meant fetch tr X l st.
Proof. intros HK Hr Hn. refine (one_fin_meaning K fetch HK _ n tr X _ Hr Hn). intros x e [H1 H2]. split; [done|by left]. Qed.
Lemma one_meant_short K fetch n tr X : universe K -> short_keys K -> wruns K fetch one_fin n tr X -> wcalls tr < 2 ^ 31 ->
  exists l st, meant fetch tr X l st.
Proof. intros HK H9 Hr Hn. refine (one_fin_meaning K fetch HK _ n tr X _ Hr Hn). intros x e H1. split; [done|by right]. Qed.
Lemma one_goes K fetch n tr X : universe K -> wruns K fetch (fun x e => one_fin x e /\ sized x e) n tr X -> wcalls tr < 2 ^ 31 -> goes_on X.
Proof. intros HK Hr Hn. refine (one_fin_goes_on K fetch HK _ n tr X _ Hr Hn). intros x e [H1 H2]. split; [done|by left]. Qed.
Lemma single K fetch w n tr X : universe K -> wruns K fetch (fun x e => one_writer w x e /\ sized x e) n tr X -> wcalls tr < 2 ^ 31 ->
  single_meant fetch w tr X.
Proof. intros HK Hr Hn. refine (one_writer_meaning K fetch HK _ w _ n tr X Hr Hn). intros x e [H1 H2]. split; [done|by left]. Qed.
Lemma single_short K fetch w n tr X : universe K -> short_keys K -> wruns K fetch (one_writer w) n tr X -> wcalls tr < 2 ^ 31 ->
  single_meant fetch w tr X /\ goes_on X.
Proof.
  intros HK H9 Hr Hn. assert (HP : forall x e, one_writer w x e -> one_writer w x e /\ (sized x e \/ short_keys K)) by (intros x e H; split; [done|by right]).
  split; [exact (one_writer_meaning K fetch HK _ w HP n tr X Hr Hn)|exact (one_writer_goes_on K fetch HK _ w HP n tr X Hr Hn)].
Qed.
