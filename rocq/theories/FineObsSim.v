(** * FineObsSim: histories with iterations and counts are histories of FineRun.v, as far as everybody else can tell. *)
From Verif Require Export FineObsProps.

(** ** Programs that only read *)

Fixpoint reads {A} (p : prog A) : Prop :=
  match p with
  | Act a k => is_read a = true /\ forall v, reads (k v)
  | Stop Again => False
  | _ => True
  end.

Lemma reads_bind {A B} (p : prog A) (k : A -> prog B) : reads p -> (forall a, reads (k a)) -> reads (pbind p k).
Proof.
  intros Hp Hk. induction p as [a|y|a c IH]; simpl in *; [apply Hk|by destruct y|]. destruct Hp as [H1 H2]. split; [done|]. intros v. by apply IH.
Qed.

Lemma reads_of_res {A} (r : res A) : r <> Retry -> reads (of_res r).
Proof. by destruct r. Qed.

Lemma reads_get d i : reads (p_get d i).
Proof. unfold p_get. by destruct (N.of_nat i <? sl_len d). Qed.

Lemma reads_skip d len : reads (p_skip d len).
Proof.
  unfold p_skip. destruct len as [|len]; [done|]. apply reads_bind.
  - destruct (S len =? 255)%nat; [|done]. apply reads_bind; [apply reads_get|done].
  - intros [n slots]. apply reads_bind; [|done]. apply reads_of_res. unfold sl_from. by destruct (N.of_nat slots <=? sl_len d).
Qed.

Lemma reads_scan base k n : forall i last, reads (p_scan base k i n last).
Proof. induction n as [|n IH]; intros i last; [done|]. cbn [p_scan p_load pbind reads]. split; [done|]. intros v. destruct (k <=? to_byte v); [done|apply IH]. Qed.

Lemma reads_search_loop fuel : forall key node count prefixLen depth, reads (p_search_loop fuel key node count prefixLen depth).
Proof.
  induction fuel as [|fuel IH]; intros key node count prefixLen depth; [done|]. cbn [p_search_loop p_data pbind reads]. split; [done|]. intros _.
  apply reads_bind; [apply reads_skip|]. intros [[plen ?] data1]. destruct (length key <=? depth + plen)%nat; [done|].
  apply reads_bind; [apply reads_of_res; unfold key_at; by destruct (key !! _)|]. intros k. destruct (fullAllocFrom <=? count)%nat.
  - apply reads_bind; [apply reads_get|]. intros a. destruct (a =? 0); [done|]. destruct (isLeaf a); [done|]. destruct (explodeNode a) as [[[? ?] ?] ?]. apply IH.
  - apply reads_bind; [apply reads_of_res; unfold sl_upto; by destruct (N.of_nat count <=? sl_len data1)|]. intros _.
    apply reads_bind; [apply reads_scan|]. intros [[? ?] a]. destruct (to_byte a =? k); [|done]. destruct (isLeaf a); [done|].
    destruct (explodeNode a) as [[[? ?] ?] ?]. apply IH.
Qed.

Lemma reads_lookup aid key : reads (program_of (CLookup aid key)).
Proof.
  cbn [program_of]. apply reads_bind; [|by intros [? ?]]. unfold p_search. cbn [p_load pbind reads]. split; [done|]. intros root.
  destruct (isLeaf root).
  - apply reads_bind; [apply reads_of_res; unfold key_at; by destruct (key !! _)|]. intros k. by destruct (to_byte root =? k).
  - destruct (explodeNode root) as [[[? ?] ?] ?]. apply reads_search_loop.
Qed.

(** ** Histories with more reads in them *)

Definition alike (e e' : event) : Prop :=
  is_ecall e = is_ecall e' /\ forall aid, (starts aid e <-> starts aid e') /\ (ends aid e <-> ends aid e').

Inductive padded : list event -> list event -> Prop :=
| pad_nil : padded [] []
| pad_cons e e' t t' : alike e e' -> padded t t' -> padded (e :: t) (e' :: t')
| pad_act aid a t t' : padded t t' -> padded t (EAct aid a :: t').

Lemma alike_refl e : alike e e.
Proof. done. Qed.

Lemma padded_app t1 t1' t2 t2' : padded t1 t1' -> padded t2 t2' -> padded (t1 ++ t2) (t1' ++ t2').
Proof. intros H H2. induction H; simpl; [done|by constructor|by constructor]. Qed.

Lemma padded_acts aid acts : padded [] (map (EAct aid) acts).
Proof. induction acts; simpl; by constructor. Qed.

Lemma padded_split t t' : padded t t' -> forall u' v', t' = u' ++ v' -> exists u v, t = u ++ v /\ padded u u' /\ padded v v'.
Proof.
  induction 1 as [|e e' t t' He H IH|aid a t t' H IH]; intros u' v' E.
  - symmetry in E. apply app_eq_nil in E as [-> ->]. exists [], []. split_and!; [done|constructor|constructor].
  - destruct u' as [|e1 u']; simpl in E.
    + subst v'. exists [], (e :: t). split_and!; [done|constructor|by constructor].
    + injection E as <- E. destruct (IH _ _ E) as (u & v & -> & H1 & H2). exists (e :: u), v. split_and!; [done|by constructor|done].
  - destruct u' as [|e1 u']; simpl in E.
    + subst v'. exists [], t. split_and!; [done|constructor|by constructor].
    + injection E as <- E. destruct (IH _ _ E) as (u & v & -> & H1 & H2). exists u, v. split_and!; [done|by constructor|done].
Qed.

Lemma padded_ncalls t t' : padded t t' -> ncalls t = ncalls t'.
Proof.
  induction 1 as [|e e' t t' [He _] H IH|aid a t t' H IH]; [done| |].
  - change (e :: t) with ([e] ++ t). change (e' :: t') with ([e'] ++ t'). by rewrite !ncalls_app, !ncalls_one, IH, He.
  - change (EAct aid a :: t') with ([EAct aid a] ++ t'). rewrite ncalls_app, ncalls_one, IH. done.
Qed.

Lemma padded_ends t t' aid : padded t t' -> Forall (fun e => ~ ends aid e) t' -> Forall (fun e => ~ ends aid e) t.
Proof.
  induction 1 as [|e e' t t' [_ He] H IH|a0 a t t' H IH]; intros Hf; [done| |].
  - apply list.Forall_cons in Hf as [H1 H2]. constructor; [|by apply IH]. intros He1. by apply H1, (He aid).
  - apply list.Forall_cons in Hf as [_ H2]. by apply IH.
Qed.

Lemma padded_calm t t' : padded t t' -> calm t -> calm t'.
Proof.
  intros Hp Hc tr1 e tr2 tr3 aid E Hs Hf. destruct (padded_split _ _ Hp _ _ E) as (u & v & -> & _ & Hv).
  assert (exists v0, exists e0, (exists u0, v = u0 ++ e0 :: v0) /\ alike e0 e /\ padded v0 (tr2 ++ tr3)) as (v0 & e0 & [u0 ->] & Ha & Hv0).
  { clear -Hv Hs. inversion Hv as [|e0 e1 t t1 He H|a0 a t t1 H]; subst; [|done]. exists t, e0. split_and!; [by exists []|done|done]. }
  destruct (padded_split _ _ Hv0 _ _ eq_refl) as (t2 & t3 & -> & H2 & H3).
  rewrite <- (padded_ncalls _ _ H2). apply (Hc (u ++ u0) e0 t2 t3 aid); [by rewrite <- app_assoc|by apply (proj2 Ha aid)|by eapply padded_ends].
Qed.

(** ** The same history for everybody else *)

(** Next or Count by [aid] looks like a Lookup, which makes its accesses just before it returns. *)
Inductive seen_as : oevent -> list event -> Prop :=
| sa_other e : seen_as (OF e) [e]
| sa_begin aid c : seen_as (OBegin aid c) [EBegin (CLookup aid [0])]
| sa_resv aid c : seen_as (OResv aid c) [EResv (CLookup aid [0])]
| sa_act aid a : seen_as (OAct aid a) []
| sa_return aid c r acts v f : seen_as (OReturn aid c r) (map (EAct aid) acts ++ [EReturn aid (CLookup aid [0]) (RLookup v f)]).

Section ObsSim.
Context (K : list N -> Prop) (fetch : N -> list N).
Local Notation freachable := (freachable K fetch).
Local Notation oreachable := (oreachable K fetch).

Lemma freach_more n tr x e x' : freachable n tr x -> fstep K fetch x e x' -> unshared (fs_sys x') -> ncalls (tr ++ [e]) < maxUint64 -> calm (tr ++ [e]) ->
  freachable n (tr ++ [e]) x'.
Proof. intros [H1 H2 H3 H4] Hs Hu Hn Hc. split; try done. by eapply fruns_snoc. Qed.

Lemma freach_unshared n tr x : freachable n tr x -> unshared (fs_sys x).
Proof. intros [_ Hr _ _]. by destruct Hr. Qed.

Lemma freplay_acts tr aid acts : freplay (tr ++ map (EAct aid) acts) = freplay tr.
Proof.
  revert tr. induction acts as [|a acts IH]; intros tr; [by rewrite app_nil_r|]. cbn [map]. rewrite cons_middle, app_assoc, IH, freplay_snoc. done.
Qed.

(** A call that only reads, run to its end without interruption. *)
Lemma run_reads n aid c : forall (p : prog outcome) tr y jobs, reads p -> freachable n tr (FSys y jobs) -> jobs !! aid = Some (Running c p) ->
  sy_open y !! aid = Some (HP [] false) ->
  exists acts o, freachable n (tr ++ map (EAct aid) acts) (FSys y (<[aid := Running c (Ret o)]> jobs)).
Proof.
  induction p as [o|y0|a k IH]; intros tr y jobs Hp Hr Hj Ho.
  - exists [], o. cbn [map]. by rewrite app_nil_r, insert_id.
  - exfalso. destruct (freach_ginv K fetch _ _ _ Hr) as [w Hg]. destruct (gi_jobs _ _ _ _ _ Hg _ _ Hj) as (_ & _ & tr1 & tr2 & e & ns & _ & _ & _ & Hok).
    by destruct y0.
  - destruct Hp as [Ha Hk]. destruct (freach_wake K fetch _ _ _ Hr) as (w & Hg & Hwk). destruct (gi_jobs _ _ _ _ _ Hg _ _ Hj) as (_ & _ & tr1 & tr2 & e & ns & _ & _ & _ & Hok).
    destruct (Hok w (rtc_refl _ _)) as (_ & v & s' & Hd & _). rewrite (lact_plain w) in Hd by (by rewrite Hwk). rewrite (gi_sys _ _ _ _ _ Hg) in Hd. cbn [fs_sys] in Hd.
    pose proof (read_same _ _ _ _ Ha Hd) as ->.
    assert (Hs : fstep K fetch (FSys y jobs) (EAct aid a) (FSys y (<[aid := Running c (k v)]> jobs))).
    { assert (E : Sys (sy_tree y) (<[aid := hp_act (HP [] false) a v]> (sy_open y)) = y).
      { replace (hp_act (HP [] false) a v) with (HP [] false) by (by destruct a). rewrite insert_id by done. by destruct y. }
      rewrite <- E at 2. by eapply fs_act. }
    assert (Hp : padded tr (tr ++ [EAct aid a])).
    { rewrite <- (app_nil_r tr) at 1. apply padded_app; [|apply (padded_acts aid [a])]. clear. induction tr; constructor; [apply alike_refl|done]. }
    destruct (IH v (tr ++ [EAct aid a]) y (<[aid := Running c (k v)]> jobs)) as (acts & o & H); try done.
    + eapply freach_more; [done|done|by apply (freach_unshared _ _ _ Hr)|rewrite <- (padded_ncalls _ _ Hp); apply Hr|eapply padded_calm; [done|apply Hr]].
    + by rewrite lookup_insert.
    + exists (a :: acts), o. rewrite insert_insert, <- app_assoc in H. done.
Qed.

Lemma snoc_pad t t' e e' : padded t t' -> alike e e' -> padded (t ++ [e]) (t' ++ [e']).
Proof. intros H He. apply padded_app; [done|]. constructor; [done|constructor]. Qed.

Theorem o_simulated n tr x : oreachable n tr x -> exists ls js, Forall2 seen_as tr ls /\ padded (lookups tr) (concat ls) /\
  freachable n (concat ls) (FSys (os_sys x) js) /\ freplay (concat ls) = oreplay tr /\ joint js (fs_jobs (os_f x)) (os_obs x).
Proof.
  intros Hr0. pose proof Hr0 as [HK Hr Hn Hc]. clear Hr0. induction Hr as [Hu|tr x e x' Hr IH Hs Hu].
  - exists [], ∅. split_and!; [done|exact pad_nil| |done|].
    + split; try done. by constructor.
    + cbn [oinit os_f os_obs finit fs_jobs]. split; intros aid; [intros o Ho; by rewrite lookup_empty in Ho|done|done].
  - rewrite lookups_snoc in Hn, Hc. assert (Hn0 : ncalls (lookups tr) < maxUint64) by (rewrite ncalls_app in Hn; lia). pose proof (calm_app _ _ Hc) as Hc0.
    destruct (IH Hn0 Hc0) as (ls & js & Hls & Hpad & Hf & Eh & Hj). clear IH.
    destruct (oreach_oinv K fetch n tr x) as [w [(jsw & _ & Hgw) _ Hrun]]; [by split|].
    (* one more step, seen as one step *)
    assert (Hone : forall e1 x1, as_lookup e = [e1] -> seen_as e [e1] -> fstep K fetch (FSys (os_sys x) js) e1 x1 -> fs_sys x1 = os_sys x' ->
      joint (fs_jobs x1) (fs_jobs (os_f x')) (os_obs x') ->
      exists ls' js', Forall2 seen_as (tr ++ [e]) ls' /\ padded (lookups (tr ++ [e])) (concat ls') /\ freachable n (concat ls') (FSys (os_sys x') js') /\
        freplay (concat ls') = oreplay (tr ++ [e]) /\ joint js' (fs_jobs (os_f x')) (os_obs x')).
    { intros e1 [y1 j1] Ee Hse Hs1 Ey Hj1. cbn [fs_sys fs_jobs] in *. subst y1. rewrite Ee in Hn, Hc.
      assert (Hp' : padded (lookups tr ++ [e1]) (concat ls ++ [e1])) by (apply snoc_pad; [done|apply alike_refl]).
      exists (ls ++ [[e1]]), j1. rewrite concat_app, lookups_snoc, Ee. cbn [concat]. rewrite app_nil_r. split_and!; try done.
      - apply Forall2_app; [done|]. by constructor.
      - eapply freach_more; try done; [by rewrite <- (padded_ncalls _ _ Hp')|by eapply padded_calm].
      - unfold oreplay in *. rewrite lookups_snoc, Ee, !freplay_snoc, Eh. done. }
    destruct Hs as [f f' obs e H1 H2 H3|f obs aid c H1 H2 H3 H4 H5 H6|y jobs obs aid c e H1|f obs aid c a k v s' H1 H2|y jobs obs aid c r H1];
      unfold os_sys in *; cbn [os_f os_obs fs_sys fs_jobs] in *.
    + destruct f as [y jobs], f' as [y' jobs']. cbn [fs_sys fs_jobs] in *.
      destruct (joint_step K fetch _ _ _ _ _ _ _ Hj H1 H2 H3) as (js' & Hj' & Hs & _).
      { intros aid c e0 Hjb. destruct (joint_job _ _ _ _ _ Hj Hjb) as [_ Hjs]. destruct (freach_ginv K fetch _ _ _ Hf) as [w' Hg]. apply (gi_jobs _ _ _ _ _ Hg _ _ Hjs). }
      apply (Hone e (FSys y' js')); try done. constructor.
    + apply (Hone _ (FSys (fs_sys f) (<[aid := Waiting (CLookup aid [0]) (t_epoch (sy_tree (fs_sys f)))]> js)) eq_refl); try done.
      * constructor.
      * apply fs_begin; [done|by rewrite (jt_jobs _ _ _ Hj)|]. cbn [proper]. split_and!; try done. by apply Forall_singleton.
      * by apply (joint_obs _ _ _ aid (OWaiting c (t_epoch (sy_tree (fs_sys f))))).
    + pose proof (jt_obs _ _ _ Hj _ _ H1) as Hjs. cbn [shadow] in Hjs.
      eapply (Hone _ (FSys _ _) eq_refl); [constructor|by apply fs_resv|done|].
      apply (joint_obs _ _ _ aid (ORunning c (oprogram c))); [done|by eapply (jt_apart _ _ _ Hj)].
    + destruct (Hrun _ _ _ H1) as (tr1 & tr2 & e & [_ _ _ Hok]).
      destruct (Hok w (rtc_refl _ _)) as (v0 & Hd & _). rewrite (gi_sys _ _ _ _ _ Hgw) in Hd. cbn [fs_sys] in Hd. rewrite H2 in Hd. injection Hd as -> ->.
      exists (ls ++ [[]]), js. unfold oreplay in *. rewrite concat_app, lookups_snoc. cbn [concat as_lookup]. rewrite !app_nil_r. split_and!; try done.
      * apply Forall2_app; [done|]. constructor; constructor.
      * by destruct (fs_sys f).
      * split.
        -- intros a0 o Ha. destruct (decide (aid = a0)) as [->|Hne].
           ++ rewrite lookup_insert in Ha. injection Ha as <-. by apply (jt_obs _ _ _ Hj) in H1.
           ++ rewrite lookup_insert_ne in Ha by done. by apply (jt_obs _ _ _ Hj).
        -- intros a0 Ha. apply (jt_jobs _ _ _ Hj). destruct (decide (aid = a0)) as [->|Hne]; [by rewrite lookup_insert in Ha|by rewrite lookup_insert_ne in Ha].
        -- intros a0 o Ha. destruct (decide (aid = a0)) as [->|Hne]; [by eapply (jt_apart _ _ _ Hj)|]. rewrite lookup_insert_ne in Ha by done. by eapply (jt_apart _ _ _ Hj).
    + pose proof (jt_obs _ _ _ Hj _ _ H1) as Hjs. cbn [shadow] in Hjs. destruct (Hrun _ _ _ H1) as (tr1 & tr2 & e & [_ _ [Hop _] _]).
      rewrite (gi_sys _ _ _ _ _ Hgw) in Hop. cbn [fs_sys map] in Hop.
      destruct (run_reads n aid (CLookup aid [0]) _ (concat ls) y js (reads_lookup aid [0]) Hf Hjs Hop) as (acts & o & Hacts).
      destruct (freach_ginv K fetch _ _ _ Hacts) as [wa Hga].
      assert (exists v f, o = OLook v f) as (v & f & ->).
      { destruct (gi_jobs _ _ _ _ _ Hga aid _ (lookup_insert _ _ _)) as (_ & _ & t1 & t2 & e' & ns & _ & _ & _ & Hok).
        specialize (Hok wa (rtc_refl _ _)). destruct o as [v f| |]; try done. by exists v, f. }
      cbn [as_lookup] in Hn, Hc.
      assert (Hp' : padded (lookups tr ++ [EReturn aid (CLookup aid [0]) (RLookup 0 false)])
        ((concat ls ++ map (EAct aid) acts) ++ [EReturn aid (CLookup aid [0]) (RLookup v f)])).
      { apply snoc_pad; [|done]. rewrite <- (app_nil_r (lookups tr)). apply padded_app; [done|apply padded_acts]. }
      exists (ls ++ [map (EAct aid) acts ++ [EReturn aid (CLookup aid [0]) (RLookup v f)]]), (delete aid js).
      rewrite concat_app, lookups_snoc. cbn [concat as_lookup]. rewrite app_nil_r, app_assoc. split_and!; try done.
      * apply Forall2_app; [done|]. constructor; constructor.
      * eapply freach_more; [exact Hacts| |done|by rewrite <- (padded_ncalls _ _ Hp')|by eapply padded_calm].
        rewrite <- (delete_insert_delete js aid (Running (CLookup aid [0]) (Ret (OLook v f)))).
        apply (fs_return K fetch y _ (CLookup aid [0]) aid (OLook v f)). by rewrite lookup_insert.
      * unfold oreplay in *. rewrite lookups_snoc. cbn [as_lookup]. rewrite !freplay_snoc, freplay_acts, Eh. done.
      * apply joint_gone; [done|by eapply (jt_apart _ _ _ Hj)].
Qed.

(** What everybody else's theorems speak about. *)
Corollary o_freach n tr x : oreachable n tr x -> exists tr' js, freachable n tr' (FSys (os_sys x) js) /\ freplay tr' = oreplay tr /\
  (forall aid jb, fs_jobs (os_f x) !! aid = Some jb -> js !! aid = Some jb) /\
  (forall e, OF e ∈ tr -> e ∈ tr') /\ ncalls tr' = ncalls (lookups tr).
Proof.
  intros Hr. destruct (o_simulated _ _ _ Hr) as (ls & js & Hls & Hp & Hf & Eh & Hj). exists (concat ls), js. split_and!; try done.
  - intros aid jb H. by apply (joint_job _ _ _ _ _ Hj) in H as [_ ?].
  - intros e He. clear -Hls He. induction Hls as [|e1 l tr ls H1 H2 IH]; [by apply elem_of_nil in He|]. cbn [concat]. apply elem_of_app.
    apply elem_of_cons in He as [<-|He]; [left|right; by apply IH]. inversion H1. by left.
  - symmetry. by apply padded_ncalls.
Qed.
End ObsSim.
