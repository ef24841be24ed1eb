(** * Rmw: the value a Prepare call reports is the one that a successful Finalize replaces. *)
From Verif Require Export ApiProps.

Section Rmw.
Context (K : list N -> Prop) (fetch : N -> list N) (HK : universe K).
Local Notation core := (core K fetch).
Local Notation hok := (hok K fetch).
Local Notation get := (get fetch).

Lemma leaf_in C full a pfx cs b k v : (b, HLeaf k v) ∈ heads cs -> (k, v) ∈ contents (plug C (Node full a pfx cs)).
Proof.
  intros H. apply elem_of_list_fmap in H as ([b' c] & E & Hin). simpl in E. injection E as <- E. destruct c as [k0 v0|]; [|done]. injection E as -> ->.
  rewrite contents_plug. apply elem_of_app; right; apply elem_of_app; left. rewrite contents_node. apply elem_of_list_bind.
  exists (b, Leaf k0 v0). split; [by left|done].
Qed.

Lemma occ_leaf_in T o b k v : ooccr T o -> (b, HLeaf k v) ∈ o_hs o -> (k, v) ∈ ocontents T.
Proof.
  intros Ho Hin. destruct T as [t|]; [|done]. destruct (occ_zip _ _ Ho) as (C & cs & -> & _ & _ & _ & E). rewrite E in Hin.
  by eapply leaf_in.
Qed.

(** While an update is open, its key is bound to the candidate it reported, or not at all. *)
Lemma uop_frozen s T aid p found op w : core s T -> hok s T aid p (HU found op) -> (p_key p, w) ∈ ocontents T ->
  found = true /\ w = u_value op.
Proof.
  intros Hc (-> & _ & _ & Hop) Hin. destruct (u_isroot (u_kind op)) eqn:Er.
  - destruct Hop as (_ & Hk & Hh & Hop). destruct (u_kind op); try done; simpl.
    + subst T. by apply elem_of_nil in Hin.
    + destruct Hop as (k0 & w0 & b & -> & _ & Hb & Hne). simpl in Hin. apply elem_of_list_singleton in Hin. simplify_eq.
    + destruct Hop as (k0 & -> & _). simpl in Hin. apply elem_of_list_singleton in Hin. by simplify_eq.
  - destruct Hop as (o & Ho & _ & Hk). destruct T as [t|]; [|done]. destruct (occ_zip _ _ Ho) as (C & cs & E & Ep & _ & _ & Eh).
    simpl in Hin. rewrite E in Hin, Hc. pose proof (co_wf _ _ _ _ Hc) as Hw. simpl in Hw.
    assert (Hch : forall b, (o_path o ++ o_pfx o ++ [b]) `prefix_of` p_key p -> exists c, (b, c) ∈ cs /\ (p_key p, w) ∈ contents c).
    { intros b Hb. rewrite <- Ep in Hb. eapply child_contents; [by apply wf_under|exact Hb|].
      eapply (contents_under K fetch []); [exact Hw| |done]. etrans; [|exact Hb]. by apply prefix_app_r. }
    assert (Hno : forall b, (o_path o ++ o_pfx o ++ [b]) `prefix_of` p_key p -> b ∉ map fst (o_hs o) -> False).
    { intros b Hb Hn. destruct (Hch b Hb) as (c & Hin' & _). apply Hn. rewrite Eh, heads_fst. apply elem_of_list_fmap. by exists (b, c). }
    assert (Hyes : forall b k v, (o_path o ++ o_pfx o ++ [b]) `prefix_of` p_key p -> (forall hd, (b, hd) ∈ o_hs o -> hd = HLeaf k v) -> w = v).
    { intros b k v Hb Hhd. destruct (Hch b Hb) as (c & Hin' & Hc'). destruct c as [k0 v0|f0 a0 p0 c0].
      - assert (E' : head_of (Leaf k0 v0) = HLeaf k v) by (apply Hhd; rewrite Eh; apply elem_of_list_fmap; by exists (b, Leaf k0 v0)).
        injection E' as -> ->. simpl in Hc'. apply elem_of_list_singleton in Hc'. by simplify_eq.
      - discriminate (Hhd (head_of (Node f0 a0 p0 c0)) ltac:(rewrite Eh; apply elem_of_list_fmap; by eexists (b, _))). }
    assert (Hnd : NoDup (map fst (o_hs o))).
    { rewrite Eh, heads_fst. apply sbytes_NoDup. apply wf_under in Hw. by apply wf_node_iff in Hw as (? & _). }
    unfold ukind_ok in Hk. destruct (u_kind op); try done; simpl.
    + destruct Hk as (_ & b & c & Hb & Hc2 & Hne & Hp). exfalso.
      eapply (contents_under K fetch []) in Hin; [|exact Hw|].
      2:{ simpl. rewrite Ep. etrans; [|exact Hp]. by apply prefix_app_r. }
      apply wf_under in Hw. destruct (wf_contents K fetch _ _ _ _ Hw Hin) as (Hpx & _).
      rewrite contents_node in Hin. apply elem_of_list_bind in Hin as ([b' c'] & Hin & Hin'). 
      destruct (child_wf _ _ _ _ _ _ _ _ _ Hw Hin') as [Hwc _]. destruct (wf_contents K fetch _ _ _ _ Hwc Hin) as ([q Hq] & _).
      rewrite Ep in Hq. rewrite Hq in Hc2. rewrite <- !app_assoc in Hc2. rewrite lookup_app_r in Hc2 by lia.
      replace (length (o_path o) + u_mismatch op - length (o_path o))%nat with (u_mismatch op) in Hc2 by lia.
      rewrite lookup_app_l in Hc2 by (by eapply lookup_lt_Some). congruence.
    + destruct Hk as ((_ & Hp & _) & _ & hl & hr & Ehs & _ & H1 & H2). exfalso. eapply Hno; [exact Hp|].
      rewrite Ehs, map_app. rewrite elem_of_app. intros [H|H]; [apply H1 in H|apply H2 in H]; lia.
    + destruct Hk as ((_ & Hp & _) & _ & Hn & _). exfalso. by eapply Hno.
    + destruct Hk as ((_ & Hp & _) & _ & _ & _ & hl & hr & Ehs & _). split; [done|]. eapply Hyes; [exact Hp|].
      intros hd Hhd. eapply fst_unique; [exact Hnd|exact Hhd|]. rewrite Ehs. apply elem_of_app; right; left.
    + destruct Hk as ((_ & Hp & _) & _ & _ & _ & _ & _ & _ & _ & Hhd). split; [done|]. by eapply Hyes.
Qed.

(** The candidate is bound, unless a delete was finalized meanwhile. *)
Lemma uop_bound s T aid p op : core s T -> hok s T aid p (HU true op) -> p_del p = false \/ u_kind op <> nodeLeafUpdate256 ->
  (fetch (u_value op), u_value op) ∈ ocontents T.
Proof.
  intros Hc (Hf & _ & _ & Hop) Hd. destruct (u_isroot (u_kind op)) eqn:Er.
  - destruct Hop as (_ & Hk & Hh & Hop). destruct (u_kind op); try done. destruct Hop as (k0 & -> & _).
    pose proof (co_wf _ _ _ _ Hc) as Hw. simpl in Hw. apply wf_leaf_inv in Hw as (_ & _ & _ & ->). simpl. left.
  - destruct Hop as (o & Ho & _ & Hk). unfold ukind_ok in Hk. destruct (u_kind op); try done.
    + destruct Hk as ((_ & Hp & _) & _ & _ & _ & hl & hr & Ehs & _). eapply occ_leaf_in; [exact Ho|]. rewrite Ehs. apply elem_of_app; right; left.
    + destruct Hk as ((_ & Hp & _) & _ & _ & _ & _ & _ & _ & Hin & _). eapply occ_leaf_in; [exact Ho|]. apply Hin. by destruct Hd.
Qed.

Lemma slot_leaf s T o b v (over : bool) : core s T -> ooccr T o -> o_full o = true -> b < 256 -> v < vlim ->
  (over = false -> (b, HLeaf (fetch v) v) ∈ o_hs o) ->
  mget (t_mem s) (slot_of true (o_addr o) (o_pfx o) b 0) = buildLeaf b v -> (fetch v, v) ∈ ocontents T.
Proof.
  intros Hc Ho Hf Hb Hv Hin Hm. destruct T as [t|]; [|done]. destruct (occ_zip _ _ Ho) as (C & cs & -> & _ & _ & _ & E). rewrite Hf in *.
  rewrite E in Hin. destruct (leaf_slot_full K fetch s C _ _ _ b v over Hc Hb Hv Hin) as [(cl & cr & -> & _)|(_ & Hne & _)]; [|done].
  apply leaf_in with b. apply elem_of_list_fmap. exists (b, Leaf (fetch v) v). split; [done|]. apply elem_of_app; right; left.
Qed.

(** An update that succeeds: what was bound just before. *)
Lemma update_replaces y h m aid fk mt value y' : settled K fetch y h m -> proper K fetch y (CFinU aid fk mt value) ->
  api y (CFinU aid fk mt value) = Ok (RBool true, y') ->
  exists found op, sy_open y !! aid = Some (HU found op) /\
    get y (u_key op) = if found then (if decide (fetch (u_value op) = u_key op) then Some (u_value op) else None) else None.
Proof.
  intros Hs Hp Ha. destruct Hp as (found & op & Ho & Hv & Hf). exists found, op. split; [done|].
  destruct (st_inv _ _ _ _ _ Hs) as (T & lost & Hi). pose proof (iv_core _ _ _ _ _ _ _ Hi) as Hc.
  destruct (iv_ops _ _ _ _ _ _ _ Hi _ _ Ho) as (p & Hpe & Hok). destruct (st_keys _ _ _ _ _ Hs _ _ Hpe) as [Hkb Hkn].
  assert (Ek : u_key op = p_key p) by apply Hok. rewrite Ek in *.
  assert (Hn : forall w, get y (p_key p) = Some w -> found = true /\ w = u_value op /\ fetch w = p_key p).
  { intros w Hw. apply (get_iff K fetch HK y T) in Hw; try done. destruct (uop_frozen _ _ _ _ _ _ _ Hc Hok Hw) as [-> ->].
    split_and!; try done. by destruct (co_contents K fetch _ _ _ _ Hc Hw) as (_ & _ & ?). }
  destruct found.
  2:{ destruct (get y (p_key p)) as [w|]; [|done]. by destruct (Hn w eq_refl). }
  destruct (decide (fetch (u_value op) = p_key p)) as [Hm|Hm].
  2:{ destruct (get y (p_key p)) as [w|]; [|done]. by destruct (Hn w eq_refl) as (_ & -> & ?). }
  destruct (Hf eq_refl) as [-> Hmt]. rewrite <- Hm. eapply stored_ok; [done|exact Hc|].
  assert (u_kind op = nodeLeafUpdate256 \/ u_kind op <> nodeLeafUpdate256) as [E256|Hne] by (destruct (u_kind op); auto); [|apply (uop_bound _ _ _ _ _ Hc Hok); by right].
  assert (mt = true) as -> by (apply Hmt; done).
  destruct Hok as (_ & _ & _ & Hop). rewrite E256 in Hop. simpl in Hop. destruct Hop as (o & Hoc & _ & Hk). unfold ukind_ok in Hk. rewrite E256 in Hk.
  destruct Hk as ((_ & Hpx & Hk256) & Hfull & Hcl & Hvl & Hlp & _ & _ & Hin & _).
  unfold api in Ha. rewrite Ho in Ha. unfold finalize_update, finalize_update_body in Ha. rewrite E256 in Ha.
  eapply (slot_leaf _ _ o (u_k op) (u_value op) (p_del p)); try done.
  rewrite Hlp, Hcl in Ha. unfold pcas in Ha. simpl in Ha.
  destruct (N.eqb_spec (mget (t_mem (sy_tree y)) (slot_of true (o_addr o) (o_pfx o) (u_k op) 0)) (buildLeaf (u_k op) (u_value op))) as [E|]; [done|].
  exfalso. cbn [bind] in Ha. destruct (unlock_uop _ _) as [s2| | |]; cbn [bind] in Ha; try done.
Qed.

(** A delete that succeeds: what was bound just before. *)
Lemma delete_replaces y h m aid y' : settled K fetch y h m -> proper K fetch y (CFinD aid) ->
  api y (CFinD aid) = Ok (RBool true, y') ->
  exists p op, h_pend h !! aid = Some p /\ sy_open y !! aid = Some (HD (p_key p) op) /\
    ((get y (p_key p) = Some (d_value op) /\ get y' (p_key p) = None) \/
     (p_over p = true /\ get y' (p_key p) = get y (p_key p))).
Proof.
  intros Hs Hp Ha. destruct (settled_step _ _ _ _ _ _ Hs Hp) as (T & lost & Hi & Hst). rewrite Ha in Hst.
  destruct Hst as (_ & T' & lost' & Hi' & Hch). simpl in Hch. destruct Hch as [(p & Hpe & Hch) _].
  destruct Hp as (op & Ho). pose proof (iv_core _ _ _ _ _ _ _ Hi) as Hc. pose proof (iv_core _ _ _ _ _ _ _ Hi') as Hc'.
  destruct (iv_ops _ _ _ _ _ _ _ Hi _ _ Ho) as (p' & Hpe' & Hok). assert (p' = p) as -> by congruence.
  destruct (st_keys _ _ _ _ _ Hs _ _ Hpe) as [Hkb Hkn]. destruct Hok as (Eal & Ekey & Hvl & Hop).
  exists p, op. rewrite <- Ekey in *. split; [done|]. split; [done|].
  assert (Hdec : (is_del256 op = true /\ exists x, d_leafPtr op = PSlot x /\ x ∉ cover (oregs T)) \/
    ~ (is_del256 op = true /\ exists x, d_leafPtr op = PSlot x /\ x ∉ cover (oregs T))).
  { destruct (is_del256 op); [|by right; intros []]. destruct (d_leafPtr op) as [|x]; [right; naive_solver|].
    destruct (decide (x ∈ cover (oregs T))); [right|left]; naive_solver. }
  destruct Hdec as [[E256 (x & Hptr & Hx)]|Hlive].
  { right. unfold d256ok in Hop. assert (Er : d_isroot (d_kind op) = false) by (unfold is_del256 in E256; by destruct (d_kind op)). rewrite Er, E256 in Hop.
    destruct Hop as (b & x' & r & Hb & Hraw & Hptr' & Hr & Hre & [(o & Hoc & Hfull & -> & _)|(Hov & _ & Hx0 & Hsf)]).
    - exfalso. rewrite Hptr in Hptr'. injection Hptr' as ->. apply Hx. apply elem_of_cover. exists (oreg o). split; [by apply ooccr_regs|]. by apply slot_in_region.
    - assert (x' = x) as -> by congruence. split; [done|].
      assert (Hu : ~ unused (sy_tree y) x).
      { intros [?|H]; [done|]. destruct Hsf as [_ _ Hb']. rewrite N.mul_comm in H. apply N.div_le_lower_bound in H; [lia|done]. }
      unfold api in Ha. rewrite Ho in Ha. unfold finalize_delete in Ha.
      assert (Hbody : finalize_delete_body (sy_tree y) op = del256 (sy_tree y) (d_alloc op) (d_leafPtr op) (d_raw op)).
      { unfold finalize_delete_body, del256, is_del256 in *. by destruct (d_kind op). }
      rewrite Hbody, Hptr, Hraw, Eal in Ha.
      pose proof (del256_stale K fetch (sy_tree y) T x (buildLeaf b (d_value op)) aid _ Hc Hx Hu (iv_aid _ _ _ _ _ _ _ Hi _ _ Ho) (iv_locks _ _ _ _ _ _ _ Hi)) as Hpost.
      destruct (del256 (sy_tree y) aid (PSlot x) (buildLeaf b (d_value op))) as [[[|] s1]| | |]; cbn [bind] in Ha; try done.
      destruct Hpost as [_ [(l & e & Hup & _) _ _]]. injection Ha as <-. eapply (get_same K fetch HK _ _ T); try done.
      apply (core_ext K fetch s1); try done. by eapply upd_core. }
  destruct Hch as [(v & Hrem & _)|(Hov & -> & _)]; [|right; split; [done|]; by eapply (get_same K fetch HK)].
  left. split; [|rewrite (removed_get K fetch _ _ T T' y y' (fetch (d_value op)) v) by done; by rewrite decide_True].
  eapply stored_ok; [done|exact Hc|]. destruct (d_isroot (d_kind op)) eqn:Er.
  { destruct Hop as (_ & _ & ->). simpl. left. }
  destruct (is_del256 op) eqn:E256.
  - destruct Hop as (b & x & r & Hb & Hraw & Hptr & Hr & Hre & [(o & Hoc & Hfull & -> & Hin)|(Hov & Hx & Hx0 & Hsf)]).
    + unfold is_del256 in E256. destruct (d_kind op) eqn:Ekind; try done.
      eapply (slot_leaf _ _ o b (d_value op) (p_over p)); try done.
      unfold api in Ha. rewrite Ho in Ha. unfold finalize_delete, finalize_delete_body in Ha. rewrite Ekind, Hptr, Hraw in Ha. unfold pcas in Ha. simpl in Ha.
      destruct (N.eqb_spec (mget (t_mem (sy_tree y)) (slot_of true (o_addr o) (o_pfx o) b 0)) (buildLeaf b (d_value op))) as [E|]; [done|].
      exfalso. done.
    + exfalso. apply Hlive. eauto.
  - destruct Hop as (o & Hoc & Hb & Hk). unfold dkind_ok, is_del256 in *. destruct (d_kind op); try done.
    + destruct Hk as (_ & _ & _ & _ & _ & _ & _ & hl & b & hr & Ehs & _). eapply occ_leaf_in; [exact Hoc|]. rewrite Ehs. apply elem_of_app; right; left.
    + destruct Hk as (_ & _ & _ & b1 & b2 & k2 & v2 & Hhs & _). apply (occ_leaf_in T o b1); [done|]. destruct Hhs as [->| ->]; [left|right; left].
    + destruct Hk as (_ & _ & b1 & b2 & cf & ca & cp & cn & Hhs & _). apply (occ_leaf_in T o b1); [done|]. destruct Hhs as [->| ->]; [left|right; left].
Qed.
End Rmw.

(** ** Histories *)

(** The client whose operation a call begins or ends. *)
Definition caller (c : call) : option nat :=
  match c with
  | CLookup aid _ | CPrepU aid _ | CFinU aid _ _ _ | CAbortU aid | CPrepD aid _ | CFinD aid | CAbortD aid => Some aid
  | CFlush _ | CRestart _ _ _ => None
  end.

Lemma keep_open K fetch y c r y' aid hd : proper K fetch y c -> api y c = Ok (r, y') -> caller c <> Some aid ->
  sy_open y !! aid = Some hd -> sy_open y' !! aid = Some hd.
Proof.
  intros Hp Ha Hc Ho. destruct c as [a key|a key|a fk m value|a|a key|a|a|a|pk upk ord]; cbn [api caller] in *.
  - destruct (Search.lookup _ _ _) as [[[v f] s1]| | |]; cbn [bind] in Ha; try done. by injection Ha as <- <-.
  - destruct (prepare_update _ _ _) as [[[f op] s1]| | |]; cbn [bind] in Ha; try done. injection Ha as <- <-. cbn [sy_open].
    rewrite lookup_insert_ne; [done|congruence].
  - destruct (sy_open y !! a) as [[]|]; try done. destruct (finalize_update _ _ _ _ _) as [[u s1]| | |]; cbn [bind] in Ha; try done.
    injection Ha as <- <-. cbn [sy_open]. rewrite lookup_delete_ne; [done|congruence].
  - destruct (sy_open y !! a) as [[]|]; try done. destruct (abort_update _ _) as [s1| | |]; cbn [bind] in Ha; try done.
    injection Ha as <- <-. cbn [sy_open]. rewrite lookup_delete_ne; [done|congruence].
  - destruct (prepare_delete _ _ _) as [[[op|] s1]| | |]; cbn [bind] in Ha; try done; injection Ha as <- <-; cbn [sy_open]; [|done].
    rewrite lookup_insert_ne; [done|congruence].
  - destruct (sy_open y !! a) as [[]|]; try done. destruct (finalize_delete _ _) as [[u s1]| | |]; cbn [bind] in Ha; try done.
    injection Ha as <- <-. cbn [sy_open]. rewrite lookup_delete_ne; [done|congruence].
  - destruct (sy_open y !! a) as [[]|]; try done. destruct (abort_delete _ _) as [s1| | |]; cbn [bind] in Ha; try done.
    injection Ha as <- <-. cbn [sy_open]. rewrite lookup_delete_ne; [done|congruence].
  - destruct (flush_stats _ _) as [s1| | |]; cbn [bind] in Ha; try done. by injection Ha as <- <-.
  - destruct Hp as [Hp _]. by rewrite Hp in Ho.
Qed.

Section Trace.
Context (K : list N -> Prop) (fetch : N -> list N).
Local Notation reachable := (reachable K fetch).
Local Notation get := (get fetch).

Lemma reach_snoc n tr e y' : reachable n (tr ++ [e]) y' -> exists y, reachable n tr y /\ proper K fetch y e.1 /\ api y e.1 = Ok (e.2, y').
Proof.
  intros [HK Hr Hl]. remember (tr ++ [e]) as t eqn:Et. destruct Hr as [|tr0 y c r y' Hr Hp Ha]; [by destruct tr|].
  apply app_inj_tail in Et as [-> <-]. exists y. split_and!; try done. split; try done. rewrite app_length in Hl. simpl in Hl. lia.
Qed.

Lemma open_since n tr1 e tr2 y aid (P : handle -> Prop) : reachable n (tr1 ++ e :: tr2) y ->
  (forall y1, reachable n (tr1 ++ [e]) y1 -> exists hd, sy_open y1 !! aid = Some hd /\ P hd) ->
  Forall (fun e => caller e.1 <> Some aid) tr2 -> exists hd, sy_open y !! aid = Some hd /\ P hd.
Proof.
  intros Hr He. revert y Hr. induction tr2 as [|e2 tr2 IH] using rev_ind; intros y Hr Hf; [by apply He|].
  apply Forall_app in Hf as [Hf H2]. apply Forall_inv in H2.
  change (tr1 ++ e :: tr2 ++ [e2]) with (tr1 ++ (e :: tr2) ++ [e2]) in Hr. rewrite app_assoc in Hr.
  destruct (reach_snoc _ _ _ _ Hr) as (y0 & Hr0 & Hp & Ha). destruct (IH _ Hr0 Hf) as (hd & Ho & HP). exists hd. split; [|done].
  by eapply keep_open.
Qed.

Lemma prepu_open n tr aid key found v y : reachable n (tr ++ [(CPrepU aid key, RPrepU found v)]) y ->
  exists hd, sy_open y !! aid = Some hd /\ exists op, hd = HU found op /\ u_key op = key /\ u_value op = v.
Proof.
  intros Hr. destruct (reach_inv _ _ _ _ _ Hr) as (T & lost & Hi). destruct (reach_snoc _ _ _ _ Hr) as (y0 & _ & Hp & Ha). cbn [fst snd api] in *.
  destruct (prepare_update _ _ _) as [[[f op] s1]| | |]; cbn [bind] in Ha; try done. injection Ha as -> <- <-. eexists. cbn [sy_open].
  rewrite lookup_insert. split; [done|]. exists op. split; [done|]. split; [|done].
  destruct (iv_ops _ _ _ _ _ _ _ Hi aid (HU found op)) as (p & Hpe & _ & _ & -> & _); [cbn [sy_open]; by rewrite lookup_insert|].
  rewrite replay_snoc in Hpe. cbn [hstep h_pend] in Hpe. rewrite lookup_insert in Hpe. by injection Hpe as <-.
Qed.

Lemma prepd_open n tr aid key v y : reachable n (tr ++ [(CPrepD aid key, RPrepD (Some v))]) y ->
  exists hd, sy_open y !! aid = Some hd /\ exists op, hd = HD key op /\ d_value op = v.
Proof.
  intros Hr. destruct (reach_snoc _ _ _ _ Hr) as (y0 & _ & Hp & Ha). cbn [fst snd api] in *.
  destruct (prepare_delete _ _ _) as [[[op|] s1]| | |]; cbn [bind] in Ha; try done. injection Ha as <- <-. eexists. cbn [sy_open].
  rewrite lookup_insert. split; [done|]. by exists op.
Qed.

Lemma c51_update n tr1 aid key found v tr2 y fk m value y' :
  reachable n (tr1 ++ (CPrepU aid key, RPrepU found v) :: tr2) y -> Forall (fun e => caller e.1 <> Some aid) tr2 ->
  proper K fetch y (CFinU aid fk m value) -> api y (CFinU aid fk m value) = Ok (RBool true, y') ->
  get y key = (if found then (if decide (fetch v = key) then Some v else None) else None) /\ get y' key = Some (value mod 2 ^ 55).
Proof.
  intros Hr Hf Hp Ha. destruct (open_since _ _ _ _ _ aid _ Hr (prepu_open _ _ _ _ _ _) Hf) as (hd & Ho & op & -> & <- & <-).
  pose proof (reach_settled _ _ _ _ _ Hr) as Hs. pose proof (rc_univ _ _ _ _ _ Hr) as HK.
  destruct (update_replaces K fetch HK _ _ _ _ _ _ _ _ Hs Hp Ha) as (f' & op' & Ho' & Hg). rewrite Ho in Ho'. injection Ho' as <- <-.
  split; [done|]. destruct (st_update K fetch _ _ _ _ _ _ _ _ _ Hs Hp Ha) as (p & Hpe & _ & Hg').
  destruct (st_keys _ _ _ _ _ Hs _ _ Hpe) as [Hkb Hkn].
  destruct (st_inv _ _ _ _ _ Hs) as (T & lost & Hi). destruct (iv_ops _ _ _ _ _ _ _ Hi _ _ Ho) as (p' & Hpe' & _ & _ & Ek & _).
  assert (p' = p) as -> by congruence. rewrite Ek. rewrite Hg' by done. by rewrite decide_True.
Qed.

(** An operation counts as overlapped only if another Finalize succeeded since. *)
Lemma pend_quiet h e aid p : caller e.1 <> Some aid -> acked e.2 = false -> h_pend h !! aid = Some p ->
  h_pend (hstep h e) !! aid = Some p.
Proof.
  intros Hc Ha Hp. destruct e as [c r]. cbn [fst snd] in *.
  assert (Hi : forall a q, a <> aid -> <[a := q]> (h_pend h) !! aid = Some p) by (intros; by rewrite lookup_insert_ne).
  assert (Hd : forall a, a <> aid -> delete a (h_pend h) !! aid = Some p) by (intros; by rewrite lookup_delete_ne).
  destruct c as [a key|a key|a fk m value|a|a key|a|a|a|pk upk ord]; cbn [caller] in Hc; simpl; try done;
    try (assert (a <> aid) by congruence); auto.
  - destruct r as [| | |[]| |]; simpl; auto; done.
  - destruct r as [| |[]| | |]; simpl; auto.
  - destruct r as [| | |[]| |]; simpl; auto; done.
  - by destruct r.
Qed.

Lemma over_since tr1 e tr2 aid p : h_pend (replay (tr1 ++ [e])) !! aid = Some p -> p_over p = false ->
  Forall (fun e => caller e.1 <> Some aid) tr2 -> Forall (fun e => acked e.2 = false) tr2 ->
  h_pend (replay (tr1 ++ e :: tr2)) !! aid = Some p.
Proof.
  intros Hp Ho. induction tr2 as [|e2 tr2 IH] using rev_ind; intros H1 H2; [done|].
  apply Forall_app in H1 as [H1 H1']. apply Forall_app in H2 as [H2 H2']. apply Forall_inv in H1'. apply Forall_inv in H2'.
  change (tr1 ++ e :: tr2 ++ [e2]) with (tr1 ++ (e :: tr2) ++ [e2]). rewrite app_assoc, replay_snoc. apply pend_quiet; auto.
Qed.

Lemma c52_delete n tr1 aid key v tr2 y y' :
  reachable n (tr1 ++ (CPrepD aid key, RPrepD (Some v)) :: tr2) y -> Forall (fun e => caller e.1 <> Some aid) tr2 ->
  proper K fetch y (CFinD aid) -> api y (CFinD aid) = Ok (RBool true, y') ->
  (get y key = Some v /\ get y' key = None) \/
  (Exists (fun e => acked e.2 = true) tr2 /\ get y' key = get y key).
Proof.
  intros Hr Hf Hp Ha. destruct (open_since _ _ _ _ _ aid _ Hr (prepd_open _ _ _ _ _) Hf) as (hd & Ho & op & -> & <-).
  pose proof (reach_settled _ _ _ _ _ Hr) as Hs. pose proof (rc_univ _ _ _ _ _ Hr) as HK.
  destruct (delete_replaces K fetch HK _ _ _ _ _ Hs Hp Ha) as (p & op' & Hpe & Ho' & Hg). rewrite Ho in Ho'. injection Ho' as -> <-.
  destruct Hg as [Hg|[Hov Hg]]; [by left|]. right. split; [|done].
  destruct (decide (Forall (fun e => acked e.2 = false) tr2)) as [Hq|Hq].
  - exfalso. assert (E : h_pend (replay (tr1 ++ [(CPrepD aid (p_key p), RPrepD (Some (d_value op)))])) !! aid = Some (Pend (p_key p) false false)).
    { rewrite replay_snoc. cbn [hstep h_pend]. by rewrite lookup_insert. }
    rewrite (over_since _ _ _ _ _ E eq_refl Hf Hq) in Hpe. apply (f_equal (option_map p_over)) in Hpe. simpl in Hpe. congruence.
  - apply not_Forall_Exists in Hq; [|apply _]. eapply Exists_impl; [exact Hq|]. intros e He. simpl in He. by destruct (acked e.2).
Qed.
End Trace.
