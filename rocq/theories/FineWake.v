(** * FineWake: the order in which Finalize gives back its locks.  A lock is given back before those of the nodes below
    it, so a cut off node that is still reached through a locked node is locked itself. *)
From Verif Require Export FineTop.

Section Wake.
Context (K : list N -> Prop) (fetch : N -> list N) (HK : universe K).
Local Notation core := (core K fetch).
Local Notation hok := (hok K fetch).

Lemma occ_same s T o o' : core s T -> ooccr T o -> ooccr T o' -> o_addr o = o_addr o' -> o = o'.
Proof.
  intros Hc Ho Ho' E. pose proof (occ_facts K fetch _ _ _ Hc Ho) as Hf. pose proof (occ_facts K fetch _ _ _ Hc Ho') as Hf'.
  destruct T as [t|]; [|done]. apply (occ_unique _ _ _ _ _ _ (o_addr o) Ho Ho').
  - pose proof (ai_nodup _ _ (co_alloc _ _ _ _ Hc)) as Hnd. rewrite cover_app in Hnd. by apply NoDup_app in Hnd as (? & _ & _).
  - apply elem_of_seqN. pose proof (of_cnt _ _ Hf). unfold oreg, nslots. simpl. lia.
  - rewrite E. apply elem_of_seqN. pose proof (of_cnt _ _ Hf'). unfold oreg, nslots. simpl. lia.
Qed.

Lemma occ_deeper s T o1 o2 : core s T -> ooccr T o1 -> ooccr T o2 -> o_par o2 = o_addr o1 -> (length (o_path o1) < length (o_path o2))%nat.
Proof.
  intros Hc H1 H2 E. pose proof (occ_nonzero K fetch _ _ _ Hc H1) as Hn. pose proof H2 as H2'. destruct T as [t|]; [|done].
  destruct (occ_above _ _ _ _ _ H2) as [(_ & E2 & _)|(o3 & b & H3 & E3 & E4)]; [congruence|].
  assert (o3 = o1) as -> by (apply (occ_same s (Some t)); try done; congruence). rewrite E4, !app_length. simpl. lia.
Qed.

Lemma occ_kid s T o b full a pfx n : core s T -> ooccr T o -> (b, HNode full a pfx n) ∈ o_hs o -> exists o', ooccr T o' /\ o_addr o' = a /\ o_par o' = o_addr o.
Proof.
  intros Hc Ho Hin. destruct T as [t|]; [|done]. destruct (occ_zip _ _ Ho) as (D & cs & -> & _ & _ & _ & E).
  rewrite E in Hin. apply elem_of_list_split in Hin as (hl & hr & Eh). apply heads_split in Eh as (cl & t & cr & -> & _ & Et & _).
  destruct t as [|full' a' pfx' cs']; [done|]. injection Et as -> -> -> _.
  destruct (occ_child_of D (o_full o) (o_addr o) (o_pfx o) cl b (Node full a pfx cs') cr eq_refl) as (o' & H1 & _ & _ & H2 & H3 & _). by exists o'.
Qed.

(** Each lock word comes before the words of the node below. *)
Definition topdown (ids : list N) (a1 a2 : N) : Prop := forall l0 l, ids = l0 ++ l -> lock_id a1 ∈ l -> lock_id a2 ∈ l.

Lemma last_suffix {A} (l0 l m : list A) x : l0 ++ l = m ++ [x] -> l <> [] -> x ∈ l.
Proof.
  intros E Hl. destruct l as [|y l _] using rev_ind; [done|]. rewrite app_assoc in E. apply app_inj_tail in E as [_ ->].
  apply elem_of_app. right. left.
Qed.

Lemma topdown_last ids m a1 a2 : ids = m ++ [lock_id a2] -> topdown ids a1 a2.
Proof. intros E l0 l E2 Hin. eapply last_suffix; [by rewrite <- E, E2|]. intros ->. by apply elem_of_nil in Hin. Qed.

Lemma topdown2 node parent : topdown (lids2 node parent) parent node.
Proof.
  unfold lids2. destruct (_ =? 0); [by apply (topdown_last _ [])|]. destruct (_ =? _); [by apply (topdown_last _ [])|].
  by apply (topdown_last _ [lock_id parent]).
Qed.

Lemma topdown3 child node parent : node <> 0 -> lock_id child <> lock_id node -> (parent <> 0 -> lock_id parent <> lock_id child) ->
  topdown (lids3 child node parent) node child /\ (parent <> 0 -> topdown (lids3 child node parent) parent node).
Proof.
  intros Hn H1 H2. assert (E2 : lids2 child node = [lock_id node; lock_id child]).
  { unfold lids2. rewrite (proj2 (N.eqb_neq _ _)) by done. by rewrite (proj2 (N.eqb_neq _ _)) by congruence. }
  unfold lids3. rewrite E2. destruct (N.eqb_spec parent 0) as [E|E].
  { split; [by apply (topdown_last _ [lock_id node])|done]. }
  specialize (H2 E). split.
  - eapply topdown_last. by rewrite (app_assoc _ [lock_id node] [lock_id child]).
  - intros _ l0 l El Hin. rewrite (proj2 (N.eqb_neq (lock_id parent) (lock_id child))) in El by done. cbn [orb] in El.
    destruct (N.eqb_spec (lock_id parent) (lock_id node)) as [E3|E3]; [by rewrite <- E3|]. cbn [app] in El.
    destruct l0 as [|i0 l0]; cbn [app] in El; [rewrite <- El; right; left|]. injection El as _ El.
    destruct l0 as [|i1 l0]; cbn [app] in El; [rewrite <- El; left|]. injection El as _ El.
    destruct l0 as [|i2 l0]; cbn [app] in El; [rewrite <- El in Hin; apply elem_of_list_singleton in Hin; congruence|].
    injection El as _ El. symmetry in El. apply app_eq_nil in El as [_ ->]. by apply elem_of_nil in Hin.
Qed.

(** ** An effect cuts off only nodes whose locks come in this order *)

Lemma keeps_alive T T' X o : keeps T T' X -> ooccr T o -> o_addr o ∈ X \/ alive T' o.
Proof.
  intros Hk Ho. destruct (decide (o_addr o ∈ X)) as [?|Hn]; [by left|right]. destruct (Hk o Ho Hn) as (_ & o' & Ho' & Hm).
  exists o'. split; [done|]. by apply omoved_same.
Qed.

Lemma late_pairs T T' hd ids : cut T T' hd ->
  (forall o1 o2, ooccr T o1 -> ooccr T o2 -> o_par o2 = o_addr o1 -> o_addr o1 ∈ oaddrs hd -> o_addr o2 ∈ oaddrs hd -> topdown ids (o_addr o1) (o_addr o2)) ->
  late_ok T T' ids.
Proof.
  intros Hc Hp o1 o2 l0 l El H1 H2 E Hin. destruct Hc as [->|[He|(X & Hk & HX)]].
  - left. exists o1. split; [done|apply osame_refl].
  - left. destruct (He o1 H1) as (o' & Ho' & Hx). exists o'. split; [done|]. destruct Hx as [X1 X2 X3 X4 X5 X6 X7 X8]. split_and!; try done. intros Hf. by rewrite X7.
  - destruct (keeps_alive _ _ _ _ Hk H1) as [A1|?]; [|by left]. destruct (keeps_alive _ _ _ _ Hk H2) as [A2|?]; [|right; by left].
    right; right. eapply (Hp o1 o2); try done; by apply HX.
Qed.

Lemma late_fin s T aid q hd T' : core s T -> hok s T aid q hd -> (forall key op, hd = HD key op -> ~ clash op) ->
  cut T T' hd -> late_ok T T' (olids hd).
Proof.
  intros Hc Hh Hcl Hcut. destruct (decide (olids hd = [])) as [->|Hne]; [apply late_nil|].
  apply (late_pairs _ _ hd); [done|]. intros o1 o2 H1 H2 E A1 A2. pose proof (occ_deeper _ _ _ _ Hc H1 H2 E) as Hd.
  (* the node and its parent *)
  assert (Hpair : forall o, ooccr T o -> o_addr o1 ∈ touched (o_addr o) (o_par o) -> o_addr o2 ∈ touched (o_addr o) (o_par o) ->
    o_addr o1 = o_par o /\ o_addr o2 = o_addr o /\ o_par o <> 0).
  { intros o Ho B1 B2.
    assert (Hcase : forall o', ooccr T o' -> o_addr o' ∈ touched (o_addr o) (o_par o) -> o' = o \/ (o_addr o' = o_par o /\ o_par o <> 0 /\ (length (o_path o') < length (o_path o))%nat)).
    { intros o' Ho' B. unfold touched in B. apply elem_of_cons in B as [B|B].
      - left. by apply (occ_same s T).
      - right. destruct (N.eqb_spec (o_par o) 0) as [E0|E0]; [by apply elem_of_nil in B|]. apply elem_of_list_singleton in B.
        split; [done|]. split; [done|]. by eapply occ_deeper. }
    destruct (Hcase _ H1 B1) as [->|(E1 & E2 & E3)], (Hcase _ H2 B2) as [->|(E4 & E5 & E6)]; try lia; try done.
    assert (o1 = o2) as -> by (apply (occ_same s T); try done; congruence). lia. }
  destruct hd as [f op|key op|l b]; cbn [Inv.hok] in Hh; [..|unfold oaddrs in A1; destruct (oroot _); by apply elem_of_nil in A1].
  - destruct Hh as (_ & _ & _ & Hv). unfold oaddrs in A1, A2. cbn [olids oroot] in *. unfold ulids in *. destruct (u_isroot (u_kind op)); [by apply elem_of_nil in A1|].
    destruct Hv as (o & Ho & [Hb _]). rewrite (ub_node _ _ _ _ Hb), (ub_parent _ _ _ _ Hb) in *.
    destruct (Hpair o Ho A1 A2) as (-> & -> & _). apply topdown2.
  - destruct Hh as (_ & _ & _ & Hv). unfold oaddrs in A1, A2. cbn [olids oroot] in *. destruct (d_isroot (d_kind op)) eqn:Er; [by apply elem_of_nil in A1|].
    destruct (is_del256 op) eqn:E256. { exfalso. apply Hne. unfold is_del256 in E256. unfold dlids. by destruct (d_kind op). }
    destruct Hv as (o & Ho & [Hb Hk]). unfold dtouched, dlids, dkind_ok in *. specialize (Hcl key op eq_refl). unfold clash in Hcl.
    destruct (d_kind op) eqn:Ek; try done.
    + rewrite (db_node _ _ Hb), (db_parent _ _ Hb) in *. destruct (Hpair o Ho A1 A2) as (-> & -> & _). apply topdown2.
    + rewrite (db_node _ _ Hb), (db_parent _ _ Hb) in *. destruct (Hpair o Ho A1 A2) as (-> & -> & _). apply topdown2.
    + destruct Hk as (_ & _ & b1 & b2 & cfull & ca & cpfx & cn & Hhs & Eca & _).
      destruct (occ_kid _ _ _ b2 cfull ca cpfx cn Hc Ho) as (oc & Hoc & Ea & Ep). { destruct Hhs as [->| ->]; [right; left|left]. }
      rewrite (db_node _ _ Hb), (db_parent _ _ Hb), Eca in *. pose proof (occ_nonzero K fetch _ _ _ Hc Ho) as Hn0.
      destruct (topdown3 ca (o_addr o) (o_par o)) as [Ht1 Ht2]; [done|naive_solver|naive_solver|].
      pose proof (occ_deeper _ _ _ _ Hc Ho Hoc Ep) as Hdc.
      assert (Hup : forall o', ooccr T o' -> o_addr o' ∈ touched (o_addr o) (o_par o) -> o' = o \/ (length (o_path o') < length (o_path o))%nat).
      { intros o' Ho' B. unfold touched in B. apply elem_of_cons in B as [B|B].
        - left. by apply (occ_same s T).
        - right. destruct (N.eqb_spec (o_par o) 0) as [E0|E0]; [by apply elem_of_nil in B|]. apply elem_of_list_singleton in B. by eapply occ_deeper. }
      apply elem_of_cons in A1 as [A1|A1], A2 as [A2|A2].
      * assert (o1 = o2) as -> by (apply (occ_same s T); try done; congruence). lia.
      * assert (o1 = oc) as -> by (apply (occ_same s T); try done; congruence). destruct (Hup _ H2 A2) as [->|?]; lia.
      * assert (o2 = oc) as -> by (apply (occ_same s T); try done; congruence). rewrite Ea. rewrite <- E, Ep. done.
      * destruct (Hpair o Ho A1 A2) as (-> & -> & Hp0). by apply Ht2.
Qed.

(** ** A lock is given back *)

Definition rouse (w : world) (k : wake) : world :=
  World (w_sys w) (w_hist w) (w_trie w) (w_lost w) (w_unl w) (w_n w) (w_past w) k.

(** Some locks are given back. *)
Definition fewer (k k' : wake) : Prop :=
  (exists l, wk_ids k = l ++ wk_ids k') /\ (wk_root k' = true -> wk_root k = true) /\ wk_prev k' = wk_prev k /\ wk_few k' = wk_few k.

Lemma rouse_good w k : good K fetch w -> fewer (w_wake w) k -> good K fetch (rouse w k).
Proof.
  intros Hg ((l & El) & Hr & Hp & Hf). eapply good_still; try done; [by left|]. destruct (g_wake _ _ _ Hg) as [W1 W2 W3 W4 W5].
  split; cbn [rouse w_wake w_sys w_unl w_n w_trie].
  - intros i Hi. apply W1. rewrite El. apply elem_of_app. by right.
  - intros H. by apply W2, Hr.
  - rewrite Hf. done.
  - intros H. rewrite Hf. apply W4. rewrite El. intros [_ E]%app_eq_nil. done.
  - rewrite Hp. intros o1 o2 l0 l1 E. apply (W5 o1 o2 (l ++ l0)). rewrite El, E. by rewrite app_assoc.
Qed.

Lemma rouse_rely w k j nmax : good K fetch w -> fewer (w_wake w) k -> w_n w < nmax -> rely K fetch j nmax w (rouse w k).
Proof.
  intros Hg Hk Hn. pose proof (rouse_good _ _ Hg Hk) as Hg'. destruct Hk as ((l & El) & Hr & Hp & Hf). split; try done.
  - split; try done.
    + by right.
    + intros e x _ _ _. by left.
    + exists []. split; [apply gone_refl|]. by intros x ?%elem_of_nil.
  - intros p Hp'. exists p. split; [done|]. split; [done|by left].
  - by left.
  - split; [done|left]. split_and!; [by exists l|done|done].
Qed.

Lemma ginv_rouse tr x w k : ginv K fetch tr x w -> calm tr -> fewer (w_wake w) k -> ginv K fetch tr x (rouse w k).
Proof.
  intros [Hg Esys Eh En Ep Hjobs Hopen] Hc Hk. split; try done; [by apply rouse_good|].
  intros aid jb Hj. specialize (Hjobs _ _ Hj). destruct jb as [c e0|c p]; [done|].
  destruct Hjobs as (A1 & A2 & tr1 & tr2 & e0 & ns & Hd & Hat & Hb & Hok). split; [done|]. split; [done|]. exists tr1, tr2, e0, ns.
  assert (Hlt : w_n w < ns + 2 ^ 31).
  { unfold counted in Hat. pose proof (wo_few _ (g_wake _ _ _ Hg)) as Hf. destruct (w_few w); [rewrite Hat; by apply Hf|]. rewrite En. by apply (attempt_calm _ aid). }
  pose proof (rouse_rely w k aid _ Hg Hk Hlt) as Hrel. split_and!; try done.
  - unfold counted in *. cbn [rouse w_wake]. by destruct Hk as (_ & _ & _ & ->).
  - eapply (base_step K fetch aid); [|by left|done]. done.
  - by eapply ok_rely.
Qed.
End Wake.
