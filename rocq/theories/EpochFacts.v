(** * EpochFacts: readers never see reused memory. *)
From Verif Require Export Epoch.

Definition rcells (g : ecl) : list N := concat (map fst (e_rec g)).
Definition eown (g : ecl) : list N := e_priv g ++ rcells g.

Lemma rec_cell_in g c : rec_cell g c <-> c ∈ rcells g.
Proof.
  unfold rec_cell, rcells. split.
  - intros (cs & e & Hin & Hc). apply elem_of_list_In, in_concat. exists cs. split; [|apply elem_of_list_In; done].
    apply in_map_iff. exists (cs, e). split; [done|apply elem_of_list_In; done].
  - intros Hc. apply elem_of_list_In, in_concat in Hc as (cs & Hcs & Hc). apply in_map_iff in Hcs as ([cs' e] & <- & Hin).
    exists cs', e. split; apply elem_of_list_In; done.
Qed.

Lemma eown_in g c : c ∈ eown g <-> c ∈ e_priv g \/ rec_cell g c.
Proof. unfold eown. rewrite elem_of_app, rec_cell_in. done. Qed.

(** What the open operation of client [g] with reservation [r] relies on. *)
Record prot (s : est) (g : ecl) (r : nat) : Prop := {
  pr_tree : forall c, tree_cell s c -> e_since g c;
  pr_used : forall c, e_since g c -> e_used s c;
  pr_heap : forall c c', e_since g c -> c' ∈ e_heap s c -> e_since g c';
  pr_known : forall c, e_known g c -> e_since g c;
  pr_priv : forall u h c, e_cls s !! u = Some h -> c ∈ e_priv h -> ~ e_since g c;
  pr_rec : forall u h cs e c, e_cls s !! u = Some h -> (cs, e) ∈ e_rec h -> c ∈ cs -> e_since g c -> r <= e }.

Record einv (s : est) : Prop := {
  ei_len : length (e_resv s) = length (e_cls s);
  ei_nodup : forall t g, e_cls s !! t = Some g -> NoDup (eown g);
  ei_own : forall t g c, e_cls s !! t = Some g -> c ∈ eown g -> e_used s c /\ ~ tree_cell s c;
  ei_disj : forall t t' g g' c, e_cls s !! t = Some g -> e_cls s !! t' = Some g' -> c ∈ eown g -> c ∈ eown g' -> t = t';
  ei_tree : forall c, tree_cell s c -> e_used s c;
  ei_pc : forall t g, e_cls s !! t = Some g ->
    match e_pc g with
    | EIdle => e_resv s !! t = Some None
    | ELoaded e => e_resv s !! t = Some None /\ e <= e_epoch s
    | _ => exists r, e_resv s !! t = Some (Some r) /\ r <= e_epoch s /\ prot s g r
    end;
  ei_scan : forall t g i m k gk cs e c, e_cls s !! t = Some g -> e_pc g = EScan i m -> e_cls s !! k = Some gk -> active (e_pc gk) ->
    k < i -> (cs, e) ∈ e_rec g -> c ∈ cs -> e_since gk c -> ~ epoch_lt e m }.

Lemma insert_cases {A} (l : list A) t u (g g' h : A) :
  l !! t = Some g -> <[t := g']> l !! u = Some h -> (u = t /\ h = g') \/ (u <> t /\ l !! u = Some h).
Proof. intros Hg Hu. apply list_lookup_insert_Some in Hu as [(-> & <- & _)|(Hne & Hu)]; auto. Qed.

Lemma insert_self {A} (l : list A) t (g g' : A) : l !! t = Some g -> <[t := g']> l !! t = Some g'.
Proof. intros Hg. apply list_lookup_insert. eapply lookup_lt_Some; eauto. Qed.

(** Steps that change only client [t], without touching memory. *)
Lemma einv_local s (t : nat) g g' epoch' (used' : N -> Prop) :
  einv s -> e_cls s !! t = Some g ->
  e_epoch s <= epoch' -> (forall c, e_used s c -> used' c) ->
  (forall c, c ∈ eown g' -> c ∈ eown g \/ used' c /\ ~ e_used s c \/ used' c /\ ~ tree_cell s c /\ ~ owned_by s c) ->
  NoDup (eown g') ->
  (forall c, e_since g' c <-> e_since g c) -> (forall c, e_known g' c -> e_known g c \/ e_since g c) ->
  (* the new private cells and recycled items *)
  (forall c k gk, c ∈ e_priv g' -> c ∈ e_priv g \/ ((e_cls s !! k = Some gk -> active (e_pc gk) -> ~ e_since gk c))) ->
  (forall cs e c, (cs, e) ∈ e_rec g' -> c ∈ cs -> (exists cs', (cs', e) ∈ e_rec g /\ c ∈ cs') \/ e_epoch s <= e) ->
  (* the program counter *)
  (active (e_pc g) <-> active (e_pc g')) ->
  match e_pc g' with EIdle => e_pc g = EIdle | ELoaded e => e_pc g = EIdle /\ e <= epoch' \/ e_pc g = ELoaded e | _ => True end ->
  (forall i m, e_pc g' = EScan i m -> forall k gk cs e c, e_cls s !! k = Some gk -> active (e_pc gk) -> k < i -> (cs, e) ∈ e_rec g' -> c ∈ cs ->
     e_since gk c -> ~ epoch_lt e m) ->
  einv (ESt epoch' (e_resv s) (e_heap s) (e_root s) used' (<[t := g']> (e_cls s))).
Proof.
  intros Hi Hg Hep Hus Hown Hnd Hsince Hknown Hpriv Hrec Hact Hpc Hscan.
  pose proof Hi as [H1 H2 H3 H4 H5 H6 H7].
  assert (Hfresh : forall u h c, e_cls s !! u = Some h -> c ∈ eown h -> ~ (used' c /\ ~ e_used s c) /\ ~ (used' c /\ ~ tree_cell s c /\ ~ owned_by s c)).
  { intros u h c Hu Hc. split.
    - intros [_ Hn]. apply Hn. eapply H3; eauto.
    - intros (_ & _ & Hn). apply Hn. exists u, h. split; [done|]. apply eown_in. done. }
  constructor; cbn [e_cls e_resv e_epoch e_used e_heap e_root].
  - rewrite insert_length. done.
  - intros u h Hu. destruct (insert_cases _ _ _ _ _ _ Hg Hu) as [[-> ->]|[Hne Hu']]; eauto.
  - intros u h c Hu Hc. unfold tree_cell; cbn. destruct (insert_cases _ _ _ _ _ _ Hg Hu) as [[-> ->]|[Hne Hu']].
    + destruct (Hown c Hc) as [Hc'|[[Hc1 Hc2]|(Hc1 & Hc2 & _)]].
      * destruct (H3 _ _ _ Hg Hc') as [Ha Hb]. split; [auto|exact Hb].
      * split; [done|]. intros Ht. apply Hc2, H5, Ht.
      * split; [done|exact Hc2].
    + destruct (H3 _ _ _ Hu' Hc) as [Ha Hb]. split; [auto|exact Hb].
  - intros u u' h h' c Hu Hu' Hc Hc'.
    destruct (insert_cases _ _ _ _ _ _ Hg Hu) as [[-> ->]|[Hne Hv]]; destruct (insert_cases _ _ _ _ _ _ Hg Hu') as [[-> ->]|[Hne' Hv']]; auto.
    + destruct (Hown c Hc) as [Hx|Hx]; [eauto|]. destruct (Hfresh _ _ _ Hv' Hc') as [F1 F2]. tauto.
    + destruct (Hown c Hc') as [Hx|Hx]; [eauto|]. destruct (Hfresh _ _ _ Hv Hc) as [F1 F2]. tauto.
    + eauto.
  - intros c Hc. apply Hus, H5, Hc.
  - assert (Hprot : forall k gk r, e_cls s !! k = Some gk -> active (e_pc gk) -> r <= e_epoch s -> prot s gk r ->
        prot (ESt epoch' (e_resv s) (e_heap s) (e_root s) used' (<[t := g']> (e_cls s))) gk r).
    { intros k gk r Hk Ha Hr [P1 P2 P3 P4 P5 P6]. constructor; cbn [e_cls e_resv e_epoch e_used e_heap e_root]; eauto.
      - intros u h c Hu Hc. destruct (insert_cases _ _ _ _ _ _ Hg Hu) as [[-> ->]|[Hne Hu']]; [|eauto].
        destruct (Hpriv c k gk Hc) as [Hc'|Hc']; eauto.
      - intros u h cs e c Hu Hin Hc Hs. destruct (insert_cases _ _ _ _ _ _ Hg Hu) as [[-> ->]|[Hne Hu']]; [|eauto].
        destruct (Hrec cs e c Hin Hc) as [(cs' & Hin' & Hc')|He]; [eauto|]. lia. }
    intros u h Hu. destruct (insert_cases _ _ _ _ _ _ Hg Hu) as [[-> ->]|[Hne Hu']].
    + specialize (H6 t g Hg).
      assert (Hself : active (e_pc g') -> exists r, e_resv s !! t = Some (Some r) /\ r <= epoch' /\
         prot (ESt epoch' (e_resv s) (e_heap s) (e_root s) used' (<[t := g']> (e_cls s))) g' r).
      { intros Ha. apply Hact in Ha as Hag. destruct (e_pc g) as [|e| |i m] eqn:Hpg; try done;
          destruct H6 as (r & Hr & Hle & Hp); exists r; (split; [done|]); (split; [lia|]);
          (assert (Hag' : active (e_pc g)) by (rewrite Hpg; done));
          destruct (Hprot t g r Hg Hag' Hle Hp) as [P1 P2 P3 P4 P5 P6]; constructor; intros;
          try (apply Hsince; eauto; fail).
        all: try (eapply P2; apply Hsince; eauto; fail).
        all: try (apply Hsince; eapply P3; [apply Hsince; eauto|eauto]; fail).
        all: try (apply Hsince; edestruct Hknown; eauto; fail).
        all: try (rewrite Hsince; eapply P5; eauto; fail).
        all: eapply P6; eauto; apply Hsince; done. }
      destruct (e_pc g') as [|e| |i m] eqn:Hpg'.
      * rewrite Hpc in H6. done.
      * destruct Hpc as [[Hpc He]|Hpc]; rewrite Hpc in H6; [done|]. destruct H6 as [Ha Hb]. split; [done|lia].
      * apply Hself. done.
      * apply Hself. done.
    + specialize (H6 u h Hu'). assert (Hah : forall r, prot s h r -> r <= e_epoch s -> active (e_pc h) -> prot (ESt epoch' (e_resv s) (e_heap s) (e_root s) used' (<[t := g']> (e_cls s))) h r) by eauto.
      destruct (e_pc h) as [|e| |i m]; [done|destruct H6; split; [done|lia]|..];
        destruct H6 as (r & Hr & Hle & Hp); exists r; (split; [done|]); (split; [lia|]); apply Hah; done.
  - intros u h i m k gk cs e c Hu Hpu Hk Hak Hki Hin Hc Hs.
    assert (Hkk : exists gk0, e_cls s !! k = Some gk0 /\ active (e_pc gk0) /\ e_since gk0 c).
    { destruct (insert_cases _ _ _ _ _ _ Hg Hk) as [[-> ->]|[Hne Hk']]; [|eauto].
      exists g. split; [done|]. split; [apply Hact; done|apply Hsince; done]. }
    destruct Hkk as (gk0 & Hk0 & Ha0 & Hs0).
    destruct (insert_cases _ _ _ _ _ _ Hg Hu) as [[-> ->]|[Hne Hu']]; eauto.
Qed.

(** Steps that change the memory: reads of a protected client stay protected. *)
Lemma linked_write_self h r c ps : linked h r c -> linked (hset h c ps) r c.
Proof.
  assert (H : forall x, linked h r x -> linked (hset h c ps) r x \/ linked (hset h c ps) r c).
  { intros x Hx. induction Hx as [x Hx|x y Hx [IH|IH] Hy]; [left; constructor; done| |auto].
    destruct (N.eq_dec x c) as [->|Hne]; [right; done|]. left. eapply ln_next; [exact IH|].
    unfold hset. apply N.eqb_neq in Hne. rewrite Hne. done. }
  intros Hc. destruct (H c Hc); done.
Qed.

Lemma linked_ext h h' r c : (forall x, linked h r x -> h' x = h x) -> linked h r c -> linked h' r c.
Proof.
  intros He Hc. induction Hc as [x Hx|x y Hx IH Hy]; [constructor; done|]. eapply ln_next; [exact IH|]. rewrite He; done.
Qed.

Lemma linked_ext_back h h' r c : (forall x, linked h r x -> h' x = h x) -> linked h' r c -> linked h r c.
Proof.
  intros He Hc. induction Hc as [x Hx|x y Hx IH Hy]; [constructor; done|]. eapply ln_next; [exact IH|]. rewrite <- He; done.
Qed.

(** Filling a private cell. *)
Lemma einv_fill s t g c ps :
  einv s -> e_cls s !! t = Some g -> c ∈ e_priv g ->
  einv (ESt (e_epoch s) (e_resv s) (hset (e_heap s) c ps) (e_root s) (e_used s) (e_cls s)).
Proof.
  intros [H1 H2 H3 H4 H5 H6 H7] Hg Hc.
  assert (Hnt : ~ tree_cell s c) by (eapply H3; [exact Hg|apply eown_in; auto]).
  assert (Heq : forall x, tree_cell s x -> hset (e_heap s) c ps x = e_heap s x).
  { intros x Hx. unfold hset. destruct (N.eqb_spec x c) as [->|]; done. }
  assert (Htree : forall x, linked (hset (e_heap s) c ps) (e_root s) x <-> tree_cell s x).
  { intros x. split; [apply linked_ext_back; done|apply linked_ext; done]. }
  constructor; cbn [e_cls e_resv e_epoch e_used e_heap e_root]; try done.
  - intros u h x Hu Hx. unfold tree_cell; cbn. rewrite Htree. eauto.
  - intros x Hx. apply H5, Htree, Hx.
  - intros u h Hu. specialize (H6 u h Hu).
    assert (Hprot : forall r, prot s h r -> prot (ESt (e_epoch s) (e_resv s) (hset (e_heap s) c ps) (e_root s) (e_used s) (e_cls s)) h r).
    { intros r [P1 P2 P3 P4 P5 P6]. constructor; cbn [e_cls e_resv e_epoch e_used e_heap e_root]; try done.
      - intros x Hx. apply P1, Htree, Hx.
      - intros x x' Hx Hx'. unfold hset in Hx'. destruct (N.eqb_spec x c) as [->|]; [|eapply P3; eauto]. exfalso. exact (P5 t g c Hg Hc Hx). }
    destruct (e_pc h); try done; destruct H6 as (r & Hr & Hle & Hp); exists r; auto.
Qed.

(** Changing a word of the tree: [h'] and [r'] are the new heap and root. *)
Lemma einv_publish s t g h' r' priv :
  einv s -> e_cls s !! t = Some g ->
  (forall c, linked h' r' c -> tree_cell s c \/ c ∈ e_priv g) ->
  (forall c, h' c = e_heap s c \/ linked h' r' c) ->
  NoDup priv -> (forall c, c ∈ priv -> c ∈ e_priv g /\ ~ linked h' r' c) ->
  einv (ESt (e_epoch s) (e_resv s) h' r' (e_used s) (grow (linked h' r') <$> <[t := set_priv g priv]> (e_cls s))).
Proof.
  intros [H1 H2 H3 H4 H5 H6 H7] Hg Hnew Hheap Hnd Hpriv.
  assert (Hl : forall u h, (grow (linked h' r') <$> <[t := set_priv g priv]> (e_cls s)) !! u = Some h ->
     exists h0, e_cls s !! u = Some h0 /\ e_pc h = e_pc h0 /\ e_known h = e_known h0 /\ e_rec h = e_rec h0 /\
       (forall c, c ∈ e_priv h -> c ∈ e_priv h0 /\ ~ linked h' r' c) /\ NoDup (e_priv h) /\
       (forall c, e_since h c <-> e_since h0 c \/ active (e_pc h0) /\ linked h' r' c)).
  { intros u h Hu. rewrite list_lookup_fmap in Hu. destruct (<[t := set_priv g priv]> (e_cls s) !! u) as [h1|] eqn:Hh1; [|done].
    injection Hu as <-. destruct (insert_cases _ _ _ _ _ _ Hg Hh1) as [[-> ->]|[Hne Hu']].
    - exists g. repeat (split; [done|]). done.
    - exists h1. repeat (split; [done|]). split; [|split; [|done]].
      + intros c Hc. split; [done|]. intros Hlk. destruct (Hnew c Hlk) as [Ht|Hp].
        * exact (proj2 (H3 u h1 c Hu' (proj2 (eown_in h1 c) (or_introl Hc))) Ht).
        * apply Hne. exact (H4 u t h1 g c Hu' Hg (proj2 (eown_in h1 c) (or_introl Hc)) (proj2 (eown_in g c) (or_introl Hp))).
      + pose proof (H2 u h1 Hu') as Hn. apply NoDup_app in Hn. apply Hn. }
  assert (Hrec : forall u h c, e_cls s !! u = Some h -> c ∈ rcells h -> ~ linked h' r' c).
  { intros u h c Hu Hc Hlk. assert (Hco : c ∈ eown h) by (unfold eown; apply elem_of_app; auto). destruct (Hnew c Hlk) as [Ht|Hp].
    - exact (proj2 (H3 u h c Hu Hco) Ht).
    - assert (u = t) as -> by (eapply H4; [exact Hu|exact Hg|exact Hco|apply eown_in; auto]).
      assert (h = g) as -> by congruence. pose proof (H2 t g Hg) as Hn. apply NoDup_app in Hn as (_ & Hd & _). eapply Hd; eauto. }
  assert (Hsub : forall u h h0 c, e_cls s !! u = Some h0 -> (forall c, c ∈ e_priv h -> c ∈ e_priv h0 /\ ~ linked h' r' c) -> e_rec h = e_rec h0 ->
     c ∈ eown h -> c ∈ eown h0 /\ ~ linked h' r' c).
  { intros u h h0 c Hu Hp Hr Hc. unfold eown in Hc. apply elem_of_app in Hc as [Hc|Hc].
    - destruct (Hp c Hc). split; [apply eown_in; auto|done].
    - unfold rcells in Hc. rewrite Hr in Hc. split; [unfold eown; apply elem_of_app; auto|]. eapply Hrec; eauto. }
  constructor; cbn [e_cls e_resv e_epoch e_used e_heap e_root].
  - rewrite fmap_length, insert_length. done.
  - intros u h Hu. destruct (Hl u h Hu) as (h0 & Hh0 & _ & _ & Hr & Hp & Hn & _). unfold eown.
    pose proof (H2 u h0 Hh0) as Hn0. apply NoDup_app in Hn0 as (_ & Hd & Hn0). apply NoDup_app. unfold rcells. rewrite Hr.
    split; [done|]. split; [|done]. intros c Hc. apply Hd. apply Hp. done.
  - intros u h c Hu Hc. destruct (Hl u h Hu) as (h0 & Hh0 & _ & _ & Hr & Hp & _ & _). unfold tree_cell; cbn.
    destruct (Hsub u h h0 c Hh0 Hp Hr Hc) as [Hc0 Hnl]. split; [eapply H3; eauto|done].
  - intros u u' h h1 c Hu Hu' Hc Hc'. destruct (Hl u h Hu) as (h0 & Hh0 & _ & _ & Hr & Hp & _ & _).
    destruct (Hl u' h1 Hu') as (h2 & Hh2 & _ & _ & Hr' & Hp' & _ & _).
    eapply H4; [exact Hh0|exact Hh2| |]; eapply Hsub; eauto.
  - intros c Hc. destruct (Hnew c Hc) as [Ht|Hp]; [auto|]. eapply H3; [exact Hg|apply eown_in; auto].
  - intros u h Hu. destruct (Hl u h Hu) as (h0 & Hh0 & Hpc & Hkn & Hr & Hp & _ & Hsi). specialize (H6 u h0 Hh0). rewrite Hpc.
    assert (Hprot : active (e_pc h0) -> forall r, prot s h0 r ->
       prot (ESt (e_epoch s) (e_resv s) h' r' (e_used s) (grow (linked h' r') <$> <[t := set_priv g priv]> (e_cls s))) h r).
    { intros Ha r [P1 P2 P3 P4 P5 P6]. constructor; cbn [e_cls e_resv e_epoch e_used e_heap e_root].
      - intros c Hc. apply Hsi. right. done.
      - intros c Hc. apply Hsi in Hc as [Hc|[_ Hc]]; [auto|]. destruct (Hnew c Hc) as [Ht|Hp']; [auto|]. eapply H3; [exact Hg|apply eown_in; auto].
      - intros c c' Hc Hc'. destruct (Hheap c) as [He|Hlk].
        + apply Hsi in Hc as [Hc|[_ Hc]].
          * apply Hsi. left. rewrite He in Hc'. eauto.
          * apply Hsi. right. split; [done|]. eapply ln_next; eauto.
        + apply Hsi. right. split; [done|]. eapply ln_next; eauto.
      - intros c Hc. rewrite Hkn in Hc. apply Hsi. left. eauto.
      - intros v hv c Hv Hc Hs. destruct (Hl v hv Hv) as (h1 & Hh1 & _ & _ & _ & Hp1 & _ & _). destruct (Hp1 c Hc) as [Hc1 Hnl].
        apply Hsi in Hs as [Hs|[_ Hs]]; [|done]. eapply P5; eauto.
      - intros v hv cs e c Hv Hin Hc Hs. destruct (Hl v hv Hv) as (h1 & Hh1 & _ & _ & Hr1 & _ & _ & _). rewrite Hr1 in Hin.
        apply Hsi in Hs as [Hs|[_ Hs]]; [eauto|]. exfalso. eapply Hrec; [exact Hh1| |exact Hs]. apply rec_cell_in. exists cs, e. done. }
    destruct (e_pc h0) as [|e| |i m] eqn:Hpc0; [done|done|..]; destruct H6 as (r & Hrv & Hle & Hpr); exists r; (split; [done|]); (split; [done|]); apply Hprot; done.
  - intros u h i m k gk cs e c Hu Hpu Hk Hak Hki Hin Hc Hs.
    destruct (Hl u h Hu) as (h0 & Hh0 & Hpc & _ & Hr & _). destruct (Hl k gk Hk) as (k0 & Hk0 & Hpk & _ & _ & _ & _ & Hsi).
    rewrite Hr in Hin. apply Hsi in Hs as [Hs|[_ Hs]].
    + eapply (H7 u h0 i m k k0 cs e c); try done; congruence.
    + exfalso. eapply Hrec; [exact Hh0| |exact Hs]. apply rec_cell_in. exists cs, e. done.
Qed.

Lemma epoch_lt_min e m r : epoch_lt e (epoch_min m r) -> epoch_lt e m /\ forall x, r = Some x -> e < x.
Proof.
  unfold epoch_min. destruct r as [x|]; [|split; done]. destruct m as [y|]; cbn [epoch_lt].
  - destruct (Nat.ltb_spec x y); cbn [epoch_lt]; intros; (split; [lia|]); intros z Hz; injection Hz as <-; lia.
  - intros; split; [done|]. intros z Hz. injection Hz as <-. done.
Qed.

Lemma einv_step s t s' : einv s -> estep s t s' -> einv s'.
Proof.
  intros Hi Hs. pose proof Hi as [H1 H2 H3 H4 H5 H6 H7].
  destruct Hs as [g Hg Hpc|g e Hg Hpc|g Hg Hpc|g Hg Hact|g c Hg Hact Hk| |g cs Hg Hpc Hnd Hcs|g Hg Hpc|g i m r Hg Hpc Hr
    |g i m l1 l2 cs1 cs2 e keep Hg Hpc Hin Hrec Hlt|g i m cs Hg Hpc Hin Hnd Hcs|g c ps Hg Hc|g ps priv Hg Hnew Hnd Hpriv|g c ps priv Hg Htc Hnew Hnd Hpriv].
  - (* load *)
    constructor; cbn [ecl_set e_cls e_resv e_epoch e_used e_heap e_root].
    + rewrite insert_length. done.
    + intros u h Hu. destruct (insert_cases _ _ _ _ _ _ Hg Hu) as [[-> ->]|[Hne Hu']]; [apply (H2 t g Hg)|eauto].
    + intros u h c Hu Hc. destruct (insert_cases _ _ _ _ _ _ Hg Hu) as [[-> ->]|[Hne Hu']]; [apply (H3 t g c Hg Hc)|apply (H3 u h c Hu' Hc)].
    + intros u u' h h' c Hu Hu' Hc Hc'.
      assert (forall v x, <[t:=ECl (ELoaded (e_epoch s)) none (e_rec g) (e_priv g) none]> (e_cls s) !! v = Some x -> exists y, e_cls s !! v = Some y /\ eown x = eown y) as Hx.
      { intros v x Hv. destruct (insert_cases _ _ _ _ _ _ Hg Hv) as [[-> ->]|[Hne Hv']]; eauto. }
      destruct (Hx _ _ Hu) as (y & Hy & Ey). destruct (Hx _ _ Hu') as (y' & Hy' & Ey'). rewrite Ey in Hc. rewrite Ey' in Hc'. eauto.
    + done.
    + specialize (H6 t g Hg) as H6t. rewrite Hpc in H6t.
      intros u h Hu. destruct (insert_cases _ _ _ _ _ _ Hg Hu) as [[-> ->]|[Hne Hu']]; [cbn; split; [done|lia]|].
      specialize (H6 u h Hu').
      assert (Hprot : forall r, prot s h r -> prot (ecl_set s t (ECl (ELoaded (e_epoch s)) none (e_rec g) (e_priv g) none)) h r).
      { intros r [P1 P2 P3 P4 P5 P6]. constructor; cbn [ecl_set e_cls e_resv e_epoch e_used e_heap e_root]; try done.
        - intros v hv c Hv Hc. destruct (insert_cases _ _ _ _ _ _ Hg Hv) as [[-> ->]|[Hnv Hv']]; [apply (P5 t g c Hg Hc)|eauto].
        - intros v hv cs e c Hv Hin. destruct (insert_cases _ _ _ _ _ _ Hg Hv) as [[-> ->]|[Hnv Hv']]; [apply (P6 t g cs e c Hg Hin)|eauto]. }
      destruct (e_pc h); try done; destruct H6 as (r & Hr & Hle & Hp); exists r; auto.
    + intros u h i m k gk cs e c Hu Hpu Hk Hak Hki Hin Hc Hsi.
      destruct (insert_cases _ _ _ _ _ _ Hg Hu) as [[-> ->]|[Hne Hu']]; [done|].
      destruct (insert_cases _ _ _ _ _ _ Hg Hk) as [[-> ->]|[Hnk Hk']]; [done|eauto].
  - (* store *)
    assert (Htl : t < length (e_resv s)) by (rewrite H1; eapply lookup_lt_Some; eauto).
    constructor; cbn [ecl_set e_cls e_resv e_epoch e_used e_heap e_root].
    + rewrite !insert_length. done.
    + intros u h Hu. destruct (insert_cases _ _ _ _ _ _ Hg Hu) as [[-> ->]|[Hne Hu']]; [apply (H2 t g Hg)|eauto].
    + intros u h c Hu Hc. destruct (insert_cases _ _ _ _ _ _ Hg Hu) as [[-> ->]|[Hne Hu']]; [apply (H3 t g c Hg Hc)|apply (H3 u h c Hu' Hc)].
    + intros u u' h h' c Hu Hu' Hc Hc'.
      assert (forall v x, <[t:=ECl EActive none (e_rec g) (e_priv g) (tree_cell s)]> (e_cls s) !! v = Some x -> exists y, e_cls s !! v = Some y /\ eown x = eown y) as Hx.
      { intros v x Hv. destruct (insert_cases _ _ _ _ _ _ Hg Hv) as [[-> ->]|[Hne Hv']]; eauto. }
      destruct (Hx _ _ Hu) as (y & Hy & Ey). destruct (Hx _ _ Hu') as (y' & Hy' & Ey'). rewrite Ey in Hc. rewrite Ey' in Hc'. eauto.
    + done.
    + specialize (H6 t g Hg) as H6t. rewrite Hpc in H6t. destruct H6t as [_ Hee].
      intros u h Hu. destruct (insert_cases _ _ _ _ _ _ Hg Hu) as [[-> ->]|[Hne Hu']].
      * cbn. exists e. split; [apply list_lookup_insert; done|]. split; [done|]. constructor; cbn [e_cls e_resv e_epoch e_used e_heap e_root e_since e_known]; try done.
        -- intros c c' Hc Hc'. eapply ln_next; eauto.
        -- intros v hv c Hv Hc Ht. destruct (insert_cases _ _ _ _ _ _ Hg Hv) as [[-> ->]|[Hnv Hv']].
           ++ eapply H3; [exact Hg|apply eown_in; left; exact Hc|exact Ht].
           ++ eapply H3; [exact Hv'|apply eown_in; left; exact Hc|exact Ht].
        -- intros v hv cs e0 c Hv Hin Hc Ht. exfalso. destruct (insert_cases _ _ _ _ _ _ Hg Hv) as [[-> ->]|[Hnv Hv']].
           ++ eapply H3; [exact Hg|apply eown_in; right; exists cs, e0; done|exact Ht].
           ++ eapply H3; [exact Hv'|apply eown_in; right; exists cs, e0; done|exact Ht].
      * specialize (H6 u h Hu'). rewrite list_lookup_insert_ne by done.
        assert (Hprot : forall r, prot s h r -> prot (ESt (e_epoch s) (<[t:=Some e]> (e_resv s)) (e_heap s) (e_root s) (e_used s)
             (<[t := ECl EActive none (e_rec g) (e_priv g) (tree_cell s)]> (e_cls s))) h r).
        { intros r [P1 P2 P3 P4 P5 P6]. constructor; cbn [ecl_set e_cls e_resv e_epoch e_used e_heap e_root]; try done.
          - intros v hv c Hv Hc. destruct (insert_cases _ _ _ _ _ _ Hg Hv) as [[-> ->]|[Hnv Hv']]; [apply (P5 t g c Hg Hc)|eauto].
          - intros v hv cs e0 c Hv Hin. destruct (insert_cases _ _ _ _ _ _ Hg Hv) as [[-> ->]|[Hnv Hv']]; [apply (P6 t g cs e0 c Hg Hin)|eauto]. }
        destruct (e_pc h); try done; destruct H6 as (r & Hr & Hle & Hp); exists r; auto.
    + intros u h i m k gk cs e0 c Hu Hpu Hk Hak Hki Hin Hc Hsi.
      destruct (insert_cases _ _ _ _ _ _ Hg Hu) as [[-> ->]|[Hne Hu']]; [done|].
      destruct (insert_cases _ _ _ _ _ _ Hg Hk) as [[-> ->]|[Hnk Hk']]; [|eauto].
      exfalso. cbn in Hsi. eapply H3; [exact Hu'|apply eown_in; right; exists cs, e0; done|exact Hsi].
  - (* endOp *)
    assert (Htl : t < length (e_resv s)) by (rewrite H1; eapply lookup_lt_Some; eauto).
    constructor; cbn [ecl_set e_cls e_resv e_epoch e_used e_heap e_root].
    + rewrite !insert_length. done.
    + intros u h Hu. destruct (insert_cases _ _ _ _ _ _ Hg Hu) as [[-> ->]|[Hne Hu']]; [apply (H2 t g Hg)|eauto].
    + intros u h c Hu Hc. destruct (insert_cases _ _ _ _ _ _ Hg Hu) as [[-> ->]|[Hne Hu']]; [apply (H3 t g c Hg Hc)|apply (H3 u h c Hu' Hc)].
    + intros u u' h h' c Hu Hu' Hc Hc'.
      assert (forall v x, <[t:=ECl EIdle none (e_rec g) (e_priv g) none]> (e_cls s) !! v = Some x -> exists y, e_cls s !! v = Some y /\ eown x = eown y) as Hx.
      { intros v x Hv. destruct (insert_cases _ _ _ _ _ _ Hg Hv) as [[-> ->]|[Hne Hv']]; eauto. }
      destruct (Hx _ _ Hu) as (y & Hy & Ey). destruct (Hx _ _ Hu') as (y' & Hy' & Ey'). rewrite Ey in Hc. rewrite Ey' in Hc'. eauto.
    + done.
    + intros u h Hu. destruct (insert_cases _ _ _ _ _ _ Hg Hu) as [[-> ->]|[Hne Hu']]; [cbn; apply list_lookup_insert; done|].
      specialize (H6 u h Hu'). rewrite list_lookup_insert_ne by done.
      assert (Hprot : forall r, prot s h r -> prot (ESt (e_epoch s) (<[t:=None]> (e_resv s)) (e_heap s) (e_root s) (e_used s)
             (<[t := ECl EIdle none (e_rec g) (e_priv g) none]> (e_cls s))) h r).
      { intros r [P1 P2 P3 P4 P5 P6]. constructor; cbn [ecl_set e_cls e_resv e_epoch e_used e_heap e_root]; try done.
        - intros v hv c Hv Hc. destruct (insert_cases _ _ _ _ _ _ Hg Hv) as [[-> ->]|[Hnv Hv']]; [apply (P5 t g c Hg Hc)|eauto].
        - intros v hv cs e0 c Hv Hin. destruct (insert_cases _ _ _ _ _ _ Hg Hv) as [[-> ->]|[Hnv Hv']]; [apply (P6 t g cs e0 c Hg Hin)|eauto]. }
      destruct (e_pc h); try done; destruct H6 as (r & Hr & Hle & Hp); exists r; auto.
    + intros u h i m k gk cs e0 c Hu Hpu Hk Hak Hki Hin Hc Hsi.
      destruct (insert_cases _ _ _ _ _ _ Hg Hu) as [[-> ->]|[Hne Hu']]; [done|].
      destruct (insert_cases _ _ _ _ _ _ Hg Hk) as [[-> ->]|[Hnk Hk']]; [done|eauto].
  - (* read the root *)
    specialize (H6 t g Hg) as H6t. apply (einv_local s t g _ (e_epoch s) (e_used s) Hi Hg); cbn; eauto; try done.
    + intros c [Hc|Hc]; [auto|]. right. destruct (e_pc g); try done; destruct H6t as (r & _ & _ & P); apply (pr_tree _ _ _ P); constructor; done.
    + destruct (e_pc g); try done; auto.
  - (* read a known node *)
    specialize (H6 t g Hg) as H6t. apply (einv_local s t g _ (e_epoch s) (e_used s) Hi Hg); cbn; eauto; try done.
    + intros x [Hx|Hx]; [auto|]. right. destruct (e_pc g); try done; destruct H6t as (r & _ & _ & P); eapply (pr_heap _ _ _ P); eauto; apply (pr_known _ _ _ P); done.
    + destruct (e_pc g); try done; auto.
  - (* the epoch advances *)
    constructor; cbn [e_cls e_resv e_epoch e_used e_heap e_root]; try done.
    intros u h Hu. specialize (H6 u h Hu).
    assert (Hprot : forall r, prot s h r -> prot (ESt (S (e_epoch s)) (e_resv s) (e_heap s) (e_root s) (e_used s) (e_cls s)) h r).
    { intros r [P1 P2 P3 P4 P5 P6]. constructor; done. }
    destruct (e_pc h); [done|destruct H6; split; [done|lia]|..]; destruct H6 as (r & Hr & Hle & Hp); exists r; (split; [done|]); (split; [lia|]); auto.
  - (* recycle *)
    apply (einv_local s t g _ (e_epoch s) (e_used s) Hi Hg); cbn; eauto; try done.
    + intros c Hc. unfold eown in Hc; cbn in Hc. apply elem_of_app in Hc as [Hc|Hc]; [left; apply eown_in; auto|].
      unfold rcells in Hc; cbn in Hc. apply elem_of_app in Hc as [Hc|Hc].
      * right. right. destruct (Hcs c Hc) as (Ha & Hb & Hd). done.
      * left. unfold eown. apply elem_of_app. right. done.
    + unfold eown, rcells; cbn. pose proof (H2 t g Hg) as Hn. unfold eown, rcells in Hn. apply NoDup_app in Hn as (N1 & N2 & N3).
      assert (Hno : forall c, c ∈ cs -> c ∉ eown g).
      { intros c Hc Ho. destruct (Hcs c Hc) as (_ & _ & Hd). apply Hd. exists t, g. split; [done|]. apply eown_in. done. }
      apply NoDup_app. split; [done|]. split.
      * intros c Hc Hc'. apply elem_of_app in Hc' as [Hc'|Hc']; [|eapply N2; eauto]. eapply Hno; [exact Hc'|]. apply eown_in. auto.
      * apply NoDup_app. split; [done|]. split; [|done]. intros c Hc Hc'. eapply Hno; [exact Hc|]. unfold eown. apply elem_of_app. right. done.
    + intros cs' e c Hin Hc. apply elem_of_cons in Hin as [Heq|Hin]; [injection Heq as -> ->; right; lia|]. eauto.
    + rewrite Hpc. done.
    + rewrite Hpc. done.
  - (* start of the scan *)
    apply (einv_local s t g _ (e_epoch s) (e_used s) Hi Hg); cbn; eauto; try done.
    + rewrite Hpc. done.
    + intros i m Heq. injection Heq as <- <-. intros. lia.
  - (* scan of one slot *)
    apply (einv_local s t g _ (e_epoch s) (e_used s) Hi Hg); cbn; eauto; try done.
    + rewrite Hpc. done.
    + intros i0 m0 Heq. injection Heq as <- <-. intros k gk cs e c Hk Hak Hki Hin Hc Hsi Hlt.
      apply epoch_lt_min in Hlt as [Hlm Hlr]. destruct (decide (k = i)) as [->|Hne].
      * specialize (H6 i gk Hk). destruct (e_pc gk); try done; destruct H6 as (r' & Hr' & _ & P);
          rewrite Hr' in Hr; injection Hr as <-; pose proof (pr_rec _ _ _ P _ _ _ _ _ Hg Hin Hc Hsi) as Hle;
          specialize (Hlr r' eq_refl); lia.
      * refine (H7 t g i m k gk cs e c Hg Hpc Hk Hak _ Hin Hc Hsi Hlm). lia.
  - (* reuse *)
    assert (Hsafe : forall k gk c, e_cls s !! k = Some gk -> active (e_pc gk) -> c ∈ cs1 ++ cs2 -> ~ e_since gk c).
    { intros k gk c Hk Hak Hc Hsi. assert (k < length (e_resv s)) by (rewrite H1; eapply lookup_lt_Some; eauto).
      eapply (H7 t g i m k gk (cs1 ++ cs2) e c); eauto; [lia|]. rewrite Hrec. apply elem_of_app. right. left. }
    assert (Hperm : eown g ≡ₚ (cs1 ++ e_priv g) ++ (concat (map fst l1) ++ cs2 ++ concat (map fst l2))).
    { unfold eown, rcells. rewrite Hrec, map_app, concat_app. cbn. rewrite <- !app_assoc.
      rewrite (Permutation_app_comm cs1 (e_priv g ++ _)), <- !app_assoc. f_equiv. f_equiv.
      rewrite (Permutation_app_comm cs1), <- app_assoc. done. }
    assert (Hsubm : forall c, c ∈ eown (ECl EActive (e_known g) (l1 ++ (if keep then [(cs2, e)] else []) ++ l2) (cs1 ++ e_priv g) (e_since g)) -> c ∈ eown g).
    { intros c Hc. rewrite Hperm. unfold eown, rcells in Hc; cbn in Hc. rewrite !map_app, !concat_app in Hc.
      destruct keep; cbn in Hc; rewrite !elem_of_app in Hc; rewrite !elem_of_app; [|tauto]. rewrite elem_of_nil in Hc. tauto. }
    apply (einv_local s t g _ (e_epoch s) (e_used s) Hi Hg); cbn [e_cls e_resv e_epoch e_used e_heap e_root e_pc e_priv e_rec e_known e_since]; eauto; try done.
    + pose proof (H2 t g Hg) as Hn. rewrite Hperm in Hn. unfold eown, rcells; cbn. rewrite !map_app, !concat_app.
      destruct keep; cbn; [rewrite app_nil_r; done|]. apply NoDup_app in Hn as (N1 & N2 & N3). apply NoDup_app in N3 as (M1 & M2 & M3).
      apply NoDup_app in M3 as (K1 & K2 & K3). apply NoDup_app. split; [done|]. split.
      * intros c Hc Hc'. eapply N2; [exact Hc|]. apply elem_of_app in Hc' as [|]; rewrite !elem_of_app; auto.
      * apply NoDup_app. split; [done|]. split; [|done]. intros c Hc Hc'. eapply M2; [exact Hc|]. apply elem_of_app. auto.
    + intros c k gk Hc. apply elem_of_app in Hc as [Hc|Hc]; [|auto]. right. intros Hk Hak. eapply Hsafe; eauto. apply elem_of_app. auto.
    + intros cs e0 c Hin0 Hc. left. rewrite !elem_of_app in Hin0. destruct Hin0 as [Hin0|[Hin0|Hin0]].
      * exists cs. rewrite Hrec, elem_of_app. auto.
      * destruct keep; [|inversion Hin0]. apply elem_of_list_singleton in Hin0. injection Hin0 as -> ->. exists (cs1 ++ cs2).
        rewrite Hrec, !elem_of_app. split; [right; left|auto].
      * exists cs. rewrite Hrec, elem_of_app. split; [right; right; done|done].
    + rewrite Hpc. done.
  - (* new memory *)
    apply (einv_local s t g _ (e_epoch s) (fun c => e_used s c \/ c ∈ cs) Hi Hg); cbn [e_cls e_resv e_epoch e_used e_heap e_root e_pc e_priv e_rec e_known e_since]; eauto; try done.
    + intros c Hc. unfold eown in Hc; cbn in Hc. rewrite <- app_assoc in Hc. apply elem_of_app in Hc as [Hc|Hc]; [|left; done].
      right. left. split; [auto|]. apply Hcs. done.
    + unfold eown; cbn. rewrite <- app_assoc. apply NoDup_app. split; [done|]. split; [|apply (H2 t g Hg)].
      intros c Hc Hc'. apply (Hcs c Hc). eapply H3; [exact Hg|exact Hc'].
    + intros c k gk Hc. apply elem_of_app in Hc as [Hc|Hc]; [|auto]. right. intros Hk Hak Hsi. apply (Hcs c Hc).
      specialize (H6 k gk Hk). destruct (e_pc gk); try done; destruct H6 as (r & _ & _ & P); apply (pr_used _ _ _ P); done.
    + rewrite Hpc. done.
  - eapply einv_fill; eauto.
  - eapply einv_publish; eauto.
  - eapply einv_publish; eauto. intros x. unfold hset at 1. destruct (N.eqb_spec x c) as [->|]; [|auto].
    right. apply linked_write_self. exact Htc.
Qed.

Lemma einv_init n : einv (est0 n).
Proof.
  assert (Hr : forall t g, replicate n (ECl EIdle none [] [] none) !! t = Some g -> g = ECl EIdle none [] [] none).
  { intros t g Hg. apply lookup_replicate in Hg as [-> _]. done. }
  assert (Hempty : forall c, ~ linked (fun _ => []) [] c).
  { intros c Hc. induction Hc as [c Hc|c c' Hc IH Hc']; [inversion Hc|done]. }
  constructor; cbn [est0 e_cls e_resv e_epoch e_used e_heap e_root].
  - rewrite !replicate_length. done.
  - intros t g Hg. rewrite (Hr t g Hg). constructor.
  - intros t g c Hg Hc. rewrite (Hr t g Hg) in Hc. inversion Hc.
  - intros t t' g g' c Hg _ Hc. rewrite (Hr t g Hg) in Hc. inversion Hc.
  - intros c Hc. exfalso. eapply Hempty. exact Hc.
  - intros t g Hg. rewrite (Hr t g Hg). cbn. apply lookup_replicate. split; [done|]. apply lookup_replicate in Hg. apply Hg.
  - intros t g i m k gk cs e c Hg Hpc. rewrite (Hr t g Hg) in Hpc. done.
Qed.

Lemma einv_reach n s : ereach n s -> einv s.
Proof. induction 1 as [|s t s' _ IH Hs]; [apply einv_init|eapply einv_step; eauto]. Qed.

(** ** Consequences *)

Lemma known_prot n s t g : ereach n s -> e_cls s !! t = Some g -> active (e_pc g) -> exists r, prot s g r.
Proof.
  intros Hr Hg Ha. destruct (einv_reach _ _ Hr) as [_ _ _ _ _ H6 _]. specialize (H6 t g Hg).
  destruct (e_pc g); try done; destruct H6 as (r & _ & _ & P); eauto.
Qed.

Lemma readers_safe n s t g c u h :
  ereach n s -> e_cls s !! t = Some g -> active (e_pc g) -> e_known g c -> e_cls s !! u = Some h -> c ∉ e_priv h.
Proof.
  intros Hr Hg Ha Hk Hu Hc. destruct (known_prot _ _ _ _ Hr Hg Ha) as (r & P). eapply (pr_priv _ _ _ P); [exact Hu|exact Hc|].
  apply (pr_known _ _ _ P). exact Hk.
Qed.

(** Every cell of the tree since startOp is safe, known or not. *)
Lemma since_safe n s t g c u h :
  ereach n s -> e_cls s !! t = Some g -> active (e_pc g) -> e_since g c -> e_cls s !! u = Some h -> c ∉ e_priv h.
Proof.
  intros Hr Hg Ha Hk Hu Hc. destruct (known_prot _ _ _ _ Hr Hg Ha) as (r & P). eapply (pr_priv _ _ _ P); [exact Hu|exact Hc|exact Hk].
Qed.

Lemma readers_contents n s t g c u s' :
  ereach n s -> e_cls s !! t = Some g -> active (e_pc g) -> e_known g c -> estep s u s' ->
  e_heap s' c <> e_heap s c -> tree_cell s c /\ tree_cell s' c.
Proof.
  intros Hr Hg Ha Hk Hs Hne.
  destruct Hs as [g' Hg' Hpc|g' e Hg' Hpc|g' Hg' Hpc|g' Hg' Hact|g' c' Hg' Hact Hk'| |g' cs Hg' Hpc Hnd Hcs|g' Hg' Hpc|g' i m r Hg' Hpc Hr'
    |g' i m l1 l2 cs1 cs2 e keep Hg' Hpc Hin Hrec Hlt|g' i m cs Hg' Hpc Hin Hnd Hcs|g' c' ps Hg' Hc|g' ps priv Hg' Hnew Hnd Hpriv|g' c' ps priv Hg' Htc Hnew Hnd Hpriv];
    cbn [ecl_set e_heap] in Hne; try done.
  - exfalso. unfold hset in Hne. destruct (N.eqb_spec c c') as [->|]; [|done]. exact (readers_safe n s t g c' u g' Hr Hg Ha Hk Hg' Hc).
  - unfold hset in Hne. destruct (N.eqb_spec c c') as [->|]; [|done]. split; [done|]. unfold tree_cell; cbn. apply linked_write_self. exact Htc.
Qed.

(** ** Two executions of two clients *)

Ltac estp H c := let H' := fresh "H" in eassert (H' : ereach 2 _) by (eapply er_step; [exact H|c]); cbn in H'; clear H; rename H' into H.

Lemma linked_flat l c : linked (fun _ => []) l c -> c ∈ l.
Proof. induction 1 as [c Hc|c c' _ IH Hc']; [done|inversion Hc']. Qed.

Ltac nodup12 := repeat constructor; rewrite ?elem_of_cons, ?elem_of_nil; intuition congruence.

Lemma ex_epoch_start : exists s0 k, ereach 2 s0 /\
  s0 = ESt 0 [Some 0; Some 0] (fun _ => []) [1; 2]%N (fun c => none c \/ c ∈ [1; 2]%N)
   [ECl EActive k [] [] (linked (fun _ => []) [1; 2]%N); ECl EActive none [] [] (fun c => linked (fun _ => []) [] c \/ True /\ linked (fun _ => []) [1; 2]%N c)] /\ k 1%N.
Proof.
  eexists _, _. pose proof (er_init 2) as H. cbn in H.
  estp H ltac:(eapply (es_load _ 1); reflexivity).
  estp H ltac:(eapply (es_store _ 1); reflexivity).
  estp H ltac:(eapply (es_scan _ 1); reflexivity).
  estp H ltac:(eapply (es_scan_next _ 1 _ _ _ None); reflexivity).
  estp H ltac:(eapply (es_scan_next _ 1 _ _ _ (Some 0)); reflexivity).
  estp H ltac:(eapply (es_fresh _ 1 _ _ _ [1; 2]%N); [reflexivity|reflexivity|reflexivity|nodup12|intros ? _ []]).
  estp H ltac:(eapply (es_root _ 1 _ [1; 2]%N []); [reflexivity| |constructor|intros c Hc; inversion Hc]; intros c Hc; apply linked_flat in Hc; right; exact Hc).
  estp H ltac:(eapply (es_load _ 0); reflexivity).
  estp H ltac:(eapply (es_store _ 0); reflexivity).
  estp H ltac:(eapply (es_read_root _ 0); [reflexivity|exact I]).
  split; [exact H|]. split; [reflexivity|]. right. left.
Qed.

Lemma ex_epoch_unlink : exists s0 k, ereach 2 s0 /\ k 1%N /\ exists sc sd u,
  s0 = ESt 0 [Some 0; Some 0] (fun _ => []) [] u [ECl EActive k [] [] sc; ECl EActive none [([1; 2]%N, 0)] [] sd].
Proof.
  destruct ex_epoch_start as (s & k & H & -> & Hk). eexists _, k.
  estp H ltac:(eapply (es_root _ 1 _ [] []); [reflexivity| |constructor|intros c Hc; inversion Hc]; intros c Hc; apply linked_flat in Hc; inversion Hc).
  estp H ltac:(eapply (es_recycle _ 1 _ [1; 2]%N); [reflexivity|reflexivity|nodup12|];
    intros c Hc; split; [right; exact Hc|]; split;
    [intros Hl; apply linked_flat in Hl; inversion Hl
    |intros (t & g & Hg & Ho); destruct t as [|[|t]]; cbn in Hg; [| |done]; injection Hg as <-; cbn in Ho;
        (destruct Ho as [Ho|(cs & e & Ho & _)]; inversion Ho)]).
  split; [exact H|]. split; [exact Hk|]. eexists _, _, _. reflexivity.
Qed.

Lemma ex_epoch_reuse : exists s0 g, ereach 2 s0 /\ e_cls s0 !! 1 = Some g /\ e_priv g = [1; 2]%N.
Proof.
  destruct ex_epoch_unlink as (s & k & H & _ & sc & sd & u & ->). eexists _, _.
  estp H ltac:(eapply (es_end _ 0); reflexivity).
  estp H ltac:(eapply (es_bump _ 0)).
  estp H ltac:(eapply (es_end _ 1); reflexivity).
  estp H ltac:(eapply (es_load _ 1); reflexivity).
  estp H ltac:(eapply (es_store _ 1); reflexivity).
  estp H ltac:(eapply (es_scan _ 1); reflexivity).
  estp H ltac:(eapply (es_scan_next _ 1 _ _ _ None); reflexivity).
  estp H ltac:(eapply (es_scan_next _ 1 _ _ _ (Some 1)); reflexivity).
  estp H ltac:(eapply (es_pick _ 1 _ _ _ [] [] [1; 2]%N [] 0 false); [reflexivity|reflexivity|reflexivity|reflexivity|cbn; lia]).
  split; [exact H|]. split; reflexivity.
Qed.
