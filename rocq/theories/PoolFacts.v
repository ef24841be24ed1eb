(** * PoolFacts: proofs about the allocator pool. *)
From Verif Require Export Pool.

Definition owned (g : gor) : list nat := g_held g ++ g_wd g.

(** Every owned index is marked as taken and owned once. *)
Definition own (sl : list bool) (gs : list gor) : Prop :=
  (forall t g, gs !! t = Some g -> NoDup (owned g) /\ forall i, i ∈ owned g -> sl !! i = Some true) /\
  (forall t t' g g' i, gs !! t = Some g -> gs !! t' = Some g' -> i ∈ owned g -> i ∈ owned g' -> t = t').

Lemma own_same sl gs t g g' :
  own sl gs -> gs !! t = Some g -> (forall i, i ∈ owned g' -> i ∈ owned g) -> NoDup (owned g') -> own sl (<[t := g']> gs).
Proof.
  intros [H1 H2] Hg Hsub Hnd.
  assert (Hl : forall u h, <[t := g']> gs !! u = Some h -> exists h0, gs !! u = Some h0 /\ (forall i, i ∈ owned h -> i ∈ owned h0) /\ NoDup (owned h)).
  { intros u h Hu. destruct (decide (u = t)) as [->|Hut].
    - rewrite list_lookup_insert in Hu by (eapply lookup_lt_Some; eauto). injection Hu as <-. eauto.
    - rewrite list_lookup_insert_ne in Hu by done. exists h. split; [done|]. split; [auto|]. apply (H1 u h Hu). }
  split.
  - intros u h Hu. destruct (Hl _ _ Hu) as (h0 & Hh0 & Hs & Hn). split; [done|].
    intros i Hi. apply (H1 u h0 Hh0), Hs, Hi.
  - intros u u' h h' i Hu Hu' Hi Hi'. destruct (Hl _ _ Hu) as (h0 & Hh0 & Hs & _). destruct (Hl _ _ Hu') as (h1 & Hh1 & Hs' & _).
    apply (H2 u u' h0 h1 i Hh0 Hh1); auto.
Qed.

Lemma own_take sl gs t g g' i :
  own sl gs -> gs !! t = Some g -> sl !! i = Some false -> (owned g' ≡ₚ i :: owned g) ->
  own (<[i := true]> sl) (<[t := g']> gs).
Proof.
  intros [H1 H2] Hg Hi Hp.
  assert (Hfree : forall u h, gs !! u = Some h -> i ∉ owned h).
  { intros u h Hu Hin. destruct (H1 u h Hu) as [_ Hs]. specialize (Hs i Hin). congruence. }
  assert (Hin : forall j, j ∈ owned g' <-> j = i \/ j ∈ owned g).
  { intros j. rewrite Hp, elem_of_cons. done. }
  assert (Hlen : t < length gs) by (eapply lookup_lt_Some; eauto).
  assert (Hsl : forall j, sl !! j = Some true -> <[i := true]> sl !! j = Some true).
  { intros j Hj. destruct (decide (j = i)) as [->|Hne]; [congruence|]. rewrite list_lookup_insert_ne by done. done. }
  split.
  - intros u h Hu. destruct (decide (u = t)) as [->|Hut].
    + rewrite list_lookup_insert in Hu by done. injection Hu as <-. split.
      * rewrite Hp. constructor; [eapply Hfree; eauto|apply (H1 t g Hg)].
      * intros j Hj. apply Hin in Hj as [->|Hj].
        -- rewrite list_lookup_insert by (eapply lookup_lt_Some; eauto). done.
        -- apply Hsl. apply (H1 t g Hg), Hj.
    + rewrite list_lookup_insert_ne in Hu by done. destruct (H1 u h Hu) as [Hn Hs]. split; [done|].
      intros j Hj. apply Hsl, Hs, Hj.
  - intros u u' h h' j Hu Hu' Hj Hj'.
    destruct (decide (u = t)) as [->|Hut]; destruct (decide (u' = t)) as [->|Hut']; auto.
    + rewrite list_lookup_insert in Hu by done. rewrite list_lookup_insert_ne in Hu' by done. injection Hu as <-.
      apply Hin in Hj as [->|Hj]; [exfalso; eapply Hfree; eauto|eauto].
    + rewrite list_lookup_insert in Hu' by done. rewrite list_lookup_insert_ne in Hu by done. injection Hu' as <-.
      apply Hin in Hj' as [->|Hj']; [exfalso; eapply Hfree; eauto|eauto].
    + rewrite list_lookup_insert_ne in Hu by done. rewrite list_lookup_insert_ne in Hu' by done. eauto.
Qed.

Lemma own_give sl gs t g g' i :
  own sl gs -> gs !! t = Some g -> i ∈ owned g -> NoDup (owned g') -> (forall j, j ∈ owned g' -> j ∈ owned g /\ j <> i) ->
  own (<[i := false]> sl) (<[t := g']> gs).
Proof.
  intros [H1 H2] Hg Hi Hnd Hsub.
  assert (Hlen : t < length gs) by (eapply lookup_lt_Some; eauto).
  split.
  - intros u h Hu. destruct (decide (u = t)) as [->|Hut].
    + rewrite list_lookup_insert in Hu by done. injection Hu as <-. split; [done|].
      intros j Hj. destruct (Hsub j Hj) as [Hj1 Hj2]. rewrite list_lookup_insert_ne by done. apply (H1 t g Hg), Hj1.
    + rewrite list_lookup_insert_ne in Hu by done. destruct (H1 u h Hu) as [Hn Hs]. split; [done|].
      intros j Hj. rewrite list_lookup_insert_ne; [apply Hs, Hj|]. intros ->. apply Hut. eapply H2; eauto.
  - intros u u' h h' j Hu Hu' Hj Hj'.
    destruct (decide (u = t)) as [->|Hut]; destruct (decide (u' = t)) as [->|Hut']; auto.
    + rewrite list_lookup_insert in Hu by done. rewrite list_lookup_insert_ne in Hu' by done. injection Hu as <-.
      apply Hsub in Hj as [Hj _]. eauto.
    + rewrite list_lookup_insert in Hu' by done. rewrite list_lookup_insert_ne in Hu by done. injection Hu' as <-.
      apply Hsub in Hj' as [Hj' _]. eauto.
    + rewrite list_lookup_insert_ne in Hu by done. rewrite list_lookup_insert_ne in Hu' by done. eauto.
Qed.

Definition client_pc (pc : ppc) (held : list nat) : Prop :=
  match pc with
  | PIdle => True
  | PLoad _ KClient => True
  | PCas _ KClient => True
  | PPut i => i ∈ held
  | _ => False
  end.

(** The administrator: what it has withdrawn, in each phase. *)
Definition admin_pc (n : nat) (stopped : bool) (g : gor) : Prop :=
  match g_pc g with
  | PLoad _ (KStop l _) | PCas _ (KStop l _) => stopped = true /\ length (g_wd g) + S l = n
  | PStartPut i => stopped = false /\ (forall j, j ∈ g_wd g <-> i <= j < n)
  | pc => (stopped = true /\ length (g_wd g) = n \/ stopped = false /\ g_wd g = []) /\
          match pc with PPut i => i ∈ g_held g | _ => True end
  end.

Definition pinv (a : nat) (s : pool) : Prop :=
  own (p_slots s) (p_gors s) /\
  (forall t g, p_gors s !! t = Some g -> t <> a -> g_wd g = [] /\ client_pc (g_pc g) (g_held g)) /\
  (forall g, p_gors s !! a = Some g -> admin_pc (length (p_slots s)) (p_stopped s) g) /\
  (p_gors s !! a = None -> p_stopped s = false).

Lemma own_lt sl gs t g i : own sl gs -> gs !! t = Some g -> i ∈ owned g -> i < length sl.
Proof. intros [H1 _] Hg Hi. eapply lookup_lt_Some. apply (H1 t g Hg), Hi. Qed.

Lemma full_owner sl gs t g :
  own sl gs -> gs !! t = Some g -> length (g_wd g) = length sl -> forall j, j ∈ g_wd g <-> j < length sl.
Proof.
  intros Ho Hg Hl j.
  assert (Hnd : NoDup (g_wd g)).
  { destruct Ho as [H1 _]. destruct (H1 t g Hg) as [Hn _]. unfold owned in Hn. apply NoDup_app in Hn as (_ & _ & Hn). done. }
  assert (Hlt : forall i, i ∈ g_wd g -> i < length sl).
  { intros i Hi. eapply own_lt; eauto. unfold owned. apply elem_of_app; auto. }
  split; [apply Hlt|]. intros Hj.
  assert (Hp : g_wd g ≡ₚ seq 0 (length sl)).
  { apply submseteq_Permutation_length_le; [rewrite seq_length; lia|].
    apply NoDup_submseteq; [done|]. intros i Hi. apply elem_of_list_In, in_seq. specialize (Hlt i Hi). lia. }
  rewrite Hp. apply elem_of_list_In, in_seq. lia.
Qed.

Lemma owned_filter_held g i pc :
  NoDup (owned g) -> i ∈ g_held g ->
  let g' := Gor pc (filter (fun j => j <> i) (g_held g)) (g_wd g) in
  NoDup (owned g') /\ (forall j, j ∈ owned g' -> j ∈ owned g /\ j <> i).
Proof.
  unfold owned; cbn [g_held g_wd]. intros Hn Hi. apply NoDup_app in Hn as (Hn1 & Hd & Hn2). split.
  - apply NoDup_app. split; [apply NoDup_filter; done|]. split; [|done]. intros j Hj. apply elem_of_list_filter in Hj as [_ Hj]. auto.
  - intros j Hj. apply elem_of_app in Hj as [Hj|Hj].
    + apply elem_of_list_filter in Hj as [Hne Hj]. split; [apply elem_of_app; auto|done].
    + split; [apply elem_of_app; auto|]. intros ->. eapply Hd; eauto.
Qed.

Lemma owned_filter_wd g i pc :
  NoDup (owned g) -> i ∈ g_wd g ->
  let g' := Gor pc (g_held g) (filter (fun j => j <> i) (g_wd g)) in
  NoDup (owned g') /\ (forall j, j ∈ owned g' -> j ∈ owned g /\ j <> i).
Proof.
  unfold owned; cbn [g_held g_wd]. intros Hn Hi. apply NoDup_app in Hn as (Hn1 & Hd & Hn2). split.
  - apply NoDup_app. split; [done|]. split; [|apply NoDup_filter; done]. intros j Hj Hf. apply elem_of_list_filter in Hf as [_ Hf]. eapply Hd; eauto.
  - intros j Hj. apply elem_of_app in Hj as [Hj|Hj].
    + split; [apply elem_of_app; auto|]. intros ->. eapply Hd; eauto.
    + apply elem_of_list_filter in Hj as [Hne Hj]. split; [apply elem_of_app; auto|done].
Qed.

Lemma owned_got g i k : owned (got g i k) ≡ₚ i :: owned g.
Proof.
  unfold owned. destruct k as [|[|l] len]; cbn [got g_held g_wd]; [done|..]; rewrite Permutation_middle; done.
Qed.

Lemma pinv_upd a s t g s' g' :
  pinv a s -> p_gors s !! t = Some g -> p_gors s' = <[t := g']> (p_gors s) -> length (p_slots s') = length (p_slots s) ->
  own (p_slots s') (p_gors s') ->
  (t <> a -> p_stopped s' = p_stopped s /\ g_wd g' = [] /\ client_pc (g_pc g') (g_held g')) ->
  (t = a -> admin_pc (length (p_slots s')) (p_stopped s') g') ->
  pinv a s'.
Proof.
  intros (Ho & Hc & Ha & Hz) Hg Hgs Hlen Ho' Hcl Had.
  assert (Htl : t < length (p_gors s)) by (eapply lookup_lt_Some; eauto).
  split; [done|]. rewrite Hgs. split; [|split].
  - intros u h Hu Hua. destruct (decide (u = t)) as [->|Hut].
    + rewrite list_lookup_insert in Hu by done. injection Hu as <-. apply Hcl; done.
    + rewrite list_lookup_insert_ne in Hu by done. eauto.
  - intros h Hu. destruct (decide (a = t)) as [->|Hut].
    + rewrite list_lookup_insert in Hu by done. injection Hu as <-. apply Had; done.
    + rewrite list_lookup_insert_ne in Hu by done. destruct Hcl as [-> _]; [congruence|]. rewrite Hlen. eauto.
  - intros Hn. destruct (decide (a = t)) as [->|Hut].
    + rewrite list_lookup_insert in Hn by done. done.
    + rewrite list_lookup_insert_ne in Hn by done. destruct Hcl as [-> _]; [congruence|]. auto.
Qed.

Lemma admin_quiet n st pc pc' held wd :
  admin_pc n st (Gor pc held wd) ->
  match pc with PLoad _ (KStop _ _) | PCas _ (KStop _ _) | PStartPut _ => False | _ => True end ->
  match pc' with PLoad _ (KStop _ _) | PCas _ (KStop _ _) | PStartPut _ | PPut _ => False | _ => True end ->
  admin_pc n st (Gor pc' held wd).
Proof. destruct pc as [|? []|? []|?|?| | |?], pc' as [|? []|? []|?|?| | |?]; cbn; try tauto. Qed.

Lemma pinv_step a s t c s' : pinv a s -> one_admin a t c -> pstep s t c = Some s' -> pinv a s'.
Proof.
  intros Hi Hadm Hs. pose proof Hi as (Ho & Hc & Ha & Hz).
  unfold pstep in Hs. destruct (p_gors s !! t) as [g|] eqn:Hg; [|done].
  assert (Hnd : NoDup (owned g)) by (destruct Ho as [H1 _]; apply (H1 t g Hg)).
  assert (Hgoto : forall pc, (t <> a -> client_pc pc (g_held g)) ->
     (t = a -> admin_pc (length (p_slots s)) (p_stopped s) (Gor pc (g_held g) (g_wd g))) ->
     pinv a (gor_set s t (Gor pc (g_held g) (g_wd g)))).
  { intros pc H1 H2. eapply (pinv_upd a s t g); cbn; eauto.
    - eapply own_same; eauto.
    - intros Hne. split; [done|]. split; [apply (Hc t g Hg Hne)|auto]. }
  assert (Hga : t = a -> admin_pc (length (p_slots s)) (p_stopped s) g) by (intros ->; auto).
  destruct g as [pc held wd]; cbn [g_pc g_held g_wd] in *.
  destruct pc as [|i k|i k|i|len| | |i].
  - (* starting a call *)
    destruct c as [|i| | |]; cbn [enter g_held g_wd g_pc] in Hs.
    + injection Hs as <-. apply Hgoto; [done|]. intros He. eapply admin_quiet; [apply Hga, He|done|done].
    + destruct (decide (i ∈ held)) as [Hin|]; [|done]. injection Hs as <-. apply Hgoto; [done|].
      intros He. specialize (Hga He). cbn in *. tauto.
    + injection Hs as <-. destruct Hadm as [[]| ->]. apply Hgoto; [done|]. intros He. eapply admin_quiet; [apply Hga, He|done|done].
    + injection Hs as <-. destruct Hadm as [[]| ->]. apply Hgoto; [done|]. intros He. eapply admin_quiet; [apply Hga, He|done|done].
    + injection Hs as <-. destruct Hadm as [[]| ->]. apply Hgoto; [done|]. intros He. eapply admin_quiet; [apply Hga, He|done|done].
  - (* load *)
    assert (Hk : t <> a -> k = KClient).
    { intros Hne. destruct (Hc t _ Hg Hne) as [_ Hp]. cbn in Hp. destruct k; done. }
    destruct (p_slots s !! i) as [[]|]; injection Hs as <-; apply Hgoto;
      try (intros Hne; rewrite (Hk Hne); done); intros He; specialize (Hga He); destruct k; cbn in *; tauto.
  - (* compare and swap *)
    assert (Hk : t <> a -> k = KClient).
    { intros Hne. destruct (Hc t _ Hg Hne) as [_ Hp]. cbn in Hp. destruct k; done. }
    destruct (p_slots s !! i) as [[]|] eqn:Hsl; injection Hs as <-.
    + apply Hgoto; try (intros Hne; rewrite (Hk Hne); done); intros He; specialize (Hga He); destruct k; cbn in *; tauto.
    + eapply (pinv_upd a s t); [done|done|cbn; done|cbn; apply insert_length|..].
      * cbn. eapply own_take; eauto. apply owned_got.
      * intros Hne. rewrite (Hk Hne). cbn. split; [done|]. split; [|done]. apply (Hc t _ Hg Hne).
      * intros He. specialize (Hga He). cbn [gor_set slot_set p_slots p_stopped]. rewrite insert_length.
        destruct k as [|[|l] len]; cbn in *; [tauto|..].
        -- destruct Hga as [Hst Hl]. destruct len; cbn; (split; [left; split; [done|lia]|done]).
        -- destruct Hga as [Hst Hl]. split; [done|lia].
    + apply Hgoto; try (intros Hne; rewrite (Hk Hne); done); intros He; specialize (Hga He); destruct k; cbn in *; tauto.
  - (* put *)
    injection Hs as <-.
    assert (Hin : i ∈ held).
    { destruct (decide (t = a)) as [He|Hne]; [apply Hga in He; cbn in He; tauto|]. destruct (Hc t _ Hg Hne) as [_ Hp]. exact Hp. }
    destruct (owned_filter_held (Gor (PPut i) held wd) i PIdle Hnd Hin) as [Hn Hsub].
    eapply (pinv_upd a s t); [done|done|cbn; done|cbn; apply insert_length|..].
    + cbn. eapply own_give; eauto. unfold owned; cbn. apply elem_of_app; auto.
    + intros Hne. cbn. split; [done|]. split; [apply (Hc t _ Hg Hne)|done].
    + intros He. specialize (Hga He). cbn [gor_set slot_set p_slots p_stopped]. rewrite insert_length. cbn in *. tauto.
  - (* Stop *)
    assert (Hta : t = a).
    { destruct (decide (t = a)) as [He|Hne]; [done|]. destruct (Hc t _ Hg Hne) as [_ Hp]. done. }
    specialize (Hga Hta). destruct (p_stopped s) eqn:Hst; injection Hs as <-.
    + apply Hgoto; [done|]. intros _. destruct len; cbn in *; tauto.
    + eapply (pinv_upd a s t); [done|done|cbn; done|cbn; done|..].
      * cbn. eapply own_same; eauto.
        -- unfold owned; cbn. intros j Hj. rewrite app_nil_r in Hj. apply elem_of_app; auto.
        -- unfold owned; cbn. rewrite app_nil_r. unfold owned in Hnd; cbn in Hnd. apply NoDup_app in Hnd; tauto.
      * done.
      * intros _. cbn. destruct (length (p_slots s)); [destruct len; cbn; tauto|cbn; auto].
  - (* Len reads *)
    injection Hs as <-. assert (Hta : t = a).
    { destruct (decide (t = a)) as [He|Hne]; [done|]. destruct (Hc t _ Hg Hne) as [_ Hp]. done. }
    apply Hgoto; [done|]. intros He. eapply admin_quiet; [apply Hga, He|done|done].
  - (* Start *)
    assert (Hta : t = a).
    { destruct (decide (t = a)) as [He|Hne]; [done|]. destruct (Hc t _ Hg Hne) as [_ Hp]. done. }
    specialize (Hga Hta). destruct (p_stopped s) eqn:Hst; injection Hs as <-.
    + eapply (pinv_upd a s t); [done|done|cbn; done|cbn; done|..].
      * cbn. eapply own_same; eauto.
      * done.
      * intros _. cbn. split; [done|]. cbn in Hga. destruct Hga as [[[_ Hl]|[? _]] _]; [|done].
        intros j. rewrite (full_owner _ _ _ _ Ho Hg Hl). lia.
    + apply Hgoto; [done|]. intros _. cbn in *. tauto.
  - (* Start puts *)
    assert (Hta : t = a).
    { destruct (decide (t = a)) as [He|Hne]; [done|]. destruct (Hc t _ Hg Hne) as [_ Hp]. done. }
    specialize (Hga Hta). cbn in Hga. destruct Hga as [Hst Hwd].
    destruct (i <? length (p_slots s))%nat eqn:Hlt; injection Hs as <-.
    + apply Nat.ltb_lt in Hlt. assert (Hin : i ∈ wd) by (apply Hwd; lia).
      destruct (owned_filter_wd (Gor (PStartPut i) held wd) i (PStartPut (S i)) Hnd Hin) as [Hn Hsub].
      eapply (pinv_upd a s t); [done|done|cbn; done|cbn; apply insert_length|..].
      * cbn. eapply own_give; eauto. unfold owned; cbn. apply elem_of_app; auto.
      * done.
      * intros _. cbn. rewrite insert_length. split; [done|]. intros j. rewrite elem_of_list_filter, Hwd. lia.
    + apply Nat.ltb_ge in Hlt. apply Hgoto; [done|]. intros _. cbn. split; [|done]. right. split; [done|].
      destruct wd as [|j wd]; [done|]. exfalso. assert (j ∈ j :: wd) as Hj by left. apply Hwd in Hj. lia.
Qed.

Lemma pinv_init a n m : pinv a (pool0 n m).
Proof.
  unfold pool0. split; [|split; [|split]]; cbn.
  - split.
    + intros t g Hg. apply lookup_replicate in Hg as [-> _]. split; [constructor|]. intros i Hi. inversion Hi.
    + intros t t' g g' i Hg Hg' Hi. apply lookup_replicate in Hg as [-> _]. inversion Hi.
  - intros t g Hg _. apply lookup_replicate in Hg as [-> _]. done.
  - intros g Hg. apply lookup_replicate in Hg as [-> _]. cbn. auto.
  - done.
Qed.

Lemma pinv_reach a n m s : preach (one_admin a) n m s -> pinv a s.
Proof. induction 1; [apply pinv_init|eapply pinv_step; eauto]. Qed.

Lemma own_exclusive s : own (p_slots s) (p_gors s) -> exclusive s.
Proof.
  intros [H1 H2]. split.
  - intros t t' i (g & Hg & Hi) (g' & Hg' & Hi'). apply (H2 t t' g g' i Hg Hg'); unfold owned; apply elem_of_app; auto.
  - intros t g Hg. destruct (H1 t g Hg) as [Hn _]. unfold owned in Hn. apply NoDup_app in Hn. tauto.
Qed.

Lemma preach_mono (P Q : nat -> pcall -> Prop) n m s : (forall t c, P t c -> Q t c) -> preach P n m s -> preach Q n m s.
Proof. intros HPQ. induction 1; [constructor|econstructor; eauto]. Qed.

Lemma pool_clients n m s : preach (fun _ c => client c) n m s -> exclusive s.
Proof.
  intros Hr. apply own_exclusive. eapply (pinv_reach 0). eapply preach_mono; [|exact Hr]. intros t c Hc. left. done.
Qed.

Lemma pool_one_admin a n m s : preach (one_admin a) n m s -> exclusive s.
Proof. intros Hr. apply own_exclusive. eapply pinv_reach; eauto. Qed.

Lemma pool_stopped a n m s :
  preach (one_admin a) n m s -> p_stopped s = true -> ~ collecting s a -> forall t i, ~ holds s t i.
Proof.
  intros Hr Hst Hnc t i (g & Hg & Hi). destruct (pinv_reach _ _ _ _ Hr) as (Ho & Hc & Ha & Hz).
  destruct (p_gors s !! a) as [ga|] eqn:Hga; [|rewrite Hz in Hst; done].
  specialize (Ha ga eq_refl).
  assert (Hfull : length (g_wd ga) = length (p_slots s)).
  { unfold admin_pc in Ha. rewrite Hst in Ha. destruct (g_pc ga) as [|j k|j k|?|?| | |?] eqn:Hpc; try naive_solver.
    - destruct k as [|l len]; [naive_solver|]. exfalso. apply Hnc. exists ga, j, l, len. auto.
    - destruct k as [|l len]; [naive_solver|]. exfalso. apply Hnc. exists ga, j, l, len. auto. }
  assert (Hlt : i < length (p_slots s)).
  { apply (own_lt (p_slots s) (p_gors s) t g i Ho Hg). unfold owned. apply elem_of_app; auto. }
  assert (Hin : i ∈ g_wd ga) by (apply (full_owner _ _ _ _ Ho Hga Hfull); done).
  assert (t = a) as -> by (destruct Ho as [_ H2]; apply (H2 t a g ga i Hg Hga); unfold owned; apply elem_of_app; auto).
  assert (g = ga) as -> by congruence.
  destruct Ho as [H1 _]. destruct (H1 a ga Hga) as [Hn _]. apply NoDup_app in Hn as (_ & Hd & _). eapply Hd; eauto.
Qed.

Lemma pool_len_runs a n m s c s' :
  preach (one_admin a) n m s -> in_start s a -> pstep s a c = Some s' -> idle s' a -> p_stopped s' = false.
Proof.
  intros Hr (g & Hg & Hpc) Hs (g' & Hg' & Hi). destruct (pinv_reach _ _ _ _ Hr) as (_ & _ & Ha & _). specialize (Ha g Hg).
  unfold pstep in Hs. rewrite Hg in Hs. unfold admin_pc in Ha. destruct Hpc as [Hpc|[i Hpc]]; rewrite Hpc in Hs, Ha; cbn in Ha.
  - destruct (p_stopped s) eqn:Hst; injection Hs as <-; cbn in *; congruence.
  - destruct Ha as [Hst _]. destruct (i <? _)%nat; injection Hs as <-; cbn in *; congruence.
Qed.

Lemma prun_reach adm n m l s s' :
  preach adm n m s -> (forall t c, (t, c) ∈ l -> adm t c) -> prun s l = Some s' -> preach adm n m s'.
Proof.
  revert s. induction l as [|[t c] l IH]; intros s Hr Hl Hp; cbn in Hp.
  - injection Hp as <-. done.
  - destruct (pstep s t c) as [s1|] eqn:Hs; [|done]. eapply IH; [|intros; apply Hl; right; done|exact Hp].
    econstructor; [exact Hr|apply Hl; left|exact Hs].
Qed.

Lemma prun_app l1 l2 s s' : prun s l1 = Some s' -> prun s (l1 ++ l2) = prun s' l2.
Proof.
  revert s. induction l1 as [|[t c] l1 IH]; intros s H; cbn in *; [congruence|]. destruct (pstep s t c); [auto|done].
Qed.

(** A get that runs while some allocator is free returns one. *)
Lemma get_scan s t g d :
  p_gors s !! t = Some g -> (exists i, g_pc g = PLoad i KClient /\ exists j, i <= j /\ j - i <= d /\ p_slots s !! j = Some false) ->
  exists k s' j, k <= 2 * d + 2 /\ prun s (replicate k (t, QGet)) = Some s' /\ p_slots s !! j = Some false /\
    p_slots s' = <[j := true]> (p_slots s) /\ p_stopped s' = p_stopped s /\
    p_gors s' = <[t := Gor PIdle (j :: g_held g) (g_wd g)]> (p_gors s).
Proof.
  revert s g. induction d as [|d IH]; intros s g Hg (i & Hpc & j & Hij & Hd & Hj).
  - assert (i = j) as -> by lia. exists 2, (gor_set (slot_set s j true) t (got g j KClient)), j.
    split; [lia|]. cbn [replicate prun]. unfold pstep at 1. rewrite Hg, Hpc, Hj. cbn [prun].
    unfold pstep at 1. cbn [gor_set p_gors p_slots]. rewrite list_lookup_insert by (eapply lookup_lt_Some; eauto).
    cbn [g_pc]. rewrite Hj. split; [|split; [done|]].
    + f_equal. unfold gor_set; cbn. rewrite list_insert_insert. done.
    + cbn. done.
  - destruct (p_slots s !! i) as [b|] eqn:Hi.
    2:{ exfalso. apply lookup_ge_None in Hi. apply lookup_lt_Some in Hj. lia. }
    destruct b.
    + assert (i <> j) by congruence.
      set (s1 := gor_set s t (Gor (PLoad (S i) KClient) (g_held g) (g_wd g))).
      assert (Hg1 : p_gors s1 !! t = Some (Gor (PLoad (S i) KClient) (g_held g) (g_wd g))).
      { cbn. apply list_lookup_insert. eapply lookup_lt_Some; eauto. }
      destruct (IH s1 _ Hg1) as (k & s' & j' & Hk & Hrun & Hj' & Hsl & Hst & Hgs).
      { exists (S i). split; [done|]. exists j. split; [lia|]. split; [lia|done]. }
      exists (S k), s', j'. split; [lia|]. cbn [replicate prun]. unfold pstep at 1. rewrite Hg, Hpc, Hi.
      split; [exact Hrun|]. split; [exact Hj'|]. split; [exact Hsl|]. split; [exact Hst|].
      rewrite Hgs. cbn. rewrite list_insert_insert. done.
    + exists 2, (gor_set (slot_set s i true) t (got g i KClient)), i.
      split; [lia|]. cbn [replicate prun]. unfold pstep at 1. rewrite Hg, Hpc, Hi. cbn [prun].
      unfold pstep at 1. cbn [gor_set p_gors p_slots]. rewrite list_lookup_insert by (eapply lookup_lt_Some; eauto).
      cbn [g_pc]. rewrite Hi. split; [|split; [done|]].
      * f_equal. unfold gor_set; cbn. rewrite list_insert_insert. done.
      * cbn. done.
Qed.

Lemma pool_get_returns s t g j :
  p_gors s !! t = Some g -> g_pc g = PIdle -> p_slots s !! j = Some false ->
  exists k s' i, k <= 2 * length (p_slots s) + 3 /\ prun s (replicate k (t, QGet)) = Some s' /\ idle s' t /\
    p_slots s !! i = Some false /\ p_slots s' = <[i := true]> (p_slots s) /\ holds s' t i.
Proof.
  intros Hg Hpc Hj. assert (Htl : t < length (p_gors s)) by (eapply lookup_lt_Some; eauto).
  set (s1 := gor_set s t (Gor (PLoad 0 KClient) (g_held g) (g_wd g))).
  destruct (get_scan s1 t (Gor (PLoad 0 KClient) (g_held g) (g_wd g)) j) as (k & s' & i & Hk & Hrun & Hi & Hsl & _ & Hgs).
  { cbn. apply list_lookup_insert. done. }
  { exists 0. split; [done|]. exists j. split; [lia|]. split; [lia|done]. }
  apply lookup_lt_Some in Hj as Hjl.
  assert (Hl : p_gors s' !! t = Some (Gor PIdle (i :: g_held g) (g_wd g))).
  { rewrite Hgs. apply list_lookup_insert. cbn. rewrite insert_length. done. }
  exists (S k), s', i. split; [lia|]. cbn [replicate prun]. unfold pstep at 1. rewrite Hg, Hpc. cbn [enter].
  change (fmap (gor_set s t) (Some (Gor (PLoad 0 KClient) (g_held g) (g_wd g)))) with (Some s1).
  split; [exact Hrun|]. split; [eexists; split; [exact Hl|done]|]. split; [exact Hi|]. split; [exact Hsl|].
  eexists. split; [exact Hl|]. left.
Qed.

(** ** Witnesses *)

(** Goroutine 0 holds the only allocator; 1 and 2 call Len; 2 finds the tree stopped by 1,
    skips the collecting loop and releases the allocator that 0 holds; 3 gets it. *)
Definition two_lens : list (nat * pcall) :=
  replicate 3 (0, QGet) ++ replicate 2 (1, QLen) ++ replicate 5 (2, QLen) ++ replicate 3 (3, QGet).

Lemma pool_two_lens :
  exists s t t' i, preach (fun _ c => match c with QLen => True | c => client c end) 1 4 s /\ t <> t' /\ holds s t i /\ holds s t' i.
Proof.
  destruct (prun (pool0 1 4) two_lens) as [s|] eqn:Hs; [|vm_compute in Hs; done].
  exists s, 0, 3, 0. split.
  { eapply prun_reach; [constructor| |exact Hs]. intros t c Hin.
    assert (Hf : forallb (fun x => match x.2 with QGet | QLen | QRelease _ => true | _ => false end) two_lens = true) by done.
    rewrite forallb_forall in Hf. apply elem_of_list_In in Hin. apply Hf in Hin. destruct c; done. }
  split; [done|]. vm_compute in Hs. injection Hs as <-.
  split; (eexists; split; [reflexivity|left]).
Qed.

(** Start while Stop of another goroutine is collecting. *)
Definition stop_start : list (nat * pcall) :=
  replicate 3 (0, QGet) ++ replicate 2 (1, QStop) ++ replicate 3 (2, QStart) ++ replicate 3 (3, QGet).

Lemma pool_stop_start :
  exists s t t' i, preach (fun _ c => match c with QLen => False | _ => True end) 1 4 s /\ t <> t' /\ holds s t i /\ holds s t' i.
Proof.
  destruct (prun (pool0 1 4) stop_start) as [s|] eqn:Hs; [|vm_compute in Hs; done].
  exists s, 0, 3, 0. split.
  { eapply prun_reach; [constructor| |exact Hs]. intros t c Hin.
    assert (Hf : forallb (fun x => match x.2 with QLen => false | _ => true end) stop_start = true) by done.
    rewrite forallb_forall in Hf. apply elem_of_list_In in Hin. apply Hf in Hin. destruct c; done. }
  split; [done|]. vm_compute in Hs. injection Hs as <-.
  split; (eexists; split; [reflexivity|left]).
Qed.

(** One goroutine: Stop returns, then Len, after which the allocator can be taken. *)
Lemma pool_len_restarts :
  exists s s' s'', preach (one_admin 0) 1 1 s /\ idle s 0 /\ p_stopped s = true /\
    prun s (replicate 6 (0, QLen)) = Some s' /\ idle s' 0 /\ p_stopped s' = false /\
    prun s' (replicate 3 (0, QGet)) = Some s'' /\ holds s'' 0 0.
Proof.
  destruct (prun (pool0 1 1) (replicate 4 (0, QStop))) as [s|] eqn:Hs; [|vm_compute in Hs; done].
  exists s. vm_compute in Hs.
  assert (Hr : preach (one_admin 0) 1 1 s).
  { eapply (prun_reach _ _ _ (replicate 4 (0, QStop))); [constructor| |exact Hs]. intros t c Hin.
    apply elem_of_replicate in Hin as [Hin _]. injection Hin as -> ->. right. done. }
  injection Hs as <-.
  eexists. eexists. split; [exact Hr|]. split; [eexists; split; [reflexivity|done]|]. split; [done|].
  split; [vm_compute; reflexivity|]. split; [eexists; split; [reflexivity|done]|]. split; [done|].
  split; [vm_compute; reflexivity|]. eexists. split; [reflexivity|left].
Qed.

(** Stop returns at once when another Stop is still collecting: a client holds an allocator. *)
Lemma pool_stop_early :
  exists s s' t, preach (fun _ _ => True) 1 3 s /\ p_gors s !! t = Some (Gor (PStop false) [] []) /\
    pstep s t QStop = Some s' /\ idle s' t /\ p_stopped s' = true /\ holds s' 0 0.
Proof.
  destruct (prun (pool0 1 3) (replicate 3 (0, QGet) ++ replicate 2 (1, QStop) ++ [(2, QStop)])) as [s|] eqn:Hs; [|vm_compute in Hs; done].
  exists s. eexists. exists 2. split; [eapply prun_reach; [constructor| |exact Hs]; done|].
  vm_compute in Hs. injection Hs as <-. split; [done|]. split; [vm_compute; reflexivity|].
  split; [eexists; split; [reflexivity|done]|]. split; [done|]. eexists. split; [reflexivity|left].
Qed.

(** ** Cases that meet the hypotheses *)

Lemma pool_ex_clients :
  exists s, preach (fun _ c => client c) 2 3 s /\ holds s 0 0 /\ holds s 2 1 /\ exists g, p_gors s !! 1 = Some g /\ g_pc g = PCas 0 KClient.
Proof.
  pose (l := replicate 2 (1, QGet) ++ replicate 3 (0, QGet) ++ replicate 4 (2, QGet)).
  destruct (prun (pool0 2 3) l) as [s|] eqn:Hs; [|vm_compute in Hs; done].
  exists s. split.
  { eapply prun_reach; [constructor| |exact Hs]. intros t c Hin.
    assert (Hf : forallb (fun x => match x.2 with QGet => true | _ => false end) l = true) by done.
    rewrite forallb_forall in Hf. apply elem_of_list_In in Hin. apply Hf in Hin. destruct c; done. }
  vm_compute in Hs. injection Hs as <-. split; [eexists; split; [reflexivity|left]|]. split; [eexists; split; [reflexivity|left]|].
  eexists. split; [reflexivity|done].
Qed.

Lemma pool_ex_admin :
  exists s, preach (one_admin 1) 2 3 s /\ p_stopped s = true /\ collecting s 1 /\ holds s 0 0.
Proof.
  pose (l := replicate 3 (0, QGet) ++ replicate 5 (1, QLen)).
  destruct (prun (pool0 2 3) l) as [s|] eqn:Hs; [|vm_compute in Hs; done].
  exists s. split.
  { eapply prun_reach; [constructor| |exact Hs]. intros t c Hin.
    assert (Hf : forallb (fun x => match x with (_, QGet) => true | (1, _) => true | _ => false end) l = true) by done.
    rewrite forallb_forall in Hf. apply elem_of_list_In in Hin. apply Hf in Hin. destruct c; [left; done|..]; destruct t as [|[|]]; try done; right; done. }
  vm_compute in Hs. injection Hs as <-. split; [done|]. split.
  - eexists. eexists. eexists. eexists. split; [reflexivity|]. left. reflexivity.
  - eexists. split; [reflexivity|left].
Qed.

Lemma pool_ex_stopped :
  exists s, preach (one_admin 1) 2 3 s /\ p_stopped s = true /\ ~ collecting s 1 /\ idle s 1 /\ exists g, p_gors s !! 0 = Some g /\ g_pc g = PLoad 1 KClient.
Proof.
  pose (l := replicate 7 (1, QStop) ++ replicate 2 (0, QGet)).
  destruct (prun (pool0 2 3) l) as [s|] eqn:Hs; [|vm_compute in Hs; done].
  exists s. split.
  { eapply prun_reach; [constructor| |exact Hs]. intros t c Hin.
    assert (Hf : forallb (fun x => match x with (_, QGet) => true | (1, _) => true | _ => false end) l = true) by done.
    rewrite forallb_forall in Hf. apply elem_of_list_In in Hin. apply Hf in Hin. destruct c; [left; done|..]; destruct t as [|[|]]; try done; right; done. }
  vm_compute in Hs. injection Hs as <-. split; [done|]. split.
  - intros (g & i & k & len & Hg & Hpc). cbn in Hg. injection Hg as <-. cbn in Hpc. destruct Hpc; done.
  - split; [eexists; split; [reflexivity|done]|]. eexists. split; [reflexivity|done].
Qed.

Lemma pool_ex_len :
  exists s s', preach (one_admin 1) 2 3 s /\ in_start s 1 /\ pstep s 1 QLen = Some s' /\ idle s' 1.
Proof.
  pose (l := replicate 11 (1, QLen)).
  destruct (prun (pool0 2 3) l) as [s|] eqn:Hs; [|vm_compute in Hs; done].
  exists s. eexists. split.
  { eapply prun_reach; [constructor| |exact Hs]. intros t c Hin. apply elem_of_replicate in Hin as [Hin _]. injection Hin as -> ->. right. done. }
  vm_compute in Hs. injection Hs as <-. split; [eexists; split; [reflexivity|]; cbn; eauto|].
  split; [vm_compute; reflexivity|]. eexists. split; [reflexivity|done].
Qed.
