(** * LockModelFacts: proofs about the node locks. *)
From Verif Require Export LockModel.
From Verif Require Import WordsFacts.
Local Open Scope N_scope.

Definition pc_words (pc : lpc) : list N :=
  match pc with
  | LTry _ _ taken => taken
  | LBack rest => rest
  | LUnlock rest => rest
  | _ => []
  end.

Definition lown (g : lgor) : list N := pc_words (l_pc g) ++ flat_map uplan (l_held g).

Definition lbit (x : N) : N := if N.odd x then 1 else 0.

Record lok (l d : mem) (gs : list lgor) : Prop := {
  lok_nodup : forall t g, gs !! t = Some g -> NoDup (lown g);
  lok_excl : forall t t' g g' w, gs !! t = Some g -> gs !! t' = Some g' -> w ∈ lown g -> w ∈ lown g' -> t = t';
  lok_odd : forall w, N.odd (lget l w) = true <-> exists t g, gs !! t = Some g /\ w ∈ lown g;
  lok_ver : forall w, lget l w = i32 (2 * lget d w + lbit (lget l w)) }.

Lemma lok_same l d gs t g g' : lok l d gs -> gs !! t = Some g -> (lown g' ≡ₚ lown g) -> lok l d (<[t := g']> gs).
Proof.
  intros [H1 H2 H3 H4] Hg Hp. assert (Htl : (t < length gs)%nat) by (eapply lookup_lt_Some; eauto).
  assert (Hin : forall w, w ∈ lown g' <-> w ∈ lown g) by (intros w; rewrite Hp; done).
  assert (Hl : forall u h, <[t := g']> gs !! u = Some h -> exists h0, gs !! u = Some h0 /\ (forall i, i ∈ lown h -> i ∈ lown h0) /\ NoDup (lown h)).
  { intros u h Hu. destruct (decide (u = t)) as [->|Hut].
    - rewrite list_lookup_insert in Hu by done. injection Hu as <-. exists g. split; [done|]. split; [intros w; apply Hin|]. rewrite Hp. eauto.
    - rewrite list_lookup_insert_ne in Hu by done. eauto. }
  constructor; [|..|done].
  - intros u h Hu. destruct (Hl _ _ Hu) as (h0 & _ & _ & Hn). done.
  - intros u u' h h' w Hu Hu' Hi Hi'. destruct (Hl _ _ Hu) as (h0 & Hh0 & Hs & _). destruct (Hl _ _ Hu') as (h1 & Hh1 & Hs' & _).
    apply (H2 u u' h0 h1 w); auto.
  - intros w. rewrite H3. split; intros (u & h & Hu & Hi).
    + destruct (decide (u = t)) as [->|Hut].
      * exists t, g'. rewrite list_lookup_insert by done. split; [done|]. apply Hin. congruence.
      * exists u, h. rewrite list_lookup_insert_ne by done. done.
    + destruct (Hl _ _ Hu) as (h0 & Hh0 & Hs & _). eauto.
Qed.

Lemma i32_small x : x < 4294967296 -> i32 x = x.
Proof. intros H. unfold i32. apply N.mod_small. done. Qed.

Lemma i32_lt x : i32 x < 4294967296.
Proof. unfold i32. apply N.mod_lt. done. Qed.

Lemma i32_odd x : N.odd (i32 x) = N.odd x.
Proof.
  unfold i32. change 4294967296 with (2 ^ 32). rewrite <- !N.bit0_odd. apply N.mod_pow2_bits_low. done.
Qed.

Lemma lok_lt l d gs w : lok l d gs -> lget l w < 4294967296.
Proof. intros H. rewrite (lok_ver _ _ _ H). apply i32_lt. Qed.

Lemma lok_take l d gs t g g' w :
  lok l d gs -> gs !! t = Some g -> N.odd (lget l w) = false -> (lown g' ≡ₚ w :: lown g) ->
  lok (mset l w (gen_inc (lget l w))) d (<[t := g']> gs).
Proof.
  intros H Hg He Hp. pose proof (lok_lt _ _ _ w H) as Hlt. destruct H as [H1 H2 H3 H4].
  assert (Htl : (t < length gs)%nat) by (eapply lookup_lt_Some; eauto).
  assert (Hin : forall v, v ∈ lown g' <-> v = w \/ v ∈ lown g) by (intros v; rewrite Hp, elem_of_cons; done).
  assert (Hfree : forall u h, gs !! u = Some h -> w ∉ lown h).
  { intros u h Hu Hw. assert (N.odd (lget l w) = true) by (apply H3; eauto). congruence. }
  assert (Hodd : N.odd (gen_inc (lget l w)) = true).
  { unfold gen_inc. rewrite i32_odd, N.add_1_r, N.odd_succ, <- N.negb_odd, He. done. }
  constructor.
  - intros u h Hu. destruct (decide (u = t)) as [->|Hut].
    + rewrite list_lookup_insert in Hu by done. injection Hu as <-. rewrite Hp. constructor; eauto.
    + rewrite list_lookup_insert_ne in Hu by done. eauto.
  - intros u u' h h' v Hu Hu' Hi Hi'.
    destruct (decide (u = t)) as [->|Hut]; destruct (decide (u' = t)) as [->|Hut']; auto.
    + rewrite list_lookup_insert in Hu by done. rewrite list_lookup_insert_ne in Hu' by done. injection Hu as <-.
      apply Hin in Hi as [->|Hi]; [exfalso; eapply Hfree; eauto|eauto].
    + rewrite list_lookup_insert in Hu' by done. rewrite list_lookup_insert_ne in Hu by done. injection Hu' as <-.
      apply Hin in Hi' as [->|Hi']; [exfalso; eapply Hfree; eauto|eauto].
    + rewrite list_lookup_insert_ne in Hu by done. rewrite list_lookup_insert_ne in Hu' by done. eauto.
  - intros v. rewrite lget_mset. destruct (decide (w = v)) as [<-|Hne].
    + split; [|done]. intros _. exists t, g'. rewrite list_lookup_insert by done. split; [done|]. apply Hin. auto.
    + rewrite H3. split; intros (u & h & Hu & Hi).
      * destruct (decide (u = t)) as [->|Hut].
        -- exists t, g'. rewrite list_lookup_insert by done. split; [done|]. apply Hin. right. congruence.
        -- exists u, h. rewrite list_lookup_insert_ne by done. done.
      * destruct (decide (u = t)) as [->|Hut].
        -- rewrite list_lookup_insert in Hu by done. injection Hu as <-. apply Hin in Hi as [->|Hi]; [done|]. eauto.
        -- rewrite list_lookup_insert_ne in Hu by done. eauto.
  - intros v. rewrite lget_mset. destruct (decide (w = v)) as [<-|Hne]; [|apply H4].
    unfold lbit. rewrite Hodd. specialize (H4 w). unfold lbit in H4. rewrite He, N.add_0_r in H4.
    rewrite H4 at 1. unfold gen_inc, i32. rewrite N.add_mod_idemp_l by done. done.
Qed.

Lemma lok_give l d gs t g g' w x d' :
  lok l d gs -> gs !! t = Some g -> (w :: lown g' ≡ₚ lown g) -> N.odd x = false ->
  (forall v, v <> w -> lget d' v = lget d v) -> x = i32 (2 * lget d' w) ->
  lok (mset l w x) d' (<[t := g']> gs).
Proof.
  intros [H1 H2 H3 H4] Hg Hp Hx Hd Hxd.
  assert (Htl : (t < length gs)%nat) by (eapply lookup_lt_Some; eauto).
  assert (Hnd : NoDup (w :: lown g')) by (rewrite Hp; eauto).
  apply NoDup_cons in Hnd as [Hw Hnd].
  assert (Hin : forall v, v ∈ lown g <-> v = w \/ v ∈ lown g') by (intros v; rewrite <- Hp, elem_of_cons; done).
  assert (Hout : forall u h, u <> t -> gs !! u = Some h -> w ∉ lown h).
  { intros u h Hu Hh Hwh. apply Hu. apply (H2 u t h g w Hh Hg Hwh). apply Hin. auto. }
  constructor.
  - intros u h Hu. destruct (decide (u = t)) as [->|Hut].
    + rewrite list_lookup_insert in Hu by done. injection Hu as <-. done.
    + rewrite list_lookup_insert_ne in Hu by done. eauto.
  - intros u u' h h' v Hu Hu' Hi Hi'.
    destruct (decide (u = t)) as [->|Hut]; destruct (decide (u' = t)) as [->|Hut']; auto.
    + rewrite list_lookup_insert in Hu by done. rewrite list_lookup_insert_ne in Hu' by done. injection Hu as <-.
      eapply H2; [exact Hg|exact Hu'| |exact Hi']. apply Hin. auto.
    + rewrite list_lookup_insert in Hu' by done. rewrite list_lookup_insert_ne in Hu by done. injection Hu' as <-.
      eapply H2; [exact Hu|exact Hg|exact Hi|]. apply Hin. auto.
    + rewrite list_lookup_insert_ne in Hu by done. rewrite list_lookup_insert_ne in Hu' by done. eauto.
  - intros v. rewrite lget_mset. destruct (decide (w = v)) as [<-|Hne].
    + rewrite Hx. split; [done|]. intros (u & h & Hu & Hi). exfalso. destruct (decide (u = t)) as [->|Hut].
      * rewrite list_lookup_insert in Hu by done. injection Hu as <-. done.
      * rewrite list_lookup_insert_ne in Hu by done. eapply Hout; eauto.
    + rewrite H3. split; intros (u & h & Hu & Hi).
      * destruct (decide (u = t)) as [->|Hut].
        -- exists t, g'. rewrite list_lookup_insert by done. split; [done|].
           assert (Hv : v ∈ lown g) by congruence. apply Hin in Hv as [->|Hv]; done.
        -- exists u, h. rewrite list_lookup_insert_ne by done. done.
      * destruct (decide (u = t)) as [->|Hut].
        -- rewrite list_lookup_insert in Hu by done. injection Hu as <-. exists t, g. split; [done|]. apply Hin. auto.
        -- rewrite list_lookup_insert_ne in Hu by done. eauto.
  - intros v. rewrite lget_mset. destruct (decide (w = v)) as [<-|Hne].
    + unfold lbit. rewrite Hx, N.add_0_r. done.
    + rewrite Hd by done. apply H4.
Qed.

(** ** Plans *)

Ltac ids := repeat match goal with |- context[(?a =? ?b)%N] => destruct (N.eqb_spec a b) end; cbn.

Lemma lplan_nodup r : NoDup (map fst (lplan r)).
Proof.
  unfold lplan. destruct (lnorm r) as [n ng|n ng p pg|c cg n ng p pg]; cbn; ids;
    repeat constructor; rewrite ?elem_of_cons, ?elem_of_nil; try tauto; intuition congruence.
Qed.

Lemma uplan_nodup r : NoDup (uplan r).
Proof.
  unfold uplan. destruct (lnorm r) as [n ng|n ng p pg|c cg n ng p pg]; cbn; ids;
    repeat constructor; rewrite ?elem_of_cons, ?elem_of_nil; try tauto; intuition congruence.
Qed.

Lemma uplan_words r w : w ∈ uplan r <-> w ∈ lwords r.
Proof.
  unfold uplan, lwords. destruct (lnorm r) as [n ng|n ng p pg|c cg n ng p pg]; cbn; ids;
    rewrite ?elem_of_cons, ?elem_of_nil; intuition congruence.
Qed.

Lemma lplan_words r w : w ∈ map fst (lplan r) <-> w ∈ lwords r.
Proof.
  unfold lplan, lwords. destruct (lnorm r) as [n ng|n ng p pg|c cg n ng p pg]; cbn; ids;
    rewrite ?elem_of_cons, ?elem_of_nil; intuition congruence.
Qed.

Lemma plan_perm r : map fst (lplan r) ≡ₚ uplan r.
Proof.
  apply NoDup_Permutation; [apply lplan_nodup|apply uplan_nodup|]. intros w. rewrite lplan_words, uplan_words. done.
Qed.

Lemma lplan_even r w e : lodd r = false -> (w, e) ∈ lplan r -> gen_odd e = false.
Proof.
  unfold lodd, lplan. destruct (lnorm r) as [n ng|n ng p pg|c cg n ng p pg]; cbn; ids;
    rewrite ?elem_of_cons, ?elem_of_nil, ?orb_false_iff; intuition congruence.
Qed.

Definition pc_ok (pc : lpc) : Prop :=
  match pc with
  | LTry r todo taken => lodd r = false /\ exists dn, lplan r = dn ++ todo /\ map fst dn = taken
  | LPanic => False
  | _ => True
  end.

Definition linv (s : lsys) : Prop :=
  lok (lk_mem s) (lk_done s) (lk_gors s) /\ forall t g, lk_gors s !! t = Some g -> pc_ok (l_pc g).

Lemma pcs_insert (gs : list lgor) (t : nat) (g' : lgor) :
  (forall u h, gs !! u = Some h -> pc_ok (l_pc h)) -> pc_ok (l_pc g') -> forall u h, <[t := g']> gs !! u = Some h -> pc_ok (l_pc h).
Proof.
  intros H Hg u h Hu. apply list_lookup_insert_Some in Hu as [(-> & <- & _)|(_ & Hu)]; eauto.
Qed.

Lemma linv_step s t c s' : linv s -> lstep s t c = Some s' -> linv s'.
Proof.
  intros [Hok Hpc] Hs. unfold lstep in Hs. destruct (lk_gors s !! t) as [[pc held]|] eqn:Hg; [|done].
  pose proof (Hpc t _ Hg) as Hp. cbn [l_pc l_held] in *.
  assert (Hsame : forall pc' held', (lown (LGor pc' held') ≡ₚ lown (LGor pc held)) -> pc_ok pc' ->
    linv (lput s t (lk_mem s) (lk_done s) (LGor pc' held'))).
  { intros pc' held' Hperm Hok'. split; cbn; [eapply lok_same; eauto|]. apply pcs_insert; auto. }
  destruct pc as [|r todo taken|rest|rest|].
  - destruct c as [r|i].
    + injection Hs as <-. apply Hsame; [destruct (lodd r); done|]. destruct (lodd r) eqn:Ho; [done|]. split; [done|]. exists []. done.
    + destruct (held !! i) as [r|] eqn:Hr; [|done]. injection Hs as <-. apply Hsame; [|done].
      unfold lown; cbn. rewrite <- (take_drop_middle held i r Hr) at 2. rewrite delete_take_drop.
      rewrite !flat_map_app. cbn. rewrite (Permutation_app_comm (flat_map uplan (take i held)) (uplan r ++ _)), <- app_assoc.
      f_equiv. apply Permutation_app_comm.
  - destruct todo as [|[w e] todo].
    + injection Hs as <-. apply Hsame; [|done]. destruct Hp as (_ & dn & Hpl & Ht). rewrite app_nil_r in Hpl. subst dn.
      unfold lown; cbn. rewrite <- Ht, plan_perm. done.
    + destruct Hp as (Hev & dn & Hpl & Ht).
      destruct (N.eqb_spec (lget (lk_mem s) w) e) as [He|He]; injection Hs as <-.
      * assert (He0 : gen_odd e = false). { eapply lplan_even; [exact Hev|]. rewrite Hpl. apply elem_of_app. right. left. }
        split; cbn.
        -- rewrite <- He. eapply lok_take; eauto; [rewrite He; exact He0|]. unfold lown; cbn.
           rewrite (Permutation_app_comm taken [w]). cbn. done.
        -- apply pcs_insert; [done|]. cbn. split; [done|]. exists (dn ++ [(w, e)]). rewrite <- app_assoc. split; [done|].
           rewrite map_app, Ht. done.
      * apply Hsame; [done|done].
  - destruct rest as [|w rest]; injection Hs as <-; [apply Hsame; done|]. split; cbn; [|apply pcs_insert; done].
    assert (Ho : N.odd (lget (lk_mem s) w) = true). { apply (lok_odd _ _ _ Hok). exists t, (LGor (LBack (w :: rest)) held). split; [done|]. left. }
    pose proof (lok_ver _ _ _ Hok w) as Hv. unfold lbit in Hv. rewrite Ho in Hv.
    assert (Hx : gen_dec (lget (lk_mem s) w) = i32 (2 * lget (lk_done s) w)).
    { rewrite Hv at 1. unfold gen_dec, i32. rewrite N.add_mod_idemp_l by done.
      replace (2 * lget (lk_done s) w + 1 + 4294967295) with (2 * lget (lk_done s) w + 1 * 4294967296) by lia. apply N.mod_add. done. }
    eapply lok_give; eauto. rewrite Hx, i32_odd, N.odd_mul. done.
  - destruct rest as [|w rest]; injection Hs as <-; [apply Hsame; done|].
    assert (Ho : N.odd (lget (lk_mem s) w) = true). { apply (lok_odd _ _ _ Hok). exists t, (LGor (LUnlock (w :: rest)) held). split; [done|]. left. }
    pose proof (lok_ver _ _ _ Hok w) as Hv. unfold lbit in Hv. rewrite Ho in Hv.
    assert (Hx : gen_inc (lget (lk_mem s) w) = i32 (2 * (lget (lk_done s) w + 1))).
    { rewrite Hv at 1. unfold gen_inc, i32. rewrite N.add_mod_idemp_l by done. f_equal. lia. }
    assert (He : N.odd (gen_inc (lget (lk_mem s) w)) = false) by (rewrite Hx, i32_odd, N.odd_mul; done).
    unfold gen_odd. rewrite He. split; cbn; [|apply pcs_insert; done].
    eapply lok_give; [exact Hok|exact Hg|done|exact He|..].
    + intros v Hne. apply lget_mset_ne. congruence.
    + rewrite lget_mset_eq. exact Hx.
  - done.
Qed.

Lemma linv_init m : linv (lsys0 m).
Proof.
  split; cbn.
  - assert (Hr : forall t g, replicate m (LGor LIdle []) !! t = Some g -> lown g = []).
    { intros t g Hg. apply lookup_replicate in Hg as [-> _]. done. }
    constructor.
    + intros t g Hg. rewrite (Hr t g Hg). constructor.
    + intros t t' g g' w Hg _ Hw. rewrite (Hr t g Hg) in Hw. inversion Hw.
    + intros w. rewrite lget_mempty. split; [done|]. intros (t & g & Hg & Hw). rewrite (Hr t g Hg) in Hw. inversion Hw.
    + intros w. rewrite !lget_mempty. done.
  - intros t g Hg. apply lookup_replicate in Hg as [-> _]. done.
Qed.

Lemma linv_steps s s' : linv s -> lsteps s s' -> linv s'.
Proof. intros Hi Hs. induction Hs as [|s s1 t c s2 Hs IH Hst]; [done|]. eapply linv_step; [apply IH, Hi|exact Hst]. Qed.

Lemma linv_reach m s : lreach m s -> linv s.
Proof. intros H. eapply linv_steps; [apply linv_init|exact H]. Qed.

(** ** Consequences *)

Lemma held_own g r w : r ∈ l_held g -> w ∈ lwords r -> w ∈ lown g.
Proof.
  intros Hr Hw. unfold lown. apply elem_of_app. right. apply elem_of_list_In, in_flat_map.
  exists r. split; apply elem_of_list_In; [done|]. apply uplan_words. done.
Qed.

Lemma locks_exclusive m s t t' w : lreach m s -> lholds s t w -> lholds s t' w -> t = t'.
Proof.
  intros Hr (g & r & Hg & Hrg & Hw) (g' & r' & Hg' & Hrg' & Hw'). destruct (linv_reach _ _ Hr) as [Hok _].
  eapply (lok_excl _ _ _ Hok); [exact Hg|exact Hg'|eapply held_own; eauto|eapply held_own; eauto].
Qed.

Lemma flat_map_nodup_once {A} (f : A -> list N) l i j x y w :
  NoDup (flat_map f l) -> l !! i = Some x -> l !! j = Some y -> w ∈ f x -> w ∈ f y -> i = j.
Proof.
  revert i j. induction l as [|z l IH]; intros i j Hn Hi Hj Hx Hy; [done|]. cbn in Hn. apply NoDup_app in Hn as (_ & Hd & Hn).
  assert (Hin : forall k u, l !! k = Some u -> w ∈ f u -> w ∈ flat_map f l).
  { intros k u Hk Hu. apply elem_of_list_In, in_flat_map. exists u. split; apply elem_of_list_In; [eapply elem_of_list_lookup_2; eauto|done]. }
  destruct i as [|i], j as [|j]; cbn in Hi, Hj; [done|..].
  - injection Hi as ->. exfalso. eapply Hd; eauto.
  - injection Hj as ->. exfalso. eapply Hd; eauto.
  - f_equal. eauto.
Qed.

Lemma locks_once m s t g i j r r' w :
  lreach m s -> lk_gors s !! t = Some g -> l_held g !! i = Some r -> l_held g !! j = Some r' -> w ∈ lwords r -> w ∈ lwords r' -> i = j.
Proof.
  intros Hr Hg Hi Hj Hw Hw'. destruct (linv_reach _ _ Hr) as [Hok _]. pose proof (lok_nodup _ _ _ Hok t g Hg) as Hn.
  apply NoDup_app in Hn as (_ & _ & Hn). eapply (flat_map_nodup_once uplan); eauto; apply uplan_words; done.
Qed.

Lemma locks_no_panic m s t g : lreach m s -> lk_gors s !! t = Some g -> l_pc g <> LPanic.
Proof. intros Hr Hg He. destruct (linv_reach _ _ Hr) as [_ Hp]. specialize (Hp t g Hg). rewrite He in Hp. done. Qed.

(** No lock or unlock call is in progress. *)
Definition quiet (s : lsys) : Prop := forall t g, lk_gors s !! t = Some g -> l_pc g = LIdle.

Lemma locks_quiet m s w : lreach m s -> quiet s -> (gen_odd (lget (lk_mem s) w) = true <-> exists t, lholds s t w).
Proof.
  intros Hr Hq. destruct (linv_reach _ _ Hr) as [Hok _]. unfold gen_odd. rewrite (lok_odd _ _ _ Hok w). split.
  - intros (t & g & Hg & Hw). exists t. unfold lown in Hw. rewrite (Hq t g Hg) in Hw. cbn in Hw.
    apply elem_of_list_In, in_flat_map in Hw as (r & Hin & Hw). exists g, r. split; [done|].
    split; [apply elem_of_list_In; done|]. apply uplan_words, elem_of_list_In. done.
  - intros (t & g & r & Hg & Hin & Hw). exists t, g. split; [done|]. eapply held_own; eauto.
Qed.

(** What a held lock word looks like, whatever the other goroutines are doing. *)
Lemma locks_held_odd m s t w : lreach m s -> lholds s t w -> gen_odd (lget (lk_mem s) w) = true.
Proof.
  intros Hr (g & r & Hg & Hin & Hw). destruct (linv_reach _ _ Hr) as [Hok _]. apply (lok_odd _ _ _ Hok).
  exists t, g. split; [done|]. eapply held_own; eauto.
Qed.

Lemma done_mono_step s t c s' w : lstep s t c = Some s' -> lget (lk_done s) w <= lget (lk_done s') w.
Proof.
  intros Hs. unfold lstep in Hs. destruct (lk_gors s !! t) as [[pc held]|]; [|done]. cbn in Hs.
  destruct pc as [|r [|[v e] todo] taken|[|v rest]|[|v rest]|]; try (injection Hs as <-; cbn [lk_done lput]; lia); try done.
  - destruct c as [r|i]; [injection Hs as <-; cbn [lk_done lput]; lia|]. destruct (held !! i); [|done]. injection Hs as <-; cbn [lk_done lput]; lia.
  - destruct (lget (lk_mem s) v =? e); injection Hs as <-; cbn [lk_done lput]; lia.
  - injection Hs as <-. cbn [lk_done lput]. rewrite lget_mset. destruct (decide (v = w)) as [->|]; lia.
Qed.

Lemma done_mono s s' w : lsteps s s' -> lget (lk_done s) w <= lget (lk_done s') w.
Proof. induction 1 as [|s s1 t c s2 Hs IH Hst]; [lia|]. pose proof (done_mono_step _ _ _ _ w Hst). lia. Qed.

(** Equal even generations: the number of unlocks in between is a multiple of 2^31. *)
Lemma same_generation m s s' w e :
  lreach m s -> lsteps s s' -> lget (lk_mem s) w = e -> lget (lk_mem s') w = e -> gen_odd e = false ->
  exists k, lget (lk_done s') w = lget (lk_done s) w + k * 2147483648.
Proof.
  intros Hr Hs He He' Hodd. destruct (linv_reach _ _ Hr) as [Hok Hpc]. destruct (linv_steps _ _ (conj Hok Hpc) Hs) as [Hok' _].
  pose proof (done_mono _ _ w Hs) as Hm. unfold gen_odd in Hodd.
  pose proof (lok_ver _ _ _ Hok w) as H1. pose proof (lok_ver _ _ _ Hok' w) as H2. unfold lbit in *.
  rewrite He, Hodd, N.add_0_r in H1. rewrite He', Hodd, N.add_0_r in H2. unfold i32 in *.
  set (a := lget (lk_done s) w) in *. set (b := lget (lk_done s') w) in *.
  exists ((2 * b) / 4294967296 - (2 * a) / 4294967296).
  pose proof (N.div_mod' (2 * a) 4294967296) as Da. pose proof (N.div_mod' (2 * b) 4294967296) as Db.
  assert ((2 * a) / 4294967296 <= (2 * b) / 4294967296) by (apply N.div_le_mono; lia).
  rewrite <- H1 in Da. rewrite <- H2 in Db.
  generalize dependent ((2 * a) / 4294967296). generalize dependent ((2 * b) / 4294967296). clear. intros. lia.
Qed.

Lemma lsteps_trans a b c : lsteps a b -> lsteps b c -> lsteps a c.
Proof. intros H1 H2. revert H1. induction H2 as [|b s1 t c0 s2 _ IH Hst]; intros H1; [done|]. exact (ls_step _ _ _ _ _ (IH H1) Hst). Qed.

(** ** Held words keep the value that the compare-and-swap stored *)

Definition gval (l : mem) (g : lgor) : Prop :=
  (forall r w e, r ∈ l_held g -> (w, e) ∈ lplan r -> lget l w = gen_inc e) /\
  match l_pc g with
  | LTry r todo taken => forall dn, lplan r = dn ++ todo -> forall w e, (w, e) ∈ dn -> lget l w = gen_inc e
  | _ => True
  end.

Definition lval (s : lsys) : Prop := forall t g, lk_gors s !! t = Some g -> gval (lk_mem s) g.

Lemma gval_agree l l' g : pc_ok (l_pc g) -> (forall w, w ∈ lown g -> lget l' w = lget l w) -> gval l g -> gval l' g.
Proof.
  intros Hp Ha [H1 H2]. split.
  - intros r w e Hr Hw. rewrite Ha; [eauto|]. eapply held_own; [exact Hr|]. apply lplan_words, elem_of_list_In, in_map_iff.
    exists (w, e). split; [done|]. apply elem_of_list_In. done.
  - destruct g as [pc held]. cbn in *. destruct pc as [|r todo taken|rest|rest|]; try done. intros dn Hd w e Hw. rewrite Ha; [eauto|].
    destruct Hp as (_ & dn' & Hd' & Ht). assert (dn = dn') as -> by (rewrite Hd in Hd'; eapply app_inv_tail; eauto).
    unfold lown; cbn. apply elem_of_app. left. rewrite <- Ht. apply elem_of_list_In, in_map_iff.
    exists (w, e). split; [done|]. apply elem_of_list_In. done.
Qed.

Lemma lval_others s t g l' d' g' :
  linv s -> lval s -> lk_gors s !! t = Some g -> gval l' g' ->
  (forall w, lget l' w <> lget (lk_mem s) w -> w ∈ lown g \/ N.odd (lget (lk_mem s) w) = false) ->
  lval (lput s t l' d' g').
Proof.
  intros [Hok Hpc] Hv Hg Hg' Hch u h Hu. cbn in *. apply list_lookup_insert_Some in Hu as [(-> & <- & _)|(Hne & Hu)]; [done|].
  eapply gval_agree; [eauto| |eauto]. intros w Hw. destruct (N.eq_dec (lget l' w) (lget (lk_mem s) w)) as [|Hx]; [done|]. exfalso.
  destruct (Hch w Hx) as [Hin|Hev].
  - apply Hne. eapply (lok_excl _ _ _ Hok); eauto.
  - assert (N.odd (lget (lk_mem s) w) = true) by (apply (lok_odd _ _ _ Hok); eauto). congruence.
Qed.

Lemma lval_step s t c s' : linv s -> lval s -> lstep s t c = Some s' -> lval s'.
Proof.
  intros Hi Hv Hs. pose proof Hi as [Hok Hpc]. unfold lstep in Hs. destruct (lk_gors s !! t) as [[pc held]|] eqn:Hg; [|done].
  pose proof (Hpc t _ Hg) as Hp. pose proof (Hv t _ Hg) as [Hv1 Hv2]. cbn [l_pc l_held] in *.
  pose proof (lok_nodup _ _ _ Hok t _ Hg) as Hnd.
  assert (Hsame : forall g', gval (lk_mem s) g' -> lval (lput s t (lk_mem s) (lk_done s) g')).
  { intros g' Hg'. eapply lval_others; eauto. intros w Hw. done. }
  assert (Hheld : forall w, w ∈ pc_words pc -> forall r v e, r ∈ held -> (v, e) ∈ lplan r -> w <> v).
  { intros w Hw r v e Hr Hin ->. unfold lown in Hnd; cbn in Hnd. apply NoDup_app in Hnd as (_ & Hd & _). eapply Hd; [exact Hw|].
    apply elem_of_list_In, in_flat_map. exists r. split; apply elem_of_list_In; [done|]. apply uplan_words, lplan_words.
    apply elem_of_list_In, in_map_iff. exists (v, e). split; [done|]. apply elem_of_list_In. done. }
  destruct pc as [|r todo taken|rest|rest|].
  - destruct c as [r|i].
    + injection Hs as <-. apply Hsame. split; [done|]. cbn [l_pc]. destruct (lodd r); [done|]. intros dn Hd w e Hw.
      assert (length (lplan r) = length (dn ++ lplan r)) as Hl by (rewrite <- Hd; done). rewrite app_length in Hl.
      destruct dn; [inversion Hw|cbn in Hl; lia].
    + destruct (held !! i) as [r|] eqn:Hr; [|done]. injection Hs as <-. apply Hsame. split; [|done]. cbn [l_held].
      intros q w e Hq. apply Hv1. rewrite delete_take_drop in Hq. apply elem_of_app in Hq as [Hq|Hq].
      * apply elem_of_list_In in Hq. apply elem_of_list_In. rewrite <- (take_drop i held). apply in_app_iff. auto.
      * apply elem_of_list_In in Hq. apply elem_of_list_In. rewrite <- (take_drop (S i) held). apply in_app_iff. auto.
  - destruct todo as [|[w e] todo].
    + injection Hs as <-. apply Hsame. split; [|done]. cbn [l_held]. intros q v x Hq Hin. apply elem_of_cons in Hq as [->|Hq]; [|eauto].
      eapply (Hv2 (lplan r)); [rewrite app_nil_r; done|exact Hin].
    + destruct (N.eqb_spec (lget (lk_mem s) w) e) as [He|He]; injection Hs as <-.
      * destruct Hp as (Hev & dn & Hpl & Ht).
        assert (He0 : gen_odd e = false). { eapply lplan_even; [exact Hev|]. rewrite Hpl. apply elem_of_app. right. left. }
        assert (Hfree : forall v, v ∈ lown (LGor (LTry r ((w, e) :: todo) taken) held) -> w <> v).
        { intros v Hin <-. assert (N.odd (lget (lk_mem s) w) = true) by (apply (lok_odd _ _ _ Hok); eauto). unfold gen_odd in He0. congruence. }
        eapply lval_others; [done|done|exact Hg| |].
        -- split; cbn [l_held l_pc].
           ++ intros q v x Hq Hin. rewrite lget_mset_ne; [eauto|]. apply Hfree. eapply held_own; [exact Hq|].
              apply lplan_words, elem_of_list_In, in_map_iff. exists (v, x). split; [done|]. apply elem_of_list_In. done.
           ++ intros dn' Hd' v x Hin. assert (dn' = dn ++ [(w, e)]) as ->.
              { rewrite Hpl in Hd'. replace (dn ++ (w, e) :: todo) with ((dn ++ [(w, e)]) ++ todo) in Hd' by (rewrite <- app_assoc; done).
                symmetry. eapply app_inv_tail; eauto. }
              apply elem_of_app in Hin as [Hin|Hin].
              ** rewrite lget_mset_ne; [eapply Hv2; eauto|]. apply Hfree. unfold lown; cbn. apply elem_of_app. left. rewrite <- Ht.
                 apply elem_of_list_In, in_map_iff. exists (v, x). split; [done|]. apply elem_of_list_In. done.
              ** apply elem_of_list_singleton in Hin. injection Hin as -> ->. apply lget_mset_eq.
        -- intros v Hx. rewrite lget_mset in Hx. destruct (decide (w = v)) as [<-|]; [|done]. right. rewrite He. exact He0.
      * apply Hsame. split; done.
  - destruct rest as [|w rest]; injection Hs as <-; [apply Hsame; split; done|].
    eapply lval_others; [done|done|exact Hg| |].
    + split; [|done]. cbn [l_held]. intros q v x Hq Hin. rewrite lget_mset_ne; [eauto|]. eapply Hheld; eauto. left.
    + intros v Hx. rewrite lget_mset in Hx. destruct (decide (w = v)) as [<-|]; [|done]. left. left.
  - destruct rest as [|w rest]; injection Hs as <-; [apply Hsame; split; done|].
    eapply lval_others; [done|done|exact Hg| |].
    + split; [|cbn; destruct (gen_odd _); done]. cbn [l_held]. intros q v x Hq Hin. rewrite lget_mset_ne; [eauto|]. eapply Hheld; eauto. left.
    + intros v Hx. rewrite lget_mset in Hx. destruct (decide (w = v)) as [<-|]; [|done]. left. left.
  - done.
Qed.

Lemma lval_reach m s : lreach m s -> lval s.
Proof.
  intros Hr. unfold lreach in Hr. remember (lsys0 m) as s0. induction Hr as [|s s1 t c s2 Hs IH Hst]; subst.
  - intros t g Hg. cbn in Hg. apply lookup_replicate in Hg as [-> _]. split; [|done]. intros r w e Hr. inversion Hr.
  - eapply lval_step; [|apply IH; done|exact Hst]. eapply linv_reach. exact Hs.
Qed.

(** A lock call that returned true, and whose locks are still held, saw each word at the
    generation it was given. *)
Lemma locked_plan m s s' t g r w e :
  lreach m s -> lsteps s s' -> lget (lk_mem s) w = e -> lk_gors s' !! t = Some g -> r ∈ l_held g -> (w, e) ∈ lplan r -> lodd r = false ->
  exists k, lget (lk_done s') w = lget (lk_done s) w + k * 2147483648.
Proof.
  intros Hr Hs He Hg Hin Hpl Hlo.
  assert (Hr' : lreach m s') by (eapply lsteps_trans; eauto).
  destruct (lval_reach _ _ Hr' t g Hg) as [Hv _]. specialize (Hv r w e Hin Hpl).
  pose proof (lplan_even _ _ _ Hlo Hpl) as Hev.
  destruct (linv_reach _ _ Hr) as [Hok _]. destruct (linv_reach _ _ Hr') as [Hok' _].
  pose proof (done_mono _ _ w Hs) as Hm. unfold gen_odd in Hev.
  assert (Hodd : N.odd (gen_inc e) = true). { unfold gen_inc. rewrite i32_odd, N.add_1_r, N.odd_succ, <- N.negb_odd, Hev. done. }
  pose proof (lok_ver _ _ _ Hok w) as H1. pose proof (lok_ver _ _ _ Hok' w) as H2. unfold lbit in *.
  rewrite He, Hev, N.add_0_r in H1. rewrite Hv, Hodd in H2. unfold gen_inc, i32 in *.
  set (a := lget (lk_done s) w) in *. set (b := lget (lk_done s') w) in *.
  exists ((2 * b + 1) / 4294967296 - (2 * a) / 4294967296).
  assert (He32 : e < 4294967296) by (rewrite <- He; eapply lok_lt; eauto).
  rewrite (N.mod_small (e + 1)) in H2.
  2:{ destruct (N.eq_dec e 4294967295) as [->|]; [vm_compute in Hev; done|lia]. }
  pose proof (N.div_mod' (2 * a) 4294967296) as Da. pose proof (N.div_mod' (2 * b + 1) 4294967296) as Db.
  assert ((2 * a) / 4294967296 <= (2 * b + 1) / 4294967296) by (apply N.div_le_mono; lia).
  rewrite <- H1 in Da. rewrite <- H2 in Db.
  generalize dependent ((2 * a) / 4294967296). generalize dependent ((2 * b + 1) / 4294967296). clear. intros. lia.
Qed.

(** Only requests with even generations are ever held. *)
Lemma held_even_step s t c s' :
  linv s -> (forall u h r, lk_gors s !! u = Some h -> r ∈ l_held h -> lodd r = false) -> lstep s t c = Some s' ->
  forall u h r, lk_gors s' !! u = Some h -> r ∈ l_held h -> lodd r = false.
Proof.
  intros [Hok Hpc] Hev Hs u h r Hu Hr. unfold lstep in Hs. destruct (lk_gors s !! t) as [[pc held]|] eqn:Hg; [|done].
  pose proof (Hpc t _ Hg) as Hp. cbn [l_pc l_held] in *.
  assert (Hgen : forall l d pc' held', s' = lput s t l d (LGor pc' held') -> (forall q, q ∈ held' -> lodd q = false) -> lodd r = false).
  { intros l d pc' held' -> Hh. cbn in Hu. apply list_lookup_insert_Some in Hu as [(-> & <- & _)|(Hne & Hu)]; eauto. }
  assert (Hheld : forall q, q ∈ held -> lodd q = false) by (intros q; apply (Hev t _ q Hg)).
  destruct pc as [|q [|[v e] todo] taken|[|v rest]|[|v rest]|]; try (injection Hs as <-; eapply Hgen; [reflexivity|]; done); try done.
  - destruct c as [q|i]; [injection Hs as <-; eapply Hgen; [reflexivity|]; done|]. destruct (held !! i) as [q|] eqn:Hi; [|done].
    injection Hs as <-. eapply Hgen; [reflexivity|]. intros q' Hq'. apply Hheld. rewrite delete_take_drop in Hq'.
    apply elem_of_app in Hq' as [Hq'|Hq']; apply elem_of_list_In in Hq'; apply elem_of_list_In.
    + rewrite <- (take_drop i held). apply in_app_iff. auto.
    + rewrite <- (take_drop (S i) held). apply in_app_iff. auto.
  - injection Hs as <-. eapply Hgen; [reflexivity|]. intros q' Hq'. apply elem_of_cons in Hq' as [->|Hq']; [apply Hp|auto].
  - destruct (lget (lk_mem s) v =? e); injection Hs as <-; (eapply Hgen; [reflexivity|]; done).
Qed.

Lemma held_even m s t g r : lreach m s -> lk_gors s !! t = Some g -> r ∈ l_held g -> lodd r = false.
Proof.
  intros Hr. revert t g r. unfold lreach in Hr. remember (lsys0 m) as s0. induction Hr as [|s s1 t c s2 Hs IH Hst]; subst.
  - intros t g r Hg Hr. cbn in Hg. apply lookup_replicate in Hg as [-> _]. inversion Hr.
  - eapply held_even_step; [eapply linv_reach; exact Hs|exact (IH eq_refl)|exact Hst].
Qed.

Lemma lockNodes2_node m s s' t g n ng p pg :
  lreach m s -> lsteps s s' -> lget (lk_mem s) (lock_id n) = ng -> lk_gors s' !! t = Some g -> L2 n ng p pg ∈ l_held g ->
  exists k, lget (lk_done s') (lock_id n) = lget (lk_done s) (lock_id n) + k * 2147483648.
Proof.
  intros Hr Hs He Hg Hin.
  assert (Hr' : lreach m s') by (eapply lsteps_trans; eauto).
  eapply locked_plan; [exact Hr|exact Hs|exact He|exact Hg|exact Hin| |eapply held_even; eauto].
  unfold lplan; cbn. destruct (p =? 0); left.
Qed.

Lemma lockNodes2_parent m s s' t g n ng p pg :
  lreach m s -> lsteps s s' -> p <> 0 -> lock_id p <> lock_id n -> lget (lk_mem s) (lock_id p) = pg ->
  lk_gors s' !! t = Some g -> L2 n ng p pg ∈ l_held g ->
  exists k, lget (lk_done s') (lock_id p) = lget (lk_done s) (lock_id p) + k * 2147483648.
Proof.
  intros Hr Hs Hp Hne He Hg Hin.
  assert (Hr' : lreach m s') by (eapply lsteps_trans; eauto).
  eapply locked_plan; [exact Hr|exact Hs|exact He|exact Hg|exact Hin| |eapply held_even; eauto].
  unfold lplan; cbn [lnorm]. destruct (N.eqb_spec p 0); [done|]. destruct (N.eqb_spec (lock_id p) (lock_id n)); [done|]. right. left.
Qed.

Lemma lockNodes3_all m s s' t g c cg n ng p pg x xg :
  lreach m s -> lsteps s s' -> p <> 0 -> NoDup [lock_id c; lock_id n; lock_id p] ->
  (x, xg) ∈ [(c, cg); (n, ng); (p, pg)] -> lget (lk_mem s) (lock_id x) = xg ->
  lk_gors s' !! t = Some g -> L3 c cg n ng p pg ∈ l_held g ->
  exists k, lget (lk_done s') (lock_id x) = lget (lk_done s) (lock_id x) + k * 2147483648.
Proof.
  intros Hr Hs Hp Hnd Hx He Hg Hin.
  assert (Hr' : lreach m s') by (eapply lsteps_trans; eauto).
  eapply locked_plan; [exact Hr|exact Hs|exact He|exact Hg|exact Hin| |eapply held_even; eauto].
  unfold lplan; cbn [lnorm]. destruct (N.eqb_spec p 0); [done|].
  rewrite !NoDup_cons, !elem_of_cons, !elem_of_nil in Hnd.
  destruct (N.eqb_spec (lock_id n) (lock_id c)); [exfalso; intuition congruence|].
  destruct (N.eqb_spec (lock_id p) (lock_id c)); [exfalso; intuition congruence|].
  destruct (N.eqb_spec (lock_id p) (lock_id n)); [exfalso; intuition congruence|]. cbn.
  rewrite !elem_of_cons, elem_of_nil in *. intuition congruence.
Qed.

(** ** A lock call that is not interrupted does what the one-step model of [State] says *)

Definition lock_req (l : mem) (r : lreq) : option mem :=
  match r with
  | L1 n ng => lock_node l n ng
  | L2 n ng p pg => lock_nodes2 l n ng p pg
  | L3 c cg n ng p pg => lock_nodes3 l c cg n ng p pg
  end.

Fixpoint cas_all (l : mem) (todo : list (N * N)) : option mem :=
  match todo with
  | [] => Some l
  | (w, e) :: todo => if lget l w =? e then cas_all (mset l w (gen_inc e)) todo else None
  end.

Lemma lock_req_plan l r : lock_req l r = if lodd r then None else cas_all l (lplan r).
Proof.
  unfold lock_req, lodd, lplan, lock_nodes3, lock_nodes2, lock_node, lock_cas.
  destruct r as [n ng|n ng p pg|c cg n ng p pg]; cbn [lnorm].
  - destruct (gen_odd ng); [done|]. cbn. destruct (_ =? _); done.
  - destruct (p =? 0); cbn; [destruct (gen_odd ng); [done|]; destruct (_ =? _); done|].
    destruct (gen_odd ng || gen_odd pg); [done|]. destruct (lget l (lock_id n) =? ng); [|done].
    destruct (lock_id p =? lock_id n); cbn; [done|]. destruct (_ =? _); done.
  - destruct (p =? 0); cbn.
    + destruct (n =? 0); cbn; [destruct (gen_odd cg); [done|]; destruct (_ =? _); done|].
      destruct (gen_odd cg || gen_odd ng); [done|]. destruct (lget l (lock_id c) =? cg); [|done].
      destruct (lock_id n =? lock_id c); cbn; [done|]. destruct (_ =? _); done.
    + destruct (gen_odd cg || gen_odd ng || gen_odd pg); [done|]. destruct (lget l (lock_id c) =? cg); [|done].
      destruct (lock_id n =? lock_id c); cbn.
      * destruct ((lock_id p =? lock_id c) || (lock_id p =? lock_id n)); cbn; [done|]. destruct (_ =? _); done.
      * destruct (lget _ (lock_id n) =? ng); [|done].
        destruct ((lock_id p =? lock_id c) || (lock_id p =? lock_id n)); cbn; [done|]. destruct (_ =? _); done.
Qed.

Lemma gen_dec_inc x : x < 4294967296 -> gen_dec (gen_inc x) = x.
Proof.
  intros H. unfold gen_dec, gen_inc, i32. rewrite N.add_mod_idemp_l by done.
  replace (x + 1 + 4294967295) with (x + 1 * 4294967296) by lia. rewrite N.mod_add by done. apply N.mod_small. done.
Qed.

Lemma lock_back l0 d gs t held c rest l :
  (t < length gs)%nat -> (forall w, lget l0 w < 4294967296) -> NoDup rest ->
  (forall w, lget l w = if decide (w ∈ rest) then gen_inc (lget l0 w) else lget l0 w) ->
  exists k l', lrun (LSys l d (<[t := LGor (LBack rest) held]> gs)) (replicate k (t, c)) = Some (LSys l' d (<[t := LGor LIdle held]> gs)) /\
    forall w, lget l' w = lget l0 w.
Proof.
  intros Ht Hlt. revert l. induction rest as [|w rest IH]; intros l Hn Hl.
  - exists 1%nat, l. split; [|intros w; rewrite Hl; destruct (decide (w ∈ [])) as [Hin|]; [inversion Hin|done]].
    cbn [replicate lrun]. unfold lstep. cbn [lk_gors]. rewrite list_lookup_insert by done. cbn [l_pc l_held lput lk_mem lk_done lk_gors].
    unfold lput. cbn. rewrite list_insert_insert. done.
  - apply NoDup_cons in Hn as [Hw Hn].
    destruct (IH (mset l w (gen_dec (lget l w))) Hn) as (k & l' & Hrun & Hl').
    { intros v. rewrite lget_mset. destruct (decide (w = v)) as [<-|Hne].
      - rewrite Hl. rewrite decide_True by left. rewrite decide_False by done. apply gen_dec_inc, Hlt.
      - rewrite Hl. destruct (decide (v ∈ rest)).
        + rewrite decide_True by (right; done). done.
        + rewrite decide_False; [done|]. rewrite elem_of_cons. intros [->|]; done. }
    exists (S k), l'. split; [|done]. cbn [replicate lrun]. unfold lstep at 1. cbn [lk_gors]. rewrite list_lookup_insert by done.
    cbn [l_pc l_held lk_mem lk_done]. unfold lput. cbn [lk_gors]. rewrite list_insert_insert. exact Hrun.
Qed.

Lemma lock_try l0 d gs t held c r todo taken l :
  (t < length gs)%nat -> (forall w, lget l0 w < 4294967296) -> NoDup (taken ++ map fst todo) ->
  (forall w, lget l w = if decide (w ∈ taken) then gen_inc (lget l0 w) else lget l0 w) ->
  exists k l' held', lrun (LSys l d (<[t := LGor (LTry r todo taken) held]> gs)) (replicate k (t, c)) = Some (LSys l' d (<[t := LGor LIdle held']> gs)) /\
    match cas_all l todo with
    | Some l1 => held' = r :: held /\ l' = l1
    | None => held' = held /\ forall w, lget l' w = lget l0 w
    end.
Proof.
  intros Ht Hlt. revert taken l. induction todo as [|[w e] todo IH]; intros taken l Hn Hl.
  - exists 1%nat, l, (r :: held). split; [|done]. cbn [replicate lrun]. unfold lstep. cbn [lk_gors]. rewrite list_lookup_insert by done.
    cbn [l_pc l_held lk_mem lk_done]. unfold lput. cbn. rewrite list_insert_insert. done.
  - cbn [cas_all]. cbn [map fst] in Hn. destruct (N.eqb_spec (lget l w) e) as [He|He].
    + assert (Hw : w ∉ taken). { apply NoDup_app in Hn as (_ & Hd & _). intros Hin. eapply Hd; [exact Hin|left]. }
      destruct (IH (taken ++ [w]) (mset l w (gen_inc e))) as (k & l' & held' & Hrun & Hres).
      { rewrite <- app_assoc. exact Hn. }
      { intros v. rewrite lget_mset. destruct (decide (w = v)) as [<-|Hne].
        - rewrite decide_True by (apply elem_of_app; right; left). rewrite Hl in He. rewrite decide_False in He by done. congruence.
        - rewrite Hl. destruct (decide (v ∈ taken)).
          + rewrite decide_True by (apply elem_of_app; auto). done.
          + rewrite decide_False; [done|]. rewrite elem_of_app, elem_of_list_singleton. intros [|]; [done|congruence]. }
      exists (S k), l', held'. split; [|done]. cbn [replicate lrun]. unfold lstep at 1. cbn [lk_gors]. rewrite list_lookup_insert by done.
      cbn [l_pc l_held lk_mem lk_done]. rewrite He, N.eqb_refl. unfold lput. cbn [lk_gors]. rewrite list_insert_insert. exact Hrun.
    + destruct (lock_back l0 d gs t held c taken l Ht Hlt) as (k & l' & Hrun & Hl').
      { apply NoDup_app in Hn. tauto. }
      { done. }
      exists (S k), l', held. split; [|done]. cbn [replicate lrun]. unfold lstep at 1. cbn [lk_gors]. rewrite list_lookup_insert by done.
      cbn [l_pc l_held lk_mem lk_done]. apply N.eqb_neq in He. rewrite He. unfold lput. cbn [lk_gors]. rewrite list_insert_insert. exact Hrun.
Qed.

Lemma lock_alone m s t g r :
  lreach m s -> lk_gors s !! t = Some g -> l_pc g = LIdle ->
  exists k l' held', lrun s (replicate k (t, CLock r)) = Some (LSys l' (lk_done s) (<[t := LGor LIdle held']> (lk_gors s))) /\
    match lock_req (lk_mem s) r with
    | Some l1 => held' = r :: l_held g /\ l' = l1
    | None => held' = l_held g /\ forall w, lget l' w = lget (lk_mem s) w
    end.
Proof.
  intros Hr Hg Hpc. destruct (linv_reach _ _ Hr) as [Hok _]. assert (Ht : (t < length (lk_gors s))%nat) by (eapply lookup_lt_Some; eauto).
  destruct g as [pc held]. cbn in *. subst pc. rewrite lock_req_plan. destruct (lodd r) eqn:Ho.
  - exists 1%nat, (lk_mem s), held. split; [|done]. cbn [replicate lrun]. unfold lstep. rewrite Hg. cbn [l_pc l_held]. rewrite Ho. done.
  - destruct (lock_try (lk_mem s) (lk_done s) (lk_gors s) t held (CLock r) r (lplan r) [] (lk_mem s) Ht) as (k & l' & held' & Hrun & Hres).
    + intros w. eapply lok_lt; eauto.
    + apply lplan_nodup.
    + intros w. rewrite decide_False; [done|]. intros Hin. inversion Hin.
    + exists (S k), l', held'. split; [|done]. cbn [replicate lrun]. unfold lstep at 1. rewrite Hg. cbn [l_pc l_held]. rewrite Ho. exact Hrun.
Qed.

(** ** Witnesses: lock words that coincide *)

Ltac nodup := repeat constructor; rewrite ?elem_of_cons, ?elem_of_nil; intuition congruence.

Lemma lrun_steps s l s' : lrun s l = Some s' -> lsteps s s'.
Proof.
  revert s. induction l as [|[t c] l IH]; intros s H; cbn in H; [injection H as <-; constructor|].
  destruct (lstep s t c) as [s1|] eqn:Hs; [|done]. eapply lsteps_trans; [|apply IH, H]. econstructor; [constructor|exact Hs].
Qed.

(** Goroutine 1 locks and unlocks node 8 (its lock word is that of node 4104). *)
Definition other_change : list (nat * lcall) := replicate 3 (1%nat, CLock (L1 8 0)) ++ replicate 3 (1%nat, CUnlock 0).

Lemma shared2_witness :
  exists s1 s2 s3 n p ng pg g, lreach 2 s1 /\ lsteps s1 s2 /\ lsteps s2 s3 /\ n <> p /\ p <> 0 /\ lock_id n = lock_id p /\
    lget (lk_mem s1) (lock_id p) = pg /\ lget (lk_mem s2) (lock_id n) = ng /\
    lk_gors s3 !! 0%nat = Some g /\ L2 n ng p pg ∈ l_held g /\
    lget (lk_done s1) (lock_id p) = 0 /\ lget (lk_done s2) (lock_id p) = 1 /\ lget (lk_done s3) (lock_id p) = 1.
Proof.
  destruct (lrun (lsys0 2) other_change) as [s2|] eqn:H2; [|vm_compute in H2; done].
  destruct (lrun s2 (replicate 3 (0%nat, CLock (L2 4104 2 8 0)))) as [s3|] eqn:H3; [|vm_compute in H2; injection H2 as <-; vm_compute in H3; done].
  exists (lsys0 2), s2, s3, 4104, 8, 2, 0, (LGor LIdle [L2 4104 2 8 0]).
  split; [constructor|]. split; [eapply lrun_steps; eauto|]. split; [eapply lrun_steps; eauto|].
  vm_compute in H2. injection H2 as <-. vm_compute in H3. injection H3 as <-.
  split; [done|]. split; [done|]. split; [done|]. split; [done|]. split; [done|]. split; [done|]. split; [left|]. done.
Qed.

(** The same for a merging delete: node 4104, its child 8, parent 100; and child 8200 and
    parent 8 of node 50. *)
Lemma shared3_node_witness :
  exists s1 s2 s3 c n p cg ng pg g, lreach 2 s1 /\ lsteps s1 s2 /\ lsteps s2 s3 /\ NoDup [c; n; p] /\ p <> 0 /\ lock_id c = lock_id n /\
    lget (lk_mem s1) (lock_id p) = pg /\ lget (lk_mem s1) (lock_id n) = ng /\ lget (lk_mem s2) (lock_id c) = cg /\
    lk_gors s3 !! 0%nat = Some g /\ L3 c cg n ng p pg ∈ l_held g /\
    lget (lk_done s1) (lock_id n) = 0 /\ lget (lk_done s2) (lock_id n) = 1 /\ lget (lk_done s3) (lock_id n) = 1.
Proof.
  destruct (lrun (lsys0 2) other_change) as [s2|] eqn:H2; [|vm_compute in H2; done].
  destruct (lrun s2 (replicate 4 (0%nat, CLock (L3 8 2 4104 0 100 0)))) as [s3|] eqn:H3; [|vm_compute in H2; injection H2 as <-; vm_compute in H3; done].
  exists (lsys0 2), s2, s3, 8, 4104, 100, 2, 0, 0, (LGor LIdle [L3 8 2 4104 0 100 0]).
  split; [constructor|]. split; [eapply lrun_steps; eauto|]. split; [eapply lrun_steps; eauto|].
  vm_compute in H2. injection H2 as <-. vm_compute in H3. injection H3 as <-.
  split; [nodup|]. split; [done|]. split; [done|]. split; [done|]. split; [done|]. split; [done|]. split; [done|]. split; [left|]. done.
Qed.

Lemma shared3_parent_witness :
  exists s1 s2 s3 c n p cg ng pg g, lreach 2 s1 /\ lsteps s1 s2 /\ lsteps s2 s3 /\ NoDup [c; n; p] /\ p <> 0 /\ lock_id c = lock_id p /\
    lget (lk_mem s1) (lock_id p) = pg /\ lget (lk_mem s1) (lock_id n) = ng /\ lget (lk_mem s2) (lock_id c) = cg /\
    lk_gors s3 !! 0%nat = Some g /\ L3 c cg n ng p pg ∈ l_held g /\
    lget (lk_done s1) (lock_id p) = 0 /\ lget (lk_done s2) (lock_id p) = 1 /\ lget (lk_done s3) (lock_id p) = 1.
Proof.
  destruct (lrun (lsys0 2) other_change) as [s2|] eqn:H2; [|vm_compute in H2; done].
  destruct (lrun s2 (replicate 4 (0%nat, CLock (L3 8200 2 50 0 8 0)))) as [s3|] eqn:H3; [|vm_compute in H2; injection H2 as <-; vm_compute in H3; done].
  exists (lsys0 2), s2, s3, 8200, 50, 8, 2, 0, 0, (LGor LIdle [L3 8200 2 50 0 8 0]).
  split; [constructor|]. split; [eapply lrun_steps; eauto|]. split; [eapply lrun_steps; eauto|].
  vm_compute in H2. injection H2 as <-. vm_compute in H3. injection H3 as <-.
  split; [nodup|]. split; [done|]. split; [done|]. split; [done|]. split; [done|]. split; [done|]. split; [done|]. split; [left|]. done.
Qed.

(** ** Cases that meet the hypotheses: a held triple with coinciding words, a goroutine in the
    middle of a rollback, and one waiting to unlock *)
Lemma lock_ex :
  exists s, lreach 3 s /\ lholds s 0 (lock_id 50) /\ lholds s 0 (lock_id 8) /\
    (exists g, lk_gors s !! 1%nat = Some g /\ l_pc g = LBack [lock_id 77]) /\ (exists g, lk_gors s !! 2%nat = Some g /\ l_pc g = LUnlock [lock_id 99]).
Proof.
  pose (l := replicate 4 (0%nat, CLock (L3 8200 0 50 0 8 0)) ++ replicate 3 (1%nat, CLock (L2 77 0 50 0)) ++
             replicate 4 (2%nat, CLock (L2 99 0 98 0)) ++ replicate 2 (2%nat, CUnlock 0)).
  destruct (lrun (lsys0 3) l) as [s|] eqn:Hs; [|vm_compute in Hs; done].
  exists s. split; [eapply lrun_steps; eauto|]. vm_compute in Hs. injection Hs as <-.
  split; [eexists; eexists; split; [reflexivity|]; split; [left|]; vm_compute; right; left|].
  split; [eexists; eexists; split; [reflexivity|]; split; [left|]; vm_compute; left|].
  split; eexists; (split; [reflexivity|]); done.
Qed.

Lemma lock_ex2 :
  exists s s' g, lreach 2 s /\ lsteps s s' /\ lk_gors s' !! 0%nat = Some g /\ L2 77 4 50 0 ∈ l_held g /\
    lget (lk_mem s) (lock_id 77) = 4 /\ lget (lk_mem s) (lock_id 50) = 0 /\ lock_id 50 <> lock_id 77.
Proof.
  pose (one := fun x => replicate 3 (1%nat, CLock (L1 77 x)) ++ replicate 3 (1%nat, CUnlock 0)).
  destruct (lrun (lsys0 2) (one 0 ++ one 2)) as [s|] eqn:Hs; [|vm_compute in Hs; done].
  destruct (lrun s (replicate 4 (0%nat, CLock (L2 77 4 50 0)))) as [s'|] eqn:Hs'; [|vm_compute in Hs; injection Hs as <-; vm_compute in Hs'; done].
  exists s, s', (LGor LIdle [L2 77 4 50 0]). split; [eapply lrun_steps; eauto|]. split; [eapply lrun_steps; eauto|].
  vm_compute in Hs. injection Hs as <-. vm_compute in Hs'. injection Hs' as <-. split; [done|]. split; [left|]. done.
Qed.

Lemma lock_ex3 :
  exists s g, lreach 2 s /\ lk_gors s !! 0%nat = Some g /\ L3 99 0 77 0 50 0 ∈ l_held g /\ NoDup [lock_id 99; lock_id 77; lock_id 50].
Proof.
  destruct (lrun (lsys0 2) (replicate 5 (0%nat, CLock (L3 99 0 77 0 50 0)))) as [s|] eqn:Hs; [|vm_compute in Hs; done].
  exists s, (LGor LIdle [L3 99 0 77 0 50 0]). split; [eapply lrun_steps; eauto|]. vm_compute in Hs. injection Hs as <-.
  split; [done|]. split; [left|]. vm_compute; nodup.
Qed.

Lemma locks_all m s : lreach m s ->
  (forall t t' w, lholds s t w -> lholds s t' w -> t = t') /\
  (forall t g i j r r' w, lk_gors s !! t = Some g -> l_held g !! i = Some r -> l_held g !! j = Some r' ->
     w ∈ lwords r -> w ∈ lwords r' -> i = j) /\
  (forall t g, lk_gors s !! t = Some g -> l_pc g <> LPanic) /\
  (forall t w, lholds s t w -> gen_odd (lget (lk_mem s) w) = true) /\
  (quiet s -> forall w, gen_odd (lget (lk_mem s) w) = true -> exists t, lholds s t w).
Proof.
  intros Hr. split; [intros t t' w; eapply locks_exclusive; eauto|]. split; [intros; eapply locks_once; eauto|].
  split; [intros; eapply locks_no_panic; eauto|]. split; [intros; eapply locks_held_odd; eauto|].
  intros Hq w. apply (locks_quiet m); done.
Qed.

Lemma lockNodes2_both m s s' t g n ng p pg : lreach m s -> lsteps s s' ->
  lk_gors s' !! t = Some g -> L2 n ng p pg ∈ l_held g ->
  (lget (lk_mem s) (lock_id n) = ng -> exists k, lget (lk_done s') (lock_id n) = lget (lk_done s) (lock_id n) + k * 2147483648) /\
  (p <> 0 -> lock_id p <> lock_id n -> lget (lk_mem s) (lock_id p) = pg ->
     exists k, lget (lk_done s') (lock_id p) = lget (lk_done s) (lock_id p) + k * 2147483648).
Proof.
  intros Hr Hs Hg Hin. split; [intros; eapply lockNodes2_node; eauto|intros; eapply lockNodes2_parent; eauto].
Qed.
