(** * PoolAdmin: the command "allocators" of Admin (admin.go:33-51) takes all allocators one after the other, like a client that
    calls get for each of them, and gives them back at the end.  Schedules in which it never returns. *)
From Verif Require Export PoolFacts.

(** The goroutine is inside [slots.get], called for a client. *)
Definition in_get (s : pool) (t : nat) : Prop := exists g i, p_gors s !! t = Some g /\ g_pc g = PLoad i KClient.

(** All slots are taken and every goroutine looks for a free one. *)
Definition stuck (s : pool) : Prop := Forall (fun b => b = true) (p_slots s) /\ forall t g, p_gors s !! t = Some g -> exists i, g_pc g = PLoad i KClient.

Lemma stuck_step s t c s' : stuck s -> pstep s t c = Some s' -> stuck s' /\ length (p_gors s') = length (p_gors s) /\
  forall t', g_held <$> p_gors s' !! t' = g_held <$> p_gors s !! t'.
Proof.
  intros [H1 H2] E. unfold pstep in E. destruct (p_gors s !! t) as [g|] eqn:Eg; [|done]. destruct (H2 _ _ Eg) as [i Ei]. rewrite Ei in E.
  assert (G : forall pc, (exists i, pc = PLoad i KClient) -> let x := gor_set s t (Gor pc (g_held g) (g_wd g)) in stuck x /\ length (p_gors x) = length (p_gors s) /\
    forall t', g_held <$> p_gors x !! t' = g_held <$> p_gors s !! t').
  { intros pc Hpc x. split_and!; [split|..]; unfold x, gor_set; simpl.
    - done.
    - intros t' g' Hg'. apply list_lookup_insert_Some in Hg' as [(-> & <- & _)|[_ Hg']]; [done|by eapply H2].
    - by rewrite insert_length.
    - intros t'. destruct (decide (t' = t)) as [->|]; [|by rewrite list_lookup_insert_ne].
      rewrite list_lookup_insert by (by eapply lookup_lt_Some). by rewrite Eg. }
  destruct (p_slots s !! i) as [[]|] eqn:Es.
  - injection E as <-. apply G. by eexists.
  - rewrite Forall_forall in H1. apply elem_of_list_lookup_2 in Es. by apply H1 in Es.
  - injection E as <-. apply G. by eexists.
Qed.

Lemma stuck_run l : forall s s', stuck s -> prun s l = Some s' -> stuck s' /\ length (p_gors s') = length (p_gors s) /\
  forall t', g_held <$> p_gors s' !! t' = g_held <$> p_gors s !! t'.
Proof.
  induction l as [|[t c] l IH]; intros s s' Hs E; cbn [prun] in E; [by injection E as <-|].
  destruct (pstep s t c) as [s1|] eqn:E1; [|done]. destruct (stuck_step _ _ _ _ Hs E1) as (A1 & A2 & A3). destruct (IH _ _ A1 E) as (B1 & B2 & B3).
  split_and!; [done|by rewrite B2|]. intros t'. by rewrite B3.
Qed.

(** Two calls of "allocators" on a tree with two allocators: each has one and waits for the other. *)
Lemma two_admins : exists s, preach (fun _ c => c = QGet) 2 2 s /\ holds s 0 0 /\ holds s 1 1 /\
  forall l s', prun s l = Some s' -> in_get s' 0 /\ in_get s' 1.
Proof.
  pose (l := replicate 3 (0, QGet) ++ replicate 4 (1, QGet) ++ [(0, QGet); (1, QGet)]).
  destruct (prun (pool0 2 2) l) as [s|] eqn:Hs; [|vm_compute in Hs; done]. exists s.
  assert (Hr : preach (fun _ c => c = QGet) 2 2 s).
  { eapply prun_reach; [constructor| |exact Hs]. intros t c Hin.
    assert (Hf : forallb (fun x => match x.2 with QGet => true | _ => false end) l = true) by done.
    rewrite forallb_forall in Hf. apply elem_of_list_In in Hin. apply Hf in Hin. destruct c; done. }
  vm_compute in Hs. injection Hs as <-. split; [done|]. split; [eexists; split; [reflexivity|left]|]. split; [eexists; split; [reflexivity|left]|].
  intros l' s' E. apply stuck_run in E as ((_ & E2) & E3 & _).
  - simpl in E3. split.
    + destruct (lookup_lt_is_Some_2 (p_gors s') 0 ltac:(lia)) as [g Hg]. destruct (E2 _ _ Hg) as [i Hi]. by exists g, i.
    + destruct (lookup_lt_is_Some_2 (p_gors s') 1 ltac:(lia)) as [g Hg]. destruct (E2 _ _ Hg) as [i Hi]. by exists g, i.
  - split; [by repeat constructor|]. intros [|[|t]] g Hg; simpl in Hg; [by injection Hg as <-; eexists|by injection Hg as <-; eexists|done].
Qed.

(** "allocators" on a stopped tree: it never gets the first allocator, unless Start is called. *)
Lemma admin_stopped : exists s, preach (one_admin 0) 2 1 s /\ idle s 0 /\ p_stopped s = true /\
  forall k s', prun s (replicate (S k) (0, QGet)) = Some s' -> in_get s' 0.
Proof.
  destruct (prun (pool0 2 1) (replicate 7 (0, QStop))) as [s|] eqn:Hs; [|vm_compute in Hs; done]. exists s.
  assert (Hr : preach (one_admin 0) 2 1 s).
  { eapply (prun_reach _ _ _ (replicate 7 (0, QStop))); [constructor| |exact Hs]. intros t c Hin. apply elem_of_replicate in Hin as [Hin _]. injection Hin as -> ->. by right. }
  vm_compute in Hs. injection Hs as <-. split; [done|]. split; [eexists; split; [reflexivity|done]|]. split; [done|].
  intros k s' E. cbn [replicate prun] in E. destruct (pstep _ 0 QGet) as [s1|] eqn:E1; [|done]. vm_compute in E1. injection E1 as <-.
  apply stuck_run in E as ((_ & E2) & E3 & _).
  - simpl in E3. destruct (lookup_lt_is_Some_2 (p_gors s') 0 ltac:(lia)) as [g Hg]. destruct (E2 _ _ Hg) as [i Hi]. by exists g, i.
  - split; [by repeat constructor|]. intros [|t] g Hg; simpl in Hg; [by injection Hg as <-; eexists|done].
Qed.

(** ** One call alone *)

Lemma get_one s t g j : p_gors s !! t = Some g -> g_pc g = PIdle -> p_slots s !! j = Some false ->
  exists k i, k <= 2 * length (p_slots s) + 3 /\ p_slots s !! i = Some false /\
    prun s (replicate k (t, QGet)) = Some (Pool (<[i := true]> (p_slots s)) (p_stopped s) (<[t := Gor PIdle (i :: g_held g) (g_wd g)]> (p_gors s))).
Proof.
  intros Hg Hpc Hj. assert (Htl : t < length (p_gors s)) by (eapply lookup_lt_Some; eauto).
  set (s1 := gor_set s t (Gor (PLoad 0 KClient) (g_held g) (g_wd g))).
  destruct (get_scan s1 t (Gor (PLoad 0 KClient) (g_held g) (g_wd g)) j) as (k & s' & i & Hk & Hrun & Hi & Hsl & Hst & Hgs).
  { cbn. apply list_lookup_insert. done. }
  { exists 0. split; [done|]. exists j. split; [lia|]. split; [lia|done]. }
  pose proof (lookup_lt_Some _ _ _ Hj) as Hjl.
  exists (S k), i. split; [lia|]. split; [done|]. cbn [replicate prun]. unfold pstep at 1. rewrite Hg, Hpc. cbn [enter].
  change (fmap (gor_set s t) (Some (Gor (PLoad 0 KClient) (g_held g) (g_wd g)))) with (Some s1). etransitivity; [exact Hrun|]. f_equal.
  destruct s' as [sl st gs]. cbn in *. subst. by rewrite list_insert_insert.
Qed.

(** Number of free slots. *)
Fixpoint nfree (l : list bool) : nat := match l with [] => 0 | b :: l' => (if b : bool then 0 else 1) + nfree l' end.

Lemma nfree_take l i : l !! i = Some false -> nfree l = S (nfree (<[i := true]> l)).
Proof.
  revert i. induction l as [|b l IH]; intros [|i] H; [done|done| |].
  - injection H as ->. done.
  - change (<[S i := true]> (b :: l)) with (b :: <[i := true]> l). cbn [nfree]. rewrite (IH i H). destruct b; lia.
Qed.

Lemma nfree_0 l : nfree l = 0 -> l = replicate (length l) true.
Proof. induction l as [|[] l IH]; intros H; [done| |done]. simpl. f_equal. by apply IH. Qed.

Lemma nfree_S l m : nfree l = S m -> exists i, l !! i = Some false.
Proof. induction l as [|[] l IH]; intros H; [done| |by exists 0]. destruct (IH H) as [i Hi]. by exists (S i). Qed.

Lemma take_all t m : forall s g, p_gors s !! t = Some g -> g_pc g = PIdle -> nfree (p_slots s) = m ->
  exists k ids, k <= m * (2 * length (p_slots s) + 3) /\ length ids = m /\ NoDup ids /\ (forall i, i ∈ ids <-> p_slots s !! i = Some false) /\
    prun s (replicate k (t, QGet)) =
      Some (Pool (replicate (length (p_slots s)) true) (p_stopped s) (<[t := Gor PIdle (ids ++ g_held g) (g_wd g)]> (p_gors s))).
Proof.
  induction m as [|m IH]; intros s g Hg Hpc Hm.
  - exists 0, []. split_and!; [lia|done|constructor| |].
    + intros i. rewrite elem_of_nil. split; [done|]. rewrite (nfree_0 _ Hm). intros H%lookup_replicate_1. by destruct H.
    + simpl. rewrite <- (nfree_0 _ Hm). destruct s as [sl st gs], g as [pc h w]. cbn in *. subst pc. by rewrite list_insert_id.
  - destruct (nfree_S _ _ Hm) as [j Hj]. destruct (get_one s t g j Hg Hpc Hj) as (k & i & Hk & Hi & E).
    set (s1 := Pool _ _ _) in E. pose proof (lookup_lt_Some _ _ _ Hg) as Htl. pose proof (lookup_lt_Some _ _ _ Hi) as Hil.
    destruct (IH s1 (Gor PIdle (i :: g_held g) (g_wd g))) as (k' & ids & Hk' & Hl & Hnd & Hids & E').
    { cbn. by apply list_lookup_insert. }
    { done. }
    { cbn. rewrite (nfree_take _ _ Hi) in Hm. lia. }
    cbn [p_slots p_stopped p_gors g_held g_wd s1] in *. rewrite insert_length in *.
    exists (k + k'), (ids ++ [i]). split_and!.
    + lia.
    + rewrite app_length, Hl. simpl. lia.
    + apply NoDup_app. split_and!; [done| |apply NoDup_singleton]. intros x Hx ->%elem_of_list_singleton. apply Hids in Hx.
      by rewrite list_lookup_insert in Hx.
    + intros x. rewrite elem_of_app, elem_of_list_singleton, Hids. destruct (decide (x = i)) as [->|Hne]; [naive_solver|].
      rewrite list_lookup_insert_ne by done. naive_solver.
    + rewrite replicate_add, (prun_app _ _ _ _ E), E'. rewrite list_insert_insert, <- app_assoc. done.
Qed.

Lemma filter_none2 (P : nat -> Prop) `{HP : forall x, Decision (P x)} (l : list nat) : (forall x, x ∈ l -> ~ P x) -> filter P l = [].
Proof. induction l as [|x l IH]; intros H; [done|]. rewrite filter_cons_False by (apply H; left). apply IH. intros y Hy. apply H. by right. Qed.
Lemma filter_all (P : nat -> Prop) `{HP : forall x, Decision (P x)} (l : list nat) : (forall x, x ∈ l -> P x) -> filter P l = l.
Proof. induction l as [|x l IH]; intros H; [done|]. rewrite filter_cons_True by (apply H; left). f_equal. apply IH. intros y Hy. apply H. by right. Qed.

Definition release_all (t : nat) (ids : list nat) : list (nat * pcall) := ids ≫= fun i => [(t, QRelease i); (t, QRelease i)].

Lemma release_run t w l : forall sl st gs h, t < length gs -> NoDup l -> (forall i, i ∈ l -> i ∈ h) ->
  prun (Pool sl st (<[t := Gor PIdle h w]> gs)) (release_all t l) =
    Some (Pool (foldl (fun sl i => <[i := false]> sl) sl l) st (<[t := Gor PIdle (filter (fun j => j ∉ l) h) w]> gs)).
Proof.
  induction l as [|i l IH]; intros sl st gs h Ht Hnd Hin.
  - simpl. rewrite filter_all; [done|]. intros x _ Hx. by apply elem_of_nil in Hx.
  - apply NoDup_cons in Hnd as [Hi Hnd]. unfold release_all. rewrite bind_cons. fold (release_all t l).
    assert (E : prun (Pool sl st (<[t := Gor PIdle h w]> gs)) [(t, QRelease i); (t, QRelease i)] =
      Some (Pool (<[i := false]> sl) st (<[t := Gor PIdle (filter (fun j => j <> i) h) w]> gs))).
    { cbn [prun]. unfold pstep at 1. cbn [p_gors]. rewrite list_lookup_insert by done. cbn [g_pc g_held g_wd enter].
      rewrite decide_True by (apply Hin; left). cbn [fmap option_fmap option_map gor_set p_slots p_stopped p_gors].
      unfold pstep. cbn [p_gors gor_set]. rewrite list_insert_insert, list_lookup_insert by done. cbn [g_pc g_held g_wd]. unfold gor_set, slot_set. cbn [p_slots p_stopped p_gors].
      by rewrite ?list_insert_insert. }
    rewrite (prun_app _ _ _ _ E), IH; [|done|done|].
    + cbn [foldl]. do 3 f_equal. f_equal. rewrite list_filter_filter. apply list_filter_iff. intros x. rewrite elem_of_cons. naive_solver.
    + intros x Hx. apply elem_of_list_filter. split; [by intros ->|]. apply Hin. by right.
Qed.

Lemma foldl_free l : forall (sl : list bool) i, foldl (fun sl i => <[i := false]> sl) sl l !! i =
  if decide (i ∈ l) then (fun _ => false) <$> sl !! i else sl !! i.
Proof.
  induction l as [|x l IH]; intros sl i; cbn [foldl].
  - rewrite decide_False; [done|]. by intros ?%elem_of_nil.
  - rewrite IH. destruct (decide (i = x)) as [->|Hne].
    + rewrite (decide_True (P := x ∈ x :: l)) by left. destruct (sl !! x) as [b|] eqn:Ex.
      * rewrite list_lookup_insert by (by eapply lookup_lt_Some). by destruct (decide _).
      * rewrite list_insert_ge by (by apply lookup_ge_None). rewrite Ex. by destruct (decide _).
    + rewrite list_lookup_insert_ne by done. destruct (decide (i ∈ l)); [rewrite decide_True by (by right); done|].
      rewrite decide_False; [done|]. rewrite elem_of_cons. naive_solver.
Qed.

(** A goroutine without allocators takes all free ones and gives them back, in the order it got them. *)
Lemma admin_alone s t w : p_gors s !! t = Some (Gor PIdle [] w) ->
  exists k ids s1, k <= nfree (p_slots s) * (2 * length (p_slots s) + 3) /\ length ids = nfree (p_slots s) /\ NoDup ids /\
    prun s (replicate k (t, QGet)) = Some s1 /\ idle s1 t /\ (forall i, i ∈ ids <-> p_slots s !! i = Some false) /\ (forall i, holds s1 t i <-> i ∈ ids) /\
    prun s1 (release_all t ids) = Some s.
Proof.
  intros Hg. destruct (take_all t _ s _ Hg eq_refl eq_refl) as (k & ids & Hk & Hl & Hnd & Hids & E). cbn [g_held g_wd] in E. rewrite app_nil_r in E.
  pose proof (lookup_lt_Some _ _ _ Hg) as Htl.
  exists k, (reverse ids). eexists. split_and!; [done|by rewrite reverse_length|by rewrite (reverse_Permutation ids)|exact E| | | |].
  - eexists. split; [by apply list_lookup_insert|done].
  - intros i. by rewrite elem_of_reverse.
  - intros i. rewrite elem_of_reverse. unfold holds. cbn [p_gors]. rewrite list_lookup_insert by done. split; [by intros (g & [= <-] & H)|]. intros H. by eexists.
  - rewrite release_run; [|done|by rewrite (reverse_Permutation ids)|intros i Hi; by rewrite elem_of_reverse in Hi]. f_equal.
    assert (Ef : filter (fun j => j ∉ reverse ids) ids = []).
    { apply filter_none2. intros x Hx Hn. apply Hn. by apply elem_of_reverse. }
    rewrite Ef, list_insert_id by done. destruct s as [sl st gs]. cbn [p_slots p_stopped p_gors] in *. f_equal.
    apply list_eq. intros i. rewrite foldl_free. destruct (decide _) as [Hi|Hi].
    + rewrite elem_of_reverse in Hi. apply Hids in Hi. rewrite Hi. by rewrite (lookup_replicate_2 _ _ i) by (by eapply lookup_lt_Some).
    + rewrite elem_of_reverse, Hids in Hi. destruct (sl !! i) as [[]|] eqn:Es; [| |].
      * by apply lookup_replicate_2; eapply lookup_lt_Some.
      * done.
      * apply lookup_ge_None. rewrite replicate_length. by apply lookup_ge_None.
Qed.

Lemma admin_returns s t w : p_gors s !! t = Some (Gor PIdle [] w) -> Forall (fun b => b = false) (p_slots s) ->
  exists k ids s1, k <= length (p_slots s) * (2 * length (p_slots s) + 3) /\ length ids = length (p_slots s) /\ NoDup ids /\
    prun s (replicate k (t, QGet)) = Some s1 /\ idle s1 t /\ (forall i, holds s1 t i <-> i ∈ ids) /\ (forall i, i ∈ ids <-> i < length (p_slots s)) /\
    prun s1 (release_all t ids) = Some s.
Proof.
  intros Hg Hf. destruct (admin_alone s t w Hg) as (k & ids & s1 & H1 & H2 & H3 & H4 & H5 & H6 & H7 & H8).
  assert (Hn : nfree (p_slots s) = length (p_slots s)) by (clear -Hf; induction Hf as [|b l -> _ IH]; simpl; congruence).
  rewrite Hn in H1, H2. exists k, ids, s1. split_and!; try done. intros i. rewrite H6. split; [by apply lookup_lt_Some|].
  intros [b Hb]%lookup_lt_is_Some_2. rewrite Hb. f_equal. rewrite Forall_forall in Hf. apply Hf. by eapply elem_of_list_lookup_2.
Qed.
