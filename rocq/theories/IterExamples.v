(** * IterExamples: trees that meet the hypotheses of the theorems on iteration. *)
From Verif Require Export IterGrow IterWitness.

(** Every block handed out still belongs to an allocator and is not full. *)
Definition unfilled (y : sys) : Prop :=
  forall b, b < t_nextFreeBlock (sy_tree y) -> exists a, a ∈ t_allocs (sy_tree y) /\
    al_offset a / blockSize = b /\ al_offset a mod blockSize + al_nextFree a <= 2097120.

Definition unfilledb (y : sys) : bool :=
  forallb (fun b => existsb (fun a => (al_offset a / blockSize =? b) && (al_offset a mod blockSize + al_nextFree a <=? 2097120)) (t_allocs (sy_tree y)))
    (seqN 0 (N.to_nat (t_nextFreeBlock (sy_tree y)))).

Lemma unfilledb_ok y : unfilledb y = true -> unfilled y.
Proof.
  intros H b Hb. unfold unfilledb in H. rewrite forallb_forall in H. specialize (H b ltac:(apply elem_of_list_In, elem_of_seqN; lia)).
  apply existsb_exists in H as (a & Ha & H). apply andb_prop in H as [H1 H2]. exists a. split_and!; [by apply elem_of_list_In|by apply N.eqb_eq|by apply N.leb_le].
Qed.

Lemma unfilled_near y x : unfilled y -> Forall bump_ok (t_allocs (sy_tree y)) -> x ∉ cover (all_bregs (sy_tree y)) ->
  x / blockSlots < t_nextFreeBlock (sy_tree y) -> 2 <= dlen x -> offset_of x < 262140.
Proof.
  intros Hc Hb Hx Hn Hd. destruct (Hc _ Hn) as (a & Ha & Eo & Hle).
  rewrite Forall_forall in Hb. pose proof (Hb _ Ha) as (H8 & H1 & _).
  destruct (decide (offset_of x < 262140)) as [?|Hge]; [done|]. exfalso. apply Hx. apply elem_of_cover. exists (breg a).
  split; [by apply elem_of_list_fmap_1|]. apply elem_of_seqN. unfold breg. cbn [fst snd]. unfold dlen in Hd. rewrite offset_of_mod in Hd, Hge.
  rewrite N.shiftr_div_pow2. change (2 ^ 3) with 8. unfold blockSize, blockSlots in *.
  set (m := al_offset a mod 2097152) in *. set (nf := al_nextFree a) in *.
  pose proof (N.div_mod (al_offset a) 2097152 ltac:(done)) as D1. rewrite Eo in D1. fold m in D1. rewrite D1.
  pose proof (N.div_mod x 262144 ltac:(done)) as D2. pose proof (N.mod_lt x 262144 ltac:(done)) as D2'.
  set (q := x / 262144) in *. set (r := x mod 262144) in *. clearbody q r.
  pose proof (N.div_mod nf 8 ltac:(done)) as D3. rewrite H8 in D3. set (k := nf / 8) in *. clearbody k m nf. clear Ha Hb Eo D1 Hn Hc H8 Hx. subst nf x.
  replace (2097152 * q + m + (8 * k + 0)) with (m + (262144 * q + k) * 8) by lia. rewrite N.div_add by done.
  replace (2097152 - (8 * k + 0)) with (8 * (262144 - k)) by lia. rewrite (N.mul_comm 8 (262144 - k)), N.div_mul by done.
  pose proof (N.div_mod m 8 ltac:(done)) as D4. pose proof (N.mod_lt m 8 ltac:(done)). rewrite N2Nat.id.
  generalize dependent (m / 8). generalize dependent (m mod 8). intros. lia.
Qed.

Lemma unfilled_room K fetch n tr y : reachable K fetch n tr y -> unfilled y -> room (sy_tree y).
Proof.
  intros Hr Hcp p w r Hl Hn. destruct (rcore K fetch _ _ _ Hr) as (HK & T & Hc).
  destruct (core_live K fetch HK _ _ Hc) as (_ & _ & Hlm). destruct (Hlm p w r Hl Hn) as (Hok & Hfree & _).
  destruct (live_node K fetch HK _ _ _ _ _ Hc Hl Hn) as (t & b & full & a & pfx & cs & -> & Hb & Hs & ->).
  destruct (Live.sub_view K fetch _ _ _ _ _ _ _ _ _ Hc Hb Hs) as (_ & _ & (q & Hq) & _).
  cbn [fst snd] in *. set (m := nslots full pfx (length cs)) in *.
  assert (Hm : (2 <= m)%nat).
  { unfold m, nslots. pose proof (ncount_bounds K fetch _ _ _ _ _ Hq). apply wf_node_iff in Hq as (_ & Hq & _). unfold ncount. destruct full; lia. }
  destruct (decide (N.of_nat m < dlen a)) as [?|Hge]; [done|exfalso].
  destruct Hok as [Hz|(Ha0 & Ha1 & Ha2)]; [simpl in Hz; lia|]. cbn [fst snd] in *.
  set (x := a + N.of_nat m - 2).
  assert (Hx : offset_of x = blockSlots - 2 /\ x / blockSlots = a / blockSlots).
  { unfold x. unfold dlen in Hge. rewrite offset_of_mod in *. unfold blockSlots in *.
    pose proof (N.div_mod a 262144 ltac:(done)). pose proof (N.mod_lt a 262144 ltac:(done)). 
    set (q0 := a / 262144) in *. set (r0 := a mod 262144) in *. clearbody q0 r0. 
    replace (a + N.of_nat m - 2) with (262142 + q0 * 262144) by lia. split; [rewrite N.mod_add by done; done|].
    rewrite N.div_add by done. done. }
  destruct Hx as [Hx1 Hx2].
  assert (offset_of x < 262140); [|rewrite Hx1 in *; done].
  eapply unfilled_near; [done|apply (ai_nf _ _ (co_alloc _ _ _ _ Hc))| | |].
  - intros Hin. apply (Hfree x); [apply elem_of_seqN; unfold x; lia|]. unfold free_regs. rewrite cover_app. apply elem_of_app. by right.
  - rewrite Hx2. done.
  - unfold dlen. rewrite Hx1. done.
Qed.

Lemma meanwhile_same K fetch n tr y m l : reachable K fetch n tr y -> meanwhile K fetch n tr l ->
  meanwhile K fetch n tr (replicate m ([], y) ++ l).
Proof. intros Hr Hl. induction m as [|m IH]; [done|]. cbn [replicate app meanwhile]. rewrite app_nil_r. split_and!; [done|constructor|done]. Qed.

Definition keepsb (e : call * reply) : bool :=
  match e with
  | (CFinD _, RBool true) => false
  | (CRestart _ _ _, _) => false
  | _ => true
  end.
Lemma keepsb_ok e : keepsb e = true -> no_removal e.
Proof. destruct e as [[] r]; try done. simpl. intros H ->. done. Qed.

(** 264 keys; two more are inserted after 100 calls of Next, and both are returned too. *)
Definition some264 : list N := [0] ++ low5 ++ [at4 1 9 0 0; at4 255 0 0 0].

Lemma ex_during : exists tr y tr2 y2 vs, reachable (fixed 4) k4 2 tr y /\ Exists (fun e => acked e.2 = true) tr2 /\
  meanwhile (fixed 4) k4 2 tr (replicate 100 ([], y) ++ (tr2, y2) :: replicate 170 ([], y2)) /\
  Forall (fun x => last_leaf (sy_tree x.2) /\ room (sy_tree x.2)) (replicate 100 ([] : list (call * reply), y) ++ (tr2, y2) :: replicate 170 ([], y2)) /\
  it_along 100 (map (fun x => sy_tree x.2) (replicate 100 ([] : list (call * reply), y) ++ (tr2, y2) :: replicate 170 ([], y2))) (new_iter []) = Ok (vs, true) /\
  get k4 y [1; 9; 0; 0] = Some (at4 1 9 0 0) /\ at4 1 9 0 0 ∈ vs /\ get k4 y [2; 0; 0; 0] = None /\ at4 2 0 0 0 ∈ vs.
Proof.
  destruct (after_reachable 4 k4 (puts k4 0 some264) (fun tr y =>
    match play (fixedb 4) k4 y (puts k4 1 [at4 1 5 4 0; at4 2 0 0 0]) with
    | Some (tr2, y2) => forallb keepsb tr2 && existsb (fun e => acked e.2) tr2 && (N.of_nat (length (tr ++ tr2)) <? 100000) &&
        last_leafb (sy_tree y) && last_leafb (sy_tree y2) && unfilledb y && unfilledb y2 &&
        match it_along 100 (map (fun x => sy_tree x.2) (replicate 100 ([] : list (call * reply), y) ++ (tr2, y2) :: replicate 170 ([], y2))) (new_iter []) with
        | Ok (vs, true) => bool_decide (at4 1 9 0 0 ∈ vs) && bool_decide (at4 2 0 0 0 ∈ vs)
        | _ => false
        end && bool_decide (get k4 y [1; 9; 0; 0] = Some (at4 1 9 0 0)) && bool_decide (get k4 y [2; 0; 0; 0] = None)
    | None => false
    end)) as (tr & y & Hr & H); [lia|by vm_compute|by vm_compute|].
  destruct (play (fixedb 4) k4 y _) as [[tr2 y2]|] eqn:Ep; [|done].
  do 9 (apply andb_prop in H as [H ?]).
  destruct (it_along 100 _ (new_iter [])) as [[vs []]| | |] eqn:E; try done.
  destruct (play_runs (fixedb 4) k4 2 _ _ _ _ _ (rc_runs _ _ _ _ _ Hr) Ep) as [Hr2 _].
  assert (Hr3 : reachable (fixed 4) k4 2 (tr ++ tr2) y2).
  { split; [by destruct Hr|done|]. unfold maxUint64. match goal with X : (_ <? 100000) = true |- _ => apply N.ltb_lt in X end. lia. }
  assert (Hk : Forall no_removal tr2).
  { apply Forall_forall. intros e He. rewrite forallb_forall in H. by apply keepsb_ok, H, elem_of_list_In. }
  exists tr, y, tr2, y2, vs. repeat match goal with X : bool_decide _ = true |- _ => apply bool_decide_eq_true in X | X : _ && _ = true |- _ => apply andb_prop in X as [? ?] end.
  split_and!; try done.
  - apply Exists_exists. match goal with X : existsb _ _ = true |- _ => apply existsb_exists in X as (e & ? & ?) end. exists e. split; [by apply elem_of_list_In|done].
  - apply meanwhile_same; [done|]. cbn [meanwhile]. split_and!; [done|done|]. rewrite <- (app_nil_r (replicate 170 _)). by apply meanwhile_same.
  - apply Forall_app. split; [apply Forall_replicate|constructor; [|apply Forall_replicate]]; cbn [snd]; (split; [by apply last_leafb_ok|]);
      (eapply unfilled_room; [eassumption|by apply unfilledb_ok]).
Qed.

Lemma map_replicate {A B} (f : A -> B) n x : map f (replicate n x) = replicate n (f x).
Proof. induction n as [|n IH]; [done|]. simpl. by rewrite IH. Qed.

Lemma meanwhile_at K fetch n tr y m tr2 y2 l : meanwhile K fetch n tr (replicate m ([], y) ++ (tr2, y2) :: l) -> reachable K fetch n (tr ++ tr2) y2.
Proof. induction m as [|m IH]; cbn [replicate app meanwhile]; [by intros (? & _)|]. rewrite app_nil_r. intros (_ & _ & ?). by apply IH. Qed.

Lemma ex_stored : exists y y2 vs, Forall (fun z => (exists n tr, reachable (fixed 4) k4 n tr z) /\ room (sy_tree z)) (replicate 100 y ++ replicate 171 y2) /\
  it_along 100 (map sy_tree (replicate 100 y ++ replicate 171 y2)) (new_iter []) = Ok (vs, true) /\
  get k4 y [2; 0; 0; 0] = None /\ at4 2 0 0 0 ∈ vs.
Proof.
  destruct ex_during as (tr & y & tr2 & y2 & vs & Hr & _ & Hm & Hf & E & _ & _ & Hg & Hv). exists y, y2, vs.
  split_and!; [|rewrite map_app, !map_replicate; rewrite map_app, map_cons, !map_replicate in E; exact E|done|done].
  assert (Hr2 : reachable (fixed 4) k4 2 (tr ++ tr2) y2).
  { by eapply meanwhile_at. }
  apply Forall_app in Hf as [H1 H2]. inversion H2 as [|? ? [_ H3] _]; subst. inversion H1 as [|? ? [_ H4] _]; subst.
  apply Forall_app. split; apply Forall_replicate; (split; [by eauto|done]).
Qed.

Lemma iter_stored K fetch ys sp fuel vs e : Forall (fun y => exists n tr, reachable K fetch n tr y) ys -> bytes sp ->
  it_along fuel (map sy_tree ys) (new_iter sp) = Ok (vs, e) -> forall i v, vs !! i = Some v ->
  exists j y, (j <= i)%nat /\ ys !! j = Some y /\ K (fetch v) /\ get fetch y (fetch v) = Some v /\ (sp `prefix_of` fetch v \/ stray K fetch y sp v).
Proof.
  intros Hys Hb E i v Hi. destruct ys as [|y0 ys]; [injection E as <- <-; done|].
  assert (HK : universe K) by (inversion Hys as [|? ? (? & ? & []) _]; done).
  destruct (along_stored K fetch HK _ Hys (new_iter sp) fuel vs e Hb ltac:(constructor) E i v Hi) as [H|H]; [by apply elem_of_nil in H|done].
Qed.

Lemma iter_returns K fetch ys sp : Forall (fun y => (exists n tr, reachable K fetch n tr y) /\ room (sy_tree y)) ys -> bytes sp ->
  exists x, returns (fun n => it_along n (map sy_tree ys) (new_iter sp)) x.
Proof.
  intros Hys Hb. destruct ys as [|y0 ys]; [exists ([], false); by exists O|].
  assert (HK : universe K) by (inversion Hys as [|? ? [(? & ? & []) _] _]; done).
  by apply (along_returns K fetch HK _ Hys (new_iter sp) Hb); constructor.
Qed.

Lemma iter_stable K fetch n tr y l fuel vs e k v0 : reachable K fetch n tr y -> meanwhile K fetch n tr l ->
  it_along fuel (map (fun x => sy_tree x.2) l) (new_iter []) = Ok (vs, e) ->
  K k -> get fetch y k = Some v0 ->
  k ∈ map fetch vs \/ (e = false /\ StronglySorted lex_lt (map fetch vs) /\ Forall (fun v => lex_lt (fetch v) k) vs).
Proof.
  intros Hr Hm E Hk Hg. assert (HK : universe K) by (by destruct Hr).
  eapply (iter_keeps K fetch HK); try done; [by apply (uv_bytes _ HK)|by apply (uv_nonempty _ HK)].
Qed.

Lemma iter_ordered K fetch n tr y l fuel vs e : reachable K fetch n tr y -> meanwhile K fetch n tr l ->
  Forall (fun x => last_leaf (sy_tree x.2)) l ->
  it_along fuel (map (fun x => sy_tree x.2) l) (new_iter []) = Ok (vs, e) -> StronglySorted lex_lt (map fetch vs).
Proof. intros Hr. assert (HK : universe K) by (by destruct Hr). by eapply (iter_keeps_sorted K fetch HK). Qed.
