(** * FineInv: what one client in the middle of a call can rely on when other clients make their
    steps, and what it has to do in turn. *)
From stdpp Require Export relations.
From Verif Require Export Step LockStep FineRun.

(** The state of a run with what is known about it: the history so far, the ghost trie, how often each
    lock word was given back after a change, the number of Finalize, Abort and FlushStats steps, and the
    histories and tries of all moments so far.

    [w_wake] is only used for runs where a Finalize is itself interrupted (StepSim.v).  There the state is
    the one with the whole effect of the Finalize, from the moment it takes effect.  [wk_ids] are the lock
    words, and [wk_root] the root lock, that it has yet to give back, in this order; [wk_prev] is the trie
    just before its effect; [wk_few] tells that there are fewer than 2^31 such calls in the whole run. *)
Record wake := Wake { wk_ids : list N; wk_root : bool; wk_prev : option trie; wk_few : bool }.

Record world := World {
  w_sys : sys; w_hist : hist; w_trie : option trie; w_lost : nat;
  w_unl : N -> N; w_n : N; w_past : list (hist * option trie); w_wake : wake
}.

Notation w_tree w := (sy_tree (w_sys w)).
Notation w_ids w := (wk_ids (w_wake w)).
Notation w_prev w := (wk_prev (w_wake w)).
Notation w_few w := (wk_few (w_wake w)).

(** Nothing is still to be given back. *)
Definition no_wake (few : bool) : wake := Wake [] false None few.

Definition alive (T : option trie) (o : occ_t) : Prop := exists o', ooccr T o' /\ osame o o'.

(** Locks are given back from the top: as long as a node that was cut off is still locked, so is its cut off child. *)
Definition late_ok (prev T : option trie) (ids : list N) : Prop :=
  forall o1 o2 l0 l, ids = l0 ++ l -> ooccr prev o1 -> ooccr prev o2 -> o_par o2 = o_addr o1 -> lock_id (o_addr o1) ∈ l ->
    alive T o1 \/ alive T o2 \/ lock_id (o_addr o2) ∈ l.

Record wok (w : world) : Prop := {
  wo_ids : forall i, i ∈ w_ids w -> i ∉ held (sy_open (w_sys w)) /\ 1 <= w_unl w i;
  wo_root : wk_root (w_wake w) = true -> length (rootops (sy_open (w_sys w))) = 0%nat;
  wo_few : w_few w = true -> w_n w < 2 ^ 31;
  wo_late : w_ids w <> [] -> w_few w = true /\ 1 <= w_n w;
  wo_order : late_ok (w_prev w) (w_trie w) (w_ids w)
}.

(** Word [x] was a child slot of a node-256, and since then has not been part of the tree. *)
Definition was_slot (past : list (hist * option trie)) (x : N) : Prop :=
  exists p1 h T p2 o b, past = p1 ++ (h, T) :: p2 /\ ooccr T o /\ o_full o = true /\ b < 256 /\
    x = slot_of true (o_addr o) (o_pfx o) b 0 /\ Forall (fun q => x ∉ cover (oregs q.2)) p2.

Lemma was_slot_snoc past x q : was_slot past x -> x ∉ cover (oregs q.2) -> was_slot (past ++ [q]) x.
Proof.
  intros (p1 & h & T & p2 & o & b & -> & Ho & Hf & Hb & Hx & Hp) Hq. exists p1, h, T, (p2 ++ [q]), o, b.
  split_and!; try done; [by rewrite <- app_assoc|]. apply Forall_app. split; [done|by apply Forall_singleton].
Qed.

Lemma was_slot_live past h T o b x : ooccr T o -> o_full o = true -> b < 256 -> x = slot_of true (o_addr o) (o_pfx o) b 0 ->
  was_slot (past ++ [(h, T)]) x.
Proof. intros. exists past, h, T, [], o, b. split_and!; try done. Qed.

(** ** Lock words *)

Definition gen_of (u : N) (locked : bool) : N := i32 (2 * u + (if locked then 1 else 0)).

Lemma i32_add a b : i32 (i32 a + b) = i32 (a + b).
Proof. unfold i32. by rewrite N.add_mod_idemp_l. Qed.

Lemma gen_of_odd u b : gen_odd (gen_of u b) = b.
Proof.
  unfold gen_of, gen_odd, i32. rewrite <- N.bit0_odd. change 4294967296 with (2 ^ 32). rewrite N.mod_pow2_bits_low by done.
  rewrite N.bit0_odd. destruct b; [by rewrite N.add_1_r, N.odd_succ, N.even_mul|by rewrite N.add_0_r, N.odd_mul].
Qed.

Lemma gen_of_inc u : gen_inc (gen_of u false) = gen_of u true.
Proof. unfold gen_inc, gen_of. rewrite i32_add. f_equal. lia. Qed.
Lemma gen_of_next u : gen_inc (gen_of u true) = gen_of (u + 1) false.
Proof. unfold gen_inc, gen_of. rewrite i32_add. f_equal. lia. Qed.
Lemma gen_of_dec u : gen_dec (gen_of u true) = gen_of u false.
Proof.
  unfold gen_dec, gen_of. rewrite i32_add. unfold i32.
  replace (2 * u + 1 + 4294967295) with (2 * u + 0 + 1 * 4294967296) by lia. by rewrite N.mod_add.
Qed.

Lemma gen_of_undo u : gen_dec (gen_of (u + 1) false) = gen_of u true.
Proof.
  unfold gen_dec, gen_of. rewrite i32_add. unfold i32.
  replace (2 * (u + 1) + 0 + 4294967295) with (2 * u + 1 + 1 * 4294967296) by lia. by rewrite N.mod_add.
Qed.

(** The word tells how often it was given back, up to 2^31. *)
Lemma gen_of_inj u u' b b' : gen_of u b = gen_of u' b' -> u <= u' -> u' < u + 2 ^ 31 -> u' = u /\ b' = b.
Proof.
  intros E H1 H2. assert (b' = b) as ->. { rewrite <- (gen_of_odd u b), E. by rewrite gen_of_odd. }
  split; [|done]. unfold gen_of, i32 in E. change (2 ^ 31) with 2147483648 in H2.
  set (c := if b then 1 else 0) in *.
  pose proof (N.div_mod (2 * u + c) 4294967296 ltac:(done)) as D1. pose proof (N.div_mod (2 * u' + c) 4294967296 ltac:(done)) as D2.
  rewrite <- E in D2.
  generalize dependent ((2 * u + c) / 4294967296). intros q1 D1.
  generalize dependent ((2 * u' + c) / 4294967296). intros q2 D2.
  generalize dependent ((2 * u + c) mod 4294967296). intros m _ D1 D2. nia.
Qed.

Section FineInv.
Context (K : list N -> Prop) (fetch : N -> list N) (HK : universe K).
Local Notation core := (core K fetch).
Local Notation inv := (inv K fetch).
Local Notation hok := (hok K fetch).

(** What is known about a past moment. *)
Definition snap_ok (q : hist * option trie) : Prop := maps (h_map q.1) (h_susp q.1) q.2 /\ exists s, core s q.2.

Record good (w : world) : Prop := {
  g_inv : inv (w_sys w) (w_hist w) (w_n w) (w_trie w) (w_lost w);
  g_n : w_n w < maxUint64;
  g_last : last (w_past w) = Some (w_hist w, w_trie w);
  g_past : Forall snap_ok (w_past w);
  g_locks : forall i, lget (t_locks (w_tree w)) i = gen_of (w_unl w i) (bool_decide (i ∈ held (sy_open (w_sys w))));
  g_256 : forall aid key op x, sy_open (w_sys w) !! aid = Some (HD key op) -> is_del256 op = true -> d_leafPtr op = PSlot x ->
    was_slot (w_past w) x;
  g_wake : wok w
}.

Definition mine (aid : nat) (w : world) (e : N) : Prop :=
  (exists l b, sy_open (w_sys w) !! aid = Some (HP l b)) /\ t_resv (w_tree w) !! aid = Some e.

(** What a step does to memory, as far as client [aid] in the middle of a call is concerned. *)
Record evo (aid : nat) (w w' : world) : Prop := {
  e_good : good w';
  e_mine : forall e, mine aid w e -> mine aid w' e;
  e_past : w_past w' = w_past w ++ [(w_hist w', w_trie w')] \/
    (w_past w' = w_past w /\ w_hist w' = w_hist w /\ w_trie w' = w_trie w);
  e_safe : forall e x, mine aid w e -> safe_from (w_tree w) e x -> safe_from (w_tree w') e x;
  e_mem : forall e x, mine aid w e -> safe_from (w_tree w) e x -> x ∉ cover (oregs (w_trie w')) ->
    mget (t_mem (w_tree w')) x = mget (t_mem (w_tree w)) x \/
    (exists b v, b < 256 /\ v < vlim /\ mget (t_mem (w_tree w)) x = buildLeaf b v /\ mget (t_mem (w_tree w')) x = 0 /\
       h_map (w_hist w') !! fetch v = None /\ was_slot (w_past w) x);
  e_fresh : forall e x, mine aid w e -> safe_from (w_tree w) e x -> x ∈ cover (oregs (w_trie w')) -> x ∈ cover (oregs (w_trie w));
  e_gone : exists G, gone (w_trie w) (w_trie w') G /\ forall x, x ∈ cover G -> x ∉ cover (oregs (w_trie w'))
}.

(** What a step does to the locks that are yet to be given back: some are given back, or another Finalize takes
    effect. *)
Definition wake_step (w w' : world) : Prop := w_few w' = w_few w /\
  (((exists l, w_ids w = l ++ w_ids w') /\ w_prev w' = w_prev w /\
     (w_ids w <> [] -> w_trie w' = w_trie w /\ forall i, w_unl w' i = w_unl w i)) \/
   (w_ids w = [] /\ w_prev w' = w_trie w /\ forall i, i ∈ w_ids w' -> w_unl w' i = w_unl w i + 1)).

Lemma wake_step_same w w' : w_wake w' = w_wake w -> (w_trie w' = w_trie w /\ w_unl w' = w_unl w) \/ w_ids w = [] -> wake_step w w'.
Proof.
  intros E H. split; [by rewrite E|left]. rewrite E. split_and!; [by exists []|done|]. intros Hn. destruct H as [[-> ->]|H]; done.
Qed.

(** A step of another client.  [nmax]: a bound on the number of Finalize, Abort and FlushStats steps of the
    run. *)
Record rely (aid : nat) (nmax : N) (w w' : world) : Prop := {
  r_evo : evo aid w w';
  r_n : w_n w <= w_n w' /\ w_n w' < nmax;
  r_open : sy_open (w_sys w') !! aid = sy_open (w_sys w) !! aid;
  r_resv : t_resv (w_tree w') !! aid = t_resv (w_tree w) !! aid;
  r_pend : forall p, h_pend (w_hist w) !! aid = Some p -> exists p', h_pend (w_hist w') !! aid = Some p' /\ pend_le p p' /\
    (w_trie w' = w_trie w \/ p_over p' = true);
  r_unl : forall i, w_unl w i <= w_unl w' i /\ w_unl w' i + w_n w <= w_unl w i + w_n w';
  r_own : forall hd i, sy_open (w_sys w) !! aid = Some hd -> i ∈ olids hd -> w_unl w' i = w_unl w i;
  r_kept : w_trie w' = w_trie w \/
    (oexts (w_trie w) (w_trie w') /\ (exists o, ooccr (w_trie w) o) /\
       forall p', h_pend (w_hist w') !! aid = Some p' -> p_del p' = true) \/
    exists X, keeps (w_trie w) (w_trie w') X /\ (forall a, a ∈ X -> a <> 0 /\ w_unl w (lock_id a) < w_unl w' (lock_id a)) /\
      (forall hd, sy_open (w_sys w) !! aid = Some hd -> oroot hd = true -> exists o, ooccr (w_trie w) o);
  r_wake : wake_step w w'
}.

(** ** Steps of the client itself *)

Definition act_ok (a : act) (hd : handle) : Prop :=
  match a with
  | ACas _ g => gen_odd g = false
  | ABack i => i ∈ olids hd
  | ARootBack => oroot hd = true
  | _ => True
  end.

Definition hdl (aid : nat) (w : world) : handle := default (HP [] false) (sy_open (w_sys w) !! aid).

(** A load of a word of memory: word 0, or one that is not given to another node before the client ends its call. *)
Definition act_safe (aid : nat) (a : act) (w : world) : Prop :=
  match a with ALoad (PSlot x) => x = 0 \/ exists e, mine aid w e /\ safe_from (w_tree w) e x | _ => True end.

Definition acted (aid : nat) (a : act) (v : N) (s' : tree) (w : world) : world :=
  World (Sys s' (<[aid := hp_act (hdl aid w) a v]> (sy_open (w_sys w)))) (w_hist w) (w_trie w) (w_lost w) (w_unl w) (w_n w)
    (w_past w ++ [(w_hist w, w_trie w)]) (w_wake w).

(** One access, with the locks that are yet to be given back still locked. *)
Definition lgen (w : world) (i : N) : N :=
  if bool_decide (i ∈ w_ids w) then gen_dec (lget (t_locks (w_tree w)) i) else lget (t_locks (w_tree w)) i.

Definition lact (w : world) (a : act) : res (N * tree) :=
  match a with
  | AGen i => Ok (lgen w i, w_tree w)
  | ACas i _ => if bool_decide (i ∈ w_ids w) then Ok (0, w_tree w) else do_act (w_tree w) a
  | ARootCas => if wk_root (w_wake w) then Ok (0, w_tree w) else do_act (w_tree w) a
  | _ => do_act (w_tree w) a
  end.

Lemma lact_plain w a : w_ids w = [] -> wk_root (w_wake w) = false -> lact w a = do_act (w_tree w) a.
Proof. intros E1 E2. unfold lact, lgen. rewrite E1, E2. destruct a; try done. Qed.

(** Program [p] of client [aid], begun in [w], makes only allowed steps, does not crash, and ends with [Q]. *)
Fixpoint ok {A} (aid : nat) (nmax : N) (p : prog A) (Q : A -> world -> Prop) (w : world) : Prop :=
  match p with
  | Ret a => forall w', rtc (rely aid nmax) w w' -> Q a w'
  | Stop Again => sy_open (w_sys w) !! aid = Some (HP [] false)
  | Stop _ => False
  | Act a k => forall w1, rtc (rely aid nmax) w w1 ->
      (act_ok a (hdl aid w1) /\ act_safe aid a w1) /\
      exists v s', lact w1 a = Ok (v, s') /\ ok aid nmax (k v) Q (acted aid a v s' w1)
  end.

Lemma ok_bind {A B} aid nmax (p : prog A) (k : A -> prog B) Q w :
  ok aid nmax p (fun a w' => ok aid nmax (k a) Q w') w -> ok aid nmax (pbind p k) Q w.
Proof.
  revert w. induction p as [a|e|a c IH]; intros w H; [|by destruct e|]; simpl in *.
  - by apply H.
  - intros w1 Hr. destruct (H w1 Hr) as (H1 & v & s' & H2 & H3). split; [done|]. exists v, s'. split; [done|]. by apply IH.
Qed.

Lemma ok_mono {A} aid nmax (p : prog A) (Q Q' : A -> world -> Prop) w :
  (forall a w', Q a w' -> Q' a w') -> ok aid nmax p Q w -> ok aid nmax p Q' w.
Proof.
  intros HQ. revert w. induction p as [a|e|a c IH]; intros w H; [|by destruct e|]; simpl in *.
  - intros w' Hr. auto.
  - intros w1 Hr. destruct (H w1 Hr) as (H1 & v & s' & H2 & H3). split; [done|]. exists v, s'. split; [done|]. by apply IH.
Qed.

Lemma ok_rtc {A} aid nmax (p : prog A) Q w w' : rtc (rely aid nmax) w w' -> ok aid nmax p Q w -> ok aid nmax p Q w'.
Proof.
  intros Hr. destruct p as [a|[]|a k]; simpl; try done.
  - intros H w1 H1. apply H. by etrans.
  - induction Hr as [|w w1 w' H1 _ IH]; [done|]. intros H. apply IH. by rewrite (r_open _ _ _ _ H1).
  - intros H w1 H1. apply H. by etrans.
Qed.

Lemma ok_ret {A} aid nmax (a : A) (Q : A -> world -> Prop) w :
  (forall w', rtc (rely aid nmax) w w' -> Q a w') -> ok aid nmax (Ret a) Q w.
Proof. done. Qed.

Lemma ok_rely {A} aid nmax (p : prog A) Q w w' : rely aid nmax w w' -> ok aid nmax p Q w -> ok aid nmax p Q w'.
Proof. intros H. apply ok_rtc. by apply rtc_once. Qed.

(** ** The invariant under a client's own steps *)

(** Another handle for a client; memory and reservations stay. *)
Lemma inv_swap y h n T lost aid hd hd' s1 p :
  inv y h n T lost -> sy_open y !! aid = Some hd -> h_pend h !! aid = Some p ->
  t_mem s1 = t_mem (sy_tree y) -> t_root s1 = t_root (sy_tree y) -> t_allocs s1 = t_allocs (sy_tree y) ->
  t_nextFreeBlock s1 = t_nextFreeBlock (sy_tree y) -> t_epoch s1 = t_epoch (sy_tree y) -> t_live s1 = t_live (sy_tree y) ->
  t_resv s1 = t_resv (sy_tree y) ->
  locks_inv (t_locks s1) (olids hd' ++ held (delete aid (sy_open y))) ->
  t_rootLock s1 = N.of_nat ((if oroot hd' then 1 else 0) + length (rootops (delete aid (sy_open y)))) ->
  ((if oroot hd' then 1 else 0) + length (rootops (delete aid (sy_open y))) <= 1)%nat ->
  hok s1 T aid p hd' ->
  inv (Sys s1 (<[aid := hd']> (sy_open y))) h n T lost.
Proof.
  intros Hi Ho Hp E1 E2 E3 E4 E5 E6 E7 Hl Hr1 Hr2 Hok.
  assert (Hd : delete aid (sy_open y) !! aid = None) by apply lookup_delete.
  assert (E : <[aid := hd']> (sy_open y) = <[aid := hd']> (delete aid (sy_open y))) by (by rewrite insert_delete_insert).
  split; cbn [sy_tree sy_open].
  - apply (core_ext K fetch (sy_tree y)); try done. apply Hi.
  - rewrite E. eapply locks_inv_perm; [|exact Hl]. by rewrite held_insert.
  - rewrite E, rootops_insert by done. done.
  - rewrite E, rootops_insert by done. done.
  - intros j hd1 Hj. destruct (decide (j = aid)) as [->|Hne].
    + rewrite lookup_insert in Hj. injection Hj as <-. eauto.
    + rewrite lookup_insert_ne in Hj by done. destruct (iv_ops _ _ _ _ _ _ _ Hi j hd1 Hj) as (q & Hq & Hh). exists q.
      split; [done|]. apply (hok_ext K fetch (sy_tree y)); try done. by rewrite E7.
  - intros j Hj. destruct (decide (j = aid)) as [->|Hne]; [by rewrite lookup_insert in Hj|].
    rewrite lookup_insert_ne in Hj by done. by eapply iv_none.
  - intros j hd1 Hj. rewrite E3. destruct (decide (j = aid)) as [->|Hne]; [by eapply (iv_aid _ _ _ _ _ _ _ Hi)|].
    rewrite lookup_insert_ne in Hj by done. by eapply iv_aid.
  - rewrite E3, E7. apply Hi.
  - intros j r Hr Hj. destruct (decide (j = aid)) as [->|Hne]; [by rewrite lookup_insert in Hj|].
    rewrite lookup_insert_ne in Hj by done. rewrite E7 in Hr. by eapply iv_idle.
  - intros j r hd1 Hr Hj. rewrite E5. rewrite E7 in Hr. destruct (decide (j = aid)) as [->|Hne].
    + by eapply (iv_busy _ _ _ _ _ _ _ Hi).
    + rewrite lookup_insert_ne in Hj by done. by eapply iv_busy.
  - rewrite E5. apply Hi.
  - apply Hi.
  - rewrite (len_ext (sy_tree y)) by done. apply Hi.
  - apply Hi.
Qed.

(** A call that leaves nothing open returns. *)
Lemma inv_leave y h n T lost aid :
  inv y h n T lost -> sy_open y !! aid = Some (HP [] false) ->
  inv (Sys (end_op (sy_tree y) aid) (delete aid (sy_open y)))
    (Hist (h_map h) (delete aid (h_pend h)) (h_susp h) (h_nsusp h) (h_off h)) n T lost.
Proof.
  intros Hi Ho. pose proof (locks_after _ _ _ _ _ _ _ _ _ Hi Ho) as Hl. pose proof (rl_after _ _ _ _ _ _ _ _ _ Hi Ho) as Hr.
  simpl in Hl, Hr.
  split; cbn [sy_tree sy_open h_pend h_map h_susp h_nsusp h_off].
  - apply (core_ext K fetch (sy_tree y)); try done. apply Hi.
  - done.
  - done.
  - pose proof (iv_rl1 _ _ _ _ _ _ _ Hi) as H. rewrite (rootops_delete _ _ _ Ho) in H. simpl in H. done.
  - intros j hd1 Hj. apply lookup_delete_Some in Hj as [Hne Hj]. rewrite lookup_delete_ne by done.
    destruct (iv_ops _ _ _ _ _ _ _ Hi j hd1 Hj) as (q & Hq & Hh). exists q.
    split; [done|]. apply (hok_ext K fetch (sy_tree y)); try done. simpl. by rewrite list_lookup_insert_ne.
  - intros j Hj. destruct (decide (j = aid)) as [->|Hne]; [by rewrite lookup_delete|].
    rewrite lookup_delete_ne in Hj by done. rewrite lookup_delete_ne by done. by eapply iv_none.
  - intros j hd1 Hj. apply lookup_delete_Some in Hj as [Hne Hj]. by eapply (iv_aid _ _ _ _ _ _ _ Hi).
  - simpl. rewrite insert_length. apply Hi.
  - intros j r Hr' Hj. simpl in Hr'. destruct (decide (j = aid)) as [->|Hne].
    + apply list_lookup_insert_Some in Hr' as [(_ & -> & _)|[? _]]; done.
    + rewrite list_lookup_insert_ne in Hr' by done. rewrite lookup_delete_ne in Hj by done. by eapply iv_idle.
  - intros j r hd1 Hr' Hj. simpl in Hr'. apply lookup_delete_Some in Hj as [Hne Hj].
    rewrite list_lookup_insert_ne in Hr' by done. by eapply (iv_busy _ _ _ _ _ _ _ Hi).
  - apply Hi.
  - apply Hi.
  - rewrite (len_ext (sy_tree y)) by done. apply Hi.
  - apply Hi.
Qed.

Lemma good_snap w : good w -> snap_ok (w_hist w, w_trie w).
Proof. intros Hg. split; [apply (g_inv _ Hg)|]. exists (w_tree w). apply (g_inv _ Hg). Qed.

(** ** One access *)

Definition same_tree (s s' : tree) : Prop :=
  t_mem s' = t_mem s /\ t_root s' = t_root s /\ t_allocs s' = t_allocs s /\ t_nextFreeBlock s' = t_nextFreeBlock s /\
  t_epoch s' = t_epoch s /\ t_live s' = t_live s /\ t_resv s' = t_resv s.

Lemma do_act_same s a v s' : do_act s a = Ok (v, s') -> same_tree s s'.
Proof.
  unfold same_tree. destruct a; simpl.
  - by intros [= _ <-].
  - intros H. unbind H. by injection H as _ <-.
  - by intros [= _ <-].
  - destruct (lock_cas _ _ _ _); by intros [= _ <-].
  - by intros [= _ <-].
  - destruct (_ =? 0); by intros [= _ <-].
  - by intros [= _ <-].
Qed.

Lemma elem_filter_ne (i j : N) (l : list N) : j ∈ filter (fun j => j <> i) l <-> j ∈ l /\ j <> i.
Proof. rewrite elem_of_list_filter. naive_solver. Qed.

Lemma lact_cases w a v s' : lact w a = Ok (v, s') ->
  (do_act (w_tree w) a = Ok (v, s') /\ (forall i g, a = ACas i g -> i ∉ w_ids w) /\ (a = ARootCas -> wk_root (w_wake w) = false)) \/
  (s' = w_tree w /\ forall hd, hp_act hd a v = hd).
Proof.
  unfold lact. destruct a as [q|node|i|i g|i| |]; try (intros H; left; done).
  - intros [= <- <-]. right. split; [done|by intros []].
  - case_bool_decide; [|intros E'; left; split_and!; [done|by intros ? ? [= <- <-]|done]]. intros [= <- <-]. right. split; [done|by intros []].
  - destruct (wk_root _); [|intros E'; left; done]. intros [= <- <-]. right. split; [done|by intros []].
Qed.

Lemma lact_same w a v s' : lact w a = Ok (v, s') -> same_tree (w_tree w) s'.
Proof. intros [[H _]|[-> _]]%lact_cases; [by eapply do_act_same|done]. Qed.

(** A step that changes nothing but perhaps what is yet to be given back. *)
Lemma good_still w w' : good w -> w_sys w' = w_sys w -> w_hist w' = w_hist w -> w_trie w' = w_trie w -> w_lost w' = w_lost w ->
  w_unl w' = w_unl w -> w_n w' = w_n w -> w_past w' = w_past w \/ w_past w' = w_past w ++ [(w_hist w, w_trie w)] -> wok w' -> good w'.
Proof.
  intros Hg E1 E2 E3 E4 E5 E6 Hp Hw. pose proof (g_inv _ Hg) as Hi. split; try done; rewrite ?E1, ?E2, ?E3, ?E4, ?E5, ?E6; try apply Hg.
  - destruct Hp as [->| ->]; [apply Hg|by rewrite last_snoc].
  - destruct Hp as [->| ->]; [apply Hg|]. apply Forall_app. split; [apply Hg|]. apply Forall_singleton. by apply good_snap.
  - intros j key op x Hj H256 Hptr. pose proof (g_256 _ Hg _ _ _ _ Hj H256 Hptr) as Hs. destruct Hp as [->| ->]; [done|].
    destruct (decide (x ∈ cover (oregs (w_trie w)))) as [Hin|Hin]; [|by apply was_slot_snoc].
    destruct (iv_ops _ _ _ _ _ _ _ Hi _ _ Hj) as (q & Hq & Hokq). simpl in Hokq. destruct Hokq as (_ & _ & _ & Hv).
    assert (d_isroot (d_kind op) = false) as Er by (unfold is_del256, d_isroot in *; by destruct (d_kind op)).
    rewrite Er, H256 in Hv. destruct Hv as (b0 & x0 & r & Hb0 & _ & Hp0 & _ & _ & [(o & Hocc & Hf & Hx & _)|(_ & Hx & _)]).
    + rewrite Hptr in Hp0. injection Hp0 as <-. by eapply was_slot_live.
    + rewrite Hptr in Hp0. injection Hp0 as <-. done.
Qed.

Lemma good_acted aid w a v s' l b : good w -> sy_open (w_sys w) !! aid = Some (HP l b) -> act_ok a (HP l b) ->
  lact w a = Ok (v, s') -> good (acted aid a v s' w).
Proof.
  intros Hg Ho Ha Hd0. apply lact_cases in Hd0 as [(Hd & Hni & Hnr)|[-> Hh]].
  2:{ assert (acted aid a v (w_tree w) w = World (w_sys w) (w_hist w) (w_trie w) (w_lost w) (w_unl w) (w_n w)
        (w_past w ++ [(w_hist w, w_trie w)]) (w_wake w)) as ->.
      { unfold acted. f_equal. rewrite Hh. unfold hdl. rewrite Ho. simpl. rewrite insert_id by done. by destruct (w_sys w). }
      eapply good_still; try done; [by right|]. destruct (g_wake _ Hg). by split. }
  pose proof (g_inv _ Hg) as Hi. pose proof (do_act_same _ _ _ _ Hd) as (E1 & E2 & E3 & E4 & E5 & E6 & E7).
  assert (Eh : hdl aid w = HP l b) by (unfold hdl; by rewrite Ho).
  destruct (iv_ops _ _ _ _ _ _ _ Hi _ _ Ho) as (p & Hp & Hok).
  pose proof (locks_after _ _ _ _ _ _ _ _ _ Hi Ho) as Hl. simpl in Hl.
  pose proof (iv_rl _ _ _ _ _ _ _ Hi) as Hrl. pose proof (iv_rl1 _ _ _ _ _ _ _ Hi) as Hrl1.
  rewrite (rootops_delete _ _ _ Ho) in Hrl, Hrl1. cbn [oroot] in Hrl, Hrl1.
  pose proof (g_locks _ Hg) as Hgl.
  assert (Hheld : forall i, i ∈ held (sy_open (w_sys w)) <-> i ∈ l \/ i ∈ held (delete aid (sy_open (w_sys w)))).
  { intros i. rewrite (held_delete _ _ _ Ho). by rewrite elem_of_app. }
  (* the new handle and lock words *)
  assert (exists l' b', hp_act (HP l b) a v = HP l' b' /\
    locks_inv (t_locks s') (l' ++ held (delete aid (sy_open (w_sys w)))) /\
    (forall i, lget (t_locks s') i = gen_of (w_unl w i) (bool_decide (i ∈ l' ++ held (delete aid (sy_open (w_sys w)))))) /\
    t_rootLock s' = N.of_nat ((if b' then 1 else 0) + length (rootops (delete aid (sy_open (w_sys w))))) /\
    ((if b' then 1 else 0) + length (rootops (delete aid (sy_open (w_sys w)))) <= 1)%nat) as (l' & b' & Ehp & L1 & L2 & L3 & L4).
  { assert (Hsame : t_locks s' = t_locks (w_tree w) -> t_rootLock s' = t_rootLock (w_tree w) -> hp_act (HP l b) a v = HP l b ->
      exists l' b', hp_act (HP l b) a v = HP l' b' /\
    locks_inv (t_locks s') (l' ++ held (delete aid (sy_open (w_sys w)))) /\
    (forall i, lget (t_locks s') i = gen_of (w_unl w i) (bool_decide (i ∈ l' ++ held (delete aid (sy_open (w_sys w)))))) /\
    t_rootLock s' = N.of_nat ((if b' then 1 else 0) + length (rootops (delete aid (sy_open (w_sys w))))) /\
    ((if b' then 1 else 0) + length (rootops (delete aid (sy_open (w_sys w)))) <= 1)%nat).
    { intros F1 F2 F3. exists l, b. rewrite F1, F2. split_and!; try done. intros i. rewrite Hgl. f_equal.
      apply bool_decide_ext. rewrite Hheld, elem_of_app. done. }
    destruct a as [q|node|i|i g|i| |]; simpl in Hd.
    - injection Hd as <- <-. by apply Hsame.
    - unbind Hd. injection Hd as <- <-. by apply Hsame.
    - injection Hd as <- <-. by apply Hsame.
    - simpl in Ha. unfold lock_cas in Hd. destruct (N.eqb_spec (lget (t_locks (w_tree w)) i) g) as [Eg|Eg].
      + injection Hd as <- <-. exists (i :: l), b. simpl. split_and!; try done.
        * rewrite <- Eg. apply lock_word_ok; [done|]. eapply not_odd_not_held; [done|]. by rewrite Eg.
        * intros j. rewrite lget_mset. destruct (decide (i = j)) as [<-|Hne].
          -- rewrite bool_decide_true by left. rewrite <- Eg, Hgl.
             rewrite bool_decide_false; [apply gen_of_inc|]. intros Hin. rewrite Hgl in Eg.
             rewrite bool_decide_true in Eg by done. rewrite <- Eg, gen_of_odd in Ha. done.
          -- rewrite Hgl. f_equal. apply bool_decide_ext. rewrite Hheld, elem_of_cons, elem_of_app. naive_solver.
      + injection Hd as <- <-. by apply Hsame.
    - simpl in Ha. injection Hd as <- <-. exists (filter (fun j => j <> i) l), b. simpl.
      assert (Hnd : NoDup (l ++ held (delete aid (sy_open (w_sys w))))) by apply Hl.
      apply NoDup_app in Hnd as (N1 & N2 & N3).
      assert (Hin : forall j, j ∈ filter (fun j => j <> i) l ++ held (delete aid (sy_open (w_sys w))) <->
         (j ∈ l ++ held (delete aid (sy_open (w_sys w)))) /\ j <> i).
      { intros j. rewrite !elem_of_app, elem_filter_ne. split; [|tauto]. intros [?|Hj]; [tauto|]. split; [tauto|].
        intros ->. by apply (N2 i). }
      split_and!; try done.
      + split.
        * apply NoDup_app. split_and!; [by apply NoDup_filter| |done]. intros j [Hj _]%elem_filter_ne. by apply N2.
        * intros j. rewrite lget_mset, Hin. destruct (decide (i = j)) as [<-|Hne].
          -- rewrite Hgl. rewrite bool_decide_true by (apply Hheld; by left). rewrite gen_of_dec, gen_of_odd. naive_solver.
          -- rewrite (li_odd _ _ Hl j). naive_solver.
      + intros j. rewrite lget_mset. destruct (decide (i = j)) as [<-|Hne].
        * rewrite Hgl. rewrite bool_decide_true by (apply Hheld; by left). rewrite gen_of_dec.
          rewrite bool_decide_false; [done|]. rewrite Hin. naive_solver.
        * rewrite Hgl. f_equal. apply bool_decide_ext. rewrite Hin, Hheld, elem_of_app. naive_solver.
    - destruct (N.eqb_spec (t_rootLock (w_tree w)) 0) as [E0|E0].
      + injection Hd as <- <-. exists l, true. simpl.
        assert (length (rootops (delete aid (sy_open (w_sys w)))) = 0%nat) as -> by (destruct b; lia).
        split_and!; try done. intros i. rewrite Hgl. f_equal. apply bool_decide_ext. rewrite Hheld, elem_of_app. done.
      + injection Hd as <- <-. by apply Hsame.
    - simpl in Ha. subst b. injection Hd as <- <-. exists l, false. simpl.
      assert (E0 : length (rootops (delete aid (sy_open (w_sys w)))) = 0%nat) by lia.
      split_and!; try done.
      + intros i. rewrite Hgl. f_equal. apply bool_decide_ext. rewrite Hheld, elem_of_app. done.
      + rewrite Hrl, E0. done.
      + lia. }
  split; cbn [acted w_sys w_hist w_trie w_lost w_unl w_n w_past sy_tree sy_open].
  - rewrite Eh, Ehp. eapply inv_swap; try done.
    apply (hok_ext K fetch (w_tree w)); try done. by rewrite E7.
  - apply Hg.
  - by rewrite last_snoc.
  - apply Forall_app. split; [apply Hg|]. apply Forall_singleton. by apply good_snap.
  - intros i. rewrite L2. f_equal. apply bool_decide_ext. rewrite Eh, Ehp.
    rewrite <- insert_delete_insert. rewrite held_insert by apply lookup_delete. done.
  - intros j key op x Hj H256 Hptr. rewrite Eh, Ehp in Hj. destruct (decide (j = aid)) as [->|Hne].
    { by rewrite lookup_insert in Hj. }
    rewrite lookup_insert_ne in Hj by done. pose proof (g_256 _ Hg _ _ _ _ Hj H256 Hptr) as Hw.
    destruct (decide (x ∈ cover (oregs (w_trie w)))) as [Hin|Hin]; [|by apply was_slot_snoc].
    destruct (iv_ops _ _ _ _ _ _ _ Hi _ _ Hj) as (q & Hq & Hokq). simpl in Hokq. destruct Hokq as (_ & _ & _ & Hv).
    assert (d_isroot (d_kind op) = false) as Er by (unfold is_del256, d_isroot in *; by destruct (d_kind op)).
    rewrite Er, H256 in Hv. destruct Hv as (b0 & x0 & r & Hb0 & _ & Hp0 & _ & _ & [(o & Hocc & Hf & Hx & _)|(_ & Hx & _)]).
    + rewrite Hptr in Hp0. injection Hp0 as <-. by eapply was_slot_live.
    + rewrite Hptr in Hp0. injection Hp0 as <-. done.
  - destruct (g_wake _ Hg) as [W1 W2 W3 W4 W5]. split; cbn [acted w_sys w_hist w_trie w_lost w_unl w_n w_past w_wake sy_tree sy_open]; try done.
    + intros i Hin. destruct (W1 i Hin) as [Hh H1]. split; [|done]. rewrite Hheld in Hh. rewrite Eh, <- insert_delete_insert, held_insert by apply lookup_delete.
      rewrite elem_of_app. intros [H|H]; [|tauto]. destruct a; simpl in H; try tauto.
      * destruct (v =? 0); simpl in H; [tauto|]. apply elem_of_cons in H as [->|H]; [|tauto]. by eapply Hni.
      * apply elem_filter_ne in H as [H _]. tauto.
      * destruct (v =? 0); simpl in H; tauto.
    + intros Hr. pose proof (W2 Hr) as H0. rewrite (rootops_delete _ _ _ Ho) in H0. cbn [oroot] in H0.
      rewrite Eh, <- insert_delete_insert, rootops_insert by apply lookup_delete.
      destruct b; [done|]. cbn in H0. rewrite H0. destruct a; simpl; try done; [by destruct (v =? 0)|].
      by rewrite Hnr in Hr.
Qed.
End FineInv.
