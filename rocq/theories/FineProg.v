(** * FineProg: how long interrupted calls take, and when they have to start again. *)
From Verif Require Export FineProps FineExec.

(** ** Programs with a bounded number of accesses *)

Fixpoint short {A} (n : N) (p : prog A) : Prop :=
  match p with
  | Act _ k => 1 <= n /\ forall v, short (n - 1) (k v)
  | _ => True
  end.

Lemma short_mono {A} n m (p : prog A) : short n p -> n <= m -> short m p.
Proof.
  revert n m. induction p as [a|e|a k IH]; intros n m H Hle; try done. destruct H as [H1 H2]. split; [lia|].
  intros v. eapply IH; [apply H2|lia].
Qed.

Lemma short_bind {A B} n m (p : prog A) (k : A -> prog B) : short n p -> (forall a, short m (k a)) -> short (n + m) (pbind p k).
Proof.
  revert n. induction p as [a|e|a c IH]; intros n H Hk; [|done|].
  - eapply short_mono; [apply Hk|lia].
  - destruct H as [H1 H2]. split; [lia|]. intros v. eapply short_mono; [by apply IH|lia].
Qed.

(** For goals of the form [short _ (run ...)] with a known total. *)
Lemma short_run {A B} n m t (p : prog A) (k : A -> prog B) : n + m <= t -> short n p -> (forall a, short m (k a)) -> short t (pbind p k).
Proof. intros H H1 H2. eapply short_mono; [by apply short_bind|done]. Qed.

Lemma short_res {A} n (r : res A) : short n (of_res r).
Proof. by destruct r. Qed.
Lemma short_load p : short 1 (p_load p).
Proof. done. Qed.
Lemma short_data node : short 1 (p_data node).
Proof. done. Qed.
Lemma short_get d i : short 1 (p_get d i).
Proof. unfold p_get. by destruct (_ <? _). Qed.
Lemma short_gen node : short 2 (p_gen node).
Proof. done. Qed.
Lemma short_skip d len : short 1 (p_skip d len).
Proof.
  unfold p_skip. destruct len as [|len]; [done|]. apply (short_run 1 0); [done| |].
  - destruct (_ =? 255)%nat; [|done]. apply (short_run 1 0); [done|apply short_get|done].
  - intros [n slots]. apply (short_run 0 0); [done|apply short_res|done].
Qed.
Lemma short_words base n : short (N.of_nat n) (p_words base n).
Proof.
  revert base. induction n as [|n IH]; intros base; [done|]. cbn [p_words]. apply (short_run 1 (N.of_nat n)); [lia|done|].
  intros w. apply (short_run (N.of_nat n) 0); [lia|apply IH|done].
Qed.
Lemma short_append src len : sl_len src <= blockSlots -> short (1 + blockSlots) (p_append src len).
Proof.
  intros Hs. unfold p_append. destruct len as [|len]; [done|].
  set (q := (if (S len =? 255)%nat then _ else _)). 
  assert (Hq : short 1 q /\ forall B (k : nat * nat * slice -> prog B), (forall n slots s1, sl_len s1 <= blockSlots -> short blockSlots (k (n, slots, s1))) ->
    short (1 + blockSlots) (pbind q k)).
  { split.
    - subst q. destruct (_ =? 255)%nat; [|done]. apply (short_run 1 0); [done|apply short_get|]. intros w. apply (short_run 0 0); [done|apply short_res|done].
    - intros B k Hk. subst q. destruct (_ =? 255)%nat.
      + unfold p_get. destruct (_ <? _); [|done]. cbn [pbind p_load]. split; [lia|]. intros w.
        unfold sl_from. destruct (_ <=? _); [|done]. cbn [of_res pbind].
        eapply short_mono; [apply Hk; cbn [sl_len]; lia|lia].
      + cbn [pbind]. eapply short_mono; [by apply Hk|lia]. }
  apply Hq. clear q Hq Hs len src. intros n slots s1 Hs. destruct (n =? 0)%nat; [done|]. destruct (sl_len s1 =? 0); [done|].
  destruct (N.ltb_spec (8 * sl_len s1) (N.of_nat n)) as [Hlt|Hge]; [done|].
  apply (short_run (N.of_nat ((n + 7) / 8)) 0); [|apply short_words|done].
  assert (N.of_nat ((n + 7) / 8) <= sl_len s1); [|lia].
  pose proof (Nat.div_mod_eq (n + 7) 8) as D. pose proof (Nat.mod_upper_bound (n + 7) 8 ltac:(lia)) as M.
  generalize dependent ((n + 7) / 8)%nat. generalize dependent ((n + 7) mod 8)%nat. intros. lia.
Qed.
Lemma short_scan base k i n last : short (N.of_nat n) (p_scan base k i n last).
Proof.
  revert i last. induction n as [|n IH]; intros i last; [done|]. cbn [p_scan]. apply (short_run 1 (N.of_nat n)); [lia|done|].
  intros a. destruct (k <=? to_byte a); [done|apply IH].
Qed.
Lemma short_scan127 base k i n last : (fullAllocFrom <=? n)%nat = false -> short 127 (p_scan base k i n last).
Proof. intros H. apply Nat.leb_gt in H. unfold fullAllocFrom in H. eapply short_mono; [apply short_scan|lia]. Qed.

Lemma short_search_loop fuel key node count plen depth :
  short (129 * N.of_nat fuel) (p_search_loop fuel key node count plen depth).
Proof.
  revert node count plen depth. induction fuel as [|fuel IH]; intros node count plen depth; [done|]. cbn [p_search_loop].
  apply (short_run 1 (128 + 129 * N.of_nat fuel)); [lia|apply short_data|]. intros data.
  apply (short_run 1 (127 + 129 * N.of_nat fuel)); [lia|apply short_skip|]. intros [[n sl] data1].
  destruct (_ <=? _)%nat; [done|]. apply (short_run 0 (127 + 129 * N.of_nat fuel)); [lia|apply short_res|]. intros k.
  destruct (fullAllocFrom <=? count)%nat eqn:Ef.
  - apply (short_run 1 (126 + 129 * N.of_nat fuel)); [lia|apply short_get|]. intros a. destruct (a =? 0); [done|]. destruct (isLeaf a); [done|].
    destruct (explodeNode a) as [[[? ?] ?] ?]. eapply short_mono; [apply IH|lia].
  - apply (short_run 0 (127 + 129 * N.of_nat fuel)); [lia|apply short_res|]. intros _.
    apply (short_run 127 (129 * N.of_nat fuel)); [lia|by apply short_scan127|]. intros [[brk i] a].
    destruct (_ =? k); [|done]. destruct (isLeaf a); [done|]. destruct (explodeNode a) as [[[? ?] ?] ?]. apply IH.
Qed.

Lemma short_search key : short (1 + 129 * (1 + N.of_nat (length key))) (p_search key).
Proof.
  unfold p_search. apply (short_run 1 (129 * (1 + N.of_nat (length key)))); [lia|done|]. intros root. destruct (isLeaf root).
  - apply (short_run 0 0); [lia|apply short_res|]. intros k. by destruct (_ =? k).
  - destruct (explodeNode root) as [[[? ?] ?] ?]. eapply short_mono; [apply short_search_loop|lia].
Qed.

Lemma short_lock_root w : short 3 (p_lock_root w).
Proof. unfold p_lock_root. split; [lia|]. intros v. destruct (v =? 0); [done|]. split; [lia|]. intros u. by destruct (u =? w). Qed.
Lemma short_lock1 a g : short 1 (p_lock1 a g).
Proof. unfold p_lock1. destruct (gen_odd g); [done|]. split; [lia|]. intros v. by destruct (v =? 0). Qed.
Lemma short_lock2 a g b h : short 3 (p_lock2 a g b h).
Proof.
  unfold p_lock2. destruct (b =? 0); [eapply short_mono; [apply short_lock1|lia]|]. destruct (_ || _); [done|]. split; [lia|]. intros v.
  destruct (v =? 0); [done|]. destruct (_ =? _); [done|]. split; [lia|]. intros u. by destruct (u =? 0).
Qed.
Lemma short_lock3 c f a g b h : short 5 (p_lock3 c f a g b h).
Proof.
  unfold p_lock3. destruct (b =? 0); [eapply short_mono; [apply short_lock2|lia]|]. destruct (_ || _); [done|]. split; [lia|]. intros v.
  destruct (v =? 0); [done|]. destruct (lock_id a =? lock_id c).
  - cbn [negb pbind]. destruct (_ || _); [done|]. split; [lia|]. intros u. by destruct (u =? 0).
  - cbn [negb pbind]. split; [lia|]. intros u. destruct (u =? 0); [done|]. cbn [pbind]. destruct (_ || _); [done|].
    split; [lia|]. intros u'. by destruct (u' =? 0).
Qed.

(** Accesses for one level of the tree. *)
Definition upd_level : N := 137 + blockSlots.
Definition del_level : N := 146 + 2 * blockSlots.

Lemma short_upd_loop fuel aid key raw np parent pg depth : 
  short (upd_level * N.of_nat fuel) (p_pu_loop fuel aid key raw np parent pg depth).
Proof.
  revert raw np parent pg depth. induction fuel as [|fuel IH]; intros raw np parent pg depth; [done|]. cbn [p_pu_loop].
  set (R := upd_level * N.of_nat fuel) in *. assert (ER : upd_level * N.of_nat (S fuel) = 137 + blockSlots + R) by (subst R; unfold upd_level; lia).
  rewrite ER. destruct (explodeNode raw) as [[[? node] count] plen].
  apply (short_run 2 (135 + blockSlots + R)); [lia|apply short_gen|]. intros g.
  apply (short_run 1 (134 + blockSlots + R)); [lia|apply short_load|]. intros w. destruct (negb _); [done|].
  apply (short_run 2 (132 + blockSlots + R)); [lia|destruct (parent =? 0); [done|apply short_gen]|]. intros g'. destruct (negb _); [done|].
  unfold p_data. cbn [pbind]. split; [lia|]. intros _.
  apply (short_run (1 + blockSlots) (130 + R)); [lia|apply short_append; cbn [sl_len]; lia|]. intros [prefix pslots].
  destruct (prefix_cmp _ _ _ _) as [|i|]; [done| |].
  { apply (short_run 0 3); [lia|apply short_res|]. intros k. apply (short_run 3 0); [lia|apply short_lock2|done]. }
  apply (short_run 0 (130 + R)); [lia|apply short_res|]. intros data1.
  apply (short_run 0 (130 + R)); [lia|apply short_res|]. intros k. destruct (fullAllocFrom <=? count)%nat eqn:Ef.
  - apply (short_run 1 (3 + R)); [lia|apply short_get|]. intros a. destruct (a =? 0); [|destruct (isLeaf a)].
    + apply (short_run 3 0); [lia|apply short_lock2|done].
    + apply (short_run 3 0); [lia|apply short_lock2|done].
    + eapply short_mono; [apply IH|lia].
  - apply (short_run 0 (130 + R)); [lia|apply short_res|]. intros _.
    apply (short_run 127 (3 + R)); [lia|by apply short_scan127|]. intros [[brk i] a]. destruct (_ =? k); [destruct (isLeaf a)|].
    + apply (short_run 3 0); [lia|apply short_lock2|done].
    + eapply short_mono; [apply IH|lia].
    + apply (short_run 3 0); [lia|apply short_lock2|done].
Qed.

Lemma short_upd aid key : short (1 + upd_level * (1 + N.of_nat (length key))) (p_prepare_update aid key).
Proof.
  unfold p_prepare_update. assert (3 <= upd_level * (1 + N.of_nat (length key))) by (unfold upd_level; lia).
  apply (short_run 1 (upd_level * (1 + N.of_nat (length key)))); [lia|done|]. intros root. destruct (root =? 0); [|destruct (isLeaf root)].
  - apply (short_run 3 0); [lia|apply short_lock_root|]. intros _. apply (short_run 0 0); [lia|apply short_res|done].
  - apply (short_run 3 0); [lia|apply short_lock_root|]. intros _. apply (short_run 0 0); [lia|apply short_res|]. intros k. by destruct (_ =? k).
  - eapply short_mono; [apply short_upd_loop|lia].
Qed.

Lemma short_del_loop fuel aid key root raw np parent pg depth : 
  short (del_level * N.of_nat fuel) (p_pd_loop fuel aid key root raw np parent pg depth).
Proof.
  revert raw np parent pg depth. induction fuel as [|fuel IH]; intros raw np parent pg depth; [done|]. cbn [p_pd_loop].
  set (R := del_level * N.of_nat fuel) in *. assert (ER : del_level * N.of_nat (S fuel) = 146 + 2 * blockSlots + R) by (subst R; unfold del_level; lia).
  rewrite ER. destruct (explodeNode raw) as [[[? node] count] plen0].
  apply (short_run 2 (144 + 2 * blockSlots + R)); [lia|apply short_gen|]. intros g.
  apply (short_run 1 (143 + 2 * blockSlots + R)); [lia|apply short_load|]. intros w. destruct (negb _); [done|].
  apply (short_run 2 (141 + 2 * blockSlots + R)); [lia|destruct (parent =? 0); [done|apply short_gen]|]. intros g'. destruct (negb _); [done|].
  unfold p_data at 1. cbn [pbind]. split; [lia|]. intros _.
  apply (short_run 1 (139 + 2 * blockSlots + R)); [lia|apply short_skip|]. intros [[plen pslots] data1].
  destruct (_ <=? _)%nat; [done|]. apply (short_run 0 (139 + 2 * blockSlots + R)); [lia|apply short_res|]. intros k.
  destruct (fullAllocFrom <=? count)%nat eqn:Ef.
  - apply (short_run 1 R); [lia|apply short_get|]. intros a. destruct (a =? 0); [done|]. destruct (isLeaf a); [done|]. apply IH.
  - apply (short_run 0 (139 + 2 * blockSlots + R)); [lia|apply short_res|]. intros _.
    apply (short_run 127 (12 + 2 * blockSlots + R)); [lia|by apply short_scan127|]. intros [[brk i] a]. destruct (_ =? k); [|done].
    destruct (isLeaf a); [|eapply short_mono; [apply IH|lia]]. destruct (count =? 2)%nat.
    + apply (short_run 1 (11 + 2 * blockSlots)); [lia|apply short_get|]. intros other. destruct (isLeaf other).
      * apply (short_run 3 0); [lia|apply short_lock2|]. intros _. apply (short_run 0 0); [lia|apply short_res|done].
      * destruct (explodeNode other) as [[[ck child] cc] cl]. apply (short_run 2 (9 + 2 * blockSlots)); [lia|apply short_gen|]. intros cg.
        apply (short_run 1 (8 + 2 * blockSlots)); [lia|apply short_get|]. intros again. destruct (negb _); [done|].
        eapply (short_run 5 _); [|apply short_lock3|]; cycle 1.
        -- intros _. eapply (short_run (1 + blockSlots) (2 + blockSlots)); [reflexivity|apply short_append; cbn [sl_len]; lia|]. intros [pre ?].
           unfold p_data. cbn [pbind]. split; [lia|]. intros _. apply (short_run (1 + blockSlots) 0); [lia|apply short_append; cbn [sl_len]; lia|].
           by intros [].
        -- lia.
    + apply (short_run 3 0); [lia|apply short_lock2|done].
Qed.

Lemma short_del aid key : short (1 + del_level * (1 + N.of_nat (length key))) (p_prepare_delete aid key).
Proof.
  unfold p_prepare_delete. assert (3 <= del_level * (1 + N.of_nat (length key))) by (unfold del_level; lia).
  apply (short_run 1 (del_level * (1 + N.of_nat (length key)))); [lia|done|]. intros root. destruct (root =? 0); [done|destruct (isLeaf root)].
  - apply (short_run 0 3); [lia|apply short_res|]. intros k. destruct (_ =? k); [|done]. apply (short_run 3 0); [lia|apply short_lock_root|done].
  - eapply short_mono; [apply short_del_loop|lia].
Qed.

(** ** Lookup only reads, and never starts again *)

Fixpoint plain {A} (p : prog A) : Prop :=
  match p with
  | Ret _ => True
  | Stop e => match e with Again => False | _ => True end
  | Act a k => match a with ALoad _ | ABlock _ => True | _ => False end /\ forall v, plain (k v)
  end.

Lemma plain_bind {A B} (p : prog A) (k : A -> prog B) : plain p -> (forall a, plain (k a)) -> plain (pbind p k).
Proof.
  induction p as [a|e|a c IH]; intros H Hk; [apply Hk|done|]. destruct H as [H1 H2]. split; [done|]. intros v. by apply IH.
Qed.
Lemma plain_res {A} (r : res A) : r <> Retry -> plain (of_res r).
Proof. by destruct r. Qed.
Lemma plain_get d i : plain (p_get d i).
Proof. unfold p_get. by destruct (_ <? _). Qed.
Lemma plain_from d i : plain (of_res (sl_from d i)).
Proof. unfold sl_from. by destruct (_ <=? _). Qed.
Lemma plain_upto d i : plain (of_res (sl_upto d i)).
Proof. unfold sl_upto. by destruct (_ <=? _). Qed.
Lemma plain_key key i : plain (of_res (key_at key i)).
Proof. apply plain_res. unfold key_at. by destruct (_ !! _). Qed.
Lemma plain_skip d len : plain (p_skip d len).
Proof.
  unfold p_skip. destruct len as [|len]; [done|]. apply plain_bind.
  - destruct (_ =? 255)%nat; [|done]. apply plain_bind; [apply plain_get|done].
  - intros [n slots]. apply plain_bind; [apply plain_from|done].
Qed.
Lemma plain_scan base k i n last : plain (p_scan base k i n last).
Proof.
  revert i last. induction n as [|n IH]; intros i last; [done|]. cbn [p_scan]. apply plain_bind; [done|]. intros a.
  destruct (k <=? to_byte a); [done|apply IH].
Qed.

Lemma plain_search_loop fuel key node count plen depth : plain (p_search_loop fuel key node count plen depth).
Proof.
  revert node count plen depth. induction fuel as [|fuel IH]; intros node count plen depth; [done|]. cbn [p_search_loop].
  apply plain_bind; [done|]. intros data. apply plain_bind; [apply plain_skip|]. intros [[n sl] data1].
  destruct (_ <=? _)%nat; [done|]. apply plain_bind; [apply plain_key|]. intros k. destruct (fullAllocFrom <=? count)%nat.
  - apply plain_bind; [apply plain_get|]. intros a. destruct (a =? 0); [done|]. destruct (isLeaf a); [done|].
    destruct (explodeNode a) as [[[? ?] ?] ?]. apply IH.
  - apply plain_bind; [apply plain_upto|]. intros _. apply plain_bind; [apply plain_scan|]. intros [[brk i] a].
    destruct (_ =? k); [|done]. destruct (isLeaf a); [done|]. destruct (explodeNode a) as [[[? ?] ?] ?]. apply IH.
Qed.

Lemma plain_search key : plain (p_search key).
Proof.
  unfold p_search. apply plain_bind; [done|]. intros root. destruct (isLeaf root).
  - apply plain_bind; [apply plain_key|]. intros k. by destruct (_ =? k).
  - destruct (explodeNode root) as [[[? ?] ?] ?]. apply plain_search_loop.
Qed.

(** ** Counting accesses in histories *)

(** The number of memory accesses of client [aid]. *)
Definition is_act (aid : nat) (e : event) : bool := match e with EAct a _ => (a =? aid)%nat | _ => false end.
Definition nacts (aid : nat) (tr : list event) : N := N.of_nat (length (filter (fun e => is_act aid e = true) tr)).

(** The most accesses one attempt makes: for each byte of the key and once more, one level of the tree. *)
Definition budget (c : call) : N :=
  match c with
  | CLookup _ key => 1 + 129 * (1 + N.of_nat (length key))
  | CPrepU _ key => 1 + upd_level * (1 + N.of_nat (length key))
  | CPrepD _ key => 1 + del_level * (1 + N.of_nat (length key))
  | _ => 0
  end.

Lemma short_program c : short (budget c) (program_of c).
Proof.
  destruct c as [aid key|aid key| | |aid key| | | |]; try done; cbn [program_of budget].
  - eapply short_run; [apply N.eq_le_incl, N.add_0_r|apply short_search|]. by intros [].
  - eapply short_run; [apply N.eq_le_incl, N.add_0_r|apply short_upd|]. by intros [].
  - eapply short_run; [apply N.eq_le_incl, N.add_0_r|apply short_del|]. done.
Qed.

Lemma budget_le c : budget c <= 1 + 524434 * (1 + N.of_nat (length (job_key c))).
Proof. destruct c; cbn [budget job_key]; unfold upd_level, del_level, blockSlots; lia. Qed.

Lemma nacts_app aid tr tr' : nacts aid (tr ++ tr') = nacts aid tr + nacts aid tr'.
Proof. unfold nacts. rewrite filter_app, app_length. lia. Qed.
Lemma nacts_one aid e : nacts aid [e] = if is_act aid e then 1 else 0.
Proof. unfold nacts. rewrite filter_cons. by destruct (is_act aid e). Qed.

Section FineProg.
Context (K : list N -> Prop) (fetch : N -> list N).
Local Notation freachable := (freachable K fetch).
Local Notation fstep := (fstep K fetch).
Local Notation fruns := (fruns K fetch).

(** One step, as far as a call in progress is concerned. *)
Lemma job_next x e x' aid c p : fstep x e x' -> fs_jobs x !! aid = Some (Running c p) -> job_of c = Some aid -> ~ ends aid e ->
  (exists a k v s', e = EAct aid a /\ p = Act a k /\ do_act (sy_tree (fs_sys x)) a = Ok (v, s') /\ sy_tree (fs_sys x') = s' /\
     fs_jobs x' !! aid = Some (Running c (k v))) \/
  (is_act aid e = false /\ fs_jobs x' !! aid = Some (Running c p)).
Proof.
  intros Hs Hj Hc He. destruct Hs as [y y' jobs c1 r H1 H2 H3 H4|y jobs c1 aid1 H1 H2 H3|y jobs c1 aid1 e H1|y jobs c1 aid1 a k hd v s' H1 H2 H3|y jobs c1 aid1 H1|y jobs c1 aid1 o H1];
    cbn [fs_jobs fs_sys sy_tree] in *.
  - by right.
  - right. split; [done|]. rewrite lookup_insert_ne; [done|]. intros ->. congruence.
  - right. split; [done|]. rewrite lookup_insert_ne; [done|]. intros ->. congruence.
  - destruct (decide (aid1 = aid)) as [->|Hne].
    + left. rewrite H1 in Hj. injection Hj as -> <-. exists a, k, v, s'. split_and!; try done. by rewrite lookup_insert.
    + right. split; [by apply Nat.eqb_neq|]. by rewrite lookup_insert_ne.
  - right. split; [done|]. rewrite lookup_insert_ne; [done|]. intros ->. by apply He.
  - right. split; [done|]. rewrite lookup_delete_ne; [done|]. intros ->. by apply He.
Qed.

(** Every call in progress is one of its client. *)
Lemma jobs_own P n tr x aid jb : fruns P n tr x -> fs_jobs x !! aid = Some jb -> job_of (match jb with Waiting c _ | Running c _ => c end) = Some aid.
Proof.
  intros Hr. revert aid jb. induction Hr as [_|tr x e x' Hr IH Hs _]; intros aid jb Hj; [simpl in Hj; by rewrite lookup_empty in Hj|].
  destruct Hs as [y y' jobs c1 r H1 H2 H3 H4|y jobs c1 aid1 H1 H2 H3|y jobs c1 aid1 e H1|y jobs c1 aid1 a k hd v s' H1 H2 H3|y jobs c1 aid1 H1|y jobs c1 aid1 o H1];
    cbn [fs_jobs] in *.
  - by apply IH.
  - apply lookup_insert_Some in Hj as [[<- <-]|[_ Hj]]; [done|by apply IH].
  - apply lookup_insert_Some in Hj as [[<- <-]|[_ Hj]]; [exact (IH _ _ H1)|by apply IH].
  - apply lookup_insert_Some in Hj as [[<- <-]|[_ Hj]]; [exact (IH _ _ H1)|by apply IH].
  - apply lookup_insert_Some in Hj as [[<- <-]|[_ Hj]]; [exact (IH _ _ H1)|by apply IH].
  - apply lookup_delete_Some in Hj as [_ Hj]. by apply IH.
Qed.

Lemma fruns_last P n tr e x' : fruns P n (tr ++ [e]) x' -> exists x, fruns P n tr x /\ fstep x e x' /\ P (fs_sys x').
Proof.
  intros Hr. remember (tr ++ [e]) as t eqn:Et. destruct Hr as [_|tr0 x e0 x' Hr Hs Hu]; [by destruct tr|].
  apply app_inj_tail in Et as [-> ->]. by exists x.
Qed.

Lemma starts_job P n tr e x aid : fruns P n (tr ++ [e]) x -> starts aid e ->
  exists c, fs_jobs x !! aid = Some (Running c (program_of c)) /\ job_of c = Some aid /\ (forall c', e = EResv c' -> c' = c).
Proof.
  intros Hr Hst. destruct (fruns_last _ _ _ _ _ Hr) as (x0 & Hr0 & Hs & _).
  destruct Hs as [y y' jobs c1 r H1 H2 H3 H4|y jobs c1 aid1 H1 H2 H3|y jobs c1 aid1 e H1|y jobs c1 aid1 a k hd v s' H1 H2 H3|y jobs c1 aid1 H1|y jobs c1 aid1 o H1]; try done;
    cbn [starts fs_jobs] in *.
  - pose proof (jobs_own _ _ _ _ _ _ Hr0 H1) as Hc. cbn in Hc. assert (aid1 = aid) as -> by congruence.
    exists c1. rewrite lookup_insert. split_and!; try done. by intros c' [= ->].
  - subst aid1. pose proof (jobs_own _ _ _ _ _ _ Hr0 H1) as Hc. exists c1. rewrite lookup_insert. by split_and!.
Qed.

(** One attempt. *)
Lemma attempt_job P n tr1 e tr2 x aid : fruns P n (tr1 ++ e :: tr2) x -> starts aid e -> Forall (fun e => ~ ends aid e) tr2 ->
  exists c p m, fs_jobs x !! aid = Some (Running c p) /\ job_of c = Some aid /\ (forall c', e = EResv c' -> c' = c) /\
    short m p /\ nacts aid tr2 + m <= budget c.
Proof.
  revert x. induction tr2 as [|e2 tr2 IH] using rev_ind; intros x Hr Hst Hf.
  - destruct (starts_job _ _ _ _ _ _ Hr Hst) as (c & Hj & Hc & He). exists c, (program_of c), (budget c). split_and!; try done. apply short_program.
  - rewrite app_comm_cons, app_assoc in Hr. destruct (fruns_last _ _ _ _ _ Hr) as (x0 & Hr0 & Hs & _).
    apply Forall_app in Hf as [Hf1 Hf2]. rewrite Forall_singleton in Hf2. destruct (IH x0 Hr0 Hst Hf1) as (c & p & m & Hj & Hc & He & Hm & Hn).
    rewrite nacts_app, nacts_one. destruct (job_next _ _ _ _ _ _ Hs Hj Hc Hf2) as [(a & k & v & s' & -> & -> & _ & _ & Hj')|[-> Hj']].
    + exists c, (k v), (m - 1). destruct Hm as [Hm1 Hm2]. split_and!; try done. cbn [is_act]. rewrite Nat.eqb_refl. lia.
    + exists c, p, m. split_and!; try done. lia.
Qed.

Lemma f_attempt_short P n tr1 e tr2 x aid : fruns P n (tr1 ++ e :: tr2) x -> starts aid e -> Forall (fun e => ~ ends aid e) tr2 ->
  exists c p, fs_jobs x !! aid = Some (Running c p) /\ nacts aid tr2 <= 1 + 524434 * (1 + N.of_nat (length (job_key c))).
Proof.
  intros Hr Hst Hf. destruct (attempt_job _ _ _ _ _ _ _ Hr Hst Hf) as (c & p & m & Hj & _ & _ & _ & Hn). exists c, p.
  pose proof (budget_le c). split; [done|lia].
Qed.

(** Lookups in progress. *)
Lemma lookup_plain P n tr x aid key p : fruns P n tr x -> fs_jobs x !! aid = Some (Running (CLookup aid key) p) ->
  plain p /\ sy_open (fs_sys x) !! aid = Some (HP [] false).
Proof.
  revert x p. induction tr as [|e tr IH] using rev_ind; intros x p Hr Hj.
  - inversion Hr as [|? ? ? ? ? ? ? E]; subst; [|by destruct tr]. simpl in Hj. by rewrite lookup_empty in Hj.
  - destruct (fruns_last _ _ _ _ _ Hr) as (x0 & Hr0 & Hs & _).
    destruct Hs as [y y' jobs c1 r H1 H2 H3 H4|y jobs c1 aid1 H1 H2 H3|y jobs c1 aid1 e H1|y jobs c1 aid1 a k hd v s' H1 H2 H3|y jobs c1 aid1 H1|y jobs c1 aid1 o H1];
      cbn [fs_jobs fs_sys sy_open] in *.
    + destruct (IH _ _ Hr0 Hj) as [Hp Ho]. cbn [fs_sys] in Ho. split; [done|].
      assert (is_restart c1 \/ ~ is_restart c1) as [Hre|Hre] by (destruct c1; simpl; tauto); [by rewrite (H2 Hre), lookup_empty in Hj|].
      destruct (api_moves _ _ _ _ H1 Hre H4) as (_ & _ & [(_ & -> & _)|(aid' & hd & _ & Ho' & Hn & -> & _)]); [done|].
      rewrite lookup_delete_ne; [done|]. intros ->. rewrite Ho in Ho'. injection Ho' as <-. by eapply Hn.
    + destruct (decide (aid1 = aid)) as [->|Hne]; [by rewrite lookup_insert in Hj|]. rewrite lookup_insert_ne in Hj by done. by apply (IH _ _ Hr0).
    + destruct (decide (aid1 = aid)) as [->|Hne].
      * rewrite lookup_insert in Hj. injection Hj as -> <-. rewrite lookup_insert. split; [|done]. cbn [program_of].
        apply plain_bind; [apply plain_search|]. by intros [].
      * rewrite lookup_insert_ne in Hj by done. rewrite lookup_insert_ne by done. by apply (IH _ _ Hr0).
    + destruct (decide (aid1 = aid)) as [->|Hne].
      * rewrite lookup_insert in Hj. injection Hj as -> <-. rewrite lookup_insert. destruct (IH _ _ Hr0 H1) as [[Ha Hp] Ho]. split; [done|].
        cbn [fs_sys] in Ho. rewrite H2 in Ho. injection Ho as ->. by destruct a.
      * rewrite lookup_insert_ne in Hj by done. rewrite lookup_insert_ne by done. by apply (IH _ _ Hr0).
    + destruct (decide (aid1 = aid)) as [->|Hne].
      * rewrite lookup_insert in Hj. injection Hj as -> <-. by destruct (IH _ _ Hr0 H1) as [[] _].
      * rewrite lookup_insert_ne in Hj by done. by apply (IH _ _ Hr0).
    + apply lookup_delete_Some in Hj as [Hne Hj]. destruct (IH _ _ Hr0 Hj) as [Hp Ho]. split; [done|]. cbn [fs_sys] in Ho.
      unfold return_to. destruct o as [v f|f op|[op|]]; cbn [sy_open]; [by rewrite lookup_delete_ne|by rewrite lookup_insert_ne|by rewrite lookup_insert_ne|by rewrite lookup_delete_ne].
Qed.

Lemma f_lookup_reads P n tr x aid key p a x' : fruns P n tr x -> fs_jobs x !! aid = Some (Running (CLookup aid key) p) ->
  fstep x (EAct aid a) x' -> sy_tree (fs_sys x') = sy_tree (fs_sys x) /\ sy_open (fs_sys x') = sy_open (fs_sys x).
Proof.
  intros Hr Hj Hs. destruct (lookup_plain _ _ _ _ _ _ _ Hr Hj) as [Hp Ho].
  inversion Hs as [| | |y jobs c aid1 a1 k hd v s' H1 H2 H3 E1 E2 E3| |]; subst. cbn [fs_jobs fs_sys sy_tree sy_open] in *.
  rewrite H1 in Hj. injection Hj as -> <-. destruct Hp as [Ha _]. rewrite Ho in H2. injection H2 as <-.
  destruct a; try done; cbn [do_act] in H3.
  - injection H3 as <- <-. split; [done|]. cbn [hp_act]. by rewrite insert_id.
  - unbind H3. injection H3 as <- <-. split; [done|]. cbn [hp_act]. by rewrite insert_id.
Qed.

(** A Lookup makes a bounded number of accesses, whatever the others do. *)
Lemma f_lookup_waitfree P n tr1 aid key tr2 x : fruns P n (tr1 ++ EResv (CLookup aid key) :: tr2) x -> Forall (fun e => ~ borders aid e) tr2 ->
  EAgain aid ∉ tr2 /\ nacts aid tr2 <= 1 + 129 * (1 + N.of_nat (length key)) /\
  exists p, fs_jobs x !! aid = Some (Running (CLookup aid key) p).
Proof.
  intros Hr Hf. assert (Hna : EAgain aid ∉ tr2 /\ Forall (fun e => ~ ends aid e) tr2).
  { revert x Hr. induction tr2 as [|e2 tr2 IH] using rev_ind; intros x Hr; [split; [apply not_elem_of_nil|constructor]|].
    rewrite app_comm_cons, app_assoc in Hr. destruct (fruns_last _ _ _ _ _ Hr) as (x0 & Hr0 & Hs & _).
    apply Forall_app in Hf as [Hf1 Hf2]. rewrite Forall_singleton in Hf2. destruct (IH Hf1 x0 Hr0) as [Hn He].
    assert (Hne : e2 <> EAgain aid).
    { intros ->. destruct (attempt_job _ _ _ _ _ _ aid Hr0 (eq_refl : starts aid (EResv (CLookup aid key))) He) as (c & p & m & Hj & Hc & Hcc & _).
      specialize (Hcc _ eq_refl) as <-. destruct (lookup_plain _ _ _ _ _ _ _ Hr0 Hj) as [Hp _].
      inversion Hs as [| | | |y jobs c aid1 H1 E1 E2|]; subst. cbn [fs_jobs] in Hj. rewrite H1 in Hj. injection Hj as -> <-. done. }
    rewrite not_elem_of_app, elem_of_list_singleton. split; [by split|]. apply Forall_app. split; [done|]. apply Forall_singleton.
    destruct e2; try (by intros ?). simpl. congruence. }
  destruct Hna as [Hna He]. split; [done|].
  destruct (attempt_job _ _ _ _ _ _ aid Hr (eq_refl : starts aid (EResv (CLookup aid key))) He) as (c & p & m & Hj & Hc & Hcc & _ & Hn).
  specialize (Hcc _ eq_refl) as <-. split; [cbn [budget] in Hn; lia|by exists p].
Qed.

Lemma start_job n tr e x aid : freachable n (tr ++ [e]) x -> starts aid e ->
  exists c, fs_jobs x !! aid = Some (Running c (program_of c)) /\ job_of c = Some aid /\ (forall c', e = EResv c' -> c' = c) /\
    sy_open (fs_sys x) !! aid = Some (HP [] false).
Proof.
  intros Hr Hst. destruct (freach_snoc _ _ _ _ _ _ Hr) as (x0 & Hr0 & Hs & _). destruct (freach_ginv _ _ _ _ _ Hr0) as [w Hg].
  destruct Hs as [y y' jobs c1 r H1 H2 H3 H4|y jobs c1 aid1 H1 H2 H3|y jobs c1 aid1 e H1|y jobs c1 aid1 a k hd v s' H1 H2 H3|y jobs c1 aid1 H1|y jobs c1 aid1 o H1]; try done;
    cbn [starts fs_jobs fs_sys sy_open] in *.
  - pose proof (gi_jobs _ _ _ _ _ Hg _ _ H1) as (Hc & _). assert (aid1 = aid) as -> by congruence.
    exists c1. rewrite !lookup_insert. split_and!; try done. by intros c' [= ->].
  - subst aid1. pose proof (gi_jobs _ _ _ _ _ Hg _ _ H1) as (Hc & _ & tr1 & tr2 & e & ns & _ & _ & _ & Hok). simpl in Hok.
    exists c1. rewrite lookup_insert. split_and!; try done. by rewrite (gi_sys _ _ _ _ _ Hg) in Hok.
Qed.

(** ** Starting again *)

(** Client [j] holds a lock. *)
Definition holds_lock (y : sys) (j : nat) : Prop :=
  exists hd, sy_open y !! j = Some hd /\ (olids hd <> [] \/ oroot hd = true).

(** Finalize or Abort. *)
Definition disturbs (e : event) : Prop :=
  match e with ECall (CFlush _) _ => False | ECall _ _ => True | _ => False end.

(** The parts of the tree that the three programs look at. *)
Definition alike (s s' : tree) : Prop :=
  t_mem s' = t_mem s /\ t_root s' = t_root s /\ t_locks s' = t_locks s /\ t_rootLock s' = t_rootLock s /\
  t_nextFreeBlock s' = t_nextFreeBlock s.

Lemma alike_refl s : alike s s.
Proof. done. Qed.
Lemma alike_trans s1 s2 s3 : alike s1 s2 -> alike s2 s3 -> alike s1 s3.
Proof. intros (?&?&?&?&?) (?&?&?&?&?). split_and!; congruence. Qed.
Lemma alike_resv s r : alike s (set_resv s r).
Proof. done. Qed.

Definition same_end {A} (r r' : res (A * tree)) : Prop :=
  match r, r' with
  | Ok (a, s), Ok (a', s') => a = a' /\ alike s s'
  | Panic w, Panic w' => w = w'
  | Retry, Retry | NoFuel, NoFuel => True
  | _, _ => False
  end.

Lemma alike_act s s' a : alike s s' -> same_end (do_act s a) (do_act s' a).
Proof.
  intros (E1 & E2 & E3 & E4 & E5). destruct s, s'. cbn in E1, E2, E3, E4, E5. subst.
  destruct a as [q|node|i|i g|i| |]; cbn [do_act].
  - by destruct q.
  - unfold node_data. cbn. destruct (_ <=? _); [done|]. by destruct (_ <=? _).
  - done.
  - cbn. by destruct (lock_cas _ _ _ _).
  - done.
  - cbn. by destruct (_ =? 0).
  - done.
Qed.

Lemma alike_exec {A} (p : prog A) s s' : alike s s' -> same_end (exec p s) (exec p s').
Proof.
  revert s s'. induction p as [a|[]|a k IH]; intros s s' H; try done. cbn [exec].
  pose proof (alike_act s s' a H) as Ha. destruct (do_act s a) as [[v s1]| | |], (do_act s' a) as [[v' s1']| | |]; try done.
  cbn [bind]. destruct Ha as [-> Ha]. by apply IH.
Qed.

Lemma same_end_trans {A} (r1 r2 r3 : res (A * tree)) : same_end r1 r2 -> same_end r2 r3 -> same_end r1 r3.
Proof.
  destruct r1 as [[a1 s1]| | |], r2 as [[a2 s2]| | |], r3 as [[a3 s3]| | |]; simpl; try done.
  - intros [-> H1] [-> H2]. split; [done|by eapply alike_trans].
  - by intros -> ->.
Qed.

(** A step of another client that leaves what the programs look at. *)
Lemma other_step n tr x e x' aid : freachable n tr x -> fstep x e x' -> ~ disturbs e ->
  (forall j, j <> aid -> ~ holds_lock (fs_sys x) j) -> (forall j, j <> aid -> ~ holds_lock (fs_sys x') j) ->
  is_act aid e = false -> alike (sy_tree (fs_sys x)) (sy_tree (fs_sys x')).
Proof.
  intros Hr Hs Hd Hh Hh' Hna. destruct (freach_ginv _ _ _ _ _ Hr) as [w Hg].
  destruct Hs as [y y' jobs c1 r H1 H2 H3 H4|y jobs c1 aid1 H1 H2 H3|y jobs c1 aid1 e H1|y jobs c1 aid1 a k hd v s' H1 H2 H3|y jobs c1 aid1 H1|y jobs c1 aid1 o H1];
    cbn [fs_jobs fs_sys sy_tree sy_open] in *; try done.
  - destruct c1; try done. unfold api in H4. unbind H4. injection H4 as _ <-. cbn [sy_tree].
    match goal with H : flush_stats _ _ = Ok _ |- _ => unfold flush_stats in H; unbind H; injection H as <- end. done.
  - cbn [is_act] in Hna. apply Nat.eqb_neq in Hna.
    destruct (gi_jobs _ _ _ _ _ Hg _ _ H1) as (_ & _ & tr1 & tr2 & e & ns & _ & _ & Hb & Hok).
    destruct (Hok w (rtc_refl _ _)) as (Ha & _). pose proof (gi_sys _ _ _ _ _ Hg) as Ey. cbn [fs_sys] in Ey. subst y.
    assert (Ehd : hdl aid1 w = hd) by (unfold hdl; by rewrite H2). rewrite Ehd in Ha.
    pose proof (j_mine _ _ _ _ _ _ _ (ba_J _ _ _ _ _ _ _ _ _ Hb)) as [(l & b & Hop) _]. rewrite H2 in Hop. injection Hop as ->.
    assert (Hn1 : l = [] /\ b = false).
    { split; [destruct l; [done|]|destruct b; [|done]]; destruct (Hh aid1 Hna); eexists; (split; [exact H2|]); [by left|by right]. }
    destruct Hn1 as [-> ->].
    assert (Hn2 : forall l' b', hp_act (HP [] false) a v = HP l' b' -> l' = [] /\ b' = false).
    { intros l' b' E. split; [destruct l'; [done|]|destruct b'; [|done]]; destruct (Hh' aid1 Hna); eexists; (split; [cbn [sy_open]; apply lookup_insert|]); rewrite E; [by left|by right]. }
    destruct a as [q|node|i|i g|i| |]; cbn [do_act] in H3.
    + by injection H3 as <- <-.
    + unbind H3. by injection H3 as <- <-.
    + by injection H3 as <- <-.
    + destruct (lock_cas _ _ _ _); injection H3 as <- <-; [|done]. cbn [hp_act N.eqb] in Hn2. by destruct (Hn2 _ _ eq_refl).
    + by destruct Ha as [Ha%elem_of_nil _].
    + destruct (_ =? 0); injection H3 as <- <-; [|done]. cbn [hp_act N.eqb] in Hn2. by destruct (Hn2 _ _ eq_refl).
    + by destruct Ha as [Ha _].
  - unfold return_to. by destruct o as [v f|f op|[op|]].
Qed.

Lemma held_by o i : i ∈ held o -> exists j hd, o !! j = Some hd /\ i ∈ olids hd.
Proof.
  unfold held. rewrite elem_of_list_bind. intros ([j hd] & Hi & Hj). apply elem_of_map_to_list in Hj. by exists j, hd.
Qed.
Lemma rootops_by o : rootops o <> [] -> exists j hd, o !! j = Some hd /\ oroot hd = true.
Proof.
  intros H. destruct (rootops o) as [|u l] eqn:E; [done|]. assert (Hu : u ∈ rootops o) by (rewrite E; left).
  unfold rootops in Hu. apply elem_of_list_bind in Hu as ([j hd] & Hi & Hj). apply elem_of_map_to_list in Hj. exists j, hd.
  split; [done|]. simpl in Hi. destruct (oroot hd); [done|]. by apply elem_of_nil in Hi.
Qed.

(** When nobody holds a lock, a call run without interruption does not start again. *)
Lemma exec_no_retry n tr x aid c p : freachable n tr x -> fs_jobs x !! aid = Some (Running c p) -> 
  sy_open (fs_sys x) !! aid = Some (HP [] false) -> (forall j, j <> aid -> ~ holds_lock (fs_sys x) j) ->
  exec (program_of c) (sy_tree (fs_sys x)) <> Retry.
Proof.
  intros Hr Hj Ho Hh Hex. destruct (freach_inv _ _ _ _ _ Hr) as (T & lost & Hi). destruct (freach_ginv _ _ _ _ _ Hr) as [w Hg].
  pose proof (fr_univ _ _ _ _ _ Hr) as HK. set (s := sy_tree (fs_sys x)) in *.
  assert (Hfree : t_rootLock s <> 0 \/ (exists i, i ∈ held (sy_open (fs_sys x))) -> False).
  { intros [Hrl|[i Hin]].
    - destruct (rootops_by (sy_open (fs_sys x))) as (j & hd & Hj1 & Hj2).
      { intros E. pose proof (iv_rl _ _ _ _ _ _ _ Hi) as H. rewrite E in H. by subst s. }
      destruct (decide (j = aid)) as [->|Hne]; [rewrite Ho in Hj1; by injection Hj1 as <-|]. apply (Hh j Hne). exists hd. tauto.
    - apply held_by in Hin as (j & hd & Hj1 & Hj2). destruct (decide (j = aid)) as [->|Hne].
      { rewrite Ho in Hj1. injection Hj1 as <-. by apply elem_of_nil in Hj2. }
      apply (Hh j Hne). exists hd. split; [done|left]. intros E. rewrite E in Hj2. by apply elem_of_nil in Hj2. }
  destruct (gi_jobs _ _ _ _ _ Hg _ _ Hj) as (Hc & Hk & _). pose proof (iv_core _ _ _ _ _ _ _ Hi) as Hcore. pose proof (iv_locks _ _ _ _ _ _ _ Hi) as Hl.
  destruct c as [a key|a key|? ? ? ?|?|a key|?|?|?|? ? ?]; try done; simpl in Hc; injection Hc as ->; cbn [program_of call_key_ok] in *; rewrite exec_bind in Hex.
  - pose proof (reads_search s key) as Hrs. unfold reads in Hrs. rewrite Hrs in Hex.
    assert (Hpl : plain (p_search key)) by apply plain_search.
    assert (Hgen : forall (A : Type) (q : prog A) s0, plain q -> exec q s0 <> Retry).
    { intros A q. induction q as [a|[]|a k IH]; intros s0 Hq; try done. destruct Hq as [Ha Hq]. cbn [exec].
      destruct a; try done; cbn [do_act].
      - cbn [bind]. by apply IH.
      - unfold node_data. destruct (_ <=? _); [done|]. destruct (_ <=? _); [done|]. cbn [bind]. by apply IH. }
    apply (Hgen _ _ s Hpl). rewrite Hrs. destruct (search s key) as [[]| | |]; try done.
  - pose proof (prepare_update_ok K fetch HK s T _ aid key Hcore Hk Hl) as Hpu. rewrite prepare_update_exec in Hpu.
    pose proof (alike_exec (p_prepare_update aid key) s (start_op s aid) (alike_resv _ _)) as Ha.
    destruct (exec (p_prepare_update aid key) s) as [[[? ?] ?]| | |]; try done.
    destruct (exec (p_prepare_update aid key) (start_op s aid)) as [[[? ?] ?]| | |]; try done; by apply Hfree.
  - destruct Hk as [Hk1 Hk2]. pose proof (prepare_delete_ok K fetch HK s T _ aid key Hcore Hk1 Hk2 Hl) as Hpd.
    unfold prepare_delete in Hpd. rewrite prepare_delete_exec in Hpd.
    pose proof (alike_exec (p_prepare_delete aid key) s (start_op s aid) (alike_resv _ _)) as Ha.
    destruct (exec (p_prepare_delete aid key) s) as [[[?|] ?]| | |]; try done.
    destruct (exec (p_prepare_delete aid key) (start_op s aid)) as [[[?|] ?]| | |]; try done; by apply Hfree.
Qed.

(** Somebody else got in the way during [tr2], which follows [tr1]. *)
Definition interfered (n aid : nat) (tr1 tr2 : list event) : Prop :=
  Exists disturbs tr2 \/
  exists tr3 x3 j, tr3 `prefix_of` tr2 /\ freachable n (tr1 ++ tr3) x3 /\ j <> aid /\ holds_lock (fs_sys x3) j.

Lemma interfered_snoc n aid tr1 tr2 e : interfered n aid tr1 tr2 -> interfered n aid tr1 (tr2 ++ [e]).
Proof.
  intros [H|(tr3 & x3 & j & H1 & H2 & H3)]; [left; apply Exists_app; by left|right]. exists tr3, x3, j. split_and!; try done; try apply H3.
  by apply prefix_app_r.
Qed.

(** The history determines the state. *)
Lemma freach_det n tr x x' : freachable n tr x -> freachable n tr x' -> x = x'.
Proof.
  revert x x'. induction tr as [|e tr IH] using rev_ind; intros x x' H H'.
  - destruct H as [_ H _ _], H' as [_ H' _ _]. inversion H as [|? ? ? ? ? ? ? E]; subst; [|by destruct tr].
    inversion H' as [|? ? ? ? ? ? ? E]; subst; [done|by destruct tr].
  - destruct (freach_snoc _ _ _ _ _ _ H) as (x0 & Hr0 & Hs & _). destruct (freach_snoc _ _ _ _ _ _ H') as (x0' & Hr0' & Hs' & _).
    specialize (IH _ _ Hr0 Hr0') as <-. destruct (freach_ginv _ _ _ _ _ Hr0) as [w Hg]. pose proof (gi_jobs _ _ _ _ _ Hg) as Hjobs. clear - Hs Hs' Hjobs.
    destruct Hs as [y y' jobs c1 r H1 H2 H3 H4|y jobs c1 aid1 H1 H2 H3|y jobs c1 aid1 e H1|y jobs c1 aid1 a k hd v s' H1 H2 H3|y jobs c1 aid1 H1|y jobs c1 aid1 o H1];
      inversion Hs'; subst; cbn [fs_jobs] in *; try congruence.
    + match goal with H : jobs !! ?b = Some (Waiting c1 ?e') |- _ => lazymatch b with aid1 => fail | _ => pose proof (Hjobs _ _ H) as [Hc _] end end.
      pose proof (Hjobs _ _ H1) as [Hc' _]. rewrite Hc in Hc'. injection Hc' as ->. congruence.
Qed.

(** Another client holds a lock, or none does. *)
Lemma others_hold y aid : (exists j, j <> aid /\ holds_lock y j) \/ forall j, j <> aid -> ~ holds_lock y j.
Proof.
  assert (Hdec : forall l : list (nat * handle), (exists q, q ∈ l /\ q.1 <> aid /\ (olids q.2 <> [] \/ oroot q.2 = true)) \/
    forall q, q ∈ l -> q.1 <> aid -> ~ (olids q.2 <> [] \/ oroot q.2 = true)).
  { induction l as [|q l IH]; [right; by intros q ?%elem_of_nil|]. destruct IH as [(q' & Hq & H)|IH]; [left; exists q'; split; [by right|done]|].
    destruct (decide (q.1 = aid)) as [E|E].
    - right. intros q' [->|Hq]%elem_of_cons Hne; [done|by apply IH].
    - destruct (decide (olids q.2 = [])) as [E1|E1]; [destruct (oroot q.2) eqn:E2|].
      + left. exists q. split; [left|]. split; [done|by right].
      + right. intros q' [->|Hq]%elem_of_cons Hne; [|by apply IH]. rewrite E1, E2. by intros [?|?].
      + left. exists q. split; [left|]. split; [done|by left]. }
  destruct (Hdec (map_to_list (sy_open y))) as [([j hd] & Hq & Hne & H)|H].
  - left. exists j. split; [done|]. exists hd. split; [by apply elem_of_map_to_list|done].
  - right. intros j Hne (hd & Ho & Hl). apply (H (j, hd)); [by apply elem_of_map_to_list|done|done].
Qed.

Lemma retry_inv n tr1 e tr2 x0 x aid c : freachable n (tr1 ++ [e]) x0 -> fs_jobs x0 !! aid = Some (Running c (program_of c)) -> job_of c = Some aid ->
  freachable n ((tr1 ++ [e]) ++ tr2) x -> Forall (fun e => ~ ends aid e) tr2 ->
  interfered n aid (tr1 ++ [e]) tr2 \/
  exists p, fs_jobs x !! aid = Some (Running c p) /\ same_end (exec (program_of c) (sy_tree (fs_sys x0))) (exec p (sy_tree (fs_sys x))).
Proof.
  intros Hr0 Hj Hc. revert x. induction tr2 as [|e2 tr2 IH] using rev_ind; intros x Hr Hf.
  - right. rewrite app_nil_r in Hr. rewrite (freach_det _ _ _ _ Hr Hr0) in *. exists (program_of c). split; [done|]. apply alike_exec, alike_refl.
  - rewrite app_assoc in Hr. destruct (freach_snoc _ _ _ _ _ _ Hr) as (x1 & Hr1 & Hs & _).
    apply Forall_app in Hf as [Hf1 Hf2]. rewrite Forall_singleton in Hf2.
    destruct (IH x1 Hr1 Hf1) as [Hi|(p & Hj1 & Hex)]; [left; by apply interfered_snoc|].
    destruct (job_next _ _ _ _ _ _ Hs Hj1 Hc Hf2) as [(a & k & v & s' & -> & -> & Hd & Es & Hj')|[Hna Hj']].
    + right. exists (k v). split; [done|]. cbn [exec] in Hex. rewrite Hd in Hex. cbn [bind] in Hex. by rewrite Es.
    + assert (disturbs e2 \/ ~ disturbs e2) as [Hd|Hd] by (destruct e2 as [[]| | | | |]; simpl; tauto).
      { left. left. apply Exists_app. right. by apply Exists_cons_hd. }
      destruct (others_hold (fs_sys x1) aid) as [(j & Hne & Hh)|Hh1].
      { left. right. exists tr2, x1, j. split_and!; try done. by apply prefix_app_r. }
      destruct (others_hold (fs_sys x) aid) as [(j & Hne & Hh)|Hh2].
      { left. right. exists (tr2 ++ [e2]), x, j. rewrite app_assoc. by split_and!. }
      right. exists p. split; [done|]. eapply same_end_trans; [exact Hex|]. apply alike_exec. by eapply other_step.
Qed.

(** An attempt ends in a jump back only if another client was in the way. *)
Lemma f_retry n tr1 e tr2 x aid : freachable n (tr1 ++ e :: tr2 ++ [EAgain aid]) x -> starts aid e -> Forall (fun e => ~ ends aid e) tr2 ->
  interfered n aid (tr1 ++ [e]) tr2.
Proof.
  intros Hr Hst Hf. rewrite app_comm_cons, app_assoc in Hr. destruct (freach_snoc _ _ _ _ _ _ Hr) as (x1 & Hr1 & Hs & _).
  replace (tr1 ++ e :: tr2) with ((tr1 ++ [e]) ++ tr2) in Hr1 by (by rewrite <- app_assoc).
  destruct (freach_prefix _ _ _ _ _ _ Hr1) as [x0 Hr0]. destruct (start_job _ _ _ _ _ Hr0 Hst) as (c & Hj & Hc & _ & Ho).
  destruct (retry_inv _ _ _ _ _ _ _ _ Hr0 Hj Hc Hr1 Hf) as [Hi|(p & Hj1 & Hex)]; [done|].
  destruct (others_hold (fs_sys x0) aid) as [(j & Hne & Hh)|Hh].
  { right. exists [], x0, j. rewrite app_nil_r. split_and!; try done. apply prefix_nil. }
  destruct (exec_no_retry _ _ _ _ _ _ Hr0 Hj Ho Hh).
  inversion Hs as [| | | |y jobs c1 aid1 H1 E1 E2|]; subst. cbn [fs_jobs] in Hj1. rewrite H1 in Hj1. injection Hj1 as -> <-.
  cbn [exec] in Hex. by destruct (exec (program_of c) _) as [[? ?]| | |].
Qed.

(** ** Alone *)

Lemma calm_snoc tr e : calm tr -> is_ecall e = false -> calm (tr ++ [e]).
Proof.
  intros Hc He tr1 ea tr2 tr3 aid E Hs Hf. destruct tr3 as [|e3 tr3 _] using rev_ind.
  - rewrite app_nil_r in E. destruct tr2 as [|e2 tr2 _] using rev_ind; [done|].
    rewrite app_comm_cons, app_assoc in E. apply app_inj_tail in E as [-> <-]. rewrite ncalls_app, ncalls_one, He.
    apply Forall_app in Hf as [Hf _]. pose proof (Hc tr1 ea tr2 [] aid ltac:(by rewrite app_nil_r) Hs Hf). lia.
  - rewrite app_assoc, app_comm_cons, app_assoc in E. apply app_inj_tail in E as [-> _]. by eapply Hc.
Qed.

(** A step of a call in progress other than its return. *)
Lemma freach_more n tr x e x' : freachable n tr x -> fstep x e x' ->
  match e with EResv _ | EAct _ _ | EAgain _ => True | _ => False end -> freachable n (tr ++ [e]) x'.
Proof.
  intros Hr Hs He. destruct (freach_ginv _ _ _ _ _ Hr) as [w Hg]. pose proof Hr as [HK Hru Hn Hc].
  assert (Hec : is_ecall e = false) by (by destruct e).
  assert (Hu : unshared (fs_sys x)) by (by destruct Hru).
  split; [done| |by rewrite ncalls_app, ncalls_one, Hec, N.add_0_r|by apply calm_snoc].
  econstructor; [exact Hru|exact Hs|]. intros j key op Ho.
  destruct Hs as [y y' jobs c1 r H1 H2 H3 H4|y jobs c1 aid1 H1 H2 H3|y jobs c1 aid1 e H1|y jobs c1 aid1 a k hd v s' H1 H2 H3|y jobs c1 aid1 H1|y jobs c1 aid1 o H1]; try done;
    cbn [fs_jobs fs_sys sy_open] in *.
  - destruct (decide (j = aid1)) as [->|Hne]; [by rewrite lookup_insert in Ho|]. rewrite lookup_insert_ne in Ho by done. by eapply Hu.
  - destruct (decide (j = aid1)) as [->|Hne].
    + rewrite lookup_insert in Ho. injection Ho as Ho. pose proof (gi_jobs _ _ _ _ _ Hg _ _ H1) as (_ & _ & tr1 & tr2 & e & ns & _ & _ & Hb & _).
      destruct (j_mine _ _ _ _ _ _ _ (ba_J _ _ _ _ _ _ _ _ _ Hb)) as [(l & b & Hop) _]. rewrite (gi_sys _ _ _ _ _ Hg) in Hop. cbn [fs_sys] in Hop. rewrite Hop in H2.
      injection H2 as <-. by destruct a; simpl in Ho; try destruct (v =? 0).
    + rewrite lookup_insert_ne in Ho by done. by eapply Hu.
  - by eapply Hu.
Qed.

(** The other clients keep their locks while [aid] runs. *)
Definition rest (aid : nat) (y y' : sys) : Prop := forall j, j <> aid -> sy_open y' !! j = sy_open y !! j.

Lemma rest_holds aid y y' : rest aid y y' -> (forall j, j <> aid -> ~ holds_lock y j) -> forall j, j <> aid -> ~ holds_lock y' j.
Proof. intros H Hh j Hne (hd & Ho & Hl). apply (Hh j Hne). exists hd. split; [|done]. by rewrite <- H. Qed.

(** Client [aid] runs alone until its attempt ends. *)
Lemma solo_attempt n tr x aid c p m : freachable n tr x -> fs_jobs x !! aid = Some (Running c p) -> short m p ->
  exists tr' x', freachable n (tr ++ tr') x' /\ Forall (by_client aid) tr' /\ N.of_nat (length tr') <= m /\ rest aid (fs_sys x) (fs_sys x') /\
    ((exists o s, fs_jobs x' !! aid = Some (Running c (Ret o)) /\ exec p (sy_tree (fs_sys x)) = Ok (o, s)) \/
     (fs_jobs x' !! aid = Some (Running c (Stop Again)) /\ exec p (sy_tree (fs_sys x)) = Retry)).
Proof.
  revert tr x m. induction p as [o|e|a k IH]; intros tr x m Hr Hj Hm.
  - exists [], x. rewrite app_nil_r. split; [done|]. split; [constructor|]. split; [simpl; lia|]. split; [done|]. left. by exists o, (sy_tree (fs_sys x)).
  - exists [], x. rewrite app_nil_r. split; [done|]. split; [constructor|]. split; [simpl; lia|]. split; [done|]. right.
    destruct (freach_ginv _ _ _ _ _ Hr) as [w Hg]. destruct (gi_jobs _ _ _ _ _ Hg _ _ Hj) as (_ & _ & tr1 & tr2 & e0 & ns & _ & _ & _ & Hok).
    by destruct e.
  - destruct (freach_wake _ _ _ _ _ Hr) as (w & Hg & Hwk). destruct (gi_jobs _ _ _ _ _ Hg _ _ Hj) as (_ & _ & tr1 & tr2 & e0 & ns & _ & _ & Hb & Hok).
    destruct (Hok w (rtc_refl _ _)) as (_ & v & s' & Hd & _). rewrite (lact_plain w) in Hd by (by rewrite Hwk). rewrite (gi_sys _ _ _ _ _ Hg) in Hd.
    destruct (j_mine _ _ _ _ _ _ _ (ba_J _ _ _ _ _ _ _ _ _ Hb)) as [(l & b & Ho) _]. rewrite (gi_sys _ _ _ _ _ Hg) in Ho.
    destruct x as [y jobs]. cbn [fs_sys fs_jobs] in *. pose proof (fs_act K fetch y jobs c aid a k _ v s' Hj Ho Hd) as Hs.
    pose proof (freach_more _ _ _ _ _ Hr Hs I) as Hr'. destruct Hm as [Hm1 Hm2].
    destruct (IH v _ _ (m - 1) Hr' ltac:(cbn [fs_jobs]; by rewrite lookup_insert) (Hm2 v)) as (tr' & x' & H1 & H2 & H3 & H4 & H5).
    exists (EAct aid a :: tr'), x'. split_and!.
    + by rewrite <- app_assoc in H1.
    + by constructor.
    + cbn [length]. lia.
    + intros j Hne. rewrite (H4 j Hne). cbn [fs_sys sy_open]. by rewrite lookup_insert_ne.
    + cbn [exec]. rewrite Hd. cbn [bind]. exact H5.
Qed.

(** A call whose attempt begins while no other client holds a lock returns. *)
Lemma solo_start n tr x aid c : freachable n tr x -> fs_jobs x !! aid = Some (Running c (program_of c)) ->
  sy_open (fs_sys x) !! aid = Some (HP [] false) -> (forall j, j <> aid -> ~ holds_lock (fs_sys x) j) ->
  exists tr' x1 r x2, freachable n (tr ++ tr') x1 /\ Forall (by_client aid) tr' /\ N.of_nat (length tr') <= budget c /\
    fstep x1 (EReturn aid c r) x2.
Proof.
  intros Hr Hj Ho Hh. pose proof (exec_no_retry _ _ _ _ _ _ Hr Hj Ho Hh) as Hnr.
  destruct (solo_attempt _ _ _ _ _ _ _ Hr Hj (short_program c)) as (tr' & [y' jobs'] & H1 & H2 & H3 & _ & [(o & s & H5 & _)|[_ H5]]); [|done].
  exists tr', (FSys y' jobs'), (returned o). eexists. split_and!; try done. by apply fs_return.
Qed.

Lemma f_solo n tr x aid jb : freachable n tr x -> fs_jobs x !! aid = Some jb -> (forall j, j <> aid -> ~ holds_lock (fs_sys x) j) ->
  exists tr' x1 c r x2, freachable n (tr ++ tr') x1 /\ Forall (by_client aid) tr' /\ N.of_nat (length tr') <= 3 + 1048868 * (1 + N.of_nat (length (job_key c))) /\
    fstep x1 (EReturn aid c r) x2.
Proof.
  intros Hr Hj Hh. pose proof budget_le as Hbl. destruct jb as [c e|c p].
  - destruct x as [y jobs]. cbn [fs_jobs fs_sys] in *. destruct (freach_ginv _ _ _ _ _ Hr) as [w Hg]. pose proof (gi_jobs _ _ _ _ _ Hg _ _ Hj) as (Hc & _).
    pose proof (fs_resv K fetch y jobs c aid e Hj) as Hs. pose proof (freach_more _ _ _ _ _ Hr Hs I) as Hr'.
    destruct (solo_start _ _ _ aid c Hr') as (tr' & x1 & r & x2 & H1 & H2 & H3 & H4); cbn [fs_jobs fs_sys sy_open].
    + apply lookup_insert.
    + apply lookup_insert.
    + eapply rest_holds; [|exact Hh]. intros j Hne. cbn [sy_open]. by rewrite lookup_insert_ne.
    + exists (EResv c :: tr'), x1, c, r, x2. split_and!; try done; [by rewrite <- app_assoc in H1|by constructor|]. specialize (Hbl c). cbn [length]. lia.
  - specialize (Hbl c). assert (exists m, short m p /\ m <= budget c) as (m & Hm & Hmb).
    { destruct (freach_wake _ _ _ _ _ Hr) as (w & Hg & Hwk). destruct (gi_jobs _ _ _ _ _ Hg _ _ Hj) as (Hc & _ & _ & _ & _ & ns & _ & Hct & _).
      unfold counted in Hct. rewrite Hwk in Hct. destruct Hct as (tra & ea & trb & -> & Hst & Hf & _).
      destruct (attempt_job _ _ _ _ _ _ _ (fr_runs _ _ _ _ _ Hr) Hst Hf) as (c' & p' & m & Hj' & _ & _ & Hm & Hn). rewrite Hj in Hj'. injection Hj' as <- <-. exists m. split; [done|lia]. }
    destruct (solo_attempt _ _ _ _ _ _ _ Hr Hj Hm) as (tr' & x' & H1 & H2 & H3 & H4 & H5). destruct x' as [y' jobs']. cbn [fs_jobs fs_sys] in *.
    destruct H5 as [(o & s & H5 & _)|[H5 _]].
    + exists tr', (FSys y' jobs'), c, (returned o). eexists. split_and!; try done; [lia|]. by apply fs_return.
    + pose proof (fs_again K fetch y' jobs' c aid H5) as Hs. pose proof (freach_more _ _ _ _ _ H1 Hs I) as Hr'.
      destruct (start_job _ _ _ _ aid Hr' eq_refl) as (c' & Hj' & _ & _ & Ho). cbn [fs_jobs] in Hj'. rewrite lookup_insert in Hj'. injection Hj' as <- _.
      destruct (solo_start _ _ _ aid c Hr') as (tr2 & x1 & r & x2 & G1 & G2 & G3 & G4); cbn [fs_jobs fs_sys sy_open]; try done.
      * apply lookup_insert.
      * by eapply rest_holds.
      * exists (tr' ++ [EAgain aid] ++ tr2), x1, c, r, x2. split_and!; try done.
        -- by rewrite !app_assoc in *.
        -- apply Forall_app. split; [done|]. by constructor.
        -- rewrite app_length. cbn [app length]. lia.
Qed.
End FineProg.
