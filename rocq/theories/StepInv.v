(** * StepInv: the locks and the item counter in histories of single accesses. *)
From Verif Require Export StepFinish PersistTop.

(** ** What the histories below exclude, and what the clients can count *)

(** No abort of a delete that merges a node with a child at address 0.  There is no node at address 0, but the
    tree may be damaged (see StepWitness.v), and locks.go:84 tells a missing node by that address. *)
Definition child_known (x : wsys) (e : wevent) : Prop :=
  match e with
  | WBegin (CAbortD aid) => forall key op, sy_open (fs_sys (ws_f x)) !! aid = Some (HD key op) -> d_kind op = replaceNodeWithNode -> d_child op <> 0
  | _ => True
  end.

(** The first result of the last PrepareUpdate of each client, and the number of keys: one more for a Finalize
    that returned [true] unless its Prepare had found the key ([found] and [Match]), one less for a
    delete.  A restart reports what it loses. *)
Definition tstep (t : gmap nat bool * Z) (e : wevent) : gmap nat bool * Z :=
  match e with
  | WF (EReturn aid _ (RPrepU found _)) => (<[aid := found]> t.1, t.2)
  | WReturn aid (CFinU _ _ m _) (RBool true) => (t.1, t.2 + if default false (t.1 !! aid) && m then 0 else 1)%Z
  | WReturn aid (CFinD _) (RBool true) => (t.1, t.2 - 1)%Z
  | WF (ECall _ (RRestart lost)) => (t.1, t.2 - lost)%Z
  | _ => t
  end.
Definition tally (tr : list wevent) : gmap nat bool * Z := fold_left tstep tr (∅, 0%Z).

Lemma tally_snoc tr e : tally (tr ++ [e]) = tstep (tally tr) e.
Proof. unfold tally. by rewrite fold_left_app. Qed.

(** ** Ghost state: what each client holds *)

Notation ghost := (gmap nat (list N * bool * Z)).
Definition glocks (G : ghost) : list N := map_to_list G ≫= fun p => p.2.1.1.
Definition groot (G : ghost) : list nat := map_to_list G ≫= fun p => if p.2.1.2 : bool then [p.1] else [].
Definition gitems (G : ghost) : list Z := map_to_list G ≫= fun p => [p.2.2].
Definition sumZ (l : list Z) : Z := foldr Z.add 0%Z l.

Lemma sumZ_perm l l' : l ≡ₚ l' -> sumZ l = sumZ l'.
Proof. unfold sumZ. induction 1; cbn [foldr]; lia. Qed.
Lemma sumZ_app l l' : sumZ (l ++ l') = (sumZ l + sumZ l')%Z.
Proof. unfold sumZ. induction l as [|z l IH]; cbn [foldr app]; lia. Qed.

Definition post (o : outcome) (l : list N) (b : bool) : Prop :=
  match o with
  | OPrepU found op => upost (found, op) l b
  | OPrepD r => dpost r l b
  | OLook _ _ => l = [] /\ b = false
  end.

Lemma safe_program c : safe (program_of c) [] false post.
Proof.
  destruct c; cbn [program_of safe]; try done.
  - apply quiet_use; [apply quiet_search|]. intros [v f]. done.
  - apply safe_bind. eapply safe_mono; [|apply safe_prepare_update]. intros [f op] l b H. done.
  - apply safe_bind. eapply safe_mono; [|apply safe_prepare_delete]. intros r l b H. done.
Qed.

Definition hfound (hd : handle) : bool := match hd with HU f _ => f | _ => false end.
(** An operation returned by a Prepare. *)
Definition whole (hd : handle) : Prop := match hd with HU f op => f = is_found (u_kind op) | HD _ _ => True | HP _ _ => False end.
Definition takes (c : call) (hd : handle) : Prop := match c with CFinU _ _ _ _ => exists f op, hd = HU f op | _ => True end.

Definition owner (x : wsys) (aid : nat) (g : list N * bool * Z) : Prop :=
  let jobs := fs_jobs (ws_f x) in
  exists hd, sy_open (fs_sys (ws_f x)) !! aid = Some hd /\
  match ws_fin x !! aid with
  | Some (c, p) => jobs !! aid = None /\ whole hd /\ takes c hd /\ wsafe p g.1.1 g.1.2 g.2 (done_with c (hfound hd))
  | None =>
    g.2 = 0%Z /\
    match hd with
    | HP l b => g.1 = (l, b) /\ exists c p, jobs !! aid = Some (Running c p) /\ safe p l b post
    | _ => jobs !! aid = None /\ whole hd /\ g.1.1 ≡ₚ (hlocks hd).1 /\ g.1.2 = (hlocks hd).2
    end
  end.
Definition free (x : wsys) (aid : nat) : Prop :=
  sy_open (fs_sys (ws_f x)) !! aid = None /\ ws_fin x !! aid = None /\
  match fs_jobs (ws_f x) !! aid with Some (Running _ _) => False | _ => True end.

Definition covers (x : wsys) (G : ghost) : Prop :=
  forall aid, match G !! aid with Some g => owner x aid g | None => free x aid end.

Record winv (tr : list wevent) (x : wsys) (G : ghost) : Prop := {
  wi_cover : covers x G;
  wi_locks : locks_inv (t_locks (sy_tree (fs_sys (ws_f x)))) (glocks G);
  wi_root : t_rootLock (sy_tree (fs_sys (ws_f x))) = N.of_nat (length (groot G)) /\ (length (groot G) <= 1)%nat;
  wi_len : len (sy_tree (fs_sys (ws_f x))) = ((tally tr).2 + sumZ (gitems G))%Z;
  wi_found : forall aid f op, sy_open (fs_sys (ws_f x)) !! aid = Some (HU f op) -> (tally tr).1 !! aid = Some f
}.

(** ** Changing one entry *)

Lemma glocks_new G i l b d : G !! i = None -> glocks (<[i := (l, b, d)]> G) ≡ₚ l ++ glocks G.
Proof. intros H. exact (bind_insert G i (l, b, d) (fun p => p.2.1.1) H). Qed.
Lemma glocks_old G i l b d : G !! i = Some (l, b, d) -> glocks G ≡ₚ l ++ glocks (delete i G).
Proof. intros H. exact (bind_delete G i (l, b, d) (fun p => p.2.1.1) H). Qed.
Lemma groot_new G i l (b : bool) d : G !! i = None -> length (groot (<[i := (l, b, d)]> G)) = ((if b then 1 else 0) + length (groot G))%nat.
Proof. intros H. unfold groot. rewrite bind_insert by done. rewrite app_length. by destruct b. Qed.
Lemma groot_old G i l (b : bool) d : G !! i = Some (l, b, d) -> length (groot G) = ((if b then 1 else 0) + length (groot (delete i G)))%nat.
Proof. intros H. unfold groot. rewrite bind_delete by done. rewrite app_length. by destruct b. Qed.
Lemma gitems_new G i l (b : bool) d : G !! i = None -> sumZ (gitems (<[i := (l, b, d)]> G)) = (d + sumZ (gitems G))%Z.
Proof. intros H. unfold gitems. rewrite (sumZ_perm _ _ (bind_insert _ _ _ _ H)), sumZ_app. cbn [snd]. f_equal. apply Z.add_0_r. Qed.
Lemma gitems_old G i l (b : bool) d : G !! i = Some (l, b, d) -> sumZ (gitems G) = (d + sumZ (gitems (delete i G)))%Z.
Proof. intros H. unfold gitems. rewrite (sumZ_perm _ _ (bind_delete _ _ _ _ H)), sumZ_app. cbn [snd]. f_equal. apply Z.add_0_r. Qed.

Lemma ghost_set (G : ghost) i g : <[i := g]> G = <[i := g]> (delete i G).
Proof. symmetry. exact (insert_delete_insert G i g). Qed.

(** The tree with the lock words changed by one client. *)
Definition shared_ok (s : tree) (G : ghost) (z : Z) : Prop :=
  locks_inv (t_locks s) (glocks G) /\
  (t_rootLock s = N.of_nat (length (groot G)) /\ (length (groot G) <= 1)%nat) /\
  len s = (z + sumZ (gitems G))%Z.

Lemma shared_same s G z i l b d l' : shared_ok s G z -> G !! i = Some (l, b, d) -> l' ≡ₚ l -> shared_ok s (<[i := (l', b, d)]> G) z.
Proof.
  intros (H1 & H2 & H3) HG Hl. rewrite ghost_set. unfold shared_ok.
  rewrite (groot_new (delete i G)), (gitems_new (delete i G)) by apply lookup_delete.
  rewrite (groot_old G i l b d) in H2 by done. rewrite (gitems_old G i l b d) in H3 by done. split_and!; try done; [|apply H2|apply H2].
  eapply locks_inv_perm; [|exact H1]. rewrite (glocks_new (delete i G)) by apply lookup_delete. rewrite Hl. by apply (glocks_old G i l b d).
Qed.

(** What a step of client [i] may do to the shared parts: [s] to [s'], [(l, b, d)] to [(l', b', d')]. *)
Definition move (s s' : tree) (l l' : list N) (b b' : bool) (d d' : Z) : Prop :=
  (forall rest, locks_inv (t_locks s) (l ++ rest) -> locks_inv (t_locks s') (l' ++ rest)) /\
  (forall n : nat, t_rootLock s = N.of_nat ((if b then 1 else 0) + n) -> ((if b then 1 else 0) + n <= 1)%nat ->
     t_rootLock s' = N.of_nat ((if b' then 1 else 0) + n) /\ ((if b' then 1 else 0) + n <= 1)%nat) /\
  (len s' - len s = d' - d)%Z.

Lemma move_ok s s' G z i l l' b b' d d' : shared_ok s G z -> G !! i = Some (l, b, d) -> move s s' l l' b b' d d' ->
  shared_ok s' (<[i := (l', b', d')]> G) z.
Proof.
  intros (H1 & [H2 H2'] & H3) HG (M1 & M2 & M3). rewrite ghost_set. unfold shared_ok.
  rewrite (groot_new (delete i G)), (gitems_new (delete i G)) by apply lookup_delete.
  rewrite (groot_old G i l b d) in H2, H2' by done. rewrite (gitems_old G i l b d) in H3 by done. split_and!.
  - eapply locks_inv_perm; [symmetry; apply (glocks_new (delete i G)), lookup_delete|]. apply M1.
    eapply locks_inv_perm; [|exact H1]. by apply (glocks_old G i l b d).
  - by apply M2.
  - by apply M2.
  - lia.
Qed.

Lemma move_drop s G z i d : shared_ok s G z -> G !! i = Some ([], false, d) -> shared_ok s (delete i G) (z + d)%Z.
Proof.
  intros (H1 & [H2 H2'] & H3) HG. unfold shared_ok.
  rewrite (groot_old G i [] false d) in H2, H2' by done. rewrite (gitems_old G i [] false d) in H3 by done. split_and!.
  - eapply locks_inv_perm; [|exact H1]. by apply (glocks_old G i [] false d).
  - done.
  - done.
  - lia.
Qed.

Lemma move_new s G z i : shared_ok s G z -> G !! i = None -> shared_ok s (<[i := ([], false, 0%Z)]> G) z.
Proof.
  intros (H1 & [H2 H2'] & H3) HG. unfold shared_ok. rewrite groot_new, gitems_new by done. split_and!; try done.
  eapply locks_inv_perm; [symmetry; by apply glocks_new|]. done.
Qed.

Lemma move_keep s s' l b d : t_locks s' = t_locks s -> t_rootLock s' = t_rootLock s -> len s' = len s -> move s s' l l b b d d.
Proof. intros E1 E2 E3. unfold move. rewrite E1, E2, E3. split_and!; [done|done|lia]. Qed.

Lemma move_items s s' l b d z : t_locks s' = t_locks s -> t_rootLock s' = t_rootLock s -> len s' = (len s + z)%Z -> move s s' l l b b d (d + z)%Z.
Proof. intros E1 E2 E3. unfold move. rewrite E1, E2, E3. split_and!; [done|done|lia]. Qed.

(** *** The accesses *)

Lemma len_same s s' : t_allocs s' = t_allocs s -> t_live s' = t_live s -> len s' = len s.
Proof. apply len_ext. Qed.

Lemma gen_odd_dec g : gen_odd (gen_dec g) = negb (gen_odd g).
Proof.
  unfold gen_odd, gen_dec, i32. pose proof (N.div_mod' (g + 4294967295) 4294967296) as E.
  assert (H : N.odd (g + 4294967295) = negb (N.odd g)).
  { rewrite N.odd_add. change (N.odd 4294967295) with true. by destruct (N.odd g). }
  rewrite <- H. rewrite E at 2. rewrite N.odd_add, N.odd_mul. change (N.odd 4294967296) with false.
  rewrite andb_false_l, xorb_false_l. done.
Qed.

Lemma filter_split (i : N) (l : list N) : NoDup l -> i ∈ l -> l ≡ₚ i :: filter (fun j => j <> i) l.
Proof.
  intros Hn Hi. apply elem_of_Permutation in Hi as [l' E]. rewrite E in Hn. apply NoDup_cons in Hn as [Hn _].
  assert (F : filter (fun j => j <> i) l ≡ₚ l') by by apply filter_perm. by rewrite F.
Qed.

(** Flipping a held word releases it. *)
Lemma flip_off l i rest l0 g : locks_inv l (l0 ++ rest) -> i ∈ l0 -> gen_odd g = negb (gen_odd (lget l i)) ->
  locks_inv (mset l i g) (filter (fun j => j <> i) l0 ++ rest).
Proof.
  intros [H1 H2] Hi Hg. pose proof H1 as H1'. apply NoDup_app in H1' as (Hn & Hd & Hr).
  pose proof (filter_split i l0 Hn Hi) as E. rewrite E in H1. cbn [app] in H1. apply NoDup_cons in H1 as [Hni H1].
  split; [done|]. intros j. destruct (decide (j = i)) as [->|Hne].
  - rewrite lget_mset_eq, Hg. split; [|intros H; by destruct Hni].
    intros H. assert (gen_odd (lget l i) = true) as Ho by (apply H2, elem_of_app; by left). by rewrite Ho in H.
  - rewrite lget_mset_ne by done. rewrite H2, !elem_of_app, elem_of_list_filter. naive_solver.
Qed.

Lemma move_lock s l b d i g : gen_odd g = false -> lget (t_locks s) i = g -> i ∉ l ->
  move s (set_locks s (mset (t_locks s) i (gen_inc g))) l (i :: l) b b d d.
Proof.
  intros Hg Hi Hl. split_and!.
  - intros rest H. cbn [t_locks set_locks app]. rewrite <- Hi. apply lock_word_ok; [done|]. eapply not_odd_not_held; [done|]. by rewrite Hi.
  - done.
  - rewrite (len_same s) by done. lia.
Qed.

Lemma move_flip s l b d i g : i ∈ l -> gen_odd g = negb (gen_odd (lget (t_locks s) i)) ->
  move s (set_locks s (mset (t_locks s) i g)) l (filter (fun j => j <> i) l) b b d d.
Proof.
  intros Hi Hg. split_and!.
  - intros rest H. cbn [t_locks set_locks]. by apply flip_off.
  - done.
  - rewrite (len_same s) by done. lia.
Qed.

Lemma move_root_on s l d : t_rootLock s = 0 -> move s (set_rootLock s 1) l l false true d d.
Proof.
  intros E. split_and!; [done| |rewrite (len_same s) by done; lia]. intros n Hn Hle. cbn [t_rootLock set_rootLock]. rewrite E in Hn.
  assert (n = 0%nat) as -> by lia. split; [done|lia].
Qed.

Lemma move_root_off s l d : move s (unlock_root s) l l true false d d.
Proof.
  split_and!; [done| |rewrite (len_same s) by done; lia]. intros n Hn Hle. unfold unlock_root. cbn [t_rootLock set_rootLock]. rewrite Hn.
  assert (n = 0%nat) as -> by lia. split; [done|lia].
Qed.

(** One access of a Lookup or Prepare. *)
Lemma act_move s a v s' (k : N -> prog outcome) l b d : safe (Act a k) l b post ->
  (forall i, i ∈ l -> gen_odd (lget (t_locks s) i) = true) -> (b = true -> t_rootLock s <> 0) ->
  do_act s a = Ok (v, s') ->
  exists l' b', hp_act (HP l b) a v = HP l' b' /\ safe (k v) l' b' post /\ move s s' l l' b b' d d.
Proof.
  intros Hs Ho Hr. destruct a; cbn [do_act safe hp_act] in *.
  - intros [= <- <-]. exists l, b. split_and!; [done|apply Hs|by apply move_keep].
  - destruct (node_data s node); cbn [bind]; try done. intros [= <- <-]. exists l, b. split_and!; [done|apply Hs|by apply move_keep].
  - intros [= <- <-]. exists l, b. split_and!; [done|apply Hs|by apply move_keep].
  - destruct Hs as (Hg & H0 & H1). unfold lock_cas. destruct (N.eqb_spec (lget (t_locks s) i) g) as [E|E]; intros [= <- <-].
    + assert (Hni : i ∉ l) by (intros Hi; apply Ho in Hi; congruence).
      exists (i :: l), b. split_and!; [done|by apply H1|by apply move_lock].
    + exists l, b. split_and!; [done|done|by apply move_keep].
  - destruct Hs as (Hi & H0). intros [= <- <-]. exists (filter (fun j => j <> i) l), b. split_and!; [done|done|].
    apply move_flip; [done|apply gen_odd_dec].
  - destruct Hs as (H0 & H1). destruct (N.eqb_spec (t_rootLock s) 0) as [E|E]; intros [= <- <-].
    + destruct b; [by destruct (Hr eq_refl)|]. exists l, true. split_and!; [done|by apply H1|by apply move_root_on].
    + exists l, b. split_and!; [done|done|by apply move_keep].
  - destruct Hs as (-> & H0). intros [= <- <-]. exists l, false. split_and!; [done|done|apply move_root_off].
Qed.

Lemma len_take s aid slots m v s' : take_node s aid slots m = Ok (v, s') ->
  t_locks s' = t_locks s /\ t_rootLock s' = t_rootLock s /\ len s' = len s.
Proof.
  unfold take_node, bump_alloc, get_alloc. destruct (t_allocs s !! aid) as [a|] eqn:Ea; cbn [bind]; [|done].
  destruct (find_recycled _ _ _) as [[[t i] [n e]]|].
  - intros [= <- <-]. split_and!; [done|done|]. rewrite (len_put _ _ a) by done. cbn [al_items al_set_recycler]. lia.
  - destruct (_ <=? _).
    + unfold receive_block. destruct (_ <? _); [|done]. cbn [bind]. intros [= <- <-]. split_and!; [done|done|].
      rewrite (len_put _ _ a) by done. cbn [al_items]. rewrite (len_same s) by done. lia.
    + intros [= <- <-]. split_and!; [done|done|]. rewrite (len_put _ _ a) by done. cbn [al_items]. lia.
Qed.

(** One access of a Finalize or Abort. *)
Lemma wact_move s a v s' (k : N -> wprog reply) l b d Q : wsafe (WDo a k) l b d Q -> do_wact s a = Ok (v, s') ->
  exists l' b' d', wsafe (k v) l' b' d' Q /\ move s s' l l' b b' d d'.
Proof.
  intros Hs. destruct a; cbn [do_wact wsafe] in *.
  - intros [= <- <-]. exists l, b, d. split; [apply Hs|by apply move_keep].
  - destruct (sl_set _ _ _ _); cbn [bind]; try done. intros [= <- <-]. exists l, b, d. split; [apply Hs|by apply move_keep].
  - destruct (store_prefix _ _ _); cbn [bind]; try done. intros [= <- <-]. exists l, b, d. split; [apply Hs|by apply move_keep].
  - intros [= <- <-]. exists l, b, d. split; [apply Hs|]. destruct p; by apply move_keep.
  - unfold pcas. destruct (_ =? _); intros [= <- <-]; exists l, b, d; (split; [apply Hs|]); [destruct p|]; by apply move_keep.
  - destruct (t_resv s !! i); [|done]. intros [= <- <-]. exists l, b, d. split; [apply Hs|by apply move_keep].
  - intros H. apply len_take in H as (H1 & H2 & H3). exists l, b, d. split; [apply Hs|by apply move_keep].
  - destruct (node_data s node); cbn [bind]; try done. intros [= <- <-]. exists l, b, d. split; [apply Hs|by apply move_keep].
  - destruct Hs as [Hi Hs]. unfold unlock_word. destruct (gen_odd _); cbn [bind]; [done|]. intros [= <- <-].
    exists (filter (fun j => j <> i) l), b, d. split; [apply Hs|]. apply move_flip; [done|]. apply gen_odd_inc.
  - destruct Hs as [-> Hs]. intros [= <- <-]. exists l, false, d. split; [apply Hs|]. apply move_root_off.
  - intros [= <- <-]. exists l, b, d. split; [apply Hs|by apply move_keep].
  - unfold keep_node, get_alloc. destruct (t_allocs s !! aid) as [a|] eqn:Ea; cbn [bind]; [|done]. intros [= <- <-].
    exists l, b, d. split; [apply Hs|]. apply move_keep; [done|done|]. rewrite (len_put _ _ a) by done. cbn [al_items]. lia.
  - intros [= <- <-]. exists l, b, d. split; [apply Hs|by apply move_keep].
  - destruct (flush_stats s aid) as [s1| | |] eqn:Ef; cbn [bind]; try done. intros [= <- <-]. exists l, b, d. split; [apply Hs|].
    apply move_keep; [| |by apply len_flush in Ef as (? & _)].
    + unfold flush_stats in Ef. destruct (get_alloc s aid); cbn [bind] in Ef; try done. by injection Ef as <-.
    + unfold flush_stats in Ef. destruct (get_alloc s aid); cbn [bind] in Ef; try done. by injection Ef as <-.
  - unfold add_items, get_alloc. destruct (t_allocs s !! aid) as [a|] eqn:Ea; cbn [bind]; [|done]. intros [= <- <-].
    exists l, b, (d + d0)%Z. split; [apply Hs|]. apply move_items; [done|done|]. rewrite (len_put _ _ a) by done. cbn [al_items al_add_items]. lia.
  - intros [= <- <-]. exists l, b, d. split; [apply Hs|by apply move_keep].
Qed.

(** ** Preservation *)

Definition agree (x x' : wsys) (i : nat) : Prop := forall j, j <> i ->
  sy_open (fs_sys (ws_f x')) !! j = sy_open (fs_sys (ws_f x)) !! j /\ ws_fin x' !! j = ws_fin x !! j /\
  fs_jobs (ws_f x') !! j = fs_jobs (ws_f x) !! j.

Lemma owner_agree x x' i j g : agree x x' i -> j <> i -> owner x j g -> owner x' j g.
Proof. intros Ha Hj. destruct (Ha j Hj) as (E1 & E2 & E3). unfold owner. by rewrite E1, E2, E3. Qed.
Lemma free_agree x x' i j : agree x x' i -> j <> i -> free x j -> free x' j.
Proof. intros Ha Hj. destruct (Ha j Hj) as (E1 & E2 & E3). unfold free. by rewrite E1, E2, E3. Qed.

Lemma covers_set x x' G i g : covers x G -> agree x x' i -> owner x' i g -> covers x' (<[i := g]> G).
Proof.
  intros Hc Ha Ho j. destruct (decide (j = i)) as [->|Hj]; [by rewrite lookup_insert|]. rewrite lookup_insert_ne by done.
  specialize (Hc j). destruct (G !! j); [by eapply owner_agree|by eapply free_agree].
Qed.
Lemma covers_del x x' G i : covers x G -> agree x x' i -> free x' i -> covers x' (delete i G).
Proof.
  intros Hc Ha Ho j. destruct (decide (j = i)) as [->|Hj]; [by rewrite lookup_delete|]. rewrite lookup_delete_ne by done.
  specialize (Hc j). destruct (G !! j); [by eapply owner_agree|by eapply free_agree].
Qed.
Lemma covers_free x x' G i : covers x G -> agree x x' i -> G !! i = None -> free x' i -> covers x' G.
Proof.
  intros Hc Ha Hi Ho j. destruct (decide (j = i)) as [->|Hj]; [by rewrite Hi|].
  specialize (Hc j). destruct (G !! j); [by eapply owner_agree|by eapply free_agree].
Qed.

Ltac agr := intros ?j ?Hne; cbn [ws_f ws_fin fs_sys fs_jobs sy_open]; rewrite ?lookup_insert_ne, ?lookup_delete_ne by done; done.

Lemma shared_of tr x G : winv tr x G -> shared_ok (sy_tree (fs_sys (ws_f x))) G (tally tr).2.
Proof. intros [_ H1 H2 H3 _]. by split; [|split]. Qed.

Lemma winv_of tr x G : covers x G -> shared_ok (sy_tree (fs_sys (ws_f x))) G (tally tr).2 ->
  (forall aid f op, sy_open (fs_sys (ws_f x)) !! aid = Some (HU f op) -> (tally tr).1 !! aid = Some f) -> winv tr x G.
Proof. intros H1 (H2 & H3 & H4) H5. by split. Qed.

(** The job of a running call. *)
Lemma running_owner x G i c p : covers x G -> fs_jobs (ws_f x) !! i = Some (Running c p) ->
  exists l b, G !! i = Some (l, b, 0%Z) /\ ws_fin x !! i = None /\ sy_open (fs_sys (ws_f x)) !! i = Some (HP l b) /\ safe p l b post.
Proof.
  intros Hc Hj. specialize (Hc i). destruct (G !! i) as [[[l b] d]|].
  - destruct Hc as (hd & Ho & Hc). destruct (ws_fin x !! i) as [[c' p']|].
    + destruct Hc as (Hn & _). by rewrite Hj in Hn.
    + destruct Hc as (Hd & Hc). cbn in Hd. subst d. destruct hd as [f op|key op|l' b']; try (destruct Hc as (Hn & _); by rewrite Hj in Hn).
      destruct Hc as ([= -> ->] & c' & p' & Hj' & Hs). rewrite Hj in Hj'. injection Hj' as <- <-. eauto 6.
  - destruct Hc as (_ & _ & Hc). by rewrite Hj in Hc.
Qed.

Lemma waiting_free x G i c e : covers x G -> fs_jobs (ws_f x) !! i = Some (Waiting c e) -> G !! i = None /\ free x i.
Proof.
  intros Hc Hj. specialize (Hc i). destruct (G !! i) as [[[l b] d]|]; [|done].
  destruct Hc as (hd & Ho & Hc). destruct (ws_fin x !! i) as [[c' p']|].
  - destruct Hc as (Hn & _). by rewrite Hj in Hn.
  - destruct Hc as (Hd & Hc). destruct hd as [f op|key op|l' b']; try (destruct Hc as (Hn & _); by rewrite Hj in Hn).
    destruct Hc as (_ & c' & p' & Hj' & Hs). by rewrite Hj in Hj'.
Qed.

Lemma closed_free x G i : covers x G -> sy_open (fs_sys (ws_f x)) !! i = None -> G !! i = None /\ free x i.
Proof.
  intros Hc Hj. specialize (Hc i). destruct (G !! i) as [[[l b] d]|]; [|done]. destruct Hc as (hd & Ho & Hc). by rewrite Hj in Ho.
Qed.

Lemma held_odd s G z i l b d j : shared_ok s G z -> G !! i = Some (l, b, d) -> j ∈ l -> gen_odd (lget (t_locks s) j) = true.
Proof. intros ((_ & H) & _) HG Hj. apply H. rewrite (glocks_old G i l b d) by done. apply elem_of_app. by left. Qed.
Lemma held_root s G z i l d : shared_ok s G z -> G !! i = Some (l, true, d) -> t_rootLock s <> 0.
Proof. intros (_ & (H & _) & _) HG. rewrite H, (groot_old G i l true d) by done. lia. Qed.

Lemma ghost_empty x G : covers x G -> sy_open (fs_sys (ws_f x)) = ∅ -> G = ∅.
Proof.
  intros Hc E. apply map_empty. intros i. destruct (G !! i) as [g|] eqn:Eg; [|done]. specialize (Hc i). rewrite Eg in Hc.
  destruct Hc as (hd & Ho & _). by rewrite E, lookup_empty in Ho.
Qed.

Lemma loaded_locks unpack l s bs : new_tree_from_state unpack l = Loaded (s, bs) -> t_locks s = mempty /\ t_rootLock s = 0.
Proof.
  unfold new_tree_from_state, finish_load. destruct (load_state unpack l) as [st| |]; cbn [lbind]; [|discriminate|discriminate].
  destruct (maxBlockCount <=? ls_nfb st); [discriminate|].
  generalize (if existsb (N.eqb (ls_nfb st)) (ls_blocks st)
             then mwrite (ls_mem st) (ls_nfb st * blockSlots) (replicate (N.to_nat blockSlots) 0)
             else ls_mem st). intros m [= <- <-]. by split.
Qed.

Section Inv.
Context (K : list N -> Prop) (fetch : N -> list N).

Lemma fine_step tr x e x' fin G : winv tr (WSys x fin) G -> remains fin e -> fstep K fetch x e x' ->
  exists G', winv (tr ++ [WF e]) (WSys x' fin) G'.
Proof.
  intros Hi Hr Hst. pose proof (shared_of _ _ _ Hi) as Hsh. cbn [ws_f] in Hsh. destruct Hi as [Hc _ _ _ Hf]. cbn [ws_f ws_fin] in Hf.
  destruct Hst as [y y' jobs c r Hj Hre Hp Ha|y jobs c aid Hj Hn Hp|y jobs c aid e Hj|y jobs c aid a k hd v s' Hj Ho Ha|y jobs c aid Hj|y jobs c aid o Hj];
    cbn [fs_sys fs_jobs sy_tree sy_open] in *.
  - cbn [remains] in Hr. destruct Hr as (Hr1 & Hr2 & Hr3). destruct c; try done; cbn [api] in Ha.
    + destruct (flush_stats (sy_tree y) aid) as [s1| | |] eqn:Ef; cbn [bind] in Ha; try done. injection Ha as <- <-. exists G.
      pose proof (len_flush _ _ _ Ef) as (El & _). apply winv_of; rewrite ?tally_snoc; cbn [tstep ws_f fs_sys sy_tree sy_open]; [|  |done].
      * intros j. specialize (Hc j). destruct (G !! j); exact Hc.
      * unfold flush_stats in Ef. destruct (get_alloc _ aid); cbn [bind] in Ef; try done. injection Ef as <-.
        destruct Hsh as (H1 & H2 & H3). unfold shared_ok. rewrite El. split; [exact H1|split; [exact H2|exact H3]].
    + destruct Hp as (Ho & _). assert (G = ∅) as -> by by eapply ghost_empty.
      destruct (new_tree_from_state _ _) as [[s1 bs]| |] eqn:El; try done. injection Ha as <- <-. exists ∅.
      assert (Hs1 : t_locks s1 = mempty /\ t_rootLock s1 = 0).
      { by eapply loaded_locks. }
      destruct Hs1 as [E1 E2]. apply winv_of; rewrite ?tally_snoc; cbn [tstep ws_f fs_sys sy_tree sy_open].
      * intros j. specialize (Hc j). rewrite lookup_empty in *. destruct Hc as (_ & H2 & H3). split_and!; [apply lookup_empty|done|done].
      * destruct Hsh as (_ & _ & H3). unfold shared_ok. rewrite E1, E2. cbn [snd]. split_and!.
        -- split; [constructor|]. intros j. rewrite lget_mempty. split; [done|]. by intros ?%elem_of_nil.
        -- done.
        -- change (length (groot ∅)) with 0%nat; lia.
        -- rewrite H3. lia.
      * intros ? ? ? H. by rewrite lookup_empty in H.
  - exists G. assert (Ho : sy_open y !! aid = None).
    { destruct c; try done; injection Hj as ->; by destruct Hp as (_ & ? & _). }
    destruct (closed_free _ _ aid Hc Ho) as [HG (F1 & F2 & F3)]. apply winv_of; rewrite ?tally_snoc; [|done|done].
    eapply (covers_free _ _ _ aid); [done|agr|done|]. split_and!; [done|done|]. cbn [ws_f fs_jobs]. by rewrite lookup_insert.
  - destruct (waiting_free _ _ aid _ _ Hc Hj) as [HG (F1 & F2 & F3)]. exists (<[aid := ([], false, 0%Z)]> G).
    apply winv_of; rewrite ?tally_snoc; cbn [tstep].
    + eapply covers_set; [done|agr|]. exists (HP [] false). cbn [ws_f ws_fin fs_sys fs_jobs sy_open] in *. rewrite lookup_insert, F2. split; [done|].
      split; [done|]. split; [done|]. exists c, (program_of c). rewrite lookup_insert. split; [done|]. apply safe_program.
    + by apply move_new.
    + cbn. intros j f op H. destruct (decide (j = aid)) as [->|Hne]; [by rewrite lookup_insert in H|]. rewrite lookup_insert_ne in H by done. by eapply Hf.
  - destruct (running_owner _ _ aid _ _ Hc Hj) as (l & b & HG & Hfin & Ho' & Hs). cbn [ws_f fs_sys sy_open] in Ho'. rewrite Ho in Ho'. injection Ho' as ->.
    destruct (act_move (sy_tree y) a v s' k l b 0 Hs) as (l' & b' & E & Hs' & Hm); [| |done|].
    { intros i Hi. by eapply held_odd. } { intros ->. by eapply held_root. }
    exists (<[aid := (l', b', 0%Z)]> G). apply winv_of; rewrite ?tally_snoc; cbn [tstep].
    + eapply covers_set; [done|agr|]. exists (HP l' b'). cbn [ws_f ws_fin fs_sys fs_jobs sy_open] in *. rewrite lookup_insert, Hfin, E. split; [done|].
      split; [done|]. split; [done|]. exists c, (k v). by rewrite lookup_insert.
    + cbn [ws_f fs_sys sy_tree]. by eapply move_ok.
    + cbn [ws_f fs_sys sy_open]. rewrite E. intros j f op H. destruct (decide (j = aid)) as [->|Hne]; [by rewrite lookup_insert in H|]. rewrite lookup_insert_ne in H by done. by eapply Hf.
  - destruct (running_owner _ _ aid _ _ Hc Hj) as (l & b & HG & Hfin & Ho' & Hs). cbn [safe] in Hs. destruct Hs as [-> ->].
    exists G. apply winv_of; rewrite ?tally_snoc; cbn [tstep]; [|done|done].
    intros j. destruct (decide (j = aid)) as [->|Hne].
    + rewrite HG. exists (HP [] false). split; [done|]. cbn [ws_fin] in *. rewrite Hfin. split; [done|]. split; [done|]. exists c, (program_of c).
      cbn [ws_f fs_jobs]. rewrite lookup_insert. split; [done|]. apply safe_program.
    + specialize (Hc j). destruct (G !! j).
      * eapply (owner_agree (WSys (FSys y jobs) fin) _ aid); [agr|done|done].
      * eapply (free_agree (WSys (FSys y jobs) fin) _ aid); [agr|done|done].
  - destruct (running_owner _ _ aid _ _ Hc Hj) as (l & b & HG & Hfin & Ho' & Hs). cbn [safe] in Hs. cbn [ws_fin] in Hfin.
    assert (Hdrop : forall (o : outcome), l = [] -> b = false -> (forall t, tstep t (WF (EReturn aid c (returned o))) = t) ->
      exists G', winv (tr ++ [WF (EReturn aid c (returned o))]) (WSys (FSys (Sys (end_op (sy_tree y) aid) (delete aid (sy_open y))) (delete aid jobs)) fin) G').
    { intros o' -> -> Et. exists (delete aid G). apply winv_of; rewrite ?tally_snoc, ?Et.
      - eapply covers_del; [done|agr|]. split_and!; cbn; rewrite ?lookup_delete; done.
      - pose proof (move_drop _ _ _ _ _ Hsh HG) as H. rewrite Z.add_0_r in H. exact H.
      - cbn. intros j f op H. destruct (decide (j = aid)) as [->|Hne]; [by rewrite lookup_delete in H|]. rewrite lookup_delete_ne in H by done. by eapply Hf. }
    destruct o as [v f|f op|[op|]]; cbn [return_to post] in *.
    + destruct Hs as [-> ->]. by apply Hdrop.
    + destruct Hs as (H1 & H2 & H3). cbn [fst snd] in *. exists G. apply winv_of; rewrite ?tally_snoc; cbn [tstep returned].
      * intros j. destruct (decide (j = aid)) as [->|Hne].
        -- rewrite HG. exists (HU f op). cbn. rewrite lookup_insert, Hfin, lookup_delete. done.
        -- specialize (Hc j). destruct (G !! j).
           ++ eapply (owner_agree (WSys (FSys y jobs) fin) _ aid); [agr|done|done].
           ++ eapply (free_agree (WSys (FSys y jobs) fin) _ aid); [agr|done|done].
      * done.
      * cbn. intros j f' op' H. destruct (decide (j = aid)) as [->|Hne].
        -- rewrite lookup_insert in H. injection H as <- <-. by rewrite lookup_insert.
        -- rewrite lookup_insert_ne in H by done. rewrite lookup_insert_ne by done. by eapply Hf.
    + destruct Hs as (H2 & H3). cbn [fst snd] in *. exists G. apply winv_of; rewrite ?tally_snoc; cbn [tstep returned].
      * intros j. destruct (decide (j = aid)) as [->|Hne].
        -- rewrite HG. exists (HD (job_key c) op). cbn. rewrite lookup_insert, Hfin, lookup_delete. done.
        -- specialize (Hc j). destruct (G !! j).
           ++ eapply (owner_agree (WSys (FSys y jobs) fin) _ aid); [agr|done|done].
           ++ eapply (free_agree (WSys (FSys y jobs) fin) _ aid); [agr|done|done].
      * done.
      * cbn. intros j f' op' H. destruct (decide (j = aid)) as [->|Hne]; [by rewrite lookup_insert in H|].
        rewrite lookup_insert_ne in H by done. by eapply Hf.
    + destruct Hs as [-> ->]. by apply (Hdrop (OPrepD None)).
Qed.

(** A Finalize or Abort starts with the locks of its operation. *)
Lemma fin_start y c aid hd n l : proper K fetch y c -> fin_client c = Some aid -> sy_open y !! aid = Some hd -> whole hd ->
  (forall key op, c = CAbortD aid -> hd = HD key op -> d_kind op = replaceNodeWithNode -> d_child op <> 0) -> l ≡ₚ (hlocks hd).1 ->
  takes c hd /\ wsafe (fin_prog n hd c) l (hlocks hd).2 0 (done_with c (hfound hd)).
Proof.
  intros Hp Hc Ho Hw Hk Hl. destruct c as [| |aid' fk m v|aid'| |aid'|aid'| |]; try done; cbn [fin_client] in Hc; injection Hc as ->; cbn [proper] in Hp.
  - destruct Hp as (f & op & Ho' & _). rewrite Ho in Ho'. injection Ho' as ->. cbn [whole] in Hw. subst f. split; [cbn; eauto|].
    cbn [hfound]. by apply wsafe_finish_update.
  - destruct Hp as (f & op & Ho'). rewrite Ho in Ho'. injection Ho' as ->. split; [done|]. by apply wsafe_abort_update.
  - destruct Hp as (op & Ho'). rewrite Ho in Ho'. injection Ho' as ->. split; [done|]. by apply wsafe_finish_delete.
  - destruct Hp as (key & op & Ho' & Hm). rewrite Ho in Ho'. injection Ho' as ->. split; [done|]. apply wsafe_abort_delete; [|done].
    intros E. split; [by eapply Hk|]. intros E0. by apply Hm.
Qed.

Lemma step_inv tr x e x' G : winv tr x G -> child_known x e -> wstep K fetch x e x' -> exists G', winv (tr ++ [e]) x' G'.
Proof.
  intros Hi Hk Hst. destruct Hst as [x e x' fin Hr Hst|x fin c aid hd Hc Hn Ho Hp|y jobs fin aid c a k v s' Hf Ha|y jobs fin aid c r Hf].
  - by eapply fine_step.
  - pose proof (shared_of _ _ _ Hi) as Hsh. destruct Hi as [Hcov _ _ _ Hfo]. pose proof (Hcov aid) as Ha.
    destruct (G !! aid) as [[[l b] d]|] eqn:HG; [|destruct Ha as (Ha & _); cbn in Ha; by rewrite Ho in Ha].
    destruct Ha as (hd' & Ho' & Ha). cbn [ws_f ws_fin] in *. rewrite Ho in Ho'. injection Ho' as <-. rewrite Hn in Ha.
    cbn [fst snd] in Ha. destruct Ha as (-> & Ha).
    assert (Hnp : exists c' hd', c' = c /\ hd' = hd /\ match hd' with HP _ _ => False | _ => True end).
    { exists c, hd. split_and!; [done..|]. destruct hd as [| |l' b']; [done|done|]. exfalso. clear Ha.
      destruct c as [| |aid' fk m v|aid'| |aid'|aid'| |]; try done; cbn [fin_client] in Hc; injection Hc as ->; cbn [proper] in Hp;
        repeat match goal with H : exists _, _ |- _ => destruct H as [? H] end; try match goal with H : _ /\ _ |- _ => destruct H as [H _] end; congruence. }
    destruct Hnp as (? & ? & -> & -> & Hnp).
    assert (Hw : fs_jobs x !! aid = None /\ whole hd /\ l ≡ₚ (hlocks hd).1 /\ b = (hlocks hd).2) by by destruct hd. destruct Hw as (Hw1 & Hw2 & Hw3 & ->).
    destruct (fin_start (fs_sys x) c aid hd (length (t_resv (sy_tree (fs_sys x)))) l) as [Ht Hs]; [done|done|done|done| |done|].
    { intros key op -> ->. cbn [child_known ws_f] in Hk. by apply (Hk key op). }
    exists G. apply winv_of; rewrite ?tally_snoc; cbn [tstep]; [|done|done]. intros j. destruct (decide (j = aid)) as [->|Hne].
    + rewrite HG. exists hd. cbn [ws_f ws_fin fst snd]. by rewrite lookup_insert.
    + specialize (Hcov j). destruct (G !! j).
      * eapply (owner_agree (WSys x fin) _ aid); [agr|done|done].
      * eapply (free_agree (WSys x fin) _ aid); [agr|done|done].
  - pose proof (shared_of _ _ _ Hi) as Hsh. destruct Hi as [Hcov _ _ _ Hfo]. pose proof (Hcov aid) as Ho. cbn [ws_f ws_fin fs_sys fs_jobs] in *.
    destruct (G !! aid) as [[[l b] d]|] eqn:HG; [|destruct Ho as (_ & Ho & _); cbn in Ho; by rewrite Hf in Ho].
    destruct Ho as (hd & Ho & H). cbn [ws_f ws_fin fs_sys fs_jobs] in *. rewrite Hf in H. destruct H as (H1 & H2 & H3 & H4). cbn [fst snd] in H4.
    destruct (wact_move _ _ _ _ _ _ _ _ _ H4 Ha) as (l' & b' & d' & Hs & Hm).
    exists (<[aid := (l', b', d')]> G). apply winv_of; rewrite ?tally_snoc; cbn [tstep]; [| |done].
    + eapply covers_set; [done|agr|]. exists hd. cbn [ws_f ws_fin fs_sys fs_jobs sy_open]. by rewrite lookup_insert.
    + cbn [ws_f fs_sys sy_tree]. by eapply move_ok.
  - pose proof (shared_of _ _ _ Hi) as Hsh. destruct Hi as [Hcov _ _ _ Hfo]. pose proof (Hcov aid) as Ho. cbn [ws_f ws_fin fs_sys fs_jobs] in *.
    destruct (G !! aid) as [[[l b] d]|] eqn:HG; [|destruct Ho as (_ & Ho & _); cbn in Ho; by rewrite Hf in Ho].
    destruct Ho as (hd & Ho & H). cbn [ws_f ws_fin fs_sys fs_jobs] in *. rewrite Hf in H. destruct H as (H1 & H2 & H3 & H4).
    cbn [wsafe fst snd] in H4. unfold done_with in H4. destruct H4 as (-> & -> & ->).
    exists (delete aid G).
    assert (Ht : tstep (tally tr) (WReturn aid c r) = ((tally tr).1, (tally tr).2 + counted c (hfound hd) r)%Z).
    { destruct (tally tr) as [fm z]. cbn [fst snd] in *. destruct c as [| |aid' fk m v|aid'| |aid'|aid'| |]; cbn [tstep counted fst snd]; destruct r as [| | |[]| |]; rewrite ?Z.add_0_r; try done.
      destruct H3 as (f & op & ->). rewrite (Hfo _ _ _ Ho). done. }
    apply winv_of; rewrite ?tally_snoc, ?Ht; cbn [fst snd].
    + eapply covers_del; [done|agr|]. split_and!; cbn; rewrite ?lookup_delete; [done|done|]. by rewrite H1.
    + cbn [ws_f fs_sys sy_tree]. by apply move_drop.
    + cbn. intros j f op H. destruct (decide (j = aid)) as [->|Hne]; [by rewrite lookup_delete in H|]. rewrite lookup_delete_ne in H by done. by eapply Hfo.
Qed.

Lemma init_inv n : winv [] (winit n) ∅.
Proof.
  apply winv_of; cbn [tally fold_left winit finit init ws_f fs_sys sy_tree sy_open snd].
  - intros j. rewrite lookup_empty. split_and!; cbn; rewrite ?lookup_empty; done.
  - unfold shared_ok. split_and!.
    + split; [constructor|]. intros j. cbn [newTree t_locks]. rewrite lget_mempty. split; [done|]. by intros ?%elem_of_nil.
    + done.
    + change (length (groot ∅)) with 0%nat; lia.
    + unfold len, newTree. cbn [t_allocs t_live]. change (sumZ (gitems ∅)) with 0%Z. induction n as [|n IH]; [done|exact IH].
  - intros ? ? ? H. by rewrite lookup_empty in H.
Qed.

Lemma runs_inv n tr x : wruns K fetch child_known n tr x -> exists G, winv tr x G.
Proof.
  induction 1 as [|tr x e x' Hr [G IH] HP Hst]; [eexists; apply init_inv|]. by eapply step_inv.
Qed.

(** ** The consequences *)

(** No unlock fails. *)
Lemma unlock_ok n tr x aid c i k : wruns K fetch child_known n tr x -> ws_fin x !! aid = Some (c, WDo (WUnlock i) k) ->
  exists l, unlock_word (t_locks (sy_tree (fs_sys (ws_f x)))) i = Ok l.
Proof.
  intros Hr Hf. destruct (runs_inv _ _ _ Hr) as [G Hi]. pose proof (shared_of _ _ _ Hi) as Hsh. destruct Hi as [Hc _ _ _ _]. specialize (Hc aid).
  destruct (G !! aid) as [[[l b] d]|] eqn:HG; [|destruct Hc as (_ & Ho & _); by rewrite Hf in Ho].
  destruct Hc as (hd & Ho & H). rewrite Hf in H. destruct H as (_ & _ & _ & H). cbn [wsafe fst snd] in H. destruct H as [Hin _].
  unfold unlock_word. rewrite gen_odd_inc, (held_odd _ _ _ _ _ _ _ _ Hsh HG Hin). eauto.
Qed.

(** Once all calls have returned and no operation is open, nothing is locked. *)
Lemma idle_unlocked n tr x : wruns K fetch child_known n tr x -> sy_open (fs_sys (ws_f x)) = ∅ ->
  (forall i, gen_odd (lget (t_locks (sy_tree (fs_sys (ws_f x)))) i) = false) /\ t_rootLock (sy_tree (fs_sys (ws_f x))) = 0.
Proof.
  intros Hr Ho. destruct (runs_inv _ _ _ Hr) as [G Hi]. pose proof (shared_of _ _ _ Hi) as (H1 & H2 & _). destruct Hi as [Hc _ _ _ _].
  assert (G = ∅) as -> by by eapply ghost_empty. split; [|apply H2]. intros i. destruct (gen_odd _) eqn:E; [|done]. apply H1 in E. by apply elem_of_nil in E.
Qed.

Lemma idle_len n tr x : wruns K fetch child_known n tr x -> sy_open (fs_sys (ws_f x)) = ∅ ->
  len (sy_tree (fs_sys (ws_f x))) = (tally tr).2.
Proof.
  intros Hr Ho. destruct (runs_inv _ _ _ Hr) as [G Hi]. pose proof (shared_of _ _ _ Hi) as (_ & _ & H). destruct Hi as [Hc _ _ _ _].
  assert (G = ∅) as -> by by eapply ghost_empty. rewrite H. change (sumZ (gitems ∅)) with 0%Z. lia.
Qed.

(** An operation waiting for its Finalize or Abort still holds its lock words, and no other operation holds one of them. *)
Definition parked (x : wsys) (aid : nat) (hd : handle) : Prop :=
  sy_open (fs_sys (ws_f x)) !! aid = Some hd /\ ws_fin x !! aid = None.

Lemma parked_ghost tr x G aid hd : winv tr x G -> parked x aid hd -> exists l, G !! aid = Some (l, (hlocks hd).2, 0%Z) /\ l ≡ₚ (hlocks hd).1.
Proof.
  intros [Hc _ _ _ _] [Ho Hf]. specialize (Hc aid). destruct (G !! aid) as [[[l b] d]|] eqn:HG; [|destruct Hc as (Hc & _); by rewrite Ho in Hc].
  destruct Hc as (hd' & Ho' & H). rewrite Ho in Ho'. injection Ho' as <-. rewrite Hf in H. cbn [fst snd] in H. destruct H as (-> & H).
  destruct hd as [f op|key op|l' b'].
  - destruct H as (_ & _ & H1 & ->). eauto.
  - destruct H as (_ & _ & H1 & ->). eauto.
  - destruct H as ([= -> ->] & _). eauto.
Qed.

Lemma parked_locked n tr x aid hd i : wruns K fetch child_known n tr x -> parked x aid hd -> i ∈ (hlocks hd).1 ->
  gen_odd (lget (t_locks (sy_tree (fs_sys (ws_f x)))) i) = true.
Proof.
  intros Hr Hp Hi. destruct (runs_inv _ _ _ Hr) as [G Hinv]. destruct (parked_ghost _ _ _ _ _ Hinv Hp) as (l & HG & Hl).
  eapply held_odd; [by apply (shared_of _ _ _ Hinv)|done|by rewrite Hl].
Qed.

Lemma parked_alone n tr x a1 h1 a2 h2 : wruns K fetch child_known n tr x -> parked x a1 h1 -> parked x a2 h2 -> a1 <> a2 ->
  (forall i, i ∈ (hlocks h1).1 -> i ∉ (hlocks h2).1) /\ ((hlocks h1).2 = true -> (hlocks h2).2 = false).
Proof.
  intros Hr Hp1 Hp2 Hne. destruct (runs_inv _ _ _ Hr) as [G Hinv].
  destruct (parked_ghost _ _ _ _ _ Hinv Hp1) as (l1 & HG1 & Hl1). destruct (parked_ghost _ _ _ _ _ Hinv Hp2) as (l2 & HG2 & Hl2).
  pose proof (shared_of _ _ _ Hinv) as ([Hn _] & [_ Hroot] & _). assert (HG2' : delete a1 G !! a2 = Some (l2, (hlocks h2).2, 0%Z)) by (by rewrite lookup_delete_ne).
  rewrite (glocks_old _ _ _ _ _ HG1), (glocks_old _ _ _ _ _ HG2') in Hn. rewrite (groot_old _ _ _ _ _ HG1), (groot_old _ _ _ _ _ HG2') in Hroot. split.
  - intros i Hi1 Hi2. rewrite <- Hl1 in Hi1. rewrite <- Hl2 in Hi2. apply NoDup_app in Hn as (_ & Hd & _). apply (Hd i Hi1), elem_of_app. by left.
  - intros E. rewrite E in Hroot. destruct (hlocks h2).2; [cbn in Hroot; lia|done].
Qed.

(** A locked word belongs to some client with an open operation or a call in progress. *)
Lemma locked_owned n tr x i : wruns K fetch child_known n tr x -> gen_odd (lget (t_locks (sy_tree (fs_sys (ws_f x)))) i) = true ->
  exists aid hd, sy_open (fs_sys (ws_f x)) !! aid = Some hd.
Proof.
  intros Hr Hi. destruct (runs_inv _ _ _ Hr) as [G Hinv]. destruct (decide (sy_open (fs_sys (ws_f x)) = ∅)) as [E|E].
  - destruct (idle_unlocked _ _ _ Hr E) as [H _]. by rewrite H in Hi.
  - apply map_choose in E as (aid & hd & H). eauto.
Qed.
End Inv.

(** ** In terms of nodes *)

(** The nodes an operation has locked: the node it changes, its parent, and for a merge the other child. *)
Definition holds (hd : handle) (x : N) : Prop :=
  match hd with
  | HU _ op => u_isroot (u_kind op) = false /\ x <> 0 /\ (x = u_node op \/ x = u_parent op)
  | HD _ op =>
    x <> 0 /\
    match d_kind op with
    | deleteLeaf | replaceNodeWithLeaf => x = d_node op \/ x = d_parent op
    | replaceNodeWithNode => x = d_child op \/ x = d_node op \/ x = d_parent op
    | _ => False
    end
  | HP _ _ => False
  end.
(** The operation has locked the root leaf. *)
Definition holds_root (hd : handle) : Prop :=
  match hd with
  | HU _ op => u_isroot (u_kind op) = true
  | HD _ op => d_kind op = deleteRoot
  | HP _ _ => False
  end.

Lemma holds_lock hd x : holds hd x -> lock_id x ∈ (hlocks hd).1.
Proof.
  destruct hd as [f op|key op|l b]; cbn [holds hlocks]; [| |done].
  - intros (E & H0 & H). rewrite E. cbn [fst]. destruct H as [->|E']; [apply lids2_node|]. rewrite E' in H0 |- *. by apply lids2_parent.
  - intros (H0 & H). destruct (d_kind op); try done; cbn [fst].
    + destruct H as [->|E']; [apply lids2_node|]. rewrite E' in H0 |- *. by apply lids2_parent.
    + destruct H as [->|E']; [apply lids2_node|]. rewrite E' in H0 |- *. by apply lids2_parent.
    + unfold own3. destruct (N.eqb_spec (d_parent op) 0) as [Ep|Hp].
      * destruct H as [->|[->|E']]; [apply lids2_node|by apply lids2_parent|congruence].
      * apply elem_of_app. destruct H as [->|[->| ->]].
        -- right. destruct (_ =? _); [left|right; left].
        -- right. destruct (N.eqb_spec (lock_id (d_node op)) (lock_id (d_child op))) as [->|_]; left.
        -- destruct (N.eqb_spec (lock_id (d_parent op)) (lock_id (d_child op))) as [->|_]; cbn [orb].
           { right. destruct (_ =? _); [left|right; left]. }
           destruct (N.eqb_spec (lock_id (d_parent op)) (lock_id (d_node op))) as [->|_]; cbn [orb]; [|left; left].
           right. destruct (N.eqb_spec (lock_id (d_node op)) (lock_id (d_child op))) as [->|_]; left.
Qed.

Lemma holds_root_lock hd : holds_root hd -> (hlocks hd).2 = true.
Proof. destruct hd as [f op|key op|l b]; cbn [holds_root hlocks]; [|intros ->; done|done]. by intros ->. Qed.

Lemma parked_exclusive K fetch n tr x a1 h1 a2 h2 : wruns K fetch child_known n tr x -> parked x a1 h1 -> parked x a2 h2 -> a1 <> a2 ->
  (forall nd, holds h1 nd -> ~ holds h2 nd) /\ (holds_root h1 -> ~ holds_root h2).
Proof.
  intros Hr H1 H2 Hne. destruct (parked_alone K fetch n tr x a1 h1 a2 h2 Hr H1 H2 Hne) as [Ha Hb]. split.
  - intros nd Hh1 Hh2. by apply (Ha (lock_id nd)); apply holds_lock.
  - intros Hh1%holds_root_lock Hh2%holds_root_lock. by rewrite (Hb Hh1) in Hh2.
Qed.

Lemma unlock_fine K fetch n tr x aid c i k : wruns K fetch child_known n tr x -> ws_fin x !! aid = Some (c, WDo (WUnlock i) k) ->
  exists r, do_wact (sy_tree (fs_sys (ws_f x))) (WUnlock i) = Ok r.
Proof. intros Hr Hf. destruct (unlock_ok _ _ _ _ _ _ _ _ _ Hr Hf) as [l E]. cbn [do_wact]. rewrite E. cbn [bind]. eauto. Qed.

Lemma quiescent K fetch n tr x : wruns K fetch child_known n tr x -> idle x ->
  (forall i, locked (fs_sys (ws_f x)) i -> False) /\ t_rootLock (sy_tree (fs_sys (ws_f x))) = 0.
Proof.
  intros Hr (_ & _ & Ho). destruct (idle_unlocked _ _ _ _ _ Hr Ho) as [H1 H2]. split; [|done]. intros i Hi. unfold locked in Hi. by rewrite H1 in Hi.
Qed.

Lemma len_acknowledged K fetch n tr x : wruns K fetch child_known n tr x -> idle x -> len (sy_tree (fs_sys (ws_f x))) = (tally tr).2.
Proof. intros Hr (_ & _ & Ho). by eapply idle_len. Qed.

(** Histories without aborted deletes. *)
Lemma wruns_weaken K fetch (P P' : wsys -> wevent -> Prop) n tr x : wruns K fetch P n tr x -> (forall e, e ∈ tr -> forall y, P' y e) -> wruns K fetch P' n tr x.
Proof.
  induction 1 as [|tr x e x' Hr IH HP Hst]; intros H; [constructor|]. eapply wruns_snoc; [|apply H, elem_of_app; right; left|done].
  apply IH. intros e' He'. apply H, elem_of_app. by left.
Qed.
