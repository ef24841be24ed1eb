(** * ApiProps: the invariant turned into statements about API calls. *)
From Verif Require Export Step.

Lemma search_loop_resv s r key fuel : forall node count pl depth,
  search_loop fuel (set_resv s r) key node count pl depth = search_loop fuel s key node count pl depth.
Proof.
  induction fuel as [|fuel IH]; intros node count pl depth; [done|].
  cbn [search_loop]. change (node_data (set_resv s r) node) with (node_data s node). change (t_mem (set_resv s r)) with (t_mem s).
  destruct (node_data s node) as [d|w| |]; cbn [bind]; try done.
  destruct (skip_prefix (t_mem s) d pl) as [[[plen sl] d1]|w| |]; cbn [bind]; try done. cbv zeta.
  destruct (_ <=? _)%nat; [done|]. destruct (key_at key (depth + plen)) as [k|w| |]; cbn [bind]; try done.
  destruct (fullAllocFrom <=? count)%nat.
  - destruct (sl_get _ _ _) as [a|w| |]; cbn [bind]; try done. destruct (a =? 0); [done|]. destruct (isLeaf a); [done|].
    destruct (explodeNode a) as [[[? ?] ?] ?]. apply IH.
  - destruct (sl_upto _ _) as [a|w| |]; cbn [bind]; try done. destruct (scan _ _ _ _ _ _) as [[? ?] a']. 
    destruct (_ =? _); [|done]. destruct (isLeaf a'); [done|]. destruct (explodeNode a') as [[[? ?] ?] ?]. apply IH.
Qed.
Lemma search_resv s r key : search (set_resv s r) key = search s key.
Proof.
  unfold search. change (t_root (set_resv s r)) with (t_root s). cbv zeta. destruct (isLeaf _); [done|].
  destruct (explodeNode _) as [[[? ?] ?] ?]. apply search_loop_resv.
Qed.

Lemma get_search fetch y k : get fetch y k =
  match search (sy_tree y) k with
  | Ok (v, true) => if decide (fetch v = k) then Some v else None
  | _ => None
  end.
Proof.
  unfold get, Search.lookup, start_op. cbv zeta. rewrite search_resv.
  destruct (search (sy_tree y) k) as [[v f]|w| |]; done.
Qed.

Section ApiProps.
Context (K : list N -> Prop) (fetch : N -> list N) (HK : universe K).
Local Notation core := (core K fetch).
Local Notation inv := (inv K fetch).

Lemma get_iff y T k v : core (sy_tree y) T -> bytes k -> k <> [] ->
  get fetch y k = Some v <-> (k, v) ∈ ocontents T.
Proof.
  intros Hc Hb Hne. unfold get, Search.lookup.
  assert (Hc1 : core (start_op (sy_tree y) 0) T) by (by apply (core_ext K fetch (sy_tree y))).
  destruct (search_ok K fetch HK _ _ k Hc1 Hb Hne) as (w & f & E & H1 & H2). cbv zeta. rewrite E. cbn [bind].
  split.
  - destruct f; [|done]. destruct (decide (fetch w = k)) as [Hf|]; [|done]. intros [= <-].
    destruct H1 as (k' & Hin). destruct (co_contents K fetch _ _ _ _ Hc Hin) as (_ & _ & Hf'). congruence.
  - intros Hin. destruct (H2 _ Hin) as [-> ->]. destruct (co_contents K fetch _ _ _ _ Hc Hin) as (_ & _ & Hf').
    by rewrite decide_True.
Qed.

Lemma get_same y y' T k : core (sy_tree y) T -> core (sy_tree y') T -> bytes k -> k <> [] -> get fetch y' k = get fetch y k.
Proof.
  intros H1 H2 Hb Hne. apply option_eq. intros v. by rewrite !(get_iff _ T).
Qed.

Lemma get_none y T k : core (sy_tree y) T -> bytes k -> k <> [] ->
  get fetch y k = None <-> forall w, (k, w) ∉ ocontents T.
Proof.
  intros Hc Hb Hne. split.
  - intros E w Hin. apply (get_iff y T) in Hin; try done. congruence.
  - intros H. destruct (get fetch y k) as [w|] eqn:E; [|done]. apply (get_iff y T) in E; try done. by apply H in E.
Qed.

Lemma stored_ok y T k v : core (sy_tree y) T -> (k, v) ∈ ocontents T -> get fetch y k = Some v.
Proof.
  intros Hc Hin. destruct (co_contents K fetch _ _ _ _ Hc Hin) as (Hk & _ & _). apply (get_iff y T); try done.
  - by apply (uv_bytes K HK).
  - by apply (uv_nonempty K HK).
Qed.

End ApiProps.

(** ** What follows from the invariant *)

Section Settled.
Context (K : list N -> Prop) (fetch : N -> list N).
Local Notation inv := (inv K fetch).
Local Notation get := (get fetch).

(** A state [y] after a history [h] of [m] calls. *)
Record settled (y : sys) (h : hist) (m : N) : Prop := {
  st_univ : universe K;
  st_inv : exists T lost, inv y h m T lost;
  st_n : m < maxUint64;
  st_keys : forall aid p, h_pend h !! aid = Some p -> bytes (p_key p) /\ p_key p <> [];
  st_susp : (size (h_susp h) <= h_nsusp h)%nat
}.

Lemma settled_step y h m c : settled y h m -> proper K fetch y c ->
  exists T lost, inv y h m T lost /\ step_post K fetch y h m T lost c (api y c).
Proof.
  intros Hr Hp. destruct (st_inv _ _ _ Hr) as (T & lost & Hi). exists T, lost. split; [done|].
  destruct Hr as [H1 H2 H3]. by eapply step_ok.
Qed.

Lemma st_get y h m k v : settled y h m -> h_map h !! k = Some v -> get y k = Some v.
Proof.
  intros Hr Hk. destruct (st_inv _ _ _ Hr) as (T & lost & Hi). eapply stored_ok; [apply Hr|apply Hi|].
  by apply (iv_maps _ _ _ _ _ _ _ Hi).
Qed.

Lemma st_get_inv y h m k v : settled y h m -> bytes k -> k <> [] -> get y k = Some v ->
  fetch v = k /\ K k /\ v < 2 ^ 55 /\ (h_map h !! k = Some v \/ (h_map h !! k = None /\ k ∈ h_susp h)).
Proof.
  intros Hr Hb Hne Hk. destruct (st_inv _ _ _ Hr) as (T & lost & Hi).
  apply (get_iff K fetch (st_univ _ _ _ Hr) y T) in Hk; [|apply Hi|done|done].
  destruct (co_contents K fetch _ _ _ _ (iv_core _ _ _ _ _ _ _ Hi) Hk) as (H1 & H2 & H3).
  split_and!; try done. by apply (iv_maps _ _ _ _ _ _ _ Hi).
Qed.

Lemma st_map y h m k : settled y h m -> bytes k -> k <> [] ->
  (forall v, h_map h !! k = Some v -> get y k = Some v) /\
  (forall v, get y k = Some v -> h_map h !! k = Some v \/ (h_map h !! k = None /\ k ∈ h_susp h)) /\
  (k ∉ h_susp h -> get y k = h_map h !! k).
Proof.
  intros Hr Hb Hne. split_and!.
  - intros v. by apply (st_get y h m).
  - intros v H. by eapply st_get_inv.
  - intros Hs. destruct (get y k) as [v|] eqn:E.
    + eapply st_get_inv in E as (_ & _ & _ & [E|[_ E]]); [by rewrite E|done|done|done|done].
    + destruct (h_map h !! k) as [v|] eqn:E'; [|done]. eapply st_get in E'; [|done]. congruence.
Qed.

(** ** Lookup *)

Lemma st_idle_same y h m aid : settled y h m -> (aid < naids y)%nat -> sy_open y !! aid = None ->
  Sys (end_op (start_op (sy_tree y) aid) aid) (sy_open y) = y.
Proof.
  intros Hr Haid Ho. destruct (st_inv _ _ _ Hr) as (T & lost & Hi).
  assert (Er : <[aid := maxUint64]> (<[aid := t_epoch (sy_tree y)]> (t_resv (sy_tree y))) = t_resv (sy_tree y)).
  { rewrite list_insert_insert. destruct (lookup_lt_is_Some_2 (t_resv (sy_tree y)) aid) as [r Hr'].
    { rewrite (iv_resv _ _ _ _ _ _ _ Hi). done. }
    rewrite <- (iv_idle _ _ _ _ _ _ _ Hi _ _ Hr' Ho). by apply list_insert_id. }
  destruct y as [s o]. simpl in *. f_equal. unfold end_op, start_op, set_resv. simpl. rewrite Er. by destruct s.
Qed.

Lemma st_lookup y h m aid k : settled y h m -> proper K fetch y (CLookup aid k) ->
  exists v found, api y (CLookup aid k) = Ok (RLookup v found, y) /\
    (get y k = if found then (if decide (fetch v = k) then Some v else None) else None) /\
    (if found then get y (fetch v) = Some v /\
       (h_map h !! fetch v = Some v \/ (h_map h !! fetch v = None /\ fetch v ∈ h_susp h))
     else v = 0 /\ h_map h !! k = None).
Proof.
  intros Hr Hp. pose proof Hp as (Haid & Ho & Hb & Hne).
  destruct (st_inv _ _ _ Hr) as (T & lost & Hi). pose proof (iv_core _ _ _ _ _ _ _ Hi) as Hc.
  destruct (search_ok K fetch (st_univ _ _ _ Hr) (sy_tree y) T k Hc Hb Hne) as (v & f & E & H1 & H2).
  exists v, f. rewrite (get_search fetch y k), E. unfold api, Search.lookup, start_op. cbv zeta. rewrite !search_resv, E. cbn [bind].
  fold (start_op (sy_tree y) aid). rewrite (st_idle_same y h m) by done. split; [done|].
  split; [done|]. destruct f.
  - destruct H1 as (k' & Hin).
    destruct (co_contents K fetch _ _ _ _ Hc Hin) as (_ & _ & ->).
    split; [by eapply stored_ok; [apply Hr|done|]|]. by apply (iv_maps _ _ _ _ _ _ _ Hi).
  - split; [done|]. destruct (h_map h !! k) as [w|] eqn:E'; [|done].
    apply (iv_maps _ _ _ _ _ _ _ Hi) in E'. by destruct (H2 _ E').
Qed.

(** ** Finalize *)

Lemma upserted_get s s' T T' (y y' : sys) key v d k : universe K -> sy_tree y = s -> sy_tree y' = s' ->
  core K fetch s T -> core K fetch s' T' -> upserted T T' key v d -> bytes k -> k <> [] ->
  get y' k = if decide (k = key) then Some v else get y k.
Proof.
  intros HK <- <- Hc Hc' Hu Hb Hne. destruct (decide (k = key)) as [->|Hk].
  - apply (get_iff K fetch HK y' T'); try done. destruct Hu as [_ [[[_ E] _]|[(w & rest & _ & E) _]]]; rewrite E; left.
  - apply option_eq. intros w. rewrite (get_iff K fetch HK y' T'), (get_iff K fetch HK y T) by done.
    destruct Hu as [_ [[[_ E] _]|[(w' & rest & E1 & E) _]]]; rewrite E; [|rewrite E1]; rewrite !elem_of_cons; naive_solver.
Qed.

Lemma removed_get s s' T T' (y y' : sys) key v k : universe K -> sy_tree y = s -> sy_tree y' = s' ->
  core K fetch s T -> core K fetch s' T' -> removed T T' key v -> bytes k -> k <> [] ->
  get y' k = if decide (k = key) then None else get y k.
Proof.
  intros HK <- <- Hc Hc' Hr Hb Hne. unfold removed in Hr.
  assert (Hno : forall w, (key, w) ∉ ocontents T').
  { intros w Hin. assert (Hnd : NoDup (map fst (ocontents T))).
    { destruct T as [t|]; [|constructor]. eapply wf_nodup. apply (co_wf _ _ _ _ Hc). }
    rewrite Hr in Hnd. simpl in Hnd. apply NoDup_cons in Hnd as [Hn _]. apply Hn. apply elem_of_list_fmap. by exists (key, w). }
  destruct (decide (k = key)) as [->|Hk].
  - by apply (get_none K fetch HK y' T').
  - apply option_eq. intros w. rewrite (get_iff K fetch HK y' T'), (get_iff K fetch HK y T) by done.
    rewrite Hr, elem_of_cons. naive_solver.
Qed.

Lemma st_update y h m0 aid fk m value b y' : settled y h m0 -> proper K fetch y (CFinU aid fk m value) ->
  api y (CFinU aid fk m value) = Ok (RBool b, y') ->
  exists p, h_pend h !! aid = Some p /\ (b = false -> p_del p = true) /\
    forall k, bytes k -> k <> [] ->
      get y' k = if b then (if decide (k = p_key p) then Some (value mod 2 ^ 55) else get y k) else get y k.
Proof.
  intros Hr Hp Ha. destruct (settled_step _ _ _ _ Hr Hp) as (T & lost & Hi & Hs). rewrite Ha in Hs.
  destruct Hs as ((p & Hpe & Hb) & T' & lost' & Hi' & Hch). exists p. split_and!; try done. intros k Hbk Hne.
  pose proof (iv_core _ _ _ _ _ _ _ Hi) as Hc. pose proof (iv_core _ _ _ _ _ _ _ Hi') as Hc'. pose proof (st_univ _ _ _ Hr) as HK.
  destruct b; simpl in Hch.
  - destruct Hch as [(p' & d & Hpe' & Hu & _) _]. assert (p' = p) as -> by congruence. by eapply upserted_get.
  - destruct Hch as [-> ->]. by eapply get_same.
Qed.

(** Keys of open operations. *)
Lemma fin_pends h c r aid p : h_pend (hstep h (c, r)) !! aid = Some p ->
  (exists p', h_pend h !! aid = Some p' /\ p_key p = p_key p') \/
  (match c with CPrepU a key | CPrepD a key => a = aid /\ p = Pend key false false | _ => False end).
Proof.
  intros H.
  assert (Hf : forall f a, (forall q, p_key (f q) = p_key q) -> (f <$> delete a (h_pend h)) !! aid = Some p -> exists p', h_pend h !! aid = Some p' /\ p_key p = p_key p').
  { intros f a Hf E. rewrite lookup_fmap in E. apply fmap_Some in E as (q & Hq & ->). apply lookup_delete_Some in Hq as [_ Hq]. eauto. }
  assert (Hd : forall a, delete a (h_pend h) !! aid = Some p -> exists p', h_pend h !! aid = Some p' /\ p_key p = p_key p').
  { intros a E. apply lookup_delete_Some in E as [_ E]. eauto. }
  assert (Hi : forall a key, <[a := Pend key false false]> (h_pend h) !! aid = Some p ->
    (exists p', h_pend h !! aid = Some p' /\ p_key p = p_key p') \/ (a = aid /\ p = Pend key false false)).
  { intros a key E. apply lookup_insert_Some in E as [[<- <-]|[_ E]]; [by right|left; eauto]. }
  assert (Hs : h_pend h !! aid = Some p -> exists p', h_pend h !! aid = Some p' /\ p_key p = p_key p') by eauto.
  destruct c as [a key|a key|a fk m value|a|a key|a|a|a|pk upk ord]; simpl in H |- *.
  - left. auto.
  - by apply Hi.
  - left. destruct r as [| | |[]| |]; simpl in H; try by eapply Hd. destruct (h_pend h !! a); simpl in H; [|auto]. by eapply (Hf see_upd).
  - left. by eapply Hd.
  - destruct r as [| |[v|]| | |]; simpl in H; auto.
  - left. destruct r as [| | |[]| |]; simpl in H; try by eapply Hd. destruct (h_pend h !! a) as [q|]; simpl in H; [|auto].
    destruct (p_over q); simpl in H; by eapply (Hf see_del).
  - left. by eapply Hd.
  - left. auto.
  - left. destruct r; simpl in H; auto.
Qed.

Lemma st_delete y h m aid b y' : settled y h m -> proper K fetch y (CFinD aid) ->
  api y (CFinD aid) = Ok (RBool b, y') ->
  exists p, h_pend h !! aid = Some p /\ (b = false -> p_over p = true) /\
    (forall k, bytes k -> k <> [] -> k <> p_key p -> get y' k = get y k) /\
    (b = true -> get y' (p_key p) = None \/ (p_over p = true /\ get y' (p_key p) = get y (p_key p))) /\
    (b = false -> get y' (p_key p) = get y (p_key p)).
Proof.
  intros Hr Hp Ha. destruct (settled_step _ _ _ _ Hr Hp) as (T & lost & Hi & Hs). rewrite Ha in Hs.
  destruct Hs as ((p & Hpe & Hb) & T' & lost' & Hi' & Hch). exists p. split; [done|]. split; [done|].
  pose proof (iv_core _ _ _ _ _ _ _ Hi) as Hc. pose proof (iv_core _ _ _ _ _ _ _ Hi') as Hc'. pose proof (st_univ _ _ _ Hr) as HK.
  destruct (st_keys _ _ _ Hr _ _ Hpe) as [Hkb Hkn].
  destruct b; simpl in Hch.
  - destruct Hch as [(p' & Hpe' & Hch) _]. assert (p' = p) as -> by congruence. split; [|split; [|done]].
    + intros k Hbk Hne Hk. destruct Hch as [(v & Hrem & _)|(_ & -> & _)]; [|by eapply get_same].
      rewrite (removed_get _ _ T T' y y' (p_key p) v) by done. by rewrite decide_False.
    + intros _. destruct Hch as [(v & Hrem & _)|(Ho & -> & _)].
      * left. rewrite (removed_get _ _ T T' y y' (p_key p) v) by done. by rewrite decide_True.
      * right. split; [done|]. by eapply get_same.
  - destruct Hch as [-> ->]. split_and!; [|done|]; intros; by eapply get_same.
Qed.

(** ** Locks, reservations, Abort *)

Lemma locked_inv y h m T lost i : inv y h m T lost -> locked y i <-> exists aid hd, sy_open y !! aid = Some hd /\ i ∈ olids hd.
Proof.
  intros Hi. unfold locked. rewrite (li_odd _ _ (iv_locks _ _ _ _ _ _ _ Hi)).
  unfold held. rewrite elem_of_list_bind. split.
  - intros ([aid hd] & H1 & H2). exists aid, hd. by apply elem_of_map_to_list in H2.
  - intros (aid & hd & H1 & H2). exists (aid, hd). by rewrite elem_of_map_to_list.
Qed.

Lemma st_locked y h m i : settled y h m -> locked y i <-> exists aid hd, sy_open y !! aid = Some hd /\ i ∈ olids hd.
Proof. intros Hr. destruct (st_inv _ _ _ Hr) as (T & lost & Hi). by eapply locked_inv. Qed.

Lemma st_resv y h m aid : settled y h m -> (aid < naids y)%nat ->
  exists r, t_resv (sy_tree y) !! aid = Some r /\
    match sy_open y !! aid with None => r = maxUint64 | Some _ => r <= t_epoch (sy_tree y) end.
Proof.
  intros Hr Haid. destruct (st_inv _ _ _ Hr) as (T & lost & Hi).
  destruct (lookup_lt_is_Some_2 (t_resv (sy_tree y)) aid) as [r Hr']; [by rewrite (iv_resv _ _ _ _ _ _ _ Hi)|].
  exists r. split; [done|]. destruct (sy_open y !! aid) as [hd|] eqn:E; [by eapply iv_busy|by eapply iv_idle].
Qed.


Record same_store (y y' : sys) : Prop := {
  ss_mem : t_mem (sy_tree y') = t_mem (sy_tree y);
  ss_root : t_root (sy_tree y') = t_root (sy_tree y);
  ss_allocs : t_allocs (sy_tree y') = t_allocs (sy_tree y);
  ss_live : t_live (sy_tree y') = t_live (sy_tree y);
  ss_blocks : t_nextFreeBlock (sy_tree y') = t_nextFreeBlock (sy_tree y);
  ss_epoch : t_epoch (sy_tree y') = t_epoch (sy_tree y)
}.

Lemma drop_locks y y' h h' m m' T T' lost lost' aid hd : inv y h m T lost -> inv y' h' m' T' lost' ->
  sy_open y !! aid = Some hd -> sy_open y' = delete aid (sy_open y) ->
  (forall i, locked y' i <-> locked y i /\ i ∉ olids hd) /\
  (t_rootLock (sy_tree y') = if oroot hd then 0 else t_rootLock (sy_tree y)).
Proof.
  intros Hi Hi' Ho E. split.
  - intros i. rewrite (locked_inv _ _ _ _ _ _ Hi), (locked_inv _ _ _ _ _ _ Hi'). rewrite E. split.
    + intros (j & hd' & Hj & Hin). apply lookup_delete_Some in Hj as [Hne Hj]. split; [eauto|].
      eapply held_disj; [exact Hi|exact Ho| |exact Hj|done]. done.
    + intros [(j & hd' & Hj & Hin) Hn]. exists j, hd'. split; [|done]. apply lookup_delete_Some. split; [|done].
      intros ->. congruence.
  - rewrite (iv_rl _ _ _ _ _ _ _ Hi'), (iv_rl _ _ _ _ _ _ _ Hi), E. pose proof (iv_rl1 _ _ _ _ _ _ _ Hi) as H.
    rewrite (rootops_delete _ _ _ Ho) in *. destruct (oroot hd); [|done]. lia.
Qed.

Lemma inv_resv y h m T lost aid : inv y h m T lost -> (aid < naids y)%nat -> reserved y aid -> exists hd, sy_open y !! aid = Some hd.
Proof.
  intros Hi Haid (r & Hr & Hne). destruct (sy_open y !! aid) as [hd|] eqn:E; [eauto|].
  by rewrite (iv_idle _ _ _ _ _ _ _ Hi _ _ Hr E) in Hne.
Qed.

Definition aborts (y : sys) (aid : nat) (hd : handle) (y' : sys) : Prop :=
  same_store y y' /\ sy_open y' = delete aid (sy_open y) /\
  (forall k, bytes k -> k <> [] -> get y' k = get y k) /\
  (forall i, locked y' i <-> locked y i /\ i ∉ olids hd) /\
  (t_rootLock (sy_tree y') = if oroot hd then 0 else t_rootLock (sy_tree y)) /\
  t_resv (sy_tree y') = <[aid := maxUint64]> (t_resv (sy_tree y)).

Lemma abort_update_same s op s1 : abort_update s op = Ok s1 ->
  exists l rl, s1 = end_op (set_rootLock (set_locks s l) rl) (u_alloc op).
Proof.
  unfold abort_update, unlock_uop, unlock_root. intros H.
  assert (Hc : (exists rl, Ok s1 = (Ok (end_op (set_rootLock s rl) (u_alloc op)) : res tree)) \/ (exists l, Ok s1 = (Ok (end_op (set_locks s l) (u_alloc op)) : res tree))).
  { destruct (u_kind op); cbn [bind] in H; try (left; eexists; symmetry; exact H); right;
    destruct (unlock_nodes2 _ _ _) as [l| | |]; cbn [bind] in H; try done; eexists; symmetry; exact H. }
  destruct Hc as [(rl & [= ->])|(l & [= ->])].
  - exists (t_locks s), rl. by rewrite set_same_root.
  - exists l, (t_rootLock s). by rewrite set_same.
Qed.

Lemma abort_delete_same s op s1 : abort_delete s op = Ok s1 ->
  exists l rl, s1 = end_op (set_rootLock (set_locks s l) rl) (d_alloc op).
Proof.
  unfold abort_delete, unlock_dop, unlock_root. intros H.
  assert (Hc : (exists rl, Ok s1 = (Ok (end_op (set_rootLock s rl) (d_alloc op)) : res tree)) \/ (exists l, Ok s1 = (Ok (end_op (set_locks s l) (d_alloc op)) : res tree))).
  { destruct (d_kind op); cbn [bind] in H.
    - right. exists (t_locks s). by rewrite set_same_all.
    - left; eexists; symmetry; exact H.
    - right. destruct (unlock_nodes2 _ _ _) as [l| | |]; cbn [bind] in H; try done; eexists; symmetry; exact H.
    - right. exists (t_locks s). by rewrite set_same_all.
    - right. destruct (unlock_nodes2 _ _ _) as [l| | |]; cbn [bind] in H; try done; eexists; symmetry; exact H.
    - right. destruct (unlock_nodes3 _ _ _) as [l| | |]; cbn [bind] in H; try done; eexists; symmetry; exact H. }
  destruct Hc as [(rl & [= ->])|(l & [= ->])].
  - exists (t_locks s), rl. by rewrite set_same_root.
  - exists l, (t_rootLock s). by rewrite set_same.
Qed.

Lemma st_abort_u y h m aid : settled y h m -> proper K fetch y (CAbortU aid) ->
  exists hd y', sy_open y !! aid = Some hd /\ api y (CAbortU aid) = Ok (RUnit, y') /\ aborts y aid hd y'.
Proof.
  intros Hr Hp. destruct (settled_step _ _ _ _ Hr Hp) as (T & lost & Hi & Hs).
  destruct Hp as (found & op & Ho). exists (HU found op). pose proof (st_univ _ _ _ Hr) as HK.
  assert (Ha : u_alloc op = aid). { destruct (iv_ops _ _ _ _ _ _ _ Hi _ _ Ho) as (p & _ & _ & Ha & _). done. }
  unfold api in Hs |- *. rewrite Ho in Hs |- *.
  destruct (abort_update (sy_tree y) op) as [s1|[]| |] eqn:E; cbn [bind] in Hs |- *; try done; [|by destruct Hs as (? & ? & ? & _)].
  eexists. split; [done|]. split; [done|].
  destruct (abort_update_same _ _ _ E) as (l & rl & ->). destruct Hs as (_ & T' & lost' & Hi' & -> & ->).
  destruct (drop_locks _ _ _ _ _ _ _ _ _ _ aid _ Hi Hi' Ho eq_refl) as [H1 H2].
  split; [done|]. split; [done|]. split; [|split; [done|split; [done|]]].
  - intros k Hb Hne. eapply (get_same K fetch HK _ _ T); [apply Hi|apply Hi'|done|done].
  - by rewrite <- Ha.
Qed.

Lemma st_abort_d y h m aid : settled y h m -> proper K fetch y (CAbortD aid) ->
  exists hd y', sy_open y !! aid = Some hd /\ api y (CAbortD aid) = Ok (RUnit, y') /\ aborts y aid hd y'.
Proof.
  intros Hr Hp. destruct (settled_step _ _ _ _ Hr Hp) as (T & lost & Hi & Hs).
  destruct Hp as (key & op & Ho & _). exists (HD key op). pose proof (st_univ _ _ _ Hr) as HK.
  assert (Ha : d_alloc op = aid). { destruct (iv_ops _ _ _ _ _ _ _ Hi _ _ Ho) as (p & _ & Ha & _). done. }
  unfold api in Hs |- *. rewrite Ho in Hs |- *.
  destruct (abort_delete (sy_tree y) op) as [s1|[]| |] eqn:E; cbn [bind] in Hs |- *; try done; [|by destruct Hs as (? & ? & ? & _)].
  eexists. split; [done|]. split; [done|].
  destruct (abort_delete_same _ _ _ E) as (l & rl & ->). destruct Hs as (_ & T' & lost' & Hi' & -> & ->).
  destruct (drop_locks _ _ _ _ _ _ _ _ _ _ aid _ Hi Hi' Ho eq_refl) as [H1 H2].
  split; [done|]. split; [done|]. split; [|split; [done|split; [done|]]].
  - intros k Hb Hne. eapply (get_same K fetch HK _ _ T); [apply Hi|apply Hi'|done|done].
  - by rewrite <- Ha.
Qed.

(** What Prepare takes. *)
Definition takes (y : sys) (aid : nat) (y' : sys) : Prop :=
  exists hd, sy_open y' = <[aid := hd]> (sy_open y) /\ same_store y y' /\
    (forall i, locked y' i <-> locked y i \/ i ∈ olids hd) /\ (forall i, i ∈ olids hd -> ~ locked y i) /\
    (if oroot hd then t_rootLock (sy_tree y) = 0 /\ t_rootLock (sy_tree y') = 1
     else t_rootLock (sy_tree y') = t_rootLock (sy_tree y)) /\
    t_resv (sy_tree y') = <[aid := t_epoch (sy_tree y)]> (t_resv (sy_tree y)).

Lemma take_locks y y' h h' m m' T T' lost lost' aid hd : inv y h m T lost -> inv y' h' m' T' lost' ->
  sy_open y !! aid = None -> sy_open y' = <[aid := hd]> (sy_open y) ->
  (forall i, locked y' i <-> locked y i \/ i ∈ olids hd) /\ (forall i, i ∈ olids hd -> ~ locked y i).
Proof.
  intros Hi Hi' Ho E. split.
  - intros i. rewrite (locked_inv _ _ _ _ _ _ Hi), (locked_inv _ _ _ _ _ _ Hi'). rewrite E. split.
    + intros (j & hd' & Hj & Hin). apply lookup_insert_Some in Hj as [[<- <-]|[Hne Hj]]; [by right|left; eauto].
    + intros [(j & hd' & Hj & Hin)|Hin].
      * exists j, hd'. split; [|done]. apply lookup_insert_Some. right. split; [intros ->; congruence|done].
      * exists aid, hd. by rewrite lookup_insert.
  - intros i Hin Hl. apply (locked_inv _ _ _ _ _ _ Hi) in Hl as (j & hd' & Hj & Hin').
    assert (Hne : j <> aid) by (intros ->; congruence).
    eapply (held_disj K fetch y' _ _ _ _ aid hd j hd' i); [exact Hi'|by rewrite E, lookup_insert|done|by rewrite E, lookup_insert_ne|done|done].
Qed.

(** ** Outcomes *)

Lemma st_outcomes y h m c : settled y h m -> proper K fetch y c ->
  match api y c with
  | Ok _ => True
  | Retry => (match c with CPrepU _ _ | CPrepD _ _ => True | _ => False end) /\ sy_open y <> ∅
  | Panic OutOfBlocks => match c with CFinU _ _ _ _ | CFinD _ => True | _ => False end
  | Panic OutOfRange => exists aid hd, (match c with CFinU a _ _ _ => a = aid | CFinD a => a = aid | _ => False end) /\
      sy_open y !! aid = Some hd /\ fin_size hd = 258%nat
  | _ => False
  end.
Proof.
  intros Hr Hp. destruct (settled_step _ _ _ _ Hr Hp) as (T & lost & Hi & Hs).
  destruct (api y c) as [[r y']|[]| |]; try done. by destruct c.
Qed.

Lemma small_size y h m T lost aid hd : universe K -> inv y h m T lost -> (forall k, K k -> (length k <= 9)%nat) ->
  sy_open y !! aid = Some hd -> (fin_size hd <= 257)%nat.
Proof.
  intros HK Hi H9 Ho. destruct (iv_ops _ _ _ _ _ _ _ Hi _ _ Ho) as (p & _ & Hok). pose proof (iv_core _ _ _ _ _ _ _ Hi) as Hc.
  assert (Hnode : forall q full a pfx cs, wf K fetch q (Node full a pfx cs) -> (ncount full (length cs) + prefix_slots (length pfx) <= 257)%nat).
  { intros q full a pfx cs Hw. pose proof (ncount_bounds _ _ _ _ _ _ _ Hw) as [Hcb _].
    apply wf_node_iff in Hw as (_ & _ & (k & b & Hk & [r Hr]) & _). pose proof (H9 k Hk) as Hl. subst k. rewrite !app_length in Hl. simpl in Hl.
    rewrite prefix_slots_small by lia. assert ((length pfx + 7) / 8 < 2)%nat by (apply Nat.div_lt_upper_bound; lia). lia. }
  assert (Hocc : forall o, ooccr T o -> (ncount (o_full o) (length (o_hs o)) + prefix_slots (length (o_pfx o)) <= 257)%nat /\
     forall b full a pfx cn, (b, HNode full a pfx cn) ∈ o_hs o -> (cn + prefix_slots (length pfx) <= 257)%nat).
  { intros o Hocc. destruct T as [t|]; [|done]. destruct o as [opath optr opar a full pfx hs]. simpl.
    destruct (occ_zip _ _ Hocc) as (C & cs & -> & E1 & E2 & E3 & E4). simpl in E1, E2, E3, E4. subst opath optr opar hs.
    destruct (sub_facts _ _ _ _ _ Hc) as (Hw & _ & _). rewrite heads_length. split; [by eapply Hnode|].
    intros b cf ca cp cn Hin. unfold heads in Hin. apply elem_of_list_fmap in Hin as ([b' c] & E & Hin). simpl in E. injection E as -> E.
    destruct c as [k0 v0|cf' ca' cp' ccs]; [done|]. simpl in E. injection E as <- <- <- ->.
    destruct (child_wf _ _ _ _ _ _ _ _ _ Hw Hin) as [Hw' _]. by eapply Hnode in Hw'. }
  destruct hd as [found op|key op|l0 b0]; simpl in *; [..|lia].
  - destruct Hok as (_ & _ & _ & Hok). destruct (u_isroot (u_kind op)); [lia|]. destruct Hok as (o & Ho' & Hb & _).
    destruct (Hocc o Ho') as [H _]. by rewrite (ub_count _ _ _ _ Hb), (ub_pslots _ _ _ _ Hb).
  - destruct Hok as (_ & _ & _ & Hok). destruct (d_isroot (d_kind op)) eqn:Er; simpl; [lia|].
    destruct (is_del256 op) eqn:E256; [lia|]. destruct Hok as (o & Ho' & Hb & Hk). destruct (Hocc o Ho') as [H H'].
    unfold dkind_ok, is_del256 in *. destruct (d_kind op); try done.
    + destruct Hk as (Hf & _ & _ & -> & _ & _ & -> & _). by rewrite Hf in H.
    + destruct Hk as (Hf & -> & -> & b1 & b2 & k2 & v2 & Hhs & _). rewrite Hf in H.
      assert (length (o_hs o) = 2%nat) as E by (by destruct Hhs as [->| ->]). by rewrite E in H.
    + destruct Hk as (Hf & _ & b1 & b2 & cf & ca & cp & cn & Hhs & _ & _ & -> & -> & _). eapply H'.
      destruct Hhs as [->| ->]; [right; left|left].
Qed.

Lemma st_short y h m c : (forall k, K k -> (length k <= 9)%nat) -> settled y h m -> proper K fetch y c ->
  match api y c with
  | Ok _ => True
  | Retry => (match c with CPrepU _ _ | CPrepD _ _ => True | _ => False end) /\ sy_open y <> ∅
  | Panic OutOfBlocks => match c with CFinU _ _ _ _ | CFinD _ => True | _ => False end
  | _ => False
  end.
Proof.
  intros H9 Hr Hp. pose proof (st_outcomes _ _ _ _ Hr Hp) as H. destruct (api y c) as [[r y']|[]| |]; try done.
  destruct H as (aid & hd & _ & Ho & Hs). destruct (st_inv _ _ _ Hr) as (T & lost & Hi).
  pose proof (small_size _ _ _ _ _ _ _ (st_univ _ _ _ Hr) Hi H9 Ho). lia.
Qed.

(** ** Len *)

Lemma maps_size M susp T : NoDup (map fst (ocontents T)) -> maps M susp T ->
  (size M <= length (ocontents T) <= size M + size susp)%nat.
Proof.
  intros Hnd [H1 H2]. rewrite <- (map_length fst (ocontents T)). split.
  - rewrite <- size_dom. assert (dom M ⊆ list_to_set (map fst (ocontents T))) as Hsub.
    { intros k Hk. apply elem_of_dom in Hk as [v Hv]. apply elem_of_list_to_set, elem_of_list_fmap. exists (k, v). auto. }
    apply subseteq_size in Hsub. rewrite size_list_to_set in Hsub by done. done.
  - rewrite <- (size_list_to_set (C := gset (list N)) (map fst (ocontents T))) by done.
    assert (list_to_set (map fst (ocontents T)) ⊆ dom M ∪ susp) as Hsub.
    { intros k Hk. apply elem_of_list_to_set, elem_of_list_fmap in Hk as ([k' v] & -> & Hin).
      destruct (H2 _ _ Hin) as [H|[_ H]]; apply elem_of_union; [left; simpl; by eapply elem_of_dom_2|by right]. }
    apply subseteq_size in Hsub. rewrite size_union_alt in Hsub.
    assert (size (susp ∖ dom M) <= size susp)%nat by (apply subseteq_size; set_solver).
    rewrite size_dom in Hsub. lia.
Qed.

Lemma st_len y h m : settled y h m ->
  (Z.of_nat (size (h_map h)) - Z.of_nat (h_nsusp h) <= len (sy_tree y) + h_off h <=
   Z.of_nat (size (h_map h)) + Z.of_nat (h_nsusp h))%Z.
Proof.
  intros Hr. destruct (st_inv _ _ _ Hr) as (T & lost & Hi). rewrite (iv_len _ _ _ _ _ _ _ Hi).
  pose proof (iv_lost _ _ _ _ _ _ _ Hi). pose proof (st_susp _ _ _ Hr).
  assert (Hnd : NoDup (map fst (ocontents T))).
  { destruct T as [t|]; [|constructor]. eapply wf_nodup. apply (co_wf _ _ _ _ (iv_core _ _ _ _ _ _ _ Hi)). }
  pose proof (maps_size _ _ _ Hnd (iv_maps _ _ _ _ _ _ _ Hi)). lia.
Qed.

Lemma hstep_off h e : (match e.1 with CRestart _ _ _ => False | _ => True end) -> h_off (hstep h e) = h_off h.
Proof.
  destruct e as [[a key|a key|a fk m value|a|a key|a|a|a|pk upk ord] r]; simpl; intros H; try done.
  - destruct r as [| | |[]| |]; try done. destruct (h_pend h !! a); done.
  - destruct r as [| |[]| | |]; done.
  - destruct r as [| | |[]| |]; try done. destruct (h_pend h !! a) as [p|]; [|done]. by destruct (p_over p).
Qed.
End Settled.

(** ** Reachable states *)

Section Reach.
Context (K : list N -> Prop) (fetch : N -> list N).
Local Notation reachable := (reachable K fetch).
Local Notation inv := (inv K fetch).
Local Notation get := (get fetch).

Lemma reach_inv n tr y : reachable n tr y -> exists T lost, inv y (replay tr) (N.of_nat (length tr)) T lost.
Proof. intros [H1 H2 H3]. eapply runs_inv; [done|done|lia]. Qed.

Lemma reach_step n tr y c : reachable n tr y -> proper K fetch y c ->
  exists T lost, inv y (replay tr) (N.of_nat (length tr)) T lost /\
    step_post K fetch y (replay tr) (N.of_nat (length tr)) T lost c (api y c).
Proof.
  intros Hr Hp. destruct (reach_inv _ _ _ Hr) as (T & lost & Hi). exists T, lost. split; [done|].
  destruct Hr as [H1 H2 H3]. by eapply step_ok.
Qed.

Lemma pend_keys n tr y aid p : reachable n tr y -> h_pend (replay tr) !! aid = Some p -> bytes (p_key p) /\ p_key p <> [].
Proof.
  intros [HK Hr _]. revert aid p. induction Hr as [|tr y c r y' Hr IH Hp Ha]; intros aid p.
  - unfold replay. simpl. by rewrite lookup_empty.
  - rewrite replay_snoc. intros H. apply fin_pends in H as [(p' & H & ->)|H]; [eauto|].
    destruct c as [a key|a key|a fk m value|a|a key|a|a|a|pk upk ord]; try done; destruct H as [-> ->]; simpl in *.
    + destruct Hp as (_ & _ & Hk). split; [by apply (uv_bytes K HK)|by apply (uv_nonempty K HK)].
    + naive_solver.
Qed.

Lemma susp_hstep h e : (size (h_susp h) <= h_nsusp h)%nat -> (size (h_susp (hstep h e)) <= h_nsusp (hstep h e))%nat.
Proof.
  intros IH. destruct e as [c r].
  assert (Hd : forall k, (size (h_susp h ∖ {[k]}) <= h_nsusp h)%nat).
  { intros k. assert (size (h_susp h ∖ {[k]}) <= size (h_susp h))%nat by (apply subseteq_size; set_solver). lia. }
  assert (Hu : forall k, (size (h_susp h ∪ {[k]}) <= S (h_nsusp h))%nat).
  { intros k. rewrite size_union_alt. assert (size ({[k]} ∖ h_susp h) <= size ({[k]} : gset (list N)))%nat as H by (apply subseteq_size; set_solver).
    rewrite size_singleton in H. lia. }
  destruct c as [a key|a key|a fk m value|a|a key|a|a|a|pk upk ord]; simpl; try done.
  - destruct r as [| | |[]| |]; simpl; try done. destruct (h_pend h !! a); simpl; done.
  - destruct r as [| |[]| | |]; done.
  - destruct r as [| | |[]| |]; simpl; try done. destruct (h_pend h !! a) as [p|]; simpl; [|done]. destruct (p_over p); simpl; done.
  - destruct r; done.
Qed.

Lemma susp_size tr : (size (h_susp (replay tr)) <= h_nsusp (replay tr))%nat.
Proof. induction tr as [|e tr IH] using rev_ind; [done|]. rewrite replay_snoc. by apply susp_hstep. Qed.

Lemma reach_settled n tr y : reachable n tr y -> settled K fetch y (replay tr) (N.of_nat (length tr)).
Proof.
  intros Hr. split; [apply Hr|by eapply reach_inv|apply Hr|intros aid p; by eapply pend_keys|apply susp_size].
Qed.

Lemma reach_get n tr y k v : reachable n tr y -> h_map (replay tr) !! k = Some v -> get y k = Some v.
Proof. intros Hr. exact (st_get K fetch y (replay tr) (N.of_nat (length tr)) k v (reach_settled _ _ _ Hr)). Qed.

Lemma reach_get_inv n tr y k v : reachable n tr y -> bytes k -> k <> [] -> get y k = Some v ->
  fetch v = k /\ K k /\ v < 2 ^ 55 /\ (h_map (replay tr) !! k = Some v \/ (h_map (replay tr) !! k = None /\ k ∈ h_susp (replay tr))).
Proof. intros Hr. exact (st_get_inv K fetch y (replay tr) (N.of_nat (length tr)) k v (reach_settled _ _ _ Hr)). Qed.

Lemma c35_map n tr y k : reachable n tr y -> bytes k -> k <> [] ->
  (forall v, h_map (replay tr) !! k = Some v -> get y k = Some v) /\
  (forall v, get y k = Some v -> h_map (replay tr) !! k = Some v \/ (h_map (replay tr) !! k = None /\ k ∈ h_susp (replay tr))) /\
  (k ∉ h_susp (replay tr) -> get y k = h_map (replay tr) !! k).
Proof. intros Hr. exact (st_map K fetch y (replay tr) (N.of_nat (length tr)) k (reach_settled _ _ _ Hr)). Qed.

Lemma idle_same n tr y aid : reachable n tr y -> (aid < naids y)%nat -> sy_open y !! aid = None ->
  Sys (end_op (start_op (sy_tree y) aid) aid) (sy_open y) = y.
Proof. intros Hr. exact (st_idle_same K fetch y (replay tr) (N.of_nat (length tr)) aid (reach_settled _ _ _ Hr)). Qed.

Lemma c02_lookup n tr y aid k : reachable n tr y -> proper K fetch y (CLookup aid k) ->
  exists v found, api y (CLookup aid k) = Ok (RLookup v found, y) /\
    (get y k = if found then (if decide (fetch v = k) then Some v else None) else None) /\
    (if found then get y (fetch v) = Some v /\
       (h_map (replay tr) !! fetch v = Some v \/ (h_map (replay tr) !! fetch v = None /\ fetch v ∈ h_susp (replay tr)))
     else v = 0 /\ h_map (replay tr) !! k = None).
Proof. intros Hr. exact (st_lookup K fetch y (replay tr) (N.of_nat (length tr)) aid k (reach_settled _ _ _ Hr)). Qed.

Lemma c03_update n tr y aid fk m value b y' : reachable n tr y -> proper K fetch y (CFinU aid fk m value) ->
  api y (CFinU aid fk m value) = Ok (RBool b, y') ->
  exists p, h_pend (replay tr) !! aid = Some p /\ (b = false -> p_del p = true) /\
    forall k, bytes k -> k <> [] ->
      get y' k = if b then (if decide (k = p_key p) then Some (value mod 2 ^ 55) else get y k) else get y k.
Proof. intros Hr. exact (st_update K fetch y (replay tr) (N.of_nat (length tr)) aid fk m value b y' (reach_settled _ _ _ Hr)). Qed.

Lemma c04_delete n tr y aid b y' : reachable n tr y -> proper K fetch y (CFinD aid) ->
  api y (CFinD aid) = Ok (RBool b, y') ->
  exists p, h_pend (replay tr) !! aid = Some p /\ (b = false -> p_over p = true) /\
    (forall k, bytes k -> k <> [] -> k <> p_key p -> get y' k = get y k) /\
    (b = true -> get y' (p_key p) = None \/ (p_over p = true /\ get y' (p_key p) = get y (p_key p))) /\
    (b = false -> get y' (p_key p) = get y (p_key p)).
Proof. intros Hr. exact (st_delete K fetch y (replay tr) (N.of_nat (length tr)) aid b y' (reach_settled _ _ _ Hr)). Qed.

Lemma locked_iff n tr y i : reachable n tr y -> locked y i <-> exists aid hd, sy_open y !! aid = Some hd /\ i ∈ olids hd.
Proof. intros Hr. exact (st_locked K fetch y (replay tr) (N.of_nat (length tr)) i (reach_settled _ _ _ Hr)). Qed.

Lemma c45_resv n tr y aid : reachable n tr y -> (aid < naids y)%nat ->
  exists r, t_resv (sy_tree y) !! aid = Some r /\
    match sy_open y !! aid with None => r = maxUint64 | Some _ => r <= t_epoch (sy_tree y) end.
Proof. intros Hr. exact (st_resv K fetch y (replay tr) (N.of_nat (length tr)) aid (reach_settled _ _ _ Hr)). Qed.

Lemma c07_abort n tr y aid : reachable n tr y -> proper K fetch y (CAbortU aid) ->
  exists hd y', sy_open y !! aid = Some hd /\ api y (CAbortU aid) = Ok (RUnit, y') /\ aborts fetch y aid hd y'.
Proof. intros Hr. exact (st_abort_u K fetch y (replay tr) (N.of_nat (length tr)) aid (reach_settled _ _ _ Hr)). Qed.

Lemma c08_abort n tr y aid : reachable n tr y -> proper K fetch y (CAbortD aid) ->
  exists hd y', sy_open y !! aid = Some hd /\ api y (CAbortD aid) = Ok (RUnit, y') /\ aborts fetch y aid hd y'.
Proof. intros Hr. exact (st_abort_d K fetch y (replay tr) (N.of_nat (length tr)) aid (reach_settled _ _ _ Hr)). Qed.

Lemma c12_outcomes n tr y c : reachable n tr y -> proper K fetch y c ->
  match api y c with
  | Ok _ => True
  | Retry => (match c with CPrepU _ _ | CPrepD _ _ => True | _ => False end) /\ sy_open y <> ∅
  | Panic OutOfBlocks => match c with CFinU _ _ _ _ | CFinD _ => True | _ => False end
  | Panic OutOfRange => exists aid hd, (match c with CFinU a _ _ _ => a = aid | CFinD a => a = aid | _ => False end) /\
      sy_open y !! aid = Some hd /\ fin_size hd = 258%nat
  | _ => False
  end.
Proof. intros Hr. exact (st_outcomes K fetch y (replay tr) (N.of_nat (length tr)) c (reach_settled _ _ _ Hr)). Qed.

Lemma c12_short n tr y c : (forall k, K k -> (length k <= 9)%nat) -> reachable n tr y -> proper K fetch y c ->
  match api y c with
  | Ok _ => True
  | Retry => (match c with CPrepU _ _ | CPrepD _ _ => True | _ => False end) /\ sy_open y <> ∅
  | Panic OutOfBlocks => match c with CFinU _ _ _ _ | CFinD _ => True | _ => False end
  | _ => False
  end.
Proof. intros H9 Hr. eapply st_short; [done|by eapply reach_settled]. Qed.

Lemma c13_len n tr y : reachable n tr y ->
  (Z.of_nat (size (h_map (replay tr))) - Z.of_nat (h_nsusp (replay tr)) <= len (sy_tree y) + h_off (replay tr) <=
   Z.of_nat (size (h_map (replay tr))) + Z.of_nat (h_nsusp (replay tr)))%Z.
Proof. intros Hr. exact (st_len K fetch y (replay tr) (N.of_nat (length tr))  (reach_settled _ _ _ Hr)). Qed.

Lemma c05_prepare n tr y aid k found v y' : reachable n tr y -> proper K fetch y (CPrepU aid k) ->
  api y (CPrepU aid k) = Ok (RPrepU found v, y') ->
  (forall w, get y k = Some w -> found = true /\ v = w) /\
  (if found then get y (fetch v) = Some v /\ K (fetch v) /\ head (fetch v) = head k else v = 0) /\
  (forall k', bytes k' -> k' <> [] -> get y' k' = get y k').
Proof.
  intros Hr Hp Ha. destruct (reach_step _ _ _ _ Hr Hp) as (T & lost & Hi & Hs). rewrite Ha in Hs.
  destruct Hs as ((H1 & H2) & T' & lost' & Hi' & -> & ->).
  pose proof (iv_core _ _ _ _ _ _ _ Hi) as Hc. pose proof (iv_core _ _ _ _ _ _ _ Hi') as Hc'. pose proof (rc_univ _ _ _ _ _ Hr) as HK.
  destruct Hp as (_ & _ & Hk). split; [|split].
  - intros w Hw. apply (get_iff K fetch HK y T) in Hw; [auto|done|by apply (uv_bytes K HK)|by apply (uv_nonempty K HK)].
  - destruct found; [|done]. destruct H1 as (k' & q & Hin & Hq & [q1 ->] & [q2 ->]).
    destruct (co_contents K fetch _ _ _ _ Hc Hin) as (H3 & H4 & ->). split; [by eapply stored_ok|]. split; [done|].
    destruct q; done.
  - intros k' Hb Hne. by eapply get_same.
Qed.

Lemma c06_prepare n tr y aid k ov y' : reachable n tr y -> proper K fetch y (CPrepD aid k) ->
  api y (CPrepD aid k) = Ok (RPrepD ov, y') ->
  (forall w, get y k = Some w -> ov = Some w) /\
  match ov with
  | Some v => get y (fetch v) = Some v /\ K (fetch v)
  | None => y' = y
  end /\
  (forall k', bytes k' -> k' <> [] -> get y' k' = get y k').
Proof.
  intros Hr Hp Ha. destruct (reach_step _ _ _ _ Hr Hp) as (T & lost & Hi & Hs). rewrite Ha in Hs.
  destruct Hs as (H1 & T' & lost' & Hi' & -> & ->).
  pose proof (iv_core _ _ _ _ _ _ _ Hi) as Hc. pose proof (iv_core _ _ _ _ _ _ _ Hi') as Hc'. pose proof (rc_univ _ _ _ _ _ Hr) as HK.
  pose proof Hp as (Haid & Hop & Hkb & Hkn). split; [|split].
  - intros w Hw. apply (get_iff K fetch HK y T) in Hw; try done. destruct ov as [v|]; simpl in H1.
    + f_equal. by apply H1.
    + by apply H1 in Hw.
  - destruct ov as [v|]; simpl in H1.
    + destruct H1 as ((k' & Hin) & _). destruct (co_contents K fetch _ _ _ _ Hc Hin) as (H3 & H4 & ->). split; [by eapply stored_ok|done].
    + unfold api in Ha. pose proof (prepare_delete_ok K fetch HK _ T _ aid k Hc Hkb Hkn (iv_locks _ _ _ _ _ _ _ Hi)) as H.
      destruct (prepare_delete (sy_tree y) aid k) as [[[op|] s1]|w| |]; try done; cbn [bind] in Ha; simpl in H.
      destruct H as [-> _]. injection Ha as <-. by eapply idle_same.
  - intros k' Hb Hne. by eapply get_same.
Qed.

Lemma c07_prepare n tr y aid k r y' : reachable n tr y -> proper K fetch y (CPrepU aid k) ->
  api y (CPrepU aid k) = Ok (r, y') -> takes y aid y'.
Proof.
  intros Hr Hp Ha. destruct (reach_step _ _ _ _ Hr Hp) as (T & lost & Hi & Hs). rewrite Ha in Hs.
  destruct Hs as (_ & T' & lost' & Hi' & Hch). destruct Hp as (Haid & Ho & Hk). unfold api in Ha.
  pose proof (prepare_update_ok K fetch (rc_univ _ _ _ _ _ Hr) _ T _ aid k (iv_core _ _ _ _ _ _ _ Hi) Hk (iv_locks _ _ _ _ _ _ _ Hi)) as H.
  destruct (prepare_update (sy_tree y) aid k) as [[[found op] s1]|w| |]; try done; cbn [bind] in Ha. injection Ha as <- <-.
  exists (HU found op). split; [done|].
  destruct (take_locks _ _ _ _ _ _ _ _ _ _ _ _ _ (HU found op) Hi Hi' Ho eq_refl) as [H1 H2].
  destruct H as (_ & _ & _ & _ & [(E & _ & E0 & ->)|(E & (l' & -> & _) & _)]); simpl in E |- *; rewrite E; split_and!; done.
Qed.

Lemma c08_prepare n tr y aid k v y' : reachable n tr y -> proper K fetch y (CPrepD aid k) ->
  api y (CPrepD aid k) = Ok (RPrepD (Some v), y') -> takes y aid y'.
Proof.
  intros Hr Hp Ha. destruct (reach_step _ _ _ _ Hr Hp) as (T & lost & Hi & Hs). rewrite Ha in Hs.
  destruct Hs as (_ & T' & lost' & Hi' & Hch). destruct Hp as (Haid & Ho & Hb & Hne). unfold api in Ha.
  pose proof (prepare_delete_ok K fetch (rc_univ _ _ _ _ _ Hr) _ T _ aid k (iv_core _ _ _ _ _ _ _ Hi) Hb Hne (iv_locks _ _ _ _ _ _ _ Hi)) as H.
  destruct (prepare_delete (sy_tree y) aid k) as [[[op|] s1]|w| |]; try done; cbn [bind] in Ha. injection Ha as <- <-.
  exists (HD k op). split; [done|].
  destruct (take_locks _ _ _ _ _ _ _ _ _ _ _ _ _ (HD k op) Hi Hi' Ho eq_refl) as [H1 H2].
  destruct H as (_ & _ & _ & [(E & _ & E0 & ->)|(E & (l' & -> & _) & _)]); simpl in E |- *; rewrite E; split_and!; done.
Qed.

Lemma unrestarted_off tr : unrestarted tr -> h_off (replay tr) = 0%Z.
Proof.
  induction tr as [|e tr IH] using rev_ind; intros H; [done|]. rewrite replay_snoc.
  apply Forall_app in H as [H1 H2]. apply Forall_inv in H2. rewrite hstep_off by done. by apply IH.
Qed.

Lemma c13_len_same n tr y : reachable n tr y -> unrestarted tr ->
  (Z.of_nat (size (h_map (replay tr))) - Z.of_nat (h_nsusp (replay tr)) <= len (sy_tree y) <=
   Z.of_nat (size (h_map (replay tr))) + Z.of_nat (h_nsusp (replay tr)))%Z.
Proof. intros Hr Hu. pose proof (c13_len _ _ _ Hr) as H. rewrite (unrestarted_off _ Hu) in H. lia. Qed.

End Reach.
