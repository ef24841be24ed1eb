(** * Seq: clients that never have two write operations open at the same time. *)
From Verif Require Export ApiProps.

(** At every point of the history at most one operation is open. *)
Definition sequential (tr : list (call * reply)) : Prop :=
  forall tr1 tr2, tr = tr1 ++ tr2 -> (size (h_pend (replay tr1)) <= 1)%nat.

Lemma sequential_init tr e : sequential (tr ++ [e]) -> sequential tr.
Proof. intros H tr1 tr2 ->. apply (H tr1 (tr2 ++ [e])). by rewrite app_assoc. Qed.

Lemma size1_delete {A} (m : gmap nat A) i x : (size m <= 1)%nat -> m !! i = Some x -> delete i m = ∅.
Proof.
  intros H Hi. apply map_size_empty_inv. rewrite map_size_delete_Some by eauto. lia.
Qed.

Record clean (h : hist) : Prop := {
  cl_pend : forall aid p, h_pend h !! aid = Some p -> p_over p = false /\ p_del p = false;
  cl_susp : h_susp h = ∅;
  cl_nsusp : h_nsusp h = 0%nat
}.

Lemma clean_step h e : clean h -> (size (h_pend h) <= 1)%nat -> clean (hstep h e).
Proof.
  intros [H1 H2 H3] Hs.
  assert (Hdel : forall aid, clean (Hist (h_map h) (delete aid (h_pend h)) (h_susp h) (h_nsusp h) (h_off h))).
  { intros aid. split; [|done|done]. intros i p. cbn [h_pend]. intros H. apply lookup_delete_Some in H as [_ H]. by apply (H1 i). }
  assert (Hins : forall aid k, clean (Hist (h_map h) (<[aid := Pend k false false]> (h_pend h)) (h_susp h) (h_nsusp h) (h_off h))).
  { intros aid k. split; [|done|done]. intros i p. cbn [h_pend]. intros H. apply lookup_insert_Some in H as [[_ <-]|[_ H]]; [done|by apply (H1 i)]. }
  assert (Hc : clean h) by done.
  destruct e as [[aid k|aid k|aid fk m v|aid|aid k|aid|aid|aid|pk upk ord] r]; cbn [hstep]; try done; try apply Hdel; try apply Hins.
  - destruct r as [| | |[]| |]; try apply Hdel. destruct (h_pend h !! aid) as [p|] eqn:E; [|done].
    rewrite (size1_delete _ _ _ Hs E), H2. split; cbn [h_pend h_susp h_nsusp]; [|set_solver|done].
    intros i q. by rewrite fmap_empty, lookup_empty.
  - destruct r as [| |[v|]| | |]; done.
  - destruct r as [| | |[]| |]; try apply Hdel. destruct (h_pend h !! aid) as [p|] eqn:E; [|done].
    rewrite (proj1 (H1 _ _ E)), (size1_delete _ _ _ Hs E), H2. split; cbn [h_pend h_susp h_nsusp]; [|set_solver|done].
    intros i q. by rewrite fmap_empty, lookup_empty.
  - by destruct r.
Qed.

Lemma clean_replay tr : sequential tr -> clean (replay tr).
Proof.
  induction tr as [|e tr IH] using rev_ind; intros Hs; [by split|].
  rewrite replay_snoc. apply clean_step; [by apply IH, (sequential_init _ e)|]. by apply (Hs tr [e]).
Qed.

(** Finalize returns true and Prepare never waits. *)
Lemma c48_sequential K fetch n tr y : reachable K fetch n tr y -> sequential tr ->
  (forall k, bytes k -> k <> [] -> get fetch y k = h_map (replay tr) !! k) /\
  len (sy_tree y) = (Z.of_nat (size (h_map (replay tr))) - h_off (replay tr))%Z /\
  (unrestarted tr -> len (sy_tree y) = Z.of_nat (size (h_map (replay tr)))) /\
  (forall aid fk m v b y', proper K fetch y (CFinU aid fk m v) -> api y (CFinU aid fk m v) = Ok (RBool b, y') -> b = true) /\
  (forall aid b y', proper K fetch y (CFinD aid) -> api y (CFinD aid) = Ok (RBool b, y') -> b = true) /\
  (forall aid k, proper K fetch y (CPrepU aid k) -> sy_open y = ∅ -> exists r y', api y (CPrepU aid k) = Ok (r, y')) /\
  (forall aid k, proper K fetch y (CPrepD aid k) -> sy_open y = ∅ -> exists r y', api y (CPrepD aid k) = Ok (r, y')).
Proof.
  intros Hr Hs. destruct (clean_replay _ Hs) as [H1 H2 H3]. split_and!.
  - intros k Hb Hne. apply (c35_map K fetch n tr y k Hr Hb Hne). rewrite H2. set_solver.
  - pose proof (c13_len K fetch n tr y Hr) as H. rewrite H3 in H. lia.
  - intros Hu. pose proof (c13_len_same K fetch n tr y Hr Hu) as H. rewrite H3 in H. lia.
  - intros aid fk m v b y' Hp E. destruct (c03_update K fetch n tr y _ _ _ _ _ _ Hr Hp E) as (p & Hpe & Hf & _).
    destruct b; [done|]. destruct (H1 _ _ Hpe) as [_ H]. rewrite H in Hf. by apply Hf.
  - intros aid b y' Hp E. destruct (c04_delete K fetch n tr y _ _ _ Hr Hp E) as (p & Hpe & Hf & _).
    destruct b; [done|]. destruct (H1 _ _ Hpe) as [H _]. rewrite H in Hf. by apply Hf.
  - intros aid k Hp Ho. pose proof (c12_outcomes K fetch n tr y _ Hr Hp) as H.
    destruct (api y (CPrepU aid k)) as [[r y']|[]| |]; try done; [by exists r, y'| |by destruct H].
    by destruct H as (? & ? & [] & _).
  - intros aid k Hp Ho. pose proof (c12_outcomes K fetch n tr y _ Hr Hp) as H.
    destruct (api y (CPrepD aid k)) as [[r y']|[]| |]; try done; [by exists r, y'| |by destruct H].
    by destruct H as (? & ? & [] & _).
Qed.
