(** * BlockRaceFacts: what the goroutine has done when the tree is used. *)
From Verif Require Export BlockRace PWitness.

Record binv (st : bst) : Prop := {
  bi_given : b_given st = seqN 0 (length (b_given st));
  bi_has : forall b, b ∈ b_given st -> b ∈ b_blocks st;
  bi_pc : match b_pc st with
          | BLoad => b_word st = N.of_nat (length (b_given st))
          | BMake next => next = N.of_nat (length (b_given st)) /\ (b_word st = next \/ b_word st + 1 = next)
          | BStore next => next = N.of_nat (length (b_given st)) /\ (b_word st = next \/ b_word st + 1 = next) /\ next ∈ b_blocks st
          | BSelect next => next = N.of_nat (length (b_given st)) /\ b_word st = next /\ next ∈ b_blocks st
          | BExit => b_word st = N.of_nat (length (b_given st)) /\ b_word st ∈ b_blocks st
          | BDead => b_word st = N.of_nat (length (b_given st)) \/ b_word st + 1 = N.of_nat (length (b_given st))
          end
}.

Lemma binv_runs n st : bruns n st -> binv st.
Proof.
  induction 1 as [|st st' _ IH Hs].
  - split; cbn [binit b_pc b_blocks b_word b_given]; [by rewrite seqN_length|done|by rewrite seqN_length].
  - destruct IH as [H1 H2 H3]. destruct Hs; cbn [b_pc b_blocks b_word b_given] in *; split; cbn [b_pc b_blocks b_word b_given]; try done; try tauto.
    + intros b Hb. right. by apply H2.
    + destruct H3. split_and!; try done. left.
    + destruct H3 as [-> H3]. lia.
    + rewrite app_length. cbn [length]. rewrite seqN_app, <- H1. destruct H3 as [-> _]. f_equal. unfold seqN. cbn [seq map]. f_equal. lia.
    + intros b Hb. apply elem_of_app in Hb as [Hb|Hb%elem_of_list_singleton]; [by apply H2|]. subst b. tauto.
    + rewrite app_length. cbn [length]. destruct H3 as (-> & -> & _). lia.
    + destruct H3 as (-> & -> & H3). done.
Qed.

Lemma beside_given y st : beside y st -> forall b, b ∈ b_given st <-> b < t_nextFreeBlock (sy_tree y).
Proof.
  intros [[n Hr] Hl] b. rewrite (bi_given _ (binv_runs _ _ Hr)), elem_of_seqN. lia.
Qed.

(** Blocks that were handed out are never nil and never replaced. *)
Lemma given_kept n st : bruns n st ->
  (forall b, b ∈ b_given st -> b ∈ b_blocks st) /\ NoDup (b_given st) /\
  (forall next, b_pc st = BMake next -> next ∉ b_given st).
Proof.
  intros Hr. pose proof (binv_runs _ _ Hr) as [H1 H2 H3]. split_and!; [done| |].
  - rewrite H1. apply NoDup_seqN.
  - intros next E. rewrite E in H3. destruct H3 as [-> _]. rewrite H1, elem_of_seqN, seqN_length. lia.
Qed.

(** ** WriteState *)

Lemma word_given y st : beside y st ->
  b_word st = t_nextFreeBlock (sy_tree y) \/ b_word st + 1 = t_nextFreeBlock (sy_tree y).
Proof.
  intros [[n Hr] <-]. pose proof (bi_pc _ (binv_runs _ _ Hr)) as H. destruct (b_pc st); try tauto; intuition lia.
Qed.

Lemma c27_waiting y st pack order : beside y st -> (match b_pc st with BSelect _ | BExit => True | _ => False end) ->
  write_state_at pack (sy_tree y) st order = write_state pack (sy_tree y) order /\
  (written_at st order <-> all_written (sy_tree y) order).
Proof.
  intros [[n Hr] Hl] Hp. pose proof (bi_pc _ (binv_runs _ _ Hr)) as H.
  assert (E : b_word st = t_nextFreeBlock (sy_tree y)) by (destruct (b_pc st); try done; intuition lia).
  unfold write_state_at, written_at, all_written. rewrite E. split; [|done]. by destruct (sy_tree y).
Qed.

Lemma c27_missing y st order : beside y st -> written_at st order ->
  forall b, b < t_nextFreeBlock (sy_tree y) -> b ∉ order -> b = t_nextFreeBlock (sy_tree y) - 1.
Proof.
  intros Hb [_ Hw] b Hlt Hn. destruct (word_given _ _ Hb) as [E|E].
  - rewrite Hw in Hn. lia.
  - rewrite Hw in Hn. lia.
Qed.

(** Before the goroutine goes on after it has handed out block 0. *)
Definition just_given : bst := BSt (BMake 1) [0] 0 [0] false.
Lemma just_given_runs : bruns 0 just_given.
Proof.
  unfold just_given. eapply br_step; [|apply (bs_give 0 [0] 0 [] false)]. eapply br_step; [|apply (bs_store 0 [0] 0 [] false)].
  eapply br_step; [|apply (bs_make 0 [] 0 [] false); by vm_compute]. eapply br_step; [|apply (bs_load [] 0 [] false)]. apply br_init.
Qed.

Lemma c27_lost : exists tr y st pack unpack order s' bs k v, reachable (fixed 2) f2 2 tr y /\ sy_open y = ∅ /\ codec pack unpack /\
  beside y st /\ written_at st order /\
  new_tree_from_state unpack (write_state_at pack (sy_tree y) st order) = Loaded (s', bs) /\
  h_map (replay tr) !! k = Some v /\ search (sy_tree y) k = Ok (v, true) /\ search s' k = Ok (0, false).
Proof.
  destruct (after_reachable 2 f2 (puts f2 0 [1; 2; 300]) (fun tr y => bool_decide (sy_open y = ∅) && (t_nextFreeBlock (sy_tree y) =? 1) &&
    bool_decide (h_map (replay tr) !! f2 300 = Some 300) && answers (sy_tree y) (f2 300) 300 true &&
    match new_tree_from_state idunpack (write_state_at idpack (sy_tree y) just_given []) with
    | Loaded (s, _) => answers s (f2 300) 0 false
    | _ => false
    end)) as (tr & y & Hr & H); [lia|by vm_compute|by vm_compute|].
  apply andb_prop in H as [H H5]. apply andb_prop in H as [H H4]. apply andb_prop in H as [H H3]. apply andb_prop in H as [H1 H2].
  apply bool_decide_eq_true in H1, H3. apply N.eqb_eq in H2.
  destruct (new_tree_from_state _ _) as [[s' bs]| |] eqn:E; try done. apply answers_ok in H4, H5.
  exists tr, y, just_given, idpack, idunpack, [], s', bs, (f2 300), 300. split_and!; try done.
  - apply id_codec.
  - split; [eexists; apply just_given_runs|]. by rewrite H2.
  - split; [constructor|]. intros b. rewrite elem_of_nil. cbn. lia.
Qed.

(** ** A new tree *)

Lemma c39_nil : exists st, bruns 0 st /\ forall n key, beside (init n) st /\
  search_at (b_blocks st) (newTree n) key = Panic NilBlock.
Proof. exists (binit 0). split; [constructor|]. intros n key. split; [split; [eexists; constructor|done]|done]. Qed.

Section At.
Context (bl : list N) (s : tree).
Hypothesis Hbl : forall b, b < N.max 1 (t_nextFreeBlock s) -> b ∈ bl.

Lemma node_data_at_ok node d : node_data s node = Ok d -> node_data_at bl node = Ok d.
Proof.
  unfold node_data, node_data_at. destruct (_ <=? block_of node); [done|].
  destruct (N.leb_spec (N.max 1 (t_nextFreeBlock s)) (block_of node)); [done|]. intros [= <-].
  by rewrite bool_decide_eq_true_2 by auto.
Qed.

Lemma search_loop_at_ok fuel : forall key node c p d r, search_loop fuel s key node c p d = Ok r -> search_loop_at bl fuel s key node c p d = Ok r.
Proof.
  induction fuel as [|f IH]; intros key node c p d r; [done|]. cbn [search_loop search_loop_at].
  destruct (node_data s node) as [dt| | |] eqn:E; try done. rewrite (node_data_at_ok _ _ E). cbn [bind].
  destruct (skip_prefix _ _ _) as [[[plen x] data1]| | |]; try done. cbn [bind]. destruct (_ <=? _)%nat; [done|].
  destruct (key_at _ _) as [k| | |]; try done. cbn [bind]. destruct (fullAllocFrom <=? c)%nat.
  - destruct (sl_get _ _ _) as [a| | |]; try done. cbn [bind]. destruct (a =? 0); [done|]. destruct (isLeaf a); [done|].
    destruct (explodeNode a) as [[[? ?] ?] ?]. apply IH.
  - destruct (sl_upto _ _); try done. cbn [bind]. destruct (scan _ _ _ _ _ _) as [[x1 x2] w]. destruct (to_byte w =? k); [|done].
    destruct (isLeaf w); [done|]. destruct (explodeNode w) as [[[? ?] ?] ?]. apply IH.
Qed.

Lemma search_at_ok key r : search s key = Ok r -> search_at bl s key = Ok r.
Proof.
  unfold search, search_at. destruct (isLeaf _); [done|]. destruct (explodeNode _) as [[[? ?] ?] ?]. apply search_loop_at_ok.
Qed.
End At.

Lemma made_blocks y st : beside y st -> 0 < t_nextFreeBlock (sy_tree y) \/ 0 ∈ b_blocks st ->
  forall b, b < N.max 1 (t_nextFreeBlock (sy_tree y)) -> b ∈ b_blocks st.
Proof.
  intros Hb H b Hlt. pose proof Hb as [[n Hr] _]. destruct (N.ltb_spec b (t_nextFreeBlock (sy_tree y))) as [Hl|Hl].
  - apply (bi_has _ (binv_runs _ _ Hr)). by apply (beside_given y st).
  - destruct H as [H|H]; [lia|]. by assert (b = 0) as -> by lia.
Qed.

Lemma c39_started K fetch n tr y st key : reachable K fetch n tr y -> beside y st ->
  0 < t_nextFreeBlock (sy_tree y) \/ 0 ∈ b_blocks st -> bytes key -> key <> [] ->
  (forall node d, node_data (sy_tree y) node = Ok d -> block_of node ∈ b_blocks st) /\
  (forall node g, generation (sy_tree y) node = Ok g -> block_of node ∈ b_blocks st) /\
  exists v f, search (sy_tree y) key = Ok (v, f) /\ search_at (b_blocks st) (sy_tree y) key = Ok (v, f).
Proof.
  intros Hr Hb H0 Hk Hne. pose proof (made_blocks y st Hb H0) as Hm. split_and!.
  - intros node d. unfold node_data. destruct (_ <=? block_of node); [done|].
    destruct (N.leb_spec (N.max 1 (t_nextFreeBlock (sy_tree y))) (block_of node)); [done|]. intros _. by apply Hm.
  - intros node g. unfold generation. destruct (_ <=? block_of node); [done|].
    destruct (N.leb_spec (N.max 1 (t_nextFreeBlock (sy_tree y))) (block_of node)); [done|]. intros _. by apply Hm.
  - destruct (reach_inv _ _ _ _ _ Hr) as (T & lost & Hi).
    destruct (search_ok K fetch (rc_univ _ _ _ _ _ Hr) (sy_tree y) T key (iv_core _ _ _ _ _ _ _ Hi) Hk Hne) as (v & f & E & _).
    exists v, f. split; [done|]. by apply search_at_ok.
Qed.

Definition waiting : bst := BSt (BSelect 1) [1; 0] 1 [0] false.
Lemma waiting_runs : bruns 0 waiting.
Proof.
  unfold waiting. eapply br_step; [|apply (bs_store 1 [1; 0] 0 [0] false)].
  eapply br_step; [|apply (bs_make 1 [0] 0 [0] false); by vm_compute]. apply just_given_runs.
Qed.
Lemma ex_beside : exists tr y, reachable (fixed 2) f2 2 tr y /\ beside y waiting /\ beside y just_given /\ sy_open y = ∅ /\
  written_at waiting [0] /\ written_at just_given [] /\ size (h_map (replay tr)) = 3%nat.
Proof.
  destruct (after_reachable 2 f2 (puts f2 0 [1; 2; 300]) (fun tr y => bool_decide (sy_open y = ∅) && (t_nextFreeBlock (sy_tree y) =? 1) &&
    (size (h_map (replay tr)) =? 3)%nat)) as (tr & y & Hr & H); [lia|by vm_compute|by vm_compute|].
  apply andb_prop in H as [H H3]. apply andb_prop in H as [H1 H2]. apply bool_decide_eq_true in H1. apply N.eqb_eq in H2. apply Nat.eqb_eq in H3.
  exists tr, y. split_and!; try done.
  - split; [eexists; apply waiting_runs|by rewrite H2].
  - split; [eexists; apply just_given_runs|by rewrite H2].
  - split; [apply NoDup_singleton|]. intros b. rewrite elem_of_list_singleton. cbn. lia.
  - split; [constructor|]. intros b. rewrite elem_of_nil. cbn. lia.
Qed.
