(** * LockFacts: lock words are odd exactly while some operation holds them. *)
From Verif Require Export AllocFacts.

Global Opaque lock_id explodeNode buildNode buildLeaf isLeaf to_byte getLeafValue updateLeafKey.
Global Arguments N.eqb : simpl never.
Global Arguments N.leb : simpl never.
Global Arguments N.ltb : simpl never.
Global Arguments Nat.eqb : simpl never.
Global Arguments gen_inc : simpl never.
Global Arguments gen_odd : simpl never.
Global Arguments mset : simpl never.
Global Arguments mget : simpl never.
Global Arguments lget : simpl never.
Global Arguments block_of : simpl never.
Global Arguments buildLeaf : simpl never.
Global Arguments buildNode : simpl never.
Global Arguments explodeNode : simpl never.
Global Arguments isLeaf : simpl never.
Global Arguments to_byte : simpl never.
Global Arguments getLeafValue : simpl never.
Global Arguments updateLeafKey : simpl never.
Global Arguments dlen : simpl never.

Lemma gen_odd_inc g : gen_odd (gen_inc g) = negb (gen_odd g).
Proof.
  unfold gen_odd, gen_inc, i32. pose proof (N.div_mod' (g + 1) 4294967296) as E.
  rewrite <- (N.negb_even g), negb_involutive.
  assert (H : N.odd (g + 1) = N.even g).
  { rewrite N.odd_add, <- (N.negb_even g). change (N.odd 1) with true. by destruct (N.even g). }
  rewrite <- H. rewrite E at 2. rewrite N.odd_add, N.odd_mul. change (N.odd 4294967296) with false.
  rewrite andb_false_l, xorb_false_l. done.
Qed.

Record locks_inv (l : mem) (held : list N) : Prop := {
  li_nodup : NoDup held;
  li_odd : forall i, gen_odd (lget l i) = true <-> i ∈ held
}.

Lemma locks_inv_perm l h h' : h ≡ₚ h' -> locks_inv l h -> locks_inv l h'.
Proof. intros E [H1 H2]. split; [by rewrite <- E|]. intros i. rewrite H2. by rewrite E. Qed.

Lemma lock_word_ok l held i : locks_inv l held -> i ∉ held ->
  locks_inv (mset l i (gen_inc (lget l i))) (i :: held).
Proof.
  intros [H1 H2] Hi. split; [by constructor|]. intros j. rewrite elem_of_cons.
  destruct (decide (j = i)) as [->|Hne].
  - rewrite lget_mset_eq, gen_odd_inc. split; [by left|]. intros _.
    destruct (gen_odd (lget l i)) eqn:E; [|done]. by apply H2 in E.
  - rewrite lget_mset_ne by done. rewrite H2. naive_solver.
Qed.

Lemma unlock_word_ok l held i : locks_inv l (i :: held) ->
  exists l', unlock_word l i = Ok l' /\ locks_inv l' held.
Proof.
  intros [H1 H2]. apply NoDup_cons in H1 as [Hi H1]. unfold unlock_word.
  assert (E : gen_odd (lget l i) = true) by (apply H2; left).
  rewrite gen_odd_inc, E. simpl. eexists; split; [done|]. split; [done|].
  intros j. destruct (decide (j = i)) as [->|Hne].
  - rewrite lget_mset_eq, gen_odd_inc, E. naive_solver.
  - rewrite lget_mset_ne by done. rewrite H2, elem_of_cons. naive_solver.
Qed.

Lemma not_odd_not_held l held i : locks_inv l held -> gen_odd (lget l i) = false -> i ∉ held.
Proof. intros [_ H] E Hi. apply H in Hi. congruence. Qed.

(** Lock words taken for a node and its parent, and for child, node and parent. *)
Definition lids2 (node parent : N) : list N :=
  if parent =? 0 then [lock_id node]
  else if lock_id parent =? lock_id node then [lock_id node]
  else [lock_id parent; lock_id node].

Definition lids3 (child node parent : N) : list N :=
  if parent =? 0 then lids2 child node
  else (if (lock_id parent =? lock_id child) || (lock_id parent =? lock_id node) then [] else [lock_id parent])
       ++ lids2 child node.

Lemma lids2_node node parent : lock_id node ∈ lids2 node parent.
Proof. unfold lids2. destruct (_ =? 0); [left|]. destruct (_ =? _); [left|right; left]. Qed.
Lemma lids2_parent node parent : parent <> 0 -> lock_id parent ∈ lids2 node parent.
Proof.
  intros H. unfold lids2. rewrite (proj2 (N.eqb_neq _ _)) by done.
  destruct (N.eqb_spec (lock_id parent) (lock_id node)) as [->|]; left.
Qed.
Lemma lids2_elem i node parent : i ∈ lids2 node parent -> i = lock_id node \/ (parent <> 0 /\ i = lock_id parent).
Proof.
  unfold lids2. destruct (N.eqb_spec parent 0); [intros Hi%elem_of_list_singleton; by left|].
  destruct (_ =? _).
  - intros Hi%elem_of_list_singleton; by left.
  - intros [->|Hi]%elem_of_cons; [by right|]. apply elem_of_list_singleton in Hi. by left.
Qed.
Lemma lids3_child c node parent : node <> 0 -> lock_id c ∈ lids3 c node parent.
Proof. intros H. unfold lids3. pose proof (lids2_node c node). destruct (_ =? 0); [done|]. apply elem_of_app; by right. Qed.
Lemma lids3_node c node parent : node <> 0 -> lock_id node ∈ lids3 c node parent.
Proof. intros H. unfold lids3. pose proof (lids2_parent c node H). destruct (_ =? 0); [done|]. apply elem_of_app; by right. Qed.
Lemma lids3_parent c node parent : node <> 0 -> parent <> 0 -> lock_id parent ∈ lids3 c node parent.
Proof.
  intros H Hp. unfold lids3. rewrite (proj2 (N.eqb_neq parent 0)) by done.
  pose proof (lids2_node c node). pose proof (lids2_parent c node H).
  destruct (N.eqb_spec (lock_id parent) (lock_id c)) as [->|]; simpl; [done|].
  destruct (N.eqb_spec (lock_id parent) (lock_id node)) as [->|]; simpl; [done|]. left.
Qed.

Lemma lock_cas_ok l i g : lget l i = g -> lock_cas l i g (gen_inc g) = Some (mset l i (gen_inc (lget l i))).
Proof. intros <-. unfold lock_cas. by rewrite N.eqb_refl. Qed.

Lemma lock_nodes2_ok l held node ng parent pg :
  locks_inv l held -> lget l (lock_id node) = ng -> (parent <> 0 -> lget l (lock_id parent) = pg) ->
  match lock_nodes2 l node ng parent pg with
  | Some l' => locks_inv l' (lids2 node parent ++ held)
  | None => exists i, i ∈ lids2 node parent /\ i ∈ held
  end.
Proof.
  intros Hl Hn Hp. unfold lock_nodes2, lids2, lock_node.
  destruct (N.eqb_spec parent 0) as [->|Hpar].
  - destruct (gen_odd ng) eqn:E.
    + exists (lock_id node). split; [left|]. apply Hl. by rewrite Hn.
    + rewrite lock_cas_ok by done. apply lock_word_ok; [done|].
      eapply not_odd_not_held; [done|]. by rewrite Hn.
  - specialize (Hp Hpar). destruct (gen_odd ng) eqn:En; simpl.
    { exists (lock_id node). split; [|apply Hl; by rewrite Hn].
      destruct (N.eqb_spec (lock_id parent) (lock_id node)); [left|right; left]. }
    destruct (gen_odd pg) eqn:Ep; simpl.
    { exists (lock_id parent). split; [|apply Hl; by rewrite Hp].
      destruct (N.eqb_spec (lock_id parent) (lock_id node)) as [->|]; left. }
    rewrite lock_cas_ok by done.
    pose proof (lock_word_ok l held (lock_id node) Hl) as H1.
    specialize (H1 ltac:(eapply not_odd_not_held; [done|by rewrite Hn])).
    destruct (N.eqb_spec (lock_id parent) (lock_id node)) as [E|E]; [done|].
    rewrite lock_cas_ok by (by rewrite lget_mset_ne).
    apply lock_word_ok; [done|]. eapply not_odd_not_held; [done|]. by rewrite lget_mset_ne, Hp.
Qed.

Lemma unlock_nodes2_ok l held node parent :
  locks_inv l (lids2 node parent ++ held) ->
  exists l', unlock_nodes2 l node parent = Ok l' /\ locks_inv l' held.
Proof.
  unfold unlock_nodes2, lids2, unlock_node. destruct (N.eqb_spec parent 0) as [->|Hpar].
  - apply unlock_word_ok.
  - rewrite (N.eqb_sym (lock_id node)). destruct (N.eqb_spec (lock_id parent) (lock_id node)) as [E|E].
    + intros H. rewrite E. destruct (unlock_word_ok _ _ _ H) as (l' & -> & ?). simpl. eauto.
    + intros H. destruct (unlock_word_ok _ _ _ H) as (l' & -> & H2). simpl.
      apply unlock_word_ok. done.
Qed.

Lemma lock_nodes3_ok l held child cg node ng parent pg :
  locks_inv l held -> node <> 0 -> lget l (lock_id child) = cg -> lget l (lock_id node) = ng ->
  (parent <> 0 -> lget l (lock_id parent) = pg) ->
  match lock_nodes3 l child cg node ng parent pg with
  | Some l' => locks_inv l' (lids3 child node parent ++ held)
  | None => exists i, i ∈ lids3 child node parent /\ i ∈ held
  end.
Proof.
  intros Hl Hnz Hc Hn Hp. unfold lock_nodes3.
  pose proof (lids3_child child node parent Hnz) as Ic. pose proof (lids3_node child node parent Hnz) as In.
  pose proof (lids3_parent child node parent Hnz) as Ip.
  unfold lids3 in *.
  destruct (N.eqb_spec parent 0) as [->|Hpar].
  - by apply lock_nodes2_ok.
  - specialize (Hp Hpar). specialize (Ip Hpar).
    destruct (gen_odd cg) eqn:Ec; simpl.
    { exists (lock_id child). split; [done|]. apply Hl. by rewrite Hc. }
    destruct (gen_odd ng) eqn:En; simpl.
    { exists (lock_id node). split; [done|]. apply Hl. by rewrite Hn. }
    destruct (gen_odd pg) eqn:Ep; simpl.
    { exists (lock_id parent). split; [done|]. apply Hl. by rewrite Hp. }
    rewrite lock_cas_ok by done.
    pose proof (lock_word_ok l held (lock_id child) Hl) as H1.
    specialize (H1 ltac:(eapply not_odd_not_held; [done|by rewrite Hc])).
    unfold lids2. rewrite (proj2 (N.eqb_neq node 0)) by done.
    destruct (N.eqb_spec (lock_id node) (lock_id child)) as [E|E].
    + rewrite E. rewrite orb_diag.
      destruct (N.eqb_spec (lock_id parent) (lock_id child)) as [E2|E2]; [done|].
      rewrite lock_cas_ok by (by rewrite lget_mset_ne).
      apply lock_word_ok; [done|]. eapply not_odd_not_held; [done|]. by rewrite lget_mset_ne, Hp.
    + rewrite lock_cas_ok by (by rewrite lget_mset_ne).
      pose proof (lock_word_ok _ _ (lock_id node) H1) as H2.
      specialize (H2 ltac:(eapply not_odd_not_held; [done|by rewrite lget_mset_ne, Hn])).
      destruct (N.eqb_spec (lock_id parent) (lock_id child)) as [E2|E2]; [done|].
      destruct (N.eqb_spec (lock_id parent) (lock_id node)) as [E3|E3]; [done|]. simpl.
      rewrite lock_cas_ok by (by rewrite !lget_mset_ne).
      apply (lock_word_ok _ _ (lock_id parent) H2).
      eapply not_odd_not_held; [done|]. by rewrite !lget_mset_ne, Hp.
Qed.

Lemma unlock_nodes3_ok l held child node parent : node <> 0 ->
  locks_inv l (lids3 child node parent ++ held) ->
  exists l', unlock_nodes3 l child node parent = Ok l' /\ locks_inv l' held.
Proof.
  intros Hnz. unfold unlock_nodes3, lids3.
  destruct (N.eqb_spec parent 0) as [->|Hpar]; [apply unlock_nodes2_ok|].
  unfold lids2. rewrite (proj2 (N.eqb_neq node 0)) by done.
  rewrite (N.eqb_sym (lock_id node) (lock_id parent)), (N.eqb_sym (lock_id child) (lock_id parent)).
  rewrite (N.eqb_sym (lock_id child) (lock_id node)).
  destruct (N.eqb_spec (lock_id parent) (lock_id child)) as [E1|E1]; simpl.
  - destruct (N.eqb_spec (lock_id node) (lock_id child)) as [E2|E2]; simpl.
    + intros H. rewrite E1, E2, N.eqb_refl. destruct (unlock_word_ok _ _ _ H) as (l' & -> & H'). simpl. eauto.
    + intros H. rewrite E1. rewrite (proj2 (N.eqb_neq (lock_id child) (lock_id node))) by done.
      apply (locks_inv_perm _ _ (lock_id child :: lock_id node :: held)) in H; [|solve_Permutation].
      destruct (unlock_word_ok _ _ _ H) as (l' & -> & H'). simpl.
      destruct (unlock_word_ok _ _ _ H') as (l'' & -> & H''). simpl. eauto.
  - destruct (N.eqb_spec (lock_id parent) (lock_id node)) as [E2|E2]; simpl.
    + intros H. destruct (N.eqb_spec (lock_id node) (lock_id child)) as [E3|E3]; simpl; [congruence|].
      rewrite E2. destruct (unlock_word_ok _ _ _ H) as (l' & -> & H'). simpl.
      apply unlock_word_ok. done.
    + intros H. destruct (unlock_word_ok _ _ _ H) as (l' & -> & H'). simpl.
      destruct (N.eqb_spec (lock_id node) (lock_id child)) as [E3|E3]; simpl.
      * rewrite E3. destruct (unlock_word_ok _ _ _ H') as (l'' & -> & H''). simpl. eauto.
      * destruct (unlock_word_ok _ _ _ H') as (l'' & -> & H''). simpl. apply unlock_word_ok. done.
Qed.

(** Aborting a merge delete swaps child and parent (delete.go:344); with a parent the lock
    words released are the same. *)
Lemma lids3_swap child node parent : node <> 0 -> parent <> 0 -> child <> 0 ->
  lids3 child node parent ≡ₚ lids3 parent node child.
Proof.
  intros Hn Hp Hc. unfold lids3, lids2.
  rewrite (proj2 (N.eqb_neq parent 0)), (proj2 (N.eqb_neq child 0)), (proj2 (N.eqb_neq node 0)) by done.
  rewrite (N.eqb_sym (lock_id child) (lock_id parent)).
  destruct (N.eqb_spec (lock_id parent) (lock_id child)) as [E1|E1]; simpl.
  - rewrite E1. done.
  - rewrite (N.eqb_sym (lock_id child) (lock_id node)), (N.eqb_sym (lock_id parent) (lock_id node)).
    destruct (N.eqb_spec (lock_id node) (lock_id parent)) as [E2|E2];
    destruct (N.eqb_spec (lock_id node) (lock_id child)) as [E3|E3]; simpl; try congruence.
    + rewrite E2. solve_Permutation.
    + rewrite E3. solve_Permutation.
    + solve_Permutation.
Qed.
