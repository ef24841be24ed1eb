(** * StepFinish: Finalize and Abort release exactly the locks of the operation, and add to the item counter exactly what
    their result says, whatever values their loads return. *)
From Verif Require Export StepLocks.

Lemma filter_perm (i : N) (l l' : list N) : l ≡ₚ i :: l' -> i ∉ l' -> filter (fun j => j <> i) l ≡ₚ l'.
Proof. intros H Hi. rewrite H. by rewrite filter_first. Qed.

Lemma wsafe_unlock (i : N) l l' b d (Q : unit -> list N -> bool -> Z -> Prop) : l ≡ₚ i :: l' -> i ∉ l' ->
  (forall l1, l1 ≡ₚ l' -> Q tt l1 b d) -> wsafe (w_unlock i) l b d Q.
Proof.
  intros H Hi HQ. unfold w_unlock, w_do. cbn [wbind wsafe]. split; [rewrite H; left|]. intros _. apply HQ. by apply filter_perm.
Qed.

Lemma wsafe_unlock2 node parent l b d (Q : unit -> list N -> bool -> Z -> Prop) : l ≡ₚ lids2 node parent ->
  Q tt [] b d -> wsafe (w_unlock2 node parent) l b d Q.
Proof.
  intros H HQ. unfold w_unlock2, lids2 in *. destruct (parent =? 0).
  - apply (wsafe_unlock _ _ []); [done|apply not_elem_of_nil|]. intros l1 ->%Permutation_nil_r. done.
  - apply wsafe_bind. rewrite (N.eqb_sym (lock_id node)). destruct (N.eqb_spec (lock_id parent) (lock_id node)) as [E|Hne].
    + rewrite E. apply (wsafe_unlock _ _ []); [done|apply not_elem_of_nil|]. intros l1 ->%Permutation_nil_r. done.
    + apply (wsafe_unlock _ _ [lock_id node]); [done|by intros Hx%elem_of_list_singleton|]. intros l1 H1.
      apply (wsafe_unlock _ _ []); [done|apply not_elem_of_nil|]. intros l2 ->%Permutation_nil_r. done.
Qed.

Lemma wsafe_unlock3 child node parent l b d (Q : unit -> list N -> bool -> Z -> Prop) : l ≡ₚ own3 child node parent ->
  Q tt [] b d -> wsafe (w_unlock3 child node parent) l b d Q.
Proof.
  intros H HQ. unfold w_unlock3, own3 in *. destruct (parent =? 0); [by apply wsafe_unlock2|]. apply wsafe_bind.
  rewrite (N.eqb_sym (lock_id node)), (N.eqb_sym (lock_id child)), (N.eqb_sym (lock_id child) (lock_id node)).
  destruct (N.eqb_spec (lock_id parent) (lock_id child)) as [E1|H1]; cbn [orb] in *; rewrite ?app_nil_l in H.
  - destruct (N.eqb_spec (lock_id parent) (lock_id node)) as [E2|H2].
    + rewrite <- E2, <- E1, N.eqb_refl in *. apply (wsafe_unlock _ _ []); [done|apply not_elem_of_nil|]. intros l1 ->%Permutation_nil_r. done.
    + rewrite <- E1 in *. rewrite (proj2 (N.eqb_neq (lock_id node) (lock_id parent))) in H by done.
      apply (wsafe_unlock _ _ [lock_id node]); [rewrite H; apply Permutation_swap|by intros Hx%elem_of_list_singleton|]. intros l1 Hl1.
      apply wsafe_bind. apply (wsafe_unlock _ _ []); [done|apply not_elem_of_nil|]. intros l2 ->%Permutation_nil_r. done.
  - destruct (N.eqb_spec (lock_id parent) (lock_id node)) as [E2|H2]; cbn [orb] in *; rewrite ?app_nil_l in H.
    + rewrite <- E2 in *. rewrite (proj2 (N.eqb_neq (lock_id parent) (lock_id child))) in H by done.
      apply (wsafe_unlock _ _ [lock_id child]); [done|by intros Hx%elem_of_list_singleton|]. intros l1 Hl1.
      cbn [wbind wsafe]. rewrite (proj2 (N.eqb_neq (lock_id parent) (lock_id child))) by done.
      apply (wsafe_unlock _ _ []); [done|apply not_elem_of_nil|]. intros l2 ->%Permutation_nil_r. done.
    + destruct (N.eqb_spec (lock_id node) (lock_id child)) as [E3|H3].
      * rewrite <- E3 in *.
        apply (wsafe_unlock _ _ [lock_id node]); [done|by intros Hx%elem_of_list_singleton|]. intros l1 Hl1.
        apply wsafe_bind. apply (wsafe_unlock _ _ []); [done|apply not_elem_of_nil|]. intros l2 ->%Permutation_nil_r. done.
      * apply (wsafe_unlock _ _ [lock_id node; lock_id child]); [done| |].
        { intros [Hx|Hx%elem_of_list_singleton]%elem_of_cons; done. }
        intros l1 Hl1. apply wsafe_bind. apply (wsafe_unlock _ _ [lock_id child]); [done|by intros Hx%elem_of_list_singleton|].
        intros l2 Hl2. apply (wsafe_unlock _ _ []); [done|apply not_elem_of_nil|]. intros l3 ->%Permutation_nil_r. done.
Qed.

Lemma wsafe_unlock_root l d (Q : unit -> list N -> bool -> Z -> Prop) : Q tt l false d -> wsafe w_unlock_root l true d Q.
Proof. intros H. unfold w_unlock_root, w_do. cbn [wbind wsafe]. by split. Qed.

(** *** The parts that touch neither locks nor the item counter *)

Definition plain (a : wact) : Prop := match a with WUnlock _ | WUnlockRoot | WItems _ _ => False | _ => True end.
Lemma wquiet_do a : plain a -> wquiet (w_do a).
Proof. intros H l b d. destruct a; try done; cbn [w_do wsafe]; done. Qed.

Lemma wquiet_min i n m : wquiet (w_min i n m).
Proof. revert i m; induction n as [|n IH]; intros i m; [apply wquiet_ret|]. cbn [w_min]. apply wquiet_bind; [by apply wquiet_do|]. intros r. apply IH. Qed.
Lemma wquiet_new n aid slots : wquiet (w_new n aid slots).
Proof. apply wquiet_bind; [apply wquiet_min|]. intros m. by apply wquiet_do. Qed.
Lemma wquiet_data x : wquiet (w_data x).
Proof. apply wquiet_bind; [by apply wquiet_do|]. intros _. apply wquiet_ret. Qed.
Lemma wquiet_allocate n aid count pl : wquiet (w_allocate n aid count pl).
Proof. apply wquiet_bind; [apply wquiet_new|]. intros x. apply wquiet_bind; [apply wquiet_data|]. intros d. apply wquiet_ret. Qed.
Lemma wquiet_allocate_prefix n aid count p : wquiet (w_allocate_prefix n aid count p).
Proof.
  apply wquiet_bind; [apply wquiet_new|]. intros x. apply wquiet_bind; [apply wquiet_data|]. intros d. destruct p; [apply wquiet_ret|].
  apply wquiet_bind; [by apply wquiet_do|]. intros _. apply wquiet_bind; [apply wquiet_res|]. intros d'. apply wquiet_ret.
Qed.
Lemma wquiet_children d a b : wquiet (w_children d a b).
Proof.
  unfold w_children. destruct (_ <? _); (apply wquiet_bind; [by apply wquiet_do|]; intros _; apply wquiet_bind; [by apply wquiet_do|]; intros _; apply wquiet_ret).
Qed.
Lemma wquiet_words base n : wquiet (w_words base n).
Proof.
  revert base; induction n as [|n IH]; intros base; [apply wquiet_ret|]. cbn [w_words]. apply wquiet_bind; [by apply wquiet_do|]. intros w.
  apply wquiet_bind; [apply IH|]. intros ws. apply wquiet_ret.
Qed.
Lemma wquiet_write base ws : wquiet (w_write base ws).
Proof. revert base; induction ws as [|w ws IH]; intros base; [apply wquiet_ret|]. cbn [w_write]. apply wquiet_bind; [by apply wquiet_do|]. intros _. apply IH. Qed.
Lemma wquiet_copy dst src i n : wquiet (w_copy dst src i n).
Proof. unfold w_copy. destruct (_ <=? _); [|by intros l b d]. apply wquiet_bind; [apply wquiet_words|]. intros ws. apply wquiet_write. Qed.
Lemma wquiet_scatter d ws : wquiet (w_scatter d ws).
Proof. induction ws as [|w ws IH]; [apply wquiet_ret|]. cbn [w_scatter]. apply wquiet_bind; [by apply wquiet_do|]. intros _. apply IH. Qed.
Lemma wquiet_recycle aid x slots : wquiet (w_recycle aid x slots).
Proof.
  unfold w_recycle. destruct (_ <? _)%nat; [apply wquiet_ret|]. destruct (_ <=? _)%nat; [by intros l b d|].
  apply wquiet_bind; [by apply wquiet_do|]. intros e. apply wquiet_bind; [by apply wquiet_do|]. intros full. destruct (_ =? 0); [apply wquiet_ret|].
  apply wquiet_bind; [by apply wquiet_do|]. intros _. apply wquiet_bind; [by apply wquiet_do|]. intros _. apply wquiet_ret.
Qed.
Lemma wquiet_swap p old new : wquiet (w_swap p old new).
Proof. apply wquiet_bind; [by apply wquiet_do|]. intros v. apply wquiet_ret. Qed.
Lemma wquiet_pub p w : wquiet (w_pub p w).
Proof. apply wquiet_bind; [by apply wquiet_do|]. intros _. apply wquiet_ret. Qed.
Lemma wquiet_end aid : wquiet (w_end aid).
Proof. apply wquiet_bind; [by apply wquiet_do|]. intros _. apply wquiet_ret. Qed.

Lemma wsafe_items aid z l b d (Q : unit -> list N -> bool -> Z -> Prop) : Q tt l b (d + z)%Z -> wsafe (w_items aid z) l b d Q.
Proof. intros H v. done. Qed.
Lemma wsafe_count_if (u : bool) aid l b d (Q : unit -> list N -> bool -> Z -> Prop) : Q tt l b (d + if u then 1 else 0)%Z -> wsafe (w_count_if u aid) l b d Q.
Proof. destruct u; [apply wsafe_items|]. rewrite Z.add_0_r. done. Qed.

Ltac wq := first
  [ apply wquiet_res | apply wquiet_allocate | apply wquiet_allocate_prefix | apply wquiet_children | apply wquiet_copy
  | apply wquiet_words | apply wquiet_write | apply wquiet_scatter | apply wquiet_recycle | apply wquiet_swap | apply wquiet_pub
  | apply wquiet_end | (apply wquiet_do; exact I) ].
Ltac ws := repeat first
  [ apply wquiet_use; [wq|]; intros ?
  | apply wsafe_bind; lazymatch goal with
    | |- wsafe (w_items _ _) _ _ _ _ => apply wsafe_items
    | |- wsafe (w_count_if _ _) _ _ _ _ => apply wsafe_count_if
    | |- wsafe (w_unlock2 _ _) _ _ _ _ => apply wsafe_unlock2; [eassumption|]
    | |- wsafe (w_unlock3 _ _ _) _ _ _ _ => apply wsafe_unlock3; [eassumption|]
    | |- wsafe w_unlock_root _ _ _ _ => apply wsafe_unlock_root
    end
  | match goal with |- wsafe (match ?x with pair _ _ => _ end) _ _ _ _ => destruct x as [? ?] end
  | match goal with |- wsafe (let '(_, _) := ?x in _) _ _ _ _ => destruct x as [? ?] end
  | progress cbv zeta ].

(** What a Finalize adds to the item counter, in terms of what the client knows. *)
Definition counted (c : call) (found : bool) (r : reply) : Z :=
  match c, r with
  | CFinU _ _ m _, RBool true => if found && m then 0 else 1
  | CFinD _, RBool true => -1
  | _, _ => 0
  end.

Definition done_with (c : call) (found : bool) (r : reply) (l : list N) (b : bool) (d : Z) : Prop :=
  l = [] /\ b = false /\ d = counted c found r.

Lemma wsafe_finalize_update n op aid fk m v l :
  l ≡ₚ (hlocks (HU (is_found (u_kind op)) op)).1 ->
  wsafe (w_finalize_update_body n op fk m v) l (hlocks (HU (is_found (u_kind op)) op)).2 0
    (fun u l' b' d' => l' = [] /\ b' = false /\ d' = counted (CFinU aid fk m v) (is_found (u_kind op)) (RBool u)).
Proof.
  intros Hl. unfold w_finalize_update_body, w_unlock_uop. cbn [hlocks] in *.
  destruct (u_kind op); cbn [u_isroot is_found fst snd andb] in *; try (apply Permutation_nil_r in Hl as ->).
  all: try match goal with |- wsafe (if ?c then _ else _) _ _ _ _ => destruct c end.
  all: ws; cbn [wsafe counted]; try done; by repeat match goal with u : bool |- _ => destruct u end.
Qed.

Lemma wsafe_finish_update n op aid fk m v l : l ≡ₚ (hlocks (HU (is_found (u_kind op)) op)).1 ->
  wsafe (fin_prog n (HU (is_found (u_kind op)) op) (CFinU aid fk m v)) l (hlocks (HU (is_found (u_kind op)) op)).2 0
    (done_with (CFinU aid fk m v) (is_found (u_kind op))).
Proof.
  intros Hl. cbn [fin_prog]. unfold w_finalize_update. apply wsafe_bind. apply wsafe_bind.
  eapply wsafe_mono; [|by eapply (wsafe_finalize_update _ _ aid)]. intros u l' b' d' (-> & -> & ->). apply wquiet_use; [apply wquiet_end|]. intros _. done.
Qed.

Lemma wsafe_abort_update n op aid f l : l ≡ₚ (hlocks (HU f op)).1 ->
  wsafe (fin_prog n (HU f op) (CAbortU aid)) l (hlocks (HU f op)).2 0 (done_with (CAbortU aid) f).
Proof.
  intros Hl. cbn [fin_prog]. unfold w_abort_update, w_unlock_uop. apply wsafe_bind. cbn [hlocks] in *.
  destruct (u_kind op); cbn [u_isroot fst snd] in *; try (apply Permutation_nil_r in Hl as ->); ws; by apply wquiet_end.
Qed.

Lemma wsafe_finish_delete n key op aid f l : l ≡ₚ (hlocks (HD key op)).1 ->
  wsafe (fin_prog n (HD key op) (CFinD aid)) l (hlocks (HD key op)).2 0 (done_with (CFinD aid) f).
Proof.
  intros Hl. cbn [fin_prog]. unfold w_finalize_delete, w_finalize_delete_body, w_unlock_dop. apply wsafe_bind, wsafe_bind. cbn [hlocks] in *.
  destruct (d_kind op); cbn [fst snd] in *; try (apply Permutation_nil_r in Hl as ->); ws; try done.
  match goal with u : bool |- _ => destruct u end; ws; done.
Qed.

Lemma own3_swap child node parent : child <> 0 -> parent <> 0 -> own3 child node parent ≡ₚ own3 parent node child.
Proof.
  intros H1 H2. unfold own3. rewrite (proj2 (N.eqb_neq child 0)), (proj2 (N.eqb_neq parent 0)) by done.
  destruct (N.eqb_spec (lock_id parent) (lock_id child)) as [E1|E1], (N.eqb_spec (lock_id parent) (lock_id node)) as [E2|E2],
    (N.eqb_spec (lock_id child) (lock_id parent)) as [E3|E3], (N.eqb_spec (lock_id child) (lock_id node)) as [E4|E4],
    (N.eqb_spec (lock_id node) (lock_id child)) as [E5|E5], (N.eqb_spec (lock_id node) (lock_id parent)) as [E6|E6]; cbn [orb app]; try congruence.
  - by rewrite E1.
  - by rewrite E1.
  - by rewrite Permutation_swap, E2.
  - rewrite <- E4. apply Permutation_swap.
  - etrans; [apply Permutation_swap|]. etrans; [|apply perm_swap]. constructor. apply perm_swap.
Qed.

Lemma wsafe_abort_delete n key op aid f l : (d_kind op = replaceNodeWithNode -> d_child op <> 0 /\ d_parent op <> 0) -> l ≡ₚ (hlocks (HD key op)).1 ->
  wsafe (fin_prog n (HD key op) (CAbortD aid)) l (hlocks (HD key op)).2 0 (done_with (CAbortD aid) f).
Proof.
  intros Hk Hl. cbn [fin_prog]. unfold w_abort_delete, w_unlock_dop. apply wsafe_bind. cbn [hlocks] in *.
  destruct (d_kind op); cbn [fst snd] in *; try (apply Permutation_nil_r in Hl as ->); try (ws; by apply wquiet_end).
  destruct (Hk eq_refl). rewrite own3_swap in Hl by done. ws; by apply wquiet_end.
Qed.
