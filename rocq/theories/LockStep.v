(** * LockStep: what Finalize, Abort and FlushStats do to the lock words: each word stays as it
    is or is advanced once. *)
From Verif Require Export Inv.

Definition lmoved (l l' : mem) : Prop := forall i, lget l' i = lget l i \/ lget l' i = gen_inc (lget l i).

Lemma lmoved_refl l : lmoved l l.
Proof. intros i. by left. Qed.

Lemma bind_Ok {A B} (e : res A) (k : A -> res B) b : bind e k = Ok b -> exists a, e = Ok a /\ k a = Ok b.
Proof. destruct e; simpl; try done. eauto. Qed.

Ltac unbind H :=
  repeat match type of H with
  | bind _ _ = Ok _ =>
    let E := fresh "E" in let x := fresh "x" in apply bind_Ok in H as (x & E & H);
    repeat match type of x with (_ * _)%type => destruct x as [x ?] end
  end.

Lemma unlock_word_moved l i l' : unlock_word l i = Ok l' -> forall j, lget l' j = if decide (j = i) then gen_inc (lget l j) else lget l j.
Proof.
  unfold unlock_word. destruct (gen_odd _); [done|]. intros [= <-] j. rewrite lget_mset.
  destruct (decide (i = j)) as [->|], (decide _) as [E|]; try done; subst; done.
Qed.

Lemma unlock2_moved l a b l' : unlock_nodes2 l a b = Ok l' -> lmoved l l'.
Proof.
  unfold unlock_nodes2, unlock_node. destruct (b =? 0).
  - intros H i. rewrite (unlock_word_moved _ _ _ H). destruct (decide _); auto.
  - intros H. unbind H. pose proof (unlock_word_moved _ _ _ E) as H1. destruct (N.eqb_spec (lock_id a) (lock_id b)) as [Eq|Hne].
    + injection H as <-. intros i. rewrite H1. destruct (decide _); auto.
    + intros i. rewrite (unlock_word_moved _ _ _ H), H1. repeat destruct (decide _); subst; auto. done.
Qed.

Lemma unlock3_moved l a b c l' : unlock_nodes3 l a b c = Ok l' -> lmoved l l'.
Proof.
  unfold unlock_nodes3. destruct (c =? 0); [apply unlock2_moved|].
  intros H. unbind H. pose proof (unlock_word_moved _ _ _ E) as H1.
  assert (H2 : forall i, lget x0 i = if decide (i = lock_id c \/ i = lock_id b) then gen_inc (lget l i) else lget l i).
  { intros i. destruct (N.eqb_spec (lock_id b) (lock_id c)) as [Eq|Hne].
    - injection E0 as <-. rewrite H1. repeat destruct (decide _); try done; naive_solver congruence.
    - rewrite (unlock_word_moved _ _ _ E0), H1. repeat destruct (decide _); try done; naive_solver congruence. }
  intros i. destruct (N.eqb_spec (lock_id a) (lock_id c)) as [Ea|Ea]; simpl in H; [injection H as <-; rewrite H2; destruct (decide _); auto|].
  destruct (N.eqb_spec (lock_id a) (lock_id b)) as [Eb|Eb]; simpl in H; [injection H as <-; rewrite H2; destruct (decide _); auto|].
  rewrite (unlock_word_moved _ _ _ H), H2. repeat destruct (decide _); auto. naive_solver congruence.
Qed.

Lemma add_items_locks s aid d s' : add_items s aid d = Ok s' -> t_locks s' = t_locks s.
Proof. unfold add_items. intros H. unbind H. by injection H as <-. Qed.
Lemma count_if_locks u s aid s' : count_if u s aid = Ok s' -> t_locks s' = t_locks s.
Proof. unfold count_if. destruct u; [apply add_items_locks|by intros [= <-]]. Qed.
Lemma flush_locks s aid s' : flush_stats s aid = Ok s' -> t_locks s' = t_locks s.
Proof. unfold flush_stats. intros H. unbind H. by injection H as <-. Qed.
Lemma recycle_locks s aid a n s' : recycle s aid a n = Ok s' -> t_locks s' = t_locks s.
Proof.
  unfold recycle. destruct (recyclerLen <? n)%nat; [by intros [= <-]|]. destruct (recyclerLen <=? n)%nat; [done|].
  intros H. unbind H. destruct (1000 <=? _); [by apply flush_locks in H|by injection H as <-].
Qed.
Lemma new_node_locks s aid n a s' : new_node s aid n = Ok (a, s') -> t_locks s' = t_locks s.
Proof.
  unfold new_node. intros H. unbind H. destruct (find_recycled _ _ _) as [[[t i] [n0 e]]|]; [by injection H as _ <-|].
  unfold bump_alloc in H. unbind H. destruct (_ <=? _); [|by injection H as _ <-]. unbind H. injection H as _ <-.
  unfold receive_block in E1. destruct (_ <? _); [|done]. by injection E1 as _ <-.
Qed.
Lemma alloc_locks s aid c p n d s' : allocate_node s aid c p = Ok (n, d, s') -> t_locks s' = t_locks s.
Proof. unfold allocate_node. intros H. unbind H. apply new_node_locks in E. by injection H as _ _ <-. Qed.
Lemma allocp_locks s aid c p n d s' : allocate_node_with_prefix s aid c p = Ok (n, d, s') -> t_locks s' = t_locks s.
Proof.
  unfold allocate_node_with_prefix. intros H. unbind H. apply new_node_locks in E. destruct p; [by injection H as _ _ <-|].
  unbind H. by injection H as _ _ <-.
Qed.
Lemma pset_locks s p w : t_locks (pset s p w) = t_locks s.
Proof. by destruct p. Qed.
Lemma pcas_locks s p a b u s' : pcas s p a b = (u, s') -> t_locks s' = t_locks s.
Proof. unfold pcas. destruct (_ =? _); intros [= _ <-]; [apply pset_locks|done]. Qed.
Lemma unlock_uop_moved s op s' : unlock_uop s op = Ok s' -> lmoved (t_locks s) (t_locks s').
Proof. unfold unlock_uop. intros H. unbind H. injection H as <-. by apply unlock2_moved in E. Qed.
Lemma unlock_dop_moved s op s' : unlock_dop s op = Ok s' -> lmoved (t_locks s) (t_locks s').
Proof. unfold unlock_dop. intros H. unbind H. injection H as <-. by apply unlock2_moved in E. Qed.

Lemma unlock_root_locks s : t_locks (unlock_root s) = t_locks s.
Proof. done. Qed.
Lemma set_mem_locks s m : t_locks (set_mem s m) = t_locks s.
Proof. done. Qed.
Lemma set_root_locks s m : t_locks (set_root s m) = t_locks s.
Proof. done. Qed.
Lemma set_locks_locks s l : t_locks (set_locks s l) = l.
Proof. done. Qed.

Ltac lk :=
  repeat match goal with
  | H : add_items _ _ _ = Ok _ |- _ => apply add_items_locks in H
  | H : count_if _ _ _ = Ok _ |- _ => apply count_if_locks in H
  | H : recycle _ _ _ _ = Ok _ |- _ => apply recycle_locks in H
  | H : allocate_node _ _ _ _ = Ok _ |- _ => apply alloc_locks in H
  | H : allocate_node_with_prefix _ _ _ _ = Ok _ |- _ => apply allocp_locks in H
  | H : pcas _ _ _ _ = (_, _) |- _ => apply pcas_locks in H
  | H : unlock_uop _ _ = Ok _ |- _ => apply unlock_uop_moved in H
  | H : unlock_dop _ _ = Ok _ |- _ => apply unlock_dop_moved in H
  | H : unlock_nodes3 _ _ _ _ = Ok _ |- _ => apply unlock3_moved in H
  end;
  rewrite ?pset_locks, ?unlock_root_locks, ?set_mem_locks, ?set_root_locks, ?set_locks_locks in *;
  repeat match goal with H : t_locks _ = _ |- _ => rewrite H in *; clear H end;
  try apply lmoved_refl; try done.

Ltac crunch H :=
  repeat (unbind H;
    match type of H with
    | (let '(_, _) := pcas _ _ _ _ in _) = _ => let E := fresh "E" in destruct (pcas _ _ _ _) as [? ?] eqn:E
    | (if ?b then _ else _) = _ => destruct b
    | match ?b with _ => _ end = _ => destruct b
    | Ok _ = Ok _ => injection H as <- <-
    end).

Lemma as_if_locks {A} o s (f : tree -> res (A * tree)) a s' :
  (forall s s', f s = Ok (a, s') -> lmoved (t_locks s) (t_locks s')) -> as_if o s f = Ok (a, s') -> lmoved (t_locks s) (t_locks s').
Proof.
  intros Hf. destruct o as [l|]; cbn [as_if]; intros H; [|by apply Hf]. unbind H. injection H as <- <-. exact (Hf _ _ E).
Qed.

Lemma alloc_as_locks o s aid c p n d s' : alloc_as o s aid c p = Ok (n, d, s') -> t_locks s' = t_locks s.
Proof.
  unfold alloc_as. destruct o as [m|]; cbn [as_if]; intros H; [|by apply allocp_locks in H].
  unbind H. injection H as Hx Hs. subst. exact (allocp_locks _ _ _ _ _ _ _ E).
Qed.

Lemma finu_moved s op fk m v u s' : finalize_update_body s op fk m v = Ok (u, s') -> lmoved (t_locks s) (t_locks s').
Proof. unfold finalize_update_body. cbv zeta. intros H. crunch H; lk. Qed.

Lemma finu_moved_as sc s op fk m v u s' : finalize_update_body_as sc s op fk m v = Ok (u, s') -> lmoved (t_locks s) (t_locks s').
Proof.
  assert (u_kind op = nodePrefixMiss \/ finalize_update_body_as sc s op fk m v = as_if (scan1 sc) s (fun s => finalize_update_body s op fk m v)) as [Ek| ->].
  { unfold finalize_update_body_as. destruct (u_kind op) eqn:Ek; (by left) || by right. }
  2:{ apply as_if_locks. intros ? ?. apply finu_moved. }
  unfold finalize_update_body_as. rewrite Ek. cbv zeta. intros H. crunch H;
  repeat match goal with E : alloc_as _ _ _ _ _ = Ok _ |- _ => apply alloc_as_locks in E end; lk.
Qed.

Lemma find_moved s op u s' : finalize_delete_body s op = Ok (u, s') -> lmoved (t_locks s) (t_locks s').
Proof.
  unfold finalize_delete_body. cbv zeta. intros H. destruct (d_kind op); crunch H; lk.
  destruct b; [apply add_items_locks in E0; rewrite E0|injection E0 as <-]; rewrite E; apply lmoved_refl.
Qed.

Lemma abu_moved s op s' : abort_update s op = Ok s' -> lmoved (t_locks s) (t_locks s').
Proof. unfold abort_update. intros H. unbind H. injection H as <-. simpl. destruct (u_kind op); try injection E as <-; lk. Qed.
Lemma abd_moved s op s' : abort_delete s op = Ok s' -> lmoved (t_locks s) (t_locks s').
Proof.
  unfold abort_delete. intros H. unbind H. injection H as <-. simpl. destruct (d_kind op); try injection E as <-; lk.
  unbind E. injection E as <-. lk.
Qed.

(** ** Reservations and the epoch *)

Definition rstep (s s' : tree) : Prop :=
  t_resv s' = t_resv s /\ (t_epoch s' = t_epoch s \/ t_epoch s' = u64 (t_epoch s + 1)).
Definition rsame (s s' : tree) : Prop := t_resv s' = t_resv s /\ t_epoch s' = t_epoch s.

Lemma rsame_refl s : rsame s s.
Proof. done. Qed.
Lemma rsame_trans s1 s2 s3 : rsame s1 s2 -> rsame s2 s3 -> rsame s1 s3.
Proof. intros [? ?] [? ?]. split; congruence. Qed.
Lemma rsame_step s s' : rsame s s' -> rstep s s'.
Proof. intros [? ?]. split; auto. Qed.
Lemma rstep_l s1 s2 s3 : rsame s1 s2 -> rstep s2 s3 -> rstep s1 s3.
Proof. intros [E1 E2] [E3 E4]. split; [congruence|]. by rewrite <- E2. Qed.
Lemma rstep_r s1 s2 s3 : rstep s1 s2 -> rsame s2 s3 -> rstep s1 s3.
Proof. intros [E1 E2] [E3 E4]. split; [congruence|]. by rewrite E4. Qed.

Lemma add_items_r s aid d s' : add_items s aid d = Ok s' -> rsame s s'.
Proof. unfold add_items. intros H. unbind H. by injection H as <-. Qed.
Lemma count_if_r u s aid s' : count_if u s aid = Ok s' -> rsame s s'.
Proof. unfold count_if. destruct u; [apply add_items_r|by intros [= <-]]. Qed.
Lemma flush_r s aid s' : flush_stats s aid = Ok s' -> rsame s s'.
Proof. unfold flush_stats. intros H. unbind H. by injection H as <-. Qed.
Lemma recycle_r s aid a n s' : recycle s aid a n = Ok s' -> rstep s s'.
Proof.
  unfold recycle. destruct (recyclerLen <? n)%nat; [intros [= <-]; by apply rsame_step|]. destruct (recyclerLen <=? n)%nat; [done|].
  intros H. unbind H. destruct (1000 <=? _) in H.
  - apply flush_r in H. eapply rstep_r; [|exact H]. split; [done|by right].
  - injection H as <-. split; [done|by left].
Qed.
Lemma new_node_r s aid n a s' : new_node s aid n = Ok (a, s') -> rsame s s'.
Proof.
  unfold new_node. intros H. unbind H. destruct (find_recycled _ _ _) as [[[t i] [n0 e]]|]; [by injection H as _ <-|].
  unfold bump_alloc in H. unbind H. destruct (_ <=? _); [|by injection H as _ <-]. unbind H. injection H as _ <-.
  unfold receive_block in E1. destruct (_ <? _); [|done]. by injection E1 as _ <-.
Qed.
Lemma alloc_r s aid c p n d s' : allocate_node s aid c p = Ok (n, d, s') -> rsame s s'.
Proof. unfold allocate_node. intros H. unbind H. apply new_node_r in E. by injection H as _ _ <-. Qed.
Lemma allocp_r s aid c p n d s' : allocate_node_with_prefix s aid c p = Ok (n, d, s') -> rsame s s'.
Proof.
  unfold allocate_node_with_prefix. intros H. unbind H. apply new_node_r in E. destruct p; [by injection H as _ _ <-|].
  unbind H. by injection H as _ _ <-.
Qed.
Lemma pset_r s p w : rsame s (pset s p w).
Proof. by destruct p. Qed.
Lemma pcas_r s p a b u s' : pcas s p a b = (u, s') -> rsame s s'.
Proof. unfold pcas. destruct (_ =? _); intros [= _ <-]; [apply pset_r|done]. Qed.
Lemma unlock_uop_r s op s' : unlock_uop s op = Ok s' -> rsame s s'.
Proof. unfold unlock_uop. intros H. unbind H. by injection H as <-. Qed.
Lemma unlock_dop_r s op s' : unlock_dop s op = Ok s' -> rsame s s'.
Proof. unfold unlock_dop. intros H. unbind H. by injection H as <-. Qed.

Ltac rk :=
  repeat match goal with
  | H : add_items _ _ _ = Ok _ |- _ => apply add_items_r in H
  | H : count_if _ _ _ = Ok _ |- _ => apply count_if_r in H
  | H : recycle _ _ _ _ = Ok _ |- _ => apply recycle_r in H
  | H : allocate_node _ _ _ _ = Ok _ |- _ => apply alloc_r in H
  | H : allocate_node_with_prefix _ _ _ _ = Ok _ |- _ => apply allocp_r in H
  | H : pcas _ _ _ _ = (_, _) |- _ => apply pcas_r in H
  | H : unlock_uop _ _ = Ok _ |- _ => apply unlock_uop_r in H
  | H : unlock_dop _ _ = Ok _ |- _ => apply unlock_dop_r in H
  end;
  unfold rsame, rstep, unlock_root in *;
  repeat match goal with H : _ /\ _ |- _ => destruct H end;
  repeat match goal with
  | H : context [t_resv (pset ?s ?p ?w)] |- _ => rewrite (proj1 (pset_r s p w)) in H
  | H : context [t_epoch (pset ?s ?p ?w)] |- _ => rewrite (proj2 (pset_r s p w)) in H
  end;
  cbn [t_resv t_epoch set_rootLock set_locks set_mem set_root] in *;
  rewrite ?(fun s p w => proj1 (pset_r s p w)), ?(fun s p w => proj2 (pset_r s p w));
  repeat match goal with
  | H : t_resv _ = _ |- _ => rewrite H in *; clear H
  | H : t_epoch _ = _ |- _ => rewrite H in *; clear H
  end; auto.

Lemma as_if_r {A} o s (f : tree -> res (A * tree)) a s' :
  (forall s s', f s = Ok (a, s') -> rstep s s') -> as_if o s f = Ok (a, s') -> rstep s s'.
Proof.
  intros Hf. destruct o as [l|]; cbn [as_if]; intros H; [|by apply Hf]. unbind H. injection H as <- <-. split; [done|]. exact (proj2 (Hf _ _ E)).
Qed.
Lemma alloc_as_r o s aid c p n d s' : alloc_as o s aid c p = Ok (n, d, s') -> rsame s s'.
Proof.
  unfold alloc_as. destruct o as [m|]; cbn [as_if]; intros H; [|by apply allocp_r in H].
  unbind H. injection H as Hx Hs. subst. split; [done|exact (proj2 (allocp_r _ _ _ _ _ _ _ E))].
Qed.
Lemma finu_r s op fk m v u s' : finalize_update_body s op fk m v = Ok (u, s') -> rstep s s'.
Proof. unfold finalize_update_body. cbv zeta. intros H. crunch H; rk. Qed.
Lemma finu_r_as sc s op fk m v u s' : finalize_update_body_as sc s op fk m v = Ok (u, s') -> rstep s s'.
Proof.
  assert (u_kind op = nodePrefixMiss \/ finalize_update_body_as sc s op fk m v = as_if (scan1 sc) s (fun s => finalize_update_body s op fk m v)) as [Ek| ->].
  { unfold finalize_update_body_as. destruct (u_kind op) eqn:Ek; (by left) || by right. }
  2:{ apply as_if_r. intros ? ?. apply finu_r. }
  unfold finalize_update_body_as. rewrite Ek. cbv zeta. intros H. crunch H;
  repeat match goal with E : alloc_as _ _ _ _ _ = Ok _ |- _ => apply alloc_as_r in E end; rk.
Qed.
Lemma find_r s op u s' : finalize_delete_body s op = Ok (u, s') -> rstep s s'.
Proof.
  unfold finalize_delete_body. cbv zeta. intros H. destruct (d_kind op); crunch H; rk.
  all: try (destruct b; [apply add_items_r in E0 as [-> ->]|injection E0 as <-]; auto; fail).
  all: destruct (d_nodePtr op); cbn [t_resv t_epoch set_mem set_root pset] in *; rewrite ?H4 in *; auto.
Qed.
