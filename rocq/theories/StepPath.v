(** * StepPath: a Finalize between whose accesses other clients start and end calls.
    What those change for the Finalize are the values its scans of the reservations see (epoch.go:39-48).  Run
    with given values for these scans, the programs of StepFin.v are [api_as] (Step.v). *)
From Verif Require Export StepExec StepRun Step.

(** The program at once, reading the given values instead of the reservations. *)
Fixpoint wexec_as {A} (p : wprog A) (s : tree) (L : list N) : res (A * tree * list N) :=
  match p with
  | WRet a => Ok (a, s, L)
  | WStop (Crash w) => Panic w
  | WStop Again => Retry
  | WStop Fuel => NoFuel
  | WDo (WResv i) k => match L with v :: L' => wexec_as (k v) s L' | [] => NoFuel end
  | WDo a k => do (v, s1) <- do_wact s a; wexec_as (k v) s1 L
  end.

Definition rmap {A B} (f : A -> B) (r : res A) : res B := do a <- r; Ok (f a).

Lemma rmap_bind {A B C} (f : B -> C) (r : res A) (k : A -> res B) : rmap f (bind r k) = bind r (fun a => rmap f (k a)).
Proof. by destruct r. Qed.
Lemma bind_rmap {A B C} (f : A -> B) (r : res A) (k : B -> res C) : bind (rmap f r) k = bind r (fun a => k (f a)).
Proof. by destruct r. Qed.

Lemma bind_ext {A B} (r : res A) (k k' : A -> res B) : (forall a, k a = k' a) -> bind r k = bind r k'.
Proof. intros H. destruct r; cbn [bind]; auto. Qed.

Lemma wexec_as_bind {A B} (p : wprog A) (k : A -> wprog B) s L :
  wexec_as (wbind p k) s L = (do (a, s1, L1) <- wexec_as p s L; wexec_as (k a) s1 L1).
Proof.
  revert s L; induction p as [a|e|a c IH]; intros s L; [done|by destruct e|].
  destruct a; cbn [wbind wexec_as];
    try (match goal with |- bind ?r _ = _ => destruct r as [[v s1]| | |] end; cbn [bind]; try done; apply IH).
  destruct L as [|v L]; [done|]. apply IH.
Qed.

(** ** The reservations do not matter *)

Definition erase (s : tree) : tree := set_resv s [].
Definition not_resv (a : wact) : Prop := match a with WResv _ => False | _ => True end.

Lemma take_node_erase s aid slots m : take_node (erase s) aid slots m = rmap (fun '(v, s1) => (v, erase s1)) (take_node s aid slots m).
Proof.
  unfold take_node, bump_alloc, receive_block, get_alloc. cbn [erase set_resv t_allocs t_nextFreeBlock].
  destruct (t_allocs s !! aid) as [a|]; cbn [bind rmap]; [|done].
  destruct (find_recycled _ _ _) as [[[t i] [x e]]|]; [done|]. destruct (_ <=? _); [|done]. by destruct (_ <? _).
Qed.

Lemma do_wact_erase s a : not_resv a -> do_wact (erase s) a = rmap (fun '(v, s1) => (v, erase s1)) (do_wact s a).
Proof.
  intros Hn. destruct a as [p|d i w|d pfx|p w|p old new|i|aid slots m|node|i| | |aid node slots e| |aid|aid d|aid]; try done; unfold do_wact.
  - cbn [erase set_resv t_mem]. by destruct (sl_set _ _ _ _).
  - cbn [erase set_resv t_mem]. by destruct (store_prefix _ _ _).
  - by destruct p.
  - unfold pcas. destruct p; cbn [pget pset erase set_resv t_mem t_root]; by destruct (_ =? _).
  - apply take_node_erase.
  - unfold node_data. cbn [erase set_resv t_nextFreeBlock]. destruct (_ <=? _); [done|]. by destruct (_ <=? _).
  - cbn [erase set_resv t_locks]. by destruct (unlock_word _ _).
  - unfold keep_node, get_alloc. cbn [erase set_resv t_allocs]. by destruct (t_allocs s !! aid).
  - unfold flush_stats, get_alloc. cbn [erase set_resv t_allocs]. by destruct (t_allocs s !! aid).
  - unfold add_items, get_alloc. cbn [erase set_resv t_allocs]. by destruct (t_allocs s !! aid).
Qed.

Lemma wexec_as_do {A} a (k : N -> wprog A) s L : not_resv a -> wexec_as (WDo a k) s L = (do (v, s1) <- do_wact s a; wexec_as (k v) s1 L).
Proof. by destruct a. Qed.

Lemma wexec_as_erase {A} (p : wprog A) s L : wexec_as p (erase s) L = rmap (fun '(a, s1, L1) => (a, erase s1, L1)) (wexec_as p s L).
Proof.
  revert s L; induction p as [a|e|a c IH]; intros s L; [done|by destruct e|].
  assert (not_resv a \/ exists i, a = WResv i) as [Hn|[i ->]] by (destruct a; simpl; eauto).
  - rewrite !wexec_as_do by done. rewrite (do_wact_erase _ _ Hn), bind_rmap, rmap_bind. apply bind_ext. intros [v s1]. apply IH.
  - cbn [wexec_as]. destruct L as [|v L]; [done|]. apply IH.
Qed.

(** ** Scans *)

Definition minl (l : list N) : N := fold_left (fun m r => if r <? m then r else m) l maxUint64.

Lemma fold_min_le l : forall m, fold_left (fun m r => if r <? m then r else m) l m <= m /\
  Forall (fun r => fold_left (fun m r => if r <? m then r else m) l m <= r) l.
Proof.
  induction l as [|r l IH]; intros m; cbn [fold_left]; [split; [lia|constructor]|].
  destruct (IH (if r <? m then r else m)) as [H1 H2]. destruct (N.ltb_spec r m); (split; [lia|]; constructor; [lia|done]).
Qed.

Lemma minl_le l r : r ∈ l -> minl l <= r.
Proof. intros H. destruct (fold_min_le l maxUint64) as [_ H2]. rewrite list.Forall_forall in H2. by apply H2. Qed.
Lemma minl_max l : minl l <= maxUint64.
Proof. apply fold_min_le. Qed.
Lemma minl_ge l m : m <= maxUint64 -> Forall (fun r => m <= r) l -> m <= minl l.
Proof.
  unfold minl. generalize maxUint64. induction l as [|r l IH]; intros x Hx H; cbn [fold_left]; [done|]. inversion H; subst.
  apply IH; [|done]. destruct (r <? x); lia.
Qed.

Lemma w_min_as s n : forall i m L, (n <= length L)%nat ->
  wexec_as (w_min i n m) s L = Ok (fold_left (fun m r => if r <? m then r else m) (take n L) m, s, drop n L).
Proof.
  induction n as [|n IH]; intros i m L H; cbn [w_min]; [done|]. destruct L as [|r L]; [simpl in H; lia|].
  rewrite wexec_as_bind. cbn [w_do wexec_as bind]. rewrite IH by (simpl in H; lia). done.
Qed.

Lemma take_new s aid slots : take_node s aid slots (min_reservation s) = new_node s aid slots.
Proof. done. Qed.

Lemma take_as s aid slots l :
  take_node s aid slots (minl l) = rmap (fun '(x, s1) => (x, set_resv s1 (t_resv s))) (new_node (set_resv s l) aid slots).
Proof.
  rewrite <- take_new. change (min_reservation (set_resv s l)) with (minl l).
  unfold take_node, bump_alloc, receive_block, get_alloc. cbn [set_resv t_allocs t_nextFreeBlock].
  destruct (t_allocs s !! aid) as [a|]; cbn [bind rmap]; [|done].
  destruct (find_recycled _ _ _) as [[[t i] [x e]]|]; [by destruct s|]. destruct (_ <=? _); [|by destruct s].
  destruct (_ <? _); by destruct s.
Qed.

Lemma w_new_as n s aid slots L : (n <= length L)%nat ->
  wexec_as (w_new n aid slots) s L = (do (x, s1) <- take_node s aid slots (minl (take n L)); Ok (x, s1, drop n L)).
Proof.
  intros H. unfold w_new. rewrite wexec_as_bind, w_min_as by done. cbn [bind]. unfold w_do. rewrite wexec_as_do by done.
  cbn [do_wact]. apply bind_ext. by intros [x s1].
Qed.

Definition pure_res {A} (L : list N) (r : res (A * tree)) : res (A * tree * list N) := do (a, s1) <- r; Ok (a, s1, L).

(** Programs without scans. *)
Fixpoint noscan {A} (p : wprog A) : Prop :=
  match p with WDo a k => not_resv a /\ forall v, noscan (k v) | _ => True end.

Lemma noscan_as {A} (p : wprog A) s L : noscan p -> wexec_as p s L = pure_res L (wexec p s).
Proof.
  revert s; induction p as [a|e|a c IH]; intros s H; [done|by destruct e|]. destruct H as [H1 H2].
  rewrite wexec_as_do by done. cbn [wexec]. unfold pure_res. destruct (do_wact s a) as [[v s1]| | |]; cbn [bind]; try done. by apply IH.
Qed.

Lemma noscan_bind {A B} (p : wprog A) (k : A -> wprog B) : noscan p -> (forall a, noscan (k a)) -> noscan (wbind p k).
Proof. induction p as [a|e|a c IH]; simpl; intros H1 H2; [done|done|]. destruct H1. split; [done|]. intros v. by apply IH. Qed.
Lemma noscan_res {A} (r : res A) : noscan (w_res r).
Proof. by destruct r. Qed.
Lemma noscan_do a : not_resv a -> noscan (w_do a).
Proof. done. Qed.

Lemma noscan_data x : noscan (w_data x).
Proof. done. Qed.
Lemma noscan_children d a b : noscan (w_children d a b).
Proof. unfold w_children. by destruct (_ <? _). Qed.
Lemma noscan_words n : forall b, noscan (w_words b n).
Proof. induction n as [|n IH]; intros b; [done|]. cbn [w_words]. apply noscan_bind; [done|]. intros w. apply noscan_bind; [apply IH|done]. Qed.
Lemma noscan_write ws : forall b, noscan (w_write b ws).
Proof. induction ws as [|w ws IH]; intros b; [done|]. cbn [w_write]. apply noscan_bind; [done|]. intros v. apply IH. Qed.
Lemma noscan_copy d s i n : noscan (w_copy d s i n).
Proof. unfold w_copy. destruct (_ <=? _); [|done]. apply noscan_bind; [apply noscan_words|]. intros ws. apply noscan_write. Qed.
Lemma noscan_scatter ws : forall d, noscan (w_scatter d ws).
Proof. induction ws as [|w ws IH]; intros b; [done|]. cbn [w_scatter]. apply noscan_bind; [done|]. intros v. apply IH. Qed.
Lemma noscan_unlock2 a b : noscan (w_unlock2 a b).
Proof. unfold w_unlock2. destruct (_ =? _); [done|]. apply noscan_bind; [done|]. intros _. by destruct (_ =? _). Qed.
Lemma noscan_unlock3 a b c : noscan (w_unlock3 a b c).
Proof.
  unfold w_unlock3. destruct (_ =? _); [apply noscan_unlock2|]. apply noscan_bind; [done|]. intros _. apply noscan_bind; [by destruct (_ =? _)|].
  intros _. by destruct (_ || _).
Qed.
Lemma noscan_recycle aid x n : noscan (w_recycle aid x n).
Proof.
  unfold w_recycle. destruct (_ <? _)%nat; [done|]. destruct (_ <=? _)%nat; [done|]. apply noscan_bind; [done|]. intros e.
  apply noscan_bind; [done|]. intros f. by destruct (_ =? _).
Qed.
Lemma noscan_count_if u aid : noscan (w_count_if u aid).
Proof. by destruct u. Qed.

Lemma w_data_as s x L : wexec_as (w_data x) s L = (do d <- node_data s x; Ok (d, s, L)).
Proof. rewrite (noscan_as _ _ _ (noscan_data x)), w_data_exec. unfold pure_res. by destruct (node_data s x). Qed.

Lemma node_data_resv s R x : node_data (set_resv s R) x = node_data s x.
Proof. done. Qed.

Lemma w_allocate_as n s aid count pl L : (n <= length L)%nat -> min_reservation s = minl (take n L) ->
  wexec_as (w_allocate n aid count pl) s L = (do (x, d, s1) <- allocate_node s aid count pl; Ok ((x, d), s1, drop n L)).
Proof.
  intros H Hm. unfold w_allocate, allocate_node. rewrite wexec_as_bind, w_new_as, <- Hm, take_new by done.
  destruct (new_node _ _ _) as [[x s1]| | |]; cbn [bind]; try done. rewrite wexec_as_bind, w_data_as. by destruct (node_data _ _).
Qed.

Lemma w_prefix_rest {A} (x : N) s1 (prefix : list N) (f : N * slice -> A) L :
  wexec_as (go d <- w_data x; match prefix with [] => WRet (x, d) | _ => go _ <- w_do (WBytes d prefix); go d' <- w_res (sl_from d (prefix_slots (length prefix))); WRet (x, d') end) s1 L =
  (do data <- node_data s1 x;
   match prefix with
   | [] => Ok ((x, data), s1, L)
   | _ => do m <- store_prefix (t_mem s1) data prefix; do data' <- sl_from data (prefix_slots (length prefix)); Ok ((x, data'), set_mem s1 m, L)
   end).
Proof.
  rewrite wexec_as_bind, w_data_as. destruct (node_data _ _) as [d| | |]; cbn [bind]; try done. destruct prefix as [|b p]; [done|].
  rewrite wexec_as_bind. unfold w_do. rewrite wexec_as_do by done. unfold do_wact. destruct (store_prefix _ _ _) as [m| | |]; cbn [bind wexec_as]; try done.
  rewrite wexec_as_bind. by destruct (sl_from _ _).
Qed.

Lemma w_allocate_prefix_as n s aid count prefix L : (n <= length L)%nat -> min_reservation s = minl (take n L) ->
  wexec_as (w_allocate_prefix n aid count prefix) s L =
  (do (x, d, s1) <- allocate_node_with_prefix s aid count prefix; Ok ((x, d), s1, drop n L)).
Proof.
  intros H Hm. unfold w_allocate_prefix, allocate_node_with_prefix. rewrite wexec_as_bind, w_new_as, <- Hm, take_new by done.
  destruct (new_node _ _ _) as [[x s1]| | |]; cbn [bind]; try done. rewrite (w_prefix_rest x s1 prefix id).
  destruct (node_data _ _) as [d| | |]; cbn [bind]; try done. destruct prefix as [|b p]; [done|].
  destruct (store_prefix _ _ _); cbn [bind]; try done. by destruct (sl_from _ _).
Qed.

Lemma w_allocate_prefix_scan n s aid count prefix L : (n <= length L)%nat ->
  wexec_as (w_allocate_prefix n aid count prefix) s L =
  (do (x, d, s1) <- alloc_as (Some (take n L)) s aid count prefix; Ok ((x, d), s1, drop n L)).
Proof.
  intros H. unfold w_allocate_prefix. rewrite wexec_as_bind, w_new_as by done. rewrite take_as.
  unfold alloc_as. cbn [as_if]. unfold allocate_node_with_prefix. destruct (new_node _ _ _) as [[x s1]| | |]; cbn [bind rmap]; try done.
  rewrite (w_prefix_rest x _ prefix id). rewrite node_data_resv. destruct (node_data _ _) as [d| | |]; cbn [bind]; try done.
  destruct prefix as [|b p]; [done|]. cbn [set_resv t_mem].
  destruct (store_prefix _ _ _); cbn [bind]; try done. by destruct (sl_from _ _).
Qed.

(** ** Programs with at most one scan *)

Definition agree {A} (s : tree) (p : wprog A) (L : list N) : Prop := exists L', wexec_as p s L = pure_res L' (wexec p s).

Lemma agree_noscan {A} (p : wprog A) s L : noscan p -> agree s p L.
Proof. intros H. exists L. by apply noscan_as. Qed.

Lemma agree_bind {A B} (p : wprog A) (k : A -> wprog B) s L : agree s p L -> (forall a, noscan (k a)) -> agree s (wbind p k) L.
Proof.
  intros [L' E] H. exists L'. rewrite wexec_as_bind, E, wexec_bind. unfold pure_res. destruct (wexec p s) as [[a s1]| | |]; cbn [bind]; try done.
  by apply noscan_as.
Qed.

Lemma agree_res {A B} (r : res A) (k : A -> wprog B) s L : (forall a, agree s (k a) L) -> agree s (wbind (w_res r) k) L.
Proof. intros H. destruct r as [a| | |]; [apply H|by exists L..]. Qed.

Section Agree.
Context (s : tree) (n : nat) (L : list N).
Context (Hn : n = length (t_resv s)) (HL : (n <= length L)%nat) (Hm : min_reservation s = minl (take n L)).

Lemma agree_allocate aid count pl : agree s (w_allocate n aid count pl) L.
Proof.
  exists (drop n L). rewrite w_allocate_as by done. rewrite Hn, w_allocate_exec. unfold pure_res.
  by destruct (allocate_node _ _ _ _) as [[[x d] s1]| | |].
Qed.
Lemma agree_allocate_prefix aid count p : agree s (w_allocate_prefix n aid count p) L.
Proof.
  exists (drop n L). rewrite w_allocate_prefix_as by done. rewrite Hn, w_allocate_prefix_exec. unfold pure_res.
  by destruct (allocate_node_with_prefix _ _ _ _) as [[[x d] s1]| | |].
Qed.
End Agree.

Ltac nosc :=
  repeat first
  [ done
  | apply noscan_res | apply noscan_children | apply noscan_copy | apply noscan_words | apply noscan_write | apply noscan_scatter
  | apply noscan_unlock2 | apply noscan_unlock3 | apply noscan_recycle | apply noscan_count_if
  | apply noscan_bind; [|intros ?]
  | match goal with |- noscan (match ?x with _ => _ end) => destruct x end
  | match goal with |- noscan (if ?x then _ else _) => destruct x end ].

Definition dropL {A} (r : res (A * tree * list N)) : res (A * tree) := rmap fst r.

Lemma dropL_pure {A} L (r : res (A * tree)) : dropL (pure_res L r) = r.
Proof. by destruct r as [[a s]| | |]. Qed.

Lemma dropL_noscan {A} (p : wprog A) s L : noscan p -> dropL (wexec_as p s L) = wexec p s.
Proof. intros H. rewrite noscan_as by done. apply dropL_pure. Qed.

Lemma dropL_bind {A B} (r : res A) (k : A -> res (B * tree * list N)) : dropL (bind r k) = bind r (fun a => dropL (k a)).
Proof. by destruct r. Qed.

Section Body.
Context (s : tree) (n : nat) (L : list N).
Context (Hn : n = length (t_resv s)) (HL : (n + n <= length L)%nat) (Hm : min_reservation s = minl (take n L)).

Lemma upd_agree op fk m v : u_kind op <> nodePrefixMiss -> agree s (w_finalize_update_body n op fk m v) L.
Proof.
  intros Hk. assert (HL1 : (n <= length L)%nat) by lia. unfold w_finalize_update_body. destruct (u_kind op); try done.
  - apply agree_noscan. nosc.
  - apply agree_bind; [by apply agree_allocate|]. intros [x d]. nosc.
  - destruct m; [apply agree_noscan; nosc|]. apply agree_res. intros pl. apply agree_bind; [by apply agree_allocate_prefix|]. intros [x d]. nosc.
  - destruct (_ <? _)%nat.
    + apply agree_bind; [by apply agree_allocate|]. intros [x d]. nosc.
    + apply agree_bind; [by apply agree_allocate_prefix|]. intros [x d]. nosc.
  - apply agree_noscan. nosc.
  - destruct m; [apply agree_noscan; nosc|]. cbv zeta. apply agree_res. intros a. apply agree_res. intros b. apply agree_bind; [by apply agree_allocate_prefix|]. intros [x d]. nosc.
  - destruct m; [apply agree_noscan; nosc|]. cbv zeta. apply agree_res. intros a. apply agree_res. intros b. apply agree_bind; [by apply agree_allocate_prefix|]. intros [x d]. nosc.
Qed.

Lemma del_agree op : agree s (w_finalize_delete_body n op) L.
Proof.
  assert (HL1 : (n <= length L)%nat) by lia. unfold w_finalize_delete_body. destruct (d_kind op).
  - apply agree_noscan. nosc.
  - apply agree_noscan. nosc.
  - apply agree_bind; [by apply agree_allocate|]. intros [x d]. nosc.
  - apply agree_noscan. nosc.
  - apply agree_noscan. nosc.
  - apply agree_bind; [by apply agree_allocate_prefix|]. intros [x d]. nosc.
Qed.

End Body.

(** Results up to the reservations. *)
Definition er {A} (r : res (A * tree)) : res (A * tree) := rmap (fun '(a, s1) => (a, erase s1)) r.

Lemma er_bind {A B} (r : res A) (k : A -> res (B * tree)) : er (bind r k) = bind r (fun a => er (k a)).
Proof. by destruct r. Qed.

Lemma er_dropL {A} (p : wprog A) s s0 L : erase s = erase s0 -> er (dropL (wexec_as p s L)) = er (dropL (wexec_as p s0 L)).
Proof.
  intros H. assert (forall s, er (dropL (wexec_as p s L)) = dropL (wexec_as p (erase s) L)) as E.
  { intros t. rewrite wexec_as_erase. by destruct (wexec_as p t L) as [[[a t1] L1]| | |]. }
  by rewrite !E, H.
Qed.

Lemma er_map {A B} (f : A -> B) a b s1 s2 : er (Ok (a, s1)) = er (Ok (b, s2)) -> er (Ok (f a, s1)) = er (Ok (f b, s2)).
Proof. unfold er. cbn [rmap bind]. intros H. congruence. Qed.

Section Scans.
Context (s : tree) (n : nat) (L : list N) (HL : (n + n <= length L)%nat).
Notation sc := (Some (take n L, take n (drop n L))).

Lemma upd_body_as op fk m v :
  er (dropL (wexec_as (w_finalize_update_body n op fk m v) s L)) = er (finalize_update_body_as sc s op fk m v).
Proof.
  assert (u_kind op = nodePrefixMiss \/ u_kind op <> nodePrefixMiss) as [Hk|Hk] by (destruct (u_kind op); (by left) || by right).
  2:{ assert (Hn : n = length (t_resv (set_resv s (take n L)))) by (cbn [set_resv t_resv]; rewrite take_length; lia).
      destruct (upd_agree (set_resv s (take n L)) n L Hn HL eq_refl op fk m v Hk) as [L' E].
      rewrite (er_dropL _ s (set_resv s (take n L))) by done. rewrite E, dropL_pure.
      rewrite Hn at 1. rewrite w_finalize_update_body_exec.
      transitivity (er (as_if (Some (take n L)) s (fun s => finalize_update_body s op fk m v))).
      2:{ unfold finalize_update_body_as. by destruct (u_kind op). }
      cbn [as_if]. by destruct (finalize_update_body _ _ _ _ _) as [[u s1]| | |]. }
  f_equal. unfold w_finalize_update_body, finalize_update_body_as. rewrite Hk. cbv zeta. cbn [scan1 scan2 fmap option_fmap option_map fst snd].
  rewrite wexec_as_bind, dropL_bind. destruct (key_at (u_key op) _) as [a| | |]; cbn [w_res wexec_as bind]; try done.
  rewrite wexec_as_bind, dropL_bind. destruct (key_at (u_prefix op) _) as [b| | |]; cbn [w_res wexec_as bind]; try done.
  rewrite wexec_as_bind, dropL_bind, w_allocate_prefix_scan by (done || lia).
  destruct (alloc_as _ _ _ _ _) as [[[u d] s1]| | |]; cbn [bind]; try done.
  rewrite wexec_as_bind, dropL_bind. destruct (sl_from _ _) as [src| | |]; cbn [w_res wexec_as bind]; try done.
  rewrite wexec_as_bind, dropL_bind, (noscan_as _ _ _ (noscan_copy _ _ _ _)), w_copy_exec. unfold pure_res.
  destruct (sl_copy _ _ _ _ _) as [m1| | |]; cbn [bind]; try done.
  rewrite wexec_as_bind, dropL_bind, w_allocate_prefix_scan by (rewrite drop_length; lia).
  destruct (alloc_as _ _ _ _ _) as [[[x d2] s2]| | |]; cbn [bind]; try done.
  rewrite dropL_noscan by nosc. unfold w_unlock_uop, unlock_uop. wsolve.
Qed.

Lemma upd_as op fk m v :
  er (dropL (wexec_as (w_finalize_update n op fk m v) s L)) = er (finalize_update_as sc s op fk m v).
Proof.
  pose proof (upd_body_as op fk m v) as H.
  unfold w_finalize_update, finalize_update_as. rewrite wexec_as_bind, dropL_bind, !er_bind.
  destruct (wexec_as _ _ _) as [[[u s1] L1]| | |], (finalize_update_body_as _ _ _ _ _ _) as [[u2 s2]| | |]; try done.
Qed.

Lemma del_as op : er (dropL (wexec_as (w_finalize_delete n op) s L)) = er (finalize_delete_as sc s op).
Proof.
  assert (Hn : n = length (t_resv (set_resv s (take n L)))) by (cbn [set_resv t_resv]; rewrite take_length; lia).
  rewrite (er_dropL _ s (set_resv s (take n L))) by done.
  unfold w_finalize_delete, finalize_delete_as. destruct (del_agree (set_resv s (take n L)) n L Hn HL eq_refl op) as [L' E].
  rewrite wexec_as_bind, dropL_bind, E. rewrite Hn at 1. rewrite w_finalize_delete_body_exec.
  cbn [as_if scan1 fmap option_fmap option_map fst]. by destruct (finalize_delete_body _ _) as [[u s1]| | |].
Qed.

(** A Finalize or Abort run with the values [L] for its scans. *)
Theorem fin_prog_as o c aid hd : o !! aid = Some hd -> fin_client c = Some aid ->
  match c, hd with CFinU _ _ _ _, HU _ _ | CAbortU _, HU _ _ | CFinD _, HD _ _ | CAbortD _, HD _ _ => True | _, _ => False end ->
  er (dropL (wexec_as (fin_prog n hd c) s L)) = er (rmap (fun '(r, y) => (r, sy_tree y)) (api_as sc (Sys s o) c)).
Proof.
  intros Ho Hc Hk. destruct c as [| |a fk m v|a| |a|a| |]; try done; destruct hd as [f op|key op|l b]; try done; injection Hc as ->;
    cbn [fin_prog api_as api sy_open sy_tree]; rewrite Ho; rewrite wexec_as_bind, dropL_bind.
  - pose proof (upd_as op fk m v) as H. destruct (wexec_as _ _ _) as [[[u s1] L1]| | |], (finalize_update_as _ _ _ _ _ _) as [[u2 s2]| | |]; try done; [|by injection H as ->].
    exact (er_map RBool _ _ _ _ H).
  - rewrite noscan_as. 2:{ unfold w_abort_update. apply noscan_bind; [|done]. unfold w_unlock_uop. destruct (u_kind op); nosc. }
    rewrite abort_update_exec. by destruct (abort_update s op).
  - pose proof (del_as op) as H. destruct (wexec_as _ _ _) as [[[u s1] L1]| | |], (finalize_delete_as _ _ _) as [[u2 s2]| | |]; try done; [|by injection H as ->].
    exact (er_map RBool _ _ _ _ H).
  - rewrite noscan_as. 2:{ unfold w_abort_delete. apply noscan_bind; [|done]. unfold w_unlock_dop. destruct (d_kind op); nosc. }
    rewrite abort_delete_exec. by destruct (abort_delete s op).
Qed.
End Scans.
