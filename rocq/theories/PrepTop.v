(** * PrepTop: whole API calls: Prepare (with root cases and reservations), Finalize, Abort. *)
From Verif Require Export FinD.

(** Operations on an empty or leaf root hold the root lock instead of node locks. *)
Definition u_isroot (k : ukind) : bool :=
  match k with replaceEmptyRootWithLeaf | replaceLeafRootWithNode | rootLeafUpdate => true | _ => false end.
Definition d_isroot (k : dkind) : bool := match k with deleteRoot => true | _ => false end.

Definition ulids (op : uop) : list N := if u_isroot (u_kind op) then [] else lids2 (u_node op) (u_parent op).

Section PrepTop.
Context (K : list N -> Prop) (fetch : N -> list N) (HK : universe K).
Local Notation core := (core K fetch).
Local Notation wf := (wf K fetch).

Lemma lock_leaf_root_spec s : lock_leaf_root s (t_root s) =
  if t_rootLock s =? 0 then Some (set_rootLock s 1) else None.
Proof. unfold lock_leaf_root. by rewrite N.eqb_refl. Qed.

Definition pu_top (s : tree) (T : option trie) (held : list N) (aid : nat) (key : list N) (R : res (bool * uop * tree)) : Prop :=
  match R with
  | Retry => t_rootLock s <> 0 \/ exists i, i ∈ held
  | Ok (found, op, s1) =>
    found = is_found (u_kind op) /\ u_alloc op = aid /\ u_key op = key /\ found_ok T key found (u_value op) /\
    ((u_isroot (u_kind op) = true /\ uroot K key op T /\ t_rootLock s = 0 /\ s1 = set_rootLock (start_op s aid) 1) \/
     (u_isroot (u_kind op) = false /\ (exists l', s1 = set_locks (start_op s aid) l' /\ locks_inv l' (ulids op ++ held)) /\
       exists t o, T = Some t /\ occr t o /\ uvalid K fetch false key op o))
  | _ => False
  end.

Lemma uvalid_noroot dirty key op o : uvalid K fetch dirty key op o -> u_isroot (u_kind op) = false.
Proof. intros [_ H]. unfold ukind_ok in H. by destruct (u_kind op). Qed.

Lemma prepare_update_ok s T held aid key : core s T -> K key -> locks_inv (t_locks s) held ->
  pu_top s T held aid key (prepare_update s aid key).
Proof.
  intros Hc Hk Hl. unfold prepare_update.
  pose proof (uv_nonempty K HK _ Hk) as Hne. destruct key as [|c key]; [done|].
  assert (Hc1 : core (start_op s aid) T) by (by apply (core_ext K fetch s)).
  set (s0 := start_op s aid) in *. assert (El : t_locks s0 = t_locks s) by done. assert (Erl : t_rootLock s0 = t_rootLock s) by done.
  change (key_at (c :: key) 0) with (@Ok N c). cbv zeta.
  destruct T as [[k v|full a pfx cs]|].
  - destruct (root_word_leaf _ _ HK _ _ _ Hc1) as (H0 & Hlf & Hv & HKk & Hf & Hvl & b & k' & Ek & Hb & Hrw & Hby).
    rewrite (proj2 (N.eqb_neq _ _)) by done. rewrite Hlf. rewrite lock_leaf_root_spec, Erl.
    destruct (N.eqb_spec (t_rootLock s) 0) as [E0|E0]; [|simpl; by left]. cbn [bind].
    rewrite Hby. destruct (N.eqb_spec b c) as [->|Hbc].
    + unfold pu_top. cbn [u_kind root_op u_alloc u_key u_value]. do 3 (split; [done|]). split.
      * rewrite Hv. split.
        -- exists k, [c]. subst k. split_and!; [by apply elem_of_list_singleton|done|by exists k'|by exists key].
        -- intros w Hin. apply elem_of_list_singleton in Hin. injection Hin as Hin1 Hin2. first [done|congruence].
      * left. split; [done|]. split; [|done]. unfold uroot. cbn [u_kind root_op u_alloc u_key u_value u_k u_currentLeaf]. do 3 (split; [done|]).
        exists k. rewrite Hv. split_and!; [done|by rewrite Ek|done].
    + unfold pu_top. cbn [u_kind root_op u_alloc u_key u_value]. do 3 (split; [done|]). split.
      * split; [done|]. intros w Hin. apply elem_of_list_singleton in Hin. injection Hin as Hin1 Hin2. first [done|congruence].
      * left. split; [done|]. split; [|done]. unfold uroot. cbn [u_kind root_op u_alloc u_key u_value u_k u_currentLeaf]. do 3 (split; [done|]).
        exists k, v, b. split_and!; [done|done|by rewrite Ek|done].
  - pose proof (hole_enc _ _ s0 [] (Node full a pfx cs) Hc1 eq_refl) as (_ & Hlf & H0).
    pose proof (co_root _ _ _ _ Hc1) as Hr. change (enc_root (Some (Node full a pfx cs))) with (hole_word [] (Node full a pfx cs)) in Hr.
    rewrite Hr. rewrite (proj2 (N.eqb_neq _ _)) by done. rewrite Hlf.
    pose proof (pu_loop_ok K fetch HK s0 (Node full a pfx cs) held aid (c :: key) Hc1 Hk ltac:(by rewrite El)
      (S (length (c :: key))) [] full a pfx cs 0 eq_refl) as H.
    simpl path_of in H. specialize (H ltac:(apply prefix_nil) ltac:(simpl; lia) ltac:(done)).
    change (ptr_of []) with PRoot in H. change (par_of []) with 0 in H. change (length (@nil N)) with 0%nat in H.
    set (R := pu_loop _ _ _ _ _ _ _ _ _) in *. destruct R as [[[found op] s1]| | |]; try done.
    + destruct H as (H1 & H2 & (l' & H3 & H4) & (o & H5 & H6) & H7). unfold pu_top.
      pose proof (uvalid_noroot _ _ _ _ H6) as Hnr. do 2 (split; [done|]). split; [|split; [done|]].
      * destruct H6 as [[] _]. done.
      * right. split; [done|]. unfold ulids. rewrite Hnr. split; [by exists l'|]. by exists (Node full a pfx cs), o.
    + destruct H as (o & i & _ & _ & H). right. by exists i.
  - assert (Hr : t_root s0 = 0) by exact (co_root _ _ _ _ Hc1). rewrite Hr. rewrite N.eqb_refl. rewrite <- Hr at 1; rewrite lock_leaf_root_spec, Erl.
    destruct (N.eqb_spec (t_rootLock s) 0) as [E0|E0]; [|simpl; by left]. cbn [bind].
    unfold pu_top. cbn [u_kind root_op u_alloc u_key u_value]. do 3 (split; [done|]). split.
    + split; [done|]. by intros w ?%elem_of_nil.
    + by left.
Qed.

Definition pd_top (s : tree) (T : option trie) (held : list N) (aid : nat) (key : list N) (R : res (option dop * tree)) : Prop :=
  match R with
  | Retry => t_rootLock s <> 0 \/ exists i, i ∈ held
  | Ok (None, s1) => s1 = end_op (start_op s aid) aid /\ forall w, (key, w) ∉ ocontents T
  | Ok (Some op, s1) =>
    d_alloc op = aid /\ (exists k, (k, d_value op) ∈ ocontents T) /\ (forall w, (key, w) ∈ ocontents T -> d_value op = w) /\
    ((d_isroot (d_kind op) = true /\ droot fetch op T /\ t_rootLock s = 0 /\ s1 = set_rootLock (start_op s aid) 1) \/
     (d_isroot (d_kind op) = false /\ (exists l', s1 = set_locks (start_op s aid) l' /\ locks_inv l' (dlids op ++ held)) /\
       exists t o, T = Some t /\ occr t o /\ dvalid fetch false key op o))
  | _ => False
  end.

Lemma dvalid_noroot dirty key op o : dvalid fetch dirty key op o -> d_isroot (d_kind op) = false.
Proof. intros [_ H]. unfold dkind_ok in H. by destruct (d_kind op). Qed.

Lemma prepare_delete_ok s T held aid key : core s T -> bytes key -> key <> [] -> locks_inv (t_locks s) held ->
  pd_top s T held aid key (prepare_delete s aid key).
Proof.
  intros Hc Hbk Hne Hl. unfold prepare_delete, prepare_delete_raw.
  assert (Hc1 : core (start_op s aid) T) by (by apply (core_ext K fetch s)).
  set (s0 := start_op s aid) in *. assert (El : t_locks s0 = t_locks s) by done. assert (Erl : t_rootLock s0 = t_rootLock s) by done.
  cbv zeta. destruct T as [[k v|full a pfx cs]|].
  - destruct (root_word_leaf _ _ HK _ _ _ Hc1) as (H0 & Hlf & Hv & HKk & Hf & Hvl & b & k' & Ek & Hb & Hrw & Hby).
    rewrite (proj2 (N.eqb_neq _ _)) by done. rewrite Hlf. destruct key as [|c key]; [done|].
    change (key_at (c :: key) 0) with (@Ok N c). cbn [bind]. rewrite Hby.
    destruct (N.eqb_spec b c) as [->|Hbc].
    + rewrite lock_leaf_root_spec, Erl.
      destruct (N.eqb_spec (t_rootLock s) 0) as [E0|E0]; [|simpl; by left]. cbn [bind]. unfold pd_top. cbn [d_alloc d_value d_kind].
      rewrite Hv. split_and!; [done|exists k; by apply elem_of_list_singleton| |].
      * intros w Hin. apply elem_of_list_singleton in Hin. injection Hin as Hin1 Hin2. first [done|congruence].
      * left. split; [done|]. split; [|done]. unfold droot. cbn [d_kind d_value]. split_and!; [done..|]. by rewrite Hf.
    + cbn [bind]. unfold pd_top. split; [done|]. intros w Hin. apply elem_of_list_singleton in Hin. injection Hin as Hin1 Hin2. first [done|congruence].
  - pose proof (hole_enc _ _ s0 [] (Node full a pfx cs) Hc1 eq_refl) as (_ & Hlf & H0).
    pose proof (co_root _ _ _ _ Hc1) as Hr. change (enc_root (Some (Node full a pfx cs))) with (hole_word [] (Node full a pfx cs)) in Hr.
    rewrite Hr. rewrite (proj2 (N.eqb_neq _ _)) by done. rewrite Hlf.
    pose proof (pd_loop_ok K fetch s0 (Node full a pfx cs) held aid key Hc1 Hbk Hne ltac:(by rewrite El)
      (S (length key)) [] full a pfx cs 0 eq_refl) as H.
    simpl path_of in H. specialize (H ltac:(intros; apply prefix_nil) ltac:(simpl; lia) ltac:(done)).
    change (ptr_of []) with PRoot in H. change (par_of []) with 0 in H. change (length (@nil N)) with 0%nat in H.
    rewrite Hr in H. set (R := pd_loop _ _ _ _ _ _ _ _ _ _) in *. destruct R as [[[op|] s1]| | |]; try done.
    + destruct H as (H2 & (l' & H3 & H4) & (o & H5 & H6) & H7 & H8). cbn [bind]. unfold pd_top.
      pose proof (dvalid_noroot _ _ _ _ H6) as Hnr. do 3 (split; [done|]).
      right. split; [done|]. split; [by exists l'|]. by exists (Node full a pfx cs), o.
    + destruct H as [-> H]. cbn [bind]. done.
    + cbn [bind]. destruct H as (i & H). right. by exists i.
  - assert (Hr : t_root s0 = 0) by exact (co_root _ _ _ _ Hc1). rewrite Hr. rewrite N.eqb_refl. cbn [bind]. split; [done|].
    by intros w ?%elem_of_nil.
Qed.
End PrepTop.
