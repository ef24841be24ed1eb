(** * ProgExamples: histories that meet the hypotheses of PropsProg.v. *)
From Verif Require Export FineExamples FineProg.

Definition no_end (aid : nat) (e : event) : bool :=
  match e with EAgain a | EReturn a _ _ => negb (a =? aid)%nat | _ => true end.
Lemma no_end_ok aid e : no_end aid e = true -> ~ ends aid e.
Proof. destruct e; simpl; intros H; try (by intros ?); intros ->; by rewrite Nat.eqb_refl in H. Qed.

Lemma forallb_Forall {A} (f : A -> bool) (P : A -> Prop) l : (forall a, f a = true -> P a) -> forallb f l = true -> Forall P l.
Proof. intros H Hf. apply Forall_forall. intros a Ha. rewrite forallb_forall in Hf. apply H, Hf. by apply elem_of_list_In. Qed.
Lemma existsb_Exists {A} (f : A -> bool) (l : list A) : existsb f l = true -> Exists (fun a => f a = true) l.
Proof. intros (a & Ha & E)%existsb_exists. apply Exists_exists. exists a. by rewrite elem_of_list_In. Qed.

(** Client 1 stores key 1 anew while client 0 is in the middle of Lookup. *)
Lemma ex_waitfree : exists tr1 tr2 x, freachable (fixed 3) f3 2 (tr1 ++ EResv (CLookup 0 (f3 1)) :: tr2) x /\
  Forall (fun e => ~ borders 0 e) tr2 /\ Exists (fun e => eacked e = true) tr2 /\ nacts 0 tr2 = 6.
Proof.
  destruct (fafter2_reach 3 f3 (eight ++ [SCall (AFind 0 (f3 1)); SSteps 1 0]) ([SSteps 4 0] ++ fput f3 1 16777217 ++ [SSteps 2 0]) (fun tr1 tr2 x =>
    match last tr1 with Some (EResv (CLookup b k)) => bool_decide (b = 0%nat /\ k = f3 1) | _ => false end &&
    forallb (no_border 0) tr2 && existsb eacked tr2 && (nacts 0 tr2 =? 6))) as (tr1 & tr2 & x & Hr & H); [lia|by vm_compute|].
  apply andb_prop in H as [H H4]. apply andb_prop in H as [H H3]. apply andb_prop in H as [H1 H2].
  pose proof (snoc_last tr1) as Hl. destruct (last tr1) as [[| |[b k| | | | | | | |]| | |]|]; try done.
  apply bool_decide_eq_true in H1 as (-> & ->). destruct Hl as [tr0 ->]. rewrite <- app_assoc in Hr.
  exists tr0, tr2, x. split_and!; [done| | |by apply N.eqb_eq].
  - eapply forallb_Forall; [|exact H2]. apply no_border_ok.
  - by apply existsb_Exists.
Qed.

(** Client 0 holds the lock of a node and client 1 starts again. *)
Lemma ex_again : exists tr1 tr2 x, freachable (fixed 3) f3 2 (tr1 ++ EResv (CPrepU 1 (f3 4)) :: tr2 ++ [EAgain 1]) x /\
  Forall (fun e => ~ ends 1 e) tr2 /\ nacts 1 tr2 = 22.
Proof.
  destruct (fafter2_reach 3 f3 (eight ++ [SCall (APut 0 (f3 1)); SDone 0; SCall (APut 1 (f3 4)); SSteps 1 1]) [SSteps 23 1] (fun tr1 tr2 x =>
    match last tr1 with Some (EResv (CPrepU b k)) => bool_decide (b = 1%nat /\ k = f3 4) | _ => false end &&
    match last tr2 with Some (EAgain b) => (b =? 1)%nat | _ => false end && forallb (no_end 1) (removelast tr2) && (nacts 1 (removelast tr2) =? 22)))
    as (tr1 & tr2 & x & Hr & H); [lia|by vm_compute|].
  apply andb_prop in H as [H H4]. apply andb_prop in H as [H H3]. apply andb_prop in H as [H1 H2].
  pose proof (snoc_last tr1) as Hl. destruct (last tr1) as [[| |[|b k| | | | | | |]| | |]|]; try done.
  apply bool_decide_eq_true in H1 as (-> & ->). destruct Hl as [tr0 ->].
  pose proof (snoc_last tr2) as Hl. destruct (last tr2) as [[| | | |b|]|]; try done. apply Nat.eqb_eq in H2 as ->. destruct Hl as [tr3 ->].
  rewrite removelast_last in *. rewrite <- app_assoc in Hr. exists tr0, tr3, x. split_and!; [done| |by apply N.eqb_eq].
  eapply forallb_Forall; [|exact H3]. apply no_end_ok.
Qed.

(** Client 0 is in the middle of PrepareUpdate and has read data that client 1 has replaced since. *)
Lemma ex_alone : exists tr x p, freachable (fixed 3) f3 2 tr x /\ fs_jobs x !! 0%nat = Some (Running (CPrepU 0 (f3 4)) p) /\
  (forall j, j <> 0%nat -> ~ holds_lock (fs_sys x) j) /\ (exists q, fs_jobs x !! 1%nat = Some (Running (CLookup 1 (f3 2)) q)) /\
  forall i, ~ locked (fs_sys x) i.
Proof.
  destruct (fafter_reach 3 f3 (eight ++ [SCall (APut 0 (f3 4)); SSteps 20 0] ++ fput f3 1 5 ++ [SCall (AFind 1 (f3 2)); SSteps 5 1]) (fun tr x =>
    match fs_jobs x !! 0%nat, fs_jobs x !! 1%nat with
    | Some (Running (CPrepU a k) _), Some (Running (CLookup b k') _) => bool_decide (a = 0%nat /\ k = f3 4 /\ b = 1%nat /\ k' = f3 2)
    | _, _ => false
    end && forallb (fun q => match olids q.2, oroot q.2 with [], false => true | _, _ => false end) (map_to_list (sy_open (fs_sys x)))))
    as (tr & x & Hr & H); [lia|by vm_compute|].
  apply andb_prop in H as [H1 H2].
  destruct (fs_jobs x !! 0%nat) as [[|[| | | | | | | |] p0]|] eqn:E0; try done. destruct (fs_jobs x !! 1%nat) as [[|[| | | | | | | |] p1]|] eqn:E1; try done.
  apply bool_decide_eq_true in H1 as (-> & -> & -> & ->). exists tr, x, p0.
  assert (Hfree : forall j hd, sy_open (fs_sys x) !! j = Some hd -> olids hd = [] /\ oroot hd = false).
  { intros j hd Ho. rewrite forallb_forall in H2. specialize (H2 (j, hd)). simpl in H2. 
    assert (Hin : In (j, hd) (map_to_list (sy_open (fs_sys x)))) by (by apply elem_of_list_In, elem_of_map_to_list).
    specialize (H2 Hin). destruct (olids hd), (oroot hd); done. }
  split_and!; try done; eauto.
  - intros j _ (hd & Ho & Hl). destruct (Hfree _ _ Ho) as [F1 F2]. rewrite F1, F2 in Hl. by destruct Hl.
  - intros i Hi. destruct (freach_inv _ _ _ _ _ Hr) as (T & lost & Hinv).
    apply (li_odd _ _ (iv_locks _ _ _ _ _ _ _ Hinv)) in Hi. apply held_by in Hi as (j & hd & Ho & Hin). destruct (Hfree _ _ Ho) as [F1 _].
    rewrite F1 in Hin. by apply elem_of_nil in Hin.
Qed.
