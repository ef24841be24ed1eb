(** * StepExamples: histories that meet the hypotheses of PropsSteps.v. *)
From Verif Require Export StepProg ProgExamples StepWitness.

(** Two operations on nodes at depth 3 are open. *)
Definition parked2 : list wsched :=
  wputs f4 0 [0; 1; 65536; 16777216; 16777217; 16842752] ++
  [XCall (APut 0 (f4 3)); XDone 0; XCall (APut 1 (f4 16777218)); XDone 1].

Lemma ex_parked : exists tr x h0 h1, wruns (fixed 4) f4 child_known 3 tr x /\ parked x 0 h0 /\ parked x 1 h1 /\ holds h0 4 /\ holds h0 10 /\ holds h1 17 /\ holds h1 20.
Proof.
  destruct (wafter_runs 4 f4 parked2 (fun tr x => no_delete_abortb tr &&
    match ws_fin x !! 0%nat, ws_fin x !! 1%nat, sy_open (fs_sys (ws_f x)) !! 0%nat, sy_open (fs_sys (ws_f x)) !! 1%nat with
    | None, None, Some (HU _ op0), Some (HU _ op1) =>
      negb (u_isroot (u_kind op0)) && negb (u_isroot (u_kind op1)) && (u_node op0 =? 4) && (u_parent op0 =? 10) && (u_node op1 =? 17) && (u_parent op1 =? 20)
    | _, _, _, _ => false
    end)) as (tr & x & Hr & H); [by vm_compute|].
  apply andb_prop in H as [H1 H2]. destruct (ws_fin x !! 0%nat) eqn:E0; [done|]. destruct (ws_fin x !! 1%nat) eqn:E1; [done|].
  destruct (sy_open _ !! 0%nat) as [[f0 op0| |]|] eqn:O0; try done. destruct (sy_open _ !! 1%nat) as [[f1 op1| |]|] eqn:O1; try done.
  repeat (apply andb_prop in H2 as [H2 ?]). repeat match goal with H : (_ =? _) = true |- _ => apply N.eqb_eq in H end.
  repeat match goal with H : negb _ = true |- _ => apply negb_true_iff in H end.
  exists tr, x, (HU f0 op0), (HU f1 op1). split; [by apply no_delete_abort|]. unfold parked, holds. split_and!; try done; first [by left|by right].
Qed.

(** One of them is finalized as far as its first unlock. *)
Lemma ex_unlock : exists tr x c i k, wruns (fixed 4) f4 child_known 3 tr x /\ ws_fin x !! 0%nat = Some (c, WDo (WUnlock i) k).
Proof.
  destruct (wafter_runs 4 f4 (parked2 ++ [XCall (APutF 0 3); XSteps 13 0])
    (fun tr x => no_delete_abortb tr && match ws_fin x !! 0%nat with Some (_, WDo (WUnlock _) _) => true | _ => false end))
    as (tr & x & Hr & H); [by vm_compute|].
  apply andb_prop in H as [H1 H2]. destruct (ws_fin x !! 0%nat) as [[c [|?|[] k]]|] eqn:E; try done. exists tr, x. do 3 eexists. split; [by apply no_delete_abort|done].
Qed.

(** Both are finalized at the same time; then one key is deleted and one replaced. *)
Lemma ex_quiet : exists tr x, wruns (fixed 4) f4 child_known 3 tr x /\ idle x /\ (tally tr).2 = 7%Z.
Proof.
  destruct (wafter_runs 4 f4 (parked2 ++ [XCall (APutF 0 3); XSteps 13 0; XCall (APutF 1 16777218); XSteps 5 1; XSteps 3 0; XDone 1; XDone 0] ++
    wdel 2 (f4 65536) ++ wput f4 1 0)
    (fun tr x => no_delete_abortb tr && idleb x && (Z.eqb (tally tr).2 7))) as (tr & x & Hr & H); [by vm_compute|].
  apply andb_prop in H as [H H3]. apply andb_prop in H as [H1 H2]. exists tr, x. split; [by apply no_delete_abort|]. split; [by apply idleb_ok|by apply Z.eqb_eq].
Qed.

(** Client 1 is in the middle of Finalize, client 0 in the middle of Lookup and client 2 in the middle of PrepareUpdate. *)
Definition amid : list wsched :=
  wputs f4 0 [0; 1; 65536; 16777216; 16777217; 16842752] ++
  [XCall (APut 1 (f4 3)); XDone 1; XCall (APutF 1 3); XSteps 6 1; XCall (AFind 0 (f4 1)); XSteps 7 0; XCall (APut 2 (f4 16777218)); XSteps 20 2;
   XSteps 3 1; XSteps 1 0].

Definition look0 (e : wevent) : bool := match e with WF (EResv (CLookup a k)) => bool_decide (a = 0%nat /\ k = f4 1) | _ => false end.
Definition upd2 (e : wevent) : bool := match e with WF (EResv (CPrepU a k)) => bool_decide (a = 2%nat /\ k = f4 16777218) | _ => false end.
Definition fin3 (e : wevent) : bool := match e with WBegin (CFinU a _ _ v) => bool_decide (a = 1%nat /\ v = 3) | _ => false end.
Definition no_wborder (aid : nat) (e : wevent) : bool := match e with WF e => no_border aid e | _ => true end.
Lemma no_wborder_ok aid e : no_wborder aid e = true -> ~ wborders aid e.
Proof. destruct e; [apply no_border_ok|by intros _ ?..]. Qed.
Definition no_wend (aid : nat) (e : wevent) : bool := match e with WF e => no_end aid e | _ => true end.
Lemma no_wend_ok aid e : no_wend aid e = true -> ~ wends aid e.
Proof. destruct e; [apply no_end_ok|by intros _ ?..]. Qed.
Definition no_wreturn (aid : nat) (e : wevent) : bool := match e with WReturn a _ _ => negb (a =? aid)%nat | _ => true end.
Lemma no_wreturn_ok aid e : no_wreturn aid e = true -> ~ wreturns aid e.
Proof. destruct e; simpl; intros H; try (by intros ?). intros ->. by rewrite Nat.eqb_refl in H. Qed.

Lemma ex_amid : exists tr x, wruns (fixed 4) f4 any 3 tr x /\
  (match cut look0 tr with Some (_, _, tr2) => forallb (no_wborder 0) tr2 && (wnacts 0 tr2 =? 7) && (fnacts 1 tr2 =? 3) | None => false end = true /\
   match cut upd2 tr with Some (_, _, tr2) => forallb (no_wend 2) tr2 && (wnacts 2 tr2 =? 19) && (fnacts 1 tr2 =? 3) | None => false end = true /\
   match cut fin3 tr with Some (_, _, tr2) => forallb (no_wreturn 1) tr2 && (fnacts 1 tr2 =? 9) && (wnacts 0 tr2 =? 7) | None => false end = true).
Proof.
  destruct (wafter_runs 4 f4 amid (fun tr x =>
    match cut look0 tr with Some (_, _, tr2) => forallb (no_wborder 0) tr2 && (wnacts 0 tr2 =? 7) && (fnacts 1 tr2 =? 3) | None => false end &&
    match cut upd2 tr with Some (_, _, tr2) => forallb (no_wend 2) tr2 && (wnacts 2 tr2 =? 19) && (fnacts 1 tr2 =? 3) | None => false end &&
    match cut fin3 tr with Some (_, _, tr2) => forallb (no_wreturn 1) tr2 && (fnacts 1 tr2 =? 9) && (wnacts 0 tr2 =? 7) | None => false end))
    as (tr & x & Hr & H); [by vm_compute|].
  apply andb_prop in H as [H H3]. apply andb_prop in H as [H1 H2]. by exists tr, x.
Qed.

Lemma ex_wlook : exists tr1 tr2 x, wruns (fixed 4) f4 any 3 (tr1 ++ WF (EResv (CLookup 0 (f4 1))) :: tr2) x /\
  Forall (fun e => ~ wborders 0 e) tr2 /\ wnacts 0 tr2 = 7 /\ fnacts 1 tr2 = 3.
Proof.
  destruct ex_amid as (tr & x & Hr & H & _). destruct (cut look0 tr) as [[[tr1 e] tr2]|] eqn:E; [|done]. apply cut_ok in E as [-> E].
  destruct e as [[| |c| | |]| | |]; try done. destruct c; try done. apply bool_decide_eq_true in E as [-> ->].
  apply andb_prop in H as [H H3]. apply andb_prop in H as [H1 H2]. exists tr1, tr2, x. split_and!; [done| |by apply N.eqb_eq|by apply N.eqb_eq].
  eapply forallb_Forall; [|exact H1]. apply no_wborder_ok.
Qed.

Lemma ex_wupd : exists tr1 tr2 x, wruns (fixed 4) f4 any 3 (tr1 ++ WF (EResv (CPrepU 2 (f4 16777218))) :: tr2) x /\
  Forall (fun e => ~ wends 2 e) tr2 /\ wnacts 2 tr2 = 19 /\ fnacts 1 tr2 = 3.
Proof.
  destruct ex_amid as (tr & x & Hr & _ & H & _). destruct (cut upd2 tr) as [[[tr1 e] tr2]|] eqn:E; [|done]. apply cut_ok in E as [-> E].
  destruct e as [[| |c| | |]| | |]; try done. destruct c; try done. apply bool_decide_eq_true in E as [-> ->].
  apply andb_prop in H as [H H3]. apply andb_prop in H as [H1 H2]. exists tr1, tr2, x. split_and!; [done| |by apply N.eqb_eq|by apply N.eqb_eq].
  eapply forallb_Forall; [|exact H1]. apply no_wend_ok.
Qed.

Lemma ex_wfin : exists tr1 fk m tr2 x, wruns (fixed 4) f4 any 3 (tr1 ++ WBegin (CFinU 1 fk m 3) :: tr2) x /\
  Forall (fun e => ~ wreturns 1 e) tr2 /\ fnacts 1 tr2 = 9 /\ wnacts 0 tr2 = 7.
Proof.
  destruct ex_amid as (tr & x & Hr & _ & _ & H). destruct (cut fin3 tr) as [[[tr1 e] tr2]|] eqn:E; [|done]. apply cut_ok in E as [-> E].
  destruct e as [|c| |]; try done. destruct c as [| |aid fk m v| | | | | |]; try done. apply bool_decide_eq_true in E as [-> ->].
  apply andb_prop in H as [H H3]. apply andb_prop in H as [H1 H2]. exists tr1, fk, m, tr2, x. split_and!; [done| |by apply N.eqb_eq|by apply N.eqb_eq].
  eapply forallb_Forall; [|exact H1]. apply no_wreturn_ok.
Qed.

Lemma ex_wmid : exists tr x, wruns (fixed 4) f4 any 3 tr x /\
  (exists p, fs_jobs (ws_f x) !! 0%nat = Some (Running (CLookup 0 (f4 1)) p)) /\ (exists q, ws_fin x !! 1%nat = Some q).
Proof.
  destruct (wafter_runs 4 f4 amid (fun tr x =>
    match fs_jobs (ws_f x) !! 0%nat, ws_fin x !! 1%nat with Some (Running (CLookup a k) _), Some _ => bool_decide (a = 0%nat /\ k = f4 1) | _, _ => false end))
    as (tr & x & Hr & H); [by vm_compute|].
  exists tr, x. destruct (fs_jobs (ws_f x) !! 0%nat) as [[|c p]|]; try done. destruct c; try done. destruct (ws_fin x !! 1%nat) as [q|]; [|done].
  apply bool_decide_eq_true in H as [-> ->]. split_and!; eauto.
Qed.
