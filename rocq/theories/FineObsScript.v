(** * FineObsScript: running interrupted iterations and counts on the model.  As FineScript.v. *)
From Verif Require Export FineExamples FineObsOthers.

Inductive osched :=
| TCall (a : Script.act)            (* as SCall *)
| TObs (aid : nat) (c : ocall)      (* Next or Count begins *)
| TSteps (n : nat) (aid : nat)      (* n steps of the call of a client *)
| TDone (aid : nat).                (* all remaining steps of its call *)

Section ObsScript.
Context (Kb : list N -> bool) (fetch : N -> list N) (Pb : sys -> bool) (P : sys -> Prop) (HP' : forall y, Pb y = true -> P y).
Let K k := Kb k = true.

Definition beginb (obs : gmap nat ojob) (e : event) : bool :=
  match e with
  | EBegin c => match job_of c with Some aid => match obs !! aid with None => true | Some _ => false end | None => true end
  | ECall (CRestart _ _ _) _ => false
  | _ => true
  end.

Definition lift (x : osys) (r : option (event * fsys)) : option (oevent * osys) :=
  match r with Some (e, f) => if beginb (os_obs x) e then Some (OF e, OSys f (os_obs x)) else None | None => None end.

Lemma lift_ok x r e x' : (forall e f, r = Some (e, f) -> fstep K fetch (os_f x) e f) -> lift x r = Some (e, x') -> ostep K fetch x e x'.
Proof.
  intros Hr. unfold lift. destruct r as [[e0 f]|]; [|done]. destruct (beginb (os_obs x) e0) eqn:Eb; [|done]. intros [= <- <-].
  destruct x as [f0 obs]. cbn [os_obs] in *. apply os_other; [by apply Hr| |].
  - intros aid Hb. destruct e0; try done. simpl in Hb, Eb. rewrite Hb in Eb. by destruct (obs !! aid).
  - intros Hre. destruct e0 as [c| | | | |]; try done. by destruct c.
Qed.

Definition ogo_begin (x : osys) (aid : nat) (c : ocall) : option (oevent * osys) :=
  match sy_open (os_sys x) !! aid, fs_jobs (os_f x) !! aid, os_obs x !! aid with
  | None, None, None =>
    if (aid <? naids (os_sys x))%nat && bytesb (oprefix c) && bytesb (oresume c)
    then Some (OBegin aid c, OSys (os_f x) (<[aid := OWaiting c (t_epoch (sy_tree (os_sys x)))]> (os_obs x)))
    else None
  | _, _, _ => None
  end.

Definition ogo_step (x : osys) (aid : nat) : option (oevent * osys) :=
  let '(OSys (FSys y jobs) obs) := x in
  match obs !! aid with
  | Some (OWaiting c e) =>
    Some (OResv aid c, OSys (FSys (Sys (set_resv (sy_tree y) (<[aid := e]> (t_resv (sy_tree y)))) (<[aid := HP [] false]> (sy_open y))) jobs)
                            (<[aid := ORunning c (oprogram c)]> obs))
  | Some (ORunning c (Act a k)) =>
    match do_act (sy_tree y) a with
    | Ok (v, s') => Some (OAct aid a, OSys (FSys (Sys s' (sy_open y)) jobs) (<[aid := ORunning c (k v)]> obs))
    | _ => None
    end
  | Some (ORunning c (Ret r)) => Some (OReturn aid c r, OSys (FSys (Sys (end_op (sy_tree y) aid) (delete aid (sy_open y))) jobs) (delete aid obs))
  | Some _ => None
  | None => lift x (go_step (os_f x) aid)
  end.

Lemma ogo_begin_ok x aid c e x' : ogo_begin x aid c = Some (e, x') -> ostep K fetch x e x'.
Proof.
  unfold ogo_begin. destruct x as [f obs]. cbn [os_f os_obs]. destruct (sy_open _ !! aid) eqn:E1; [done|]. destruct (fs_jobs f !! aid) eqn:E2; [done|].
  destruct (obs !! aid) eqn:E3; [done|]. destruct (_ && _) eqn:E; [|done]. intros [= <- <-]. apply andb_prop in E as [E E5]. apply andb_prop in E as [E E4].
  apply Nat.ltb_lt in E. by apply os_begin; try done; apply bytesb_ok.
Qed.

Lemma ogo_step_ok x aid e x' : ogo_step x aid = Some (e, x') -> ostep K fetch x e x'.
Proof.
  unfold ogo_step. destruct x as [[y jobs] obs]. destruct (obs !! aid) as [[c e0|c [r|w|a k]]|] eqn:E; try done.
  - intros [= <- <-]. by apply os_resv.
  - intros [= <- <-]. by apply os_return.
  - destruct (do_act (sy_tree y) a) as [[v s']| | |] eqn:Ed; try done. intros [= <- <-]. by eapply (os_act K fetch (FSys y jobs)).
  - apply lift_ok. intros e0 f. apply go_step_ok.
Qed.

Definition othen (r : option (oevent * osys)) (k : osys -> option (list oevent * osys)) : option (list oevent * osys) :=
  match r with
  | Some (e, x1) => if Pb (os_sys x1) then match k x1 with Some (tr, x2) => Some (e :: tr, x2) | None => None end else None
  | None => None
  end.

Definition idle (x : osys) (aid : nat) : bool := match fs_jobs (os_f x) !! aid, os_obs x !! aid with None, None => true | _, _ => false end.

Fixpoint ogo_steps (fuel : nat) (stop : bool) (aid : nat) (x : osys) : option (list oevent * osys) :=
  if stop && idle x aid then Some ([], x) else
  match fuel with
  | O => if stop then None else Some ([], x)
  | S fuel' => othen (ogo_step x aid) (ogo_steps fuel' stop aid)
  end.

Definition ogo_sched (x : osys) (a : osched) : option (list oevent * osys) :=
  match a with
  | TCall a => othen (lift x (go_call Kb fetch (os_f x) a)) (fun x1 => Some ([], x1))
  | TObs aid c => othen (ogo_begin x aid c) (fun x1 => Some ([], x1))
  | TSteps n aid => ogo_steps n false aid x
  | TDone aid => ogo_steps 2000 true aid x
  end.

Fixpoint oplay (x : osys) (l : list osched) : option (list oevent * osys) :=
  match l with
  | [] => Some ([], x)
  | a :: l' =>
    match ogo_sched x a with
    | Some (tr, x1) => match oplay x1 l' with Some (tr', x2) => Some (tr ++ tr', x2) | None => None end
    | None => None
    end
  end.

Lemma othen_runs n tr x r k tr' x' : oruns K fetch P n tr x -> (forall e x1, r = Some (e, x1) -> ostep K fetch x e x1) ->
  (forall x1 tr0 tr1 x2, oruns K fetch P n tr0 x1 -> k x1 = Some (tr1, x2) -> oruns K fetch P n (tr0 ++ tr1) x2) ->
  othen r k = Some (tr', x') -> oruns K fetch P n (tr ++ tr') x'.
Proof.
  intros Hr H1 H2. unfold othen. destruct r as [[e x1]|]; [|done]. destruct (Pb (os_sys x1)) eqn:EP; [|done].
  destruct (k x1) as [[tr1 x2]|] eqn:Ek; [|done]. intros [= <- <-].
  replace (tr ++ e :: tr1) with ((tr ++ [e]) ++ tr1) by (by rewrite <- app_assoc).
  eapply H2; [|done]. eapply oruns_snoc; [done|by apply H1|by apply HP'].
Qed.

Lemma ogo_steps_runs n fuel : forall stop aid tr x tr' x', oruns K fetch P n tr x ->
  ogo_steps fuel stop aid x = Some (tr', x') -> oruns K fetch P n (tr ++ tr') x'.
Proof.
  induction fuel as [|fuel IH]; intros stop aid tr x tr' x' Hr; cbn [ogo_steps].
  - destruct (stop && _); [intros [= <- <-]; by rewrite app_nil_r|]. destruct stop; [done|]. intros [= <- <-]. by rewrite app_nil_r.
  - destruct (stop && _); [intros [= <- <-]; by rewrite app_nil_r|]. apply (othen_runs n tr x); [done|intros; by eapply ogo_step_ok|].
    intros. by eapply IH.
Qed.

Lemma oplay_runs n l : forall tr x tr' x', oruns K fetch P n tr x -> oplay x l = Some (tr', x') -> oruns K fetch P n (tr ++ tr') x'.
Proof.
  induction l as [|a l IH]; intros tr x tr' x' Hr; cbn [oplay].
  - intros [= <- <-]. by rewrite app_nil_r.
  - destruct (ogo_sched x a) as [[tr1 x1]|] eqn:Ea; [|done]. destruct (oplay x1 l) as [[tr2 x2]|] eqn:El; [|done]. intros [= <- <-].
    rewrite app_assoc. eapply IH; [|done]. destruct a as [a|aid c|m aid|aid]; cbn [ogo_sched] in Ea.
    + eapply othen_runs; [done|intros; eapply lift_ok; [|done]; intros; by eapply go_call_ok| |done]. intros x3 tr0 tr3 x4 H [= <- <-]. by rewrite app_nil_r.
    + eapply othen_runs; [done|intros; by eapply ogo_begin_ok| |done]. intros x3 tr0 tr3 x4 H [= <- <-]. by rewrite app_nil_r.
    + by eapply ogo_steps_runs.
    + by eapply ogo_steps_runs.
Qed.
End ObsScript.

(** Two schedules after each other. *)
Definition oafter2 (m : nat) (fetch : N -> list N) (l1 l2 : list osched) (Q : list oevent -> list oevent -> osys -> bool) : bool :=
  match oplay (fixedb m) fetch unsharedb (oinit 2) l1 with
  | Some (tr1, x1) =>
    match oplay (fixedb m) fetch unsharedb x1 l2 with
    | Some (tr2, x2) => (ncalls (lookups (tr1 ++ tr2)) <? 2 ^ 31) && Q tr1 tr2 x2
    | None => false
    end
  | None => false
  end.

Lemma oafter2_reach m fetch l1 l2 Q : (0 < m < 1000)%nat -> oafter2 m fetch l1 l2 Q = true ->
  exists tr1 tr2 x, oreachable (fixed m) fetch 2 (tr1 ++ tr2) x /\ Q tr1 tr2 x = true.
Proof.
  unfold oafter2. intros Hm H. destruct (oplay _ _ _ (oinit 2) l1) as [[tr1 x1]|] eqn:E1; [|done].
  destruct (oplay _ _ _ x1 l2) as [[tr2 x2]|] eqn:E2; [|done]. apply andb_prop in H as [H1 H2]. apply N.ltb_lt in H1.
  exists tr1, tr2, x2. split; [|done]. split; [by apply fixed_universe| |unfold maxUint64; lia|by apply ncalls_small].
  eapply oplay_runs; [apply unsharedb_ok| |exact E2]. change tr1 with ([] ++ tr1).
  eapply oplay_runs; [apply unsharedb_ok|apply oruns_nil, unsharedb_ok; by vm_compute|exact E1].
Qed.

Definition of_sched (a : sched) : osched := match a with SCall a => TCall a | SSteps n aid => TSteps n aid | SDone aid => TDone aid end.

Definition oafter_c (m : nat) (fetch : N -> list N) (l : list osched) (Q : list oevent -> osys -> bool) : bool :=
  match oplay (fixedb m) fetch compactb (oinit 2) l with
  | Some (tr, x) => (ncalls (lookups tr) <? 2 ^ 31) && Q tr x
  | None => false
  end.

Lemma oafter_compact m fetch l Q : (0 < m < 1000)%nat -> oafter_c m fetch l Q = true ->
  exists tr x, universe (fixed m) /\ oruns (fixed m) fetch compact 2 tr x /\ ncalls (lookups tr) < 2 ^ 31 /\ Q tr x = true.
Proof.
  unfold oafter_c. intros Hm H. destruct (oplay _ _ _ (oinit 2) l) as [[tr x]|] eqn:E1; [|done].
  apply andb_prop in H as [H1 H2]. apply N.ltb_lt in H1. exists tr, x. split_and!; [by apply fixed_universe| |done|done].
  change tr with ([] ++ tr). eapply oplay_runs; [apply compactb_ok|apply oruns_nil, compactb_ok; by vm_compute|exact E1].
Qed.
