(** * StepScript: running calls interrupted anywhere, to exhibit concrete histories (as FineScript.v). *)
From Verif Require Export StepRun FineScript.

Inductive wsched :=
| XCall (a : Script.act)          (* a call begins *)
| XSteps (n : nat) (aid : nat)    (* n steps of the call of a client *)
| XDone (aid : nat).              (* all remaining steps of its call *)

Section StepScript.
Context (Kb : list N -> bool) (fetch : N -> list N).
Let K k := Kb k = true.

Definition fin_act (a : Script.act) : bool :=
  match a with APutF _ _ | APutA _ | ADelF _ | ADelA _ => true | _ => false end.

Definition wgo_call (x : wsys) (a : Script.act) : option (wevent * wsys) :=
  let '(WSys f fin) := x in
  if fin_act a then
    let c := to_call fetch (fs_sys f) a in
    match fin_client c with
    | Some aid =>
      match fin !! aid, sy_open (fs_sys f) !! aid with
      | None, Some hd =>
        if actb Kb fetch (fs_sys f) a
        then Some (WBegin c, WSys f (<[aid := (c, fin_prog (length (t_resv (sy_tree (fs_sys f)))) hd c)]> fin))
        else None
      | _, _ => None
      end
    | None => None
    end
  else match go_call Kb fetch f a with
       | Some (e, f') => Some (WF e, WSys f' fin)
       | None => None
       end.

Definition wgo_step (x : wsys) (aid : nat) : option (wevent * wsys) :=
  let '(WSys f fin) := x in
  match fin !! aid with
  | Some (c, WDo a k) =>
    let '(FSys y jobs) := f in
    match do_wact (sy_tree y) a with
    | Ok (v, s') => Some (WAct aid a, WSys (FSys (Sys s' (sy_open y)) jobs) (<[aid := (c, k v)]> fin))
    | _ => None
    end
  | Some (c, WRet r) =>
    let '(FSys y jobs) := f in
    Some (WReturn aid c r, WSys (FSys (Sys (sy_tree y) (delete aid (sy_open y))) jobs) (delete aid fin))
  | Some (_, WStop _) => None
  | None => match go_step f aid with Some (e, f') => Some (WF e, WSys f' fin) | None => None end
  end.

Lemma wgo_call_ok x a e x' : wgo_call x a = Some (e, x') -> wstep K fetch x e x'.
Proof.
  unfold wgo_call. destruct x as [f fin]. destruct (fin_act a) eqn:Ea.
  - destruct (fin_client _) as [aid|] eqn:Ec; [|done]. destruct (fin !! aid) eqn:Ef; [done|].
    destruct (sy_open (fs_sys f) !! aid) as [hd|] eqn:Eo; [|done]. destruct (actb Kb fetch (fs_sys f) a) eqn:Eb; [|done].
    intros [= <- <-]. apply ws_begin; try done. by apply actb_proper.
  - destruct (go_call Kb fetch f a) as [[e0 f']|] eqn:Eg; [|done]. intros [= <- <-]. apply ws_fine; [|by eapply go_call_ok].
    destruct f as [y jobs]. unfold go_call in Eg. cbn [fs_sys fs_jobs] in Eg. destruct (actb Kb fetch y a); [|done].
    destruct a; try done; cbn [to_call job_of] in Eg; (destruct (jobs !! _); [done|]; by injection Eg as <- <-).
Qed.

Lemma wgo_step_ok x aid e x' : wgo_step x aid = Some (e, x') -> wstep K fetch x e x'.
Proof.
  unfold wgo_step. destruct x as [f fin]. destruct (fin !! aid) as [[c [r|s|a k]]|] eqn:Ef; [|done| |].
  - destruct f as [y jobs]. intros [= <- <-]. by apply ws_return.
  - destruct f as [y jobs]. destruct (do_wact _ _) as [[v s']| | |] eqn:Ed; try done. intros [= <- <-]. by eapply ws_act.
  - destruct (go_step f aid) as [[e0 f']|] eqn:Eg; [|done]. intros [= <- <-]. apply ws_fine; [|by eapply go_step_ok].
    destruct f as [y jobs]. unfold go_step in Eg. destruct (jobs !! aid) as [[|c [o|[w| |]|a k]]|]; try done; try by injection Eg as <- <-.
    destruct (sy_open y !! aid); [|done]. destruct (do_act _ _) as [[v s']| | |]; try done. by injection Eg as <- <-.
Qed.

Definition wthen (r : option (wevent * wsys)) (k : wsys -> option (list wevent * wsys)) : option (list wevent * wsys) :=
  match r with
  | Some (e, x1) => match k x1 with Some (tr, x2) => Some (e :: tr, x2) | None => None end
  | None => None
  end.

(** The client has neither a Finalize or Abort nor another call in progress. *)
Definition resting (x : wsys) (aid : nat) : bool :=
  match ws_fin x !! aid, fs_jobs (ws_f x) !! aid with None, None => true | _, _ => false end.

Fixpoint wgo_steps (fuel : nat) (stop : bool) (aid : nat) (x : wsys) : option (list wevent * wsys) :=
  if stop && resting x aid then Some ([], x) else
  match fuel with
  | O => if stop then None else Some ([], x)
  | S fuel' => wthen (wgo_step x aid) (wgo_steps fuel' stop aid)
  end.

Definition wgo_sched (x : wsys) (a : wsched) : option (list wevent * wsys) :=
  match a with
  | XCall a => wthen (wgo_call x a) (fun x1 => Some ([], x1))
  | XSteps n aid => wgo_steps n false aid x
  | XDone aid => wgo_steps 2000 true aid x
  end.

Fixpoint wplay (x : wsys) (l : list wsched) : option (list wevent * wsys) :=
  match l with
  | [] => Some ([], x)
  | a :: l' =>
    match wgo_sched x a with
    | Some (tr, x1) => match wplay x1 l' with Some (tr', x2) => Some (tr ++ tr', x2) | None => None end
    | None => None
    end
  end.

Lemma wthen_runs n tr x r k tr' x' : wruns K fetch any n tr x -> (forall e x1, r = Some (e, x1) -> wstep K fetch x e x1) ->
  (forall x1 tr0 tr1 x2, wruns K fetch any n tr0 x1 -> k x1 = Some (tr1, x2) -> wruns K fetch any n (tr0 ++ tr1) x2) ->
  wthen r k = Some (tr', x') -> wruns K fetch any n (tr ++ tr') x'.
Proof.
  intros Hr H1 H2. unfold wthen. destruct r as [[e x1]|]; [|done].
  destruct (k x1) as [[tr1 x2]|] eqn:Ek; [|done]. intros [= <- <-].
  replace (tr ++ e :: tr1) with ((tr ++ [e]) ++ tr1) by (by rewrite <- app_assoc).
  eapply H2; [|done]. eapply wruns_snoc; [done|done|by apply H1].
Qed.

Lemma wgo_steps_runs n fuel : forall stop aid tr x tr' x', wruns K fetch any n tr x ->
  wgo_steps fuel stop aid x = Some (tr', x') -> wruns K fetch any n (tr ++ tr') x'.
Proof.
  induction fuel as [|fuel IH]; intros stop aid tr x tr' x' Hr; cbn [wgo_steps].
  - destruct (stop && _); [intros [= <- <-]; by rewrite app_nil_r|]. destruct stop; [done|]. intros [= <- <-]. by rewrite app_nil_r.
  - destruct (stop && _); [intros [= <- <-]; by rewrite app_nil_r|]. apply (wthen_runs n tr x); [done|intros; by eapply wgo_step_ok|].
    intros. by eapply IH.
Qed.

Lemma wplay_runs n l : forall tr x tr' x', wruns K fetch any n tr x -> wplay x l = Some (tr', x') -> wruns K fetch any n (tr ++ tr') x'.
Proof.
  induction l as [|a l IH]; intros tr x tr' x' Hr; cbn [wplay].
  - intros [= <- <-]. by rewrite app_nil_r.
  - destruct (wgo_sched x a) as [[tr1 x1]|] eqn:Ea; [|done]. destruct (wplay x1 l) as [[tr2 x2]|] eqn:El; [|done]. intros [= <- <-].
    rewrite app_assoc. eapply IH; [|done]. destruct a as [a|m aid|aid]; cbn [wgo_sched] in Ea.
    + eapply wthen_runs; [done|intros; by eapply wgo_call_ok| |done]. intros x3 tr0 tr3 x4 H [= <- <-]. by rewrite app_nil_r.
    + by eapply wgo_steps_runs.
    + by eapply wgo_steps_runs.
Qed.
End StepScript.

(** Run a schedule with three clients and test the history and the final state. *)
Definition wafter (m : nat) (fetch : N -> list N) (l : list wsched) (Q : list wevent -> wsys -> bool) : bool :=
  match wplay (fixedb m) fetch (winit 3) l with Some (tr, x) => Q tr x | None => false end.

Lemma wafter_runs m fetch l Q : wafter m fetch l Q = true -> exists tr x, wruns (fixed m) fetch any 3 tr x /\ Q tr x = true.
Proof.
  unfold wafter. intros H. destruct (wplay _ _ _ _) as [[tr x]|] eqn:E; [|done]. exists tr, x. split; [|done].
  change tr with ([] ++ tr). eapply wplay_runs; [|exact E]. apply wruns_nil.
Qed.

Definition idleb (x : wsys) : bool :=
  (size (ws_fin x) =? 0)%nat && (size (fs_jobs (ws_f x)) =? 0)%nat && (size (sy_open (fs_sys (ws_f x))) =? 0)%nat.
Lemma idleb_ok x : idleb x = true -> idle x.
Proof.
  unfold idleb, idle. intros H. apply andb_prop in H as [H H3]. apply andb_prop in H as [H1 H2].
  apply Nat.eqb_eq in H1. apply Nat.eqb_eq in H2. apply Nat.eqb_eq in H3. split_and!; by apply map_size_empty_inv.
Qed.

Definition only_insertsb (tr : list wevent) : bool :=
  forallb (fun e => match e with WF (EBegin (CPrepD _ _)) | WF (ECall _ _) => false | _ => true end) tr.
Lemma only_insertsb_ok tr : only_insertsb tr = true -> only_inserts tr.
Proof.
  unfold only_insertsb, only_inserts. intros H. apply Forall_forall. intros e He. rewrite forallb_forall in H.
  apply elem_of_list_In, H in He. by destruct e as [[| [] | | | |]| | |].
Qed.

(** A whole call, uninterrupted. *)
Definition wput (fetch : N -> list N) (aid : nat) (v : N) : list wsched :=
  [XCall (APut aid (fetch (v mod 2 ^ 55))); XDone aid; XCall (APutF aid v); XDone aid].
Definition wdel (aid : nat) (k : list N) : list wsched := [XCall (ADel aid k); XDone aid; XCall (ADelF aid); XDone aid].
Definition wputs (fetch : N -> list N) (aid : nat) (vs : list N) : list wsched := vs ≫= wput fetch aid.
