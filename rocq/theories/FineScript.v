(** * FineScript: running interrupted calls on the model, to exhibit concrete histories.  As Script.v,
    with a schedule that says whose step comes next. *)
From Verif Require Export Witness Examples FineProps.

Inductive sched :=
| SCall (a : Script.act)            (* a call: Finalize and Abort in one step, the others only begin *)
| SSteps (n : nat) (aid : nat)      (* n steps of the call of a client *)
| SDone (aid : nat).                (* all remaining steps of its call *)

Section FineScript.
Context (Kb : list N -> bool) (fetch : N -> list N) (Pb : sys -> bool) (P : sys -> Prop) (HP' : forall y, Pb y = true -> P y).
Let K k := Kb k = true.

Definition go_call (x : fsys) (a : Script.act) : option (event * fsys) :=
  let c := to_call fetch (fs_sys x) a in
  if actb Kb fetch (fs_sys x) a then
    match job_of c with
    | None => match api (fs_sys x) c with Ok (r, y') => Some (ECall c r, FSys y' (fs_jobs x)) | _ => None end
    | Some aid =>
      match fs_jobs x !! aid with
      | None => Some (EBegin c, FSys (fs_sys x) (<[aid := Waiting c (t_epoch (sy_tree (fs_sys x)))]> (fs_jobs x)))
      | Some _ => None
      end
    end
  else None.

Definition go_step (x : fsys) (aid : nat) : option (event * fsys) :=
  let '(FSys y jobs) := x in
  match jobs !! aid with
  | Some (Waiting c e) =>
    Some (EResv c, FSys (Sys (set_resv (sy_tree y) (<[aid := e]> (t_resv (sy_tree y)))) (<[aid := HP [] false]> (sy_open y)))
                        (<[aid := Running c (program_of c)]> jobs))
  | Some (Running c (Act a k)) =>
    match sy_open y !! aid, do_act (sy_tree y) a with
    | Some hd, Ok (v, s') => Some (EAct aid a, FSys (Sys s' (<[aid := hp_act hd a v]> (sy_open y))) (<[aid := Running c (k v)]> jobs))
    | _, _ => None
    end
  | Some (Running c (Stop Again)) => Some (EAgain aid, FSys y (<[aid := Running c (program_of c)]> jobs))
  | Some (Running c (Ret o)) => Some (EReturn aid c (returned o), FSys (return_to aid c o y) (delete aid jobs))
  | _ => None
  end.

Lemma go_call_ok x a e x' : go_call x a = Some (e, x') -> fstep K fetch x e x'.
Proof.
  unfold go_call. destruct x as [y jobs]. cbn [fs_sys fs_jobs]. destruct (actb Kb fetch y a) eqn:Ea; [|done]. apply actb_proper in Ea.
  destruct (job_of (to_call fetch y a)) as [aid|] eqn:Ej.
  - destruct (jobs !! aid) eqn:E; [done|]. intros [= <- <-]. by apply fs_begin.
  - destruct (api y (to_call fetch y a)) as [[r y']| | |] eqn:E; try done. intros [= <- <-]. apply fs_call; try done.
    destruct a; simpl; try done. by destruct (sy_open y !! aid) as [[]|].
Qed.

Lemma go_step_ok x aid e x' : go_step x aid = Some (e, x') -> fstep K fetch x e x'.
Proof.
  unfold go_step. destruct x as [y jobs]. destruct (jobs !! aid) as [[c e0|c [o|[w| |]|a k]]|] eqn:E; try done.
  - intros [= <- <-]. by apply fs_resv.
  - intros [= <- <-]. by apply fs_return.
  - intros [= <- <-]. by eapply fs_again.
  - destruct (sy_open y !! aid) as [hd|] eqn:Eo; [|done]. destruct (do_act (sy_tree y) a) as [[v s']| | |] eqn:Ed; try done.
    intros [= <- <-]. by eapply fs_act.
Qed.

Definition then_ (r : option (event * fsys)) (k : fsys -> option (list event * fsys)) : option (list event * fsys) :=
  match r with
  | Some (e, x1) => if Pb (fs_sys x1) then match k x1 with Some (tr, x2) => Some (e :: tr, x2) | None => None end else None
  | None => None
  end.

Fixpoint go_steps (fuel : nat) (stop : bool) (aid : nat) (x : fsys) : option (list event * fsys) :=
  if stop && (match fs_jobs x !! aid with None => true | Some _ => false end) then Some ([], x) else
  match fuel with
  | O => if stop then None else Some ([], x)
  | S fuel' => then_ (go_step x aid) (go_steps fuel' stop aid)
  end.

Definition go_sched (x : fsys) (a : sched) : option (list event * fsys) :=
  match a with
  | SCall a => then_ (go_call x a) (fun x1 => Some ([], x1))
  | SSteps n aid => go_steps n false aid x
  | SDone aid => go_steps 2000 true aid x
  end.

Fixpoint fplay (x : fsys) (l : list sched) : option (list event * fsys) :=
  match l with
  | [] => Some ([], x)
  | a :: l' =>
    match go_sched x a with
    | Some (tr, x1) => match fplay x1 l' with Some (tr', x2) => Some (tr ++ tr', x2) | None => None end
    | None => None
    end
  end.

Lemma then_runs n tr x r k tr' x' : fruns K fetch P n tr x -> (forall e x1, r = Some (e, x1) -> fstep K fetch x e x1) ->
  (forall x1 tr0 tr1 x2, fruns K fetch P n tr0 x1 -> k x1 = Some (tr1, x2) -> fruns K fetch P n (tr0 ++ tr1) x2) ->
  then_ r k = Some (tr', x') -> fruns K fetch P n (tr ++ tr') x'.
Proof.
  intros Hr H1 H2. unfold then_. destruct r as [[e x1]|]; [|done]. destruct (Pb (fs_sys x1)) eqn:EP; [|done].
  destruct (k x1) as [[tr1 x2]|] eqn:Ek; [|done]. intros [= <- <-].
  replace (tr ++ e :: tr1) with ((tr ++ [e]) ++ tr1) by (by rewrite <- app_assoc).
  eapply H2; [|done]. eapply fruns_snoc; [done|by apply H1|by apply HP'].
Qed.

Lemma go_steps_runs n fuel : forall stop aid tr x tr' x', fruns K fetch P n tr x ->
  go_steps fuel stop aid x = Some (tr', x') -> fruns K fetch P n (tr ++ tr') x'.
Proof.
  induction fuel as [|fuel IH]; intros stop aid tr x tr' x' Hr; cbn [go_steps].
  - destruct (stop && _); [intros [= <- <-]; by rewrite app_nil_r|]. destruct stop; [done|]. intros [= <- <-]. by rewrite app_nil_r.
  - destruct (stop && _); [intros [= <- <-]; by rewrite app_nil_r|]. apply (then_runs n tr x); [done|intros; by eapply go_step_ok|].
    intros. by eapply IH.
Qed.

Lemma fplay_runs n l : forall tr x tr' x', fruns K fetch P n tr x -> fplay x l = Some (tr', x') -> fruns K fetch P n (tr ++ tr') x'.
Proof.
  induction l as [|a l IH]; intros tr x tr' x' Hr; cbn [fplay].
  - intros [= <- <-]. by rewrite app_nil_r.
  - destruct (go_sched x a) as [[tr1 x1]|] eqn:Ea; [|done]. destruct (fplay x1 l) as [[tr2 x2]|] eqn:El; [|done]. intros [= <- <-].
    rewrite app_assoc. eapply IH; [|done]. destruct a as [a|m aid|aid]; cbn [go_sched] in Ea.
    + eapply then_runs; [done|intros; by eapply go_call_ok| |done]. intros x3 tr0 tr3 x4 H [= <- <-]. by rewrite app_nil_r.
    + by eapply go_steps_runs.
    + by eapply go_steps_runs.
Qed.
End FineScript.

Lemma ncalls_small tr : ncalls tr < 2 ^ 31 -> calm tr.
Proof. intros H tr1 e tr2 tr3 aid -> _ _. rewrite app_comm_cons in H. rewrite !ncalls_app in H. change (e :: tr2) with ([e] ++ tr2) in H. rewrite ncalls_app in H. lia. Qed.

Definition clashb (op : dop) : bool :=
  match d_kind op with
  | replaceNodeWithNode => (lock_id (d_child op) =? lock_id (d_node op)) || (negb (d_parent op =? 0) && (lock_id (d_parent op) =? lock_id (d_child op)))
  | _ => false
  end.
Definition unsharedb (y : sys) : bool :=
  forallb (fun e : nat * handle => match e.2 with HD _ op => negb (clashb op) | _ => true end) (map_to_list (sy_open y)).

Lemma unsharedb_ok y : unsharedb y = true -> unshared y.
Proof.
  intros H aid key op Ho [E Hc]. unfold unsharedb in H. rewrite forallb_forall in H.
  assert (Hin : In (aid, HD key op) (map_to_list (sy_open y))) by (by apply elem_of_list_In, elem_of_map_to_list).
  apply H in Hin. cbn [snd] in Hin. unfold clashb in Hin. rewrite E in Hin. apply negb_true_iff, orb_false_iff in Hin as [H1 H2].
  destruct Hc as [Hc|[Hp Hc]].
  - by rewrite Hc, N.eqb_refl in H1.
  - rewrite Hc, N.eqb_refl, andb_true_r in H2. apply negb_false_iff, N.eqb_eq in H2. done.
Qed.

Definition compactb (y : sys) : bool :=
  forallb (fun b => existsb (fun a => (al_offset a / blockSize =? b) && (al_offset a mod blockSize + al_nextFree a <=? 8 * locksPerBlock)) (t_allocs (sy_tree y)))
    (seqN 0 (N.to_nat (t_nextFreeBlock (sy_tree y)))).

Lemma compactb_ok y : compactb y = true -> compact y.
Proof.
  intros H b Hb. unfold compactb in H. rewrite forallb_forall in H.
  assert (Hin : In b (seqN 0 (N.to_nat (t_nextFreeBlock (sy_tree y))))) by (apply elem_of_list_In, elem_of_seqN; lia).
  apply H, existsb_exists in Hin as (a & Ha & E). apply andb_prop in E as [E1 E2]. apply N.eqb_eq in E1. apply N.leb_le in E2.
  exists a. split; [by apply elem_of_list_In|done].
Qed.

(** Run a schedule and test the final state. *)
Definition fafter (m : nat) (fetch : N -> list N) (Pb : sys -> bool) (l : list sched) (Q : list event -> fsys -> bool) : bool :=
  match fplay (fixedb m) fetch Pb (finit 2) l with Some (tr, x) => (ncalls tr <? 2 ^ 31) && Q tr x | None => false end.

(** Histories in which a delete may share lock words. *)
Record freach_any (K : list N -> Prop) (fetch : N -> list N) (n : nat) (tr : list event) (x : fsys) : Prop := {
  fa_univ : universe K;
  fa_runs : fruns K fetch (fun _ => True) n tr x;
  fa_len : ncalls tr < maxUint64;
  fa_calm : calm tr
}.

Lemma fafter_any m fetch l Q : (0 < m < 1000)%nat -> fafter m fetch (fun _ => true) l Q = true ->
  exists tr x, freach_any (fixed m) fetch 2 tr x /\ Q tr x = true.
Proof.
  unfold fafter. intros Hm H. destruct (fplay _ _ _ _ _) as [[tr x]|] eqn:E; [|done]. apply andb_prop in H as [H1 H2]. apply N.ltb_lt in H1.
  exists tr, x. split; [|done]. split; [by apply fixed_universe| |unfold maxUint64; lia|by apply ncalls_small].
  change tr with ([] ++ tr). eapply fplay_runs; [|by apply fruns_nil|exact E]. done.
Qed.

Lemma fafter_reach m fetch l Q : (0 < m < 1000)%nat -> fafter m fetch unsharedb l Q = true ->
  exists tr x, freachable (fixed m) fetch 2 tr x /\ Q tr x = true.
Proof.
  unfold fafter. intros Hm H. destruct (fplay _ _ _ _ _) as [[tr x]|] eqn:E; [|done]. apply andb_prop in H as [H1 H2]. apply N.ltb_lt in H1.
  exists tr, x. split; [|done]. split; [by apply fixed_universe| |unfold maxUint64; lia|by apply ncalls_small].
  change tr with ([] ++ tr). eapply fplay_runs; [|apply fruns_nil, unsharedb_ok; by vm_compute|exact E]. apply unsharedb_ok.
Qed.

Lemma fafter_compact m fetch l Q : (0 < m < 1000)%nat -> fafter m fetch compactb l Q = true ->
  exists tr x, universe (fixed m) /\ fruns (fixed m) fetch compact 2 tr x /\ ncalls tr < 2 ^ 31 /\ Q tr x = true.
Proof.
  unfold fafter. intros Hm H. destruct (fplay _ _ _ _ _) as [[tr x]|] eqn:E; [|done]. apply andb_prop in H as [H1 H2]. apply N.ltb_lt in H1.
  exists tr, x. split_and!; try done; [by apply fixed_universe|].
  change tr with ([] ++ tr). eapply fplay_runs; [|apply fruns_nil, compactb_ok; by vm_compute|exact E]. apply compactb_ok.
Qed.

(** A whole call, uninterrupted. *)
Definition fput (fetch : N -> list N) (aid : nat) (v : N) : list sched :=
  [SCall (APut aid (fetch (v mod 2 ^ 55))); SDone aid; SCall (APutF aid v)].
Definition fdel (aid : nat) (k : list N) : list sched := [SCall (ADel aid k); SDone aid; SCall (ADelF aid)].
Definition fputs (fetch : N -> list N) (aid : nat) (vs : list N) : list sched := vs ≫= fput fetch aid.
