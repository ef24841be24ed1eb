(** * StepOneExamples: histories that meet the hypotheses of PropsStepOne.v. *)
From Verif Require Export StepScript StepWriter StepExamples.

(** Schedules all of whose steps pass a test. *)
Section Tested.
Context (Kb : list N -> bool) (fetch : N -> list N) (t : wsys -> wevent -> bool).
Let K k := Kb k = true.
Let P x e := t x e = true.

Definition tested (x : wsys) (r : option (wevent * wsys)) : option (wevent * wsys) :=
  match r with Some (e, x1) => if t x e then r else None | None => None end.

Fixpoint tgo_steps (fuel : nat) (stop : bool) (aid : nat) (x : wsys) : option (list wevent * wsys) :=
  if stop && resting x aid then Some ([], x) else
  match fuel with
  | O => if stop then None else Some ([], x)
  | S fuel' => wthen (tested x (wgo_step x aid)) (tgo_steps fuel' stop aid)
  end.

Definition tgo_sched (x : wsys) (a : wsched) : option (list wevent * wsys) :=
  match a with
  | XCall a => wthen (tested x (wgo_call Kb fetch x a)) (fun x1 => Some ([], x1))
  | XSteps n aid => tgo_steps n false aid x
  | XDone aid => tgo_steps 2000 true aid x
  end.

Fixpoint tplay (x : wsys) (l : list wsched) : option (list wevent * wsys) :=
  match l with
  | [] => Some ([], x)
  | a :: l' =>
    match tgo_sched x a with
    | Some (tr, x1) => match tplay x1 l' with Some (tr', x2) => Some (tr ++ tr', x2) | None => None end
    | None => None
    end
  end.

Lemma tthen_runs n tr x r k tr' x' : wruns K fetch P n tr x -> (forall e x1, r = Some (e, x1) -> wstep K fetch x e x1) ->
  (forall x1 tr0 tr1 x2, wruns K fetch P n tr0 x1 -> k x1 = Some (tr1, x2) -> wruns K fetch P n (tr0 ++ tr1) x2) ->
  wthen (tested x r) k = Some (tr', x') -> wruns K fetch P n (tr ++ tr') x'.
Proof.
  intros Hr H1 H2. unfold wthen, tested. destruct r as [[e x1]|]; [|done]. destruct (t x e) eqn:Et; [|done].
  destruct (k x1) as [[tr1 x2]|] eqn:Ek; [|done]. intros [= <- <-].
  replace (tr ++ e :: tr1) with ((tr ++ [e]) ++ tr1) by (by rewrite <- app_assoc).
  eapply H2; [|done]. eapply wruns_snoc; [done|exact Et|by apply H1].
Qed.

Lemma tgo_steps_runs n fuel : forall stop aid tr x tr' x', wruns K fetch P n tr x ->
  tgo_steps fuel stop aid x = Some (tr', x') -> wruns K fetch P n (tr ++ tr') x'.
Proof.
  induction fuel as [|fuel IH]; intros stop aid tr x tr' x' Hr; cbn [tgo_steps].
  - destruct (stop && _); [intros [= <- <-]; by rewrite app_nil_r|]. destruct stop; [done|]. intros [= <- <-]. by rewrite app_nil_r.
  - destruct (stop && _); [intros [= <- <-]; by rewrite app_nil_r|]. apply (tthen_runs n tr x); [done|intros; by eapply wgo_step_ok|].
    intros. by eapply IH.
Qed.

Lemma tplay_runs n l : forall tr x tr' x', wruns K fetch P n tr x -> tplay x l = Some (tr', x') -> wruns K fetch P n (tr ++ tr') x'.
Proof.
  induction l as [|a l IH]; intros tr x tr' x' Hr; cbn [tplay].
  - intros [= <- <-]. by rewrite app_nil_r.
  - destruct (tgo_sched x a) as [[tr1 x1]|] eqn:Ea; [|done]. destruct (tplay x1 l) as [[tr2 x2]|] eqn:El; [|done]. intros [= <- <-].
    rewrite app_assoc. eapply IH; [|done]. destruct a as [a|m aid|aid]; cbn [tgo_sched] in Ea.
    + eapply tthen_runs; [done|intros; by eapply wgo_call_ok| |done]. intros x3 tr0 tr3 x4 H [= <- <-]. by rewrite app_nil_r.
    + by eapply tgo_steps_runs.
    + by eapply tgo_steps_runs.
Qed.
End Tested.

Definition tafter (m : nat) (fetch : N -> list N) (t : wsys -> wevent -> bool) (l : list wsched) (Q : list wevent -> wsys -> bool) : bool :=
  match tplay (fixedb m) fetch t (winit 3) l with Some (tr, x) => Q tr x | None => false end.

Lemma tafter_runs m fetch t (P : wsys -> wevent -> Prop) l Q : (forall x e, t x e = true -> P x e) -> tafter m fetch t l Q = true ->
  exists tr x, wruns (fixed m) fetch P 3 tr x /\ Q tr x = true.
Proof.
  unfold tafter. intros HP H. destruct (tplay _ _ _ _ _) as [[tr x]|] eqn:E; [|done]. exists tr, x. split; [|done].
  eapply wruns_impl; [exact HP|]. change tr with ([] ++ tr). eapply tplay_runs; [|exact E]. apply wruns_nil.
Qed.

(** The tests for [one_fin], [sized] and [one_writer]. *)
Definition nofinb (x : wsys) : bool := (size (ws_fin x) =? 0)%nat.
Lemma nofinb_ok x : nofinb x = true -> ws_fin x = ∅.
Proof. unfold nofinb. intros H%Nat.eqb_eq. by apply map_size_empty_inv. Qed.

Definition one_finb (x : wsys) (e : wevent) : bool :=
  match e with
  | WBegin _ | WF (ECall _ _) => nofinb x
  | WF (EReturn aid c _) => match fs_jobs (ws_f x) !! aid with Some (Running _ (Ret (OPrepD (Some op)))) => negb (clashb op) | _ => true end
  | _ => true
  end.
Lemma one_finb_ok x e : one_finb x e = true -> one_fin x e.
Proof.
  unfold one_fin. destruct e as [e|c|aid a|aid c r]; cbn [one_finb one_at_once]; try done.
  - destruct e as [c r|c|c|aid a|aid|aid c r]; try done.
    + intros H. split; [by apply nofinb_ok|done].
    + intros H. split; [done|]. intros op Hj. rewrite Hj in H. intros [Ek Hcl]. unfold clashb in H. rewrite Ek in H. apply negb_true_iff, orb_false_iff in H as [H1 H2].
      destruct Hcl as [E|[E1 E2]].
      * rewrite E, N.eqb_refl in H1. done.
      * rewrite E2, N.eqb_refl in H2. rewrite (proj2 (N.eqb_neq _ _) E1) in H2. done.
  - intros H. split; [by apply nofinb_ok|done].
Qed.

Definition one_writerb (w : nat) (x : wsys) (e : wevent) : bool :=
  match e with
  | WF (EBegin (CPrepU aid _)) | WF (EBegin (CPrepD aid _)) => (aid =? w)%nat
  | WF (ECall _ _) => nofinb x
  | _ => true
  end.
Lemma one_writerb_ok w x e : one_writerb w x e = true -> one_writer w x e.
Proof.
  destruct e as [e|c|aid a|aid c r]; cbn [one_writerb one_writer]; try done. destruct e as [c r|c|c|aid a|aid|aid c r]; try done.
  - apply nofinb_ok.
  - destruct c; try done; apply Nat.eqb_eq.
Qed.

Lemma short_fixed m : (m <= 9)%nat -> short_keys (fixed m).
Proof. intros Hm k Hk. apply andb_prop in Hk as [Hl%Nat.eqb_eq _]. lia. Qed.

Definition wcallsb (tr : list wevent) : bool := wcalls tr <? 2 ^ 31.

(** Client 1 has taken 13 steps of the Finalize of an insert; client 0 looks up an old key, client 2 the new one. *)
Definition looked_at : list wsched :=
  wputs f4 1 [0; 1; 65536; 16777216; 16777217; 16842752] ++
  [XCall (APut 1 (f4 3)); XDone 1; XCall (APutF 1 3); XSteps 6 1; XCall (AFind 0 (f4 1)); XDone 0; XSteps 9 1; XCall (AFind 2 (f4 3)); XDone 2; XSteps 1 1].
Definition has_look (aid : nat) (k : list N) (v : N) (tr : list wevent) : bool :=
  existsb (fun e => match e with WF (EReturn a (CLookup _ k') (RLookup v' true)) => bool_decide (a = aid /\ k' = k /\ v' = v) | _ => false end) tr.
Lemma has_look_ok aid k v tr : has_look aid k v tr = true -> exists a, WF (EReturn aid (CLookup a k) (RLookup v true)) ∈ tr.
Proof.
  unfold has_look. intros H. apply existsb_exists in H as (e & Hin & He). apply elem_of_list_In in Hin.
  destruct e as [[| | | | |a c r]| | |]; try done. destruct c as [a' k'| | | | | | | |]; try done. destruct r as [v' []| | | | |]; try done.
  apply bool_decide_eq_true in He as (-> & -> & ->). by exists a'.
Qed.

Lemma ex_looked (t : wsys -> wevent -> bool) (P : wsys -> wevent -> Prop) : (forall x e, t x e = true -> P x e) ->
  tafter 4 f4 t looked_at (fun tr x => match cut fin3 tr with Some (_, _, tr2) => forallb (no_wreturn 1) tr2 && has_look 0 (f4 1) 1 tr2 && has_look 2 (f4 3) 3 tr2 | None => false end && wcallsb tr) = true ->
  exists tr1 fk m tr2 x, wruns (fixed 4) f4 P 3 (tr1 ++ WBegin (CFinU 1 fk m 3) :: tr2) x /\ wcalls (tr1 ++ WBegin (CFinU 1 fk m 3) :: tr2) < 2 ^ 31 /\
    Forall (fun e => ~ wreturns 1 e) tr2 /\ (exists a, WF (EReturn 0 (CLookup a (f4 1)) (RLookup 1 true)) ∈ tr2) /\ (exists a, WF (EReturn 2 (CLookup a (f4 3)) (RLookup 3 true)) ∈ tr2).
Proof.
  intros HP Ht. destruct (tafter_runs 4 f4 t P _ _ HP Ht) as (tr & x & Hr & H). apply andb_prop in H as [H Hw].
  destruct (cut fin3 tr) as [[[tr1 e] tr2]|] eqn:E; [|done]. apply cut_ok in E as [-> E]. destruct e as [|c| |]; try done. destruct c as [| |aid fk m v| | | | | |]; try done.
  apply bool_decide_eq_true in E as [-> ->]. apply andb_prop in H as [H H3]. apply andb_prop in H as [H1 H2]. exists tr1, fk, m, tr2, x.
  split_and!; [done|by apply N.ltb_lt| |by apply has_look_ok|by apply has_look_ok]. eapply forallb_Forall; [|exact H1]. apply no_wreturn_ok.
Qed.

Definition sizedb (x : wsys) (e : wevent) : bool :=
  match e with
  | WBegin c => match fin_client c with
    | Some aid => match sy_open (fs_sys (ws_f x)) !! aid with Some hd => negb (fin_size hd =? recyclerLen)%nat | None => true end
    | None => true end
  | _ => true
  end.
Lemma sizedb_ok x e : sizedb x e = true -> sized x e.
Proof.
  destruct e as [|c| |]; try done. cbn [sizedb sized]. intros H aid hd Hc Ho. rewrite Hc, Ho in H. apply negb_true_iff, Nat.eqb_neq in H. exact H.
Qed.
Definition oneb (x : wsys) (e : wevent) : bool := one_finb x e && sizedb x e.
Lemma oneb_ok x e : oneb x e = true -> one_fin x e /\ sized x e.
Proof. intros [H1 H2]%andb_prop. split; [by apply one_finb_ok|by apply sizedb_ok]. Qed.
Definition singleb (x : wsys) (e : wevent) : bool := one_writerb 1 x e && sizedb x e.
Lemma singleb_ok x e : singleb x e = true -> one_writer 1 x e /\ sized x e.
Proof. intros [H1 H2]%andb_prop. split; [by apply one_writerb_ok|by apply sizedb_ok]. Qed.

Lemma ex_one_looked : exists tr1 fk m tr2 x, wruns (fixed 4) f4 (fun x e => one_fin x e /\ sized x e) 3 (tr1 ++ WBegin (CFinU 1 fk m 3) :: tr2) x /\
  wcalls (tr1 ++ WBegin (CFinU 1 fk m 3) :: tr2) < 2 ^ 31 /\ Forall (fun e => ~ wreturns 1 e) tr2 /\
  (exists a, WF (EReturn 0 (CLookup a (f4 1)) (RLookup 1 true)) ∈ tr2) /\ (exists a, WF (EReturn 2 (CLookup a (f4 3)) (RLookup 3 true)) ∈ tr2).
Proof. apply (ex_looked oneb); [apply oneb_ok|by vm_compute]. Qed.

Lemma ex_single_looked : exists tr1 fk m tr2 x, wruns (fixed 4) f4 (fun x e => one_writer 1 x e /\ sized x e) 3 (tr1 ++ WBegin (CFinU 1 fk m 3) :: tr2) x /\
  wcalls (tr1 ++ WBegin (CFinU 1 fk m 3) :: tr2) < 2 ^ 31 /\ Forall (fun e => ~ wreturns 1 e) tr2 /\
  (exists a, WF (EReturn 0 (CLookup a (f4 1)) (RLookup 1 true)) ∈ tr2) /\ (exists a, WF (EReturn 2 (CLookup a (f4 3)) (RLookup 3 true)) ∈ tr2).
Proof. apply (ex_looked singleb); [apply singleb_ok|by vm_compute]. Qed.

(** Client 2 prepares an update while client 1 finalizes, both finalize, one after the other, then one key is deleted. *)
Definition in_turn : list wsched :=
  wputs f4 0 [0; 1; 65536; 16777216; 16777217; 16842752] ++
  [XCall (APut 1 (f4 3)); XDone 1; XCall (APutF 1 3); XSteps 6 1; XCall (APut 2 (f4 16777218)); XSteps 9 2; XSteps 9 1; XCall (AFind 0 (f4 1)); XSteps 4 0; XDone 1;
   XDone 2; XCall (APutF 2 16777218); XSteps 7 2; XDone 0; XDone 2] ++ wdel 2 (f4 65536).

Lemma ex_in_turn : exists tr x, wruns (fixed 4) f4 one_fin 3 tr x /\ wcalls tr < 2 ^ 31 /\ idle x /\ get f4 (fs_sys (ws_f x)) (f4 3) = Some 3 /\
  get f4 (fs_sys (ws_f x)) (f4 16777218) = Some 16777218 /\ get f4 (fs_sys (ws_f x)) (f4 65536) = None /\ len (sy_tree (fs_sys (ws_f x))) = 7%Z.
Proof.
  destruct (tafter_runs 4 f4 one_finb one_fin in_turn (fun tr x => wcallsb tr && idleb x && bool_decide (get f4 (fs_sys (ws_f x)) (f4 3) = Some 3) &&
    bool_decide (get f4 (fs_sys (ws_f x)) (f4 16777218) = Some 16777218) && bool_decide (get f4 (fs_sys (ws_f x)) (f4 65536) = None) &&
    Z.eqb (len (sy_tree (fs_sys (ws_f x)))) 7) one_finb_ok) as (tr & x & Hr & H); [by vm_compute|].
  repeat (apply andb_prop in H as [H ?]). repeat match goal with H : bool_decide _ = true |- _ => apply bool_decide_eq_true in H end.
  exists tr, x. split_and!; try done; [by apply N.ltb_lt|by apply idleb_ok|by apply Z.eqb_eq].
Qed.

(** One client writes, two clients read in between. *)
Definition read_through : list wsched :=
  looked_at ++ [XDone 1; XCall (AFind 0 (f4 65536)); XSteps 3 0; XCall (ADel 1 (f4 65536)); XDone 1; XCall (ADelF 1); XSteps 4 1; XCall (AFind 2 (f4 65536)); XSteps 3 2; XDone 1; XDone 0; XDone 2].

Lemma ex_read_through : exists tr x, wruns (fixed 4) f4 (one_writer 1) 3 tr x /\ wcalls tr < 2 ^ 31 /\ idle x /\ get f4 (fs_sys (ws_f x)) (f4 3) = Some 3 /\
  get f4 (fs_sys (ws_f x)) (f4 65536) = None /\ len (sy_tree (fs_sys (ws_f x))) = 6%Z.
Proof.
  destruct (tafter_runs 4 f4 (one_writerb 1) (one_writer 1) read_through (fun tr x => wcallsb tr && idleb x && bool_decide (get f4 (fs_sys (ws_f x)) (f4 3) = Some 3) &&
    bool_decide (get f4 (fs_sys (ws_f x)) (f4 65536) = None) && Z.eqb (len (sy_tree (fs_sys (ws_f x)))) 6) (one_writerb_ok 1)) as (tr & x & Hr & H); [by vm_compute|].
  repeat (apply andb_prop in H as [H ?]). repeat match goal with H : bool_decide _ = true |- _ => apply bool_decide_eq_true in H end.
  exists tr, x. split_and!; try done; [by apply N.ltb_lt|by apply idleb_ok|by apply Z.eqb_eq].
Qed.

Lemma ex_short : universe (fixed 4) /\ short_keys (fixed 4).
Proof. split; [apply fixed_universe; lia|apply short_fixed; lia]. Qed.

(** Client 2 takes a lock that client 1 has just given back, its PrepareUpdate returns, and only then the Finalize of client
    1 goes on to give its other lock back; after it client 2 finalizes. *)
Definition taken_over : list wsched :=
  wputs f4 0 [0; 1; 65536; 16777216; 16777217; 16842752] ++
  [XCall (APut 1 (f4 3)); XDone 1; XCall (APutF 1 3); XSteps 14 1; XCall (APut 2 (f4 2)); XSteps 25 2].
Definition then_done : list wsched := [XDone 2; XDone 1; XCall (APutF 2 2); XDone 2].

Definition takesb (x : wsys) (aid : nat) (e : wevent) : bool :=
  match e, ws_fin x !! aid, sy_open (fs_sys (ws_f x)) !! aid with
  | WF (EAct _ (ACas i g)), Some (_, WDo (WUnlock _) _), Some hd => existsb (N.eqb i) (olids hd)
  | _, _, _ => false
  end.
Lemma takesb_ok x aid e : takesb x aid e = true -> ~ hands_off x e.
Proof.
  unfold takesb. destruct e as [e|c|a0 a|a0 c r]; try done. destruct e as [c r|c|c|a0 a|a0|a0 c r]; try done. destruct a as [q|node|i|i g|i| |]; try done.
  destruct (ws_fin x !! aid) as [[c p]|] eqn:Ef; [|done]. destruct p as [r|y|[] k] eqn:Ep; try done. destruct (sy_open _ !! aid) as [hd|] eqn:Eo; [|done].
  intros (z & Hin & <-%N.eqb_eq)%existsb_exists Hq. eapply (Hq aid); [done|done|done|]. cbn [touches]. by apply elem_of_list_In.
Qed.

Definition over_ok : bool :=
  match tplay (fixedb 4) f4 one_finb (winit 3) taken_over with
  | Some (tr1, x1) =>
    match wgo_step x1 2 with
    | Some (e, x2) => takesb x1 1 e && one_finb x1 e && (match tplay (fixedb 4) f4 one_finb x2 then_done with
      | Some (tr2, x) => wcallsb (tr1 ++ e :: tr2) && idleb x && bool_decide (get f4 (fs_sys (ws_f x)) (f4 3) = Some 3) && bool_decide (get f4 (fs_sys (ws_f x)) (f4 2) = Some 2) && Z.eqb (len (sy_tree (fs_sys (ws_f x)))) 8
      | None => false end)
    | None => false
    end
  | None => false
  end.

Lemma ex_taken_over : exists tr1 x1 e tr2 x, wruns (fixed 4) f4 one_fin 3 tr1 x1 /\ ~ hands_off x1 e /\ wruns (fixed 4) f4 one_fin 3 (tr1 ++ e :: tr2) x /\
  wcalls (tr1 ++ e :: tr2) < 2 ^ 31 /\ idle x /\ get f4 (fs_sys (ws_f x)) (f4 3) = Some 3 /\ get f4 (fs_sys (ws_f x)) (f4 2) = Some 2 /\ len (sy_tree (fs_sys (ws_f x))) = 8%Z.
Proof.
  assert (H : over_ok = true) by (by vm_compute). unfold over_ok in H.
  destruct (tplay _ _ _ _ taken_over) as [[tr1 x1]|] eqn:E1; [|done]. destruct (wgo_step x1 2) as [[e x2]|] eqn:E2; [|done].
  apply andb_prop in H as [H H3]. apply andb_prop in H as [H1 H2]. destruct (tplay _ _ _ x2 _) as [[tr2 x]|] eqn:E3; [|done].
  assert (R1 : wruns (fun k => fixedb 4 k = true) f4 (fun x e => one_finb x e = true) 3 tr1 x1).
  { change tr1 with ([] ++ tr1). eapply tplay_runs; [|exact E1]. apply wruns_nil. }
  assert (R2 : wruns (fun k => fixedb 4 k = true) f4 (fun x e => one_finb x e = true) 3 ((tr1 ++ [e]) ++ tr2) x).
  { eapply tplay_runs; [|exact E3]. eapply wruns_snoc; [done|done|]. by eapply wgo_step_ok. }
  rewrite <- app_assoc in R2. repeat (apply andb_prop in H3 as [H3 ?]). repeat match goal with H : bool_decide _ = true |- _ => apply bool_decide_eq_true in H end.
  clear E1 E2 E3. exists tr1, x1, e, tr2, x. split_and!; [|by eapply takesb_ok| | |by apply idleb_ok|done|done|by apply Z.eqb_eq].
  - eapply wruns_impl; [apply one_finb_ok|exact R1].
  - eapply wruns_impl; [apply one_finb_ok|exact R2].
  - by apply N.ltb_lt.
Qed.
