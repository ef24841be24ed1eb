(** * StepObsExamples: histories in which all calls are interrupted, Next and Count too. *)
From Verif Require Export StepOneExamples FineObsScript StepObsWriter.

Inductive xsched :=
| YCall (a : Script.act)          (* a call begins *)
| YObs (aid : nat) (c : ocall)    (* Next or Count begins *)
| YSteps (n : nat) (aid : nat)    (* n steps of the call of a client *)
| YDone (aid : nat).              (* all remaining steps of its call *)

(** Schedules all of whose steps pass a test. *)
Section Script.
Context (Kb : list N -> bool) (fetch : N -> list N) (t : xsys -> xevent -> bool).
Let K k := Kb k = true.
Let P x e := t x e = true.

Definition xbeginb (obs : gmap nat ojob) (e : wevent) : bool := match e with WF e => beginb obs e | _ => true end.
Definition is_ofb (e : oevent) : bool := match e with OF _ => true | _ => false end.

Definition xlift (x : xsys) (r : option (wevent * wsys)) : option (xevent * xsys) :=
  match r with Some (e, w) => if xbeginb (xs_obs x) e then Some (XW e, XSys w (xs_obs x)) else None | None => None end.
Definition xlook (x : xsys) (r : option (oevent * osys)) : option (xevent * xsys) :=
  match r with
  | Some (e, OSys f obs) => if is_ofb e then None else Some (XO e, XSys (WSys f (ws_fin (xs_w x))) obs)
  | None => None
  end.

Lemma xlift_ok x r e x' : (forall e w, r = Some (e, w) -> wstep K fetch (xs_w x) e w) -> xlift x r = Some (e, x') -> xstep K fetch x e x'.
Proof.
  intros Hr. unfold xlift. destruct r as [[e0 w]|]; [|done]. destruct (xbeginb (xs_obs x) e0) eqn:Eb; [|done]. intros [= <- <-].
  destruct x as [w0 obs]. cbn [xs_w xs_obs] in *. apply xs_write; [by apply Hr| |].
  - intros aid Hb. destruct e0 as [e0| | |]; try done. destruct e0; try done. simpl in Hb, Eb. rewrite Hb in Eb. by destruct (obs !! aid).
  - intros Hre. destruct e0 as [e0| | |]; try done. destruct e0 as [c| | | | |]; try done. by destruct c.
Qed.

Lemma xlook_ok x r e x' : (forall e o, r = Some (e, o) -> ostep K fetch (OSys (xs_f x) (xs_obs x)) e o) -> xlook x r = Some (e, x') -> xstep K fetch x e x'.
Proof.
  intros Hr. unfold xlook. destruct r as [[e0 [f obs]]|]; [|done]. destruct (is_ofb e0) eqn:Eb; [done|]. intros [= <- <-].
  destruct x as [[f0 fin] obs0]. unfold xs_f in *. cbn [xs_w xs_obs ws_f ws_fin] in *. apply xs_read; [by apply Hr|]. destruct e0; [done|by intros []..].
Qed.

Definition xgo_step (x : xsys) (aid : nat) : option (xevent * xsys) :=
  match xs_obs x !! aid with
  | Some _ => xlook x (ogo_step (OSys (xs_f x) (xs_obs x)) aid)
  | None => xlift x (wgo_step (xs_w x) aid)
  end.
Lemma xgo_step_ok x aid e x' : xgo_step x aid = Some (e, x') -> xstep K fetch x e x'.
Proof.
  unfold xgo_step. destruct (xs_obs x !! aid).
  - apply xlook_ok. intros e0 o0. apply ogo_step_ok.
  - apply xlift_ok. intros e0 w. apply wgo_step_ok.
Qed.

Definition xthen (x : xsys) (r : option (xevent * xsys)) (k : xsys -> option (list xevent * xsys)) : option (list xevent * xsys) :=
  match r with
  | Some (e, x1) => if t x e then match k x1 with Some (tr, x2) => Some (e :: tr, x2) | None => None end else None
  | None => None
  end.

Definition xresting (x : xsys) (aid : nat) : bool := match xs_obs x !! aid with None => resting (xs_w x) aid | Some _ => false end.

Fixpoint xgo_steps (fuel : nat) (stop : bool) (aid : nat) (x : xsys) : option (list xevent * xsys) :=
  if stop && xresting x aid then Some ([], x) else
  match fuel with
  | O => if stop then None else Some ([], x)
  | S fuel' => xthen x (xgo_step x aid) (xgo_steps fuel' stop aid)
  end.

Definition xgo_sched (x : xsys) (a : xsched) : option (list xevent * xsys) :=
  match a with
  | YCall a => xthen x (xlift x (wgo_call Kb fetch (xs_w x) a)) (fun x1 => Some ([], x1))
  | YObs aid c => xthen x (xlook x (ogo_begin (OSys (xs_f x) (xs_obs x)) aid c)) (fun x1 => Some ([], x1))
  | YSteps n aid => xgo_steps n false aid x
  | YDone aid => xgo_steps 2000 true aid x
  end.

Fixpoint xplay (x : xsys) (l : list xsched) : option (list xevent * xsys) :=
  match l with
  | [] => Some ([], x)
  | a :: l' =>
    match xgo_sched x a with
    | Some (tr, x1) => match xplay x1 l' with Some (tr', x2) => Some (tr ++ tr', x2) | None => None end
    | None => None
    end
  end.

Lemma xthen_runs n tr x r k tr' x' : xruns K fetch P n tr x -> (forall e x1, r = Some (e, x1) -> xstep K fetch x e x1) ->
  (forall x1 tr0 tr1 x2, xruns K fetch P n tr0 x1 -> k x1 = Some (tr1, x2) -> xruns K fetch P n (tr0 ++ tr1) x2) ->
  xthen x r k = Some (tr', x') -> xruns K fetch P n (tr ++ tr') x'.
Proof.
  intros Hr H1 H2. unfold xthen. destruct r as [[e x1]|]; [|done]. destruct (t x e) eqn:Et; [|done].
  destruct (k x1) as [[tr1 x2]|] eqn:Ek; [|done]. intros [= <- <-].
  replace (tr ++ e :: tr1) with ((tr ++ [e]) ++ tr1) by (by rewrite <- app_assoc).
  eapply H2; [|done]. eapply xruns_snoc; [done|exact Et|by apply H1].
Qed.

Lemma xgo_steps_runs n fuel : forall stop aid tr x tr' x', xruns K fetch P n tr x ->
  xgo_steps fuel stop aid x = Some (tr', x') -> xruns K fetch P n (tr ++ tr') x'.
Proof.
  induction fuel as [|fuel IH]; intros stop aid tr x tr' x' Hr; cbn [xgo_steps].
  - destruct (stop && _); [intros [= <- <-]; by rewrite app_nil_r|]. destruct stop; [done|]. intros [= <- <-]. by rewrite app_nil_r.
  - destruct (stop && _); [intros [= <- <-]; by rewrite app_nil_r|]. apply (xthen_runs n tr x); [done|intros; by eapply xgo_step_ok|].
    intros. by eapply IH.
Qed.

Lemma xplay_runs n l : forall tr x tr' x', xruns K fetch P n tr x -> xplay x l = Some (tr', x') -> xruns K fetch P n (tr ++ tr') x'.
Proof.
  induction l as [|a l IH]; intros tr x tr' x' Hr; cbn [xplay].
  - intros [= <- <-]. by rewrite app_nil_r.
  - destruct (xgo_sched x a) as [[tr1 x1]|] eqn:Ea; [|done]. destruct (xplay x1 l) as [[tr2 x2]|] eqn:El; [|done]. intros [= <- <-].
    rewrite app_assoc. eapply IH; [|done]. destruct a as [a|aid c|m aid|aid]; cbn [xgo_sched] in Ea.
    + eapply xthen_runs; [done| | |done]; [intros e x3; apply xlift_ok; intros e0 w; by apply wgo_call_ok|]. intros x3 tr0 tr3 x4 H [= <- <-]. by rewrite app_nil_r.
    + eapply xthen_runs; [done| | |done]; [intros e x3; apply xlook_ok; intros e0 w; by apply ogo_begin_ok|]. intros x3 tr0 tr3 x4 H [= <- <-]. by rewrite app_nil_r.
    + by eapply xgo_steps_runs.
    + by eapply xgo_steps_runs.
Qed.
End Script.

Lemma xruns_impl K fetch (P P' : xsys -> xevent -> Prop) n tr X : (forall X e, P X e -> P' X e) -> xruns K fetch P n tr X -> xruns K fetch P' n tr X.
Proof. intros HP. induction 1; econstructor; eauto. Qed.

Definition xafter (m : nat) (fetch : N -> list N) (t : xsys -> xevent -> bool) (l : list xsched) (Q : list xevent -> xsys -> bool) : bool :=
  match xplay (fixedb m) fetch t (xinit 3) l with Some (tr, x) => Q tr x | None => false end.

Lemma xafter_runs m fetch t (P : xsys -> xevent -> Prop) l Q : (forall x e, t x e = true -> P x e) -> xafter m fetch t l Q = true ->
  exists tr x, xruns (fixed m) fetch P 3 tr x /\ Q tr x = true.
Proof.
  unfold xafter. intros HP H. destruct (xplay _ _ _ _ _) as [[tr x]|] eqn:E; [|done]. exists tr, x. split; [|done].
  eapply xruns_impl; [exact HP|]. change tr with ([] ++ tr). eapply xplay_runs; [|exact E]. apply xruns_nil.
Qed.

(** The tests. *)
Definition on_w (t : wsys -> wevent -> bool) (x : xsys) (e : xevent) : bool := match e with XW e => t (xs_w x) e | XO _ => true end.
Lemma on_w_one x e : on_w oneb x e = true -> x_one_fin x e /\ x_sized x e.
Proof. destruct e as [e|e]; [|done]. apply oneb_ok. Qed.
Lemma on_w_writer x e : on_w (one_writerb 1) x e = true -> x_one_writer 1 x e.
Proof. destruct e as [e|e]; [|done]. apply one_writerb_ok. Qed.
Lemma on_w_single x e : on_w singleb x e = true -> x_one_writer 1 x e /\ x_sized x e.
Proof. destruct e as [e|e]; [|done]. apply singleb_ok. Qed.

Definition of_w (s : wsched) : xsched := match s with XCall a => YCall a | XSteps n aid => YSteps n aid | XDone aid => YDone aid end.

(** Client 0 counts and client 2 starts an iteration while client 1 inserts key 3; they return before the insert does. *)
Definition counted_at : list xsched :=
  map of_w (wputs f4 1 [0; 1; 65536; 16777216; 16777217; 16842752] ++ [XCall (APut 1 (f4 3)); XDone 1; XCall (APutF 1 3); XSteps 6 1]) ++
  [YObs 0 (OCount 100 []); YSteps 5 0; YSteps 3 1; YObs 2 (ONext 100 (new_iter [])); YSteps 4 2; YSteps 2 1; YSteps 4 0; YSteps 4 1; YDone 0; YDone 2; YSteps 1 1].
Definition counted (aid k : nat) (tr : list xevent) : bool :=
  existsb (fun e => match e with XO (OReturn a (OCount 100 []) (RCount _ n _)) => bool_decide (a = aid /\ n = k) | _ => false end) tr.
Definition iterated (aid : nat) (v : N) (tr : list xevent) : bool :=
  existsb (fun e => match e with XO (OReturn a (ONext _ _) (RNext true it)) => bool_decide (a = aid /\ it_value it = v) | _ => false end) tr.
Lemma counted_ok aid k tr : counted aid k tr = true -> exists nodes cnt, XO (OReturn aid (OCount 100 []) (RCount nodes k cnt)) ∈ tr.
Proof.
  unfold counted. intros H. apply existsb_exists in H as (e & Hin & He). apply elem_of_list_In in Hin. destruct e as [|e]; [done|]. destruct e as [| | | |a c r]; try done.
  destruct c as [|fuel sp]; [done|]. destruct (decide (fuel = 100%nat)) as [->|Hn]; [|exfalso; do 101 (destruct fuel as [|fuel]; try done)].
  destruct sp; [|done]. destruct r as [|nodes n cnt]; [done|]. apply bool_decide_eq_true in He as (-> & ->). by exists nodes, cnt.
Qed.
Lemma iterated_ok aid v tr : iterated aid v tr = true -> exists fuel it it', XO (OReturn aid (ONext fuel it) (RNext true it')) ∈ tr /\ it_value it' = v.
Proof.
  unfold iterated. intros H. apply existsb_exists in H as (e & Hin & He). apply elem_of_list_In in Hin. destruct e as [|e]; [done|]. destruct e as [| | | |a c r]; try done.
  destruct c as [fuel it|]; [|done]. destruct r as [[] it'|]; try done. apply bool_decide_eq_true in He as (-> & <-). by exists fuel, it, it'.
Qed.

Fixpoint xcut (p : wevent -> bool) (l : list xevent) : option (list xevent * wevent * list xevent) :=
  match l with
  | [] => None
  | x :: l' => let rest := match xcut p l' with Some (a, e, b) => Some (x :: a, e, b) | None => None end in
    match x with XW e => if p e then Some ([], e, l') else rest | XO _ => rest end
  end.
Lemma xcut_ok p l a e b : xcut p l = Some (a, e, b) -> l = a ++ XW e :: b /\ p e = true.
Proof.
  revert a; induction l as [|x l IH]; intros a; cbn [xcut]; [done|].
  assert (Hrest : match xcut p l with Some (a, e, b) => Some (x :: a, e, b) | None => None end = Some (a, e, b) -> x :: l = a ++ XW e :: b /\ p e = true).
  { destruct (xcut p l) as [[[a' x'] b']|]; [|done]. intros [= <- <- <-]. destruct (IH _ eq_refl) as [-> ?]. done. }
  destruct x as [e0|e0]; [|done]. destruct (p e0) eqn:Ep; [by intros [= <- <- <-]|done].
Qed.
Definition no_xreturn (aid : nat) (e : xevent) : bool := match e with XW e => no_wreturn aid e | XO _ => true end.
Definition xreturns (aid : nat) (e : xevent) : Prop := match e with XW e => wreturns aid e | XO _ => False end.

Definition amid_insert (P : xsys -> xevent -> Prop) : Prop :=
  exists tr1 fk m tr2 X, xruns (fixed 4) f4 P 3 (tr1 ++ XW (WBegin (CFinU 1 fk m 3)) :: tr2) X /\ xcalls (tr1 ++ XW (WBegin (CFinU 1 fk m 3)) :: tr2) < 2 ^ 31 /\
    Forall (fun e => ~ xreturns 1 e) tr2 /\ (exists nodes cnt, XO (OReturn 0 (OCount 100 []) (RCount nodes 6 cnt)) ∈ tr2) /\
    (exists fuel it it', XO (OReturn 2 (ONext fuel it) (RNext true it')) ∈ tr2 /\ it_value it' = 0).

Lemma ex_amid_insert (t : xsys -> xevent -> bool) (P : xsys -> xevent -> Prop) : (forall x e, t x e = true -> P x e) ->
  xafter 4 f4 t counted_at (fun tr x => match xcut fin3 tr with Some (_, _, tr2) => forallb (no_xreturn 1) tr2 && counted 0 6 tr2 && iterated 2 0 tr2 | None => false end && (xcalls tr <? 2 ^ 31)) = true ->
  amid_insert P.
Proof.
  intros HP Ht. destruct (xafter_runs 4 f4 t P _ _ HP Ht) as (tr & x & Hr & H). apply andb_prop in H as [H Hw].
  destruct (xcut fin3 tr) as [[[tr1 e] tr2]|] eqn:E; [|done]. apply xcut_ok in E as [-> E]. destruct e as [|c| |]; try done. destruct c as [| |aid fk m v| | | | | |]; try done.
  apply bool_decide_eq_true in E as [-> ->]. apply andb_prop in H as [H H3]. apply andb_prop in H as [H1 H2]. exists tr1, fk, m, tr2, x.
  split_and!; [done|by apply N.ltb_lt| |by apply counted_ok|by apply iterated_ok]. rewrite list.Forall_forall. intros e He. rewrite forallb_forall in H1.
  apply elem_of_list_In, H1 in He. destruct e; [by apply no_wreturn_ok|by intros []].
Qed.

Lemma ex_x_one : amid_insert (fun x e => x_one_fin x e /\ x_sized x e).
Proof. apply (ex_amid_insert (on_w oneb)); [apply on_w_one|by vm_compute]. Qed.
Lemma ex_x_one_short : amid_insert x_one_fin.
Proof. apply (ex_amid_insert (on_w oneb)); [intros; by apply on_w_one|by vm_compute]. Qed.
Lemma ex_x_single : amid_insert (fun x e => x_one_writer 1 x e /\ x_sized x e).
Proof. apply (ex_amid_insert (on_w singleb)); [apply on_w_single|by vm_compute]. Qed.
Lemma ex_x_single_short : amid_insert (x_one_writer 1).
Proof. apply (ex_amid_insert (on_w (one_writerb 1))); [apply on_w_writer|by vm_compute]. Qed.
