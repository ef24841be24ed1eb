(** * FineRun: histories in which Lookup, PrepareUpdate and PrepareDelete are interrupted between
    any two accesses to shared memory by the steps of other clients (see Fine.v). *)
From Verif Require Export Fine.

(** What the three calls compute. *)
Inductive outcome :=
| OLook (v : N) (found : bool)
| OPrepU (found : bool) (op : uop)
| OPrepD (r : option dop).

Definition program_of (c : call) : prog outcome :=
  match c with
  | CLookup _ key => run (v, found) <- p_search key; Ret (OLook v found)
  | CPrepU aid key => run (found, op) <- p_prepare_update aid key; Ret (OPrepU found op)
  | CPrepD aid key => run r <- p_prepare_delete aid key; Ret (OPrepD r)
  | _ => Stop Fuel
  end.

(** The client of the three calls that take several steps. *)
Definition job_of (c : call) : option nat :=
  match c with CLookup aid _ | CPrepU aid _ | CPrepD aid _ => Some aid | _ => None end.
Definition job_key (c : call) : list N :=
  match c with CLookup _ key | CPrepU _ key | CPrepD _ key => key | _ => [] end.

(** A call in progress.  [Waiting]: [startOp] (allocator.go:171-173) has loaded the epoch [e] and not yet
    stored it as its reservation.  [Running]: the rest of its program. *)
Inductive job :=
| Waiting (c : call) (e : N)
| Running (c : call) (p : prog outcome).

Record fsys := FSys { fs_sys : sys; fs_jobs : gmap nat job }.

Definition finit (n : nat) : fsys := FSys (init n) ∅.

(** The steps. *)
Inductive event :=
| ECall (c : call) (r : reply)        (* Finalize, Abort, FlushStats or a restart, in one step *)
| EBegin (c : call)                   (* a call begins: it loads the epoch *)
| EResv (c : call)                    (* it stores its reservation *)
| EAct (aid : nat) (a : act)          (* one access to shared memory *)
| EAgain (aid : nat)                  (* a jump to label S *)
| EReturn (aid : nat) (c : call) (r : reply).    (* the call returns *)

(** The locks a call holds after an access that returned [v]. *)
Definition hp_act (hd : handle) (a : act) (v : N) : handle :=
  match hd, a with
  | HP l b, ACas i _ => if v =? 0 then hd else HP (i :: l) b
  | HP l b, ABack i => HP (filter (fun j => j <> i) l) b
  | HP l _, ARootCas => if v =? 0 then hd else HP l true
  | HP l _, ARootBack => HP l false
  | _, _ => hd
  end.

Definition returned (o : outcome) : reply :=
  match o with
  | OLook v found => RLookup v found
  | OPrepU found op => RPrepU found (u_value op)
  | OPrepD (Some op) => RPrepD (Some (d_value op))
  | OPrepD None => RPrepD None
  end.

(** The tree and the open operations after a return: allocator.go:91 and 166 (delete.go:346) [endOp] for a call
    that leaves nothing open. *)
Definition return_to (aid : nat) (c : call) (o : outcome) (y : sys) : sys :=
  match o with
  | OPrepU found op => Sys (sy_tree y) (<[aid := HU found op]> (sy_open y))
  | OPrepD (Some op) => Sys (sy_tree y) (<[aid := HD (job_key c) op]> (sy_open y))
  | _ => Sys (end_op (sy_tree y) aid) (delete aid (sy_open y))
  end.

Section Fine.
Context (K : list N -> Prop) (fetch : N -> list N).

Definition is_restart (c : call) : Prop := match c with CRestart _ _ _ => True | _ => False end.

Inductive fstep : fsys -> event -> fsys -> Prop :=
| fs_call y y' jobs c r :
    job_of c = None -> (is_restart c -> jobs = ∅) -> proper K fetch y c -> api y c = Ok (r, y') ->
    fstep (FSys y jobs) (ECall c r) (FSys y' jobs)
| fs_begin y jobs c aid :
    job_of c = Some aid -> jobs !! aid = None -> proper K fetch y c ->
    fstep (FSys y jobs) (EBegin c) (FSys y (<[aid := Waiting c (t_epoch (sy_tree y))]> jobs))
| fs_resv y jobs c aid e :
    jobs !! aid = Some (Waiting c e) ->
    fstep (FSys y jobs) (EResv c)
      (FSys (Sys (set_resv (sy_tree y) (<[aid := e]> (t_resv (sy_tree y)))) (<[aid := HP [] false]> (sy_open y)))
            (<[aid := Running c (program_of c)]> jobs))
| fs_act y jobs c aid a k hd v s' :
    jobs !! aid = Some (Running c (Act a k)) -> sy_open y !! aid = Some hd -> do_act (sy_tree y) a = Ok (v, s') ->
    fstep (FSys y jobs) (EAct aid a)
      (FSys (Sys s' (<[aid := hp_act hd a v]> (sy_open y))) (<[aid := Running c (k v)]> jobs))
| fs_again y jobs c aid :
    jobs !! aid = Some (Running c (Stop Again)) ->
    fstep (FSys y jobs) (EAgain aid) (FSys y (<[aid := Running c (program_of c)]> jobs))
| fs_return y jobs c aid o :
    jobs !! aid = Some (Running c (Ret o)) ->
    fstep (FSys y jobs) (EReturn aid c (returned o)) (FSys (return_to aid c o y) (delete aid jobs)).

(** Histories of such steps; [P] holds of all states on the way. *)
Inductive fruns (P : sys -> Prop) (n : nat) : list event -> fsys -> Prop :=
| fruns_nil : P (init n) -> fruns P n [] (finit n)
| fruns_snoc tr x e x' : fruns P n tr x -> fstep x e x' -> P (fs_sys x') -> fruns P n (tr ++ [e]) x'.

(** A call in progress is about to fail with a Go panic. *)
Definition crashing (x : fsys) : Prop :=
  exists aid c p, fs_jobs x !! aid = Some (Running c p) /\
    match p with
    | Stop (Crash _) => True
    | Act a _ => exists w, do_act (sy_tree (fs_sys x)) a = Panic w
    | _ => False
    end.
End Fine.

(** What a history means: as [hstep] in Spec.v.  An operation counts as open from the moment it
    stores its reservation. *)
Definition fhstep (h : hist) (e : event) : hist :=
  match e with
  | ECall c r => hstep h (c, r)
  | EResv c =>
    match job_of c with
    | Some aid => Hist (h_map h) (<[aid := Pend (job_key c) false false]> (h_pend h)) (h_susp h) (h_nsusp h) (h_off h)
    | None => h
    end
  | EReturn aid _ (RLookup _ _) | EReturn aid _ (RPrepD None) =>
    Hist (h_map h) (delete aid (h_pend h)) (h_susp h) (h_nsusp h) (h_off h)
  | _ => h
  end.

Definition freplay (tr : list event) : hist := fold_left fhstep tr h0.

Lemma freplay_snoc tr e : freplay (tr ++ [e]) = fhstep (freplay tr) e.
Proof. unfold freplay. by rewrite fold_left_app. Qed.

(** Number of Finalize, Abort, FlushStats and restart steps. *)
Definition is_ecall (e : event) : bool := match e with ECall _ _ => true | _ => false end.
Definition ncalls (tr : list event) : N := N.of_nat (length (filter (fun e => is_ecall e = true) tr)).

(** An attempt of a call of client [aid] starts; it ends. *)
Definition starts (aid : nat) (e : event) : Prop :=
  match e with EResv c => job_of c = Some aid | EAgain aid' => aid' = aid | _ => False end.
Definition ends (aid : nat) (e : event) : Prop :=
  match e with EAgain aid' => aid' = aid | EReturn aid' _ _ => aid' = aid | _ => False end.

(** Fewer than 2^31 calls during one attempt: the generation in a lock word (31 bits and the lock
    bit, locks.go:25-33) does not come back to the value the attempt has read. *)
Definition calm (tr : list event) : Prop :=
  forall tr1 e tr2 tr3 aid, tr = tr1 ++ e :: tr2 ++ tr3 -> starts aid e -> Forall (fun e => ~ ends aid e) tr2 ->
    ncalls tr2 < 2 ^ 31.

(** The delete replaces a node by its other child, and the lock word of that child is also the lock word of the node
    or of its parent.  Then locks.go:42-80 takes one word for two nodes and compares it with one of the two
    values read (delete.go:200-216), and a change of the other node can go unnoticed (see FineWitness.v). *)
Definition clash (op : dop) : Prop :=
  d_kind op = replaceNodeWithNode /\
  (lock_id (d_child op) = lock_id (d_node op) \/ (d_parent op <> 0 /\ lock_id (d_parent op) = lock_id (d_child op))).

(** No such delete is open. *)
Definition unshared (y : sys) : Prop := forall aid key op, sy_open y !! aid = Some (HD key op) -> ~ clash op.

(** Every block handed out still belongs to an allocator, and no more than its first 4096 words were given to
    nodes.  Then no two nodes share a lock word (lock_near in FinePin.v). *)
Definition compact (y : sys) : Prop :=
  forall b, b < t_nextFreeBlock (sy_tree y) -> exists a, a ∈ t_allocs (sy_tree y) /\
    al_offset a / blockSize = b /\ al_offset a mod blockSize + al_nextFree a <= 8 * locksPerBlock.

Record freachable (K : list N -> Prop) (fetch : N -> list N) (n : nat) (tr : list event) (x : fsys) : Prop := {
  fr_univ : universe K;
  fr_runs : fruns K fetch unshared n tr x;
  fr_len : ncalls tr < maxUint64;
  fr_calm : calm tr
}.
