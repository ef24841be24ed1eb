(** * StepPlace: histories in which one Finalize or Abort at a time is in progress, and where they take effect. *)
From Verif Require Export StepRun Inv Step.

(** No Finalize recycles a node of 258 slots, which panics (C12). *)
Definition sized (x : wsys) (e : wevent) : Prop :=
  match e with
  | WBegin c => forall aid hd, fin_client c = Some aid -> sy_open (fs_sys (ws_f x)) !! aid = Some hd -> fin_size hd <> 258%nat
  | _ => True
  end.
Definition short_keys (K : list N -> Prop) : Prop := forall k, K k -> (length k <= 9)%nat.

(** One Finalize or Abort at a time. *)
Definition one_at_once (x : wsys) (e : wevent) : Prop :=
  match e with
  | WBegin _ => ws_fin x = ∅
  | WF (ECall _ _) => ws_fin x = ∅
  | _ => True
  end.
(** In addition no PrepareDelete returns with one lock word for two nodes. *)
Definition one_fin (x : wsys) (e : wevent) : Prop :=
  one_at_once x e /\
  match e with
  | WF (EReturn aid c _) => forall op, fs_jobs (ws_f x) !! aid = Some (Running c (Ret (OPrepD (Some op)))) -> ~ clash op
  | _ => True
  end.

(** Number of calls that change the tree or end an operation. *)
Definition is_wcall (e : wevent) : bool := match e with WF (ECall _ _) | WBegin _ => true | _ => false end.
Definition wcalls (tr : list wevent) : N := N.of_nat (length (filter (fun e => is_wcall e = true) tr)).

(** ** Where the calls take effect *)

(** A history with, beside one step of each Finalize and Abort, the call and its result. *)
Definition marked := list (wevent * option (call * reply)).

(** Every Finalize and Abort is marked once, at one of its own steps, before it returns, and with the result it returns.
    The second argument: the call in progress and its result if it has taken effect. *)
Inductive placed : marked -> option (call * option reply) -> Prop :=
| pl_nil : placed [] None
| pl_other l st e : placed l st -> placed (l ++ [(WF e, None)]) st
| pl_begin l c : placed l None -> placed (l ++ [(WBegin c, None)]) (Some (c, None))
| pl_begin_effect l c r : placed l None -> placed (l ++ [(WBegin c, Some (c, r))]) (Some (c, Some r))
| pl_act l c o aid a : placed l (Some (c, o)) -> fin_client c = Some aid -> placed (l ++ [(WAct aid a, None)]) (Some (c, o))
| pl_effect l c r aid a : placed l (Some (c, None)) -> fin_client c = Some aid -> placed (l ++ [(WAct aid a, Some (c, r))]) (Some (c, Some r))
| pl_return l c r aid : placed l (Some (c, Some r)) -> fin_client c = Some aid -> placed (l ++ [(WReturn aid c r, None)]) None.

(** What the history means when each call changes the tree at its mark. *)
Definition lstep (h : hist) (x : wevent * option (call * reply)) : hist :=
  let h1 := match x.1 with WF e => fhstep h e | _ => h end in
  match x.2 with Some cr => hstep h1 cr | None => h1 end.
Definition lreplay (l : marked) : hist := fold_left lstep l h0.

(** A Finalize returns false only if a Finalize of another client has changed the place in between ([p_del], [p_over]: Spec.v). *)
Definition true_reply (h : hist) (c : call) (r : reply) : Prop :=
  match c, r with
  | CFinU aid _ _ _, RBool b => exists p, h_pend h !! aid = Some p /\ (b = false -> p_del p = true)
  | CFinD aid, RBool b => exists p, h_pend h !! aid = Some p /\ (b = false -> p_over p = true)
  | CAbortU _, RUnit | CAbortD _, RUnit => True
  | _, _ => False
  end.

(** ** One client writes, the others read *)

(** Client [w] makes all updates and deletes, the others look up keys; FlushStats and restarts while no Finalize is in progress. *)
Definition one_writer (w : nat) (x : wsys) (e : wevent) : Prop :=
  match e with
  | WF (EBegin (CPrepU aid _)) | WF (EBegin (CPrepD aid _)) => aid = w
  | WF (ECall _ _) => ws_fin x = ∅
  | _ => True
  end.
