(** * StepRun: histories in which all calls, Finalize and Abort included, are interrupted between any
    two accesses to shared memory (see Fine.v and StepFin.v). *)
From Verif Require Export StepFin.

(** The client of a Finalize or Abort. *)
Definition fin_client (c : call) : option nat :=
  match c with CFinU aid _ _ _ | CAbortU aid | CFinD aid | CAbortD aid => Some aid | _ => None end.

(** Its program, given the operation; [n] is the number of allocators. *)
Definition fin_prog (n : nat) (hd : handle) (c : call) : wprog reply :=
  match c, hd with
  | CFinU _ fk m v, HU _ op => go u <- w_finalize_update n op fk m v; WRet (RBool u)
  | CAbortU _, HU _ op => go _ <- w_abort_update op; WRet RUnit
  | CFinD _, HD _ op => go u <- w_finalize_delete n op; WRet (RBool u)
  | CAbortD _, HD _ op => go _ <- w_abort_delete op; WRet RUnit
  | _, _ => WStop Fuel
  end.

(** [ws_fin]: the Finalize and Abort calls in progress. *)
Record wsys := WSys { ws_f : fsys; ws_fin : gmap nat (call * wprog reply) }.

Definition winit (n : nat) : wsys := WSys (finit n) ∅.

Inductive wevent :=
| WF (e : event)                               (* a step of FineRun.v *)
| WBegin (c : call)                            (* a Finalize or Abort begins *)
| WAct (aid : nat) (a : wact)                  (* one access of it *)
| WReturn (aid : nat) (c : call) (r : reply).  (* it returns *)

(** The steps of FineRun.v that remain: no Finalize and no Abort; FlushStats and restarts in one step. *)
Definition remains (fin : gmap nat (call * wprog reply)) (e : event) : Prop :=
  match e with
  | ECall c _ => fin_client c = None /\ (is_restart c -> fin = ∅) /\ (forall aid, c = CFlush aid -> fin !! aid = None)
  | _ => True
  end.

Section Steps.
Context (K : list N -> Prop) (fetch : N -> list N).

Inductive wstep : wsys -> wevent -> wsys -> Prop :=
| ws_fine x e x' fin : remains fin e -> fstep K fetch x e x' -> wstep (WSys x fin) (WF e) (WSys x' fin)
| ws_begin x fin c aid hd :
    fin_client c = Some aid -> fin !! aid = None -> sy_open (fs_sys x) !! aid = Some hd -> proper K fetch (fs_sys x) c ->
    wstep (WSys x fin) (WBegin c) (WSys x (<[aid := (c, fin_prog (length (t_resv (sy_tree (fs_sys x)))) hd c)]> fin))
| ws_act y jobs fin aid c a k v s' :
    fin !! aid = Some (c, WDo a k) -> do_wact (sy_tree y) a = Ok (v, s') ->
    wstep (WSys (FSys y jobs) fin) (WAct aid a) (WSys (FSys (Sys s' (sy_open y)) jobs) (<[aid := (c, k v)]> fin))
| ws_return y jobs fin aid c r :
    fin !! aid = Some (c, WRet r) ->
    wstep (WSys (FSys y jobs) fin) (WReturn aid c r)
      (WSys (FSys (Sys (sy_tree y) (delete aid (sy_open y))) jobs) (delete aid fin)).

(** Histories of such steps; [P] holds of all steps. *)
Inductive wruns (P : wsys -> wevent -> Prop) (n : nat) : list wevent -> wsys -> Prop :=
| wruns_nil : wruns P n [] (winit n)
| wruns_snoc tr x e x' : wruns P n tr x -> P x e -> wstep x e x' -> wruns P n (tr ++ [e]) x'.
End Steps.

(** No call is in progress and no operation is open. *)
Definition idle (x : wsys) : Prop := ws_fin x = ∅ /\ fs_jobs (ws_f x) = ∅ /\ sy_open (fs_sys (ws_f x)) = ∅.

Definition any (x : wsys) (e : wevent) : Prop := True.
(** No delete that merges a node with its other child is aborted (the subject of C08). *)
Definition no_merge_abort (x : wsys) (e : wevent) : Prop :=
  match e with
  | WBegin (CAbortD aid) => forall key op, sy_open (fs_sys (ws_f x)) !! aid = Some (HD key op) -> d_kind op <> replaceNodeWithNode
  | _ => True
  end.

(** What the clients were told: a Finalize returned [true] for this key and value. *)
Definition whstep (h : hist) (e : wevent) : hist :=
  match e with
  | WF e => fhstep h e
  | WReturn _ c r => hstep h (c, r)
  | _ => h
  end.
Definition wreplay (tr : list wevent) : hist := fold_left whstep tr h0.

(** The keys of the PrepareUpdate calls of a history, in order. *)
Definition upd_keys (tr : list wevent) : list (list N) :=
  omap (fun e => match e with WF (EBegin (CPrepU _ key)) => Some key | _ => None end) tr.
(** Nothing but inserts and lookups. *)
Definition only_inserts (tr : list wevent) : Prop :=
  Forall (fun e => match e with WF (EBegin (CPrepD _ _)) | WF (ECall _ _) => False | _ => True end) tr.
