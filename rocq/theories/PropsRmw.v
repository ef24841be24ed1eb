(** * PropsRmw: what happens between Prepare and Finalize, for every history of calls as in PropsApi.v. *)
From Verif Require Import RmwExamples.

(** C51: when Finalize of an update returns true, its key still had the value that PrepareUpdate reported
    (or was still absent, if PrepareUpdate found nothing or a candidate with another key), whatever other
    clients did since PrepareUpdate; afterwards it has the new value. *)
Theorem C51_update_replaces_reported : forall K fetch n tr1 aid key found v tr2 y fk m value y',
  reachable K fetch n (tr1 ++ (CPrepU aid key, RPrepU found v) :: tr2) y -> Forall (fun e => caller e.1 <> Some aid) tr2 ->
  proper K fetch y (CFinU aid fk m value) -> api y (CFinU aid fk m value) = Ok (RBool true, y') ->
  get fetch y key = (if found then (if decide (fetch v = key) then Some v else None) else None) /\
  get fetch y' key = Some (value mod 2 ^ 55).
Proof. exact c51_update. Qed.
Print Assumptions C51_update_replaces_reported.

Example C51_example : exists tr1 tr2 y y', reachable (fixed 3) f3 2 (tr1 ++ (CPrepU 0 (f3 1), RPrepU true 1) :: tr2) y /\
  Forall (fun e => caller e.1 <> Some 0%nat) tr2 /\ Exists (fun e => acked e.2 = true) tr2 /\
  proper (fixed 3) f3 y (CFinU 0 (f3 1) true 16777217) /\ api y (CFinU 0 (f3 1) true 16777217) = Ok (RBool true, y').
Proof. exact ex_read_write. Qed.

(** C52 (partial): when Finalize of a delete returns true, its key still had the value that PrepareDelete
    reported, and is gone afterwards; or another Finalize was acknowledged since PrepareDelete and the
    delete had no effect (C36 shows that this happens). *)
Theorem C52_delete_removes_reported_partial : forall K fetch n tr1 aid key v tr2 y y',
  reachable K fetch n (tr1 ++ (CPrepD aid key, RPrepD (Some v)) :: tr2) y -> Forall (fun e => caller e.1 <> Some aid) tr2 ->
  proper K fetch y (CFinD aid) -> api y (CFinD aid) = Ok (RBool true, y') ->
  (get fetch y key = Some v /\ get fetch y' key = None) \/
  (Exists (fun e => acked e.2 = true) tr2 /\ get fetch y' key = get fetch y key).
Proof. exact c52_delete. Qed.
Print Assumptions C52_delete_removes_reported_partial.

Example C52_example : exists tr1 tr2 y y', reachable (fixed 3) f3 2 (tr1 ++ (CPrepD 0 (f3 65537), RPrepD (Some 65537)) :: tr2) y /\
  Forall (fun e => caller e.1 <> Some 0%nat) tr2 /\ Exists (fun e => acked e.2 = true) tr2 /\
  proper (fixed 3) f3 y (CFinD 0) /\ api y (CFinD 0) = Ok (RBool true, y') /\ get f3 y (f3 65537) = Some 65537.
Proof. exact ex_read_delete. Qed.
