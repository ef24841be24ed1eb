(** * Spec: what a history of API calls means, independently of the tree: a finite map
    updated when a Finalize returns true. *)
From Verif Require Export Api.

(** An open operation, as far as the history tells: its key; whether another Finalize
    returned true since it was prepared; whether that includes a delete. *)
Record pend := Pend { p_key : list N; p_over : bool; p_del : bool }.

Record hist := Hist {
  h_map : gmap (list N) N;      (* the map described by the acknowledged calls *)
  h_pend : gmap nat pend;       (* open operations *)
  h_susp : gset (list N);       (* keys whose last acknowledged delete overlapped another write *)
  h_nsusp : nat;                (* number of such deletes so far *)
  h_off : Z                     (* what Len lost in restarts so far *)
}.

Definition h0 : hist := Hist ∅ ∅ ∅ 0 0.

Definition see_upd (p : pend) : pend := Pend (p_key p) true (p_del p).
Definition see_del (p : pend) : pend := Pend (p_key p) true true.

Definition hstep (h : hist) (e : call * reply) : hist :=
  let drop_pend aid := Hist (h_map h) (delete aid (h_pend h)) (h_susp h) (h_nsusp h) (h_off h) in
  match e with
  | (CPrepU aid key, _) | (CPrepD aid key, RPrepD (Some _)) =>
    Hist (h_map h) (<[aid := Pend key false false]> (h_pend h)) (h_susp h) (h_nsusp h) (h_off h)
  | (CFinU aid _ _ value, RBool true) =>
    match h_pend h !! aid with
    | Some p => Hist (<[p_key p := value mod 2 ^ 55]> (h_map h)) (see_upd <$> delete aid (h_pend h))
                  (h_susp h ∖ {[p_key p]}) (h_nsusp h) (h_off h)
    | None => h
    end
  | (CFinD aid, RBool true) =>
    match h_pend h !! aid with
    | Some p =>
      if p_over p
      then Hist (delete (p_key p) (h_map h)) (see_del <$> delete aid (h_pend h))
             (h_susp h ∪ {[p_key p]}) (S (h_nsusp h)) (h_off h)
      else Hist (delete (p_key p) (h_map h)) (see_del <$> delete aid (h_pend h))
             (h_susp h ∖ {[p_key p]}) (h_nsusp h) (h_off h)
    | None => h
    end
  | (CFinU aid _ _ _, _) | (CFinD aid, _) | (CAbortU aid, _) | (CAbortD aid, _) => drop_pend aid
  | (CRestart _ _ _, RRestart z) => Hist (h_map h) (h_pend h) (h_susp h) (h_nsusp h) (h_off h + z)
  | _ => h
  end.

Definition replay (tr : list (call * reply)) : hist := fold_left hstep tr h0.

Lemma replay_snoc tr e : replay (tr ++ [e]) = hstep (replay tr) e.
Proof. unfold replay. by rewrite fold_left_app. Qed.

(** What a client sees of key [k]: it looks it up and compares the key of the returned
    candidate (README "Lookup"; allocator.go:79-87). *)
Definition get (fetch : N -> list N) (y : sys) (k : list N) : option N :=
  match Search.lookup (sy_tree y) 0 k with
  | Ok (v, true, _) => if decide (fetch v = k) then Some v else None
  | _ => None
  end.

(** Lock words currently owned (odd), the tree's root lock, and an allocator's epoch
    reservation. *)
Definition locked (y : sys) (i : N) : Prop := gen_odd (lget (t_locks (sy_tree y)) i) = true.
Definition reserved (y : sys) (aid : nat) : Prop := exists r, t_resv (sy_tree y) !! aid = Some r /\ r <> maxUint64.

(** States reachable by fewer than 2^64 - 1 calls (the epoch counter then has not wrapped),
    for a universe of keys none of which is a prefix of another. *)
Record reachable (K : list N -> Prop) (fetch : N -> list N) (n : nat) (tr : list (call * reply)) (y : sys) : Prop := {
  rc_univ : universe K;
  rc_runs : runs K fetch n tr y;
  rc_len : N.of_nat (length tr) < maxUint64
}.

(** No call of the history is a restart from a written state. *)
Definition unrestarted (tr : list (call * reply)) : Prop :=
  Forall (fun e => match e.1 with CRestart _ _ _ => False | _ => True end) tr.
