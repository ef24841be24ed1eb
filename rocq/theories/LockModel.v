(** * LockModel: the node locks, one atomic operation per step (model of /repo/locks.go:42-181). *)
From Verif Require Export State MemFacts.
Local Open Scope N_scope.

(** The nodes and generations given to a lock call. *)
Inductive lreq :=
| L1 (node ng : N)                          (* locks.go:165 lockNode *)
| L2 (node ng parent pg : N)                (* locks.go:115 lockNodes2 *)
| L3 (child cg node ng parent pg : N).      (* locks.go:42 lockNodes3 *)

(** locks.go:43-45, 116-118: a parent that is zero selects the call with one node less. *)
Definition lnorm (r : lreq) : lreq :=
  match r with
  | L3 c cg n ng p pg => if p =? 0 then (if n =? 0 then L1 c cg else L2 c cg n ng) else r
  | L2 n ng p pg => if p =? 0 then L1 n ng else r
  | L1 _ _ => r
  end.

(** locks.go:46-49, 119-122, 166-168: is one of the given generations odd? *)
Definition lodd (r : lreq) : bool :=
  match lnorm r with
  | L1 _ ng => gen_odd ng
  | L2 _ ng _ pg => gen_odd ng || gen_odd pg
  | L3 _ cg _ ng _ pg => gen_odd cg || gen_odd ng || gen_odd pg
  end.

(** The compare-and-swaps of a lock call, in order, with the expected values: locks.go:51-78,
    124-138, 169-171.  A lock word that is already covered is skipped. *)
Definition lplan (r : lreq) : list (N * N) :=
  match lnorm r with
  | L1 n ng => [(lock_id n, ng)]
  | L2 n ng p pg => (lock_id n, ng) :: (if lock_id p =? lock_id n then [] else [(lock_id p, pg)])
  | L3 c cg n ng p pg =>
    (lock_id c, cg) :: (if lock_id n =? lock_id c then [] else [(lock_id n, ng)]) ++
    (if (lock_id p =? lock_id c) || (lock_id p =? lock_id n) then [] else [(lock_id p, pg)])
  end.

(** The increments of the unlock call for the same nodes: locks.go:84-111, 143-162, 175-181. *)
Definition uplan (r : lreq) : list N :=
  match lnorm r with
  | L1 n _ => [lock_id n]
  | L2 n _ p _ => lock_id p :: (if lock_id n =? lock_id p then [] else [lock_id n])
  | L3 c _ n _ p _ =>
    lock_id p :: (if lock_id n =? lock_id p then [] else [lock_id n]) ++
    (if (lock_id c =? lock_id p) || (lock_id c =? lock_id n) then [] else [lock_id c])
  end.

Inductive lpc :=
| LIdle
| LTry (r : lreq) (todo : list (N * N)) (taken : list N)  (* next: the head of [todo] *)
| LBack (rest : list N)                                   (* locks.go:62, 72-75, 135: add -1 to the head *)
| LUnlock (rest : list N)                                 (* add 1 to the head *)
| LPanic.                                                 (* locks.go:93, 100, 108, 151, 159, 179 *)

(** A goroutine: program counter and the lock calls that returned true and were not undone. *)
Record lgor := LGor { l_pc : lpc; l_held : list lreq }.

(** All lock words; [lk_done w] counts, as a ghost, the completed unlocks of word [w]. *)
Record lsys := LSys { lk_mem : mem; lk_done : mem; lk_gors : list lgor }.

Definition lsys0 (m : nat) : lsys := LSys mempty mempty (replicate m (LGor LIdle [])).

(** Calls an idle goroutine may start: lock any nodes with any expected generations; unlock
    the nodes of its [i]-th successful lock call. *)
Inductive lcall := CLock (r : lreq) | CUnlock (i : nat).

Definition lput (s : lsys) (t : nat) (l d : mem) (g : lgor) : lsys := LSys l d (<[t := g]> (lk_gors s)).

Definition lstep (s : lsys) (t : nat) (c : lcall) : option lsys :=
  match lk_gors s !! t with
  | None => None
  | Some g =>
    let l := lk_mem s in let d := lk_done s in
    match l_pc g with
    | LIdle =>
      match c with
      | CLock r => Some (lput s t l d (LGor (if lodd r then LIdle else LTry r (lplan r) []) (l_held g)))
      | CUnlock i =>
        match l_held g !! i with
        | None => None
        | Some r => Some (lput s t l d (LGor (LUnlock (uplan r)) (delete i (l_held g))))
        end
      end
    | LTry r [] _ => Some (lput s t l d (LGor LIdle (r :: l_held g)))             (* return true *)
    | LTry r ((w, e) :: todo) taken =>
      if lget l w =? e then Some (lput s t (mset l w (gen_inc e)) d (LGor (LTry r todo (taken ++ [w])) (l_held g)))
      else Some (lput s t l d (LGor (LBack taken) (l_held g)))
    | LBack [] => Some (lput s t l d (LGor LIdle (l_held g)))                     (* return false *)
    | LBack (w :: rest) => Some (lput s t (mset l w (gen_dec (lget l w))) d (LGor (LBack rest) (l_held g)))
    | LUnlock [] => Some (lput s t l d (LGor LIdle (l_held g)))
    | LUnlock (w :: rest) =>
      let e := gen_inc (lget l w) in
      Some (lput s t (mset l w e) (mset d w (lget d w + 1)) (LGor (if gen_odd e then LPanic else LUnlock rest) (l_held g)))
    | LPanic => None
    end
  end.

(** [lsteps s s']: some interleaving leads from [s] to [s']. *)
Inductive lsteps : lsys -> lsys -> Prop :=
| ls_refl s : lsteps s s
| ls_step s s1 t c s2 : lsteps s s1 -> lstep s1 t c = Some s2 -> lsteps s s2.

Definition lreach (m : nat) (s : lsys) : Prop := lsteps (lsys0 m) s.

Fixpoint lrun (s : lsys) (l : list (nat * lcall)) : option lsys :=
  match l with
  | [] => Some s
  | (t, c) :: r => match lstep s t c with Some s' => lrun s' r | None => None end
  end.

(** The lock words of the nodes of a call. *)
Definition lwords (r : lreq) : list N :=
  match lnorm r with
  | L1 n _ => [lock_id n]
  | L2 n _ p _ => [lock_id n; lock_id p]
  | L3 c _ n _ p _ => [lock_id c; lock_id n; lock_id p]
  end.

(** Goroutine [t] has locked, by a call that returned true, a node whose lock word is [w]. *)
Definition lholds (s : lsys) (t : nat) (w : N) : Prop :=
  exists g r, lk_gors s !! t = Some g /\ r ∈ l_held g /\ w ∈ lwords r.
