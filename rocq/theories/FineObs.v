(** * FineObs: Iterator.Next and Counter.Count as sequences of single memory accesses, interrupted anywhere by the
    steps of other clients.  Iter.v has the same calls as single steps; FineObsExec.v proves that the programs here, run
    without interruption, give exactly those.  As there, bounds checks of slices that a loop runs over are made once
    before the loop. *)
From Verif Require Export FineRun Iter.

(** ** Building blocks *)

(** radix.go:327-388: the loop of [partialSearch]. *)
Fixpoint p_partial_loop (fuel : nat) (sp : list N) (raw : N) (depth : nat) : prog (N * nat) :=
  match fuel with
  | O => Stop Fuel
  | S fuel' =>
    let '(_, node, count, prefixLen) := explodeNode raw in
    if (length sp <=? depth)%nat then Ret (raw, depth)
    else
      run data <- p_data node;
      run (buf, slots) <- p_append data prefixLen;
      run data1 <- of_res (sl_from data slots);
      match prefix_cmp sp depth buf 0 with
      | PExhausted => Ret (raw, depth)
      | PMismatch _ => Ret (0, O)
      | PMatch =>
        if (length sp <=? depth + length buf)%nat then Ret (raw, depth)
        else
          let depth := (depth + length buf)%nat in
          run k <- of_res (key_at sp depth);
          if (fullAllocFrom <=? count)%nat then
            run a <- p_get data1 (N.to_nat k);
            if a =? 0 then Ret (0, O)
            else if isLeaf a then Ret (a, depth)
            else p_partial_loop fuel' sp a (S depth)
          else
            run _ <- of_res (sl_upto data1 count);
            run (_, _, a) <- p_scan (sl_base data1) k 0 count (O, 0);
            if to_byte a =? k then
              if isLeaf a then Ret (a, depth) else p_partial_loop fuel' sp a (S depth)
            else Ret (0, depth)
      end
  end.

(** radix.go:314-389 [partialSearch]; iterator.go:73-77 loads the root word itself if there is no prefix, which is
    the same access. *)
Definition p_partial (sp : list N) : prog (N * nat) :=
  run root <- p_load PRoot;
  match sp with
  | [] => Ret (root, O)
  | c :: _ =>
    if isLeaf root then (if to_byte root =? c then Ret (root, O) else Ret (0, O))
    else p_partial_loop (S (length sp)) sp root 0
  end.

(** iterator.go:126-131 and 186-193, counter.go:93-98. *)
Fixpoint p_nonzero (base : N) (k n : nat) : prog nat :=
  match n with
  | O => Ret k
  | S n' => run a <- p_load (PSlot (base + N.of_nat k)); if a =? 0 then p_nonzero base (S k) n' else Ret k
  end.

(** iterator.go:142-154 *)
Fixpoint p_find (base : N) (c : N) (i n : nat) : prog (option (nat * N)) :=
  match n with
  | O => Ret None
  | S n' =>
    run a <- p_load (PSlot (base + N.of_nat i));
    if to_byte a =? c then Ret (Some (i, a)) else p_find base c (S i) n'
  end.

(** ** Next *)

(** iterator.go:96-159 *)
Fixpoint p_pre_loop (fuel : nat) (resume : list N) (k : nat) (raw : N) (stack : list position) : prog (N * nat * list position) :=
  match fuel with
  | O => Stop Fuel
  | S fuel' =>
    if (length resume <=? k)%nat then Ret (raw, O, stack)
    else
      let '(_, node, count, prefixLen) := explodeNode raw in
      run data <- p_data node;
      run (plen, _, data1) <- p_skip data prefixLen;
      let k := (k + plen)%nat in
      if (length resume <=? k)%nat then Ret (raw, O, stack)
      else
        run c <- of_res (key_at resume k);
        if (fullAllocFrom <=? count)%nat then
          run a <- p_get data1 (N.to_nat c);
          if negb (a =? 0) && (to_byte a =? c) then
            if isLeaf a then Ret (raw, N.to_nat c, stack)
            else
              run _ <- of_res (sl_upto data1 count);
              run next <- p_nonzero (sl_base data1) (S (N.to_nat c)) (count - S (N.to_nat c));
              p_pre_loop fuel' resume (S k) a (Pos raw next (next <? count)%nat :: stack)
          else Ret (raw, O, stack)
        else
          run _ <- of_res (sl_upto data1 count);
          run r <- p_find (sl_base data1) c 0 count;
          match r with
          | Some (l, a) =>
            if isLeaf a then Ret (raw, l, stack)
            else p_pre_loop fuel' resume (S k) a (Pos raw (S l) (S l <? count)%nat :: stack)
          | None => Ret (raw, O, stack)
          end
  end.

(** iterator.go:178-201 *)
Fixpoint p_children (base : N) (k n : nat) (pre : list N) : prog (list N * option (nat * N)) :=
  match n with
  | O => Ret (pre, None)
  | S n' =>
    run a <- p_load (PSlot (base + N.of_nat k));
    if a =? 0 then p_children base (S k) n' pre
    else if isLeaf a then p_children base (S k) n' (pre ++ [getLeafValue a])
    else Ret (pre, Some (k, a))
  end.

(** iterator.go:245-260 *)
Fixpoint p_resume_key (j : nat) (stack : list position) : prog (list N) :=
  match stack with
  | [] => Ret []
  | pos :: rest =>
    let '(key, node, _, prefixLen) := explodeNode (pos_node pos) in
    run data <- p_data node;
    run (prefix, pslots) <- p_append data prefixLen;
    let here := (if (0 <? j)%nat then [key] else []) ++ prefix in
    match rest with
    | [] =>
      run a <- p_get data (pslots + pos_k pos);
      Ret (here ++ [to_byte a])
    | _ => run r <- p_resume_key (S j) rest; Ret (here ++ r)
    end
  end.

(** iterator.go:164-219 *)
Fixpoint p_scan_loop (fuel : nat) (raw : N) (nextChild : nat) (stack : list position)
    (pre : list N) (resume : list N) : prog (list N * bool * list N * list position) :=
  match fuel with
  | O => Stop Fuel
  | S fuel' =>
    let '(_, node, count, prefixLen) := explodeNode raw in
    run data <- p_data node;
    run (_, _, data1) <- p_skip data prefixLen;
    run _ <- of_res (if (nextChild <? count)%nat then sl_upto data1 count else Ok tt);
    run (pre1, child) <- p_children (sl_base data1) nextChild (count - nextChild) pre;
    match child with
    | Some (k, a) =>
      run next <- (if (fullAllocFrom <=? count)%nat then p_nonzero (sl_base data1) (S k) (count - S k) else Ret (S k));
      p_scan_loop fuel' a 0 (Pos raw next (next <? count)%nat :: stack) pre1 resume
    | None =>
      match stack with
      | [] => Ret (pre1, true, resume, [])
      | pos :: rest =>
        if (defaultPrefetchLength <? length pre1)%nat then
          let st := trim_stack stack in
          run r <- p_resume_key 0 (rev st);
          Ret (pre1, false, r, st)
        else p_scan_loop fuel' (pos_node pos) (pos_k pos) rest pre1 resume
      end
    end
  end.

(** iterator.go:51-231 [Next], between [startOp] and [endOp].  In the code the first two cases (51-66) return before
    [startOp]; here the call makes a reservation even then, and makes no access. *)
Definition p_next (fuel : nat) (it : iter) : prog (bool * iter) :=
  match it_prefetched it !! it_pp it with
  | Some v => Ret (true, Iter v (it_stack it) (it_prefetched it) (S (it_pp it)) (it_prefix it) (it_resume it) (it_done it))
  | None =>
    if it_done it then Ret (false, it)
    else
      run (raw, _) <- p_partial (it_prefix it);
      if raw =? 0 then
        Ret (false, Iter (it_value it) [] (it_prefetched it) (it_pp it) (it_prefix it) (it_resume it) true)
      else if isLeaf raw then
        Ret (true, Iter (getLeafValue raw) [] (it_prefetched it) 0 (it_prefix it) (it_resume it) true)
      else
        run (raw1, nextChild, stack) <- p_pre_loop (S (length (it_resume it))) (it_resume it) 0 raw [];
        run (pre, done, resume, stack1) <- p_scan_loop fuel raw1 nextChild stack [] (it_resume it);
        match pre with
        | v :: _ => Ret (true, Iter v stack1 pre 1 (it_prefix it) resume done)
        | [] => Ret (false, Iter (it_value it) stack1 pre (it_pp it) (it_prefix it) resume done)
        end
  end.

(** ** Count *)

(** counter.go:84-108 *)
Fixpoint p_count_children (base : N) (k n : nat) (leaves : nat) : prog (nat * option (nat * N)) :=
  match n with
  | O => Ret (leaves, None)
  | S n' =>
    run a <- p_load (PSlot (base + N.of_nat k));
    if a =? 0 then p_count_children base (S k) n' leaves
    else if isLeaf a then p_count_children base (S k) n' (S leaves)
    else Ret (leaves, Some (k, a))
  end.

(** counter.go:65-113 *)
Fixpoint p_count_loop (fuel : nat) (raw : N) (nextChild : nat) (stack : list (N * nat))
    (nodes leaves : nat) (c : counter) : prog (nat * nat * counter) :=
  match fuel with
  | O => Stop Fuel
  | S fuel' =>
    let '(_, node, count, prefixLen) := explodeNode raw in
    run data <- p_data node;
    run (plen, slots, data1) <- p_skip data prefixLen;
    run _ <- of_res (if (nextChild <? count)%nat then sl_upto data1 count else Ok tt);
    let c1 := count_node c count prefixLen plen slots in
    run (leaves1, child) <- p_count_children (sl_base data1) nextChild (count - nextChild) leaves;
    match child with
    | Some (k, a) =>
      run next <- (if (fullAllocFrom <=? count)%nat then p_nonzero (sl_base data1) (S k) (count - S k) else Ret (S k));
      let stack1 := if (next <? count)%nat then (raw, next) :: stack else stack in
      p_count_loop fuel' a 0 stack1 (S nodes) leaves1 c1
    | None =>
      match stack with
      | [] => Ret (nodes, leaves1, c1)
      | (raw', next') :: rest => p_count_loop fuel' raw' next' rest nodes leaves1 c1
      end
    end
  end.

(** counter.go:46-117 [Count], between [startOp] and [endOp]. *)
Definition p_count (fuel : nat) (sp : list N) : prog (nat * nat * counter) :=
  run (raw, _) <- p_partial sp;
  if raw =? 0 then Ret (O, O, counter0)
  else if isLeaf raw then Ret (O, 1%nat, counter0)
  else p_count_loop fuel raw 0 [] 1 0 counter0.

(** ** Histories *)

(** The calls, with a bound on the rounds of their loops: with other clients at work there is none in the code.  A call
    that has used up its rounds makes no further step. *)
Inductive ocall :=
| ONext (fuel : nat) (it : iter)
| OCount (fuel : nat) (sp : list N).

Inductive oreply :=
| RNext (more : bool) (it : iter)
| RCount (nodes leaves : nat) (c : counter).

Definition oprogram (c : ocall) : prog oreply :=
  match c with
  | ONext fuel it => run (more, it') <- p_next fuel it; Ret (RNext more it')
  | OCount fuel sp => run (nodes, leaves, cnt) <- p_count fuel sp; Ret (RCount nodes leaves cnt)
  end.

(** The prefix asked for, and the key at which the iterator resumes. *)
Definition oprefix (c : ocall) : list N := match c with ONext _ it => it_prefix it | OCount _ sp => sp end.
Definition oresume (c : ocall) : list N := match c with ONext _ it => it_resume it | OCount _ sp => [] end.

(** As [job] in FineRun.v. *)
Inductive ojob :=
| OWaiting (c : ocall) (e : N)
| ORunning (c : ocall) (p : prog oreply).

(** The clients of FineRun.v and those that iterate or count. *)
Record osys := OSys { os_f : fsys; os_obs : gmap nat ojob }.
Definition os_sys (x : osys) : sys := fs_sys (os_f x).

Definition oinit (n : nat) : osys := OSys (finit n) ∅.

Inductive oevent :=
| OF (e : event)                                   (* a step of FineRun.v *)
| OBegin (aid : nat) (c : ocall)                   (* iterator.go:69, counter.go:52: startOp loads the epoch *)
| OResv (aid : nat) (c : ocall)                    (* and stores the reservation *)
| OAct (aid : nat) (a : act)                       (* one access *)
| OReturn (aid : nat) (c : ocall) (r : oreply).    (* endOp *)

(** The client that a step of FineRun.v starts a call for. *)
Definition begins (e : event) (aid : nat) : Prop := match e with EBegin c => job_of c = Some aid | _ => False end.
Definition restarts (e : event) : Prop := match e with ECall c _ => is_restart c | _ => False end.

Section Obs.
Context (K : list N -> Prop) (fetch : N -> list N).

Inductive ostep : osys -> oevent -> osys -> Prop :=
| os_other f f' obs e :
    fstep K fetch f e f' -> (forall aid, begins e aid -> obs !! aid = None) -> (restarts e -> obs = ∅) ->
    ostep (OSys f obs) (OF e) (OSys f' obs)
| os_begin f obs aid c :
    (aid < naids (fs_sys f))%nat -> sy_open (fs_sys f) !! aid = None -> fs_jobs f !! aid = None -> obs !! aid = None ->
    bytes (oprefix c) -> bytes (oresume c) ->
    ostep (OSys f obs) (OBegin aid c) (OSys f (<[aid := OWaiting c (t_epoch (sy_tree (fs_sys f)))]> obs))
| os_resv y jobs obs aid c e :
    obs !! aid = Some (OWaiting c e) ->
    ostep (OSys (FSys y jobs) obs) (OResv aid c)
      (OSys (FSys (Sys (set_resv (sy_tree y) (<[aid := e]> (t_resv (sy_tree y)))) (<[aid := HP [] false]> (sy_open y))) jobs)
            (<[aid := ORunning c (oprogram c)]> obs))
| os_act f obs aid c a k v s' :
    obs !! aid = Some (ORunning c (Act a k)) -> do_act (sy_tree (fs_sys f)) a = Ok (v, s') ->
    ostep (OSys f obs) (OAct aid a)
      (OSys (FSys (Sys s' (sy_open (fs_sys f))) (fs_jobs f)) (<[aid := ORunning c (k v)]> obs))
| os_return y jobs obs aid c r :
    obs !! aid = Some (ORunning c (Ret r)) ->
    ostep (OSys (FSys y jobs) obs) (OReturn aid c r)
      (OSys (FSys (Sys (end_op (sy_tree y) aid) (delete aid (sy_open y))) jobs) (delete aid obs)).

Inductive oruns (P : sys -> Prop) (n : nat) : list oevent -> osys -> Prop :=
| oruns_nil : P (init n) -> oruns P n [] (oinit n)
| oruns_snoc tr x e x' : oruns P n tr x -> ostep x e x' -> P (os_sys x') -> oruns P n (tr ++ [e]) x'.
End Obs.

(** What a history means.  Next and Count count as calls of Lookup that make no step. *)
Definition as_lookup (e : oevent) : list event :=
  match e with
  | OF e => [e]
  | OBegin aid _ => [EBegin (CLookup aid [0])]
  | OResv aid _ => [EResv (CLookup aid [0])]
  | OAct _ _ => []
  | OReturn aid _ _ => [EReturn aid (CLookup aid [0]) (RLookup 0 false)]
  end.
Definition lookups (tr : list oevent) : list event := tr ≫= as_lookup.
Definition oreplay (tr : list oevent) : hist := freplay (lookups tr).

(** As [freachable]. *)
Record oreachable (K : list N -> Prop) (fetch : N -> list N) (n : nat) (tr : list oevent) (x : osys) : Prop := {
  or_univ : universe K;
  or_runs : oruns K fetch unshared n tr x;
  or_len : ncalls (lookups tr) < maxUint64;
  or_calm : calm (lookups tr)
}.
