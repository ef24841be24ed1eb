(** * Fine: Lookup, PrepareUpdate and PrepareDelete as sequences of single memory accesses.
    Api.v makes every call one step.  Here these three calls are programs: every load of a word
    of the tree, every load of a lock word and every compare-and-swap is a separate step, and
    steps of other clients happen in between.  Finalize, Abort, FlushStats and restarts stay one
    step.  [exec] runs a program without interruption; FineExec.v proves that this gives exactly
    [Search.lookup], [prepare_update] and [prepare_delete]. *)
From Verif Require Export Spec.

(** ** Programs *)

(** The accesses to shared memory.  [ALoad]: a word of a node or the root word (update.go:105,
    150; unsafe.go:30-56 reads prefixes with memmove, here word by word).  [ABlock]: the nil check of
    [idx.blocks[block]] (locks.go:31, radix.go:522).  [AGen]: locks.go:31.  [ACas], [ABack]: the
    CompareAndSwapInt32 and AddInt32(-1) of locks.go:42-172.  [ARootCas], [ARootBack]:
    locks.go:14 and 18. *)
Inductive act :=
| ALoad (p : ptr)
| ABlock (node : N)
| AGen (i : N)
| ACas (i g : N)
| ABack (i : N)
| ARootCas
| ARootBack.

(** Why a program stops before its end: a Go panic, or a jump to label S (update.go:104,
    delete.go:79) after which it starts again; [Fuel] as in [NoFuel]. *)
Inductive stop := Crash (w : why) | Again | Fuel.

Inductive prog (A : Type) :=
| Ret (a : A)
| Stop (e : stop)
| Act (a : act) (k : N -> prog A).
Arguments Ret {A} a.
Arguments Stop {A} e.
Arguments Act {A} a k.

Fixpoint pbind {A B} (p : prog A) (k : A -> prog B) : prog B :=
  match p with
  | Ret a => k a
  | Stop e => Stop e
  | Act a c => Act a (fun v => pbind (c v) k)
  end.
Notation "'run' x <- e ; k" := (pbind e (fun x => k))
  (at level 200, x pattern, e at level 100, k at level 200, right associativity).

Definition of_res {A} (r : res A) : prog A :=
  match r with
  | Ok a => Ret a
  | Panic w => Stop (Crash w)
  | Retry => Stop Again
  | NoFuel => Stop Fuel
  end.

(** One access. *)
Definition do_act (s : tree) (a : act) : res (N * tree) :=
  match a with
  | ALoad p => Ok (pget s p, s)
  | ABlock node => do _ <- node_data s node; Ok (0, s)
  | AGen i => Ok (lget (t_locks s) i, s)
  | ACas i g =>
    match lock_cas (t_locks s) i g (gen_inc g) with
    | Some l => Ok (1, set_locks s l)
    | None => Ok (0, s)
    end
  | ABack i => Ok (0, set_locks s (mset (t_locks s) i (gen_dec (lget (t_locks s) i))))
  | ARootCas => if t_rootLock s =? 0 then Ok (1, set_rootLock s 1) else Ok (0, s)
  | ARootBack => Ok (0, unlock_root s)
  end.

(** The whole program at once. *)
Fixpoint exec {A} (p : prog A) (s : tree) : res (A * tree) :=
  match p with
  | Ret a => Ok (a, s)
  | Stop (Crash w) => Panic w
  | Stop Again => Retry
  | Stop Fuel => NoFuel
  | Act a k => do (v, s1) <- do_act s a; exec (k v) s1
  end.

(** ** Building blocks *)

Definition p_load (p : ptr) : prog N := Act (ALoad p) Ret.
Definition p_data (node : N) : prog slice :=
  Act (ABlock node) (fun _ => Ret (Slice node (blockSlots - offset_of node))).
(** [data[i]] *)
Definition p_get (d : slice) (i : nat) : prog N :=
  if N.of_nat i <? sl_len d then p_load (PSlot (sl_base d + N.of_nat i)) else Stop (Crash OutOfRange).
Definition p_gen (node : N) : prog N := Act (ABlock node) (fun _ => Act (AGen (lock_id node)) Ret).

(** Skipping the prefix, e.g. radix.go:524-534 (only a length of 255 needs a load). *)
Definition p_skip (d : slice) (len : nat) : prog (nat * nat * slice) :=
  match len with
  | O => Ret (O, O, d)
  | _ =>
    run (n, slots) <-
      (if (len =? 255)%nat
       then run w <- p_get d 0; Ret (N.to_nat w, (N.to_nat w + 15) / 8)%nat
       else Ret (len, (len + 7) / 8)%nat);
    run d' <- of_res (sl_from d slots);
    Ret (n, slots, d')
  end.

(** The words of a memory range, one load each, and the bytes they hold. *)
Fixpoint p_words (base : N) (n : nat) : prog (list N) :=
  match n with
  | O => Ret []
  | S n' => run w <- p_load (PSlot base); run ws <- p_words (base + 1) n'; Ret (w :: ws)
  end.
Definition word_byte (ws : list N) (j : nat) : N :=
  to_byte (N.shiftr (nth (j / 8) ws 0) (8 * N.of_nat (j mod 8))).

(** unsafe.go:30-56 [appendPrefix]. *)
Definition p_append (src : slice) (len : nat) : prog (list N * nat) :=
  match len with
  | O => Ret ([], O)
  | _ =>
    run (n, slots, s1) <-
      (if (len =? 255)%nat
       then run w <- p_get src 0;
            run s' <- of_res (sl_from src 1);
            Ret (N.to_nat w, (N.to_nat w + 15) / 8, s')%nat
       else Ret (len, (len + 7) / 8, src)%nat);
    if (n =? 0)%nat then Stop (Crash OutOfRange)
    else if sl_len s1 =? 0 then Stop (Crash OutOfRange)
    else if 8 * sl_len s1 <? N.of_nat n then Stop (Crash UnsafeOverrun)
    else run ws <- p_words (sl_base s1) ((n + 7) / 8); Ret (map (word_byte ws) (seq 0 n), slots)
  end.

(** The loop over the children of a variable sized node, e.g. radix.go:555-561. *)
Fixpoint p_scan (base : N) (k : N) (i : nat) (n : nat) (last : nat * N) : prog (bool * nat * N) :=
  match n with
  | O => Ret (false, fst last, snd last)
  | S n' =>
    run a <- p_load (PSlot (base + N.of_nat i));
    if k <=? to_byte a then Ret (true, i, a) else p_scan base k (S i) n' (i, a)
  end.

(** ** Lookup (radix.go:508-572) *)

Fixpoint p_search_loop (fuel : nat) (key : list N) (node : N) (count prefixLen depth : nat) : prog (N * bool) :=
  match fuel with
  | O => Stop Fuel
  | S fuel' =>
    run data <- p_data node;
    run (plen, _, data1) <- p_skip data prefixLen;
    let depth := (depth + plen)%nat in
    if (length key <=? depth)%nat then Ret (0, false)
    else
      run k <- of_res (key_at key depth);
      if (fullAllocFrom <=? count)%nat then
        run a <- p_get data1 (N.to_nat k);
        if a =? 0 then Ret (0, false)
        else if isLeaf a then Ret (getLeafValue a, true)
        else let '(_, node', count', prefixLen') := explodeNode a in
             p_search_loop fuel' key node' count' prefixLen' (S depth)
      else
        run _ <- of_res (sl_upto data1 count);
        run (_, _, a) <- p_scan (sl_base data1) k 0 count (O, 0);
        if to_byte a =? k then
          if isLeaf a then Ret (getLeafValue a, true)
          else let '(_, node', count', prefixLen') := explodeNode a in
               p_search_loop fuel' key node' count' prefixLen' (S depth)
        else Ret (0, false)
  end.

Definition p_search (key : list N) : prog (N * bool) :=
  run root <- p_load PRoot;
  if isLeaf root then
    run k <- of_res (key_at key 0);
    if to_byte root =? k then Ret (getLeafValue root, true) else Ret (0, false)
  else
    let '(_, node, count, prefixLen) := explodeNode root in
    p_search_loop (S (length key)) key node count prefixLen 0.

(** ** Locks (locks.go) *)

(** locks.go:13-22 *)
Definition p_lock_root (expected : N) : prog unit :=
  Act ARootCas (fun ok =>
    if ok =? 0 then Stop Again
    else Act (ALoad PRoot) (fun w =>
      if w =? expected then Ret tt else Act ARootBack (fun _ => Stop Again))).

(** locks.go:165-172 *)
Definition p_lock1 (node gen : N) : prog unit :=
  if gen_odd gen then Stop Again
  else Act (ACas (lock_id node) gen) (fun ok => if ok =? 0 then Stop Again else Ret tt).

(** locks.go:115-140 *)
Definition p_lock2 (node nodeGen parent parentGen : N) : prog unit :=
  if parent =? 0 then p_lock1 node nodeGen
  else if gen_odd nodeGen || gen_odd parentGen then Stop Again
  else Act (ACas (lock_id node) nodeGen) (fun ok =>
    if ok =? 0 then Stop Again
    else if lock_id parent =? lock_id node then Ret tt
    else Act (ACas (lock_id parent) parentGen) (fun ok =>
      if ok =? 0 then Act (ABack (lock_id node)) (fun _ => Stop Again) else Ret tt)).

(** locks.go:42-80 *)
Definition p_lock3 (child childGen node nodeGen parent parentGen : N) : prog unit :=
  if parent =? 0 then p_lock2 child childGen node nodeGen
  else if gen_odd childGen || gen_odd nodeGen || gen_odd parentGen then Stop Again
  else Act (ACas (lock_id child) childGen) (fun ok =>
    if ok =? 0 then Stop Again
    else
      let unique2 := negb (lock_id node =? lock_id child) in
      run _ <-
        (if unique2 then
           Act (ACas (lock_id node) nodeGen) (fun ok =>
             if ok =? 0 then Act (ABack (lock_id child)) (fun _ => Stop Again) else Ret tt)
         else Ret tt);
      if (lock_id parent =? lock_id child) || (lock_id parent =? lock_id node) then Ret tt
      else Act (ACas (lock_id parent) parentGen) (fun ok =>
        if ok =? 0 then
          Act (ABack (lock_id child)) (fun _ =>
            if unique2 then Act (ABack (lock_id node)) (fun _ => Stop Again) else Stop Again)
        else Ret tt)).

(** ** PrepareUpdate (update.go:99-259) *)

Fixpoint p_pu_loop (fuel : nat) (aid : nat) (key : list N)
    (raw : N) (np : ptr) (parent parentGen : N) (depth : nat) : prog (bool * uop) :=
  match fuel with
  | O => Stop Fuel
  | S fuel' =>
    let '(_, node, count, prefixLen) := explodeNode raw in
    run nodeGen <- p_gen node;
    run w <- p_load np;
    if negb (w =? raw) then Stop Again else
    run pg <- (if parent =? 0 then Ret parentGen else p_gen parent);
    if negb (pg =? parentGen) then Stop Again else
    run data <- p_data node;
    run (prefix, pslots) <- p_append data prefixLen;
    match prefix_cmp key depth prefix 0 with
    | PExhausted => Stop (Crash OutOfRange)
    | PMismatch i =>
      run k <- of_res (key_at key depth);
      run _ <- p_lock2 node nodeGen parent parentGen;
      Ret (false, Uop key 0 aid nodePrefixMiss k 0 node parent count depth prefix i np data pslots PRoot 0 raw)
    | PMatch =>
      run data1 <- of_res (sl_from data pslots);
      let depth := (depth + length prefix)%nat in
      run k <- of_res (key_at key depth);
      if (fullAllocFrom <=? count)%nat then
        run a <- p_get data1 (N.to_nat k);
        let p := PSlot (sl_base data1 + k) in
        if a =? 0 then
          run _ <- p_lock2 node nodeGen parent parentGen;
          Ret (false, Uop key 0 aid nodeLeafInsert256 k 0 node parent count depth prefix 0 np data pslots p 0 raw)
        else if isLeaf a then
          run _ <- p_lock2 node nodeGen parent parentGen;
          Ret (true, Uop key (getLeafValue a) aid nodeLeafUpdate256 k 0 node parent count depth prefix 0 np data pslots p a raw)
        else p_pu_loop fuel' aid key a p node nodeGen (S depth)
      else
        run _ <- of_res (sl_upto data1 count);
        run (brk, i, a) <- p_scan (sl_base data1) k 0 count (O, 0);
        let position := if brk : bool then i else count in
        let p := PSlot (sl_base data1 + N.of_nat i) in
        if to_byte a =? k then
          if isLeaf a then
            run _ <- p_lock2 node nodeGen parent parentGen;
            Ret (true, Uop key (getLeafValue a) aid nodeLeafUpdate k position node parent count depth prefix 0 np data pslots p a raw)
          else p_pu_loop fuel' aid key a p node nodeGen (S depth)
        else
          run _ <- p_lock2 node nodeGen parent parentGen;
          Ret (false, Uop key 0 aid nodeLeafInsert k position node parent count depth prefix 0 np data pslots PRoot 0 raw)
    end
  end.

Definition p_prepare_update (aid : nat) (key : list N) : prog (bool * uop) :=
  run root <- p_load PRoot;
  if root =? 0 then
    run _ <- p_lock_root root;
    run k <- of_res (key_at key 0);
    Ret (false, root_op key aid replaceEmptyRootWithLeaf k 0 0)
  else if isLeaf root then
    run _ <- p_lock_root root;
    run k <- of_res (key_at key 0);
    if to_byte root =? k
    then Ret (true, root_op key aid rootLeafUpdate k (getLeafValue root) root)
    else Ret (false, root_op key aid replaceLeafRootWithNode k 0 root)
  else p_pu_loop (S (length key)) aid key root PRoot 0 0 0.

(** ** PrepareDelete (delete.go:75-263) *)

Fixpoint p_pd_loop (fuel : nat) (aid : nat) (key : list N) (root : N)
    (raw : N) (np : ptr) (parent parentGen : N) (depth : nat) : prog (option dop) :=
  match fuel with
  | O => Stop Fuel
  | S fuel' =>
    let '(_, node, count, prefixLen) := explodeNode raw in
    run nodeGen <- p_gen node;
    run w <- p_load np;
    if negb (w =? raw) then Stop Again else
    run pg <- (if parent =? 0 then Ret parentGen else p_gen parent);
    if negb (pg =? parentGen) then Stop Again else
    run data <- p_data node;
    run (plen, pslots, data1) <- p_skip data prefixLen;
    let depth := (depth + plen)%nat in
    if (length key <=? depth)%nat then Ret None
    else
      run k <- of_res (key_at key depth);
      if (fullAllocFrom <=? count)%nat then
        run a <- p_get data1 (N.to_nat k);
        let p := PSlot (sl_base data1 + k) in
        if a =? 0 then Ret None
        else if isLeaf a then
          Ret (Some (Dop (getLeafValue a) aid deleteLeaf256 a p np parent node 0 data 0 count plen pslots 0 []))
        else p_pd_loop fuel' aid key root a p node nodeGen (S depth)
      else
        run _ <- of_res (sl_upto data1 count);
        run (_, i, a) <- p_scan (sl_base data1) k 0 count (O, 0);
        let p := PSlot (sl_base data1 + N.of_nat i) in
        if to_byte a =? k then
          if isLeaf a then
            if (count =? 2)%nat then
              run other <- p_get data1 (1 - i);
              if isLeaf other then
                run _ <- p_lock2 node nodeGen parent parentGen;
                run newLeaf <- of_res
                  (if raw =? root then
                     if (0 <? plen)%nat then do k0 <- key_at key 0; Ok (updateLeafKey other k0)
                     else Ok (updateLeafKey other (to_byte other))
                   else do kb <- key_at key (depth - plen - 1); Ok (updateLeafKey other kb));
                Ret (Some (Dop (getLeafValue a) aid replaceNodeWithLeaf raw PRoot np parent node 0 data newLeaf
                             count plen pslots i []))
              else
                let '(childKey, child, ccount, cplen) := explodeNode other in
                run childGen <- p_gen child;
                (* delete.go:208-211 *)
                run again <- p_get data1 (1 - i);
                if negb (again =? other) then Stop Again else
                run _ <- p_lock3 child childGen node nodeGen parent parentGen;
                run (prefix, _) <- p_append data prefixLen;
                run cdata <- p_data child;
                run (cprefix, cslots) <- p_append cdata cplen;
                Ret (Some (Dop (getLeafValue a) aid replaceNodeWithNode raw PRoot np parent node child cdata 0
                             ccount plen cslots i (prefix ++ [childKey] ++ cprefix)))
            else
              run _ <- p_lock2 node nodeGen parent parentGen;
              Ret (Some (Dop (getLeafValue a) aid deleteLeaf raw PRoot np parent node 0 data 0
                           count plen pslots i []))
          else p_pd_loop fuel' aid key root a p node nodeGen (S depth)
        else Ret None
  end.

Definition p_prepare_delete (aid : nat) (key : list N) : prog (option dop) :=
  run root <- p_load PRoot;
  if root =? 0 then Ret None
  else if isLeaf root then
    run k <- of_res (key_at key 0);
    if to_byte root =? k then
      run _ <- p_lock_root root;
      Ret (Some (Dop (getLeafValue root) aid deleteRoot root PRoot PRoot 0 0 0 no_slice 0 0 0 0 0 []))
    else Ret None
  else p_pd_loop (S (length key)) aid key root root PRoot 0 0 0.
