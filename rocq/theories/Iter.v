(** * Iter: iterators and counters (models of /repo/iterator.go and counter.go). *)
From Verif Require Export Delete.

(** iterator.go:9 *)
Definition defaultPrefetchLength : nat := 256.

(** iterator.go:12-16 [position]. *)
Record position := Pos { pos_node : N; pos_k : nat; pos_more : bool }.

(** iterator.go:23-32 [Iterator].  [it_stack] is the Go slice reversed: its head is the
    top of the stack.  The field [idx] is passed as the tree argument. *)
Record iter := Iter {
  it_value : N;
  it_stack : list position;
  it_prefetched : list N;
  it_pp : nat;
  it_prefix : list N;
  it_resume : list N;
  it_done : bool
}.

(** iterator.go:40-45 [NewIterator], 269-277 [Reset]. *)
Definition new_iter (prefix : list N) : iter := Iter 0 [] [] 0 prefix [] false.

(** iterator.go:126-131 and 186-193: first index >= [k] below [k+n] holding a non-zero word,
    or [k+n]. *)
Fixpoint next_nonzero (m : mem) (base : N) (k n : nat) : nat :=
  match n with
  | O => k
  | S n' => if mget m (base + N.of_nat k) =? 0 then next_nonzero m base (S k) n' else k
  end.

(** iterator.go:142-154: first child with byte equal to [c]. *)
Fixpoint find_byte (m : mem) (base : N) (c : N) (i n : nat) : option (nat * N) :=
  match n with
  | O => None
  | S n' =>
    let a := mget m (base + N.of_nat i) in
    if to_byte a =? c then Some (i, a) else find_byte m base c (S i) n'
  end.

(** iterator.go:96-159: walk down [resumeAt], building the stack. *)
Fixpoint pre_loop (fuel : nat) (s : tree) (resume : list N) (k : nat) (raw : N) (stack : list position)
  : res (N * nat * list position) :=
  match fuel with
  | O => NoFuel
  | S fuel' =>
    if (length resume <=? k)%nat then Ok (raw, O, stack)
    else
      let '(_, node, count, prefixLen) := explodeNode raw in
      do data <- node_data s node;
      do (plen, _, data1) <- skip_prefix (t_mem s) data prefixLen;
      let k := (k + plen)%nat in
      if (length resume <=? k)%nat then Ok (raw, O, stack)
      else
        do c <- key_at resume k;
        if (fullAllocFrom <=? count)%nat then
          do a <- sl_get (t_mem s) data1 (N.to_nat c);
          if negb (a =? 0) && (to_byte a =? c) then
            if isLeaf a then Ok (raw, N.to_nat c, stack)
            else
              do _ <- sl_upto data1 count;
              let next := next_nonzero (t_mem s) (sl_base data1) (S (N.to_nat c)) (count - S (N.to_nat c)) in
              pre_loop fuel' s resume (S k) a (Pos raw next (next <? count)%nat :: stack)
          else Ok (raw, O, stack)
        else
          do _ <- sl_upto data1 count;
          match find_byte (t_mem s) (sl_base data1) c 0 count with
          | Some (l, a) =>
            if isLeaf a then Ok (raw, l, stack)
            else pre_loop fuel' s resume (S k) a (Pos raw (S l) (S l <? count)%nat :: stack)
          | None => Ok (raw, O, stack)
          end
  end.

(** iterator.go:178-201: children [k] .. [k+n-1]; leaves are appended to [pre], the first
    child node (index and word) ends the loop. *)
Fixpoint scan_children (m : mem) (base : N) (k n : nat) (pre : list N) : list N * option (nat * N) :=
  match n with
  | O => (pre, None)
  | S n' =>
    let a := mget m (base + N.of_nat k) in
    if a =? 0 then scan_children m base (S k) n' pre
    else if isLeaf a then scan_children m base (S k) n' (pre ++ [getLeafValue a])
    else (pre, Some (k, a))
  end.

(** iterator.go:235-241: drop exhausted positions from the top, but never the bottom one. *)
Fixpoint trim_stack (stack : list position) : list position :=
  match stack with
  | [] => []
  | [p] => [p]
  | p :: rest => if pos_more p then stack else trim_stack rest
  end.

(** iterator.go:245-260: the resume key, from the bottom of the stack (here: a list in Go
    order); [j] is the index in the stack. *)
Fixpoint resume_key (s : tree) (j : nat) (stack : list position) : res (list N) :=
  match stack with
  | [] => Ok []
  | pos :: rest =>
    let '(key, node, _, prefixLen) := explodeNode (pos_node pos) in
    do data <- node_data s node;
    do (prefix, pslots) <- append_prefix (t_mem s) data prefixLen;
    let here := (if (0 <? j)%nat then [key] else []) ++ prefix in
    match rest with
    | [] =>
      do a <- sl_get (t_mem s) data (pslots + pos_k pos);
      Ok (here ++ [to_byte a])
    | _ => do r <- resume_key s (S j) rest; Ok (here ++ r)
    end
  end.

(** iterator.go:164-219: the scan.  Result: prefetched values, done flag, resume key and
    final stack. *)
Fixpoint scan_loop (fuel : nat) (s : tree) (raw : N) (nextChild : nat) (stack : list position)
    (pre : list N) (resume : list N) : res (list N * bool * list N * list position) :=
  match fuel with
  | O => NoFuel
  | S fuel' =>
    let '(_, node, count, prefixLen) := explodeNode raw in
    do data <- node_data s node;
    do (_, _, data1) <- skip_prefix (t_mem s) data prefixLen;
    do _ <- (if (nextChild <? count)%nat then sl_upto data1 count else Ok tt);
    let '(pre1, child) := scan_children (t_mem s) (sl_base data1) nextChild (count - nextChild) pre in
    match child with
    | Some (k, a) =>
      let next := if (fullAllocFrom <=? count)%nat
                  then next_nonzero (t_mem s) (sl_base data1) (S k) (count - S k)
                  else S k in
      scan_loop fuel' s a 0 (Pos raw next (next <? count)%nat :: stack) pre1 resume
    | None =>
      match stack with
      | [] => Ok (pre1, true, resume, [])
      | pos :: rest =>
        if (defaultPrefetchLength <? length pre1)%nat then
          let st := trim_stack stack in
          do r <- resume_key s 0 (rev st);
          Ok (pre1, false, r, st)
        else scan_loop fuel' s (pos_node pos) (pos_k pos) rest pre1 resume
      end
    end
  end.

(** iterator.go:51-231 [Next].  The allocator is taken from the pool, makes a
    reservation and is given back (lines 68-69, 221-222): no net effect on the tree. *)
Definition it_next (fuel : nat) (s : tree) (it : iter) : res (bool * iter) :=
  match it_prefetched it !! it_pp it with
  | Some v => Ok (true, Iter v (it_stack it) (it_prefetched it) (S (it_pp it)) (it_prefix it) (it_resume it) (it_done it))
  | None =>
    if it_done it then Ok (false, it)
    else
      do (raw, _) <- partial_search s (it_prefix it);
      if raw =? 0 then
        Ok (false, Iter (it_value it) [] (it_prefetched it) (it_pp it) (it_prefix it) (it_resume it) true)
      else if isLeaf raw then
        Ok (true, Iter (getLeafValue raw) [] (it_prefetched it) 0 (it_prefix it) (it_resume it) true)
      else
        do (raw1, nextChild, stack) <- pre_loop (S (length (it_resume it))) s (it_resume it) 0 raw [];
        do (pre, done, resume, stack1) <- scan_loop fuel s raw1 nextChild stack [] (it_resume it);
        match pre with
        | v :: _ => Ok (true, Iter v stack1 pre 1 (it_prefix it) resume done)
        | [] => Ok (false, Iter (it_value it) stack1 pre (it_pp it) (it_prefix it) resume done)
        end
  end.

(** A client loop "for it.Next() { collect it.Value() }" cut after [calls] calls of [Next].
    The boolean tells whether [Next] returned false (iteration ended). *)
Fixpoint it_collect (fuel calls : nat) (s : tree) (it : iter) : res (list N * bool) :=
  match calls with
  | O => Ok ([], false)
  | S calls' =>
    do (more, it1) <- it_next fuel s it;
    if more then do (vs, e) <- it_collect fuel calls' s it1; Ok (it_value it1 :: vs, e)
    else Ok ([], true)
  end.

(** ** Counter *)

(** counter.go:14-24 [Counter]; [Elapsed] is not modelled. *)
Record counter := Counter {
  c_nodesWithPrefix : nat;
  c_nodeSizes : list nat;
  c_totalPrefixLength : nat;
  c_totalPrefixBytes : nat;
  c_largePrefixes : nat
}.

(** counter.go:27-32 [NewCounter] / 34-43 [reset]. *)
Definition counter0 : counter := Counter 0 (replicate 257 O) 0 0 0.

(** counter.go:69-82: account for a visited node. *)
Definition count_node (c : counter) (count prefixLen plen slots : nat) : counter :=
  let c1 := if (0 <? prefixLen)%nat
            then Counter (S (c_nodesWithPrefix c)) (c_nodeSizes c)
                   (c_totalPrefixLength c + plen) (c_totalPrefixBytes c + slots * 8)
                   (c_largePrefixes c + (if (prefixLen =? 255)%nat then 1 else 0))
            else c in
  Counter (c_nodesWithPrefix c1) (alter S count (c_nodeSizes c1)) (c_totalPrefixLength c1)
    (c_totalPrefixBytes c1) (c_largePrefixes c1).

(** counter.go:84-108: children [k] .. [k+n-1]. *)
Fixpoint count_children (m : mem) (base : N) (k n : nat) (leaves : nat) : nat * option (nat * N) :=
  match n with
  | O => (leaves, None)
  | S n' =>
    let a := mget m (base + N.of_nat k) in
    if a =? 0 then count_children m base (S k) n' leaves
    else if isLeaf a then count_children m base (S k) n' (S leaves)
    else (leaves, Some (k, a))
  end.

(** counter.go:65-113: the loop of [Count]; the stack holds (raw, nextChild), top first. *)
Fixpoint count_loop (fuel : nat) (s : tree) (raw : N) (nextChild : nat) (stack : list (N * nat))
    (nodes leaves : nat) (c : counter) : res (nat * nat * counter) :=
  match fuel with
  | O => NoFuel
  | S fuel' =>
    let '(_, node, count, prefixLen) := explodeNode raw in
    do data <- node_data s node;
    do (plen, slots, data1) <- skip_prefix (t_mem s) data prefixLen;
    do _ <- (if (nextChild <? count)%nat then sl_upto data1 count else Ok tt);
    let c1 := count_node c count prefixLen plen slots in
    let '(leaves1, child) := count_children (t_mem s) (sl_base data1) nextChild (count - nextChild) leaves in
    match child with
    | Some (k, a) =>
      let next := if (fullAllocFrom <=? count)%nat
                  then next_nonzero (t_mem s) (sl_base data1) (S k) (count - S k)
                  else S k in
      let stack1 := if (next <? count)%nat then (raw, next) :: stack else stack in
      count_loop fuel' s a 0 stack1 (S nodes) leaves1 c1
    | None =>
      match stack with
      | [] => Ok (nodes, leaves1, c1)
      | (raw', next') :: rest => count_loop fuel' s raw' next' rest nodes leaves1 c1
      end
    end
  end.

(** counter.go:46-117 [Count]. *)
Definition count (fuel : nat) (s : tree) (sp : list N) : res (nat * nat * counter) :=
  do (raw, _) <- partial_search s sp;
  if raw =? 0 then Ok (O, O, counter0)
  else if isLeaf raw then Ok (O, 1%nat, counter0)
  else count_loop fuel s raw 0 [] 1 0 counter0.
