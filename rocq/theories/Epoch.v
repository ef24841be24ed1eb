(** * Epoch: the epoch protocol that protects readers against reuse of memory, one atomic
    operation per step (models of /repo/epoch.go and of startOp, endOp, recycle and newNode in
    /repo/allocator.go).

    Memory is abstract: a cell (8-byte slot) holds a list of the cells it points to (all slots of
    the child node; a leaf points nowhere).  What the writers of the tree do is reduced to four
    steps: take memory, fill memory that is not yet in the tree, change one pointer of the tree,
    recycle memory that has left the tree.  The rules for these steps (see [estep]) are the ones
    the Go code follows; that it does is the subject of C21 in the API model. *)
From Coq Require Export NArith List Lia.
From stdpp Require Export list.

(** maxUint64 ("no reservation") is [None]; the epoch is unbounded (no wrap after 2^64). *)
Definition epoch_lt (e : nat) (m : option nat) : Prop := match m with None => True | Some x => e < x end.
(** epoch.go:43-45. *)
Definition epoch_min (m r : option nat) : option nat :=
  match r, m with
  | None, _ => m
  | Some x, None => Some x
  | Some x, Some y => if x <? y then Some x else Some y
  end.

Inductive epc :=
| EIdle                                (* no operation open on this allocator *)
| ELoaded (e : nat)                    (* allocator.go:172: epoch loaded, not yet stored *)
| EActive                              (* between startOp and endOp *)
| EScan (i : nat) (m : option nat).    (* epoch.go:41-46 in newNode: next slot i, minimum so far *)

(** One allocator and its holder: the cells it knows pointers to since startOp, the recycler
    (items with their epoch, allocator.go:51-54; an item is the list of its cells), and cells it
    took with newNode and has not yet put into the tree.  [e_since] is a ghost: every cell that
    was in the tree at some time since startOp returned. *)
Record ecl := ECl {
  e_pc : epc;
  e_known : N -> Prop;
  e_rec : list (list N * nat);
  e_priv : list N;
  e_since : N -> Prop }.

Record est := ESt {
  e_epoch : nat;                       (* epoch.go:11 *)
  e_resv : list (option nat);          (* epoch.go:13 *)
  e_heap : N -> list N;
  e_root : list N;                     (* cells of the root node *)
  e_used : N -> Prop;                  (* ghost: cells ever handed out *)
  e_cls : list ecl }.

(** Reachable from the root word. *)
Inductive linked (h : N -> list N) (r : list N) : N -> Prop :=
| ln_root c : c ∈ r -> linked h r c
| ln_next c c' : linked h r c -> c' ∈ h c -> linked h r c'.

Definition tree_cell (s : est) (c : N) : Prop := linked (e_heap s) (e_root s) c.
Definition rec_cell (g : ecl) (c : N) : Prop := exists cs e, (cs, e) ∈ e_rec g /\ c ∈ cs.
Definition owned_by (s : est) (c : N) : Prop := exists t g, e_cls s !! t = Some g /\ (c ∈ e_priv g \/ rec_cell g c).

Definition active (pc : epc) : Prop := match pc with EActive | EScan _ _ => True | _ => False end.

Definition none : N -> Prop := fun _ => False.

Definition hset (h : N -> list N) (c : N) (ps : list N) : N -> list N := fun x => if N.eqb x c then ps else h x.

(** epoch.go:22-37, allocator.go:56-72: [n] allocators, empty tree. *)
Definition est0 (n : nat) : est :=
  ESt 0 (replicate n None) (fun _ => []) [] none (replicate n (ECl EIdle none [] [] none)).

Definition ecl_set (s : est) (t : nat) (g : ecl) : est :=
  ESt (e_epoch s) (e_resv s) (e_heap s) (e_root s) (e_used s) (<[t := g]> (e_cls s)).

(** The holders of an allocator with an open operation can from now on find the cells [P]. *)
Definition grow (P : N -> Prop) (g : ecl) : ecl :=
  ECl (e_pc g) (e_known g) (e_rec g) (e_priv g) (fun c => e_since g c \/ active (e_pc g) /\ P c).

Definition set_priv (g : ecl) (l : list N) : ecl := ECl (e_pc g) (e_known g) (e_rec g) l (e_since g).

(** One step of the holder of allocator [t]. *)
Inductive estep (s : est) (t : nat) : est -> Prop :=
(** allocator.go:172, first half *)
| es_load g : e_cls s !! t = Some g -> e_pc g = EIdle ->
    estep s t (ecl_set s t (ECl (ELoaded (e_epoch s)) none (e_rec g) (e_priv g) none))
(** allocator.go:172, second half *)
| es_store g e : e_cls s !! t = Some g -> e_pc g = ELoaded e ->
    estep s t (ESt (e_epoch s) (<[t := Some e]> (e_resv s)) (e_heap s) (e_root s) (e_used s)
                 (<[t := ECl EActive none (e_rec g) (e_priv g) (tree_cell s)]> (e_cls s)))
(** allocator.go:177 *)
| es_end g : e_cls s !! t = Some g -> e_pc g = EActive ->
    estep s t (ESt (e_epoch s) (<[t := None]> (e_resv s)) (e_heap s) (e_root s) (e_used s)
                 (<[t := ECl EIdle none (e_rec g) (e_priv g) none]> (e_cls s)))
(** loading the root word, or a word of a known node *)
| es_read_root g : e_cls s !! t = Some g -> active (e_pc g) ->
    estep s t (ecl_set s t (ECl (e_pc g) (fun c => e_known g c \/ c ∈ e_root s) (e_rec g) (e_priv g) (e_since g)))
| es_read g c : e_cls s !! t = Some g -> active (e_pc g) -> e_known g c ->
    estep s t (ecl_set s t (ECl (e_pc g) (fun x => e_known g x \/ x ∈ e_heap s c) (e_rec g) (e_priv g) (e_since g)))
(** allocator.go:188 (at any time here; in the code on every 1000th call of recycle) *)
| es_bump : estep s t (ESt (S (e_epoch s)) (e_resv s) (e_heap s) (e_root s) (e_used s) (e_cls s))
(** allocator.go:184-185; rule: the memory has left the tree and was not recycled before *)
| es_recycle g cs : e_cls s !! t = Some g -> e_pc g = EActive -> NoDup cs ->
    (forall c, c ∈ cs -> e_used s c /\ ~ tree_cell s c /\ ~ owned_by s c) ->
    estep s t (ecl_set s t (ECl (e_pc g) (e_known g) ((cs, e_epoch s) :: e_rec g) (e_priv g) (e_since g)))
(** allocator.go:210: minReservation *)
| es_scan g : e_cls s !! t = Some g -> e_pc g = EActive ->
    estep s t (ecl_set s t (ECl (EScan 0 None) (e_known g) (e_rec g) (e_priv g) (e_since g)))
| es_scan_next g i m r : e_cls s !! t = Some g -> e_pc g = EScan i m -> e_resv s !! i = Some r ->
    estep s t (ecl_set s t (ECl (EScan (S i) (epoch_min m r)) (e_known g) (e_rec g) (e_priv g) (e_since g)))
(** allocator.go:215-228: an item with an epoch below the minimum; the rest is kept (222-226) or lost *)
| es_pick g i m l1 l2 cs1 cs2 e keep : e_cls s !! t = Some g -> e_pc g = EScan i m -> i = length (e_resv s) ->
    e_rec g = l1 ++ (cs1 ++ cs2, e) :: l2 -> epoch_lt e m ->
    estep s t (ecl_set s t (ECl EActive (e_known g) (l1 ++ (if keep : bool then [(cs2, e)] else []) ++ l2) (cs1 ++ e_priv g) (e_since g)))
(** allocator.go:241-258: memory that was never used *)
| es_fresh g i m cs : e_cls s !! t = Some g -> e_pc g = EScan i m -> i = length (e_resv s) -> NoDup cs ->
    (forall c, c ∈ cs -> ~ e_used s c) ->
    estep s t (ESt (e_epoch s) (e_resv s) (e_heap s) (e_root s) (fun c => e_used s c \/ c ∈ cs)
                 (<[t := ECl EActive (e_known g) (e_rec g) (cs ++ e_priv g) (e_since g)]> (e_cls s)))
(** filling new memory *)
| es_fill g c ps : e_cls s !! t = Some g -> c ∈ e_priv g ->
    estep s t (ESt (e_epoch s) (e_resv s) (hset (e_heap s) c ps) (e_root s) (e_used s) (e_cls s))
(** atomic store to the root word or to a word of the tree; rule: no cell gets into the tree
    except those the writer had taken; these stop being private *)
| es_root g ps priv : e_cls s !! t = Some g ->
    (forall c, linked (e_heap s) ps c -> tree_cell s c \/ c ∈ e_priv g) ->
    NoDup priv -> (forall c, c ∈ priv -> c ∈ e_priv g /\ ~ linked (e_heap s) ps c) ->
    estep s t (ESt (e_epoch s) (e_resv s) (e_heap s) ps (e_used s)
                 (grow (linked (e_heap s) ps) <$> <[t := set_priv g priv]> (e_cls s)))
| es_link g c ps priv : e_cls s !! t = Some g -> tree_cell s c ->
    (forall x, linked (hset (e_heap s) c ps) (e_root s) x -> tree_cell s x \/ x ∈ e_priv g) ->
    NoDup priv -> (forall x, x ∈ priv -> x ∈ e_priv g /\ ~ linked (hset (e_heap s) c ps) (e_root s) x) ->
    estep s t (ESt (e_epoch s) (e_resv s) (hset (e_heap s) c ps) (e_root s) (e_used s)
                 (grow (linked (hset (e_heap s) c ps) (e_root s)) <$> <[t := set_priv g priv]> (e_cls s))).

Inductive ereach (n : nat) : est -> Prop :=
| er_init : ereach n (est0 n)
| er_step s t s' : ereach n s -> estep s t s' -> ereach n s'.
