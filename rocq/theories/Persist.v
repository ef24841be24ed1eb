(** * Persist: writing the index to a file and reading it back (model of /repo/state.go and
    of writeState/loadState in /repo/allocator.go).

    A file is a list of bytes.  The block compression (github.com/golang/snappy) is a
    parameter: [pack] and [unpack].  The [io.Writer] does not fail here and the order in which
    the concurrent workers deliver the blocks is a parameter, see [WriterModel.v]; the
    [io.Reader] only ends, it does not fail otherwise. *)
From Coq Require Import Ascii String.
From Verif Require Export Search.

(** ** Text *)

Definition str (x : string) : list N := map N_of_ascii (list_ascii_of_string x).
Definition nl : N := 10.
Definition sp : N := 32.

(** fmt "%d" of an unsigned number. *)
Fixpoint dec_loop (fuel : nat) (n : N) : list N :=
  match fuel with
  | O => []
  | S f => (if n <? 10 then [] else dec_loop f (n / 10)) ++ [48 + n mod 10]
  end.
Definition dec (n : N) : list N := dec_loop (S (N.to_nat (N.log2 n))) n.
(** fmt "%d" of a signed number. *)
Definition decz (z : Z) : list N := if (z <? 0)%Z then 45 :: dec (Z.to_N (- z)) else dec (Z.to_N z).

(** strconv.ParseUint(s, 10, 64) when the error is dropped: 0 for a syntax error, the largest
    number when out of range. *)
Fixpoint parse_loop (s : list N) (n : N) : N :=
  match s with
  | [] => n
  | c :: s' =>
    if (c <? 48) || (57 <? c) then 0
    else let n' := n * 10 + (c - 48) in
         if maxUint64 <? n' then maxUint64 else parse_loop s' n'
  end.
Definition parse_uint (s : list N) : N := parse_loop s 0.

(** strconv.Atoi with the error dropped: an optional sign, clamped to the int64 range. *)
Definition atoi (s : list N) : Z :=
  match s with
  | 45 :: s' => Z.max (- 9223372036854775808) (- Z.of_N (parse_uint s'))
  | 43 :: s' => Z.min 9223372036854775807 (Z.of_N (parse_uint s'))
  | _ => Z.min 9223372036854775807 (Z.of_N (parse_uint s))
  end.

(** Conversion int64(v) / int(v) of a uint64. *)
Definition int64 (v : N) : Z := if v <? 9223372036854775808 then Z.of_N v else (Z.of_N v - 18446744073709551616)%Z.

(** bytes.IndexByte(line, c) with the two parts around it. *)
Fixpoint split_at (c : N) (l : list N) : option (list N * list N) :=
  match l with
  | [] => None
  | x :: l' =>
    if x =? c then Some ([], l')
    else match split_at c l' with Some (a, b) => Some (x :: a, b) | None => None end
  end.

(** bufio.Reader.ReadBytes('\n'): the line without its '\n', and what follows; [None] at the end
    of the file (an unfinished last line included). *)
Definition read_line (l : list N) : option (list N * list N) := split_at nl l.

Fixpoint bytes_eqb (a b : list N) : bool :=
  match a, b with
  | [], [] => true
  | x :: a', y :: b' => (x =? y) && bytes_eqb a' b'
  | _, _ => false
  end.

(** ** Words and bytes *)

(** binary.LittleEndian.PutUint64; also the memory image of a uint64 (unsafe.go:11-19). *)
Fixpoint le_bytes (n : nat) (w : N) : list N :=
  match n with
  | O => []
  | S n' => to_byte w :: le_bytes n' (N.shiftr w 8)
  end.
Definition le8 (w : N) : list N := le_bytes 8 (u64 w).

Fixpoint le_val (l : list N) : N :=
  match l with
  | [] => 0
  | b :: l' => b + 256 * le_val l'
  end.

(** unsafe.go:11-19 [byteSliceFromUint64] of the words of a block. *)
Definition block_bytes (ws : list N) : list N := concat (map le8 ws).

(** The words of a byte slice written over a zero-filled block; a last partial word is
    completed by zero bytes. *)
Fixpoint words_of (n : nat) (l : list N) : list N :=
  match n with
  | O => []
  | S n' => le_val (take 8 l) :: words_of n' (drop 8 l)
  end.

Definition block_words (m : mem) (b : N) : list N := mread m (b * blockSlots) (N.to_nat blockSlots).

(** ** Writing *)

(** state.go:24. *)
Definition header (s : tree) : list N :=
  str "objects " ++ decz (t_live s) ++ nl ::
  str "blocksize " ++ dec blockSize ++ nl ::
  str "allocated_blocks " ++ dec (t_nextFreeBlock s) ++ nl ::
  str "allocators " ++ dec (N.of_nat (length (t_allocs s))) ++ nl ::
  str "root_node " ++ dec (t_root s) ++ nl ::
  str "epoch " ++ dec (t_epoch s) ++ [nl].

(** allocator.go:332-362: size class [i]. *)
Definition recycler_text (i : nat) (l : list (N * N)) : list N :=
  match l with
  | [] => []
  | _ => str "recycler " ++ dec (N.of_nat i) ++ sp :: dec (N.of_nat (length l)) ++ nl ::
         concat (map (fun it => le8 it.1) l)
  end.

Fixpoint recyclers_text (i : nat) (r : list (list (N * N))) : list N :=
  match r with
  | [] => []
  | l :: r' => recycler_text i l ++ recyclers_text (S i) r'
  end.

(** allocator.go:319-372 [Allocator.writeState].  The item counter is not written. *)
Definition alloc_text (a : allocator) : list N :=
  str "empty " ++ (if al_empty a then str "true" else str "false") ++ nl ::
  str "next_free " ++ dec (al_nextFree a) ++ nl ::
  str "block " ++ dec (al_block a) ++ nl ::
  str "block_size " ++ dec blockSize ++ nl ::
  str "offset " ++ dec (al_offset a) ++ nl ::
  recyclers_text 0 (al_recycler a) ++ [nl].

(** state.go:31-42. *)
Fixpoint allocs_text (i : nat) (l : list allocator) : list N :=
  match l with
  | [] => []
  | a :: l' => str "allocator " ++ dec (N.of_nat i) ++ nl :: alloc_text a ++ allocs_text (S i) l'
  end.

(** state.go:57-60 and 74-82: one block. *)
Definition block_text (pack : list N -> list N) (m : mem) (b : N) : list N :=
  let buf := pack (block_bytes (block_words m b)) in
  str "block " ++ dec b ++ nl :: str "compression snappy" ++ nl ::
  str "size " ++ dec (N.of_nat (length buf)) ++ nl :: buf.

(** state.go:20-103 [writeState]; [order]: the order in which the blocks 0..nextFreeBlock-1 reach
    the writer (state.go:94-97). *)
Definition write_state (pack : list N -> list N) (s : tree) (order : list N) : list N :=
  header s ++ allocs_text 0 (t_allocs s) ++ concat (map (block_text pack (t_mem s)) order).

(** ** Reading *)

Inductive lres (A : Type) :=
| Loaded (a : A)
| Rejected           (* an error is returned *)
| Crashed (w : why). (* panic *)
Arguments Loaded {A} a.
Arguments Rejected {A}.
Arguments Crashed {A} w.

Definition lbind {A B} (r : lres A) (k : A -> lres B) : lres B :=
  match r with Loaded a => k a | Rejected => Rejected | Crashed w => Crashed w end.

(** [make([]T, n)] panics above this many bytes (runtime/malloc.go maxAlloc, 64-bit Linux);
    below it the memory is assumed to be there. *)
Definition maxAlloc : N := 281474976710656.

(** io.ReadFull of [n] bytes. *)
Definition read_full (n : N) (l : list N) : lres (list N * list N) :=
  if N.of_nat (length l) <? n then Rejected else Loaded (take (N.to_nat n) l, drop (N.to_nat n) l).

(** allocator.go:305-313: [n] recycled items. *)
Fixpoint read_items (n : nat) (l : list N) : lres (list (N * N) * list N) :=
  match n with
  | O => Loaded ([], l)
  | S n' =>
    lbind (read_full 8 l) (fun '(b, l1) =>
    lbind (read_items n' l1) (fun '(its, l2) => Loaded ((le_val b, 0) :: its, l2)))
  end.

(** allocator.go:266-316: one line of an allocator section and the state after it. *)
Definition alloc_line (a : allocator) (line rest : list N) : lres (allocator * list N) :=
  match split_at sp line with
  | None => Rejected
  | Some (name, values) =>
    let v := parse_uint values in
    if bytes_eqb name (str "empty") then
      (* allocator.go:283 compares with the '\n' still attached *)
      Loaded (Alloc (bytes_eqb (values ++ [nl]) (str "true")) (al_nextFree a) (al_block a) (al_offset a) (al_recycler a) (al_counter a) (al_items a), rest)
    else if bytes_eqb name (str "next_free") then
      Loaded (Alloc (al_empty a) v (al_block a) (al_offset a) (al_recycler a) (al_counter a) (al_items a), rest)
    else if bytes_eqb name (str "block") then
      Loaded (Alloc (al_empty a) (al_nextFree a) v (al_offset a) (al_recycler a) (al_counter a) (al_items a), rest)
    else if bytes_eqb name (str "offset") then
      Loaded (Alloc (al_empty a) (al_nextFree a) (al_block a) v (al_recycler a) (al_counter a) (al_items a), rest)
    else if bytes_eqb name (str "recycler") then
      match split_at sp values with
      | None => Rejected
      | Some (x, y) =>
        let size := atoi x in
        let count := atoi y in
        if (size <? 0)%Z || (Z.of_nat (length (al_recycler a)) <=? size)%Z then Crashed OutOfRange
        else if (count <? 0)%Z || (Z.of_N maxAlloc <? 16 * count)%Z then Crashed OutOfRange
        else lbind (read_items (Z.to_nat count) rest) (fun '(its, rest') =>
          Loaded (Alloc (al_empty a) (al_nextFree a) (al_block a) (al_offset a) (<[Z.to_nat size := its]> (al_recycler a)) (al_counter a) (al_items a), rest'))
      end
    else Loaded (a, rest)
  end.

(** allocator.go:260-317 [Allocator.loadState].  The end of the file is an error here.  Every
    line is at least one byte, so the length of the input is enough fuel. *)
Fixpoint alloc_load (fuel : nat) (a : allocator) (l : list N) : lres (allocator * list N) :=
  match fuel with
  | O => Rejected
  | S f =>
    match read_line l with
    | None => Rejected
    | Some ([], rest) => Loaded (a, rest)
    | Some (line, rest) => lbind (alloc_line a line rest) (fun '(a', rest') => alloc_load f a' rest')
    end
  end.

Definition al_reset (a : allocator) : allocator :=
  al_set_recycler a (map (fun _ => []) (al_recycler a)).

(** The tree while it is being loaded; [ls_epoch = None] while [idx.manager] is nil, [ls_blocks]
    the blocks assigned so far. *)
Record lstate := LS {
  ls_live : Z;
  ls_nfb : N;
  ls_root : N;
  ls_epoch : option N;
  ls_allocs : list allocator;
  ls_next : Z;
  ls_mem : mem;
  ls_blocks : list N
}.

Definition ls0 : lstate := LS 0 0 0 None [] (-1) mempty [].

(** state.go:186-192: a new block filled by snappy.Decode; when the decoded data does not fit, it
    is decoded elsewhere and dropped. *)
Definition store_block (m : mem) (b : N) (buf : list N) : mem :=
  let n := N.to_nat blockSlots in
  mwrite m (b * blockSlots)
    (if N.of_nat (length buf) <=? blockSize then words_of n buf else replicate n 0).

(** state.go:123-203: one line. *)
Definition load_line (unpack : list N -> option (list N)) (st : lstate) (line rest : list N) : lres (lstate * list N) :=
  match split_at sp line with
  | None => Crashed OutOfRange (* line[:-1] *)
  | Some (name, values) =>
    let v := parse_uint values in
    if bytes_eqb name (str "objects") then
      Loaded (LS (int64 v) (ls_nfb st) (ls_root st) (ls_epoch st) (ls_allocs st) (ls_next st) (ls_mem st) (ls_blocks st), rest)
    else if bytes_eqb name (str "blocksize") then
      if v =? blockSize then Loaded (st, rest) else Rejected
    else if bytes_eqb name (str "allocated_blocks") then
      Loaded (LS (ls_live st) v (ls_root st) (ls_epoch st) (ls_allocs st) (ls_next st) (ls_mem st) (ls_blocks st), rest)
    else if bytes_eqb name (str "epoch") then
      match ls_epoch st with
      | None => Crashed NilBlock (* nil manager *)
      | Some _ => Loaded (LS (ls_live st) (ls_nfb st) (ls_root st) (Some v) (ls_allocs st) (ls_next st) (ls_mem st) (ls_blocks st), rest)
      end
    else if bytes_eqb name (str "root_node") then
      Loaded (LS (ls_live st) (ls_nfb st) v (ls_epoch st) (ls_allocs st) (ls_next st) (ls_mem st) (ls_blocks st), rest)
    else if bytes_eqb name (str "allocators") then
      if maxAlloc <? 72 * v then Crashed OutOfRange (* makeslice *)
      else Loaded (LS (ls_live st) (ls_nfb st) (ls_root st) (Some 0) (replicate (N.to_nat v) newAllocator) (ls_next st) (ls_mem st) (ls_blocks st), rest)
    else if bytes_eqb name (str "allocator") then
      if (Z.of_nat (length (ls_allocs st)) - 1 <? int64 v)%Z then Rejected
      else if N.of_nat (length (ls_allocs st)) <=? v then Crashed OutOfRange
      else
        match ls_allocs st !! N.to_nat v with
        | None => Crashed OutOfRange
        | Some a =>
          lbind (alloc_load (S (length rest)) (al_reset a) rest) (fun '(a', rest') =>
          Loaded (LS (ls_live st) (ls_nfb st) (ls_root st) (ls_epoch st) (<[N.to_nat v := a']> (ls_allocs st)) (ls_next st) (ls_mem st) (ls_blocks st), rest'))
        end
    else if bytes_eqb name (str "block") then
      if (Z.of_N maxBlockCount - 1 <? int64 v)%Z then Rejected
      else Loaded (LS (ls_live st) (ls_nfb st) (ls_root st) (ls_epoch st) (ls_allocs st) (int64 v) (ls_mem st) (ls_blocks st), rest)
    else if bytes_eqb name (str "size") then
      if (ls_next st <? 0)%Z then Rejected
      else if maxAlloc <? v then Crashed OutOfRange
      else lbind (read_full v rest) (fun '(buf, rest') =>
        match unpack buf with
        | None => Rejected
        | Some b =>
          Loaded (LS (ls_live st) (ls_nfb st) (ls_root st) (ls_epoch st) (ls_allocs st) (ls_next st)
                    (store_block (ls_mem st) (Z.to_N (ls_next st)) b) (Z.to_N (ls_next st) :: ls_blocks st), rest')
        end)
    else Loaded (st, rest)
  end.

(** state.go:107-205 [loadState]: the end of the file ends the loop without an error. *)
Fixpoint load_loop (unpack : list N -> option (list N)) (fuel : nat) (st : lstate) (l : list N) : lres lstate :=
  match fuel with
  | O => Loaded st
  | S f =>
    match read_line l with
    | None => Loaded st
    | Some (line, rest) => lbind (load_line unpack st line rest) (fun '(st', rest') => load_loop unpack f st' rest')
    end
  end.

Definition load_state (unpack : list N -> option (list N)) (l : list N) : lres lstate :=
  load_loop unpack (S (length l)) ls0 l.

(** radix.go:122-133 [NewTreeFromState] and the first steps of [blockAllocator]
    (radix.go:182-188), which creates block [nextFreeBlock] (a block of that number in the file
    is dropped) and dies when there is no such entry.  The result is the tree and the blocks
    that were in the file; blocks that are not among them, except block [nextFreeBlock], are nil
    in Go. *)
Definition finish_load (st : lstate) : lres (tree * list N) :=
  if maxBlockCount <=? ls_nfb st then Crashed OutOfRange
  else
    let m := if existsb (N.eqb (ls_nfb st)) (ls_blocks st)
             then mwrite (ls_mem st) (ls_nfb st * blockSlots) (replicate (N.to_nat blockSlots) 0)
             else ls_mem st in
    Loaded (Tree m mempty (ls_nfb st) (ls_root st) 0 (default 0 (ls_epoch st))
              (replicate (length (ls_allocs st)) maxUint64) (ls_allocs st) (ls_live st), ls_blocks st).

Definition new_tree_from_state (unpack : list N -> option (list N)) (l : list N) : lres (tree * list N) :=
  lbind (load_state unpack l) finish_load.

(** What is asked of the compression: it can be undone, and the result of packing a block
    does not exceed the largest slice. *)
Record codec (pack : list N -> list N) (unpack : list N -> option (list N)) : Prop := {
  cd_back : forall l, Forall (fun b => b < 256) l -> unpack (pack l) = Some l;
  cd_size : forall l, N.of_nat (length l) = blockSize -> N.of_nat (length (pack l)) <= maxAlloc
}.

(** Every block reaches the writer once. *)
Definition all_written (s : tree) (order : list N) : Prop :=
  NoDup order /\ forall b, b ∈ order <-> b < t_nextFreeBlock s.
