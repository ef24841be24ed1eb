(** * Pool: the allocator pool, one atomic operation per step (models of /repo/slots.go and of
    GetAllocator, ReleaseAllocator, Stop, Start and Len in /repo/radix.go). *)
From Coq Require Export List Lia.
From stdpp Require Export list.

(** What a goroutine does after [slots.get] returned. *)
Inductive pcont :=
| KClient                          (* radix.go:246, 258, 267, 275: hands the allocator to the caller *)
| KStop (left : nat) (len : bool). (* radix.go:154-156: [left] more calls of get; called by Len? *)

(** Program counter of a goroutine. *)
Inductive ppc :=
| PIdle
| PLoad (i : nat) (k : pcont)      (* slots.go:44: load of slot i (or, past the end, Gosched) *)
| PCas (i : nat) (k : pcont)       (* slots.go:45: CompareAndSwap(slot i, 0, 1) *)
| PPut (i : nat)                   (* slots.go:55: store 0 to slot i *)
| PStop (len : bool)               (* radix.go:151: CompareAndSwap(stopped, 0, 1) *)
| PRead                            (* radix.go:139-142: Len reads the counters *)
| PStart                           (* radix.go:162: CompareAndSwap(stopped, 1, 0) *)
| PStartPut (i : nat).             (* radix.go:165-167: put(i), ..., put(n-1) *)

(** A goroutine: where it is, the allocators it holds as a client, and those its current call of
    Stop has withdrawn (radix.go:155 discards the index; kept here as a ghost). *)
Record gor := Gor { g_pc : ppc; g_held : list nat; g_wd : list nat }.

(** slots.go:16-18: [slots] (true = taken); radix.go:86: [stopped]. *)
Record pool := Pool { p_slots : list bool; p_stopped : bool; p_gors : list gor }.

(** slots.go:22-26, radix.go:99-119; [m] goroutines, none of which has called anything. *)
Definition pool0 (n m : nat) : pool := Pool (replicate n false) false (replicate m (Gor PIdle [] [])).

Definition gor_set (s : pool) (t : nat) (g : gor) : pool := Pool (p_slots s) (p_stopped s) (<[t := g]> (p_gors s)).
Definition slot_set (s : pool) (i : nat) (v : bool) : pool := Pool (<[i := v]> (p_slots s)) (p_stopped s) (p_gors s).
Definition stopped_set (s : pool) (b : bool) : pool := Pool (p_slots s) b (p_gors s).

(** Return of [slots.get] with index [i]. *)
Definition got (g : gor) (i : nat) (k : pcont) : gor :=
  match k with
  | KClient => Gor PIdle (i :: g_held g) (g_wd g)
  | KStop O len => Gor (if len : bool then PRead else PIdle) (g_held g) (i :: g_wd g)
  | KStop (S l) len => Gor (PLoad 0 (KStop l len)) (g_held g) (i :: g_wd g)
  end.

(** Calls that an idle goroutine may start. *)
Inductive pcall := QGet | QRelease (i : nat) | QStop | QStart | QLen.

(** The protocol: only the holder of an allocator releases it (radix.go:249, "previously
    reserved using GetAllocator"). *)
Definition enter (g : gor) (c : pcall) : option gor :=
  match c with
  | QGet => Some (Gor (PLoad 0 KClient) (g_held g) (g_wd g))
  | QRelease i => if decide (i ∈ g_held g) then Some (Gor (PPut i) (g_held g) (g_wd g)) else None
  | QStop => Some (Gor (PStop false) (g_held g) (g_wd g))
  | QStart => Some (Gor PStart (g_held g) (g_wd g))
  | QLen => Some (Gor (PStop true) (g_held g) (g_wd g))
  end.

(** One step of goroutine [t]; [c] is the call it starts if it is idle. *)
Definition pstep (s : pool) (t : nat) (c : pcall) : option pool :=
  match p_gors s !! t with
  | None => None
  | Some g =>
    let goto pc := gor_set s t (Gor pc (g_held g) (g_wd g)) in
    let n := length (p_slots s) in
    match g_pc g with
    | PIdle => gor_set s t <$> enter g c
    | PLoad i k =>
      match p_slots s !! i with
      | None => Some (goto (PLoad 0 k))              (* slots.go:49 *)
      | Some false => Some (goto (PCas i k))
      | Some true => Some (goto (PLoad (S i) k))
      end
    | PCas i k =>
      match p_slots s !! i with
      | Some false => Some (gor_set (slot_set s i true) t (got g i k))
      | _ => Some (goto (PLoad (S i) k))
      end
    | PPut i => Some (gor_set (slot_set s i false) t (Gor PIdle (filter (fun j => j <> i) (g_held g)) (g_wd g)))
    | PStop len =>
      if p_stopped s then Some (goto (if len : bool then PRead else PIdle))
      else Some (gor_set (stopped_set s true) t
                   (Gor (match n with O => if len then PRead else PIdle | S n' => PLoad 0 (KStop n' len) end) (g_held g) []))
    | PRead => Some (goto PStart)
    | PStart =>
      if p_stopped s then Some (gor_set (stopped_set s false) t (Gor (PStartPut 0) (g_held g) (g_wd g)))
      else Some (goto PIdle)
    | PStartPut i =>
      if (i <? n)%nat then Some (gor_set (slot_set s i false) t (Gor (PStartPut (S i)) (g_held g) (filter (fun j => j <> i) (g_wd g))))
      else Some (goto PIdle)
    end
  end.

(** Executions; [adm t c] limits the calls that goroutine [t] makes. *)
Inductive preach (adm : nat -> pcall -> Prop) (n m : nat) : pool -> Prop :=
| pr_init : preach adm n m (pool0 n m)
| pr_step s t c s' : preach adm n m s -> adm t c -> pstep s t c = Some s' -> preach adm n m s'.

(** Goroutine [t] holds allocator [i]: GetAllocator (or the get inside Lookup, PrepareUpdate,
    ...) returned it and its release has not yet taken effect. *)
Definition holds (s : pool) (t i : nat) : Prop := exists g, p_gors s !! t = Some g /\ i ∈ g_held g.

(** No allocator is held by two goroutines, or twice by the same. *)
Definition exclusive (s : pool) : Prop :=
  (forall t t' i, holds s t i -> holds s t' i -> t = t') /\ (forall t g, p_gors s !! t = Some g -> NoDup (g_held g)).

Definition client (c : pcall) : Prop := match c with QGet | QRelease _ => True | _ => False end.

(** At most goroutine [a] calls Stop, Start and Len. *)
Definition one_admin (a : nat) (t : nat) (c : pcall) : Prop := client c \/ t = a.

(** Goroutine [t] is in the middle of Stop's collecting loop. *)
Definition collecting (s : pool) (t : nat) : Prop :=
  exists g i l len, p_gors s !! t = Some g /\ (g_pc g = PLoad i (KStop l len) \/ g_pc g = PCas i (KStop l len)).

(** Goroutine [t] is in Start, which is also the end of Len. *)
Definition in_start (s : pool) (t : nat) : Prop :=
  exists g, p_gors s !! t = Some g /\ (g_pc g = PStart \/ exists i, g_pc g = PStartPut i).
Definition idle (s : pool) (t : nat) : Prop := exists g, p_gors s !! t = Some g /\ g_pc g = PIdle.

(** Schedules: which goroutine moves, and the call it starts if it is idle. *)
Fixpoint prun (s : pool) (l : list (nat * pcall)) : option pool :=
  match l with
  | [] => Some s
  | (t, c) :: r => match pstep s t c with Some s' => prun s' r | None => None end
  end.
