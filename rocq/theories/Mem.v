(** * Mem: sparse total memory.

    The arena of the tree (all [nodeBlock.data] arrays, radix.go:54-60) is one
    total map from slot numbers to words.  A Go block is zero-filled when it
    is created (radix.go:185-187), hence the default 0.  Whether an address may
    be accessed at all (block present, index in range) is decided by the
    checked accessors in [State.v], not here.  The same structure stores the
    lock words ([nodeBlock.locks], radix.go:56). *)
From Verif Require Export Words.

Inductive ptree := PLf | PNd (l : ptree) (v : N) (r : ptree).

Fixpoint pt_get (t : ptree) (p : positive) : N :=
  match t with
  | PLf => 0
  | PNd l v r =>
      match p with
      | xH => v
      | xO q => pt_get l q
      | xI q => pt_get r q
      end
  end.

Fixpoint pt_set (t : ptree) (p : positive) (x : N) : ptree :=
  match p, t with
  | xH, PLf => PNd PLf x PLf
  | xH, PNd l _ r => PNd l x r
  | xO q, PLf => PNd (pt_set PLf q x) 0 PLf
  | xO q, PNd l v r => PNd (pt_set l q x) v r
  | xI q, PLf => PNd PLf 0 (pt_set PLf q x)
  | xI q, PNd l v r => PNd l v (pt_set r q x)
  end.

Definition mem := ptree.
Definition mempty : mem := PLf.
(** The word stored last; used for lock words. *)
Definition lget (m : mem) (a : N) : N := pt_get m (N.succ_pos a).
(** A slot of a node holds a [uint64]. *)
Definition mget (m : mem) (a : N) : N := u64 (lget m a).
Definition mset (m : mem) (a x : N) : mem := pt_set m (N.succ_pos a) x.

(** [n] consecutive words from address [a]. *)
Fixpoint mread (m : mem) (a : N) (n : nat) : list N :=
  match n with
  | O => []
  | S n' => mget m a :: mread m (a + 1) n'
  end.

(** Store the words [ws] at consecutive addresses from [a]. *)
Fixpoint mwrite (m : mem) (a : N) (ws : list N) : mem :=
  match ws with
  | [] => m
  | w :: ws' => mwrite (mset m a w) (a + 1) ws'
  end.
