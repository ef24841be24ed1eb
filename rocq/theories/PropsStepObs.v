(** * PropsStepObs: all calls are interrupted between any two accesses to shared memory, Next and Count too, and at most one
    Finalize or Abort is in progress at a time (PropsStepOne.v without Next and Count, PropsObs.v with uninterrupted writes). *)
From Verif Require Import StepObsExamples.

(** C85: every Finalize and Abort takes effect at one of its own steps, before it returns.  With these moments as the order
    of the writes, every Lookup and Prepare answers as in C77; every Count returns the length of a list of values in
    order of their keys, each bound to its key at some moment of the call, with every key that was there during the
    whole call; and every Next that has to search fetches such a list (of all keys with the prefix, or more than 256
    of them from the first on) and returns its first value, also while a Finalize of another client is half done.
    Missing: as C77; and a prefix may give a single value that shares only its first byte (C16). *)
Theorem C85_iterations_beside_finalize_partial : forall K fetch n tr X, universe K ->
  xruns K fetch (fun x e => x_one_fin x e /\ x_sized x e) n tr X -> xcalls tr < 2 ^ 31 -> x_meant fetch tr X.
Proof. exact (fun K fetch n tr X HK Hr Hn => proj1 (x_one_said K fetch HK n tr X Hr Hn)). Qed.
Print Assumptions C85_iterations_beside_finalize_partial.

(** A Count and a Next of two clients run and return while an insert is between its first step and its return; the Count
    does not see the inserted key. *)
Example C85_example : universe (fixed 4) /\ amid_insert (fun x e => x_one_fin x e /\ x_sized x e).
Proof. exact (conj (proj1 ex_short) ex_x_one). Qed.

(** C85: with keys of at most 9 bytes no node has 258 slots. *)
Theorem C85_short_keys_partial : forall K fetch n tr X, universe K -> short_keys K ->
  xruns K fetch x_one_fin n tr X -> xcalls tr < 2 ^ 31 -> x_meant fetch tr X.
Proof. exact (fun K fetch n tr X HK H9 Hr Hn => proj1 (x_one_short K fetch HK n tr X H9 Hr Hn)). Qed.
Print Assumptions C85_short_keys_partial.

Example C85_short_example : (universe (fixed 4) /\ short_keys (fixed 4)) /\ amid_insert x_one_fin.
Proof. exact (conj ex_short ex_x_one_short). Qed.

(** C86: in such histories no call in progress is about to panic (except a Finalize when all memory is in use) and none is
    stuck.
    Missing: as C77; a Next may fail with an index out of range if some block is used beyond its first 4096 words, as
    in C72. *)
Theorem C86_goes_on_partial : forall K fetch n tr X, universe K ->
  xruns K fetch (fun x e => x_one_fin x e /\ x_sized x e) n tr X -> xcalls tr < 2 ^ 31 -> goes_on (xs_w X) /\ obs_goes_on X.
Proof. exact (fun K fetch n tr X HK Hr Hn => proj2 (x_one_said K fetch HK n tr X Hr Hn)). Qed.
Print Assumptions C86_goes_on_partial.

Example C86_example : universe (fixed 4) /\ amid_insert (fun x e => x_one_fin x e /\ x_sized x e).
Proof. exact (conj (proj1 ex_short) ex_x_one). Qed.

(** C87: one client writes, any number of clients look up, count and iterate, all of them interrupted anywhere: every write
    succeeds and takes effect at one of its own steps before it returns; every Lookup answers as the finite map did at
    some moment during the Lookup; Count and Next list keys in order, each with the value the finite map had at some
    moment of the call, and miss no key that was there during the whole call; when no Finalize is in progress the tree
    holds exactly the finite map and Len is its size.  Keys have at most 9 bytes; FlushStats and restarts while no
    Finalize or Abort is in progress; fewer than 2^31 writes.
    Missing: Next may fail if some block is used beyond its first 4096 words (C72), and a prefix may give a single value
    that shares only its first byte (C16). *)
Theorem C87_single_writer_iterations_partial : forall K fetch w n tr X, universe K -> short_keys K ->
  xruns K fetch (x_one_writer w) n tr X -> xcalls tr < 2 ^ 31 -> x_single_meant fetch w tr X /\ goes_on (xs_w X) /\ obs_goes_on X.
Proof. exact (fun K fetch w n tr X HK H9 Hr Hn => x_single_short K fetch HK w n tr X H9 Hr Hn). Qed.
Print Assumptions C87_single_writer_iterations_partial.

Example C87_example : (universe (fixed 4) /\ short_keys (fixed 4)) /\ amid_insert (x_one_writer 1).
Proof. exact (conj ex_short ex_x_single_short). Qed.

(** C87 for longer keys.  Missing also: nodes of 258 slots, which make Finalize panic (C12). *)
Theorem C87_long_keys_partial : forall K fetch w n tr X, universe K ->
  xruns K fetch (fun x e => x_one_writer w x e /\ x_sized x e) n tr X -> xcalls tr < 2 ^ 31 -> x_single_meant fetch w tr X /\ goes_on (xs_w X) /\ obs_goes_on X.
Proof. exact (fun K fetch w n tr X HK Hr Hn => x_single_said K fetch HK w n tr X Hr Hn). Qed.
Print Assumptions C87_long_keys_partial.

Example C87_long_example : universe (fixed 4) /\ amid_insert (fun x e => x_one_writer 1 x e /\ x_sized x e).
Proof. exact (conj (proj1 ex_short) ex_x_single). Qed.
