(** * PropsStepOne: all calls are interrupted between any two accesses to shared memory, and at most one Finalize or Abort is in
    progress at a time (C67 and C68 show what happens otherwise). *)
From Verif Require Import StepOneExamples.

(** C77: every Finalize and Abort takes effect at one of its own steps, before it returns; with these moments as the order
    of the writes, every Lookup, PrepareUpdate and PrepareDelete answers as the finite map did at some moment
    between its reservation and its return, every Finalize returns what it should, and when none is in progress the
    tree holds exactly the finite map and Len its size (both up to the deletes of C22).
    Other clients may take the locks of a Finalize while it is still giving them back.
    Missing: two at a time (false: C67, C68); deletes that take one lock word for two nodes (C58); nodes of 258 slots
    (Finalize panics: C12); histories of 2^31 writes or more. *)
Theorem C77_one_finalize_at_a_time_partial : forall K fetch n tr X, universe K ->
  wruns K fetch (fun x e => one_fin x e /\ sized x e) n tr X -> wcalls tr < 2 ^ 31 -> exists l st, meant fetch tr X l st.
Proof. exact one_meant. Qed.
Print Assumptions C77_one_finalize_at_a_time_partial.

(** Two Lookups return while an insert is between its first step and its return. *)
Example C77_example : exists tr1 fk m tr2 x, wruns (fixed 4) f4 (fun x e => one_fin x e /\ sized x e) 3 (tr1 ++ WBegin (CFinU 1 fk m 3) :: tr2) x /\
  wcalls (tr1 ++ WBegin (CFinU 1 fk m 3) :: tr2) < 2 ^ 31 /\ Forall (fun e => ~ wreturns 1 e) tr2 /\
  (exists a, WF (EReturn 0 (CLookup a (f4 1)) (RLookup 1 true)) ∈ tr2) /\ (exists a, WF (EReturn 2 (CLookup a (f4 3)) (RLookup 3 true)) ∈ tr2).
Proof. exact ex_one_looked. Qed.

(** C77: with keys of at most 9 bytes no node has 258 slots. *)
Theorem C77_short_keys_partial : forall K fetch n tr X, universe K -> short_keys K ->
  wruns K fetch one_fin n tr X -> wcalls tr < 2 ^ 31 -> exists l st, meant fetch tr X l st.
Proof. exact one_meant_short. Qed.
Print Assumptions C77_short_keys_partial.

Example C77_short_example : (universe (fixed 4) /\ short_keys (fixed 4)) /\
  exists tr x, wruns (fixed 4) f4 one_fin 3 tr x /\ wcalls tr < 2 ^ 31 /\ idle x /\ get f4 (fs_sys (ws_f x)) (f4 3) = Some 3 /\
  get f4 (fs_sys (ws_f x)) (f4 16777218) = Some 16777218 /\ get f4 (fs_sys (ws_f x)) (f4 65536) = None /\ len (sy_tree (fs_sys (ws_f x))) = 7%Z.
Proof. exact (conj ex_short ex_in_turn). Qed.

(** Client 2 takes a lock that client 1 has given back before the Finalize of client 1 has given back the other one. *)
Example C77_taken_over_example : exists tr1 x1 e tr2 x, wruns (fixed 4) f4 one_fin 3 tr1 x1 /\ ~ hands_off x1 e /\ wruns (fixed 4) f4 one_fin 3 (tr1 ++ e :: tr2) x /\
  wcalls (tr1 ++ e :: tr2) < 2 ^ 31 /\ idle x /\ get f4 (fs_sys (ws_f x)) (f4 3) = Some 3 /\ get f4 (fs_sys (ws_f x)) (f4 2) = Some 2 /\ len (sy_tree (fs_sys (ws_f x))) = 8%Z.
Proof. exact ex_taken_over. Qed.

(** C78: in such histories no call in progress is about to panic, except a Finalize when all memory is in use, and none is stuck.
    Missing: as C77. *)
Theorem C78_goes_on_partial : forall K fetch n tr X, universe K ->
  wruns K fetch (fun x e => one_fin x e /\ sized x e) n tr X -> wcalls tr < 2 ^ 31 -> goes_on X.
Proof. exact one_goes. Qed.
Print Assumptions C78_goes_on_partial.

Example C78_example : exists tr1 fk m tr2 x, wruns (fixed 4) f4 (fun x e => one_fin x e /\ sized x e) 3 (tr1 ++ WBegin (CFinU 1 fk m 3) :: tr2) x /\
  wcalls (tr1 ++ WBegin (CFinU 1 fk m 3) :: tr2) < 2 ^ 31 /\ Forall (fun e => ~ wreturns 1 e) tr2 /\
  (exists a, WF (EReturn 0 (CLookup a (f4 1)) (RLookup 1 true)) ∈ tr2) /\ (exists a, WF (EReturn 2 (CLookup a (f4 3)) (RLookup 3 true)) ∈ tr2).
Proof. exact ex_one_looked. Qed.

(** C79: one client writes and any number of clients read, all of them interrupted anywhere: every write of that client
    succeeds and takes effect at one of its own steps before it returns, every Lookup answers as the finite map
    did at some moment during the Lookup, when no Finalize is in progress the tree holds exactly the finite map and
    Len is its size, nothing panics (except when all memory is in use), and nothing is stuck.  Keys have at
    most 9 bytes; FlushStats and restarts while no Finalize or Abort is in progress; fewer than 2^31 writes. *)
Theorem C79_single_writer : forall K fetch w n tr X, universe K -> short_keys K ->
  wruns K fetch (one_writer w) n tr X -> wcalls tr < 2 ^ 31 -> single_meant fetch w tr X /\ goes_on X.
Proof. exact single_short. Qed.
Print Assumptions C79_single_writer.

Example C79_example : (universe (fixed 4) /\ short_keys (fixed 4)) /\
  exists tr x, wruns (fixed 4) f4 (one_writer 1) 3 tr x /\ wcalls tr < 2 ^ 31 /\ idle x /\ get f4 (fs_sys (ws_f x)) (f4 3) = Some 3 /\
  get f4 (fs_sys (ws_f x)) (f4 65536) = None /\ len (sy_tree (fs_sys (ws_f x))) = 6%Z.
Proof. exact (conj ex_short ex_read_through). Qed.

(** C79 for longer keys.  Missing: nodes of 258 slots, which make Finalize panic (C12). *)
Theorem C79_single_writer_long_keys_partial : forall K fetch w n tr X, universe K ->
  wruns K fetch (fun x e => one_writer w x e /\ sized x e) n tr X -> wcalls tr < 2 ^ 31 -> single_meant fetch w tr X.
Proof. exact single. Qed.
Print Assumptions C79_single_writer_long_keys_partial.

Example C79_long_example : exists tr1 fk m tr2 x, wruns (fixed 4) f4 (fun x e => one_writer 1 x e /\ sized x e) 3 (tr1 ++ WBegin (CFinU 1 fk m 3) :: tr2) x /\
  wcalls (tr1 ++ WBegin (CFinU 1 fk m 3) :: tr2) < 2 ^ 31 /\ Forall (fun e => ~ wreturns 1 e) tr2 /\
  (exists a, WF (EReturn 0 (CLookup a (f4 1)) (RLookup 1 true)) ∈ tr2) /\ (exists a, WF (EReturn 2 (CLookup a (f4 3)) (RLookup 3 true)) ∈ tr2).
Proof. exact ex_single_looked. Qed.
