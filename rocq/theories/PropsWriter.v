(** * PropsWriter: WriteState with a failing io.Writer (C38). *)
From Verif Require Import WriterFacts.

(** C38: a state in which no goroutine can go on and WriteState has not returned: 40 blocks, 4
    workers, a Writer that always fails.  The goroutine that writes waits for the main goroutine to
    take its error, the main goroutine waits for the workers, and these wait for room in [toWrite]. *)
Theorem C38_deadlock_refuted : exists total fails n l st, (0 < n)%nat /\ wruns total fails n l st /\
  ~ returned st /\ wstuck total fails st.
Proof. exact c38_deadlock. Qed.
Print Assumptions C38_deadlock_refuted.

(** C38: exactly when: if the first failing call of Write has number [i] and there are more than
    [i / 2 + 33] blocks, no schedule makes WriteState return. *)
Theorem C38_never_returns : forall total fails n i,
  fails i = true -> (forall j, (j < i)%nat -> fails j = false) -> (i / 2 + 33 < total)%nat ->
  forall l st, wruns total fails n l st -> (l <= 6 * total + n + 5)%nat /\ ~ returned st.
Proof. exact c38_never. Qed.
Print Assumptions C38_never_returns.

Example C38_never_example : exists l st, wruns 40 (fun _ => true) 4 l st /\ (0 / 2 + 33 < 40)%nat.
Proof. exists 0%nat, (winit 4). split; [constructor|cbn; lia]. Qed.

(** C38 (partial): otherwise every schedule is finite and ends with WriteState having returned:
    without an error if every block was written and no call failed, with the error of the first
    failing call otherwise.  Missing: the case of C38_never_returns. *)
Theorem C38_returns_partial : forall total fails n l st,
  (0 < n)%nat -> (forall i, fails i = true -> (total <= i / 2 + 33)%nat) -> wruns total fails n l st ->
  (l <= 6 * total + n + 5)%nat /\ ((exists st', wstep total fails st st') \/ returned st) /\
  (w_main st = MDone false -> w_emitted st ≡ₚ seq 0 total /\ forall i, (i < 2 * total)%nat -> fails i = false) /\
  (w_main st = MDone true -> exists i, (i < 2 * total)%nat /\ fails i = true /\ w_writes st = i /\
     forall j, (j < i)%nat -> fails j = false).
Proof. exact c38_returns. Qed.
Print Assumptions C38_returns_partial.

Example C38_error_example : exists l st, wruns 3 (fun i => bool_decide (i = 2%nat)) 2 l st /\
  w_main st = MDone true /\ length (w_emitted st) = 1%nat.
Proof. exact c38_run_error. Qed.

Example C38_ok_example : exists l st, wruns 40 (fun _ => false) 4 l st /\
  w_main st = MDone false /\ length (w_emitted st) = 40%nat.
Proof. exact c38_run_ok. Qed.

(** The order in which a WriteState without error emits the blocks is one of those for which C23
    is stated. *)
Theorem C38_order : forall s fails n l st,
  wruns (N.to_nat (t_nextFreeBlock s)) fails n l st -> w_main st = MDone false ->
  all_written s (map N.of_nat (w_emitted st)).
Proof. exact c38_order. Qed.
Print Assumptions C38_order.
