(** * WriterModel: the concurrent part of WriteState (model of /repo/state.go:43-102).

    The main goroutine sends block numbers over an unbuffered channel to the workers, these
    compress the blocks and send them over a channel with 32 places to the writer goroutine.
    One channel operation or one call of [out.Write] is one step. *)
From Verif Require Export Persist.

(** state.go:50: capacity of [toWrite]. *)
Definition chanCap : nat := 32.

(** state.go:91-101: the main goroutine.  [MSend]: the loop of lines 92-94; [MWait]: [toCompress] is
    closed, [workers.Wait]; [MRecv]: [toWrite] is closed, [<-writerDone]; [MDone failed]:
    returned, with or without an error. *)
Inductive mpc := MSend | MWait | MRecv | MDone (failed : bool).

(** state.go:55-64: a worker waits for a block number, or holds a compressed block, or has ended. *)
Inductive wpc := WIdle | WHave (b : nat) | WExit.

(** state.go:68-89: the writer goroutine waits for a job, is about to write its header (line 72)
    or its data (line 79), sends the error of a job (lines 74, 82) or nil (line 88), or has ended. *)
Inductive rpc := RRecv | RHead (b : nat) | RBody (b : nat) | RFail (b : nat) | ROk | RExit (failed : option nat).

Record wst := WSt {
  w_main : mpc;
  w_next : nat;           (* next block to send *)
  w_workers : list wpc;
  w_queue : list nat;     (* the channel toWrite *)
  w_writer : rpc;
  w_writes : nat;         (* calls of out.Write made by the writer goroutine that succeeded *)
  w_emitted : list nat    (* blocks completely written, in order *)
}.

(** [n] workers (runtime.NumCPU). *)
Definition winit (n : nat) : wst := WSt MSend 0 (replicate n WIdle) [] RRecv 0 [].

(** [total]: the number of blocks (line 91); [fails i]: call [i] of out.Write returns an error. *)
Inductive wstep (total : nat) (fails : nat -> bool) : wst -> wst -> Prop :=
| ws_send next ws i q r k e :             (* line 93 with line 56: rendezvous *)
    (next < total)%nat -> ws !! i = Some WIdle ->
    wstep total fails (WSt MSend next ws q r k e) (WSt MSend (S next) (<[i := WHave next]> ws) q r k e)
| ws_close next ws q r k e :              (* line 95 *)
    next = total ->
    wstep total fails (WSt MSend next ws q r k e) (WSt MWait next ws q r k e)
| ws_exit m next ws i q r k e :           (* line 56, channel closed *)
    m <> MSend -> ws !! i = Some WIdle ->
    wstep total fails (WSt m next ws q r k e) (WSt m next (<[i := WExit]> ws) q r k e)
| ws_put m next ws i b q r k e :          (* line 61 *)
    ws !! i = Some (WHave b) -> (length q < chanCap)%nat ->
    wstep total fails (WSt m next ws q r k e) (WSt m next (<[i := WIdle]> ws) (q ++ [b]) r k e)
| ws_wait next ws q r k e :               (* lines 96-98 *)
    Forall (eq WExit) ws ->
    wstep total fails (WSt MWait next ws q r k e) (WSt MRecv next ws q r k e)
| ws_take m next ws b q k e :             (* line 71 *)
    wstep total fails (WSt m next ws (b :: q) RRecv k e) (WSt m next ws q (RHead b) k e)
| ws_head m next ws q b k e :             (* line 72 *)
    fails k = false ->
    wstep total fails (WSt m next ws q (RHead b) k e) (WSt m next ws q (RBody b) (S k) e)
| ws_headf m next ws q b k e :            (* line 74 *)
    fails k = true ->
    wstep total fails (WSt m next ws q (RHead b) k e) (WSt m next ws q (RFail b) k e)
| ws_body m next ws q b k e :             (* line 79 *)
    fails k = false ->
    wstep total fails (WSt m next ws q (RBody b) k e) (WSt m next ws q RRecv (S k) (e ++ [b]))
| ws_bodyf m next ws q b k e :            (* line 82 *)
    fails k = true ->
    wstep total fails (WSt m next ws q (RBody b) k e) (WSt m next ws q (RFail b) k e)
| ws_end next ws k e :                    (* line 71, channel closed and empty *)
    wstep total fails (WSt MRecv next ws [] RRecv k e) (WSt MRecv next ws [] ROk k e)
| ws_err next ws q b k e :                (* line 74 or 82 with line 99: rendezvous *)
    wstep total fails (WSt MRecv next ws q (RFail b) k e) (WSt (MDone true) next ws q (RExit (Some b)) k e)
| ws_ok next ws q k e :                   (* line 88 with line 99: rendezvous *)
    wstep total fails (WSt MRecv next ws q ROk k e) (WSt (MDone false) next ws q (RExit None) k e).

(** States reached by some schedule, in [l] steps. *)
Inductive wruns (total : nat) (fails : nat -> bool) (n : nat) : nat -> wst -> Prop :=
| wr_init : wruns total fails n 0 (winit n)
| wr_step l st st' : wruns total fails n l st -> wstep total fails st st' -> wruns total fails n (S l) st'.

(** No goroutine can make a step. *)
Definition wstuck (total : nat) (fails : nat -> bool) (st : wst) : Prop := forall st', ~ wstep total fails st st'.

(** WriteState returned. *)
Definition returned (st : wst) : Prop := exists failed, w_main st = MDone failed.
