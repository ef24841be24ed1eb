(** * StepObs: histories in which all calls are interrupted between any two accesses to shared memory: Lookup,
    PrepareUpdate and PrepareDelete (Fine.v), Finalize and Abort (StepFin.v), Next and Count (FineObs.v, iterator.go:51-231, counter.go:46-117). *)
From Verif Require Export FineObs StepPlace.

(** [xs_obs]: the calls of Next and Count in progress. *)
Record xsys := XSys { xs_w : wsys; xs_obs : gmap nat ojob }.
Definition xs_f (x : xsys) : fsys := ws_f (xs_w x).
Definition xs_sys (x : xsys) : sys := fs_sys (xs_f x).

Definition xinit (n : nat) : xsys := XSys (winit n) ∅.

Inductive xevent :=
| XW (e : wevent)     (* a step of StepRun.v *)
| XO (e : oevent).    (* a step of Next or Count, as in FineObs.v *)

Definition wbegins (e : wevent) (aid : nat) : Prop := match e with WF e => begins e aid | _ => False end.
Definition wrestarts (e : wevent) : Prop := match e with WF e => restarts e | _ => False end.
Definition is_of (e : oevent) : Prop := match e with OF _ => True | _ => False end.

Section Steps.
Context (K : list N -> Prop) (fetch : N -> list N).

Inductive xstep : xsys -> xevent -> xsys -> Prop :=
| xs_write w w' obs e :
    wstep K fetch w e w' -> (forall aid, wbegins e aid -> obs !! aid = None) -> (wrestarts e -> obs = ∅) ->
    xstep (XSys w obs) (XW e) (XSys w' obs)
| xs_read f f' fin obs obs' e :
    ostep K fetch (OSys f obs) e (OSys f' obs') -> ~ is_of e ->
    xstep (XSys (WSys f fin) obs) (XO e) (XSys (WSys f' fin) obs').

(** Histories of such steps; [P] holds of all steps. *)
Inductive xruns (P : xsys -> xevent -> Prop) (n : nat) : list xevent -> xsys -> Prop :=
| xruns_nil : xruns P n [] (xinit n)
| xruns_snoc tr x e x' : xruns P n tr x -> P x e -> xstep x e x' -> xruns P n (tr ++ [e]) x'.
End Steps.

(** Number of calls that change the tree or end an operation. *)
Definition xcalls (tr : list xevent) : N := wcalls (omap (fun e => match e with XW e => Some e | XO _ => None end) tr).

(** The conditions of C77 and of C79; no condition on Next and Count. *)
Definition x_one_fin (x : xsys) (e : xevent) : Prop := match e with XW e => one_fin (xs_w x) e | XO _ => True end.
Definition x_sized (x : xsys) (e : xevent) : Prop := match e with XW e => sized (xs_w x) e | XO _ => True end.
Definition x_one_writer (w : nat) (x : xsys) (e : xevent) : Prop := match e with XW e => one_writer w (xs_w x) e | XO _ => True end.

(** ** Where the writes take effect *)

(** As [marked]. *)
Definition xmarked := list (xevent * option (call * reply)).

(** Next and Count as calls of Lookup that make no step. *)
Definition shown1 (x : xevent * option (call * reply)) : marked :=
  match x.1 with XW e => [(e, x.2)] | XO (OF _) => [] | XO e => map (fun e => (WF e, None)) (as_lookup e) end.
Definition shown (m : xmarked) : marked := m ≫= shown1.

(** The map after these steps, with each write at its mark. *)
Definition xreplay (m : xmarked) : hist := lreplay (shown m).

(** Between the reservation of the current call of [aid] and the end of [m]. *)
Definition xborders (aid : nat) (e : xevent) : Prop :=
  match e with XO (OResv a _) | XO (OReturn a _ _) => a = aid | _ => False end.
Definition xduring (m : xmarked) (aid : nat) (c : ocall) (m1 m2 : xmarked) : Prop :=
  m = m1 ++ (XO (OResv aid c), None) :: m2 /\ Forall (fun x => ~ xborders aid x.1) m2.

(** At some moment, at every moment between the reservation of the call and its return. *)
Definition xsometime (m1 : xmarked) (aid : nat) (c : ocall) (m2 : xmarked) (P : hist -> Prop) : Prop :=
  exists m3, m3 `prefix_of` m2 /\ P (xreplay (m1 ++ (XO (OResv aid c), None) :: m3)).
Definition xthroughout (m1 : xmarked) (aid : nat) (c : ocall) (m2 : xmarked) (P : hist -> Prop) : Prop :=
  forall m3, m3 `prefix_of` m2 -> P (xreplay (m1 ++ (XO (OResv aid c), None) :: m3)).
