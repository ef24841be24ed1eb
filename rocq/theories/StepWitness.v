(** * StepWitness: histories in which Finalize is interrupted. *)
From Verif Require Export StepScript StepInv.

Definition f4 (v : N) : list N := be 4 v.

Definition no_delete_abortb (tr : list wevent) : bool := forallb (fun e => match e with WBegin (CAbortD _) => false | _ => true end) tr.
Lemma no_delete_abort K fetch n tr x : wruns K fetch any n tr x -> no_delete_abortb tr = true -> wruns K fetch child_known n tr x.
Proof.
  intros Hr H. eapply wruns_weaken; [done|]. intros e He y. unfold no_delete_abortb in H. rewrite forallb_forall in H.
  apply elem_of_list_In, H in He. by destruct e as [|[]| |].
Qed.

(** ** A lost insert *)

(** Keys [0;0;0;0], [0;0;0;1], [1;0;0;0], [0;1;0;0]: the root node X has a child node M (keys beginning with 0), which has a
    child node Q.  Client 0 prepares the insert of [2;0;0;0] into X and holds its lock.  Client 1 begins to
    insert [0;0;0;2]: it has read the generation of X (odd, for X is locked) and the link to M.  Client 0 finalizes up
    to the store that replaces X by X'; X is still locked.  Client 2 inserts [0;2;0;0] into M, that is, replaces M by M'.
    Client 1 goes on: the generation of X is the value read before, so the check of update.go:104-112 succeeds; it
    reads the generation of M, which nobody uses any more and nobody has locked, goes on to Q, locks Q and M, and
    links the new Q' into M. *)
Definition passed_by : list wsched :=
  wputs f4 0 [0; 1; 16777216; 65536] ++ [XCall (APut 0 (f4 33554432)); XDone 0] ++
  [XCall (APut 1 (f4 2)); XSteps 7 1] ++ [XCall (APutF 0 33554432); XSteps 11 0] ++ wput f4 2 131072 ++
  [XDone 1; XCall (APutF 1 2); XDone 1; XDone 0].

Definition keys4 (l : list N) : list (list N) := map f4 l.

Lemma insert_lost : exists tr x k v, wruns (fixed 4) f4 child_known 3 tr x /\ idle x /\ only_inserts tr /\ NoDup (upd_keys tr) /\
  h_map (wreplay tr) !! k = Some v /\ get f4 (fs_sys (ws_f x)) k = None.
Proof.
  destruct (wafter_runs 4 f4 passed_by (fun tr x => no_delete_abortb tr && idleb x && only_insertsb tr && bool_decide (NoDup (upd_keys tr)) &&
    bool_decide (h_map (wreplay tr) !! [0; 0; 0; 2] = Some 2) && bool_decide (get f4 (fs_sys (ws_f x)) [0; 0; 0; 2] = None)))
    as (tr & x & Hr & H); [by vm_compute|].
  repeat (apply andb_prop in H as [H ?]). exists tr, x, [0; 0; 0; 2], 2.
  repeat match goal with H : bool_decide _ = true |- _ => apply bool_decide_eq_true in H end.
  split_and!; [by apply no_delete_abort|by apply idleb_ok|by apply only_insertsb_ok|done|done|done].
Qed.

(** ** The memory of a node in the tree is recycled *)

(** After this client 1 has recycled Q, which is still in the tree.  When client 0 has recycled enough for the epoch to
    advance, client 1 writes new nodes over Q; the keys [0;0;0;0] and [0;0;0;1] are gone, although they were inserted before all of this
    and no call has named them since. *)
Definition overwritten : list wsched :=
  passed_by ++ (repeat (wput f4 0 50331648 ++ wdel 0 (f4 50331648)) 500 ≫= id) ++ wputs f4 1 [67108864; 67108865; 83886080; 83886081].

(** The key of a PrepareUpdate or PrepareDelete. *)
Definition writes_key (k : list N) (e : wevent) : Prop :=
  match e with WF (EBegin (CPrepU _ key)) | WF (EBegin (CPrepD _ key)) => key = k | _ => False end.
Definition writes_keyb (k : list N) (e : wevent) : bool :=
  match e with WF (EBegin (CPrepU _ key)) | WF (EBegin (CPrepD _ key)) => bool_decide (key = k) | _ => false end.
Lemma writes_keyb_ok k e : writes_key k e -> writes_keyb k e = true.
Proof. destruct e as [[|c| | | |]| | |]; try done. destruct c; try done; intros ->; by apply bool_decide_eq_true. Qed.

Lemma untouched_key_lost : exists tr x k v, wruns (fixed 4) f4 child_known 3 tr x /\ idle x /\
  (forall e1 e2 i j, tr !! i = Some e1 -> tr !! j = Some e2 -> writes_key k e1 -> writes_key k e2 -> i = j) /\
  h_map (wreplay tr) !! k = Some v /\ get f4 (fs_sys (ws_f x)) k = None.
Proof.
  destruct (wafter_runs 4 f4 overwritten (fun tr x => no_delete_abortb tr && idleb x && (length (filter (fun e => writes_keyb (f4 1) e = true) tr) =? 1)%nat &&
    bool_decide (h_map (wreplay tr) !! [0; 0; 0; 1] = Some 1) && bool_decide (get f4 (fs_sys (ws_f x)) [0; 0; 0; 1] = None)))
    as (tr & x & Hr & H); [by vm_compute|].
  repeat (apply andb_prop in H as [H ?]). exists tr, x, [0; 0; 0; 1], 1.
  repeat match goal with H : bool_decide _ = true |- _ => apply bool_decide_eq_true in H end.
  split_and!; [by apply no_delete_abort|by apply idleb_ok| |done|done].
  match goal with H : (_ =? 1)%nat = true |- _ => apply Nat.eqb_eq in H; rename H into Hone end. clear - Hone.
  assert (Hgen : forall (p : wevent -> bool) (l : list wevent) i j e1 e2, (length (filter (fun e => p e = true) l) <= 1)%nat ->
    l !! i = Some e1 -> l !! j = Some e2 -> p e1 = true -> p e2 = true -> i = j).
  { intros p l. induction l as [|a l IH]; intros i j e1 e2 Hl Hi Hj H1 H2; [done|]. rewrite filter_cons in Hl.
    assert (Hin : forall e k, l !! k = Some e -> p e = true -> (1 <= length (filter (fun e => p e = true) l))%nat).
    { intros e k Hk He. assert (e ∈ filter (fun e => p e = true) l) as Hx by (apply elem_of_list_filter; split; [done|by eapply elem_of_list_lookup_2]).
      destruct (filter (fun e => p e = true) l); [by apply elem_of_nil in Hx|cbn; lia]. }
    destruct (decide (p a = true)) as [Ha|Ha].
    - cbn [length] in Hl. destruct i as [|i], j as [|j]; [done| | |].
      + exfalso. cbn in Hj. pose proof (Hin _ _ Hj H2). lia.
      + exfalso. cbn in Hi. pose proof (Hin _ _ Hi H1). lia.
      + exfalso. cbn in Hj. pose proof (Hin _ _ Hj H2). lia.
    - destruct i as [|i]; [cbn in Hi; congruence|]. destruct j as [|j]; [cbn in Hj; congruence|]. f_equal. by eapply IH. }
  intros e1 e2 i j Hi Hj H1%writes_keyb_ok H2%writes_keyb_ok. eapply (Hgen (writes_keyb (f4 1)) tr); try done. lia.
Qed.

(** ** A lost delete *)

(** The root node has 256 slots and a compressed prefix.  Client 0 finalizes the insert of [1;0;0;0], which copies that
    node; when it has read the slots, client 1 deletes [0;0;0;0], without interruption.  Such a delete takes no lock
    (delete.go:171-183). *)
Definition copied_late : list wsched :=
  wputs f4 0 (seqN 0 130) ++ [XCall (APut 0 (f4 16777216)); XDone 0; XCall (APutF 0 16777216); XSteps 300 0] ++ wdel 1 (f4 0) ++ [XDone 0].

(** The client of a step. *)
Definition steps_of (aid : nat) (e : wevent) : Prop :=
  match e with
  | WF (EBegin c) | WF (EResv c) => job_of c = Some aid
  | WF (EAct i _) | WF (EAgain i) | WF (EReturn i _ _) | WAct i _ | WReturn i _ _ => i = aid
  | WBegin c => fin_client c = Some aid
  | WF (ECall _ _) => False
  end.
Definition steps_ofb (aid : nat) (e : wevent) : bool :=
  match e with
  | WF (EBegin c) | WF (EResv c) => bool_decide (job_of c = Some aid)
  | WF (EAct i _) | WF (EAgain i) | WF (EReturn i _ _) | WAct i _ | WReturn i _ _ => (i =? aid)%nat
  | WBegin c => bool_decide (fin_client c = Some aid)
  | WF (ECall _ _) => false
  end.
Lemma steps_ofb_ok aid e : steps_ofb aid e = true -> steps_of aid e.
Proof. destruct e as [[]| | |]; cbn; try done; try (intros H; by apply bool_decide_eq_true in H); intros H; by apply Nat.eqb_eq. Qed.

Fixpoint cut (p : wevent -> bool) (l : list wevent) : option (list wevent * wevent * list wevent) :=
  match l with
  | [] => None
  | e :: l' => if p e then Some ([], e, l') else match cut p l' with Some (a, x, b) => Some (e :: a, x, b) | None => None end
  end.
Lemma cut_ok p l a e b : cut p l = Some (a, e, b) -> l = a ++ e :: b /\ p e = true.
Proof.
  revert a; induction l as [|x l IH]; intros a; cbn [cut]; [done|]. destruct (p x) eqn:Ep; [by intros [= <- <- <-]|].
  destruct (cut p l) as [[[a' x'] b']|]; [|done]. intros [= <- <- <-]. destruct (IH _ eq_refl) as [-> ?]. done.
Qed.

Definition begins_delete (e : wevent) : bool := match e with WF (EBegin (CPrepD 1%nat k)) => bool_decide (k = [0; 0; 0; 0]) | _ => false end.
Definition ends_delete (e : wevent) : bool := match e with WReturn 1%nat (CFinD 1%nat) (RBool true) => true | _ => false end.

Lemma delete_lost : exists tr1 tr2 tr3 x k v,
  wruns (fixed 4) f4 child_known 3 (tr1 ++ [WF (EBegin (CPrepD 1%nat k))] ++ tr2 ++ [WReturn 1 (CFinD 1%nat) (RBool true)] ++ tr3) x /\ idle x /\
  Forall (steps_of 1) tr2 /\ h_map (wreplay tr1) !! k = Some v /\
  NoDup (upd_keys (tr1 ++ [WF (EBegin (CPrepD 1%nat k))] ++ tr2 ++ [WReturn 1 (CFinD 1%nat) (RBool true)] ++ tr3)) /\
  get f4 (fs_sys (ws_f x)) k = Some v.
Proof.
  destruct (wafter_runs 4 f4 copied_late (fun tr x => no_delete_abortb tr && idleb x && bool_decide (NoDup (upd_keys tr)) &&
    bool_decide (get f4 (fs_sys (ws_f x)) [0; 0; 0; 0] = Some 0) &&
    match cut begins_delete tr with
    | Some (tr1, _, rest) =>
      bool_decide (h_map (wreplay tr1) !! [0; 0; 0; 0] = Some 0) &&
      match cut ends_delete rest with Some (tr2, _, _) => forallb (steps_ofb 1) tr2 | None => false end
    | None => false
    end)) as (tr & x & Hr & H); [by vm_compute|].
  apply andb_prop in H as [H Hcut]. repeat (apply andb_prop in H as [H ?]).
  destruct (cut begins_delete tr) as [[[tr1 e1] rest]|] eqn:E1; [|done]. apply andb_prop in Hcut as [Hm Hcut].
  destruct (cut ends_delete rest) as [[[tr2 e2] tr3]|] eqn:E2; [|done].
  apply cut_ok in E1 as [E1 B1]. apply cut_ok in E2 as [E2 B2].
  assert (e1 = WF (EBegin (CPrepD 1%nat [0; 0; 0; 0]))) as -> .
  { destruct e1 as [[|c| | | |]| | |]; try done. destruct c; try done. destruct aid as [|[|]]; try done. by apply bool_decide_eq_true in B1 as ->. }
  assert (e2 = WReturn 1 (CFinD 1%nat) (RBool true)) as ->.
  { destruct e2 as [| | |aid c r]; try done. destruct aid as [|[|]]; try done. destruct c as [| | | | |aid'| | |]; try done. destruct aid' as [|[|]]; try done.
    destruct r as [| | |[]| |]; done. }
  exists tr1, tr2, tr3, x, [0; 0; 0; 0], 0. repeat match goal with H : bool_decide _ = true |- _ => apply bool_decide_eq_true in H end.
  cbn [app]. rewrite <- E2, <- E1. split_and!; [by apply no_delete_abort|by apply idleb_ok| |done|done|done].
  apply Forall_forall. intros e He. apply steps_ofb_ok. rewrite forallb_forall in Hcut. by apply Hcut, elem_of_list_In.
Qed.
