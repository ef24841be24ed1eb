(** * RmwExamples: histories with a call of another client between Prepare and Finalize. *)
From Verif Require Export Rmw Examples.

Definition notb (aid : nat) (e : call * reply) : bool := bool_decide (caller e.1 <> Some aid).

(** Client 0 has prepared an update of key 1; then client 1 stores key 65540. *)
Lemma ex_read_write : exists tr1 tr2 y y', reachable (fixed 3) f3 2 (tr1 ++ (CPrepU 0 (f3 1), RPrepU true 1) :: tr2) y /\
  Forall (fun e => caller e.1 <> Some 0%nat) tr2 /\ Exists (fun e => acked e.2 = true) tr2 /\
  proper (fixed 3) f3 y (CFinU 0 (f3 1) true 16777217) /\ api y (CFinU 0 (f3 1) true 16777217) = Ok (RBool true, y').
Proof.
  destruct (after_reachable 3 f3 (puts f3 0 [1; 2; 3; 257; 65537; 65538; 65539; 65793] ++ [APut 0 (f3 1)] ++ put f3 1 65540) (fun tr y =>
    match tr !! 16%nat with
    | Some (CPrepU a k, RPrepU true v) => bool_decide (a = 0%nat /\ k = f3 1 /\ v = 1)
    | _ => false
    end && forallb (notb 0) (drop 17 tr) && existsb (fun e => acked e.2) (drop 17 tr) &&
    actb (fixedb 3) f3 y (APutF 0 16777217) &&
    match to_call f3 y (APutF 0 16777217) with CFinU a fk m v => bool_decide (a = 0%nat /\ fk = f3 1 /\ m = true /\ v = 16777217) | _ => false end &&
    match api y (to_call f3 y (APutF 0 16777217)) with Ok (RBool true, _) => true | _ => false end))
    as (tr & y & Hr & H); [lia|by vm_compute|by vm_compute|].
  apply andb_prop in H as [H H6]. apply andb_prop in H as [H H5]. apply andb_prop in H as [H H4]. apply andb_prop in H as [H H3]. apply andb_prop in H as [H1 H2].
  destruct (tr !! 16%nat) as [[[|a k| | | | | | |] [|[] v| | | |]]|] eqn:E; try done. apply bool_decide_eq_true in H1 as (-> & -> & ->).
  apply actb_proper in H4. destruct (to_call f3 y (APutF 0 16777217)) as [| |a fk m v| | | | | |] eqn:Ec; try done.
  apply bool_decide_eq_true in H5 as (-> & -> & -> & ->).
  destruct (api y (CFinU 0 (f3 1) true 16777217)) as [[[| | |[]| |] y']| | |] eqn:Ea; try done.
  exists (take 16 tr), (drop 17 tr), y, y'. split; [by rewrite (take_drop_middle tr 16 _ E)|]. split_and!; try done.
  - apply Forall_forall. intros e He. rewrite forallb_forall in H2. apply elem_of_list_In in He. specialize (H2 e He). by apply bool_decide_eq_true in H2.
  - apply Exists_exists. apply existsb_exists in H3 as (e & He & Ee). exists e. by rewrite elem_of_list_In.
Qed.

(** Client 0 has prepared the delete of key 65537; then client 1 stores key 4. *)
Lemma ex_read_delete : exists tr1 tr2 y y', reachable (fixed 3) f3 2 (tr1 ++ (CPrepD 0 (f3 65537), RPrepD (Some 65537)) :: tr2) y /\
  Forall (fun e => caller e.1 <> Some 0%nat) tr2 /\ Exists (fun e => acked e.2 = true) tr2 /\
  proper (fixed 3) f3 y (CFinD 0) /\ api y (CFinD 0) = Ok (RBool true, y') /\ get f3 y (f3 65537) = Some 65537.
Proof.
  destruct (after_reachable 3 f3 (puts f3 0 [1; 2; 3; 257; 65537; 65538; 65539; 65793] ++ [ADel 0 (f3 65537)] ++ put f3 1 4) (fun tr y =>
    match tr !! 16%nat with
    | Some (CPrepD a k, RPrepD (Some v)) => bool_decide (a = 0%nat /\ k = f3 65537 /\ v = 65537)
    | _ => false
    end && forallb (notb 0) (drop 17 tr) && existsb (fun e => acked e.2) (drop 17 tr) && actb (fixedb 3) f3 y (ADelF 0) &&
    match api y (CFinD 0) with Ok (RBool true, _) => true | _ => false end && bool_decide (get f3 y (f3 65537) = Some 65537)))
    as (tr & y & Hr & H); [lia|by vm_compute|by vm_compute|].
  apply andb_prop in H as [H H6]. apply andb_prop in H as [H H5]. apply andb_prop in H as [H H4]. apply andb_prop in H as [H H3]. apply andb_prop in H as [H1 H2].
  destruct (tr !! 16%nat) as [[[| | | |a k| | | |] [| |[v|]| | |]]|] eqn:E; try done. apply bool_decide_eq_true in H1 as (-> & -> & ->).
  apply actb_proper in H4. apply bool_decide_eq_true in H6.
  destruct (api y (CFinD 0)) as [[[| | |[]| |] y']| | |] eqn:Ea; try done.
  exists (take 16 tr), (drop 17 tr), y, y'. split; [by rewrite (take_drop_middle tr 16 _ E)|]. split_and!; try done.
  - apply Forall_forall. intros e He. rewrite forallb_forall in H2. apply elem_of_list_In in He. specialize (H2 e He). by apply bool_decide_eq_true in H2.
  - apply Exists_exists. apply existsb_exists in H3 as (e & He & Ee). exists e. by rewrite elem_of_list_In.
Qed.
