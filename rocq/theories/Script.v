(** * Script: running well-behaved clients on the model, to exhibit concrete reachable
    states.  A script step says what a client wants; the fields a client must set
    (FetchedKey, Match) are computed from its storage [fetch], as the documentation
    prescribes (allocator.go:95-159). *)
From Verif Require Export Spec.

Inductive act :=
| AFind (aid : nat) (k : list N)
| APut (aid : nat) (k : list N)      (* PrepareUpdate *)
| APutF (aid : nat) (v : N)          (* Finalize *)
| APutA (aid : nat)                  (* Abort *)
| ADel (aid : nat) (k : list N)      (* PrepareDelete *)
| ADelF (aid : nat)                  (* Finalize *)
| ADelA (aid : nat).                 (* Abort *)

Section Script.
Context (Kb : list N -> bool) (fetch : N -> list N).
Let K k := Kb k = true.

Definition to_call (y : sys) (a : act) : call :=
  match a with
  | AFind aid k => CLookup aid k
  | APut aid k => CPrepU aid k
  | APutF aid v =>
    match sy_open y !! aid with
    | Some (HU found op) => CFinU aid (fetch (u_value op)) (bool_decide (fetch (u_value op) = u_key op)) v
    | _ => CFinU aid [] false v
    end
  | APutA aid => CAbortU aid
  | ADel aid k => CPrepD aid k
  | ADelF aid => CFinD aid
  | ADelA aid => CAbortD aid
  end.

Definition nonempty (k : list N) : bool := match k with [] => false | _ => true end.
Definition bytesb (k : list N) : bool := forallb (fun b => b <? 256) k.

Definition actb (y : sys) (a : act) : bool :=
  match a with
  | AFind aid k | ADel aid k =>
    (aid <? naids y)%nat && bool_decide (sy_open y !! aid = None) && bytesb k && nonempty k
  | APut aid k => (aid <? naids y)%nat && bool_decide (sy_open y !! aid = None) && Kb k
  | APutF aid v =>
    match sy_open y !! aid with
    | Some (HU found op) => bool_decide (fetch (v mod 2 ^ 55) = u_key op)
    | _ => false
    end
  | APutA aid => match sy_open y !! aid with Some (HU _ _) => true | _ => false end
  | ADelF aid => match sy_open y !! aid with Some (HD key op) => bool_decide (key = fetch (d_value op)) | _ => false end
  | ADelA aid =>
    match sy_open y !! aid with
    | Some (HD key op) => match d_kind op with replaceNodeWithNode => negb (d_parent op =? 0) | _ => true end
    | _ => false
    end
  end.

Fixpoint play (y : sys) (l : list act) : option (list (call * reply) * sys) :=
  match l with
  | [] => Some ([], y)
  | a :: l' =>
    if actb y a then
      match api y (to_call y a) with
      | Ok (r, y1) =>
        match play y1 l' with
        | Some (tr, y2) => Some ((to_call y a, r) :: tr, y2)
        | None => None
        end
      | _ => None
      end
    else None
  end.
End Script.

(** Insert and delete in one go. *)
Definition put (fetch : N -> list N) (aid : nat) (v : N) : list act := [APut aid (fetch (v mod 2 ^ 55)); APutF aid v].
Definition del (aid : nat) (k : list N) : list act := [ADel aid k; ADelF aid].
Definition puts (fetch : N -> list N) (aid : nat) (vs : list N) : list act := vs ≫= put fetch aid.

Lemma bytesb_ok k : bytesb k = true -> bytes k.
Proof.
  unfold bytesb, bytes. intros H. apply Forall_forall. intros b Hb. rewrite forallb_forall in H.
  apply N.ltb_lt, H. by apply elem_of_list_In.
Qed.

Lemma actb_proper Kb fetch y a : actb Kb fetch y a = true -> proper (fun k => Kb k = true) fetch y (to_call fetch y a).
Proof.
  destruct a as [aid k|aid k|aid v|aid|aid k|aid|aid]; simpl; intros H.
  - apply andb_prop in H as [H H4]. apply andb_prop in H as [H H3]. apply andb_prop in H as [H1 H2].
    apply Nat.ltb_lt in H1. apply bool_decide_eq_true in H2. split_and!; try done; [by apply bytesb_ok|by intros ->].
  - apply andb_prop in H as [H H3]. apply andb_prop in H as [H1 H2]. apply Nat.ltb_lt in H1. apply bool_decide_eq_true in H2. done.
  - destruct (sy_open y !! aid) as [[found op|key op|]|] eqn:E; try done. apply bool_decide_eq_true in H. simpl.
    exists found, op. split_and!; try done. intros _. split; [done|]. by rewrite bool_decide_eq_true.
  - destruct (sy_open y !! aid) as [[found op|key op|]|] eqn:E; try done. by exists found, op.
  - apply andb_prop in H as [H H4]. apply andb_prop in H as [H H3]. apply andb_prop in H as [H1 H2].
    apply Nat.ltb_lt in H1. apply bool_decide_eq_true in H2. split_and!; try done; [by apply bytesb_ok|by intros ->].
  - destruct (sy_open y !! aid) as [[found op|key op|]|] eqn:E; try done. apply bool_decide_eq_true in H. subst. by exists op.
  - destruct (sy_open y !! aid) as [[found op|key op|]|] eqn:E; try done. exists key, op. split; [done|].
    intros [E1 E2]. rewrite E1, E2 in H. done.
Qed.

Lemma play_runs Kb fetch n l : forall tr y tr' y', runs (fun k => Kb k = true) fetch n tr y ->
  play Kb fetch y l = Some (tr', y') -> runs (fun k => Kb k = true) fetch n (tr ++ tr') y' /\ length tr' = length l.
Proof.
  induction l as [|a l IH]; intros tr y tr' y' Hr; simpl.
  - intros [= <- <-]. by rewrite app_nil_r.
  - destruct (actb Kb fetch y a) eqn:Ea; [|done]. destruct (api y (to_call fetch y a)) as [[r y1]| | |] eqn:E; try done.
    destruct (play Kb fetch y1 l) as [[tr2 y2]|] eqn:Ep; [|done]. intros [= <- <-].
    assert (H1 : runs (fun k => Kb k = true) fetch n (tr ++ [(to_call fetch y a, r)]) y1).
    { econstructor; [done| |done]. by apply actb_proper. }
    destruct (IH _ _ _ _ H1 Ep) as [H2 H3]. rewrite <- app_assoc in H2. simpl. split; [done|lia].
Qed.

(** Keys of a fixed length are a legal universe. *)
Definition fixedb (n : nat) (k : list N) : bool := (length k =? n)%nat && bytesb k.
Definition fixed (n : nat) (k : list N) : Prop := fixedb n k = true.

Lemma fixed_universe n : (0 < n < 1000)%nat -> universe (fixed n).
Proof.
  intros Hn. assert (Hf : forall k, fixed n k -> length k = n /\ bytes k).
  { unfold fixed, fixedb. intros k Hk. apply andb_prop in Hk as [H1 H2]. apply Nat.eqb_eq in H1. split; [done|by apply bytesb_ok]. }
  split.
  - intros k Hk. by apply Hf.
  - intros k Hk ->. apply Hf in Hk as [H1 _]. simpl in H1. lia.
  - intros k Hk. apply Hf in Hk as [H1 _]. unfold maxKeyLen. lia.
  - intros k k' Hk Hk' [q ->]. apply Hf in Hk as [H1 _]. apply Hf in Hk' as [H3 _]. rewrite app_length in H3.
    destruct q; [by rewrite app_nil_r|simpl in H3; lia].
Qed.

Lemma play_reachable m fetch n l tr y : (0 < m < 1000)%nat -> N.of_nat (length l) < 1000000 ->
  play (fixedb m) fetch (init n) l = Some (tr, y) -> reachable (fixed m) fetch n tr y.
Proof.
  intros Hm Hl H. destruct (play_runs (fixedb m) fetch n l [] (init n) tr y) as [H1 H2]; [constructor|done|].
  split; [by apply fixed_universe|done|]. rewrite H2. unfold maxUint64. lia.
Qed.
