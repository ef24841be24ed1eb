(** * PWitness: concrete files. *)
From Coq Require Import String.
From Verif Require Export PersistTop Examples.

(** The identity is a codec. *)
Definition idpack (l : list N) : list N := l.
Definition idunpack (l : list N) : option (list N) := Some l.

Lemma id_codec : codec idpack idunpack.
Proof. split; [done|]. unfold idpack. intros l ->. by vm_compute. Qed.

(** One key, never flushed. *)
Definition one_script : list act := put f1 0 7.

Definition restartb (y : sys) (order : list N) : bool :=
  bool_decide (sy_open y = ∅) && bool_decide (NoDup order) && forallb (fun b => b <? t_nextFreeBlock (sy_tree y)) order &&
  (N.of_nat (length order) =? t_nextFreeBlock (sy_tree y)) && (t_live (sy_tree y) <? 2 ^ 63)%Z && (72 * N.of_nat (naids y) <=? maxAlloc).

Lemma restartb_ok K fetch y order : restartb y order = true -> proper K fetch y (CRestart idpack idunpack order).
Proof.
  unfold restartb. intros H. apply andb_prop in H as [H H6]. apply andb_prop in H as [H H5]. apply andb_prop in H as [H H4].
  apply andb_prop in H as [H H3]. apply andb_prop in H as [H1 H2]. apply bool_decide_eq_true in H1, H2. apply N.eqb_eq in H4.
  apply Z.ltb_lt in H5. apply N.leb_le in H6. split; [done|]. split; [apply id_codec|]. split; [|done]. split; [done|]. intros b.
  assert (Hlt : forall x, x ∈ order -> x < t_nextFreeBlock (sy_tree y)).
  { intros x Hx. rewrite forallb_forall in H3. apply N.ltb_lt, H3. by apply elem_of_list_In. }
  split; [apply Hlt|]. intros Hb.
  assert (Hp : order ≡ₚ seqN 0 (length order)).
  { apply submseteq_Permutation_length_eq; [by rewrite seqN_length|]. apply NoDup_submseteq; [done|]. intros x Hx. apply elem_of_seqN.
    specialize (Hlt x Hx). lia. }
  rewrite Hp. apply elem_of_seqN. lia.
Qed.

Definition lenb (r : lres (tree * list N)) (z : Z) : bool := match r with Loaded (s, _) => (len s =? z)%Z | _ => false end.

Lemma len_lost : exists tr y pack unpack order s' bs, reachable (fixed 1) f1 2 tr y /\
  proper (fixed 1) f1 y (CRestart pack unpack order) /\
  new_tree_from_state unpack (write_state pack (sy_tree y) order) = Loaded (s', bs) /\ len (sy_tree y) = 1%Z /\ len s' = 0%Z.
Proof.
  destruct (after_reachable 1 f1 one_script (fun tr y => restartb y [] && (len (sy_tree y) =? 1)%Z &&
    lenb (new_tree_from_state idunpack (write_state idpack (sy_tree y) [])) 0)) as (tr & y & Hr & H); [lia|by vm_compute|by vm_compute|].
  apply andb_prop in H as [H H3]. apply andb_prop in H as [H1 H2]. unfold lenb in H3.
  destruct (new_tree_from_state _ _) as [[s' bs]| |] eqn:E; try done. apply Z.eqb_eq in H2, H3.
  exists tr, y, idpack, idunpack, [], s', bs. split_and!; try done. by apply restartb_ok.
Qed.

(** Run a script, restart, run another script. *)
Definition after2 (m : nat) (fetch : N -> list N) (l1 : list act) (order : list N) (l2 : list act) (P : list (call * reply) -> sys -> bool) : bool :=
  match play (fixedb m) fetch (init 2) l1 with
  | Some (tr1, y1) =>
    restartb y1 order &&
    match api y1 (CRestart idpack idunpack order) with
    | Ok (r, y2) =>
      match play (fixedb m) fetch y2 l2 with
      | Some (tr2, y3) => P ((tr1 ++ [(CRestart idpack idunpack order, r)]) ++ tr2) y3
      | None => false
      end
    | _ => false
    end
  | None => false
  end.

Lemma after2_reachable m fetch l1 order l2 P : (0 < m < 1000)%nat -> N.of_nat (length l1 + length l2) < 1000000 ->
  after2 m fetch l1 order l2 P = true -> exists tr y, reachable (fixed m) fetch 2 tr y /\ P tr y = true.
Proof.
  unfold after2. intros Hm Hl H. destruct (play (fixedb m) fetch (init 2) l1) as [[tr1 y1]|] eqn:E1; [|done].
  apply andb_prop in H as [H1 H]. destruct (api y1 _) as [[r y2]| | |] eqn:Ea; try done.
  destruct (play (fixedb m) fetch y2 l2) as [[tr2 y3]|] eqn:E2; [|done].
  destruct (play_runs _ _ 2 _ [] _ _ _ (runs_nil _ _ _) E1) as [R1 L1]. cbn [app] in R1.
  assert (R2 : runs (fixed m) fetch 2 (tr1 ++ [(CRestart idpack idunpack order, r)]) y2).
  { econstructor; [exact R1| |exact Ea]. by apply restartb_ok. }
  destruct (play_runs _ _ 2 _ _ _ _ _ R2 E2) as [R3 L3]. eexists _, y3. split; [|exact H].
  split; [by apply fixed_universe|exact R3|]. rewrite !app_length. cbn [length]. rewrite maxUint64_val. lia.
Qed.

Lemma len_negative : exists tr y, reachable (fixed 1) f1 2 tr y /\ sequential tr /\ len (sy_tree y) = (-1)%Z /\ h_map (replay tr) = ∅.
Proof.
  destruct (after2_reachable 1 f1 one_script [] (del 0 (f1 7)) (fun tr y => (len (sy_tree y) =? -1)%Z && bool_decide (h_map (replay tr) = ∅) &&
    forallb (fun i => (size (h_pend (replay (take i tr))) <=? 1)%nat) (seq 0 (S (length tr))))) as (tr & y & Hr & H); [lia|by vm_compute|by vm_compute|].
  apply andb_prop in H as [H H3]. apply andb_prop in H as [H1 H2]. apply bool_decide_eq_true in H2. apply Z.eqb_eq in H1.
  exists tr, y. split_and!; try done. intros tr1 tr2 ->. rewrite forallb_forall in H3. specialize (H3 (length tr1)).
  rewrite take_app in H3. apply Nat.leb_le, H3. apply in_seq. rewrite app_length. lia.
Qed.

Definition answers (s : tree) (key : list N) (v : N) (f : bool) : bool :=
  match search s key with Ok (v', f') => (v' =? v) && Bool.eqb f' f | _ => false end.
Lemma answers_ok s key v f : answers s key v f = true -> search s key = Ok (v, f).
Proof.
  unfold answers. destruct (search s key) as [[v' f']| | |]; try done. intros H. apply andb_prop in H as [H1 H2].
  apply N.eqb_eq in H1 as ->. by apply eqb_prop in H2 as ->.
Qed.

(** A file cut before the line of the root. *)
Lemma cut_root : exists tr y pack unpack order k s' bs, reachable (fixed 1) f1 2 tr y /\
  proper (fixed 1) f1 y (CRestart pack unpack order) /\ (k < length (write_state pack (sy_tree y) order))%nat /\
  new_tree_from_state unpack (take k (write_state pack (sy_tree y) order)) = Loaded (s', bs) /\
  search (sy_tree y) (f1 7) = Ok (7, true) /\ search s' (f1 7) = Ok (0, false).
Proof.
  destruct (after_reachable 1 f1 one_script (fun tr y => restartb y [] &&
    answers (sy_tree y) (f1 7) 7 true && (60 <? length (write_state idpack (sy_tree y) []))%nat &&
    match new_tree_from_state idunpack (take 60 (write_state idpack (sy_tree y) [])) with
    | Loaded (s, _) => answers s (f1 7) 0 false
    | _ => false
    end)) as (tr & y & Hr & H); [lia|by vm_compute|by vm_compute|].
  apply andb_prop in H as [H H4]. apply andb_prop in H as [H H3]. apply andb_prop in H as [H1 H2].
  destruct (new_tree_from_state _ _) as [[s' bs]| |] eqn:E; try done. apply answers_ok in H2, H4. apply Nat.ltb_lt in H3.
  exists tr, y, idpack, idunpack, [], 60%nat, s', bs. split_and!; try done. by apply restartb_ok.
Qed.

(** Files that make the loader panic. *)
Lemma bad_files unpack :
  new_tree_from_state unpack (str "hello" ++ [nl]) = Crashed OutOfRange /\
  new_tree_from_state unpack (str "epoch 1" ++ [nl]) = Crashed NilBlock /\
  new_tree_from_state unpack (str "allocators 1" ++ nl :: str "allocator 0" ++ nl :: str "recycler 258 0" ++ [nl; nl]) = Crashed OutOfRange /\
  new_tree_from_state unpack (str "allocated_blocks 65536" ++ [nl]) = Crashed OutOfRange.
Proof. split_and!; by vm_compute. Qed.

(** A tree with nodes, for the examples. *)
Lemma ex_file : exists tr y, reachable (fixed 2) f2 2 tr y /\ proper (fixed 2) f2 y (CRestart idpack idunpack [0]) /\
  size (h_map (replay tr)) = 3%nat /\ (0 <= len (sy_tree y) < 2 ^ 63)%Z /\ length tr = 6%nat /\ naids y = 2%nat.
Proof.
  destruct (after_reachable 2 f2 (puts f2 0 [1; 2; 300]) (fun tr y => restartb y [0] && (size (h_map (replay tr)) =? 3)%nat &&
    (len (sy_tree y) =? 3)%Z && (length tr =? 6)%nat && (naids y =? 2)%nat)) as (tr & y & Hr & H); [lia|by vm_compute|by vm_compute|].
  apply andb_prop in H as [H H5]. apply andb_prop in H as [H H4]. apply andb_prop in H as [H H3]. apply andb_prop in H as [H1 H2].
  apply Nat.eqb_eq in H2, H4, H5. apply Z.eqb_eq in H3. exists tr, y. split_and!; try done; try lia. by apply restartb_ok.
Qed.
