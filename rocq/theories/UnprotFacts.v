(** * UnprotFacts: a history in which MinKey returns a value that was never stored. *)
From Verif Require Export Unprot.

Definition f10b (v : N) : list N := v / 256 :: replicate 8 1 ++ [v mod 256].

(** The whole loop in one state is [min_key]. *)
Lemma min_along_one s : forall n raw, min_along (replicate n s) raw = min_loop n s raw.
Proof.
  induction n as [|n IH]; intros raw; [done|]. cbn [replicate min_along min_loop]. destruct (explodeNode raw) as [[[k nd] c] p].
  destruct (node_data s nd) as [d| | |]; try done. cbn [bind]. destruct (skip_prefix (t_mem s) d p) as [[[a b] d1]| | |]; try done. cbn [bind].
  destruct (fullAllocFrom <=? c)%nat.
  - destruct (sl_upto d1 c); try done. cbn [bind]. destruct (find_up _ _ _ _); [|done]. rewrite IH. done.
  - destruct (sl_get _ d1 0); try done. cbn [bind]. rewrite IH. done.
Qed.

Lemma min_key_along_one n s sp : min_key_along s (replicate n s) sp = min_key n s sp.
Proof.
  unfold min_key_along, min_key. destruct (partial_search s sp) as [[raw d]| | |]; try done. cbn [bind].
  destruct (raw =? 0); [done|]. destruct (isLeaf raw); [done|]. apply min_along_one.
Qed.

(** Root with three children; the fourth insert moves it; 500 inserts and deletes of a fifth key
    advance the epoch; the split of the leaf 0 takes the memory of the old root node. *)
Definition unprot_before : list act := puts f10b 0 [0; 256; 512].
Definition unprot_after : list act :=
  puts f10b 0 [768] ++ concat (replicate 500 (put f10b 0 1024 ++ del 0 (f10b 1024))) ++ puts f10b 0 [1].

Definition storedb (tr : list (call * reply)) (v : N) : bool :=
  existsb (fun cr => match cr.1 with CFinU _ _ _ w => w mod 2 ^ 55 =? v | _ => false end) tr.

Lemma storedb_ok tr v : storedb tr v = false -> ~ stored_in tr v.
Proof.
  intros H (aid & fk & m & w & r & Hin & Hw). assert (Ht : storedb tr v = true); [|congruence].
  apply existsb_exists. exists (CFinU aid fk m w, r). split; [apply elem_of_list_In; done|]. cbn. apply N.eqb_eq. done.
Qed.

Definition unprot_test (l1 l2 : list act) : bool :=
  match play (fixedb 10) f10b (init 2) l1 with
  | Some (tr1, y1) =>
    match play (fixedb 10) f10b y1 l2 with
    | Some (tr2, y2) =>
      match min_key_along (sy_tree y1) [sy_tree y2] [] with
      | Ok (v, true) => negb (storedb (tr1 ++ tr2) v) && (v =? 141289400074368) && (size (sy_open y2) =? 0)%nat
      | _ => false
      end
    | None => false
    end
  | None => false
  end.

Lemma unprot_found l1 l2 : unprot_test l1 l2 = true -> N.of_nat (length l1 + length l2) < 1000000 ->
  exists tr1 y1 tr2 y2 v, reachable (fixed 10) f10b 2 tr1 y1 /\ reachable (fixed 10) f10b 2 (tr1 ++ tr2) y2 /\
  sy_open y2 = ∅ /\ min_key_along (sy_tree y1) [sy_tree y2] [] = Ok (v, true) /\ ~ stored_in (tr1 ++ tr2) v.
Proof.
  intros H Hlen. unfold unprot_test in H.
  destruct (play (fixedb 10) f10b (init 2) l1) as [[tr1 y1]|] eqn:E1; [|done].
  destruct (play (fixedb 10) f10b y1 l2) as [[tr2 y2]|] eqn:E2; [|done].
  destruct (min_key_along (sy_tree y1) [sy_tree y2] []) as [[v []]| | |] eqn:E3; try done.
  apply andb_prop in H as [H H3]. apply andb_prop in H as [H1 H2]. apply negb_true_iff in H1. apply Nat.eqb_eq in H3.
  exists tr1, y1, tr2, y2, v.
  assert (Hr1 : runs (fun k => fixedb 10 k = true) f10b 2 ([] ++ tr1) y1 /\ length tr1 = length l1) by (eapply play_runs; [constructor|exact E1]).
  destruct Hr1 as [Hr1 Hl1].
  assert (Hr2 : runs (fun k => fixedb 10 k = true) f10b 2 (tr1 ++ tr2) y2 /\ length tr2 = length l2) by (eapply play_runs; [exact Hr1|exact E2]).
  destruct Hr2 as [Hr2 Hl2].
  split; [eapply play_reachable; [lia| |exact E1]; lia|]. split.
  - split; [apply fixed_universe; lia|exact Hr2|]. rewrite app_length, Hl1, Hl2. unfold maxUint64. lia.
  - split; [by apply map_size_empty_inv|]. split; [exact E3|]. apply storedb_ok. exact H1.
Qed.

Lemma min_key_unprotected : exists tr1 y1 tr2 y2 v, reachable (fixed 10) f10b 2 tr1 y1 /\ reachable (fixed 10) f10b 2 (tr1 ++ tr2) y2 /\
  sy_open y2 = ∅ /\ min_key_along (sy_tree y1) [sy_tree y2] [] = Ok (v, true) /\ ~ stored_in (tr1 ++ tr2) v.
Proof. apply (unprot_found unprot_before unprot_after); by vm_compute. Qed.
