(** * ApiTop: the API properties in their final form. *)
From Verif Require Export ApiProps Live Seq.

Section Top.
Context (K : list N -> Prop) (fetch : N -> list N).
Local Notation reachable := (reachable K fetch).
Local Notation get := (get fetch).

Lemma c01_lookup n tr y aid k v : reachable n tr y -> proper K fetch y (CLookup aid k) -> h_map (replay tr) !! k = Some v ->
  api y (CLookup aid k) = Ok (RLookup v true, y).
Proof.
  intros Hr Hp Hm. pose proof (reach_get K fetch _ _ _ _ _ Hr Hm) as Hg.
  destruct (c02_lookup K fetch n tr y aid k Hr Hp) as (v' & found & E & Hgk & _). rewrite E.
  rewrite Hg in Hgk. destruct found; [|done]. destruct (decide (fetch v' = k)); [|done]. congruence.
Qed.

(** Locks taken by one call. *)
Definition taken (y y1 : sys) (i : N) : Prop := locked y1 i /\ ~ locked y i.

(** [y1] was reached from [y] by a Prepare call of [aid]; aborting the operation in state [y2]
    (any number of calls of other clients later) leads to [y3]. *)
Definition abort_post (aid : nat) (y y1 y2 y3 : sys) : Prop :=
  same_store y2 y3 /\ sy_open y3 = delete aid (sy_open y2) /\
  (forall k, bytes k -> k <> [] -> get y3 k = get y2 k) /\
  (forall i, locked y3 i <-> locked y2 i /\ ~ taken y y1 i) /\
  (t_rootLock (sy_tree y3) = t_rootLock (sy_tree y2) - (t_rootLock (sy_tree y1) - t_rootLock (sy_tree y))) /\
  t_resv (sy_tree y3) = <[aid := maxUint64]> (t_resv (sy_tree y2)).

Lemma abort_back y y1 y2 y3 aid hd : (forall tr n, reachable n tr y2 -> t_rootLock (sy_tree y2) <= 1) ->
  forall n tr, reachable n tr y2 -> takes y aid y1 -> sy_open y2 !! aid = Some hd -> sy_open y1 !! aid = Some hd ->
  aborts fetch y2 aid hd y3 -> abort_post aid y y1 y2 y3.
Proof.
  intros Hrl n tr Hr (hd' & Ho & Hss & Hl & Hfr & Hroot & Hre) H2 H1 (A1 & A2 & A3 & A4 & A5 & A6).
  rewrite Ho, lookup_insert in H1. injection H1 as ->. split_and!; try done.
  - intros i. rewrite A4. unfold taken. rewrite Hl. split.
    + intros [Ha Hb]. split; [done|]. intros [[Hc|Hc] Hd]; [done|]. done.
    + intros [Ha Hb]. split; [done|]. intros Hc. apply Hb. split; [by right|by apply Hfr].
  - rewrite A5. specialize (Hrl _ _ Hr). destruct (oroot hd).
    + destruct Hroot as [-> ->]. lia.
    + rewrite Hroot. lia.
Qed.

Lemma rootlock_le n tr y : reachable n tr y -> t_rootLock (sy_tree y) <= 1.
Proof.
  intros Hr. destruct (reach_inv K fetch _ _ _ Hr) as (T & lost & Hi). rewrite (iv_rl _ _ _ _ _ _ _ Hi).
  pose proof (iv_rl1 _ _ _ _ _ _ _ Hi). lia.
Qed.

Lemma c07_full n tr y aid k r y1 n2 tr2 y2 : reachable n tr y -> proper K fetch y (CPrepU aid k) -> api y (CPrepU aid k) = Ok (r, y1) ->
  reachable n2 tr2 y2 -> sy_open y2 !! aid = sy_open y1 !! aid ->
  exists y3, api y2 (CAbortU aid) = Ok (RUnit, y3) /\ abort_post aid y y1 y2 y3.
Proof.
  intros Hr Hp E Hr2 Ho. pose proof (c07_prepare K fetch _ _ _ _ _ _ _ Hr Hp E) as Ht.
  assert (Ho1 : exists found op, sy_open y1 !! aid = Some (HU found op)).
  { cbn [api] in E. destruct (prepare_update (sy_tree y) aid k) as [[[found op] s1]| | |]; try done.
    cbn [bind] in E. injection E as <- <-. cbn [sy_open]. rewrite lookup_insert. eauto. }
  destruct Ho1 as (found & op & Ho1).
  assert (Hp2 : proper K fetch y2 (CAbortU aid)) by (exists found, op; by rewrite Ho).
  destruct (c07_abort K fetch _ _ _ _ Hr2 Hp2) as (hd & y3 & Hhd & E3 & Ha). exists y3. split; [done|].
  eapply abort_back; [intros ?? H; by eapply rootlock_le|done|done|done|by rewrite <- Ho|done].
Qed.

Lemma c08_full n tr y aid k v y1 n2 tr2 y2 : reachable n tr y -> proper K fetch y (CPrepD aid k) ->
  api y (CPrepD aid k) = Ok (RPrepD (Some v), y1) ->
  reachable n2 tr2 y2 -> sy_open y2 !! aid = sy_open y1 !! aid -> proper K fetch y2 (CAbortD aid) ->
  exists y3, api y2 (CAbortD aid) = Ok (RUnit, y3) /\ abort_post aid y y1 y2 y3.
Proof.
  intros Hr Hp E Hr2 Ho Hp2. pose proof (c08_prepare K fetch _ _ _ _ _ _ _ Hr Hp E) as Ht.
  destruct (c08_abort K fetch _ _ _ _ Hr2 Hp2) as (hd & y3 & Hhd & E3 & Ha). exists y3. split; [done|].
  eapply abort_back; [intros ?? H; by eapply rootlock_le|done|done|done|by rewrite <- Ho|done].
Qed.

(** Nothing stays locked or reserved when no operation is open. *)
Lemma c45_idle n tr y : reachable n tr y -> sy_open y = ∅ ->
  (forall i, ~ locked y i) /\ t_rootLock (sy_tree y) = 0 /\ (forall aid, ~ reserved y aid).
Proof.
  intros Hr Ho. split_and!.
  - intros i Hi. apply (locked_iff K fetch _ _ _ _ Hr) in Hi as (aid & hd & H & _). by rewrite Ho in H.
  - destruct (reach_inv K fetch _ _ _ Hr) as (T & lost & Hi). rewrite (iv_rl _ _ _ _ _ _ _ Hi), Ho. done.
  - intros aid (r & Hl & Hne). destruct (reach_inv K fetch _ _ _ Hr) as (T & lost & Hi).
    apply Hne. apply (iv_idle _ _ _ _ _ _ _ Hi _ _ Hl). by rewrite Ho.
Qed.

(** With no other operation open, a Prepare call succeeds at once: no retry, no panic, no endless loop. *)
Lemma c44_api n tr y c : reachable n tr y -> proper K fetch y c -> sy_open y = ∅ ->
  (match c with CLookup _ _ | CPrepU _ _ | CPrepD _ _ => True | _ => False end) -> exists r y', api y c = Ok (r, y').
Proof.
  intros Hr Hp Ho Hc. pose proof (c12_outcomes K fetch n tr y _ Hr Hp) as H.
  destruct (api y c) as [[r y']|[]| |]; try done; [by exists r, y'| | |].
  - destruct H as (? & ? & H & _). by destruct c.
  - by destruct c.
  - by destruct H.
Qed.
End Top.
