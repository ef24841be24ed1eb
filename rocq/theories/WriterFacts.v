(** * WriterFacts: when the pipeline of WriteState ends. *)
From stdpp Require Import list_numbers.
From Verif Require Export WriterModel.

Section W.
Context (total : nat) (fails : nat -> bool) (n : nat).
Notation step := (wstep total fails).
Notation runs := (wruns total fails n).

Definition held_blocks (ws : list wpc) : list nat := ws ≫= (fun w => match w with WHave b => [b] | _ => [] end).
Definition in_hand (r : rpc) : list nat :=
  match r with RHead b | RBody b | RFail b | RExit (Some b) => [b] | _ => [] end.

(** Blocks that have been sent, by where they are now. *)
Definition where_ (st : wst) : list nat := w_emitted st ++ in_hand (w_writer st) ++ w_queue st ++ held_blocks (w_workers st).

Record winv (st : wst) : Prop := {
  wi_sent : where_ st ≡ₚ seq 0 (w_next st);
  wi_next : (w_next st <= total)%nat;
  wi_closed : w_main st <> MSend -> w_next st = total;
  wi_open : w_main st = MSend -> Forall (fun w => w <> WExit) (w_workers st);
  wi_exit : match w_main st with MRecv | MDone _ => Forall (eq WExit) (w_workers st) | _ => True end;
  wi_len : length (w_workers st) = n;
  wi_cap : (length (w_queue st) <= chanCap)%nat;
  wi_writes : match w_writer st with
              | RFail _ | RExit (Some _) => w_writes st = (2 * length (w_emitted st))%nat \/ w_writes st = S (2 * length (w_emitted st))
              | RBody _ => w_writes st = S (2 * length (w_emitted st))
              | _ => w_writes st = (2 * length (w_emitted st))%nat
              end;
  wi_fail : match w_writer st with RFail _ | RExit (Some _) => fails (w_writes st) = true | _ => True end;
  wi_nofail : forall i, (i < w_writes st)%nat -> fails i = false;
  wi_end : match w_writer st with
           | ROk => w_main st = MRecv /\ w_queue st = []
           | RExit None => w_main st = MDone false /\ w_queue st = []
           | RExit (Some _) => w_main st = MDone true
           | _ => forall f, w_main st <> MDone f
           end
}.

Lemma held_insert ws i w w' : ws !! i = Some w -> exists a b, held_blocks ws = a ++ held_blocks [w] ++ b /\
  held_blocks (<[i := w']> ws) = a ++ held_blocks [w'] ++ b.
Proof.
  intros H. rewrite (insert_take_drop _ _ _ (lookup_lt_Some _ _ _ H)).
  exists (held_blocks (take i ws)), (held_blocks (drop (S i) ws)). unfold held_blocks.
  split; [rewrite <- (take_drop_middle _ _ _ H) at 1|]; rewrite bind_app, bind_cons; cbn [mbind list_bind]; by rewrite app_nil_r.
Qed.

Lemma insert_all (P : wpc -> Prop) ws i w : Forall P ws -> P w -> Forall P (<[i := w]> ws).
Proof. intros H Hw. by apply Forall_insert. Qed.

Lemma winv_init : winv (winit n).
Proof.
  unfold winit. split; cbn [where_ w_main w_next w_workers w_queue w_writer w_writes w_emitted in_hand app]; try done; try lia.
  - unfold where_. cbn [w_workers w_emitted w_writer w_queue in_hand app]. assert (H : held_blocks (replicate n WIdle) = []).
    { induction n as [|m IH]; [done|]. exact IH. }
    by rewrite H.
  - intros _. apply Forall_replicate. done.
  - apply replicate_length.
  - unfold chanCap. cbn. lia.
Qed.

Lemma winv_step st st' : winv st -> step st st' -> winv st'.
Proof.
  intros [H1 H2 H3 H4 H5 H6 H7 H8 H9 H10 H11] Hs. unfold where_ in H1.
  destruct Hs; cbn [w_main w_next w_workers w_queue w_writer w_writes w_emitted in_hand app] in *;
    (split; unfold where_; cbn [w_main w_next w_workers w_queue w_writer w_writes w_emitted in_hand app] in *; [..|];
     try done; try lia).
  - destruct (held_insert ws i WIdle (WHave next) H0) as (a & b & Ea & ->). rewrite Ea in H1.
    change (held_blocks [WIdle]) with (@nil nat) in H1. change (held_blocks [WHave next]) with [next]. cbn [app] in *.
    rewrite seq_S. cbn [plus]. rewrite <- H1. solve_Permutation.
  - intros _. apply insert_all; [by apply H4|done].
  - by rewrite insert_length.
  - destruct r as [| | | | |[]]; try done; by destruct H11.
  - destruct (held_insert ws i WIdle WExit H0) as (a & b & Ea & ->). by rewrite Ea in H1.
  - destruct m; try done; by apply insert_all.
  - by rewrite insert_length.
  - destruct (held_insert ws i (WHave b) WIdle H) as (a & c & Ea & ->). rewrite Ea in H1.
    change (held_blocks [WIdle]) with (@nil nat). change (held_blocks [WHave b]) with [b] in H1. cbn [app] in *. rewrite <- H1. solve_Permutation.
  - intros E. apply insert_all; [by apply H4|done].
  - destruct m; try done; exfalso; rewrite Forall_forall in H5; by specialize (H5 _ (elem_of_list_lookup_2 _ _ _ H)).
  - by rewrite insert_length.
  - rewrite app_length. cbn. lia.
  - destruct r as [| | | | |[]]; try done; exfalso; destruct H11 as [-> _]; rewrite Forall_forall in H5; by specialize (H5 _ (elem_of_list_lookup_2 _ _ _ H)).
  - intros _. by apply H3.
  - destruct r as [| | | | |[]]; try done; by destruct H11.
  - cbn in H7. lia.
  - intros i Hi. destruct (decide (i = k)) as [->|]; [done|]. apply H10. lia.
  - by rewrite <- app_assoc.
  - rewrite app_length. cbn. lia.
  - intros i Hi. destruct (decide (i = k)) as [->|]; [done|]. apply H10. lia.
  - intros _. by apply H3.
  - intros _. by apply H3.
  - split; [done|]. apply H11.
Qed.

Lemma winv_runs l st : runs l st -> winv st.
Proof. induction 1 as [|l st st' _ IH H]; [apply winv_init|by eapply winv_step]. Qed.

(** ** Every schedule ends *)

Definition wweight (w : wpc) : nat := match w with WIdle => 1 | WHave _ => 6 | WExit => 0 end.
Definition rweight (r : rpc) : nat := match r with RRecv => 2 | RHead _ => 5 | RBody _ => 4 | RFail _ => 1 | ROk => 1 | RExit _ => 0 end.
Definition mweight (m : mpc) : nat := match m with MSend => 3 | MWait => 2 | MRecv => 1 | MDone _ => 0 end.
Definition measure (st : wst) : nat :=
  6 * (total - w_next st) + sum_list_with wweight (w_workers st) + 4 * length (w_queue st) + rweight (w_writer st) + mweight (w_main st).

Lemma weight_insert ws i w w' : ws !! i = Some w ->
  (sum_list_with wweight (<[i := w']> ws) + wweight w = sum_list_with wweight ws + wweight w')%nat.
Proof.
  revert i. induction ws as [|x ws IH]; intros [|i] H; try done.
  - injection H as ->. change (<[0%nat := w']> (w :: ws)) with (w' :: ws). cbn [sum_list_with]. lia.
  - change (<[S i := w']> (x :: ws)) with (x :: <[i := w']> ws). cbn [sum_list_with]. specialize (IH _ H). lia.
Qed.

Lemma measure_step st st' : step st st' -> (measure st' < measure st)%nat.
Proof.
  destruct 1; unfold measure; cbn [w_main w_next w_workers w_queue w_writer w_writes w_emitted length rweight mweight]; try lia.
  - pose proof (weight_insert _ _ _ (WHave next) H0) as E. cbn [wweight] in E. lia.
  - pose proof (weight_insert _ _ _ WExit H0) as E. cbn [wweight] in E. lia.
  - pose proof (weight_insert _ _ _ WIdle H) as E. cbn [wweight] in E. rewrite app_length. cbn [length]. lia.
Qed.

Lemma runs_bound l st : runs l st -> (l + measure st <= 6 * total + n + 5)%nat.
Proof.
  induction 1 as [|l st st' _ IH H].
  - unfold measure, winit. cbn [w_main w_next w_workers w_queue w_writer length rweight mweight].
    assert (E : sum_list_with wweight (replicate n WIdle) = n).
    { clear. induction n as [|m IH]; [done|]. cbn [replicate sum_list_with wweight]. lia. }
    rewrite E. lia.
  - apply measure_step in H. lia.
Qed.

(** ** Progress *)

(** The deadlock: the writer waits to report its error, the channel is full and a worker waits
    to send. *)
Definition jammed (st : wst) : Prop :=
  (exists b, w_writer st = RFail b) /\ length (w_queue st) = chanCap /\ exists i b, w_workers st !! i = Some (WHave b).

Lemma have_dec (ws : list wpc) : (exists i b, ws !! i = Some (WHave b)) \/ (forall i w, ws !! i = Some w -> w = WIdle \/ w = WExit).
Proof.
  induction ws as [|w ws IH]; [by right|]. destruct w as [|b|].
  2: { left. by exists 0%nat, b. }
  all: destruct IH as [(i & b & H)|H]; [left; by exists (S i), b|right; intros [|i] w Hw; [injection Hw as <-; auto|by eapply H]].
Qed.

Lemma idle_dec (ws : list wpc) : (forall i w, ws !! i = Some w -> w = WIdle \/ w = WExit) ->
  (exists i, ws !! i = Some WIdle) \/ Forall (eq WExit) ws.
Proof.
  induction ws as [|w ws IH]; intros H; [by right; constructor|]. destruct (H 0%nat w eq_refl) as [->| ->]; [left; by exists 0%nat|].
  destruct IH as [(i & Hi)|Hi]; [intros i w; apply (H (S i))|left; by exists (S i)|right; by constructor].
Qed.

(** With no block held by a worker, the main goroutine or a worker can go on until the writer is
    awaited. *)
Lemma main_steps m next ws q r k e : winv (WSt m next ws q r k e) -> (0 < n)%nat ->
  (forall i w, ws !! i = Some w -> w = WIdle \/ w = WExit) ->
  (exists st', step (WSt m next ws q r k e) st') \/ m = MRecv \/ exists f, m = MDone f.
Proof.
  intros Hi Hn Hw. destruct m as [| | |f]; [| |by auto|right; right; by exists f].
  - left. destruct (idle_dec ws Hw) as [(i & Hl)|Hx].
    + pose proof (wi_next _ Hi) as Hnx. cbn in Hnx. destruct (decide (next = total)) as [->|]; [eexists; by apply ws_close|].
      eexists. eapply ws_send; [lia|done].
    + exfalso. pose proof (wi_open _ Hi eq_refl) as Ho. pose proof (wi_len _ Hi) as Hl. cbn in Ho, Hl.
      destruct ws as [|w ws]; [cbn in Hl; lia|]. apply Forall_inv in Ho, Hx. by subst.
  - left. destruct (idle_dec ws Hw) as [(i & Hl)|Hx]; [eexists; by eapply ws_exit|eexists; by apply ws_wait].
Qed.

Lemma progress st : winv st -> (0 < n)%nat -> (exists st', step st st') \/ returned st \/ jammed st.
Proof.
  intros Hi Hn. destruct st as [m next ws q r k e].
  assert (Hput : (length q < chanCap)%nat -> (exists st', step (WSt m next ws q r k e) st') \/ m = MRecv \/ exists f, m = MDone f).
  { intros Hq. destruct (have_dec ws) as [(i & b & Hb)|Hw]; [left; eexists; by eapply ws_put|by apply main_steps]. }
  pose proof (wi_end _ Hi) as He. cbn in He. destruct r as [|b|b|b| |f].
  - destruct q as [|b q]; [|left; eexists; apply ws_take].
    destruct Hput as [H|[->|[f ->]]]; [cbn; unfold chanCap; lia|by left|left; eexists; apply ws_end|]. right. left. by exists f.
  - left. destruct (fails k) eqn:E; eexists; [by apply ws_headf|by apply ws_head].
  - left. destruct (fails k) eqn:E; eexists; [by apply ws_bodyf|by apply ws_body].
  - destruct (have_dec ws) as [(i & c & Hb)|Hw].
    + destruct (decide (length q < chanCap)%nat); [left; eexists; by eapply ws_put|]. right. right.
      pose proof (wi_cap _ Hi) as Hc. cbn in Hc. split_and!; cbn; [by exists b|lia|by exists i, c].
    + destruct (main_steps _ _ _ _ _ _ _ Hi Hn Hw) as [H|[->|[f ->]]]; [by left|left; eexists; apply ws_err|]. right. left. by exists f.
  - destruct He as [-> _]. left. eexists. apply ws_ok.
  - right. left. destruct f as [b|]; [by exists true|]. destruct He as [-> _]. by exists false.
Qed.

Lemma jam_count st : winv st -> jammed st -> fails (w_writes st) = true /\ (w_writes st / 2 + 34 <= total)%nat.
Proof.
  intros Hi ((b & Hw) & Hq & (i & c & Hc)). pose proof (wi_writes _ Hi) as H1. pose proof (wi_fail _ Hi) as H2. rewrite Hw in H1, H2.
  split; [done|]. pose proof (Permutation_length (wi_sent _ Hi)) as H3. unfold where_ in H3. rewrite Hw in H3. cbn [in_hand] in H3.
  rewrite !app_length, seq_length, Hq in H3. pose proof (wi_next _ Hi) as H4. cbn [length] in H3. unfold chanCap in H3.
  destruct (held_insert (w_workers st) i (WHave c) WIdle Hc) as (x & z & E & _). rewrite E in H3. rewrite !app_length in H3.
  change (length (held_blocks [WHave c])) with 1%nat in H3.
  assert (w_writes st / 2 = length (w_emitted st))%nat as ->.
  { destruct H1 as [-> | ->]; [rewrite Nat.mul_comm; by rewrite Nat.div_mul|]. symmetry. apply (Nat.div_unique _ 2 _ 1); lia. }
  lia.
Qed.

Lemma idle_or (ws : list wpc) : (exists i, ws !! i = Some WIdle) \/ (forall i, ws !! i <> Some WIdle).
Proof.
  induction ws as [|w ws IH]; [by right|]. destruct w; [left; by exists 0%nat|destruct IH as [[i H]|H]..].
  all: try (left; by exists (S i)). all: right; intros [|i]; [done|apply H].
Qed.

Lemma jam_progress st : winv st -> jammed st -> (exists st', step st st') \/ wstuck total fails st.
Proof.
  intros Hi ((b & Hw) & Hq & (i & c & Hc)). destruct st as [m next ws q r k e]. cbn in Hw, Hq, Hc. subst r.
  assert (Hx : ~ Forall (eq WExit) ws).
  { intros H. rewrite Forall_forall in H. by specialize (H _ (elem_of_list_lookup_2 _ _ _ Hc)). }
  pose proof (wi_exit _ Hi) as He. cbn in He. destruct m as [| | |f]; try done.
  - pose proof (wi_next _ Hi) as Hnx. cbn in Hnx. destruct (decide (next = total)) as [->|]; [left; eexists; by apply ws_close|].
    destruct (idle_or ws) as [[j Hj]|Hj]; [left; eexists; eapply ws_send; [lia|done]|]. right. intros st' Hs.
    inversion Hs; subst; try done; try congruence; try lia; by eapply Hj.
  - destruct (idle_or ws) as [[j Hj]|Hj]; [left; eexists; by eapply ws_exit|]. right. intros st' Hs.
    inversion Hs; subst; try done; try congruence; try lia; by eapply Hj.
Qed.

(** ** Results *)

Lemma done_false st : winv st -> w_main st = MDone false -> w_emitted st ≡ₚ seq 0 total /\ w_writes st = (2 * total)%nat.
Proof.
  intros Hi Hm. pose proof (wi_end _ Hi) as He. pose proof (wi_sent _ Hi) as Hs. pose proof (wi_closed _ Hi) as Hc. rewrite Hm in He, Hc.
  specialize (Hc ltac:(done)). pose proof (wi_exit _ Hi) as Hx. rewrite Hm in Hx. pose proof (wi_writes _ Hi) as Hk.
  assert (Hh : held_blocks (w_workers st) = []).
  { clear -Hx. induction Hx as [|w ws <- _ IH]; [done|exact IH]. }
  unfold where_ in Hs. rewrite Hh, Hc in Hs.
  destruct (w_writer st) as [|b|b|b| |[b|]]; try discriminate; try (exfalso; by apply (He false)); try (apply proj1 in He; discriminate).
  destruct He as [_ Hq]. rewrite Hq in Hs. cbn [in_hand app] in Hs. rewrite app_nil_r in Hs. split; [done|]. rewrite Hk. apply Permutation_length in Hs. rewrite seq_length in Hs. lia.
Qed.

Lemma done_true st : winv st -> w_main st = MDone true -> fails (w_writes st) = true /\ (total <= w_writes st / 2 + 33)%nat /\ (w_writes st < 2 * total)%nat.
Proof.
  intros Hi Hm. pose proof (wi_end _ Hi) as He. pose proof (wi_sent _ Hi) as Hs. pose proof (wi_closed _ Hi) as Hc. rewrite Hm in He, Hc.
  specialize (Hc ltac:(done)). pose proof (wi_exit _ Hi) as Hx. rewrite Hm in Hx. pose proof (wi_writes _ Hi) as Hk. pose proof (wi_fail _ Hi) as Hf.
  pose proof (wi_cap _ Hi) as Hq.
  assert (Hh : held_blocks (w_workers st) = []).
  { clear -Hx. induction Hx as [|w ws <- _ IH]; [done|exact IH]. }
  unfold where_ in Hs. rewrite Hh, Hc in Hs.
  destruct (w_writer st) as [|b|b|b| |[b|]]; try discriminate; try (exfalso; by apply (He true)); try (apply proj1 in He; discriminate).
  split; [done|]. apply Permutation_length in Hs. rewrite !app_length, seq_length in Hs. cbn [in_hand length] in Hs. unfold chanCap in Hq.
  assert (w_writes st / 2 = length (w_emitted st))%nat as ->.
  { destruct Hk as [-> | ->]; [rewrite Nat.mul_comm; by rewrite Nat.div_mul|]. symmetry. apply (Nat.div_unique _ 2 _ 1); lia. }
  lia.
Qed.
End W.

(** The schedule ends; when it ends, WriteState has returned. *)
Lemma c38_returns total fails n l st : (0 < n)%nat -> (forall i, fails i = true -> (total <= i / 2 + 33)%nat) ->
  wruns total fails n l st ->
  (l <= 6 * total + n + 5)%nat /\ ((exists st', wstep total fails st st') \/ returned st) /\
  (w_main st = MDone false -> w_emitted st ≡ₚ seq 0 total /\ forall i, (i < 2 * total)%nat -> fails i = false) /\
  (w_main st = MDone true -> exists i, (i < 2 * total)%nat /\ fails i = true /\ w_writes st = i /\ forall j, (j < i)%nat -> fails j = false).
Proof.
  intros Hn Hf Hr. pose proof (winv_runs _ _ _ _ _ Hr) as Hi. split_and!.
  - pose proof (runs_bound _ _ _ _ _ Hr). lia.
  - destruct (progress _ _ _ _ Hi Hn) as [H|[H|H]]; [by left|by right|]. exfalso.
    destruct (jam_count _ _ _ _ Hi H) as [H1 H2]. specialize (Hf _ H1). lia.
  - intros Hm. destruct (done_false _ _ _ _ Hi Hm) as [H1 H2]. split; [done|]. intros i Hlt. apply (wi_nofail _ _ _ _ Hi). lia.
  - intros Hm. destruct (done_true _ _ _ _ Hi Hm) as (H1 & _ & H2). exists (w_writes st). split_and!; try done. intros j Hj. by apply (wi_nofail _ _ _ _ Hi).
Qed.

(** It never returns when call [i] of Write fails and more than 33 blocks follow. *)
Lemma c38_never total fails n i : fails i = true -> (forall j, (j < i)%nat -> fails j = false) -> (i / 2 + 33 < total)%nat ->
  forall l st, wruns total fails n l st -> (l <= 6 * total + n + 5)%nat /\ ~ returned st.
Proof.
  intros Hf Hb Ht l st Hr. pose proof (winv_runs _ _ _ _ _ Hr) as Hi. split; [pose proof (runs_bound _ _ _ _ _ Hr); lia|].
  intros [[] Hm].
  - destruct (done_true _ _ _ _ Hi Hm) as (H1 & H2 & _).
    assert (E : w_writes st = i); [|rewrite E in H2; lia].
    destruct (Nat.lt_trichotomy (w_writes st) i) as [H|[H|H]]; [|done|]; exfalso.
    + rewrite Hb in H1; done.
    + by rewrite (wi_nofail _ _ _ _ Hi) in Hf.
  - destruct (done_false _ _ _ _ Hi Hm) as [_ H2]. rewrite (wi_nofail _ _ _ _ Hi) in Hf; [done|].
    pose proof (Nat.div_mod_eq i 2). pose proof (Nat.mod_upper_bound i 2 ltac:(done)). lia.
Qed.

(** Some schedule reaches a state in which no goroutine can go on. *)
Lemma ends total fails n : (0 < n)%nat -> forall l st, wruns total fails n l st ->
  exists l' st', wruns total fails n l' st' /\ (returned st' \/ (jammed st' /\ wstuck total fails st')).
Proof.
  intros Hn l st. remember (measure total st) as k eqn:Ek. revert l st Ek. induction (lt_wf k) as [k _ IH]. intros l st -> Hr.
  destruct (progress _ _ _ _ (winv_runs _ _ _ _ _ Hr) Hn) as [(st' & Hs)|[H|H]]; [|exists l, st; by auto|].
  2: { destruct (jam_progress _ _ _ _ (winv_runs _ _ _ _ _ Hr) H) as [(st' & Hs)|H']; [|exists l, st; by auto].
       eapply IH; [by eapply measure_step|done|]. by econstructor. }
  eapply IH; [by eapply measure_step|done|]. by econstructor.
Qed.

Lemma c38_deadlock : exists total fails n l st, (0 < n)%nat /\ wruns total fails n l st /\
  ~ returned st /\ wstuck total fails st.
Proof.
  destruct (ends 40 (fun _ => true) 4 ltac:(lia) 0 (winit 4) (wr_init _ _ _)) as (l & st & Hr & H).
  exists 40%nat, (fun _ => true), 4%nat, l, st.
  destruct (c38_never 40 (fun _ => true) 4 0 eq_refl ltac:(lia) ltac:(cbn; lia) l st Hr) as [_ H1].
  split; [lia|]. destruct H as [H|[_ H]]; done.
Qed.

(** The order in which the blocks were written is one of those considered in [Restart]. *)
Lemma c38_order s fails n l st : wruns (N.to_nat (t_nextFreeBlock s)) fails n l st -> w_main st = MDone false ->
  all_written s (map N.of_nat (w_emitted st)).
Proof.
  intros Hr Hm. destruct (done_false _ _ _ _ (winv_runs _ _ _ _ _ Hr) Hm) as [H _]. split.
  - apply (NoDup_fmap_2 N.of_nat). rewrite H. apply NoDup_seq.
  - intros b. rewrite elem_of_list_fmap. split.
    + intros (x & -> & Hx). rewrite H in Hx. apply elem_of_seq in Hx. lia.
    + intros Hb. exists (N.to_nat b). split; [by rewrite N2Nat.id|]. rewrite H. apply elem_of_seq. lia.
Qed.

(** A run that ends with an error, and one that ends without. *)
Lemma c38_run_error : exists l st, wruns 3 (fun i => bool_decide (i = 2%nat)) 2 l st /\ w_main st = MDone true /\ length (w_emitted st) = 1%nat.
Proof.
  destruct (ends 3 (fun i => bool_decide (i = 2%nat)) 2 ltac:(lia) 0 (winit 2) (wr_init _ _ _)) as (l & st & Hr & H).
  assert (Hf : forall i, bool_decide (i = 2%nat) = true -> (3 <= i / 2 + 33)%nat).
  { intros i Hb. apply bool_decide_eq_true in Hb as ->. cbn. lia. }
  destruct (c38_returns 3 (fun i => bool_decide (i = 2%nat)) 2 l st ltac:(lia) Hf Hr) as (_ & H1 & H2 & H3).
  pose proof (winv_runs _ _ _ _ _ Hr) as Hi. exists l, st. split; [done|].
  destruct H as [[[] Hm]|[_ H]].
  - split; [done|]. destruct (H3 Hm) as (i & _ & Hb & Hk & _). apply bool_decide_eq_true in Hb as ->.
    pose proof (wi_writes _ _ _ _ Hi) as Hw. rewrite Hk in Hw. destruct (w_writer st) as [|b|b|b| |[b|]]; cbv iota in Hw; lia.
  - destruct (H2 Hm) as [_ H4]. specialize (H4 2%nat ltac:(lia)). done.
  - destruct H1 as [[st' Hs]|[f Hm]]; [by destruct (H st')|].
    destruct f; [|destruct (H2 Hm) as [_ H4]; specialize (H4 2%nat ltac:(lia)); done].
    split; [done|]. destruct (H3 Hm) as (i & _ & Hb & Hk & _). apply bool_decide_eq_true in Hb as ->.
    pose proof (wi_writes _ _ _ _ Hi) as Hw. rewrite Hk in Hw. destruct (w_writer st) as [|b|b|b| |[b|]]; cbv iota in Hw; lia.
Qed.

Lemma c38_run_ok : exists l st, wruns 40 (fun _ => false) 4 l st /\ w_main st = MDone false /\ length (w_emitted st) = 40%nat.
Proof.
  destruct (ends 40 (fun _ => false) 4 ltac:(lia) 0 (winit 4) (wr_init _ _ _)) as (l & st & Hr & H).
  assert (Hf : forall i : nat, false = true -> (40 <= i / 2 + 33)%nat) by done.
  destruct (c38_returns 40 (fun _ => false) 4 l st ltac:(lia) Hf Hr) as (_ & H1 & H2 & H3). exists l, st. split; [done|].
  assert (Hm : w_main st = MDone false).
  { destruct H as [[[] Hm]|[_ H]]; [destruct (H3 Hm) as (i & _ & ? & _); done|done|].
    destruct H1 as [[st' Hs]|[[] Hm]]; [by destruct (H st')|destruct (H3 Hm) as (i & _ & ? & _); done|done]. }
  split; [done|]. destruct (H2 Hm) as [H4 _]. by rewrite (Permutation_length H4), seq_length.
Qed.
