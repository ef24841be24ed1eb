(** * StepProg: how many accesses calls make when all calls are interrupted.
    FineProg.v for the histories of StepRun.v, and bounds for Finalize and Abort.  Nothing is assumed about
    the memory. *)
From Verif Require Export StepRun FineProg.

(** ** The length of Finalize and Abort *)

(** At most [n] accesses, whatever the loads return. *)
Fixpoint wshort {A} (n : N) (p : wprog A) : Prop :=
  match p with
  | WDo _ k => 1 <= n /\ forall v, wshort (n - 1) (k v)
  | _ => True
  end.

Lemma wshort_mono {A} n m (p : wprog A) : wshort n p -> n <= m -> wshort m p.
Proof.
  revert n m. induction p as [| |a k IH]; intros n m; cbn [wshort]; try done. intros [H1 H2] Hm. split; [lia|]. intros v.
  eapply IH; [apply H2|lia].
Qed.
Lemma wshort_bind {A B} n m t (p : wprog A) (k : A -> wprog B) : n + m <= t -> wshort n p -> (forall a, wshort m (k a)) -> wshort t (wbind p k).
Proof.
  revert n t. induction p as [a|e|a c IH]; intros n t Ht Hp Hk; cbn [wbind wshort] in *; [|done|].
  - eapply wshort_mono; [apply Hk|lia].
  - destruct Hp as [H1 H2]. split; [lia|]. intros v. apply (IH v (n - 1)); [lia|apply H2|done].
Qed.
Lemma wshort_then {A B} n t (p : wprog A) (k : A -> wprog B) : wshort n p -> n <= t -> (forall a, wshort (t - n) (k a)) -> wshort t (wbind p k).
Proof. intros H1 H2 H3. apply (wshort_bind n (t - n)); [lia|done|done]. Qed.

Lemma wshort_do a : wshort 1 (w_do a).
Proof. cbn [w_do wshort]. split; [lia|done]. Qed.
Lemma wshort_res {A} (r : res A) n : wshort n (w_res r).
Proof. by destruct r. Qed.
Lemma wshort_min i n m : wshort (N.of_nat n) (w_min i n m).
Proof.
  revert i m; induction n as [|n IH]; intros i m; [done|]. cbn [w_min].
  apply (wshort_bind 1 (N.of_nat n)); [lia|apply wshort_do|]. intros r. apply IH.
Qed.
Lemma wshort_new n aid slots : wshort (1 + N.of_nat n) (w_new n aid slots).
Proof. apply (wshort_bind (N.of_nat n) 1); [lia|apply wshort_min|]. intros m. apply wshort_do. Qed.
Lemma wshort_data x : wshort 1 (w_data x).
Proof. apply (wshort_bind 1 0); [lia|apply wshort_do|]. done. Qed.
Lemma wshort_allocate n aid count pl : wshort (3 + N.of_nat n) (w_allocate n aid count pl).
Proof.
  apply (wshort_bind (1 + N.of_nat n) 1); [lia|apply wshort_new|]. intros x. apply (wshort_bind 1 0); [lia|apply wshort_data|]. done.
Qed.
Lemma wshort_allocate_prefix n aid count p : wshort (3 + N.of_nat n) (w_allocate_prefix n aid count p).
Proof.
  apply (wshort_bind (1 + N.of_nat n) 2); [lia|apply wshort_new|]. intros x. apply (wshort_bind 1 1); [lia|apply wshort_data|]. intros d.
  destruct p; [done|]. apply (wshort_bind 1 0); [lia|apply wshort_do|]. intros _. apply (wshort_bind 0 0); [lia|apply wshort_res|]. done.
Qed.
Lemma wshort_children d a b : wshort 2 (w_children d a b).
Proof. unfold w_children. destruct (_ <? _); (apply (wshort_bind 1 1); [lia|apply wshort_do|]; intros _; apply (wshort_bind 1 0); [lia|apply wshort_do|]; done). Qed.

(** The same with a postcondition: for the list of words read. *)
Fixpoint wshortQ {A} (n : N) (p : wprog A) (Q : A -> Prop) : Prop :=
  match p with
  | WRet a => Q a
  | WStop _ => True
  | WDo _ k => 1 <= n /\ forall v, wshortQ (n - 1) (k v) Q
  end.
Lemma wshortQ_mono {A} n m (p : wprog A) Q : wshortQ n p Q -> n <= m -> wshortQ m p Q.
Proof.
  revert n m. induction p as [| |a k IH]; intros n m; cbn [wshortQ]; try done. intros [H1 H2] Hm. split; [lia|]. intros v.
  eapply IH; [apply H2|lia].
Qed.
Lemma wshortQ_bind {A B} n m (p : wprog A) (k : A -> wprog B) Q Q' : wshortQ n p Q -> (forall a, Q a -> wshortQ m (k a) Q') -> wshortQ (n + m) (wbind p k) Q'.
Proof.
  revert n. induction p as [a|e|a c IH]; intros n Hp Hk; cbn [wbind wshortQ] in *; [|done|].
  - eapply wshortQ_mono; [by apply Hk|lia].
  - destruct Hp as [H1 H2]. split; [lia|]. intros v. replace (n + m - 1) with (n - 1 + m) by lia. by apply IH.
Qed.
Lemma wshortQ_then {A B} n m (p : wprog A) (k : A -> wprog B) Q : wshortQ n p Q -> (forall a, Q a -> wshort m (k a)) -> wshort (n + m) (wbind p k).
Proof.
  revert n. induction p as [a|e|a c IH]; intros n Hp Hk; cbn [wbind wshort wshortQ] in *; [|done|].
  - eapply wshort_mono; [by apply Hk|lia].
  - destruct Hp as [H1 H2]. split; [lia|]. intros v. replace (n + m - 1) with (n - 1 + m) by lia. by apply IH.
Qed.

Lemma wshort_words base n : wshortQ (N.of_nat n) (w_words base n) (fun ws => length ws = n).
Proof.
  revert base; induction n as [|n IH]; intros base; [done|]. cbn [w_words]. replace (N.of_nat (S n)) with (1 + (N.of_nat n + 0)) by lia.
  apply (wshortQ_bind _ _ _ _ (fun _ => True)); [by split|]. intros w _. apply (wshortQ_bind _ _ _ _ (fun ws => length ws = n)); [apply IH|].
  intros ws Hws. cbn [wshortQ length]. lia.
Qed.
Lemma wshort_write base ws : wshort (N.of_nat (length ws)) (w_write base ws).
Proof.
  revert base; induction ws as [|w ws IH]; intros base; [done|]. cbn [w_write length]. apply (wshort_bind 1 (N.of_nat (length ws))); [lia|apply wshort_do|].
  intros _. apply IH.
Qed.
Lemma wshort_scatter d ws : wshort (N.of_nat (length ws)) (w_scatter d ws).
Proof.
  induction ws as [|w ws IH]; [done|]. cbn [w_scatter length]. apply (wshort_bind 1 (N.of_nat (length ws))); [lia|apply wshort_do|].
  intros _. apply IH.
Qed.
Lemma wshort_copy dst src i n : sl_len src <= blockSlots -> wshort (2 * blockSlots) (w_copy dst src i n).
Proof.
  intros Hl. unfold w_copy. destruct (N.leb_spec (N.of_nat (i + n)) (sl_len src)) as [H|H]; [|done].
  apply (wshort_mono (N.of_nat n + N.of_nat n)); [|lia].
  apply (wshortQ_then _ _ _ _ (fun ws => length ws = n)); [apply wshort_words|]. intros ws Hws.
  eapply wshort_mono; [apply wshort_write|]. rewrite take_length. lia.
Qed.
Lemma wshort_unlock i : wshort 1 (w_unlock i).
Proof. apply (wshort_bind 1 0); [lia|apply wshort_do|]. done. Qed.
Lemma wshort_unlock2 node parent : wshort 2 (w_unlock2 node parent).
Proof.
  unfold w_unlock2. destruct (_ =? 0); [eapply wshort_mono; [apply wshort_unlock|lia]|]. apply (wshort_bind 1 1); [lia|apply wshort_unlock|]. intros _.
  destruct (_ =? _); [done|apply wshort_unlock].
Qed.
Lemma wshort_unlock3 child node parent : wshort 3 (w_unlock3 child node parent).
Proof.
  unfold w_unlock3. destruct (_ =? 0); [eapply wshort_mono; [apply wshort_unlock2|lia]|]. apply (wshort_bind 1 2); [lia|apply wshort_unlock|]. intros _.
  apply (wshort_bind 1 1); [lia|destruct (_ =? _); [done|apply wshort_unlock]|]. intros _. destruct (_ || _); [done|apply wshort_unlock].
Qed.
Lemma wshort_unlock_root : wshort 1 w_unlock_root.
Proof. apply (wshort_bind 1 0); [lia|apply wshort_do|]. done. Qed.
Lemma wshort_recycle aid x slots : wshort 4 (w_recycle aid x slots).
Proof.
  unfold w_recycle. destruct (_ <? _)%nat; [done|]. destruct (_ <=? _)%nat; [done|]. apply (wshort_bind 1 3); [lia|apply wshort_do|]. intros e.
  apply (wshort_bind 1 2); [lia|apply wshort_do|]. intros full. destruct (_ =? 0); [done|]. apply (wshort_bind 1 1); [lia|apply wshort_do|]. intros _.
  apply (wshort_bind 1 0); [lia|apply wshort_do|]. done.
Qed.
Lemma wshort_items aid d : wshort 1 (w_items aid d).
Proof. apply (wshort_bind 1 0); [lia|apply wshort_do|]. done. Qed.
Lemma wshort_count_if u aid : wshort 1 (w_count_if u aid).
Proof. destruct u; [apply wshort_items|done]. Qed.
Lemma wshort_swap p old new : wshort 1 (w_swap p old new).
Proof. apply (wshort_bind 1 0); [lia|apply wshort_do|]. done. Qed.
Lemma wshort_pub p w : wshort 1 (w_pub p w).
Proof. apply (wshort_bind 1 0); [lia|apply wshort_do|]. done. Qed.
Lemma wshort_end aid : wshort 1 (w_end aid).
Proof. apply (wshort_bind 1 0); [lia|apply wshort_do|]. done. Qed.

(** The slices in operations: no longer than a block (radix.go:220). *)
Definition ufits (op : uop) : Prop := sl_len (u_data op) <= blockSlots.
Definition dfits (op : dop) : Prop := sl_len (d_data op) <= blockSlots.
Lemma from_len d i d' : sl_from d i = Ok d' -> sl_len d' <= sl_len d.
Proof. unfold sl_from. destruct (_ <=? _); [|done]. intros [= <-]. cbn [sl_len]. lia. Qed.
Lemma upto_len d i u : sl_upto d i = Ok u -> N.of_nat i <= sl_len d.
Proof. unfold sl_upto. by destruct (N.leb_spec (N.of_nat i) (sl_len d)). Qed.

Definition fin_budget (n : nat) : N := 2 * N.of_nat n + 4 * blockSlots + 300.

Ltac wpart := lazymatch goal with
  | |- wshort _ (w_allocate _ _ _ _) => apply wshort_allocate
  | |- wshort _ (w_allocate_prefix _ _ _ _) => apply wshort_allocate_prefix
  | |- wshort _ (w_children _ _ _) => apply wshort_children
  | |- wshort _ (w_copy _ _ _ _) => apply wshort_copy; first [assumption | lia]
  | |- wshort _ (w_write _ _) => apply wshort_write
  | |- wshort _ (w_scatter _ _) => apply wshort_scatter
  | |- wshort _ (w_recycle _ _ _) => apply wshort_recycle
  | |- wshort _ (w_swap _ _ _) => apply wshort_swap
  | |- wshort _ (w_pub _ _) => apply wshort_pub
  | |- wshort _ (w_unlock2 _ _) => apply wshort_unlock2
  | |- wshort _ (w_unlock3 _ _ _) => apply wshort_unlock3
  | |- wshort _ w_unlock_root => apply wshort_unlock_root
  | |- wshort _ (w_items _ _) => apply wshort_items
  | |- wshort _ (w_count_if _ _) => apply wshort_count_if
  | |- wshort _ (w_end _) => apply wshort_end
  | |- wshort _ (w_do _) => apply wshort_do
  end.
Ltac wsh := repeat first
  [ eapply wshort_then; [wpart|unfold fin_budget, blockSlots; rewrite ?replicate_length; lia|]; intros ?
  | match goal with |- wshort _ (wbind (w_res (sl_from ?d ?i)) _) =>
      let d' := fresh "d" in let E := fresh "E" in
      destruct (sl_from d i) as [d'| | |] eqn:E; cbn [w_res wbind wshort]; [apply from_len in E|exact I..] end
  | match goal with |- wshort _ (wbind (w_res (sl_upto ?d ?i)) _) =>
      let E := fresh "E" in destruct (sl_upto d i) as [?| | |] eqn:E; cbn [w_res wbind wshort]; [apply upto_len in E|exact I..] end
  | match goal with |- wshort _ (wbind (w_res ?r) _) => destruct r as [?| | |]; cbn [w_res wbind wshort]; [|exact I..] end
  | match goal with |- wshort _ (match ?x with pair _ _ => _ end) => destruct x as [? ?] end
  | progress cbv zeta ].

Lemma wshort_finalize_update n op fk m v : ufits op -> wshort (fin_budget n) (w_finalize_update n op fk m v).
Proof.
  intros Hf. unfold ufits in Hf. unfold w_finalize_update. apply (wshort_bind (fin_budget n - 1) 1); [unfold fin_budget; lia| |intros u; wsh; done].
  unfold w_finalize_update_body, w_unlock_uop. destruct (u_kind op).
  all: try match goal with |- wshort _ (if ?c then _ else _) => destruct c end.
  all: wsh; try done.
  apply (wshort_mono (N.of_nat (u_count op) + (N.of_nat (u_count op) + 9))); [|unfold fin_budget, blockSlots in *; rewrite replicate_length; lia].
  apply (wshortQ_then _ _ _ _ (fun ws => length ws = u_count op)); [apply wshort_words|]. intros ws Hws.
  apply (wshort_bind (N.of_nat (u_count op)) 9); [lia|rewrite <- Hws; apply wshort_scatter|]. intros _. wsh. done.
Qed.

Lemma wshort_abort_update n op : wshort (fin_budget n) (w_abort_update op).
Proof.
  unfold w_abort_update, w_unlock_uop. apply (wshort_bind 2 1); [unfold fin_budget; lia| |intros _; apply wshort_end].
  destruct (u_kind op); first [apply wshort_unlock2|eapply wshort_mono; [apply wshort_unlock_root|lia]].
Qed.

Lemma wshort_finalize_delete n op : dfits op -> wshort (fin_budget n) (w_finalize_delete n op).
Proof.
  intros Hf. unfold dfits in Hf. unfold w_finalize_delete. apply (wshort_bind (fin_budget n - 1) 1); [unfold fin_budget; lia| |intros u; wsh; done].
  unfold w_finalize_delete_body, w_unlock_dop. destruct (d_kind op); wsh; try done.
  apply (wshort_bind 1 0); [unfold fin_budget; lia| |done]. match goal with u : bool |- _ => destruct u end; [apply wshort_items|done].
Qed.

Lemma wshort_abort_delete n op : wshort (fin_budget n) (w_abort_delete op).
Proof.
  unfold w_abort_delete, w_unlock_dop. apply (wshort_bind 3 1); [unfold fin_budget; lia| |intros _; apply wshort_end].
  destruct (d_kind op); first [done|apply wshort_unlock3|eapply wshort_mono; [apply wshort_unlock2|lia]|eapply wshort_mono; [apply wshort_unlock_root|lia]].
Qed.

(** ** What a Prepare returns *)

Fixpoint result {A} (p : prog A) (Q : A -> Prop) : Prop :=
  match p with
  | Ret a => Q a
  | Stop _ => True
  | Act _ k => forall v, result (k v) Q
  end.
Lemma result_top {A} (p : prog A) : result p (fun _ => True).
Proof. by induction p. Qed.
Lemma result_bind {A B} (p : prog A) (k : A -> prog B) P Q : result p P -> (forall a, P a -> result (k a) Q) -> result (pbind p k) Q.
Proof. intros Hp Hk. induction p as [a|e|a c IH]; cbn [pbind result] in *; [by apply Hk|done|]. intros v. apply IH, Hp. Qed.
Lemma result_any {A B} (p : prog A) (k : A -> prog B) Q : (forall a, result (k a) Q) -> result (pbind p k) Q.
Proof. intros Hk. eapply result_bind; [apply result_top|]. intros a _. apply Hk. Qed.

Lemma result_data node : result (p_data node) (fun d => sl_len d <= blockSlots).
Proof. intros _. cbn [result sl_len]. lia. Qed.

Ltac rstep := repeat first
  [ match goal with |- result (pbind (p_data _) _) _ => eapply result_bind; [apply result_data|]; intros ? ? end
  | apply result_any; intros ?
  | match goal with |- result (match ?x with pair _ _ => _ end) _ => destruct x as [? ?] end
  | match goal with |- result (if ?c then _ else _) _ => destruct c; [try exact I|try exact I] end
  | match goal with |- result (match ?x with _ => _ end) _ => destruct x end
  | progress cbv zeta ].

Lemma result_pu_loop fuel aid key raw np parent pg depth : result (p_pu_loop fuel aid key raw np parent pg depth) (fun r => ufits r.2).
Proof.
  revert raw np parent pg depth; induction fuel as [|fuel IH]; intros raw np parent pg depth; [done|]. cbn [p_pu_loop].
  rstep; try apply IH; try done.
Qed.
Lemma result_update aid key : result (p_prepare_update aid key) (fun r => ufits r.2).
Proof. unfold p_prepare_update. rstep; try done; try apply result_pu_loop; unfold root_op, ufits; cbn; unfold blockSlots; lia. Qed.

Lemma result_pd_loop fuel aid key root raw np parent pg depth :
  result (p_pd_loop fuel aid key root raw np parent pg depth) (fun r => forall op, r = Some op -> dfits op).
Proof.
  revert raw np parent pg depth; induction fuel as [|fuel IH]; intros raw np parent pg depth; [done|]. cbn [p_pd_loop].
  rstep; try apply IH; try done; by intros ? [= <-].
Qed.
Lemma result_delete aid key : result (p_prepare_delete aid key) (fun r => forall op, r = Some op -> dfits op).
Proof.
  unfold p_prepare_delete. rstep; try done; try apply result_pd_loop.
  all: cbn [result]; intros op Ho; try done; injection Ho as <-; unfold dfits; cbn; first [assumption|unfold blockSlots; lia].
Qed.

Definition ofits (o : outcome) : Prop :=
  match o with OPrepU _ op => ufits op | OPrepD (Some op) => dfits op | _ => True end.
Lemma result_program c : result (program_of c) ofits.
Proof.
  destruct c; cbn [program_of]; try done.
  - rstep; done.
  - eapply result_bind; [apply result_update|]. intros [f op] H. done.
  - eapply result_bind; [apply result_delete|]. intros [op|] H; [|done]. by apply H.
Qed.

(** ** Calls in histories *)

Definition is_wact (aid : nat) (e : wevent) : bool := match e with WF e => is_act aid e | _ => false end.
(** The accesses of the Lookup and Prepare calls of [aid]. *)
Definition wnacts (aid : nat) (tr : list wevent) : N := N.of_nat (length (filter (fun e => is_wact aid e = true) tr)).
Definition is_fact (aid : nat) (e : wevent) : bool := match e with WAct a _ => (a =? aid)%nat | _ => false end.
(** The accesses of its Finalize and Abort calls. *)
Definition fnacts (aid : nat) (tr : list wevent) : N := N.of_nat (length (filter (fun e => is_fact aid e = true) tr)).

Definition wstarts (aid : nat) (e : wevent) : Prop := match e with WF e => starts aid e | _ => False end.
Definition wends (aid : nat) (e : wevent) : Prop := match e with WF e => ends aid e | _ => False end.
Definition wborders (aid : nat) (e : wevent) : Prop := match e with WF e => borders aid e | _ => False end.
Definition wreturns (aid : nat) (e : wevent) : Prop := match e with WReturn aid' _ _ => aid' = aid | _ => False end.

Lemma wnacts_snoc aid tr e : wnacts aid (tr ++ [e]) = wnacts aid tr + if is_wact aid e then 1 else 0.
Proof.
  unfold wnacts. rewrite filter_app, app_length.
  replace (length (filter (fun e => is_wact aid e = true) [e])) with (if is_wact aid e then 1%nat else 0%nat) by (rewrite filter_cons; by destruct (is_wact aid e)).
  destruct (is_wact aid e); lia.
Qed.
Lemma fnacts_snoc aid tr e : fnacts aid (tr ++ [e]) = fnacts aid tr + if is_fact aid e then 1 else 0.
Proof.
  unfold fnacts. rewrite filter_app, app_length.
  replace (length (filter (fun e => is_fact aid e = true) [e])) with (if is_fact aid e then 1%nat else 0%nat) by (rewrite filter_cons; by destruct (is_fact aid e)).
  destruct (is_fact aid e); lia.
Qed.

Section StepProg.
Context (K : list N -> Prop) (fetch : N -> list N).
Local Notation fstep := (fstep K fetch).
Local Notation wstep := (wstep K fetch).
Local Notation wruns := (wruns K fetch).

Lemma wruns_last P n tr e x' : wruns P n (tr ++ [e]) x' -> exists x, wruns P n tr x /\ P x e /\ wstep x e x'.
Proof.
  intros Hr. remember (tr ++ [e]) as t eqn:Et. destruct Hr as [|tr0 x e0 x' Hr Hp Hs]; [by destruct tr|].
  apply app_inj_tail in Et as [-> ->]. by exists x.
Qed.

(** What holds of each client: a call is in progress, or an operation is open, or neither. *)
Definition hfits (hd : handle) : Prop := match hd with HU _ op => ufits op | HD _ op => dfits op | HP _ _ => False end.
Definition client_ok (x : wsys) (aid : nat) : Prop :=
  match fs_jobs (ws_f x) !! aid with
  | Some (Waiting c _) => job_of c = Some aid /\ sy_open (fs_sys (ws_f x)) !! aid = None /\ ws_fin x !! aid = None
  | Some (Running c p) =>
    job_of c = Some aid /\ ws_fin x !! aid = None /\ result p ofits /\
    exists l b, sy_open (fs_sys (ws_f x)) !! aid = Some (HP l b) /\
      forall aid' key, c = CLookup aid' key -> plain p /\ l = [] /\ b = false
  | None =>
    match sy_open (fs_sys (ws_f x)) !! aid with
    | Some hd => hfits hd
    | None => ws_fin x !! aid = None
    end
  end.

Lemma client_same x x' aid : fs_jobs (ws_f x') !! aid = fs_jobs (ws_f x) !! aid ->
  sy_open (fs_sys (ws_f x')) !! aid = sy_open (fs_sys (ws_f x)) !! aid -> ws_fin x' !! aid = ws_fin x !! aid -> client_ok x aid -> client_ok x' aid.
Proof. intros H1 H2 H3. unfold client_ok. by rewrite H1, H2, H3. Qed.

Lemma return_open aid c o y j : j <> aid -> sy_open (return_to aid c o y) !! j = sy_open y !! j.
Proof.
  intros H. unfold return_to. destruct o as [v f|f op|[op|]]; cbn [sy_open]; first [by rewrite lookup_insert_ne|by rewrite lookup_delete_ne].
Qed.

Lemma clients_ok P n tr x : wruns P n tr x -> forall aid, client_ok x aid.
Proof.
  induction 1 as [|tr x e x' Hr IH HPx Hs]; intros aid.
  { unfold client_ok. cbn. by rewrite !lookup_empty. }
  destruct Hs as [x e x' fin Hrem Hs|x fin c aid1 hd H1 H2 H3 H4|y jobs fin aid1 c a k v s' H1 H2|y jobs fin aid1 c r H1].
  - destruct Hs as [y y' jobs c1 r H1 H2 H3 H4|y jobs c1 aid1 H1 H2 H3|y jobs c1 aid1 e H1|y jobs c1 aid1 a k hd v s' H1 H2 H3|y jobs c1 aid1 H1|y jobs c1 aid1 o H1].
    + destruct Hrem as (R1 & R2 & R3). specialize (IH aid). destruct c1; try done.
      * eapply client_same; [..|exact IH]; try done. cbn [ws_f fs_sys sy_open]. cbn [api] in H4. destruct (flush_stats _ _); cbn [bind] in H4; try done.
        by injection H4 as <- <-.
      * rewrite (H2 I), (R2 I) in *. unfold client_ok. cbn [ws_f fs_jobs ws_fin fs_sys]. rewrite !lookup_empty.
        cbn [api] in H4. destruct (new_tree_from_state _ _) as [[s1 ?]| |]; try done. injection H4 as <- <-. cbn [sy_open]. by rewrite lookup_empty.
    + destruct (decide (aid = aid1)) as [->|Hne]; [|eapply client_same; [..|apply IH]; try done; cbn [ws_f fs_jobs]; by rewrite lookup_insert_ne].
      specialize (IH aid1). unfold client_ok in *. cbn [ws_f fs_jobs fs_sys ws_fin] in *. rewrite lookup_insert. rewrite H2 in IH.
      assert (Ho : sy_open y !! aid1 = None).
      { destruct c1; try done; cbn [job_of] in H1; injection H1 as ->; cbn [proper] in H3; tauto. }
      rewrite Ho in *. done.
    + destruct (decide (aid = aid1)) as [->|Hne];
        [|eapply client_same; [..|apply IH]; try done; cbn [ws_f fs_jobs fs_sys sy_open]; by rewrite lookup_insert_ne].
      specialize (IH aid1). unfold client_ok in *. cbn [ws_f fs_jobs fs_sys ws_fin sy_open] in *. rewrite !lookup_insert. rewrite H1 in IH.
      destruct IH as (Hc & Ho & Hf). split_and!; [done|done|apply result_program|]. exists [], false. split; [done|]. intros aid' key ->.
      split; [|done]. cbn [program_of]. apply plain_bind; [apply plain_search|]. by intros [].
    + destruct (decide (aid = aid1)) as [->|Hne];
        [|eapply client_same; [..|apply IH]; try done; cbn [ws_f fs_jobs fs_sys sy_open]; by rewrite lookup_insert_ne].
      specialize (IH aid1). unfold client_ok in *. cbn [ws_f fs_jobs fs_sys ws_fin sy_open] in *. rewrite !lookup_insert. rewrite H1 in IH.
      destruct IH as (Hc & Hf & Hres & l & b & Ho & Hl). rewrite H2 in Ho. injection Ho as ->. split_and!; [done|done|apply Hres|].
      destruct (hp_act (HP l b) a v) as [| |l' b'] eqn:Eh; [by destruct a; cbn in Eh; repeat case_match|by destruct a; cbn in Eh; repeat case_match|].
      exists l', b'. split; [done|]. intros aid' key Ec. destruct (Hl aid' key Ec) as ([Ha Hp] & -> & ->). split; [apply Hp|].
      destruct a; try done; cbn in Eh; by injection Eh as <- <-.
    + destruct (decide (aid = aid1)) as [->|Hne]; [|eapply client_same; [..|apply IH]; try done; cbn [ws_f fs_jobs]; by rewrite lookup_insert_ne].
      specialize (IH aid1). unfold client_ok in *. cbn [ws_f fs_jobs fs_sys ws_fin sy_open] in *. rewrite lookup_insert. rewrite H1 in IH.
      destruct IH as (Hc & Hf & Hres & l & b & Ho & Hl). split_and!; [done|done|apply result_program|]. exists l, b. split; [done|].
      intros aid' key Ec. by destruct (Hl aid' key Ec) as ([] & _).
    + destruct (decide (aid = aid1)) as [->|Hne];
        [|eapply client_same; [..|apply IH]; try done; cbn [ws_f fs_jobs fs_sys]; [by rewrite lookup_delete_ne|by apply return_open]].
      specialize (IH aid1). unfold client_ok in *. cbn [ws_f fs_jobs fs_sys ws_fin sy_open] in *. rewrite lookup_delete. rewrite H1 in IH.
      destruct IH as (Hc & Hf & Hres & _). cbn [result] in Hres. destruct o as [v f|f op|[op|]]; cbn [return_to sy_open]; rewrite ?lookup_insert, ?lookup_delete; done.
  - destruct (decide (aid = aid1)) as [->|Hne]; [|eapply client_same; [..|apply IH]; try done; cbn [ws_fin]; by rewrite lookup_insert_ne].
    specialize (IH aid1). unfold client_ok in *. cbn [ws_f ws_fin] in *. rewrite H3 in *.
    destruct (fs_jobs x !! aid1) as [[c1 e1|c1 p1]|]; [by destruct IH as (_ & [=] & _)| |done].
    destruct IH as (_ & _ & _ & l & b & [= ->] & _). exfalso. destruct c; try done; cbn [fin_client] in H1; injection H1 as ->; cbn [proper] in H4; naive_solver.
  - destruct (decide (aid = aid1)) as [->|Hne]; [|eapply client_same; [..|apply IH]; try done; cbn [ws_fin]; by rewrite lookup_insert_ne].
    specialize (IH aid1). unfold client_ok in *. cbn [ws_f ws_fin fs_jobs fs_sys sy_open] in *. rewrite H1 in IH.
    destruct (jobs !! aid1) as [[c1 e1|c1 p1]|]; [by destruct IH as (_ & _ & [=])|by destruct IH as (_ & [=] & _)|].
    by destruct (sy_open y !! aid1).
  - destruct (decide (aid = aid1)) as [->|Hne];
      [|eapply client_same; [..|apply IH]; try done; cbn [ws_fin ws_f fs_sys sy_open]; by rewrite lookup_delete_ne].
    specialize (IH aid1). unfold client_ok in *. cbn [ws_f ws_fin fs_jobs fs_sys sy_open] in *. rewrite H1 in IH. rewrite !lookup_delete.
    destruct (jobs !! aid1) as [[c1 e1|c1 p1]|]; [by destruct IH as (_ & _ & [=])|by destruct IH as (_ & [=] & _)|done].
Qed.

(** One step, as far as a Lookup or Prepare in progress is concerned. *)
Lemma wjob_next x e x' aid c p : wstep x e x' -> fs_jobs (ws_f x) !! aid = Some (Running c p) -> job_of c = Some aid -> ~ wends aid e ->
  (exists a k v, e = WF (EAct aid a) /\ p = Act a k /\ fs_jobs (ws_f x') !! aid = Some (Running c (k v))) \/
  (is_wact aid e = false /\ fs_jobs (ws_f x') !! aid = Some (Running c p)).
Proof.
  intros Hs Hj Hc He.
  destruct Hs as [x e x' fin Hrem Hs|x fin c' aid1 hd H1 H2 H3 H4|y jobs fin aid1 c' a k v s' H1 H2|y jobs fin aid1 c' r H1]; [|by right..].
  cbn [ws_f wends is_wact] in *. destruct (job_next _ _ _ _ _ _ _ _ Hs Hj Hc He) as [(a & k & v & s' & -> & -> & _ & _ & Hj')|[H1 H2]]; [|by right].
  left. by exists a, k, v.
Qed.

Lemma wstarts_job P n tr e x aid : wruns P n (tr ++ [e]) x -> wstarts aid e ->
  exists c, fs_jobs (ws_f x) !! aid = Some (Running c (program_of c)) /\ job_of c = Some aid /\ (forall c', e = WF (EResv c') -> c' = c).
Proof.
  intros Hr Hst. destruct (wruns_last _ _ _ _ _ Hr) as (x0 & Hr0 & _ & Hs). pose proof (clients_ok _ _ _ _ Hr0) as Hok.
  destruct Hs as [x0 e x' fin Hrem Hs|x0 fin c' aid1 hd H1 H2 H3 H4|y jobs fin aid1 c' a k v s' H1 H2|y jobs fin aid1 c' r H1]; try done.
  destruct Hs as [y y' jobs c1 r H1 H2 H3 H4|y jobs c1 aid1 H1 H2 H3|y jobs c1 aid1 e H1|y jobs c1 aid1 a k hd v s' H1 H2 H3|y jobs c1 aid1 H1|y jobs c1 aid1 o H1]; try done;
    cbn [wstarts starts ws_f fs_jobs] in *; specialize (Hok aid1); unfold client_ok in Hok; cbn [ws_f fs_jobs] in Hok; rewrite H1 in Hok; destruct Hok as [Hc _].
  - assert (aid1 = aid) as -> by congruence. exists c1. rewrite lookup_insert. split_and!; try done. by intros c' [= ->].
  - subst aid1. exists c1. rewrite lookup_insert. by split_and!.
Qed.

(** One attempt. *)
Lemma wattempt_job P n tr1 e tr2 x aid : wruns P n (tr1 ++ e :: tr2) x -> wstarts aid e -> Forall (fun e => ~ wends aid e) tr2 ->
  exists c p m, fs_jobs (ws_f x) !! aid = Some (Running c p) /\ job_of c = Some aid /\ (forall c', e = WF (EResv c') -> c' = c) /\
    short m p /\ wnacts aid tr2 + m <= budget c.
Proof.
  revert x. induction tr2 as [|e2 tr2 IH] using rev_ind; intros x Hr Hst Hf.
  - destruct (wstarts_job _ _ _ _ _ _ Hr Hst) as (c & Hj & Hc & He). exists c, (program_of c), (budget c). split_and!; try done. apply short_program.
  - rewrite app_comm_cons, app_assoc in Hr. destruct (wruns_last _ _ _ _ _ Hr) as (x0 & Hr0 & _ & Hs).
    apply Forall_app in Hf as [Hf1 Hf2]. rewrite Forall_singleton in Hf2. destruct (IH x0 Hr0 Hst Hf1) as (c & p & m & Hj & Hc & He & Hm & Hn).
    rewrite wnacts_snoc. destruct (wjob_next _ _ _ _ _ _ Hs Hj Hc Hf2) as [(a & k & v & -> & -> & Hj')|[-> Hj']].
    + exists c, (k v), (m - 1). destruct Hm as [Hm1 Hm2]. split_and!; try done. cbn [is_wact is_act]. rewrite Nat.eqb_refl. lia.
    + exists c, p, m. split_and!; try done. lia.
Qed.

Lemma w_attempt_short P n tr1 e tr2 x aid : wruns P n (tr1 ++ e :: tr2) x -> wstarts aid e -> Forall (fun e => ~ wends aid e) tr2 ->
  exists c p, fs_jobs (ws_f x) !! aid = Some (Running c p) /\ wnacts aid tr2 <= 1 + 524434 * (1 + N.of_nat (length (job_key c))).
Proof.
  intros Hr Hst Hf. destruct (wattempt_job _ _ _ _ _ _ _ Hr Hst Hf) as (c & p & m & Hj & _ & _ & _ & Hn). exists c, p.
  pose proof (budget_le c). split; [done|lia].
Qed.

(** Lookups. *)
Lemma w_lookup_reads P n tr x aid key p a x' : wruns P n tr x -> fs_jobs (ws_f x) !! aid = Some (Running (CLookup aid key) p) ->
  wstep x (WF (EAct aid a)) x' ->
  sy_tree (fs_sys (ws_f x')) = sy_tree (fs_sys (ws_f x)) /\ sy_open (fs_sys (ws_f x')) = sy_open (fs_sys (ws_f x)) /\ ws_fin x' = ws_fin x.
Proof.
  intros Hr Hj Hs. pose proof (clients_ok _ _ _ _ Hr aid) as Hok. unfold client_ok in Hok. rewrite Hj in Hok.
  destruct Hok as (_ & _ & _ & l & b & Ho & Hl). destruct (Hl _ _ eq_refl) as (Hp & -> & ->).
  inversion Hs as [x0 e x1 fin Hrem Hs0 E1 E2 E3| | |]; subst. cbn [ws_f ws_fin] in *.
  inversion Hs0 as [| | |y jobs c aid1 a1 k hd v s' H1 H2 H3 E1 E2 E3| |]; subst. cbn [fs_jobs fs_sys sy_tree sy_open] in *.
  rewrite H1 in Hj. injection Hj as -> <-. destruct Hp as [Ha _]. rewrite Ho in H2. injection H2 as <-.
  destruct a; try done; cbn [do_act] in H3.
  - injection H3 as <- <-. split_and!; [done| |done]. cbn [hp_act]. by rewrite insert_id.
  - unbind H3. injection H3 as <- <-. split_and!; [done| |done]. cbn [hp_act]. by rewrite insert_id.
Qed.

Lemma w_lookup_waitfree P n tr1 aid key tr2 x : wruns P n (tr1 ++ WF (EResv (CLookup aid key)) :: tr2) x -> Forall (fun e => ~ wborders aid e) tr2 ->
  WF (EAgain aid) ∉ tr2 /\ wnacts aid tr2 <= 1 + 129 * (1 + N.of_nat (length key)) /\
  exists p, fs_jobs (ws_f x) !! aid = Some (Running (CLookup aid key) p).
Proof.
  intros Hr Hf. assert (Hna : WF (EAgain aid) ∉ tr2 /\ Forall (fun e => ~ wends aid e) tr2).
  { revert x Hr. induction tr2 as [|e2 tr2 IH] using rev_ind; intros x Hr; [split; [apply not_elem_of_nil|constructor]|].
    rewrite app_comm_cons, app_assoc in Hr. destruct (wruns_last _ _ _ _ _ Hr) as (x0 & Hr0 & _ & Hs).
    apply Forall_app in Hf as [Hf1 Hf2]. rewrite Forall_singleton in Hf2. destruct (IH Hf1 x0 Hr0) as [Hn He].
    assert (Hne : e2 <> WF (EAgain aid)).
    { intros ->. destruct (wattempt_job _ _ _ _ _ _ aid Hr0 (eq_refl : wstarts aid (WF (EResv (CLookup aid key)))) He) as (c & p & m & Hj & Hc & Hcc & _).
      specialize (Hcc _ eq_refl) as <-. pose proof (clients_ok _ _ _ _ Hr0 aid) as Hok. unfold client_ok in Hok. rewrite Hj in Hok.
      destruct Hok as (_ & _ & _ & l & b & _ & Hl). destruct (Hl _ _ eq_refl) as (Hp & _ & _).
      inversion Hs as [x1 e x2 fin Hrem Hs0 E1 E2 E3| | |]; subst. cbn [ws_f] in *.
      inversion Hs0 as [| | | |y jobs c aid1 H1 E1 E2|]; subst. cbn [fs_jobs] in Hj. rewrite H1 in Hj. injection Hj as -> <-. done. }
    rewrite not_elem_of_app, elem_of_list_singleton. split; [by split|]. apply Forall_app. split; [done|]. apply Forall_singleton.
    destruct e2 as [e2| | |]; try (by intros ?). destruct e2; try (by intros ?). simpl. congruence. }
  destruct Hna as [Hna He]. split; [done|].
  destruct (wattempt_job _ _ _ _ _ _ aid Hr (eq_refl : wstarts aid (WF (EResv (CLookup aid key)))) He) as (c & p & m & Hj & Hc & Hcc & _ & Hn).
  specialize (Hcc _ eq_refl) as <-. split; [cbn [budget] in Hn; lia|by exists p].
Qed.

(** *** Finalize and Abort *)

Definition nresv (x : wsys) : nat := length (t_resv (sy_tree (fs_sys (ws_f x)))).

Lemma resv_act s a v s' : do_act s a = Ok (v, s') -> length (t_resv s') = length (t_resv s).
Proof.
  destruct a; cbn [do_act]; intros H; repeat case_match; simplify_eq/=; try done; repeat unbind H; simplify_eq/=; try done.
Qed.
Lemma resv_flush s aid s' : flush_stats s aid = Ok s' -> length (t_resv s') = length (t_resv s).
Proof. unfold flush_stats. intros H. unbind H. by injection H as <-. Qed.
Lemma resv_wact s a v s' : do_wact s a = Ok (v, s') -> length (t_resv s') = length (t_resv s).
Proof.
  destruct a; cbn [do_wact]; intros H.
  - by injection H as <- <-.
  - unbind H. by injection H as <- <-.
  - unbind H. by injection H as <- <-.
  - injection H as <- <-. by destruct p.
  - unfold pcas in H. destruct (_ =? _); injection H as <- <-; [by destruct p|done].
  - destruct (_ !! _); [|done]. by injection H as <- <-.
  - unfold take_node in H. unbind H. destruct (find_recycled _ _ _) as [[[t i] [m e]]|]; [by injection H as <- <-|].
    unfold bump_alloc in H. unbind H. destruct (_ <=? _); [|by injection H as <- <-]. unfold receive_block in H. destruct (_ <? _); [|done].
    cbn [bind] in H. by injection H as <- <-.
  - unbind H. by injection H as <- <-.
  - unbind H. by injection H as <- <-.
  - by injection H as <- <-.
  - by injection H as <- <-.
  - unfold keep_node in H. unbind H. by injection H as <- <-.
  - by injection H as <- <-.
  - unbind H. injection H as <- <-. by eapply resv_flush.
  - unbind H. unfold add_items in *. injection H as <- <-. match goal with H : bind _ _ = Ok _ |- _ => unbind H; by injection H as <- end.
  - injection H as <- <-. cbn [end_op set_resv t_resv]. by rewrite insert_length.
Qed.

Lemma resv_wstep x e x' : wstep x e x' -> ws_fin x <> ∅ -> nresv x' = nresv x.
Proof.
  unfold nresv. intros Hs Hf.
  destruct Hs as [x e x' fin Hrem Hs|x fin c aid1 hd H1 H2 H3 H4|y jobs fin aid1 c a k v s' H1 H2|y jobs fin aid1 c r H1]; try done; [|by apply resv_wact in H2].
  destruct Hs as [y y' jobs c1 r H1 H2 H3 H4|y jobs c1 aid1 H1 H2 H3|y jobs c1 aid1 e H1|y jobs c1 aid1 a k hd v s' H1 H2 H3|y jobs c1 aid1 H1|y jobs c1 aid1 o H1]; try done.
  - destruct Hrem as (R1 & R2 & R3). destruct c1; try done.
    + cbn [api] in H4. unbind H4. injection H4 as <- <-. by eapply resv_flush.
    + by rewrite (R2 I) in Hf.
  - cbn [ws_f fs_sys sy_tree set_resv t_resv]. by rewrite insert_length.
  - by apply resv_act in H3.
  - cbn [ws_f fs_sys]. unfold return_to. destruct o as [v f|f op|[op|]]; cbn [sy_tree]; try done; cbn [end_op set_resv t_resv]; by rewrite insert_length.
Qed.

Lemma fin_short n hd c aid : hfits hd -> fin_client c = Some aid -> wshort (fin_budget n) (fin_prog n hd c).
Proof.
  intros Hf Hc. destruct c; try done; destruct hd as [f op|key op|l b]; cbn [fin_prog]; try done; cbn [hfits] in Hf.
  - eapply wshort_bind; [apply N.eq_le_incl, N.add_0_r|by apply wshort_finalize_update|]. done.
  - eapply wshort_bind; [apply N.eq_le_incl, N.add_0_r|apply wshort_abort_update|]. done.
  - eapply wshort_bind; [apply N.eq_le_incl, N.add_0_r|by apply wshort_finalize_delete|]. done.
  - eapply wshort_bind; [apply N.eq_le_incl, N.add_0_r|apply wshort_abort_delete|]. done.
Qed.

Lemma fin_job P n tr1 c tr2 x aid : wruns P n (tr1 ++ WBegin c :: tr2) x -> fin_client c = Some aid -> Forall (fun e => ~ wreturns aid e) tr2 ->
  exists p m, ws_fin x !! aid = Some (c, p) /\ wshort m p /\ fnacts aid tr2 + m <= fin_budget (nresv x).
Proof.
  intros Hr Hc. revert x Hr. induction tr2 as [|e2 tr2 IH] using rev_ind; intros x Hr Hf.
  - destruct (wruns_last _ _ _ _ _ Hr) as (x0 & Hr0 & _ & Hs). inversion Hs as [|x1 fin c1 aid1 hd H1 H2 H3 H4 E1 E2 E3| |]; subst.
    assert (aid1 = aid) as -> by congruence. cbn [ws_fin]. rewrite lookup_insert.
    eexists _, (fin_budget (nresv (WSys x1 fin))). split_and!; [done| |apply N.le_refl]. apply (fin_short _ _ _ aid); [|done].
    pose proof (clients_ok _ _ _ _ Hr0 aid) as Hok. unfold client_ok in Hok. cbn [ws_f ws_fin] in Hok. rewrite H3 in Hok.
    destruct (fs_jobs x1 !! aid) as [[c2 e2|c2 p2]|]; [by destruct Hok as (_ & [=] & _)| |done].
    destruct Hok as (_ & _ & _ & l & b & [= ->] & _). exfalso. destruct c; try done; cbn [fin_client] in Hc; injection Hc as ->; cbn [proper] in H4; naive_solver.
  - rewrite app_comm_cons, app_assoc in Hr. destruct (wruns_last _ _ _ _ _ Hr) as (x0 & Hr0 & _ & Hs).
    apply Forall_app in Hf as [Hf1 Hf2]. rewrite Forall_singleton in Hf2. destruct (IH x0 Hr0 Hf1) as (p & m & Hj & Hm & Hn).
    assert (Hne : ws_fin x0 <> ∅) by (intros E; by rewrite E, lookup_empty in Hj).
    rewrite fnacts_snoc, (resv_wstep _ _ _ Hs Hne).
    destruct Hs as [x0 e x' fin Hrem Hs|x0 fin c1 aid1 hd H1 H2 H3 H4|y jobs fin aid1 c1 a k v s' H1 H2|y jobs fin aid1 c1 r H1]; cbn [ws_fin is_fact wreturns] in *.
    + exists p, m. split_and!; try done. lia.
    + exists p, m. split_and!; try done; [|lia]. rewrite lookup_insert_ne; [done|]. intros ->. congruence.
    + destruct (Nat.eqb_spec aid1 aid) as [->|Hd].
      * rewrite Hj in H1. injection H1 as -> ->. rewrite lookup_insert. exists (k v), (m - 1). cbn [wshort] in Hm. destruct Hm as [Hm1 Hm2]. split_and!; [done|apply Hm2|lia].
      * exists p, m. rewrite lookup_insert_ne by done. split_and!; try done. lia.
    + exists p, m. rewrite lookup_delete_ne by done. split_and!; try done. lia.
Qed.

Lemma w_finish_short P n tr1 c tr2 x aid : wruns P n (tr1 ++ WBegin c :: tr2) x -> fin_client c = Some aid -> Forall (fun e => ~ wreturns aid e) tr2 ->
  (exists p, ws_fin x !! aid = Some (c, p)) /\ fnacts aid tr2 <= 1048876 + 2 * N.of_nat (nresv x).
Proof.
  intros Hr Hc Hf. destruct (fin_job _ _ _ _ _ _ _ Hr Hc Hf) as (p & m & Hj & _ & Hn). split; [by exists p|].
  unfold fin_budget, blockSlots in Hn. lia.
Qed.
End StepProg.
