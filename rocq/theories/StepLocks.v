(** * StepLocks: lock words under any interleaving of single accesses.  No assumption on the contents of
    the tree is used: the programs are followed through all values their loads could return. *)
From Verif Require Export StepRun Inv.

(** ** The lock words of an operation *)

Definition own3 (child node parent : N) : list N :=
  if parent =? 0 then lids2 child node
  else (if (lock_id parent =? lock_id child) || (lock_id parent =? lock_id node) then [] else [lock_id parent])
       ++ (if lock_id node =? lock_id child then [lock_id child] else [lock_id node; lock_id child]).

Definition hlocks (hd : handle) : list N * bool :=
  match hd with
  | HU _ op => if u_isroot (u_kind op) then ([], true) else (lids2 (u_node op) (u_parent op), false)
  | HD _ op =>
    match d_kind op with
    | deleteRoot => ([], true)
    | deleteLeaf | replaceNodeWithLeaf => (lids2 (d_node op) (d_parent op), false)
    | replaceNodeWithNode => (own3 (d_child op) (d_node op) (d_parent op), false)
    | _ => ([], false)
    end
  | HP l b => (l, b)
  end.

(** ** Programs that only unlock what they have locked *)

Fixpoint safe {A} (p : prog A) (l : list N) (b : bool) (Q : A -> list N -> bool -> Prop) : Prop :=
  match p with
  | Ret a => Q a l b
  | Stop Again => l = [] /\ b = false
  | Stop _ => True
  | Act a k =>
    match a with
    | ACas i g => gen_odd g = false /\ safe (k 0) l b Q /\ (i ∉ l -> safe (k 1) (i :: l) b Q)
    | ABack i => i ∈ l /\ forall v, safe (k v) (filter (fun j => j <> i) l) b Q
    | ARootCas => safe (k 0) l b Q /\ (b = false -> safe (k 1) l true Q)
    | ARootBack => b = true /\ forall v, safe (k v) l false Q
    | _ => forall v, safe (k v) l b Q
    end
  end.

(** The same for Finalize and Abort; [d] is what the program has added to the item counter. *)
Fixpoint wsafe {A} (p : wprog A) (l : list N) (b : bool) (d : Z) (Q : A -> list N -> bool -> Z -> Prop) : Prop :=
  match p with
  | WRet a => Q a l b d
  | WStop _ => True
  | WDo a k =>
    match a with
    | WUnlock i => i ∈ l /\ forall v, wsafe (k v) (filter (fun j => j <> i) l) b d Q
    | WUnlockRoot => b = true /\ forall v, wsafe (k v) l false d Q
    | WItems _ z => forall v, wsafe (k v) l b (d + z)%Z Q
    | _ => forall v, wsafe (k v) l b d Q
    end
  end.

Lemma safe_mono {A} (p : prog A) : forall l b (Q Q' : A -> list N -> bool -> Prop),
  (forall a l b, Q a l b -> Q' a l b) -> safe p l b Q -> safe p l b Q'.
Proof.
  induction p as [a|e|a k IH]; intros l b Q Q' H; cbn [safe]; [apply H|done|].
  destruct a; try (intros H1 v; by eapply IH).
  - intros (H1 & H2 & H3). split_and!; [done|by eapply IH|intros Hi; eapply IH; [done|by apply H3]].
  - intros (H1 & H2). split; [done|]. intros v. by eapply IH.
  - intros (H1 & H2). split; [by eapply IH|]. intros Hb. eapply IH; [done|by apply H2].
  - intros (H1 & H2). split; [done|]. intros v. by eapply IH.
Qed.

Lemma safe_bind {A B} (p : prog A) (k : A -> prog B) : forall l b Q,
  safe p l b (fun a l' b' => safe (k a) l' b' Q) -> safe (pbind p k) l b Q.
Proof.
  induction p as [a|e|a c IH]; intros l b Q; cbn [safe pbind]; [done|by destruct e|].
  destruct a; try (intros H1 v; by apply IH).
  - intros (H1 & H2 & H3). split_and!; [done|by apply IH|intros Hi; by apply IH, H3].
  - intros (H1 & H2). split; [done|]. intros v. by apply IH.
  - intros (H1 & H2). split; [by apply IH|]. intros Hb. by apply IH, H2.
  - intros (H1 & H2). split; [done|]. intros v. by apply IH.
Qed.

Lemma wsafe_bind {A B} (p : wprog A) (k : A -> wprog B) : forall l b d Q,
  wsafe p l b d (fun a l' b' d' => wsafe (k a) l' b' d' Q) -> wsafe (wbind p k) l b d Q.
Proof.
  induction p as [a|e|a c IH]; intros l b d Q; cbn [wsafe wbind]; [done|done|].
  destruct a; try (intros H1 v; by apply IH); (intros (H1 & H2); split; [done|]; intros v; by apply IH).
Qed.

Lemma wsafe_mono {A} (p : wprog A) : forall l b d (Q Q' : A -> list N -> bool -> Z -> Prop),
  (forall a l b d, Q a l b d -> Q' a l b d) -> wsafe p l b d Q -> wsafe p l b d Q'.
Proof.
  induction p as [a|e|a k IH]; intros l b d Q Q' H; cbn [wsafe]; [apply H|done|].
  destruct a; try (intros H1 v; by eapply IH); (intros (H1 & H2); split; [done|]; intros v; by eapply IH).
Qed.

(** *** Programs without locks *)

Definition quiet_prog {A} (p : prog A) : Prop := forall l b, safe p l b (fun _ l' b' => l' = l /\ b' = b).
Definition wquiet {A} (p : wprog A) : Prop := forall l b d, wsafe p l b d (fun _ l' b' d' => l' = l /\ b' = b /\ d' = d).

(** In a state in which nothing is locked a program may also jump to label S. *)
Lemma quiet_use {A B} (p : prog A) (k : A -> prog B) l b Q : quiet_prog p -> (forall a, safe (k a) l b Q) -> safe (pbind p k) l b Q.
Proof. intros H1 H2. apply safe_bind. eapply safe_mono; [|apply H1]. intros a l' b' [-> ->]. apply H2. Qed.
Lemma wquiet_use {A B} (p : wprog A) (k : A -> wprog B) l b d Q : wquiet p -> (forall a, wsafe (k a) l b d Q) -> wsafe (wbind p k) l b d Q.
Proof. intros H1 H2. apply wsafe_bind. eapply wsafe_mono; [|apply H1]. intros a l' b' d' (-> & -> & ->). apply H2. Qed.

Lemma quiet_bind {A B} (p : prog A) (k : A -> prog B) : quiet_prog p -> (forall a, quiet_prog (k a)) -> quiet_prog (pbind p k).
Proof. intros H1 H2 l b. apply quiet_use; [done|]. intros a. apply H2. Qed.
Lemma wquiet_bind {A B} (p : wprog A) (k : A -> wprog B) : wquiet p -> (forall a, wquiet (k a)) -> wquiet (wbind p k).
Proof. intros H1 H2 l b d. apply wquiet_use; [done|]. intros a. apply H2. Qed.
Lemma quiet_ret {A} (a : A) : quiet_prog (Ret a).
Proof. done. Qed.
Lemma wquiet_ret {A} (a : A) : wquiet (WRet a).
Proof. done. Qed.

(** A result that is no jump to label S. *)
Definition settled {A} (r : res A) : Prop := r <> Retry.
Lemma quiet_res {A} (r : res A) : settled r -> quiet_prog (of_res r).
Proof. intros H l b. by destruct r. Qed.
Lemma wquiet_res {A} (r : res A) : wquiet (w_res r).
Proof. intros l b d. by destruct r. Qed.

Lemma quiet_load p : quiet_prog (p_load p).
Proof. intros l b v. done. Qed.
Lemma quiet_data x : quiet_prog (p_data x).
Proof. intros l b v. done. Qed.
Lemma quiet_gen x : quiet_prog (p_gen x).
Proof. intros l b v w. done. Qed.
Lemma quiet_get d i : quiet_prog (p_get d i).
Proof. unfold p_get. destruct (_ <? _); [apply quiet_load|by intros l b]. Qed.

Lemma settled_from d i : settled (sl_from d i).
Proof. unfold settled, sl_from. by destruct (_ <=? _). Qed.
Lemma settled_upto d i : settled (sl_upto d i).
Proof. unfold settled, sl_upto. by destruct (_ <=? _). Qed.
Lemma settled_key key i : settled (key_at key i).
Proof. unfold settled, key_at. by destruct (key !! i). Qed.

Lemma settled_then {A} key i (f : N -> A) : settled (do k <- key_at key i; Ok (f k)).
Proof. unfold settled, key_at. by destruct (key !! i). Qed.

Lemma quiet_skip d len : quiet_prog (p_skip d len).
Proof.
  unfold p_skip. destruct len as [|len]; [apply quiet_ret|]. apply quiet_bind.
  - destruct (_ =? _)%nat; [|apply quiet_ret]. apply quiet_bind; [apply quiet_get|]. intros w. apply quiet_ret.
  - intros [n sl]. apply quiet_bind; [apply quiet_res, settled_from|]. intros d'. apply quiet_ret.
Qed.

Lemma quiet_words base n : quiet_prog (p_words base n).
Proof.
  revert base; induction n as [|n IH]; intros base; [apply quiet_ret|]. cbn [p_words].
  apply quiet_bind; [apply quiet_load|]. intros w. apply quiet_bind; [apply IH|]. intros ws. apply quiet_ret.
Qed.

Lemma quiet_append src len : quiet_prog (p_append src len).
Proof.
  unfold p_append. destruct len as [|len]; [apply quiet_ret|]. apply quiet_bind.
  - destruct (_ =? _)%nat; [|apply quiet_ret]. apply quiet_bind; [apply quiet_get|]. intros w.
    apply quiet_bind; [apply quiet_res, settled_from|]. intros d'. apply quiet_ret.
  - intros [[n sl] s1]. destruct (_ =? _)%nat; [by intros l b|]. destruct (_ =? _); [by intros l b|]. destruct (_ <? _); [by intros l b|].
    apply quiet_bind; [apply quiet_words|]. intros ws. apply quiet_ret.
Qed.

Lemma quiet_scan base k i n last : quiet_prog (p_scan base k i n last).
Proof.
  revert i last; induction n as [|n IH]; intros i last; [apply quiet_ret|]. cbn [p_scan].
  apply quiet_bind; [apply quiet_load|]. intros a. destruct (_ <=? _); [apply quiet_ret|apply IH].
Qed.

Lemma quiet_search_loop fuel key node count plen depth : quiet_prog (p_search_loop fuel key node count plen depth).
Proof.
  revert node count plen depth; induction fuel as [|fuel IH]; intros node count plen depth; [by intros l b|]. cbn [p_search_loop].
  apply quiet_bind; [apply quiet_data|]. intros d. apply quiet_bind; [apply quiet_skip|]. intros [[n sl] d1].
  destruct (_ <=? _)%nat; [apply quiet_ret|]. apply quiet_bind; [apply quiet_res, settled_key|]. intros k. destruct (_ <=? _)%nat.
  - apply quiet_bind; [apply quiet_get|]. intros a. destruct (a =? 0); [apply quiet_ret|]. destruct (isLeaf a); [apply quiet_ret|].
    destruct (explodeNode a) as [[[? ?] ?] ?]. apply IH.
  - apply quiet_bind; [apply quiet_res, settled_upto|]. intros _. apply quiet_bind; [apply quiet_scan|]. intros [[? ?] a].
    destruct (_ =? k); [|apply quiet_ret]. destruct (isLeaf a); [apply quiet_ret|]. destruct (explodeNode a) as [[[? ?] ?] ?]. apply IH.
Qed.

Lemma quiet_search key : quiet_prog (p_search key).
Proof.
  unfold p_search. apply quiet_bind; [apply quiet_load|]. intros root. destruct (isLeaf root).
  - apply quiet_bind; [apply quiet_res, settled_key|]. intros k. destruct (_ =? k); apply quiet_ret.
  - destruct (explodeNode root) as [[[? ?] ?] ?]. apply quiet_search_loop.
Qed.

(** *** Locking *)

Lemma safe_lock_root w (Q : unit -> list N -> bool -> Prop) : Q tt [] true -> safe (p_lock_root w) [] false Q.
Proof.
  intros H. unfold p_lock_root. cbn [safe]. rewrite N.eqb_refl. split; [done|]. intros _. change (1 =? 0) with false. cbn [safe].
  intros v. destruct (v =? w); [done|]. cbn [safe]. done.
Qed.

Lemma filter_out (i : N) (l : list N) : i ∉ l -> filter (fun j => j <> i) l = l.
Proof.
  induction l as [|j l IH]; intros H; [done|]. apply not_elem_of_cons in H as [H1 H2]. rewrite filter_cons.
  destruct (decide (j <> i)) as [_|Hn]; [by rewrite IH|]. destruct Hn. congruence.
Qed.
Lemma filter_first (i : N) (l : list N) : i ∉ l -> filter (fun j => j <> i) (i :: l) = l.
Proof. intros H. rewrite filter_cons. destruct (decide (i <> i)) as [Hn|_]; [done|]. by apply filter_out. Qed.

Lemma safe_lock1 node g (Q : unit -> list N -> bool -> Prop) : Q tt [lock_id node] false -> safe (p_lock1 node g) [] false Q.
Proof.
  intros H. unfold p_lock1. destruct (gen_odd g) eqn:E; [done|]. cbn [safe]. rewrite N.eqb_refl. split_and!; [done|done|]. intros _. done.
Qed.

Lemma safe_lock2 node ng parent pg (Q : unit -> list N -> bool -> Prop) : (forall l, l ≡ₚ lids2 node parent -> Q tt l false) -> safe (p_lock2 node ng parent pg) [] false Q.
Proof.
  intros H. unfold p_lock2, lids2 in *. destruct (parent =? 0); [by apply safe_lock1, H|].
  destruct (gen_odd ng) eqn:E1; [done|]. destruct (gen_odd pg) eqn:E2; [done|]. cbn [safe orb]. rewrite N.eqb_refl.
  split_and!; [done|done|]. intros _. change (1 =? 0) with false. cbv iota.
  destruct (N.eqb_spec (lock_id parent) (lock_id node)) as [Ee|Hne]; [by apply H|].
  cbn [safe]. rewrite N.eqb_refl. split_and!; [done| |].
  - cbn [safe]. split; [left|]. intros _. by rewrite filter_first by apply not_elem_of_nil.
  - intros _. change (1 =? 0) with false. cbn [safe]. by apply H.
Qed.

Lemma safe_lock3 child cg node ng parent pg (Q : unit -> list N -> bool -> Prop) : (forall l, l ≡ₚ own3 child node parent -> Q tt l false) ->
  safe (p_lock3 child cg node ng parent pg) [] false Q.
Proof.
  intros H. unfold p_lock3, own3 in *. destruct (parent =? 0); [by apply safe_lock2|].
  destruct (gen_odd cg) eqn:E1; [done|]. destruct (gen_odd ng) eqn:E2; [done|]. destruct (gen_odd pg) eqn:E3; [done|].
  cbn [safe orb]. rewrite N.eqb_refl. split_and!; [done|done|]. intros _. change (1 =? 0) with false. cbv iota.
  destruct (N.eqb_spec (lock_id node) (lock_id child)) as [Ee|Hne]; cbn [negb].
  - cbn [pbind]. destruct ((lock_id parent =? lock_id child) || (lock_id parent =? lock_id node)) eqn:Ep; [by apply H|].
    cbn [safe]. rewrite N.eqb_refl. split_and!; [done| |].
    + cbn [safe]. split; [left|]. intros _. by rewrite filter_first by apply not_elem_of_nil.
    + intros _. change (1 =? 0) with false. cbn [safe]. by apply H.
  - cbn [pbind safe]. rewrite N.eqb_refl. split_and!; [done| |].
    + cbn [pbind safe]. split; [left|]. intros _. by rewrite filter_first by apply not_elem_of_nil.
    + intros Hn. change (1 =? 0) with false. cbn [pbind].
      destruct ((lock_id parent =? lock_id child) || (lock_id parent =? lock_id node)) eqn:Ep; [by apply H|].
      apply orb_false_iff in Ep as [Ep1 Ep2]. apply N.eqb_neq in Ep1. apply N.eqb_neq in Ep2.
      cbn [safe]. rewrite N.eqb_refl. split_and!; [done| |].
      * cbn [safe]. split; [right; left|]. intros _. cbn [safe].
        assert (E : filter (fun j => j <> lock_id child) [lock_id node; lock_id child] = [lock_id node]).
        { rewrite filter_cons, decide_True by done. f_equal. apply filter_first. by apply not_elem_of_nil. }
        rewrite E. split; [left|]. intros _. by rewrite filter_first by apply not_elem_of_nil.
      * intros _. change (1 =? 0) with false. cbn [safe]. by apply H.
Qed.

(** *** PrepareUpdate and PrepareDelete *)

Definition upost (r : bool * uop) (l : list N) (b : bool) : Prop :=
  r.1 = is_found (u_kind r.2) /\ l ≡ₚ (hlocks (HU r.1 r.2)).1 /\ b = (hlocks (HU r.1 r.2)).2.
Definition dpost (r : option dop) (l : list N) (b : bool) : Prop :=
  match r with
  | Some op => l ≡ₚ (hlocks (HD [] op)).1 /\ b = (hlocks (HD [] op)).2
  | None => l = [] /\ b = false
  end.

Lemma safe_if {A} (c : bool) (p q : prog A) l b Q : safe p l b Q -> safe q l b Q -> safe (if c then p else q) l b Q.
Proof. by destruct c. Qed.

Lemma safe_pu_loop fuel aid key raw np parent pg depth : safe (p_pu_loop fuel aid key raw np parent pg depth) [] false upost.
Proof.
  revert raw np parent pg depth; induction fuel as [|fuel IH]; intros raw np parent pg depth; [done|]. cbn [p_pu_loop].
  destruct (explodeNode raw) as [[[? node] count] plen]. apply quiet_use; [apply quiet_gen|]. intros ng.
  apply quiet_use; [apply quiet_load|]. intros w. destruct (negb _); [done|].
  apply quiet_use; [destruct (parent =? 0); [apply quiet_ret|apply quiet_gen]|]. intros pg'. destruct (negb _); [done|].
  apply quiet_use; [apply quiet_data|]. intros d. apply quiet_use; [apply quiet_append|]. intros [prefix pslots].
  destruct (prefix_cmp key depth prefix 0) as [|i|]; [done| |].
  - apply quiet_use; [apply quiet_res, settled_key|]. intros k. apply safe_bind, safe_lock2. intros l Hl. by split.
  - apply quiet_use; [apply quiet_res, settled_from|]. intros d1. apply quiet_use; [apply quiet_res, settled_key|]. intros k.
    destruct (_ <=? _)%nat.
    + apply quiet_use; [apply quiet_get|]. intros a. destruct (a =? 0).
      * apply safe_bind, safe_lock2. intros l Hl. by split.
      * destruct (isLeaf a); [|apply IH]. apply safe_bind, safe_lock2. intros l Hl. by split.
    + apply quiet_use; [apply quiet_res, settled_upto|]. intros _. apply quiet_use; [apply quiet_scan|]. intros [[brk i] a].
      destruct (_ =? k).
      * destruct (isLeaf a); [|apply IH]. apply safe_bind, safe_lock2. intros l Hl. by split.
      * apply safe_bind, safe_lock2. intros l Hl. by split.
Qed.

Lemma safe_prepare_update aid key : safe (p_prepare_update aid key) [] false upost.
Proof.
  unfold p_prepare_update. apply quiet_use; [apply quiet_load|]. intros root. destruct (root =? 0).
  - apply safe_bind, safe_lock_root. apply quiet_use; [apply quiet_res, settled_key|]. intros k. by split.
  - destruct (isLeaf root).
    + apply safe_bind, safe_lock_root. apply quiet_use; [apply quiet_res, settled_key|]. intros k. destruct (_ =? k); by split.
    + apply safe_pu_loop.
Qed.

Lemma safe_pd_loop fuel aid key root raw np parent pg depth : safe (p_pd_loop fuel aid key root raw np parent pg depth) [] false dpost.
Proof.
  revert raw np parent pg depth; induction fuel as [|fuel IH]; intros raw np parent pg depth; [done|]. cbn [p_pd_loop].
  destruct (explodeNode raw) as [[[? node] count] plen]. apply quiet_use; [apply quiet_gen|]. intros ng.
  apply quiet_use; [apply quiet_load|]. intros w. destruct (negb _); [done|].
  apply quiet_use; [destruct (parent =? 0); [apply quiet_ret|apply quiet_gen]|]. intros pg'. destruct (negb _); [done|].
  apply quiet_use; [apply quiet_data|]. intros d. apply quiet_use; [apply quiet_skip|]. intros [[pl pslots] d1].
  destruct (_ <=? _)%nat; [done|]. apply quiet_use; [apply quiet_res, settled_key|]. intros k. destruct (_ <=? _)%nat.
  - apply quiet_use; [apply quiet_get|]. intros a. destruct (a =? 0); [done|]. destruct (isLeaf a); [done|]. apply IH.
  - apply quiet_use; [apply quiet_res, settled_upto|]. intros _. apply quiet_use; [apply quiet_scan|]. intros [[brk i] a].
    destruct (_ =? k); [|done]. destruct (isLeaf a); [|apply IH]. destruct (_ =? 2)%nat.
    + apply quiet_use; [apply quiet_get|]. intros other. destruct (isLeaf other).
      * apply safe_bind, safe_lock2. intros l Hl. apply quiet_use; [apply quiet_res|].
        { destruct (raw =? root); [destruct (0 <? pl)%nat; [|done]|]; apply (settled_then key). }
        intros nl. by split.
      * destruct (explodeNode other) as [[[ck child] cc] cpl]. apply quiet_use; [apply quiet_gen|]. intros cg.
        apply quiet_use; [apply quiet_get|]. intros again. destruct (negb _); [done|].
        apply safe_bind, safe_lock3. intros l Hl. apply quiet_use; [apply quiet_append|]. intros [prefix ?].
        apply quiet_use; [apply quiet_data|]. intros cd. apply quiet_use; [apply quiet_append|]. intros [cp csl]. by split.
    + apply safe_bind, safe_lock2. intros l Hl. by split.
Qed.

Lemma safe_prepare_delete aid key : safe (p_prepare_delete aid key) [] false dpost.
Proof.
  unfold p_prepare_delete. apply quiet_use; [apply quiet_load|]. intros root. destruct (root =? 0); [done|].
  destruct (isLeaf root).
  - apply quiet_use; [apply quiet_res, settled_key|]. intros k. destruct (_ =? k); [|done].
    apply safe_bind, safe_lock_root. by split.
  - apply safe_pd_loop.
Qed.
