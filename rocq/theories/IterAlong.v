(** * IterAlong: iterations that run while the tree changes. *)
From Verif Require Export QWitness.

(** ** Resume keys consist of bytes *)

Lemma append_prefix_bytes m d n p k : append_prefix m d n = Ok (p, k) -> bytes p.
Proof.
  unfold append_prefix. destruct n as [|n]; [intros [= <- _]; constructor|].
  destruct (if (S n =? 255)%nat then _ else _) as [[[n' sl] s1]| | |]; cbn [bind]; try done.
  destruct (n' =? 0)%nat; [done|]. destruct (sl_len s1 =? 0); [done|]. destruct (_ <? _); [done|]. intros [= <- _].
  apply Forall_forall. intros b Hb. apply elem_of_list_fmap in Hb as (i & -> & _). apply to_byte_lt.
Qed.

Transparent explodeNode.
Lemma explode_byte w : (explodeNode w).1.1.1 < 256.
Proof. apply to_byte_lt. Qed.
Opaque explodeNode.

Lemma resume_bytes s st : forall j r, resume_key s j st = Ok r -> bytes r.
Proof.
  induction st as [|pos st IH]; intros j r; cbn [resume_key]; [intros [= <-]; constructor|].
  destruct (explodeNode (pos_node pos)) as [[[key node] count] pl] eqn:Ex.
  assert (Hk : key < 256) by (pose proof (explode_byte (pos_node pos)) as H; by rewrite Ex in H).
  destruct (node_data s node) as [d| | |]; try done. cbn [bind].
  destruct (append_prefix (t_mem s) d pl) as [[p ps]| | |] eqn:Ea; try done. cbn [bind]. apply append_prefix_bytes in Ea.
  assert (Hh : bytes ((if (0 <? j)%nat then [key] else []) ++ p)).
  { apply Forall_app. split; [|done]. destruct (0 <? j)%nat; repeat constructor. done. }
  destruct st as [|q st].
  - destruct (sl_get (t_mem s) d (ps + pos_k pos)) as [a| | |]; try done. cbn [bind]. intros [= <-].
    apply Forall_app. split; [done|]. repeat constructor. apply to_byte_lt.
  - destruct (resume_key s (S j) (q :: st)) as [r'| | |] eqn:Er; try done. cbn [bind]. intros [= <-].
    apply Forall_app. split; [done|]. by eapply IH.
Qed.

Lemma scan_bytes s : forall fuel raw k st pre r pre' d r' st', scan_loop fuel s raw k st pre r = Ok (pre', d, r', st') -> bytes r -> bytes r'.
Proof.
  induction fuel as [|fuel IH]; intros raw k st pre r pre' d r' st' E Hr; [done|]. cbn [scan_loop] in E.
  destruct (explodeNode raw) as [[[key node] count] pl]. destruct (node_data s node) as [dt| | |]; try done. cbn [bind] in *.
  destruct (skip_prefix (t_mem s) dt pl) as [[[len slots] d1]| | |]; try done. cbn [bind] in *.
  destruct (if (k <? count)%nat then sl_upto d1 count else Ok tt) as [u| | |]; try done. cbn [bind] in *.
  destruct (scan_children (t_mem s) (sl_base d1) k (count - k) pre) as [pre1 [[i a]|]]; [by eapply IH|].
  destruct st as [|pos rest]; [by injection E as <- <- <- <-|]. destruct (_ <? length pre1)%nat; [|by eapply IH].
  destruct (resume_key s 0 (rev (trim_stack (pos :: rest)))) as [r2| | |] eqn:Er; try done. cbn [bind] in E.
  injection E as <- <- <- <-. by eapply resume_bytes.
Qed.

Lemma find_byte_some m base c n : forall i l a, find_byte m base c i n = Some (l, a) ->
  (i <= l < i + n)%nat /\ a = mget m (base + N.of_nat l) /\ to_byte a = c.
Proof.
  induction n as [|n IH]; intros i l a; [done|]. cbn [find_byte]. destruct (N.eqb_spec (to_byte (mget m (base + N.of_nat i))) c) as [E|_].
  - intros [= <- <-]. split_and!; [lia..|done|done].
  - intros H. apply IH in H as (? & ? & ?). split_and!; [lia..|done|done].
Qed.

(** ** The walk along a resume key that need not belong to the tree *)

Section Any.
Context (K : list N -> Prop) (fetch : N -> list N) (s : tree) (L : list (N * nat)) (Ha : alloc_inv s L).
Local Notation sound := (sound K fetch s L).

Lemma pre_loop_any b0 t0 resume : b0 < 256 -> sound t0 -> bytes resume -> forall fuel C full a pfx cs k st,
  plug C (Node full a pfx cs) = t0 -> stk b0 C (Node full a pfx cs) st -> (length resume - k < fuel)%nat ->
  exists C' full' a' pfx' cs' k' st', pre_loop fuel s resume k (enc (hb b0 C) (Node full a pfx cs)) st =
      Ok (enc (hb b0 C') (Node full' a' pfx' cs'), k', st') /\
    plug C' (Node full' a' pfx' cs') = t0 /\ stk b0 C' (Node full' a' pfx' cs') st' /\ (k' <= ncount full' (length cs'))%nat.
Proof.
  intros Hb0 Hs0 Hres. induction fuel as [|fuel IH]; intros C full a pfx cs k st Hpl Hst Hf; [lia|]. cbn [pre_loop].
  assert (Hstop : forall i, (i <= ncount full (length cs))%nat -> exists C' full' a' pfx' cs' k' st',
     Ok (enc (hb b0 C) (Node full a pfx cs), i, st) = Ok (enc (hb b0 C') (Node full' a' pfx' cs'), k', st') /\
     plug C' (Node full' a' pfx' cs') = t0 /\ stk b0 C' (Node full' a' pfx' cs') st' /\ (k' <= ncount full' (length cs'))%nat).
  { intros i Hi. by exists C, full, a, pfx, cs, i, st. }
  destruct (Nat.leb_spec (length resume) k) as [Hk|Hk]; [apply Hstop; lia|].
  assert (Hs : sound (Node full a pfx cs)) by (apply (sound_plug K fetch s L C); by rewrite Hpl).
  assert (Hb : hb b0 C < 256).
  { destruct C as [|f C]; [done|]. simpl. simpl in Hpl. rewrite <- Hpl in Hs0. apply sound_plug in Hs0.
    apply sound_sbytes in Hs0. by apply sbytes_mid in Hs0 as (? & _). }
  rewrite (sound_explode K fetch s L Ha _ _ _ _ _ Hs Hb). pose proof (sound_view K fetch s L Ha _ _ _ _ Hs) as Hv.
  rewrite (v_data _ _ _ _ _ Hv). cbn [bind]. rewrite (v_skip _ _ _ _ _ Hv). cbn [bind sl_base].
  destruct (Nat.leb_spec (length resume) (k + length pfx)) as [Hk2|Hk2]; [apply Hstop; lia|].
  destruct (lookup_lt_is_Some_2 resume (k + length pfx) Hk2) as [c Ec]. rewrite (key_at_Some _ _ _ Ec). cbn [bind].
  assert (Hc : c < 256) by (unfold bytes in Hres; rewrite Forall_forall in Hres; apply Hres; by eapply elem_of_list_lookup_2).
  destruct (sound_count K fetch s L _ _ _ _ Hs) as [Hn ->]. pose proof (sound_sbytes K fetch s L _ _ _ _ Hs) as Hsb.
  (* the child is a node: push and go on *)
  assert (Hgo : forall b t i nx, child_at full cs i = Some (b, t) -> is_leaf t = false ->
    nx = (if full then next_nonzero (t_mem s) (nbase a pfx) (S i) (ncount full (length cs) - S i) else S i) ->
    exists C' full' a' pfx' cs' k' st',
      pre_loop fuel s resume (S (k + length pfx)) (enc b t) (Pos (enc (hb b0 C) (Node full a pfx cs)) nx (nx <? ncount full (length cs))%nat :: st) =
        Ok (enc (hb b0 C') (Node full' a' pfx' cs'), k', st') /\
      plug C' (Node full' a' pfx' cs') = t0 /\ stk b0 C' (Node full' a' pfx' cs') st' /\ (k' <= ncount full' (length cs'))%nat).
  { intros b t i nx Hci Hlf Hnx. destruct t as [|full2 a2 pfx2 cs2]; [done|].
    destruct (child_frame _ _ _ _ _ Hsb Hci) as (l & El & Ei). set (f := Frame full a pfx l b (kids full cs (S i))).
    assert (Ef : Node full a pfx cs = fill f (Node full2 a2 pfx2 cs2)) by (unfold fill, f; simpl; by rewrite <- El).
    assert (Efc : cs = f_cs f (Node full2 a2 pfx2 cs2)) by (unfold f_cs, f; simpl; done).
    apply (IH (f :: C)).
    - simpl. rewrite <- Ef. done.
    - constructor; [|by rewrite <- Ef]. rewrite Ef. rewrite Efc at 1.
      apply pos_next with (K := K) (fetch := fetch) (s := s) (L := L) (i := i); [done|by rewrite <- Ef|done|done|].
      rewrite Hnx. by rewrite <- Efc.
    - lia. }
  destruct full.
  - rewrite (view_get _ _ _ _ _ (N.to_nat c) Hv) by (simpl; lia). cbn [bind]. fold (nbase a pfx).
    rewrite (slot_read K fetch s L _ _ _ _ (N.to_nat c) Hs) by (simpl; lia). unfold slotw.
    destruct (child_at true cs (N.to_nat c)) as [[b t]|] eqn:Eci; [|apply Hstop; lia].
    destruct (sound_child K fetch s L _ _ _ _ _ _ Hs (child_at_elem _ _ _ _ _ Eci)) as [Hst' Hbt].
    destruct (sound_enc K fetch s L Ha t b Hst' Hbt) as (E1 & E2 & E3).
    rewrite (proj2 (N.eqb_neq _ _)) by done. rewrite E1. cbn [negb andb]. destruct (b =? c); [|apply Hstop; lia].
    rewrite E2. destruct (is_leaf t) eqn:Elf; [apply Hstop; simpl; lia|]. unfold nbase. rewrite (v_upto _ _ _ _ _ Hv). cbn [bind].
    fold (nbase a pfx). by apply (Hgo b t (N.to_nat c)).
  - rewrite (v_upto _ _ _ _ _ Hv). cbn [bind]. fold (nbase a pfx).
    destruct (find_byte (t_mem s) (nbase a pfx) c 0 (ncount false (length cs))) as [[l w]|] eqn:Ef; [|apply Hstop; lia].
    apply find_byte_some in Ef as (Hl & -> & Hby). rewrite (slot_read K fetch s L _ _ _ _ l Hs) in Hby |- * by lia.
    unfold slotw in *. destruct (child_at false cs l) as [[b t]|] eqn:Eci.
    2:{ unfold child_at in Eci. apply lookup_ge_None in Eci. simpl in Hl. lia. }
    destruct (sound_child K fetch s L _ _ _ _ _ _ Hs (child_at_elem _ _ _ _ _ Eci)) as [Hst' Hbt].
    destruct (sound_enc K fetch s L Ha t b Hst' Hbt) as (E1 & E2 & E3). rewrite E2.
    destruct (is_leaf t) eqn:Elf; [apply Hstop; simpl in *; lia|]. by apply (Hgo b t l).
Qed.
End Any.

(** ** Values returned were stored *)

Section Along.
Context (K : list N -> Prop) (fetch : N -> list N) (HK : universe K).
Local Notation core := (core K fetch).

(** [v] is the value of a stored key with prefix [sp], or the value that a tree without such keys
    answers instead. *)
Definition served (y : sys) (sp : list N) (v : N) : Prop :=
  K (fetch v) /\ get fetch y (fetch v) = Some v /\ (sp `prefix_of` fetch v \/ stray K fetch y sp v).

Lemma next_any y T it : core (sy_tree y) T -> bytes (it_prefix it) -> bytes (it_resume it) -> exists n0, forall fuel, (n0 <= fuel)%nat ->
  (it_next fuel (sy_tree y) it = Panic OutOfRange /\ ~ room (sy_tree y)) \/
  exists more it', it_next fuel (sy_tree y) it = Ok (more, it') /\ it_prefix it' = it_prefix it /\ bytes (it_resume it') /\
    (forall v, v ∈ it_prefetched it' -> v ∈ it_prefetched it \/ served y (it_prefix it) v) /\
    (more = true -> it_value it' ∈ it_prefetched it \/ served y (it_prefix it) (it_value it')).
Proof.
  intros Hc Hbp Hbr. set (sp := it_prefix it) in *.
  destruct (it_prefetched it !! it_pp it) as [v|] eqn:Epp.
  { exists O. intros fuel _. right. unfold it_next. rewrite Epp. do 2 eexists. split; [done|]. cbn [it_prefix it_resume it_prefetched it_value].
    split_and!; [done|done|auto|]. intros _. left. by eapply elem_of_list_lookup_2. }
  destruct (it_done it) eqn:Ed.
  { exists O. intros fuel _. right. unfold it_next. rewrite Epp, Ed. do 2 eexists. split; [done|]. split_and!; [done|done|auto|done]. }
  destruct (partial_search_ok K fetch HK _ T sp Hc Hbp) as (raw & d & E & Hp).
  destruct Hp as [Hn|b C k v -> Hbb Hnl Hu|b C full a pfx cs -> Hbb Hnil Hin].
  - exists O. intros fuel _. right. unfold it_next. rewrite Epp, Ed. fold sp. rewrite E. cbn [bind N.eqb]. do 2 eexists. split; [done|].
    cbn [it_prefix it_resume it_prefetched it_value]. split_and!; [done|done|auto|done].
  - pose proof (core_sound K fetch _ _ _ Hc) as Hs. destruct (sound_enc K fetch _ _ (co_alloc _ _ _ _ Hc) _ b Hs Hbb) as (_ & H2 & H3).
    exists O. intros fuel _. right. unfold it_next. rewrite Epp, Ed. fold sp. rewrite E. cbn [bind].
    rewrite (proj2 (N.eqb_neq _ _)) by done. rewrite H2. cbn [is_leaf]. do 2 eexists. split; [done|].
    cbn [it_prefix it_resume it_prefetched it_value]. split_and!; [done|done|auto|]. intros _. right. rewrite (sound_leaf K fetch _ _ _ _ _ Hs Hbb).
    destruct (leaf_stored K fetch HK _ _ _ _ Hc) as (HKk & Hf & Hg). unfold served. rewrite Hf. split_and!; [done|done|].
    destruct (prefix_dec sp k) as [Hp|Hp]; [by left|right]. split; [|by rewrite Hf].
    eapply listing_nil; [done|done|]. intros k' v' H4 H5. by destruct (Hu _ _ H4 H5) as [-> _].
  - set (t0 := Node full a pfx cs) in *. pose proof (core_sound K fetch _ _ _ Hc) as Hs. pose proof (co_alloc _ _ _ _ Hc) as Ha. simpl in Ha.
    destruct (sound_enc K fetch _ _ Ha _ b Hs Hbb) as (_ & H2 & H3).
    destruct (pre_loop_any K fetch _ _ Ha b t0 (it_resume it) Hbb Hs Hbr (S (length (it_resume it))) [] full a pfx cs 0 []) as
      (C' & full' & a' & pfx' & cs' & k' & st' & E' & X2 & X3 & X4); [done|constructor|lia|]. cbn [hb] in E'. fold t0 in E'.
    assert (Hall : forall v, v ∈ map snd (kvals (kids full' cs' k') ++ cright C') -> served y sp v).
    { intros v Hv. apply elem_of_list_fmap in Hv as ([k w] & -> & Hv). simpl.
      assert (Hin0 : (k, w) ∈ contents t0).
      { rewrite <- X2, contents_plug. apply elem_of_app. right. apply elem_of_app in Hv as [Hv|Hv]; [|apply elem_of_app; by right].
        apply elem_of_app. left. rewrite contents_node. apply elem_of_list_bind in Hv as (c & Hv & Hk). apply elem_of_list_bind. exists c. split; [done|].
        unfold kids in Hk. destruct full'; [by apply elem_of_list_filter in Hk as [_ Hk]|]. rewrite <- (take_drop k' cs'). apply elem_of_app. by right. }
      apply Hin in Hin0 as [Hin0 Hpk]. destruct (co_contents K fetch _ _ _ _ Hc Hin0) as (HKk & _ & Hf). unfold served. rewrite Hf. split_and!; [done| |by left].
      apply (get_iff K fetch HK y _ k w Hc); [by apply (uv_bytes _ HK)|by apply (uv_nonempty _ HK)|done]. }
    pose proof (rnodes_bound C' (Node full' a' pfx' cs')) as Hrb. rewrite X2, nnodes_node in Hrb. pose proof (nsum_kids full' cs' k') as Hnk.
    exists (S (3 * nnodes t0)). intros fuel Hfu. unfold it_next. rewrite Epp, Ed. fold sp. rewrite E. cbn [bind].
    rewrite (proj2 (N.eqb_neq _ _)) by done. rewrite H2. change (is_leaf t0) with false. cbn iota.
    rewrite E'. cbn [bind].
    pose proof (scan_loop_ok K fetch _ _ Ha b t0 (it_resume it) Hbb Hs fuel C' full' a' pfx' cs' k' st' [] X2 X3 X4) as Hsc.
    specialize (Hsc ltac:(lia)). set (rest := kvals (kids full' cs' k') ++ cright C') in *.
    assert (Hfin : forall pre dn r st, scan_loop fuel (sy_tree y) (enc (hb b C') (Node full' a' pfx' cs')) k' st' [] (it_resume it) = Ok (pre, dn, r, st) ->
      (forall v, v ∈ pre -> v ∈ map snd rest) -> exists more it',
      match pre with
      | [] => Ok (false, Iter (it_value it) st pre (it_pp it) sp r dn)
      | v :: _ => Ok (true, Iter v st pre 1 sp r dn)
      end = Ok (more, it') /\ it_prefix it' = sp /\ bytes (it_resume it') /\
      (forall v, v ∈ it_prefetched it' -> v ∈ it_prefetched it \/ served y sp v) /\
      (more = true -> it_value it' ∈ it_prefetched it \/ served y sp (it_value it'))).
    { intros pre dn r st Es Hpre. assert (Hb : bytes r) by (by eapply scan_bytes).
      destruct pre as [|v pre]; do 2 eexists; (split; [done|]); cbn [it_prefix it_resume it_prefetched it_value]; split_and!; try done.
      - by intros v ?%elem_of_nil.
      - intros w Hw. right. apply Hall. by apply Hpre.
      - intros _. right. apply Hall, Hpre. left. }
    destruct (scan_loop fuel (sy_tree y) (enc (hb b C') (Node full' a' pfx' cs')) k' st' [] (it_resume it)) as [[[[pre dn] r] st]|w| |] eqn:Es;
      [|left|by inversion Hsc|by inversion Hsc].
    + right. cbn [bind]. apply (Hfin pre dn r st); [done|]. intros v Hv.
      inversion Hsc as [E1|r1 r2 G c st1 Er _ _ _ _ E1|? ? ? ? ? ? _ _ _ _ E1|]; subst; try done.
      rewrite Er, map_app. apply elem_of_app. by left.
    + inversion Hsc as [| | |full2 a2 pfx2 cs2 Et Hel Hlt Hroom Ew]. subst w. split; [done|]. intros Hrm.
      injection Et as <- <- <- <-. pose proof (room_sub K fetch HK _ _ _ _ _ _ Hc Hrm). lia.
Qed.

Definition times (y : sys) : Prop := exists n tr, reachable K fetch n tr y.

Lemma along_stored ys : Forall times ys -> forall it fuel vs e, bytes (it_prefix it) -> bytes (it_resume it) ->
  it_along fuel (map sy_tree ys) it = Ok (vs, e) -> forall i v, vs !! i = Some v ->
  v ∈ it_prefetched it \/ exists j y, (j <= i)%nat /\ ys !! j = Some y /\ served y (it_prefix it) v.
Proof.
  induction 1 as [|y ys (n & tr & Hr) _ IH]; intros it fuel vs e Hbp Hbr E i v Hi; cbn [map it_along] in E.
  { injection E as <- <-. done. }
  destruct (it_next fuel (sy_tree y) it) as [[more it1]| | |] eqn:En; try done. cbn [bind] in E.
  destruct more; [|injection E as <- <-; done].
  destruct (it_along fuel (map sy_tree ys) it1) as [[vs' e']| | |] eqn:El; try done. cbn [bind] in E. injection E as <- <-.
  destruct (rcore K fetch _ _ _ Hr) as (_ & T & Hc). destruct (next_any y T it Hc Hbp Hbr) as (n0 & Hn0).
  destruct (Hn0 (n0 + fuel)%nat ltac:(lia)) as [[E' _]|(more' & it' & E' & P1 & P2 & P3 & P4)];
    rewrite (it_next_mono _ _ _ _ En (n0 + fuel)%nat ltac:(lia)) in E'; [done|]. injection E' as <- <-.
  destruct i as [|i].
  - injection Hi as <-. destruct (P4 eq_refl) as [H|H]; [by left|right]. exists 0%nat, y. split_and!; [lia|done|done].
  - destruct (IH it1 fuel vs' e' ltac:(by rewrite P1) P2 El i v Hi) as [H|(j & y' & Hj & Hy & Hs)].
    + destruct (P3 v H) as [H'|H']; [by left|right]. exists 0%nat, y. split_and!; [lia|done|done].
    + right. exists (S j), y'. split_and!; [lia|done|by rewrite <- P1].
Qed.

Lemma along_returns ys : Forall (fun y => times y /\ room (sy_tree y)) ys -> forall it, bytes (it_prefix it) -> bytes (it_resume it) ->
  exists x, returns (fun n => it_along n (map sy_tree ys) it) x.
Proof.
  induction 1 as [|y ys [(n & tr & Hr) Hrm] _ IH]; intros it Hbp Hbr; [exists ([], false); by exists O|].
  destruct (rcore K fetch _ _ _ Hr) as (_ & T & Hc). destruct (next_any y T it Hc Hbp Hbr) as (n0 & Hn0).
  destruct (Hn0 n0 ltac:(lia)) as [[_ ?]|(more & it1 & E & P1 & P2 & _)]; [done|].
  destruct more.
  - destruct (IH it1 ltac:(by rewrite P1) P2) as ([vs e] & n1 & H1). exists (it_value it1 :: vs, e), (n0 + n1)%nat. intros m Hm.
    cbn [map it_along]. rewrite (it_next_mono _ _ _ _ E m ltac:(lia)). cbn [bind]. by rewrite (H1 m) by lia.
  - exists ([], true), n0. intros m Hm. cbn [map it_along]. by rewrite (it_next_mono _ _ _ _ E m ltac:(lia)).
Qed.
End Along.
