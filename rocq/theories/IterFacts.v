(** * IterFacts: the scan and resume loops of the iterator on a fixed tree. *)
From Verif Require Export CountFacts.

Definition hb (b0 : N) (C : ctx) : N := match C with [] => b0 | f :: _ => f_b f end.
Definition f_cs (f : frame) (t : trie) : list (N * trie) := f_l f ++ (f_b f, t) :: f_r f.

(** A stack entry for frame [f] of a node stored under byte [b], the hole filled with [t]. *)
Record pos_ok (b : N) (f : frame) (t : trie) (p : position) : Prop := {
  po_node : pos_node p = enc b (fill f t);
  po_kids : kids (f_full f) (f_cs f t) (pos_k p) = f_r f;
  po_le : (pos_k p <= ncount (f_full f) (length (f_cs f t)))%nat;
  po_head : child_at (f_full f) (f_cs f t) (pos_k p) = head (f_r f);
  po_more : pos_more p = match f_r f with [] => false | _ => true end;
  po_lt : (pos_k p <? ncount (f_full f) (length (f_cs f t)))%nat = pos_more p
}.

Inductive stk (b0 : N) : ctx -> trie -> list position -> Prop :=
| stk_nil t : stk b0 [] t []
| stk_cons f C t p st : pos_ok (hb b0 C) f t p -> stk b0 C (fill f t) st -> stk b0 (f :: C) t (p :: st).

Lemma stk_snoc b0 C : forall f t st, stk b0 (C ++ [f]) t st <->
  exists st' p, st = st' ++ [p] /\ stk (f_b f) C t st' /\ pos_ok b0 f (plug C t) p.
Proof.
  induction C as [|g C IH]; intros f t st; simpl.
  - split.
    + intros H. inversion H as [|? ? ? p st2 Hp H2]; subst. inversion H2; subst. exists [], p. split_and!; [done|constructor|done].
    + intros (st' & p & -> & H & Hp). inversion H; subst. simpl. constructor; [done|constructor].
  - split.
    + intros H. inversion H as [|? ? ? p st2 Hp H2]; subst. apply IH in H2 as (st' & q & -> & H2 & Hq).
      exists (p :: st'), q. split_and!; [done| |done]. constructor; [|done]. by destruct C.
    + intros (st' & p & -> & H & Hp). inversion H as [|? ? ? q st2 Hq H2]; subst. simpl. constructor; [by destruct C|].
      apply IH. eauto.
Qed.

(** Nodes still to be visited to the right of the hole. *)
Fixpoint rnodes (C : ctx) : nat := match C with [] => O | f :: C' => (nsum (f_r f) + rnodes C')%nat end.

Lemma rnodes_bound C : forall t, (nnodes t + rnodes C + length C <= nnodes (plug C t))%nat.
Proof.
  induction C as [|f C IH]; intros t; simpl; [lia|]. specialize (IH (fill f t)). unfold fill in IH at 1.
  rewrite nnodes_node, nsum_app, nsum_cons in IH. lia.
Qed.

Lemma nsum_kids full cs k : (nsum (kids full cs k) <= nsum cs)%nat.
Proof.
  unfold kids. destruct full.
  - induction cs as [|[b c] cs IH]; [done|]. rewrite filter_cons. destruct (decide _); rewrite ?nsum_cons; lia.
  - rewrite <- (take_drop k cs) at 2. rewrite nsum_app. lia.
Qed.

Lemma path_snoc C f : path_of (C ++ [f]) = f_pfx f ++ [f_b f] ++ path_of C.
Proof. induction C as [|g C IH]; simpl; [done|]. rewrite IH. simpl. by rewrite <- !app_assoc. Qed.

Lemma cright_snoc C f : cright (C ++ [f]) = cright C ++ kvals (f_r f).
Proof. induction C as [|g C IH]; simpl; [by rewrite app_nil_r|]. rewrite IH. by rewrite <- !app_assoc. Qed.

Lemma plug_node C : forall t, is_leaf t = false -> is_leaf (plug C t) = false.
Proof. induction C as [|f C IH]; intros t Ht; simpl; [done|by apply IH]. Qed.

(** The greatest child is a leaf. *)
Definition ends_leaf (cs : list (N * trie)) : bool := match last cs with Some c => is_leaf c.2 | None => false end.

Section Iter.
Context (K : list N -> Prop) (fetch : N -> list N) (s : tree) (L : list (N * nat)) (Ha : alloc_inv s L).
Local Notation sound := (sound K fetch s L).

(** The next position in a node after the child at slot [i]. *)
Lemma pos_next b f t i (nx : nat) : sound (fill f t) -> b < 256 -> slot_idx (f_full f) (f_b f) (length (f_l f)) = N.of_nat i ->
  nx = (if f_full f then next_nonzero (t_mem s) (nbase (f_a f) (f_pfx f)) (S i) (ncount (f_full f) (length (f_cs f t)) - S i) else S i) ->
  pos_ok b f t (Pos (enc b (fill f t)) nx (nx <? ncount (f_full f) (length (f_cs f t)))%nat).
Proof.
  intros Hs Hb Hi ->. pose proof (sound_sbytes K fetch s L _ _ _ _ Hs) as Hsb.
  destruct (child_at_frame (f_full f) _ _ _ _ Hsb) as (H1 & H2 & H3 & H4). rewrite Hi, Nat2N.id in *.
  destruct (next_nonzero_spec K fetch s L Ha (f_full f) (f_a f) (f_pfx f) (f_cs f t) (ncount (f_full f) (length (f_cs f t)) - S i) Hs (S i)) as (N1 & N2 & N3 & N4).
  { unfold f_cs in *. lia. }
  fold (f_cs f t) in *. rewrite H2 in *. destruct (f_full f) eqn:Ef.
  - split; cbn [pos_node pos_k pos_more]; rewrite ?Ef; [done|done|lia|done|done|done].
  - assert (E : (S i <? ncount false (length (f_cs f t)))%nat = match f_r f with [] => false | _ => true end).
    { unfold kids, ncount in *. destruct (Nat.ltb_spec (S i) (length (f_cs f t))).
      + destruct (f_r f); [|done]. apply (f_equal length) in H2. rewrite drop_length in H2. simpl in H2. lia.
      + rewrite drop_ge in H2 by lia. by rewrite <- H2. }
    split; cbn [pos_node pos_k pos_more]; rewrite ?Ef; [done|done|lia| |done|done].
    pose proof (kids_step false (f_cs f t) (S i) Hsb) as Hst. unfold kids at 1 in Hst. unfold child_at in *.
    destruct (f_cs f t !! S i) as [c|] eqn:Ec.
    + unfold kids in H2. by rewrite (drop_S _ _ _ Ec) in H2; rewrite <- H2.
    + apply lookup_ge_None in Ec. unfold kids in H2. rewrite drop_ge in H2 by lia. by rewrite <- H2.
Qed.

Lemma leaf_kids_app full cs k ls rest : kids full cs k = ls ++ rest -> kvals (kids full cs k) = kvals ls ++ kvals rest.
Proof. intros ->. apply kvals_app. Qed.

(** The resume key computed from the stack: the path to the next child of its top entry. *)
Lemma resume_ok C' : forall b0 j f t st b c r, stk b0 (f :: C') t st -> b0 < 256 -> sound (plug (f :: C') t) -> f_r f = (b, c) :: r ->
  resume_key s j (rev st) = Ok ((if (0 <? j)%nat then [b0] else []) ++
    path_of (Frame (f_full f) (f_a f) (f_pfx f) (f_l f ++ [(f_b f, t)]) b r :: C')).
Proof.
  induction C' as [|g C' IH] using rev_ind; intros b0 j f t st b c r Hst Hb0 Hs Hr.
  - inversion Hst as [|? ? ? p st2 Hp H2]; subst. inversion H2; subst. simpl in Hs. unfold fill in Hs. simpl rev.
    cbn [resume_key]. destruct p as [w nx mo]. destruct Hp as [P1 P2 P3 P4 P5 _]. cbn [hb pos_node pos_k pos_more] in P1, P2, P3, P4, P5. subst w. cbn [pos_node pos_k].
    unfold fill. rewrite (sound_explode K fetch s L Ha _ _ _ _ _ Hs Hb0). pose proof (sound_view K fetch s L Ha _ _ _ _ Hs) as Hv.
    rewrite (v_data _ _ _ _ _ Hv). cbn [bind]. rewrite (v_append _ _ _ _ _ Hv). cbn [bind].
    unfold f_cs in *. replace (head (f_r f)) with (Some (b, c)) in P4 by (by rewrite Hr).
    assert (Hnx : (nx < ncount (f_full f) (length (f_l f ++ (f_b f, t) :: f_r f)))%nat).
    { rewrite Hr in P5, P2. destruct (decide (nx = ncount (f_full f) (length (f_l f ++ (f_b f, t) :: f_r f)))) as [->|]; [|lia].
      rewrite kids_end in P2; [done| |]; [|rewrite Hr; lia]. rewrite <- Hr. by eapply sound_sbytes. }
    pose proof (v_fit _ _ _ _ _ Hv) as Hfit. unfold nslots in Hfit. unfold sl_get. cbn [sl_len sl_base].
    rewrite (proj2 (N.ltb_lt _ _)) by lia. cbn [bind]. rewrite Nat2N.inj_add, N.add_assoc. fold (nbase (f_a f) (f_pfx f)).
    rewrite (slot_read K fetch s L _ _ _ _ _ Hs Hnx). unfold slotw. rewrite P4.
    assert (Hin : (b, c) ∈ f_l f ++ (f_b f, t) :: f_r f) by (rewrite Hr; apply elem_of_app; right; right; left).
    destruct (sound_child K fetch s L _ _ _ _ _ _ Hs Hin) as [Hc Hbc]. destruct (sound_enc K fetch s L Ha c b Hc Hbc) as (-> & _).
    simpl. by rewrite <- app_assoc.
  - change (f :: C' ++ [g]) with ((f :: C') ++ [g]) in Hst, Hs. apply stk_snoc in Hst as (st' & p & -> & Hst & Hp).
    rewrite plug_app in Hs. cbn [plug] in Hs. change (plug C' (fill f t)) with (plug (f :: C') t) in *.
    assert (Hs' := Hs). unfold fill in Hs'.
    destruct (sound_child K fetch s L _ _ _ _ (f_b g) (plug (f :: C') t) Hs') as [Hc Hbc]; [apply elem_of_app; right; left|].
    rewrite rev_app_distr. simpl rev at 1. cbn [app resume_key]. rewrite (po_node _ _ _ _ Hp). unfold fill.
    rewrite (sound_explode K fetch s L Ha _ _ _ _ _ Hs' Hb0). pose proof (sound_view K fetch s L Ha _ _ _ _ Hs') as Hv.
    rewrite (v_data _ _ _ _ _ Hv). cbn [bind]. rewrite (v_append _ _ _ _ _ Hv). cbn [bind].
    destruct (rev st') as [|q rs] eqn:E.
    { exfalso. apply (f_equal length) in E. rewrite rev_length in E. inversion Hst; subst. done. }
    rewrite <- E. rewrite (IH (f_b g) (S j) f t st' b c r Hst Hbc Hc Hr). cbn [bind].
    change (Frame (f_full f) (f_a f) (f_pfx f) (f_l f ++ [(f_b f, t)]) b r :: C' ++ [g])
      with ((Frame (f_full f) (f_a f) (f_pfx f) (f_l f ++ [(f_b f, t)]) b r :: C') ++ [g]).
    rewrite path_snoc. change (0 <? S j)%nat with true. simpl. by rewrite <- !app_assoc.
Qed.

Lemma trim_ok b0 C : forall t st, stk b0 C t st -> C <> [] -> is_leaf t = false -> exists f C2 t2, stk b0 (f :: C2) t2 (trim_stack st) /\
  plug (f :: C2) t2 = plug C t /\ cright (f :: C2) = cright C /\ is_leaf t2 = false /\ (f_r f <> [] \/ C2 = [] /\ f_r f = []).
Proof.
  induction C as [|f C IH]; intros t st Hst Hne Hl; [done|]. inversion Hst as [|? ? ? p st2 Hp H2]; subst.
  destruct C as [|g C].
  - inversion H2; subst. exists f, [], t. split_and!; [done|done|done|done|]. destruct (f_r f); [by right|by left].
  - inversion H2 as [|? ? ? q st3 Hq H3]; subst.
    change (trim_stack (p :: q :: st3)) with (if pos_more p then p :: q :: st3 else trim_stack (q :: st3)).
    rewrite (po_more _ _ _ _ Hp). destruct (f_r f) as [|x r] eqn:Er.
    + destruct (IH _ _ H2) as (f' & C2 & t2 & E1 & E2 & E3 & E4 & E5); [done|done|]. exists f', C2, t2. split_and!; try done.
      rewrite E3. simpl. by rewrite Er.
    + exists f, (g :: C), t. split_and!; try done. left. by rewrite Er.
Qed.

(** The resume key of a bottom entry that is exhausted reads past the children. *)
Lemma resume_past b0 f t st : stk b0 [f] t st -> b0 < 256 -> sound (fill f t) -> f_r f = [] ->
  resume_key s 0 (rev st) =
    if N.of_nat (nslots (f_full f) (f_pfx f) (length (f_cs f t))) <? dlen (f_a f)
    then Ok (f_pfx f ++ [to_byte (mget (t_mem s) (f_a f + N.of_nat (nslots (f_full f) (f_pfx f) (length (f_cs f t)))))])
    else Panic OutOfRange.
Proof.
  intros Hst Hb0 Hs Hr. inversion Hst as [|? ? ? p st2 Hp H2]; subst. inversion H2; subst. simpl rev. cbn [resume_key].
  rewrite (po_node _ _ _ _ Hp). cbn [hb]. unfold fill in *. rewrite (sound_explode K fetch s L Ha _ _ _ _ _ Hs Hb0).
  pose proof (sound_view K fetch s L Ha _ _ _ _ Hs) as Hv. rewrite (v_data _ _ _ _ _ Hv). cbn [bind]. rewrite (v_append _ _ _ _ _ Hv). cbn [bind].
  assert (Ek : pos_k p = ncount (f_full f) (length (f_cs f t))).
  { destruct Hp as [_ _ P3 _ P5 P6]. rewrite P5, Hr in P6. apply Nat.ltb_ge in P6. lia. }
  rewrite Ek. unfold nslots, sl_get. cbn [sl_len sl_base]. destruct (_ <? _); [|done]. cbn [bind]. simpl. done.
Qed.

(** Where the scan stands: the hole of context [C] holds the node [t], whose children from
    slot [k] on are still to be visited. *)
Definition rest_of (C : ctx) (t : trie) (k : nat) : list (list N * N) :=
  match t with Leaf _ _ => [] | Node full _ _ cs => kvals (kids full cs k) end ++ cright C.

Definition todo_nodes (C : ctx) (t : trie) (k : nat) : nat :=
  match t with Leaf _ _ => O | Node full _ _ cs => nsum (kids full cs k) end.

(** Outcomes of the scan over [rest], started with [pre]. *)
Inductive scanned (t0 : trie) (pre resume : list N) (rest : list (list N * N)) : res (list N * bool * list N * list position) -> Prop :=
| scan_done : scanned t0 pre resume rest (Ok (pre ++ map snd rest, true, resume, []))
| scan_cut r1 r2 G c st : rest = r1 ++ r2 -> (256 < length (pre ++ map snd r1))%nat -> plug G c = t0 -> G <> [] ->
    r2 = contents c ++ cright G -> scanned t0 pre resume rest (Ok (pre ++ map snd r1, false, path_of G, st))
| scan_past full a pfx cs r st : t0 = Node full a pfx cs -> ends_leaf cs = false -> (256 < length (pre ++ map snd rest))%nat ->
    N.of_nat (nslots full pfx (length cs)) < dlen a ->
    scanned t0 pre resume rest (Ok (pre ++ map snd rest, false, r, st))
| scan_panic full a pfx cs : t0 = Node full a pfx cs -> ends_leaf cs = false -> (256 < length (pre ++ map snd rest))%nat ->
    dlen a <= N.of_nat (nslots full pfx (length cs)) ->
    scanned t0 pre resume rest (Panic OutOfRange).

Lemma scanned_app t0 pre resume vs rest x : scanned t0 (pre ++ map snd vs) resume rest x -> scanned t0 pre resume (vs ++ rest) x.
Proof.
  intros H. inversion H; subst.
  - rewrite <- app_assoc, <- map_app. apply scan_done.
  - rewrite <- app_assoc, <- map_app in *. eapply scan_cut; [|done..]. by rewrite <- app_assoc.
  - rewrite <- app_assoc, <- map_app in *. by eapply scan_past.
  - rewrite <- app_assoc, <- map_app in *. by eapply scan_panic.
Qed.

Lemma scan_loop_ok b0 t0 resume : b0 < 256 -> sound t0 -> forall fuel C full a pfx cs k st pre,
  plug C (Node full a pfx cs) = t0 -> stk b0 C (Node full a pfx cs) st -> (k <= ncount full (length cs))%nat ->
  (2 * (nsum (kids full cs k) + rnodes C) + length C < fuel)%nat ->
  scanned t0 pre resume (kvals (kids full cs k) ++ cright C)
    (scan_loop fuel s (enc (hb b0 C) (Node full a pfx cs)) k st pre resume).
Proof.
  intros Hb0 Hs0. induction fuel as [|fuel IH]; intros C full a pfx cs k st pre Hpl Hst Hk Hf; [lia|].
  assert (Hs : sound (Node full a pfx cs)) by (apply (sound_plug K fetch s L C); by rewrite Hpl).
  assert (Hb : hb b0 C < 256).
  { destruct C as [|f C]; [done|]. simpl. simpl in Hpl. rewrite <- Hpl in Hs0. apply sound_plug in Hs0.
    apply sound_sbytes in Hs0. by apply sbytes_mid in Hs0 as (? & _). }
  cbn [scan_loop]. rewrite (sound_explode K fetch s L Ha _ _ _ _ _ Hs Hb). pose proof (sound_view K fetch s L Ha _ _ _ _ Hs) as Hv.
  rewrite (v_data _ _ _ _ _ Hv). cbn [bind]. rewrite (v_skip _ _ _ _ _ Hv). cbn [bind sl_base].
  rewrite (v_upto _ _ _ _ _ Hv).
  replace (if (k <? ncount full (length cs))%nat then Ok tt else Ok tt) with (@Ok unit tt) by (by destruct (k <? _)%nat). cbn [bind].
  destruct (sound_count K fetch s L _ _ _ _ Hs) as [Hn ->]. fold (nbase a pfx).
  destruct (scan_children_spec K fetch s L Ha full a pfx cs (ncount full (length cs) - k) Hs k pre ltac:(lia)) as (ls & o & E & rest & H1 & H2 & H3).
  rewrite E. rewrite H1 in Hf |- *. rewrite kvals_app, <- app_assoc. apply scanned_app. rewrite nsum_app, (leaves_nsum ls H2) in Hf.
  pose proof (sound_sbytes K fetch s L _ _ _ _ Hs) as Hsb. set (pre1 := pre ++ map snd (kvals ls)).
  destruct rest as [|[b' t'] r].
  - subst o. change (kvals []) with (@nil (list N * N)). simpl app.
    inversion Hst as [tt EC Et Est|f C2 tt p st2 Hp H2' EC Et Est]; subst C st.
    + cbn [cright]. replace (Ok (pre1, true, resume, [])) with (Ok (pre1 ++ map snd (@nil (list N * N)), true, resume, @nil position)) by (by rewrite app_nil_r).
      apply scan_done.
    + change defaultPrefetchLength with 256%nat. destruct (Nat.ltb_spec 256 (length pre1)) as [Hlt|Hge].
      * destruct (trim_ok _ _ _ _ Hst) as (f' & D & t2 & D1 & D2 & D3 & Dl & D4); [done|done|].
        destruct D4 as [Hfr|[-> Hfr]].
        -- destruct (f_r f') as [|[b c] r] eqn:Er; [done|].
           rewrite (resume_ok D b0 0 f' t2 _ b c r D1 Hb0); [|by rewrite D2, Hpl|done]. cbn [bind].
           change (0 <? 0)%nat with false. cbn [app]. change (false) with false.
           replace pre1 with (pre1 ++ map snd (@nil (list N * N))) at 2 by apply app_nil_r.
           eapply (scan_cut _ _ _ _ [] _ _ c); [done|by rewrite app_nil_r| |done|].
           ++ rewrite <- Hpl, <- D2. simpl. f_equal. unfold fill. simpl. rewrite Er, <- app_assoc. done.
           ++ simpl. rewrite Er, bind_cons, <- app_assoc. done.
        -- assert (Ec : cright (f :: C2) = []) by (rewrite <- D3; simpl; by rewrite Hfr).
           rewrite Ec. simpl in D2. rewrite (resume_past b0 f' t2 _ D1 Hb0); [| |done].
           2:{ change (sound (plug [f'] t2)). simpl. rewrite D2. by rewrite <- Hpl in Hs0. }
           simpl in Hpl. rewrite <- D2 in Hpl. unfold fill in Hpl.
           assert (Hel : ends_leaf (f_l f' ++ (f_b f', t2) :: f_r f') = false) by (rewrite Hfr; unfold ends_leaf; by rewrite last_snoc).
           destruct (N.ltb_spec (N.of_nat (nslots (f_full f') (f_pfx f') (length (f_cs f' t2)))) (dlen (f_a f'))) as [Hx|Hx].
           ++ cbn [bind]. replace pre1 with (pre1 ++ map snd (@nil (list N * N))) at 2 by apply app_nil_r.
              eapply scan_past; [done|done|by rewrite app_nil_r|done].
           ++ cbn [bind]. eapply scan_panic; [done|done|by rewrite app_nil_r|done].
      * rewrite (po_node _ _ _ _ Hp).
        pose proof (IH C2 (f_full f) (f_a f) (f_pfx f) (f_cs f (Node full a pfx cs)) (pos_k p) st2 pre1 Hpl H2' (po_le _ _ _ _ Hp)) as Hx.
        rewrite (po_kids _ _ _ _ Hp) in Hx. apply Hx. simpl in Hf. lia.
  - destruct H3 as (Hnl & i & -> & Hci & Hki & Hi). pose proof (child_at_elem _ _ _ _ _ Hci) as Hin.
    destruct (sound_child K fetch s L _ _ _ _ _ _ Hs Hin) as [Hsc Hbc]. destruct t' as [|full' a' pfx' cs']; [done|].
    destruct (child_frame _ _ _ _ _ Hsb Hci) as (l & El & Ei). rewrite Hki in El.
    set (f := Frame full a pfx l b' r).
    assert (Ef : Node full a pfx cs = fill f (Node full' a' pfx' cs')) by (unfold fill, f; simpl; by rewrite El).
    rewrite kvals_cons, contents_node. change (cs' ≫= fun c => contents c.2) with (kvals cs').
    replace (kvals cs') with (kvals (kids full' cs' 0)) by (by rewrite kids_0). rewrite <- app_assoc. change (kvals r ++ cright C) with (cright (f :: C)).
    apply (IH (f :: C)).
    + simpl. rewrite <- Ef. done.
    + constructor; [|by rewrite <- Ef]. rewrite Ef.
      replace (length cs) with (length (f_cs f (Node full' a' pfx' cs'))) by (unfold f_cs, f; simpl; by rewrite El).
      apply pos_next with (i := i); [by rewrite <- Ef|done|done|done].
    + lia.
    + simpl. rewrite kids_0. rewrite nsum_cons, nnodes_node in Hf. lia.
Qed.

(** ** Walking down the resume key *)

Lemma find_byte_spec a pfx l b c r : sound (Node false a pfx (l ++ (b, c) :: r)) -> forall n i,
  (i + n = length (l ++ (b, c) :: r))%nat -> (i <= length l)%nat ->
  find_byte (t_mem s) (nbase a pfx) b i n = Some (length l, enc b c).
Proof.
  intros Hs. pose proof (sound_sbytes K fetch s L _ _ _ _ Hs) as Hsb. induction n as [|n IH]; intros i Hi Hl.
  { rewrite app_length in Hi. simpl in Hi. lia. }
  cbn [find_byte]. rewrite (slot_read K fetch s L false a pfx _ i Hs) by (simpl; lia). unfold slotw, child_at.
  destruct (decide (i = length l)) as [->|Hne].
  - rewrite list_lookup_middle by done.
    destruct (sound_child K fetch s L _ _ _ _ b c Hs) as [Hc Hb]; [apply elem_of_app; right; left|].
    destruct (sound_enc K fetch s L Ha c b Hc Hb) as (-> & _). by rewrite N.eqb_refl.
  - rewrite lookup_app_l by lia. destruct (lookup_lt_is_Some_2 l i ltac:(lia)) as [[b' c'] E]. rewrite E.
    destruct (sound_child K fetch s L _ _ _ _ b' c' Hs) as [Hc Hb]; [apply elem_of_app; left; by eapply elem_of_list_lookup_2|].
    destruct (sound_enc K fetch s L Ha c' b' Hc Hb) as (-> & _).
    destruct Hsb as [Hss _]. rewrite map_app in Hss. simpl in Hss. apply SSorted_app in Hss as (_ & _ & Hlt).
    specialize (Hlt b' b ltac:(apply elem_of_list_fmap; exists (b', c'); split; [done|by eapply elem_of_list_lookup_2]) ltac:(left)).
    rewrite (proj2 (N.eqb_neq _ _)) by lia. apply IH; lia.
Qed.

Lemma pre_loop_ok G : forall b0 pk st0 fuel c, b0 < 256 -> sound (plug G c) -> is_leaf (plug G c) = false -> (length G < fuel)%nat ->
  exists C full a pfx cs k st', pre_loop fuel s (pk ++ path_of G) (length pk) (enc b0 (plug G c)) st0 =
      Ok (enc (hb b0 C) (Node full a pfx cs), k, st' ++ st0) /\
    plug C (Node full a pfx cs) = plug G c /\ stk b0 C (Node full a pfx cs) st' /\ (k <= ncount full (length cs))%nat /\
    kvals (kids full cs k) ++ cright C = contents c ++ cright G.
Proof.
  induction G as [|f G IH] using rev_ind; intros b0 pk st0 fuel c Hb0 Hs Hl Hf; (destruct fuel as [|fuel]; [lia|]).
  - simpl plug in *. destruct c as [|full a pfx cs]; [done|]. exists [], full, a, pfx, cs, 0%nat, [].
    cbn [path_of pre_loop]. rewrite app_nil_r, (proj2 (Nat.leb_le _ _)) by lia. split_and!; [done|done|constructor|lia|].
    rewrite kids_0. done.
  - rewrite plug_app in *. cbn [plug] in *. rewrite app_length in Hf. simpl in Hf. unfold fill in Hs, Hl |- *.
    pose proof (sound_view K fetch s L Ha _ _ _ _ Hs) as Hv. pose proof (sound_sbytes K fetch s L _ _ _ _ Hs) as Hsb.
    rewrite path_snoc. cbn [pre_loop]. rewrite (proj2 (Nat.leb_gt _ _)) by (rewrite !app_length; simpl; lia).
    rewrite (sound_explode K fetch s L Ha _ _ _ _ _ Hs Hb0). rewrite (v_data _ _ _ _ _ Hv). cbn [bind]. rewrite (v_skip _ _ _ _ _ Hv). cbn [bind sl_base].
    rewrite (proj2 (Nat.leb_gt _ _)) by (rewrite !app_length; simpl; lia).
    rewrite (key_at_Some _ _ (f_b f)).
    2:{ apply prefix_next with (b := f_b f). exists (path_of G). by rewrite <- !app_assoc. }
    cbn [bind]. destruct (sound_count K fetch s L _ _ _ _ Hs) as [Hn ->].
    destruct (child_at_frame (f_full f) _ _ _ _ Hsb) as (F1 & F2 & F3 & F4).
    set (i := N.to_nat (slot_idx (f_full f) (f_b f) (length (f_l f)))) in *.
    destruct (sound_child K fetch s L _ _ _ _ (f_b f) (plug G c) Hs) as [Hc Hbf]; [apply elem_of_app; right; left|].
    destruct (sound_enc K fetch s L Ha _ _ Hc Hbf) as (E1 & E2 & E3).
    assert (Hslot : mget (t_mem s) (nbase (f_a f) (f_pfx f) + N.of_nat i) = enc (f_b f) (plug G c)).
    { rewrite (slot_read K fetch s L _ _ _ _ i Hs) by done. unfold slotw. by rewrite F1. }
    (* the child is a leaf: stop here *)
    assert (Hstop : is_leaf (plug G c) = true -> exists C full a pfx cs k st',
      Ok (enc b0 (Node (f_full f) (f_a f) (f_pfx f) (f_l f ++ (f_b f, plug G c) :: f_r f)), i, st0) = Ok (enc (hb b0 C) (Node full a pfx cs), k, st' ++ st0) /\
      plug C (Node full a pfx cs) = Node (f_full f) (f_a f) (f_pfx f) (f_l f ++ (f_b f, plug G c) :: f_r f) /\
      stk b0 C (Node full a pfx cs) st' /\ (k <= ncount full (length cs))%nat /\
      kvals (kids full cs k) ++ cright C = contents c ++ cright (G ++ [f])).
    { intros Hlf. assert (G = []) as ->.
      { destruct G as [|g G]; [done|]. simpl in Hlf. by rewrite plug_node in Hlf. }
      simpl plug in *. exists [], (f_full f), (f_a f), (f_pfx f), (f_l f ++ (f_b f, c) :: f_r f), i, [].
      split_and!; [done|done|constructor|lia|]. rewrite F3, kvals_cons. simpl. rewrite !app_nil_r. done. }
    (* the child is a node: push and go on *)
    assert (Hgo : forall q, is_leaf (plug G c) = false -> pos_ok b0 f (plug G c) q ->
      exists C full a pfx cs k st',
      pre_loop fuel s (pk ++ f_pfx f ++ [f_b f] ++ path_of G) (S (length pk + length (f_pfx f))) (enc (f_b f) (plug G c))
        (q :: st0) =
        Ok (enc (hb b0 C) (Node full a pfx cs), k, st' ++ st0) /\
      plug C (Node full a pfx cs) = Node (f_full f) (f_a f) (f_pfx f) (f_l f ++ (f_b f, plug G c) :: f_r f) /\
      stk b0 C (Node full a pfx cs) st' /\ (k <= ncount full (length cs))%nat /\
      kvals (kids full cs k) ++ cright C = contents c ++ cright (G ++ [f])).
    { intros q Hlf Hp.
      destruct (IH (f_b f) (pk ++ f_pfx f ++ [f_b f]) (q :: st0) fuel c Hbf Hc Hlf ltac:(lia))
        as (C & full & a & pfx & cs & k & st' & X1 & X2 & X3 & X4 & X5).
      exists (C ++ [f]), full, a, pfx, cs, k, (st' ++ [q]).
      split_and!.
      - rewrite <- app_assoc. replace (pk ++ f_pfx f ++ [f_b f] ++ path_of G) with ((pk ++ f_pfx f ++ [f_b f]) ++ path_of G) by (by rewrite <- !app_assoc).
        replace (S (length pk + length (f_pfx f))) with (length (pk ++ f_pfx f ++ [f_b f])) by (rewrite !app_length; simpl; lia).
        rewrite X1. simpl. do 3 f_equal. by destruct C.
      - rewrite plug_app, X2. done.
      - apply stk_snoc. do 2 eexists. split; [done|]. split; [done|]. by rewrite X2.
      - done.
      - rewrite !cright_snoc. rewrite !app_assoc, X5. done. }
    destruct (f_full f) eqn:Ef.
    + change (N.to_nat (f_b f)) with i. rewrite (view_get _ _ _ _ _ i Hv F4). cbn [bind]. fold (nbase (f_a f) (f_pfx f)).
      rewrite Hslot, E1, N.eqb_refl, (proj2 (N.eqb_neq _ _)) by done. cbn [negb andb]. rewrite E2.
      destruct (is_leaf (plug G c)) eqn:Elf; [by apply Hstop|]. unfold nbase at 1. rewrite (v_upto _ _ _ _ _ Hv). cbn [bind].
      apply Hgo; [done|]. assert (Hx : sound (fill f (plug G c))) by (unfold fill; by rewrite Ef).
      assert (Hi : slot_idx (f_full f) (f_b f) (length (f_l f)) = N.of_nat i) by (rewrite Ef; unfold i; by rewrite N2Nat.id).
      pose proof (pos_next b0 f _ i _ Hx Hb0 Hi eq_refl) as Hp. rewrite Ef in Hp. unfold fill in Hp. rewrite Ef in Hp. exact Hp.
    + rewrite (v_upto _ _ _ _ _ Hv). cbn [bind]. fold (nbase (f_a f) (f_pfx f)).
      rewrite (find_byte_spec _ _ _ _ _ _ Hs) by (simpl; lia). rewrite E2. 
      destruct (is_leaf (plug G c)) eqn:Elf.
      { replace (length (f_l f)) with i by (unfold i, slot_idx; by rewrite Nat2N.id). by apply Hstop. }
      apply Hgo; [done|]. assert (Hx : sound (fill f (plug G c))) by (unfold fill; by rewrite Ef).
      assert (Hi : slot_idx (f_full f) (f_b f) (length (f_l f)) = N.of_nat (length (f_l f))) by (by rewrite Ef).
      pose proof (pos_next b0 f _ _ _ Hx Hb0 Hi eq_refl) as Hp. rewrite Ef in Hp. unfold fill in Hp. rewrite Ef in Hp. exact Hp.
Qed.
End Iter.
