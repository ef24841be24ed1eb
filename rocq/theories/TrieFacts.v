(** * TrieFacts: frame lemmas for representation and well-formedness under contexts. *)
From Verif Require Export Trie.

(** ** Small list facts *)

Lemma elem_of_cover x l : x ∈ cover l <-> exists r, r ∈ l /\ x ∈ seqN r.1 r.2.
Proof. unfold cover. rewrite elem_of_list_bind. naive_solver. Qed.

Lemma cover_app l1 l2 : cover (l1 ++ l2) = cover l1 ++ cover l2.
Proof. apply bind_app. Qed.

Lemma cover_cons r l : cover (r :: l) = seqN r.1 r.2 ++ cover l.
Proof. done. Qed.

Global Instance cover_perm : Proper ((≡ₚ) ==> (≡ₚ)) cover.
Proof. intros l1 l2 E. unfold cover. by rewrite E. Qed.

Lemma agree_app m m' l1 l2 : agree m m' (l1 ++ l2) <-> agree m m' l1 /\ agree m m' l2.
Proof. unfold agree. setoid_rewrite elem_of_app. naive_solver. Qed.

Lemma agree_sub m m' l1 l2 : agree m m' l2 -> (forall x, x ∈ l1 -> x ∈ l2) -> agree m m' l1.
Proof. unfold agree. naive_solver. Qed.

Lemma agree_perm m m' l1 l2 : l1 ≡ₚ l2 -> agree m m' l1 -> agree m m' l2.
Proof. intros E H x Hx. apply H. by rewrite E. Qed.

(** [cs1 ≫= regs] agreement, for lists of children. *)
Lemma agree_bind_regs m m' (cs : list (N * trie)) c :
  agree m m' (cover (cs ≫= fun c => regs c.2)) -> c ∈ cs -> agree m m' (cover (regs c.2)).
Proof.
  intros H Hc. eapply agree_sub; [done|]. intros x (r & Hr & Hx)%elem_of_cover.
  apply elem_of_cover. exists r. split; [|done]. apply elem_of_list_bind. eauto.
Qed.

(** ** Assoc *)

Lemma assoc_app_l {A} b (l r : list (N * A)) : b ∈ map fst l -> assoc b (l ++ r) = assoc b l.
Proof.
  induction l as [|[b' x] l IH]; simpl; [by intros ?%elem_of_nil|].
  intros [->|H]%elem_of_cons; [by rewrite N.eqb_refl|].
  destruct (b =? b'); auto.
Qed.

Lemma assoc_app_r {A} b (l r : list (N * A)) : b ∉ map fst l -> assoc b (l ++ r) = assoc b r.
Proof.
  induction l as [|[b' x] l IH]; simpl; [done|].
  intros H. apply not_elem_of_cons in H as [H1 H2].
  rewrite (proj2 (N.eqb_neq _ _)) by done. auto.
Qed.

Lemma assoc_None {A} b (l : list (N * A)) : assoc b l = None <-> b ∉ map fst l.
Proof.
  induction l as [|[b' x] l IH]; simpl; [split; [intros _; apply not_elem_of_nil|done]|].
  rewrite not_elem_of_cons. destruct (N.eqb_spec b b'); naive_solver.
Qed.

Lemma assoc_Some_elem {A} b (l : list (N * A)) x : assoc b l = Some x -> (b, x) ∈ l.
Proof.
  induction l as [|[b' y] l IH]; simpl; [done|].
  destruct (N.eqb_spec b b') as [->|]; [intros [= ->]; left|right; auto].
Qed.

Lemma assoc_elem {A} b x (l : list (N * A)) : NoDup (map fst l) -> (b, x) ∈ l -> assoc b l = Some x.
Proof.
  induction l as [|[b' y] l IH]; simpl; [by intros _ ?%elem_of_nil|].
  intros [Hn Hd]%NoDup_cons [[= -> ->]|Hin]%elem_of_cons; [by rewrite N.eqb_refl|].
  destruct (N.eqb_spec b b') as [->|]; [|auto].
  exfalso. apply Hn. apply elem_of_list_fmap. by exists (b', x).
Qed.

Lemma assoc_split {A} b (l : list (N * A)) x : assoc b l = Some x ->
  exists l1 l2, l = l1 ++ (b, x) :: l2 /\ b ∉ map fst l1.
Proof.
  induction l as [|[b' y] l IH]; simpl; [done|].
  destruct (N.eqb_spec b b') as [->|].
  - intros [= ->]. exists [], l. split; [done|apply not_elem_of_nil].
  - intros (l1 & l2 & -> & Hn)%IH. exists ((b', y) :: l1), l2. split; [done|].
    simpl. by apply not_elem_of_cons.
Qed.

Lemma assoc_map {A B} (f : N -> A -> B) b (l : list (N * A)) :
  assoc b (map (fun c => (c.1, f c.1 c.2)) l) = f b <$> assoc b l.
Proof.
  induction l as [|[b' x] l IH]; simpl; [done|].
  destruct (N.eqb_spec b b') as [->|]; simpl; auto.
Qed.

Lemma assoc_bws b cs : assoc b (bws cs) = enc b <$> assoc b cs.
Proof. apply assoc_map. Qed.

Lemma bws_app l r : bws (l ++ r) = bws l ++ bws r.
Proof. apply map_app. Qed.
Lemma bws_cons b t r : bws ((b, t) :: r) = (b, enc b t) :: bws r.
Proof. done. Qed.
Lemma bws_length l : length (bws l) = length l.
Proof. apply map_length. Qed.
Lemma bws_fst l : map fst (bws l) = map fst l.
Proof. unfold bws. rewrite map_map. done. Qed.

(** ** Sorted byte lists *)

Lemma SSorted_NoDup (l : list N) : StronglySorted N.lt l -> NoDup l.
Proof.
  induction 1 as [|x l _ IH Hx]; constructor; [|done].
  intros Hin. rewrite Forall_forall in Hx. specialize (Hx _ Hin). lia.
Qed.

Lemma SSorted_app (l1 l2 : list N) : StronglySorted N.lt (l1 ++ l2) <->
  StronglySorted N.lt l1 /\ StronglySorted N.lt l2 /\ (forall x y, x ∈ l1 -> y ∈ l2 -> x < y).
Proof.
  induction l1 as [|x l1 IH]; simpl.
  - split; [intros H; split_and!; [constructor|done|by intros ?? ?%elem_of_nil]|naive_solver].
  - split.
    + intros H. inversion H as [|?? H1 H2]; subst. apply IH in H1 as (? & ? & Hlt).
      rewrite Forall_app in H2. destruct H2 as [H2 H3]. rewrite !Forall_forall in *.
      split_and!; [constructor; [done|by apply Forall_forall]|done|].
      intros y z [->|Hy]%elem_of_cons Hz; auto.
    + intros (H1 & H2 & Hlt). inversion H1 as [|?? H3 H4]; subst. constructor.
      * apply IH. split_and!; try done. intros; apply Hlt; [by right|done].
      * apply Forall_app; split; [done|]. apply Forall_forall. intros y Hy. apply Hlt; [left|done].
Qed.

Lemma SSorted_cons x (l : list N) : StronglySorted N.lt (x :: l) <->
  StronglySorted N.lt l /\ (forall y, y ∈ l -> x < y).
Proof.
  split.
  - inversion 1 as [|?? H1 H2]; subst. by rewrite Forall_forall in H2.
  - intros [H1 H2]. constructor; [done|]. by apply Forall_forall.
Qed.

Lemma sbytes_mid {A} (l r : list (N * A)) b x : sbytes (l ++ (b, x) :: r) ->
  b < 256 /\ b ∉ map fst l /\ b ∉ map fst r.
Proof.
  intros [Hs Hb]. rewrite map_app in *. simpl in *.
  apply SSorted_app in Hs as (_ & Hs2 & Hlt). apply SSorted_cons in Hs2 as [_ Hlt2].
  apply Forall_app in Hb as [_ Hb]. inversion Hb; subst. split_and!; [done|..].
  - intros Hin. specialize (Hlt _ b Hin ltac:(left)). lia.
  - intros Hin. specialize (Hlt2 _ Hin). lia.
Qed.

Lemma sbytes_replace {A} (l r : list (N * A)) b x y :
  sbytes (l ++ (b, x) :: r) -> sbytes (l ++ (b, y) :: r).
Proof. unfold sbytes. by rewrite !map_app. Qed.

Lemma sbytes_NoDup {A} (l : list (N * A)) : sbytes l -> NoDup (map fst l).
Proof. intros [H _]. by apply SSorted_NoDup. Qed.

Lemma enc_lt64 b t : b < 256 -> enc b t < 18446744073709551616.
Proof. destruct t; simpl; [apply buildLeaf_lt64|apply buildNode_lt64]. Qed.

Lemma sbytes_bws cs : sbytes cs <-> sbytes (bws cs).
Proof. unfold sbytes. by rewrite bws_fst. Qed.

(** ** One node *)

Lemma node_mem_agree m m' full a pfx ws n : n = length ws ->
  node_mem m full a pfx ws -> agree m m' (seqN a (nslots full pfx n)) -> node_mem m' full a pfx ws.
Proof.
  intros -> [Hp Hw] Hag. split.
  - eapply prefix_at_agree; [done|]. eapply agree_sub; [done|]. intros x.
    rewrite !elem_of_seqN. unfold nslots. lia.
  - destruct full.
    + intros b Hb. rewrite Hag by (apply elem_of_seqN; unfold nslots, ncount; lia). auto.
    + rewrite <- Hw. apply mread_agree. eapply agree_sub; [done|]. intros x.
      rewrite !elem_of_seqN. unfold nslots, ncount. lia.
Qed.

Lemma node_mem_child m full a pfx l b w r :
  sbytes (l ++ (b, w) :: r) ->
  node_mem m full a pfx (l ++ (b, w) :: r) ->
  mget m (a + N.of_nat (prefix_slots (length pfx)) + slot_idx full b (length l)) = w.
Proof.
  intros Hs [_ Hw]. apply sbytes_mid in Hs as (Hb & Hl & Hr). destruct full; simpl.
  - rewrite Hw by done. rewrite assoc_app_r by done. simpl. by rewrite N.eqb_refl.
  - assert (H : map snd (l ++ (b, w) :: r) !! length l = Some w).
    { rewrite map_app, lookup_app_r by (rewrite map_length; lia). rewrite map_length, Nat.sub_diag. done. }
    rewrite <- Hw in H. rewrite mread_lookup in H by (rewrite app_length; simpl; lia). by injection H.
Qed.

Lemma node_mem_set m m' full a pfx l b w w' r :
  sbytes (l ++ (b, w) :: r) ->
  node_mem m full a pfx (l ++ (b, w) :: r) ->
  mget m' (a + N.of_nat (prefix_slots (length pfx)) + slot_idx full b (length l)) = w' ->
  (forall x, x ∈ seqN a (nslots full pfx (length (l ++ (b, w) :: r))) ->
     x <> a + N.of_nat (prefix_slots (length pfx)) + slot_idx full b (length l) -> mget m' x = mget m x) ->
  node_mem m' full a pfx (l ++ (b, w') :: r).
Proof.
  intros Hs [Hp Hw] Hw' Hag. apply sbytes_mid in Hs as (Hb & Hl & Hr). split.
  - eapply prefix_at_agree; [done|]. intros x Hx. rewrite elem_of_seqN in Hx.
    apply Hag; [apply elem_of_seqN; unfold nslots; lia|]. unfold slot_idx. destruct full; lia.
  - destruct full; simpl in *.
    + intros b' Hb'. destruct (decide (b' = b)) as [->|Hne].
      * rewrite assoc_app_r by done. simpl. by rewrite N.eqb_refl.
      * rewrite Hag; [|apply elem_of_seqN; unfold nslots; simpl; lia|lia].
        rewrite Hw by done. f_equal.
        destruct (decide (b' ∈ map fst l)); [by rewrite !assoc_app_l|].
        rewrite !assoc_app_r by done. simpl. by rewrite (proj2 (N.eqb_neq _ _)).
    + rewrite app_length in *. simpl in *.
      apply list_eq; intros i. destruct (decide (i < length l + S (length r))%nat) as [Hi|Hi].
      2:{ rewrite mread_lookup_ge by lia. symmetry. apply lookup_ge_None.
          rewrite map_length, app_length. simpl. lia. }
      rewrite mread_lookup by done. rewrite map_app. simpl.
      assert (Hold : map snd (l ++ (b, w) :: r) !! i =
                Some (mget m (a + N.of_nat (prefix_slots (length pfx)) + N.of_nat i))).
      { rewrite <- Hw. by rewrite mread_lookup. }
      rewrite map_app in Hold. simpl in Hold.
      destruct (decide (i = length l)) as [->|Hne].
      * rewrite lookup_app_r by (rewrite map_length; lia). rewrite map_length, Nat.sub_diag. simpl.
        by rewrite Hw'.
      * rewrite Hag; [|apply elem_of_seqN; unfold nslots, ncount; lia|lia].
        rewrite <- Hold. destruct (decide (i < length l)%nat).
        -- rewrite !lookup_app_l by (rewrite map_length; lia). done.
        -- rewrite !lookup_app_r by (rewrite map_length; lia). rewrite map_length.
           destruct (i - length l)%nat eqn:E; [lia|]. done.
Qed.

(** ** Agreement *)

Lemma rep_agree m m' t : rep m t -> agree m m' (cover (regs t)) -> rep m' t.
Proof.
  induction t as [k v|full a pfx cs IH] using trie_ind2; intros Hr Hag; [constructor|].
  apply rep_node_iff in Hr as [Hn Hc]. rewrite regs_node, cover_cons in Hag.
  apply agree_app in Hag as [Hag1 Hag2]. apply rep_node_iff. split.
  - eapply node_mem_agree; [|done|done]. by rewrite bws_length.
  - rewrite Forall_forall in *. intros c Hin. apply IH; [done|by apply Hc|].
    by eapply agree_bind_regs.
Qed.

Definition fword (C : ctx) (f : frame) : N := hole_word C (fill f (Leaf [] 0)).

Lemma hole_word_fill C f t : hole_word C (fill f t) = fword C f.
Proof.
  unfold fword, hole_word. destruct C; unfold fill; simpl; by rewrite !app_length.
Qed.

Fixpoint repC (m : mem) (C : ctx) (w : N) : Prop :=
  match C with
  | [] => True
  | f :: C' =>
    node_mem m (f_full f) (f_a f) (f_pfx f) (bws (f_l f) ++ (f_b f, w) :: bws (f_r f)) /\
    Forall (fun c => rep m c.2) (f_l f) /\ Forall (fun c => rep m c.2) (f_r f) /\
    repC m C' (fword C' f)
  end.

Lemma rep_plug m C t : rep m (plug C t) <-> repC m C (hole_word C t) /\ rep m t.
Proof.
  revert t; induction C as [|f C IH]; intros t; simpl; [naive_solver|].
  rewrite IH. rewrite hole_word_fill. unfold fill at 1. rewrite rep_node_iff, bws_app, bws_cons.
  rewrite Forall_app, Forall_cons. unfold hole_word; simpl. naive_solver.
Qed.

Lemma repC_agree m m' C w : repC m C w -> agree m m' (cover (cregs C)) -> repC m' C w.
Proof.
  revert w; induction C as [|f C IH]; intros w; simpl; [done|].
  intros (Hn & Hl & Hr & HC) Hag. rewrite cover_cons, !cover_app, !agree_app in Hag.
  destruct Hag as (Ha1 & Ha2 & Ha3 & Ha4). split_and!.
  - eapply node_mem_agree; [|done|done]. rewrite app_length. unfold f_count.
    rewrite app_length. simpl. by rewrite !bws_length.
  - rewrite Forall_forall in *. intros c Hin. eapply rep_agree; [by apply Hl|]. exact (agree_bind_regs _ _ _ _ Ha2 Hin).
  - rewrite Forall_forall in *. intros c Hin. eapply rep_agree; [by apply Hr|]. exact (agree_bind_regs _ _ _ _ Ha3 Hin).
  - by apply IH.
Qed.

Definition ctx_ok (C : ctx) : Prop :=
  Forall (fun f => sbytes (f_l f ++ (f_b f, Leaf [] 0) :: f_r f)) C.

Lemma f_slot_region f t : sbytes (f_l f ++ (f_b f, t) :: f_r f) ->
  f_slot f ∈ seqN (f_a f) (nslots (f_full f) (f_pfx f) (f_count f)).
Proof.
  intros Hs. apply sbytes_mid in Hs as (Hb & _). apply elem_of_seqN.
  unfold f_slot, nslots, f_count, slot_idx, ncount. rewrite app_length. simpl. destruct (f_full f); lia.
Qed.

Lemma repC_update m m' C w w' :
  ctx_ok C -> NoDup (cover (cregs C)) ->
  repC m C w ->
  (forall x, x ∈ cover (cregs C) -> PSlot x <> ptr_of C -> mget m' x = mget m x) ->
  (forall x, ptr_of C = PSlot x -> mget m' x = w') ->
  repC m' C w'.
Proof.
  destruct C as [|f C]; simpl; [done|]. intros Hok Hnd (Hn & Hl & Hr & HC) Hag Hw.
  inversion Hok as [|?? Hs Hok']; subst.
  assert (Hs' : sbytes (bws (f_l f) ++ (f_b f, w) :: bws (f_r f))).
  { destruct Hs as [H1 H2]. split; rewrite map_app in *; simpl in *; by rewrite !bws_fst. }
  pose proof (f_slot_region f _ Hs) as Hreg.
  rewrite cover_cons in Hnd. apply NoDup_app in Hnd as (_ & Hdis & _).
  assert (Hrest : agree m m' (cover ((f_l f ≫= (λ c, regs c.2)) ++ (f_r f ≫= (λ c, regs c.2)) ++ cregs C))).
  { intros x Hx. apply Hag.
    - rewrite cover_cons. apply elem_of_app. by right.
    - intros [= ->]. by apply (Hdis (f_slot f)). }
  rewrite !cover_app, !agree_app in Hrest. destruct Hrest as (Ha2 & Ha3 & Ha4).
  split_and!.
  - eapply node_mem_set; [exact Hs'|done|..].
    + rewrite bws_length. by apply Hw.
    + intros x Hx Hne. rewrite bws_length in Hne. apply Hag.
      * rewrite cover_cons. apply elem_of_app. left.
        replace (f_count f) with (length (bws (f_l f) ++ (f_b f, w) :: bws (f_r f))); [done|].
        unfold f_count. rewrite !app_length. simpl. by rewrite !bws_length.
      * intros [= ->]. done.
  - rewrite Forall_forall in *. intros c Hin. eapply rep_agree; [by apply Hl|]. exact (agree_bind_regs _ _ _ _ Ha2 Hin).
  - rewrite Forall_forall in *. intros c Hin. eapply rep_agree; [by apply Hr|]. exact (agree_bind_regs _ _ _ _ Ha3 Hin).
  - by eapply repC_agree.
Qed.

Lemma repC_ptr m C w x : ctx_ok C -> repC m C w -> ptr_of C = PSlot x -> mget m x = w.
Proof.
  destruct C as [|f C]; simpl; [done|]. intros Hok (Hn & _) [= <-].
  inversion Hok as [|?? Hs Hok']; subst. unfold f_slot.
  rewrite <- (bws_length (f_l f)). eapply node_mem_child; [|done].
  destruct Hs as [H1 H2]. split; rewrite map_app in *; simpl in *; by rewrite !bws_fst.
Qed.

(** ** Well-formedness under contexts *)

Section Wf.
Context (K : list N -> Prop) (fetch : N -> list N).
Notation wf := (wf K fetch).

Lemma wf_plug_path p C t : wf p (plug C t) -> wf (p ++ path_of C) t.
Proof.
  revert t; induction C as [|f C IH]; intros t; simpl; [by rewrite app_nil_r|].
  intros H%IH. apply wf_node_iff in H as (_ & _ & _ & H).
  apply Forall_app in H as [_ H]. inversion H; subst. simpl in *. by rewrite <- !app_assoc in *.
Qed.

Lemma wf_plug_ctx_ok p C t : wf p (plug C t) -> ctx_ok C.
Proof.
  revert t; induction C as [|f C IH]; intros t; simpl; [constructor|].
  intros H. constructor; [|by eapply IH].
  apply wf_plug_path in H. apply wf_node_iff in H as (H & _). by eapply sbytes_replace.
Qed.

Lemma wf_plug_replace p C t t' : wf p (plug C t) -> wf (p ++ path_of C) t' -> wf p (plug C t').
Proof.
  revert t t'; induction C as [|f C IH]; intros t t'; simpl; [by rewrite app_nil_r|].
  intros H Ht'. eapply IH; [done|]. apply wf_plug_path in H.
  apply wf_node_iff in H as (H1 & H2 & H3 & H4). apply wf_node_iff. split_and!.
  - by eapply sbytes_replace.
  - destruct (f_full f); [done|]. by rewrite !f_count_fill in *.
  - done.
  - apply Forall_app in H4 as [H4 H5]. apply Forall_app; split; [done|].
    inversion H5; subst. constructor; [|done]. simpl. by rewrite <- !app_assoc in *.
Qed.

(** Keys outside the hole do not have the path of the hole as a prefix. *)
Lemma wf_outside p C t k v : wf p (plug C t) -> (k, v) ∈ cleft C ++ cright C ->
  ~ (p ++ path_of C) `prefix_of` k.
Proof.
  revert t; induction C as [|f C IH]; intros t; simpl; [by intros _ ?%elem_of_nil|].
  intros H Hin Hp.
  assert (Hp' : (p ++ path_of C) `prefix_of` k).
  { etrans; [|done]. rewrite app_assoc. by apply prefix_app_r. }
  pose proof (wf_plug_path _ _ _ H) as Hf. apply wf_node_iff in Hf as (Hs & _ & _ & Hc).
  apply sbytes_mid in Hs as (_ & Hnl & Hnr).
  apply Forall_app in Hc as [Hc1 Hc2]. apply Forall_cons in Hc2 as [_ Hc2].
  assert (Hcase : (k, v) ∈ cleft C ++ cright C \/
    exists c, (c ∈ f_l f \/ c ∈ f_r f) /\ (k, v) ∈ contents c.2).
  { rewrite !elem_of_app in Hin. rewrite elem_of_app.
    destruct Hin as [[H1|(c & ? & ?)%elem_of_list_bind]|[(c & ? & ?)%elem_of_list_bind|H1]].
    - by left; left.
    - right. exists c. auto.
    - right. exists c. auto.
    - by left; right. }
  destruct Hcase as [Hout|(c & Hc & Hk)]; [by eapply IH|].
  assert (Hwc : wf ((p ++ path_of C) ++ f_pfx f ++ [c.1]) c.2).
  { rewrite !Forall_forall in *. naive_solver. }
  eapply wf_contents in Hwc as (Hpk & _); [|done].
  assert (Hne : c.1 <> f_b f).
  { intros E. destruct Hc as [Hc|Hc]; [apply Hnl|apply Hnr]; rewrite <- E;
      apply elem_of_list_fmap; by exists c. }
  destruct Hp as [x1 ->], Hpk as [x2 E]. rewrite <- !app_assoc in E.
  do 3 apply app_inv_head in E. simpl in E. naive_solver.
Qed.
End Wf.

(** Decomposition of a child list at a position. *)
Lemma plug_child full a pfx l b t r C :
  plug C (Node full a pfx (l ++ (b, t) :: r)) = plug (Frame full a pfx l b r :: C) t.
Proof. done. Qed.
