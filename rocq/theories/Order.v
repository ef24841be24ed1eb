(** * Order: the leaves of the ghost trie are in strictly ascending key order. *)
From Verif Require Export Keys WordsProps TrieFacts.

Lemma lex_lt_common (q a b : list N) : lex_lt (q ++ a) (q ++ b) <-> lex_lt a b.
Proof. induction q as [|x q IH]; simpl; [done|]. rewrite IH. split; [intros [?|[_ ?]]; [lia|done]|auto]. Qed.

Lemma lex_lt_branch (q k1 k2 : list N) b1 b2 : (q ++ [b1]) `prefix_of` k1 -> (q ++ [b2]) `prefix_of` k2 -> b1 < b2 ->
  lex_lt k1 k2.
Proof.
  intros [r1 ->] [r2 ->] H. rewrite <- !app_assoc. apply lex_lt_common. simpl. by left.
Qed.

Lemma SS_app {A} (R : A -> A -> Prop) (l1 l2 : list A) : StronglySorted R (l1 ++ l2) <->
  StronglySorted R l1 /\ StronglySorted R l2 /\ (forall x y, x ∈ l1 -> y ∈ l2 -> R x y).
Proof.
  induction l1 as [|a l1 IH]; simpl.
  - split; [intros H; split_and!; [constructor|done|by intros ?? ?%elem_of_nil]|by intros (_ & ? & _)].
  - split.
    + intros H. inversion H as [|?? Hs Hf]; subst. apply IH in Hs as (H1 & H2 & H3). rewrite Forall_app in Hf.
      destruct Hf as [Hf1 Hf2]. split_and!; [by constructor|done|].
      intros x y [->|Hx]%elem_of_cons Hy; [|auto]. rewrite Forall_forall in Hf2. auto.
    + intros (H1 & H2 & H3). inversion H1 as [|?? Hs Hf]; subst. constructor.
      * apply IH. split_and!; [done..|]. intros x y Hx Hy. apply H3; [by right|done].
      * apply Forall_app. split; [done|]. apply Forall_forall. intros y Hy. apply H3; [left|done].
Qed.

Lemma SS_cons {A} (R : A -> A -> Prop) x (l : list A) : StronglySorted R (x :: l) <->
  StronglySorted R l /\ (forall y, y ∈ l -> R x y).
Proof.
  split.
  - intros H. inversion H as [|?? Hs Hf]; subst. rewrite Forall_forall in Hf. done.
  - intros [H1 H2]. constructor; [done|]. by apply Forall_forall.
Qed.

Lemma SSorted_bind {A B} (R : B -> B -> Prop) (f : A -> list B) (l : list A) (S : A -> A -> Prop) :
  StronglySorted S l -> (forall a, a ∈ l -> StronglySorted R (f a)) ->
  (forall a a' x y, a ∈ l -> a' ∈ l -> S a a' -> x ∈ f a -> y ∈ f a' -> R x y) ->
  StronglySorted R (l ≫= f).
Proof.
  induction l as [|a l IH]; intros Hs Hf Hx; [constructor|].
  apply SS_cons in Hs as [Hs Ha]. rewrite bind_cons. apply SS_app. split_and!.
  - apply Hf. left.
  - apply IH; [done|..].
    + intros a' Ha'. apply Hf. by right.
    + intros a1 a2 x y H1 H2. apply Hx; by right.
  - intros x y Hin Hin'. apply elem_of_list_bind in Hin' as (a' & Hy & Ha'). eapply (Hx a a'); [left|by right| |done|done].
    by apply Ha.
Qed.

Lemma SSorted_map {A B} (R : B -> B -> Prop) (f : A -> B) (l : list A) :
  StronglySorted R (map f l) <-> StronglySorted (fun x y => R (f x) (f y)) l.
Proof.
  induction l as [|a l IH]; simpl; [split; constructor|]. rewrite !SS_cons, IH.
  split; intros [H1 H2]; split; try done.
  - intros y Hy. apply H2. by apply elem_of_list_fmap_1.
  - intros y Hy. apply elem_of_list_fmap in Hy as (z & -> & Hz). auto.
Qed.

Section Order.
Context (K : list N -> Prop) (fetch : N -> list N).

Definition kv_lt (x y : list N * N) : Prop := lex_lt x.1 y.1.

Lemma wf_sorted p t : wf K fetch p t -> StronglySorted kv_lt (contents t).
Proof.
  revert p. induction t as [k v|full a pfx cs IH] using trie_ind2; intros p Hw.
  - simpl. repeat constructor.
  - apply wf_node_iff in Hw as ([Hs _] & _ & _ & Hc). rewrite contents_node.
    rewrite Forall_forall in IH, Hc. apply (SSorted_map N.lt fst) in Hs.
    eapply SSorted_bind; [exact Hs| |].
    + intros c Hin. eapply IH; [done|]. by apply Hc.
    + intros [b1 c1] [b2 c2] [k1 v1] [k2 v2] H1 H2 Hlt Hx Hy. simpl in *.
      destruct (wf_contents K fetch _ _ _ _ (Hc _ H1) Hx) as (Hp1 & _).
      destruct (wf_contents K fetch _ _ _ _ (Hc _ H2) Hy) as (Hp2 & _). simpl in *.
      eapply (lex_lt_branch (p ++ pfx)); [by rewrite <- app_assoc|by rewrite <- app_assoc|done].
Qed.

Lemma kv_sorted_nodup l : StronglySorted kv_lt l -> NoDup (map fst l).
Proof.
  induction 1 as [|x l Hs IH Hf]; simpl; [constructor|]. constructor; [|done].
  intros Hin. apply elem_of_list_fmap in Hin as (y & E & Hy). rewrite Forall_forall in Hf. specialize (Hf _ Hy).
  unfold kv_lt in Hf. rewrite E in Hf. by apply lex_lt_irrefl in Hf.
Qed.

Lemma wf_nodup p t : wf K fetch p t -> NoDup (map fst (contents t)).
Proof. intros H. eapply kv_sorted_nodup, wf_sorted, H. Qed.

Lemma wf_functional p t k v w : wf K fetch p t -> (k, v) ∈ contents t -> (k, w) ∈ contents t -> v = w.
Proof.
  intros Hw Hv Hw'. pose proof (wf_nodup _ _ Hw) as Hn.
  apply elem_of_list_split in Hv as (l & r & E). rewrite E in *. rewrite map_app in Hn. simpl in Hn.
  apply NoDup_app in Hn as (_ & Hn1 & Hn2). apply NoDup_cons in Hn2 as [Hn2 _].
  apply elem_of_app in Hw' as [H|[[=]|H]%elem_of_cons]; [|done|].
  - exfalso. apply (Hn1 k); [|left]. apply elem_of_list_fmap. by exists (k, w).
  - exfalso. apply Hn2. apply elem_of_list_fmap. by exists (k, w).
Qed.
End Order.
