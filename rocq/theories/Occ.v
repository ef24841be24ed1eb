(** * Occ: occurrences of nodes in the ghost trie, and which of them survive when a subtree
    is replaced. *)
From Verif Require Export LockFacts.

(** What a parent sees of a child. *)
Inductive thead := HLeaf (k : list N) (v : N) | HNode (full : bool) (a : N) (pfx : list N) (count : nat).

Definition head_of (t : trie) : thead :=
  match t with
  | Leaf k v => HLeaf k v
  | Node full a pfx cs => HNode full a pfx (ncount full (length cs))
  end.

Definition enc_head (b : N) (h : thead) : N :=
  match h with
  | HLeaf _ v => buildLeaf b v
  | HNode _ a pfx n => buildNode b a n (length pfx)
  end.

Lemma enc_head_of b t : enc_head b (head_of t) = enc b t.
Proof. by destruct t. Qed.

Definition heads (cs : list (N * trie)) : list (N * thead) := map (fun c => (c.1, head_of c.2)) cs.

Lemma heads_app l r : heads (l ++ r) = heads l ++ heads r.
Proof. apply map_app. Qed.
Lemma heads_length l : length (heads l) = length l.
Proof. apply map_length. Qed.
Lemma heads_fst l : map fst (heads l) = map fst l.
Proof. unfold heads. by rewrite map_map. Qed.
Lemma heads_bws l : map (fun c => (c.1, enc_head c.1 c.2)) (heads l) = bws l.
Proof. unfold heads, bws. rewrite map_map. apply map_ext. intros [b t]; simpl. by rewrite enc_head_of. Qed.

Lemma heads_split cs l b h r : heads cs = l ++ (b, h) :: r ->
  exists cl t cr, cs = cl ++ (b, t) :: cr /\ heads cl = l /\ head_of t = h /\ heads cr = r.
Proof.
  intros H. unfold heads in H. apply fmap_app_inv in H as (cl & cr & Hl & Hr & ->).
  destruct cr as [|[b' t] cr]; simpl in *; [done|]. injection Hr as -> -> ->.
  exists cl, t, cr. by rewrite Hl.
Qed.

Record occ_t := Occ {
  o_path : list N; o_ptr : ptr; o_par : N;
  o_addr : N; o_full : bool; o_pfx : list N; o_hs : list (N * thead)
}.

Definition slot_of (full : bool) (a : N) (pfx : list N) (b : N) (i : nat) : N :=
  a + N.of_nat (prefix_slots (length pfx)) + slot_idx full b i.

Inductive occ : list N -> ptr -> N -> trie -> occ_t -> Prop :=
| occ_here p np par full a pfx cs :
    occ p np par (Node full a pfx cs) (Occ p np par a full pfx (heads cs))
| occ_child p np par full a pfx l b t r o :
    occ (p ++ pfx ++ [b]) (PSlot (slot_of full a pfx b (length l))) a t o ->
    occ p np par (Node full a pfx (l ++ (b, t) :: r)) o.

Definition occ_at (C : ctx) (t : trie) (o : occ_t) : Prop := occ (path_of C) (ptr_of C) (par_of C) t o.
Definition occr (t : trie) (o : occ_t) : Prop := occ [] PRoot 0 t o.

Lemma occ_leaf p np par k v o : ~ occ p np par (Leaf k v) o.
Proof. inversion 1. Qed.

Lemma occ_node_inv p np par full a pfx cs o : occ p np par (Node full a pfx cs) o ->
  o = Occ p np par a full pfx (heads cs) \/
  exists l b t r, cs = l ++ (b, t) :: r /\
    occ (p ++ pfx ++ [b]) (PSlot (slot_of full a pfx b (length l))) a t o.
Proof. inversion 1; subst; [by left|]. right. eauto 10. Qed.

Lemma occ_at_fill C f t o : occ_at (f :: C) t o -> occ_at C (fill f t) o.
Proof. intros H. unfold occ_at, fill. simpl in H. by apply occ_child. Qed.

Lemma occ_at_plug C t o : occ_at C t o -> occr (plug C t) o.
Proof. revert t; induction C as [|f C IH]; intros t H; [done|]. simpl. apply IH. by apply occ_at_fill. Qed.

Lemma occ_at_here C full a pfx cs :
  occ_at C (Node full a pfx cs) (Occ (path_of C) (ptr_of C) (par_of C) a full pfx (heads cs)).
Proof. constructor. Qed.

Lemma occ_zip_gen p np par t o : occ p np par t o -> forall C, p = path_of C -> np = ptr_of C -> par = par_of C ->
  exists D cs, plug C t = plug D (Node (o_full o) (o_addr o) (o_pfx o) cs) /\
    path_of D = o_path o /\ ptr_of D = o_ptr o /\ par_of D = o_par o /\
    o_hs o = heads cs.
Proof.
  induction 1 as [p np par full a pfx cs|p np par full a pfx l b t r o H IH]; intros C -> -> ->.
  - exists C, cs. done.
  - destruct (IH (Frame full a pfx l b r :: C)) as (D & cs & E & ?); [done..|].
    exists D, cs. done.
Qed.

Lemma occ_zip t o : occr t o ->
  exists D cs, t = plug D (Node (o_full o) (o_addr o) (o_pfx o) cs) /\
    path_of D = o_path o /\ ptr_of D = o_ptr o /\ par_of D = o_par o /\
    o_hs o = heads cs.
Proof. intros H. by apply (occ_zip_gen _ _ _ _ _ H []). Qed.

Lemma app_cons_split {A} (l1 l2 r1 r2 : list A) x y : l1 ++ x :: r1 = l2 ++ y :: r2 ->
  (l1 = l2 /\ x = y /\ r1 = r2) \/
  (exists m, l2 = l1 ++ x :: m /\ r1 = m ++ y :: r2) \/
  (exists m, l1 = l2 ++ y :: m /\ r2 = m ++ x :: r1).
Proof.
  revert l2; induction l1 as [|z l1 IH]; intros [|w l2] E; simpl in E; injection E as Ex E; subst.
  - by left.
  - right; left. by exists l2.
  - right; right. by exists l1.
  - destruct (IH l2 E) as [(-> & -> & ->)|[(m & -> & ->)|(m & -> & ->)]].
    + by left.
    + right; left. by exists m.
    + right; right. by exists m.
Qed.

(** Occurrences up to the place of attachment and the children. *)
Definition osame (o o' : occ_t) : Prop :=
  o_path o' = o_path o /\ o_addr o' = o_addr o /\ o_full o' = o_full o /\ o_pfx o' = o_pfx o /\
  (o_full o = false -> map fst (o_hs o') = map fst (o_hs o)).

Lemma osame_refl o : osame o o.
Proof. done. Qed.

(** ... up to the place of attachment only. *)
Definition omoved (o o' : occ_t) : Prop :=
  o_path o' = o_path o /\ o_addr o' = o_addr o /\ o_full o' = o_full o /\ o_pfx o' = o_pfx o /\ o_hs o' = o_hs o.

Lemma omoved_refl o : omoved o o.
Proof. done. Qed.
Lemma omoved_same o o' : omoved o o' -> osame o o'.
Proof. intros (? & ? & ? & ? & E). do 4 (split; [done|]). by rewrite E. Qed.

Lemma occ_plug_inv C t o : occr (plug C t) o ->
  occ_at C t o \/
  (forall t', exists o', occr (plug C t') o' /\ osame o o' /\
     (o_addr o <> par_of C \/ head_of t' = head_of t -> o' = o)).
Proof.
  revert t; induction C as [|f C IH]; intros t H; [by left|].
  simpl in H. destruct (IH _ H) as [H1|H1].
  2:{ right. intros t'. simpl. destruct (H1 (fill f t')) as (o' & Ho' & Hs & He). exists o'.
      assert (o' = o) as ->; [|done]. apply He. right. unfold fill. simpl. by rewrite !f_count_fill. }
  unfold occ_at, fill in H1. apply occ_node_inv in H1 as [->|(l & b & t1 & r & E & H1)].
  - right. intros t'. eexists. split; [|split].
    + simpl. apply occ_at_plug. apply occ_at_here.
    + do 4 (split; [done|]). intros _. simpl. by rewrite !heads_fst, !map_app.
    + simpl. intros [?|Ht']; [done|]. rewrite !heads_app. simpl. by rewrite Ht'.
  - apply app_cons_split in E as [(<- & E & <-)|[(m & -> & Em)|(m & Em & ->)]].
    + injection E as <- <-. left. done.
    + right. intros t'. exists o. split; [|done]. simpl. apply occ_at_plug. unfold fill, occ_at. rewrite Em.
      replace (f_l f ++ (f_b f, t') :: m ++ (b, t1) :: r) with ((f_l f ++ (f_b f, t') :: m) ++ (b, t1) :: r)
        by (by rewrite <- app_assoc).
      apply occ_child. rewrite app_length in *. done.
    + right. intros t'. exists o. split; [|done]. simpl. apply occ_at_plug. unfold fill, occ_at.
      rewrite Em. rewrite <- app_assoc. simpl. apply occ_child. done.
Qed.

(** A non-head occurrence does not depend on where its subtree is attached. *)
Lemma occ_rebase p np par np' par' t o : occ p np par t o -> o_par o <> par -> occ p np' par' t o.
Proof. inversion 1; subst; simpl; [done|]. intros _. by constructor. Qed.

Lemma occ_rebase_weak p np par np' par' t o : occ p np par t o ->
  exists o', occ p np' par' t o' /\ omoved o o'.
Proof.
  inversion 1; subst.
  - eexists; split; [constructor|]. done.
  - exists o; split; [by constructor|done].
Qed.

(** ** Regions *)

Lemma occ_region p np par t o : occ p np par t o ->
  exists n, (o_addr o, nslots (o_full o) (o_pfx o) n) ∈ regs t.
Proof.
  induction 1 as [p np par full a pfx cs|p np par full a pfx l b t r o H [n IH]].
  - exists (length cs). rewrite regs_node. left.
  - exists n. rewrite regs_node. right. apply elem_of_list_bind. exists (b, t). split; [done|].
    apply elem_of_app. right. left.
Qed.
