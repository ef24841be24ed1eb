(** * FinTools: memory writes and occurrence bookkeeping used by every Finalize. *)
From Verif Require Export Change.

(** ** Checked memory writes *)

Lemma sl_copy_ok m dst src i n : N.of_nat (i + n) <= sl_len src -> N.of_nat n <= sl_len dst ->
  exists m', sl_copy m dst src i n = Ok m' /\
    (forall j, (j < n)%nat -> mget m' (sl_base dst + N.of_nat j) = mget m (sl_base src + N.of_nat (i + j))) /\
    (forall x, x ∉ seqN (sl_base dst) n -> mget m' x = mget m x).
Proof.
  intros Hs Hd. unfold sl_copy. rewrite (proj2 (N.leb_le _ _)) by done.
  rewrite Nat.min_r by lia. rewrite take_ge by (by rewrite mread_length).
  eexists; split; [done|]. split.
  - intros j Hj. rewrite (mget_mwrite_in _ _ _ _ (mget m (sl_base src + N.of_nat (i + j)))); [apply u64_small, mget_lt|].
    rewrite mread_lookup by done. f_equal. f_equal. lia.
  - intros x Hx. apply mget_mwrite_out. rewrite elem_of_seqN in Hx. rewrite mread_length. lia.
Qed.

Lemma sl_set_ok m d i w : N.of_nat i < sl_len d -> sl_set m d i w = Ok (mset m (sl_base d + N.of_nat i) w).
Proof. intros H. unfold sl_set. by rewrite (proj2 (N.ltb_lt _ _)). Qed.

Lemma sl_from_ok d i : N.of_nat i <= sl_len d -> sl_from d i = Ok (Slice (sl_base d + N.of_nat i) (sl_len d - N.of_nat i)).
Proof. intros H. unfold sl_from. by rewrite (proj2 (N.leb_le _ _)). Qed.

Lemma sl_upto_ok d i : N.of_nat i <= sl_len d -> sl_upto d i = Ok tt.
Proof. intros H. unfold sl_upto. by rewrite (proj2 (N.leb_le _ _)). Qed.

(** Two children in byte order. *)
Definition sort2 {A} (x y : N * A) : list (N * A) := if x.1 <? y.1 then [x; y] else [y; x].

Lemma sort2_perm {A} (x y : N * A) : sort2 x y ≡ₚ [x; y].
Proof. unfold sort2. destruct (_ <? _); [done|]. constructor. Qed.

Lemma sort2_length {A} (x y : N * A) : length (sort2 x y) = 2%nat.
Proof. unfold sort2. by destruct (_ <? _). Qed.

Lemma sort2_sbytes {A} (x y : N * A) : x.1 < 256 -> y.1 < 256 -> x.1 <> y.1 -> sbytes (sort2 x y).
Proof.
  intros Hx Hy Hne. unfold sort2, sbytes. destruct (N.ltb_spec x.1 y.1); simpl.
  - split; [|by repeat constructor]. apply SSorted_cons. split; [repeat constructor|].
    intros ? ->%elem_of_list_singleton. done.
  - split; [|by repeat constructor]. apply SSorted_cons. split; [repeat constructor|].
    intros ? ->%elem_of_list_singleton. lia.
Qed.

Lemma add_sorted_children_ok m d x y : to_byte x.2 = x.1 -> to_byte y.2 = y.1 ->
  x.2 < 18446744073709551616 -> y.2 < 18446744073709551616 -> 2 <= sl_len d ->
  exists m', add_sorted_children m d x.2 y.2 = Ok m' /\
    mread m' (sl_base d) 2 = map snd (sort2 x y) /\ (forall z, z ∉ seqN (sl_base d) 2 -> mget m' z = mget m z).
Proof.
  intros Hx Hy Hx64 Hy64 Hd. unfold add_sorted_children, sort2. rewrite Hx, Hy. destruct (x.1 <? y.1).
  all: rewrite sl_set_ok by lia; cbn [bind]; rewrite sl_set_ok by lia; eexists; split; [done|]; split;
    [cbn [mread map]; f_equal; [rewrite mget_mset_ne by lia; change (N.of_nat 0) with 0; rewrite N.add_0_r; by apply mget_mset_eq|];
     f_equal; change (N.of_nat 1) with 1; by apply mget_mset_eq|
     intros z Hz; rewrite elem_of_seqN in Hz; rewrite !mget_mset_ne by lia; done].
Qed.

(** Scatter over a node-256. *)
Lemma scatter_ok ws : forall m base len, NoDup (map fst ws) -> Forall (fun c => to_byte c.2 = c.1 /\ c.1 < 256 /\ c.2 < 18446744073709551616) ws -> 256 <= len ->
  exists m', scatter m (Slice base len) (map snd ws) = Ok m' /\
    (forall b, b < 256 -> mget m' (base + b) = default (mget m (base + b)) (assoc b ws)) /\
    (forall x, x ∉ seqN base 256 -> mget m' x = mget m x).
Proof.
  induction ws as [|[b w] ws IH]; intros m base len Hn Hf Hl.
  - exists m. split; [done|]. done.
  - apply NoDup_cons in Hn as [Hb Hn]. apply Forall_cons in Hf as [(Hw & Hb' & Hw64) Hf]. simpl in Hw, Hb, Hb', Hw64.
    cbn [scatter map snd]. rewrite Hw. rewrite sl_set_ok by (simpl; lia). cbn [bind sl_base].
    destruct (IH (mset m (base + N.of_nat (N.to_nat b)) w) base len Hn Hf Hl) as (m' & E & H1 & H2).
    exists m'. split; [done|]. rewrite N2Nat.id in *. split.
    + intros b0 Hb0. rewrite H1 by done. cbn [assoc]. destruct (N.eqb_spec b0 b) as [->|Hne].
      * rewrite (proj2 (assoc_None b ws)) by done. simpl. by apply mget_mset_eq.
      * rewrite mget_mset_ne by lia. done.
    + intros x Hx. rewrite H2 by done. apply mget_mset_ne. rewrite elem_of_seqN in Hx. lia.
Qed.

(** ** Occurrences after replacing a subtree *)

(** Node [o] and its parent link are unchanged; a node-256 may have lost leaves. *)
Record oext (o o' : occ_t) : Prop := {
  oe_path : o_path o' = o_path o;
  oe_ptr : o_ptr o' = o_ptr o;
  oe_par : o_par o' = o_par o;
  oe_addr : o_addr o' = o_addr o;
  oe_full : o_full o' = o_full o;
  oe_pfx : o_pfx o' = o_pfx o;
  oe_hs : o_full o = false -> o_hs o' = o_hs o;
  oe_sub : forall h, h ∈ o_hs o' -> h ∈ o_hs o
}.

Lemma oe_fst o o' b : oext o o' -> b ∈ map fst (o_hs o') -> b ∈ map fst (o_hs o).
Proof. intros H (h & -> & Hin)%elem_of_list_fmap. apply elem_of_list_fmap. exists h. split; [done|]. by apply (oe_sub _ _ H). Qed.

Lemma oext_refl o : oext o o.
Proof. by split. Qed.

Definition oreg (o : occ_t) : N * nat := (o_addr o, nslots (o_full o) (o_pfx o) (length (o_hs o))).

Definition touched (node parent : N) : list N := node :: (if parent =? 0 then [] else [parent]).

(** Which occurrences survive: all those not at [X], and if not below [X] without being moved to
    another parent. *)
Definition keeps (T T' : option trie) (X : list N) : Prop :=
  forall o, ooccr T o -> o_addr o ∉ X -> (o_par o ∉ X -> ooccr T' o) /\ exists o', ooccr T' o' /\ omoved o o'.

(** Every other node is still there, or its region is in [G]. *)
Definition gone (T T' : option trie) (G : list (N * nat)) : Prop :=
  forall o, ooccr T o -> (exists o', ooccr T' o' /\ osame o o') \/ oreg o ∈ G.

Lemma keeps_plug C t t' X : (C <> [] -> par_of C ∈ X) ->
  (forall o, occ_at C t o -> o_addr o ∉ X -> (o_par o ∉ X -> occ_at C t' o) /\ exists o', occ_at C t' o' /\ omoved o o') ->
  keeps (Some (plug C t)) (Some (plug C t')) X.
Proof.
  intros HX Ht o Ho Ha. simpl in *.
  assert (Hin : occ_at C t o -> (o_par o ∉ X -> occr (plug C t') o) /\ exists o', occr (plug C t') o' /\ omoved o o').
  { intros H. destruct (Ht o H Ha) as [H1 (o' & H2 & H3)].
    split; [intros Hp; apply occ_at_plug; auto|]. exists o'. split; [by apply occ_at_plug|done]. }
  destruct (occ_plug_inv C t o Ho) as [H|H]; [by apply Hin|].
  destruct C as [|f C']; [by apply Hin|].
  destruct (H t') as (o' & Ho' & _ & He). assert (o' = o) as ->; [|split; [done|by exists o]].
  apply He. left. intros E. apply Ha. rewrite E. by apply HX.
Qed.

Lemma gone_plug C t t' G : (forall o, occ_at C t o -> (exists o', occ_at C t' o' /\ omoved o o') \/ oreg o ∈ G) ->
  gone (Some (plug C t)) (Some (plug C t')) G.
Proof.
  intros Ht o Ho. simpl in *. destruct (occ_plug_inv C t o Ho) as [H|H].
  - destruct (Ht o H) as [(o' & H1 & H2)|]; [|by right]. left. exists o'. split; [by apply occ_at_plug|by apply omoved_same].
  - left. destruct (H t') as (o' & Ho' & Hs & _). by exists o'.
Qed.

Lemma gone_plug_same C t t' G : (forall o, occ_at C t o -> (exists o', occ_at C t' o' /\ osame o o') \/ oreg o ∈ G) ->
  gone (Some (plug C t)) (Some (plug C t')) G.
Proof.
  intros Ht o Ho. simpl in *. destruct (occ_plug_inv C t o Ho) as [H|H].
  - destruct (Ht o H) as [(o' & H1 & H2)|]; [|by right]. left. exists o'. split; [by apply occ_at_plug|done].
  - left. destruct (H t') as (o' & Ho' & Hs & _). by exists o'.
Qed.

Lemma gone_incl T T' G G' : gone T T' G -> (forall r, r ∈ G -> r ∈ G') -> gone T T' G'.
Proof. intros H Hi o Ho. destruct (H o Ho); [by left|right; auto]. Qed.

Lemma keeps_refl T X : keeps T T X.
Proof. intros o Ho _. split; [done|by exists o]. Qed.
Lemma gone_refl T G : gone T T G.
Proof. intros o Ho. left. by exists o. Qed.

(** Moving a child to another node on the same path. *)
Lemma occ_into p np par full a pfx cs b c o np0 par0 : (b, c) ∈ cs ->
  occ (p ++ pfx ++ [b]) np0 par0 c o -> o_par o <> par0 -> occ p np par (Node full a pfx cs) o.
Proof. intros Hin Ho Hne. apply elem_of_list_split in Hin as (l & r & ->). apply occ_child. by eapply occ_rebase. Qed.

Lemma occ_into_weak p np par full a pfx cs b c o np0 par0 : (b, c) ∈ cs ->
  occ (p ++ pfx ++ [b]) np0 par0 c o -> exists o', occ p np par (Node full a pfx cs) o' /\ omoved o o'.
Proof.
  intros Hin Ho. apply elem_of_list_split in Hin as (l & r & ->).
  destruct (occ_rebase_weak _ _ _ (PSlot (slot_of full a pfx b (length l))) a _ _ Ho) as (o' & Ho' & Hs).
  exists o'. split; [|done]. by apply occ_child.
Qed.

Lemma occ_cases p np par full a pfx cs o : occ p np par (Node full a pfx cs) o ->
  o = Occ p np par a full pfx (heads cs) \/
  exists b c np0, (b, c) ∈ cs /\ occ (p ++ pfx ++ [b]) np0 a c o.
Proof.
  intros [->|(l & b & c & r & -> & Ho)]%occ_node_inv; [by left|]. right. exists b, c. eexists. split; [|done].
  apply elem_of_app; right; left.
Qed.

(** ** Contents *)

Definition added (T T' : option trie) (key : list N) (v : N) : Prop :=
  (forall w, (key, w) ∉ ocontents T) /\ ocontents T' ≡ₚ (key, v) :: ocontents T.
Definition replaced (T T' : option trie) (key : list N) (v : N) : Prop :=
  exists w rest, ocontents T ≡ₚ (key, w) :: rest /\ ocontents T' ≡ₚ (key, v) :: rest.
(** [R] is the way from the top of the trie to a child, with the child's byte at its end. *)
Inductive edge : trie -> list N -> Prop :=
| edge_here full a pfx cs b c : (b, c) ∈ cs -> edge (Node full a pfx cs) (pfx ++ [b])
| edge_below full a pfx cs b c R : (b, c) ∈ cs -> edge c R -> edge (Node full a pfx cs) (pfx ++ b :: R).

Definition oedge (T : option trie) (R : list N) : Prop := from_option (fun t => edge t R) False T.
Definition grows (T T' : option trie) : Prop := forall R, oedge T R -> oedge T' R.

Lemma edge_kids full a pfx cs full' a' cs' R : (forall b c, (b, c) ∈ cs -> exists c', (b, c') ∈ cs' /\ forall R, edge c R -> edge c' R) ->
  edge (Node full a pfx cs) R -> edge (Node full' a' pfx cs') R.
Proof.
  intros H HR. inversion HR as [? ? ? ? b c Hin|? ? ? ? b c R' Hin He]; subst; destruct (H _ _ Hin) as (c' & Hin' & Hc).
  - by eapply edge_here.
  - eapply edge_below; [done|by apply Hc].
Qed.

Lemma edge_plug C : forall t t', (forall R, edge t R -> edge t' R) -> forall R, edge (plug C t) R -> edge (plug C t') R.
Proof.
  induction C as [|f C IH]; intros t t' H R; [apply H|]. simpl. apply IH. clear IH R. intros R. unfold fill. apply edge_kids.
  intros b c Hin. apply elem_of_app in Hin as [Hin|[[= -> ->]|Hin]%elem_of_cons].
  - exists c. split; [apply elem_of_app; by left|done].
  - exists t'. split; [apply elem_of_app; right; left|done].
  - exists c. split; [apply elem_of_app; right; by right|done].
Qed.

Lemma edge_leaf k v R : ~ edge (Leaf k v) R.
Proof. intros H. inversion H. Qed.

Lemma grows_leaf k v T : grows (Some (Leaf k v)) T.
Proof. intros R H. by apply edge_leaf in H. Qed.

Lemma grows_plug C t t' : (forall R, edge t R -> edge t' R) -> grows (Some (plug C t)) (Some (plug C t')).
Proof. intros H R. by apply edge_plug. Qed.

Lemma grows_kids C full a pfx cs full' a' cs' : (forall c, c ∈ cs -> c ∈ cs') ->
  grows (Some (plug C (Node full a pfx cs))) (Some (plug C (Node full' a' pfx cs'))).
Proof. intros H. apply grows_plug. intros R. apply edge_kids. intros b c Hin. exists c. split; [by apply H|done]. Qed.

Definition upserted (T T' : option trie) (key : list N) (v : N) (d : Z) : Prop :=
  grows T T' /\ ((added T T' key v /\ d = 1%Z) \/ (replaced T T' key v /\ d = 0%Z)).
Definition removed (T T' : option trie) (key : list N) (v : N) : Prop :=
  ocontents T ≡ₚ (key, v) :: ocontents T'.

Lemma contents_plug_perm C t : contents (plug C t) ≡ₚ contents t ++ cleft C ++ cright C.
Proof. rewrite contents_plug. solve_Permutation. Qed.
