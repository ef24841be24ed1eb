(** * AllocFacts: the allocator never hands out memory that is in use. *)
From Verif Require Export Search TrieFacts.

(** ** Recycler contents *)

Fixpoint ritems (t : nat) (r : list (list (N * N))) : list (N * nat * N) :=
  match r with
  | [] => []
  | l :: r' => map (fun it => (it.1, t, it.2)) l ++ ritems (S t) r'
  end.

Definition ireg (it : N * nat * N) : N * nat := it.1.

Definition breg (a : allocator) : N * nat :=
  (N.shiftr (al_offset a + al_nextFree a) 3, N.to_nat ((blockSize - al_nextFree a) / 8 - 1)).

Definition al_its (a : allocator) : list (N * nat * N) := ritems 0 (al_recycler a).

Definition all_items (s : tree) : list (N * nat * N) := t_allocs s ≫= al_its.
Definition all_bregs (s : tree) : list (N * nat) := map breg (t_allocs s).

Definition region_ok (nb : N) (r : N * nat) : Prop :=
  r.2 = 0%nat \/ (0 < r.1 /\ r.1 mod blockSlots + N.of_nat r.2 <= blockSlots /\ r.1 / blockSlots < nb).

(** The bump allocator's fields stay small. *)
Definition bump_ok (a : allocator) : Prop :=
  al_nextFree a mod 8 = 0 /\ al_nextFree a <= blockSize /\ al_block a < maxBlockCount /\ al_offset a <= 137438953472.

Record alloc_inv (s : tree) (L : list (N * nat)) : Prop := {
  ai_nodup : NoDup (cover (L ++ map ireg (all_items s) ++ all_bregs s));
  ai_regs : Forall (region_ok (t_nextFreeBlock s)) (L ++ map ireg (all_items s) ++ all_bregs s);
  ai_rec : Forall (fun a => length (al_recycler a) = recyclerLen) (t_allocs s);
  ai_nf : Forall bump_ok (t_allocs s);
  ai_nb : t_nextFreeBlock s < maxBlockCount;
  ai_pos : Forall (fun it => (0 < it.1.2)%nat) (all_items s)
}.

(** Everything but the allocators' private state and the block counter. *)
Record same_tree (s s' : tree) : Prop := {
  st_locks : t_locks s' = t_locks s;
  st_root : t_root s' = t_root s;
  st_rootLock : t_rootLock s' = t_rootLock s;
  st_epoch : t_epoch s' = t_epoch s;
  st_resv : t_resv s' = t_resv s;
  st_nallocs : length (t_allocs s') = length (t_allocs s);
  st_len : len s' = len s;
  st_nb : t_nextFreeBlock s <= t_nextFreeBlock s'
}.

Lemma same_tree_refl s : same_tree s s.
Proof. split; done. Qed.
Lemma same_tree_trans s1 s2 s3 : same_tree s1 s2 -> same_tree s2 s3 -> same_tree s1 s3.
Proof. intros [] []. split; try congruence. lia. Qed.

(** Address [x] cannot be handed out as long as some reservation is at most [r]. *)
Record safe_from (s : tree) (r x : N) : Prop := {
  sf_items : forall it, it ∈ all_items s -> x ∈ seqN it.1.1 it.1.2 -> r <= it.2;
  sf_bregs : x ∉ cover (all_bregs s);
  sf_blk : x / blockSlots < t_nextFreeBlock s
}.

(** ** Length *)

Lemma fold_add (l : list Z) z : fold_left Z.add l z = (z + fold_left Z.add l 0)%Z.
Proof.
  revert z; induction l as [|x l IH]; intros z; simpl; [lia|].
  rewrite (IH (z + x)%Z), (IH (0 + x)%Z). lia.
Qed.

Lemma len_put s aid a a' : t_allocs s !! aid = Some a ->
  len (put_alloc s aid a') = (len s - al_items a + al_items a')%Z.
Proof.
  intros H. unfold len, put_alloc, set_allocs. cbn [t_allocs t_live].
  apply elem_of_list_split_length in H as (l1 & l2 & -> & ->).
  rewrite insert_app_r_alt by lia. rewrite Nat.sub_diag. simpl.
  rewrite !map_app. simpl. rewrite !fold_left_app. simpl.
  rewrite (fold_add _ (_ + al_items a)), (fold_add _ (_ + al_items a')). lia.
Qed.

Lemma put_split s aid a : t_allocs s !! aid = Some a ->
  exists l1 l2, t_allocs s = l1 ++ a :: l2 /\ forall a', <[aid := a']> (t_allocs s) = l1 ++ a' :: l2.
Proof.
  intros H. apply elem_of_list_split_length in H as (l1 & l2 & E & ->).
  exists l1, l2. split; [done|]. intros a'. rewrite E, insert_app_r_alt by lia.
  by rewrite Nat.sub_diag.
Qed.

Lemma get_alloc_ok s aid : (aid < length (t_allocs s))%nat -> exists a, get_alloc s aid = Ok a /\ t_allocs s !! aid = Some a.
Proof.
  intros H. destruct (lookup_lt_is_Some_2 _ _ H) as [a Ha]. exists a. unfold get_alloc. by rewrite Ha.
Qed.

(** ** Recycler list facts *)

Lemma ritems_alter t0 r t l : r !! t = Some l ->
  exists rest, ritems t0 r ≡ₚ map (fun it => (it.1, (t0 + t)%nat, it.2)) l ++ rest /\
    forall f, ritems t0 (alter f t r) ≡ₚ map (fun it => (it.1, (t0 + t)%nat, it.2)) (f l) ++ rest.
Proof.
  revert t0 t; induction r as [|l' r IH]; intros t0 t H; [done|].
  destruct t as [|t]; simpl in *.
  - injection H as ->. exists (ritems (S t0) r). rewrite Nat.add_0_r. done.
  - destruct (IH (S t0) t H) as (rest & E1 & E2).
    exists (map (fun it => (it.1, t0, it.2)) l' ++ rest). replace (t0 + S t)%nat with (S t0 + t)%nat by lia.
    split.
    + rewrite E1. solve_Permutation.
    + intros f. specialize (E2 f). unfold alter in E2. rewrite E2. solve_Permutation.
Qed.

Lemma swap_remove_perm i l x : l !! i = Some x -> l ≡ₚ x :: swap_remove i l.
Proof.
  intros H. unfold swap_remove. destruct (last l) as [y|] eqn:E.
  2:{ apply last_None in E. by subst. }
  apply last_Some in E as [l' ->]. rewrite app_length. simpl.
  replace (length l' + 1 - 1)%nat with (length l') by lia.
  destruct (decide (i < length l')%nat) as [Hi|Hi].
  - rewrite lookup_app_l in H by done. rewrite insert_app_l by done.
    rewrite take_app_le by (rewrite insert_length; lia).
    rewrite take_ge by (rewrite insert_length; lia).
    apply elem_of_list_split_length in H as (l1 & l2 & -> & ->).
    rewrite insert_app_r_alt by lia. rewrite Nat.sub_diag. simpl. solve_Permutation.
  - assert (i = length l') as ->.
    { apply lookup_lt_Some in H. rewrite app_length in H. simpl in H. lia. }
    rewrite lookup_app_r, Nat.sub_diag in H by lia. injection H as ->.
    rewrite insert_app_r_alt by lia. rewrite Nat.sub_diag. simpl. rewrite take_app. solve_Permutation.
Qed.

Lemma find_item_spec minr i0 l i it : find_item minr i0 l = Some (i, it) ->
  exists j, i = (i0 + j)%nat /\ l !! j = Some it /\ it.2 < minr.
Proof.
  revert i0; induction l as [|x l IH]; intros i0; simpl; [done|].
  destruct (N.ltb_spec (snd x) minr).
  - intros [= <- <-]. exists 0%nat. split_and!; [lia|done|done].
  - intros (j & -> & ? & ?)%IH. exists (S j). split_and!; [lia|done|done].
Qed.

Lemma find_recycled_spec r minr ts t i it : find_recycled r minr ts = Some (t, i, it) ->
  t ∈ ts /\ exists l, r !! t = Some l /\ l !! i = Some it /\ it.2 < minr.
Proof.
  induction ts as [|t' ts IH]; simpl; [done|].
  destruct (r !! t') as [l|] eqn:Er; [|done].
  destruct (find_item minr 0 l) as [[i' it']|] eqn:Ef.
  - intros [= -> -> ->]. split; [left|]. apply find_item_spec in Ef as (j & -> & Hj & Hlt). eauto.
  - intros (? & ?)%IH. split; [by right|done].
Qed.

Lemma size_classes_elem slots t : t ∈ size_classes slots -> (slots <= t < recyclerLen)%nat /\ (t - slots <> 1)%nat.
Proof.
  unfold size_classes. destruct (Nat.ltb_spec slots recyclerLen); [|by intros ?%elem_of_nil].
  intros [->|Hs]%elem_of_cons; [lia|]. rewrite elem_of_seq in Hs. lia.
Qed.

Lemma elem_of_ritems_class t0 r n t e : (n, t, e) ∈ ritems t0 r -> (t0 <= t < t0 + length r)%nat.
Proof.
  revert t0; induction r as [|l r IH]; intros t0; simpl; [by intros ?%elem_of_nil|].
  intros [H|H]%elem_of_app.
  - apply elem_of_list_fmap in H as (it & [= -> -> ->] & _). lia.
  - apply IH in H. lia.
Qed.

(** ** Regions *)

Ltac gdiv r b :=
  let q := fresh "q" in let m := fresh "m" in
  pose proof (N.div_mod' r b); pose proof (N.mod_lt r b ltac:(lia));
  set (q := r / b) in *; set (m := r mod b) in *; clearbody q m.

Lemma region_ok_mono nb nb' r : region_ok nb r -> nb <= nb' -> region_ok nb' r.
Proof. unfold region_ok. intros [H|(?&?&?)] Hle; [by left|right]. split_and!; try done. lia. Qed.

Lemma region_ok_block nb r x : region_ok nb r -> x ∈ seqN r.1 r.2 ->
  0 < x /\ x / blockSlots = r.1 / blockSlots /\ x / blockSlots < nb.
Proof.
  unfold region_ok, blockSlots. rewrite elem_of_seqN. intros [H|(H1 & H2 & H3)] Hx; [lia|].
  assert (E : x / 262144 = r.1 / 262144).
  { symmetry. apply N.div_unique with (x - r.1 / 262144 * 262144); gdiv r.1 262144; lia. }
  split_and!; lia.
Qed.

Lemma cover_block nb l x : Forall (region_ok nb) l -> x ∈ cover l -> x / blockSlots < nb.
Proof.
  intros Hl (r & Hr & Hx)%elem_of_cover. rewrite Forall_forall in Hl.
  by apply (region_ok_block nb r x (Hl _ Hr)).
Qed.

Lemma region_split nb n t k : region_ok nb (n, t) -> (k <= t)%nat ->
  region_ok nb (n, k) /\ region_ok nb (n + N.of_nat k, (t - k)%nat).
Proof.
  intros H Hk. unfold region_ok in *. simpl in *.
  destruct H as [->|(H1 & H2 & H3)]; [split; left; lia|].
  split; [right; lia|].
  destruct (decide (t - k = 0)%nat); [by left|]. right.
  unfold blockSlots in *.
  assert (E : (n + N.of_nat k) / 262144 = n / 262144).
  { symmetry. apply N.div_unique with (n mod 262144 + N.of_nat k); gdiv n 262144; lia. }
  rewrite E. split_and!; [lia| |done].
  assert (E' : (n + N.of_nat k) mod 262144 = n mod 262144 + N.of_nat k).
  { symmetry. apply N.mod_unique with (n / 262144); gdiv n 262144; lia. }
  rewrite E'. lia.
Qed.

Lemma seqN_split n t k : (k <= t)%nat -> seqN n t = seqN n k ++ seqN (n + N.of_nat k) (t - k).
Proof. intros. rewrite <- seqN_app. f_equal. lia. Qed.

(** ** Minimum reservation *)

Lemma min_fold l m : fold_left (fun m r => if r <? m then r else m) l m <= m /\
  forall r, r ∈ l -> fold_left (fun m r => if r <? m then r else m) l m <= r.
Proof.
  revert m; induction l as [|x l IH]; intros m; simpl; [split; [lia|by intros ? ?%elem_of_nil]|].
  destruct (IH (if x <? m then x else m)) as [H1 H2]. destruct (N.ltb_spec x m).
  - split; [lia|]. intros r [->|Hr]%elem_of_cons; [done|auto].
  - split; [lia|]. intros r [->|Hr]%elem_of_cons; [lia|auto].
Qed.

Lemma min_reservation_le s r : r ∈ t_resv s -> min_reservation s <= r.
Proof. apply min_fold. Qed.

(** ** The ledger of one allocator *)

Definition ledger (s : tree) (L : list (N * nat)) : list (N * nat) :=
  L ++ map ireg (all_items s) ++ all_bregs s.

Lemma ledger_put s aid a : t_allocs s !! aid = Some a -> exists (RI : list (N * nat * N)) (RB : list (N * nat)),
  all_items s ≡ₚ al_its a ++ RI /\ all_bregs s ≡ₚ breg a :: RB /\
  (forall s1 a', t_allocs s1 = t_allocs s ->
     all_items (put_alloc s1 aid a') ≡ₚ al_its a' ++ RI /\ all_bregs (put_alloc s1 aid a') ≡ₚ breg a' :: RB).
Proof.
  intros H. destruct (put_split s aid a H) as (l1 & l2 & E & Ei).
  exists ((l1 ++ l2) ≫= al_its), (map breg (l1 ++ l2)). unfold all_items, all_bregs.
  split_and!.
  - rewrite E, !bind_app. simpl. solve_Permutation.
  - rewrite E, !map_app. simpl. solve_Permutation.
  - intros s1 a' E1. unfold put_alloc, set_allocs. cbn [t_allocs]. rewrite E1, Ei. split.
    + rewrite !bind_app. simpl. solve_Permutation.
    + rewrite !map_app. simpl. solve_Permutation.
Qed.

Lemma NoDup_sub (l1 l2 : list N) : l1 ⊆+ l2 -> NoDup l2 -> NoDup l1.
Proof. intros [k E]%submseteq_Permutation H. rewrite E in H. by apply NoDup_app in H as (? & _). Qed.

Lemma Forall_put {P : allocator -> Prop} s aid a a' : t_allocs s !! aid = Some a ->
  Forall P (t_allocs s) -> P a' -> Forall P (<[aid := a']> (t_allocs s)).
Proof. intros H1 H2 H3. by apply Forall_insert. Qed.

Definition alloc_post (s s' : tree) (n : N) (slots : nat) (L : list (N * nat)) : Prop :=
  alloc_inv s' ((n, slots) :: L) /\ same_tree s s' /\ t_mem s' = t_mem s /\
  (forall r x, safe_from s r x -> (exists r', r' ∈ t_resv s /\ r' <= r) ->
     x ∉ seqN n slots /\ safe_from s' r x).

Definition maxSlots : nat := N.to_nat 262142.

Lemma bump_alloc_ok s aid slots L :
  alloc_inv s L -> (aid < length (t_allocs s))%nat -> (1 <= slots)%nat -> N.of_nat slots <= 262142 ->
  bump_alloc s aid slots = Panic OutOfBlocks \/
  exists n s', bump_alloc s aid slots = Ok (n, s') /\ alloc_post s s' n slots L.
Proof.
  intros Hinv Haid Hs1 Hs2. destruct (get_alloc_ok s aid Haid) as (a & Ega & Ha).
  unfold bump_alloc. rewrite Ega. cbn [bind].
  destruct (ledger_put s aid a Ha) as (RI & RB & EI & EB & Eput).
  destruct Hinv as [Hnd Hreg Hrec Hnf Hnb Hpos].
  assert (Hbo : bump_ok a).
  { rewrite Forall_forall in Hnf. apply Hnf. by eapply elem_of_list_lookup_2. }
  pose proof (proj1 Hbo) as Hnfa.
  destruct (N.leb_spec blockSize (al_nextFree a + N.of_nat slots * 8)) as [Hge|Hlt].
  - unfold receive_block. destruct (N.ltb_spec (t_nextFreeBlock s + 1) maxBlockCount) as [Hb|Hb]; [|by left].
    right. cbn [bind].
    set (b := t_nextFreeBlock s) in *.
    set (off := if b * blockSize =? 0 then 8 else b * blockSize).
    set (a' := Alloc false (N.of_nat slots * 8) b off (al_recycler a) (al_counter a) (al_items a)).
    set (s1 := set_nextFreeBlock s (b + 1)).
    exists (N.shiftr off 3), (put_alloc s1 aid a'). split; [done|].
    destruct (Eput s1 a' eq_refl) as [EI' EB'].
    assert (Eits : al_its a' = al_its a) by done.
    assert (Hoff : N.shiftr off 3 = b * 262144 + (if b =? 0 then 1 else 0)).
    { rewrite N.shiftr_div_pow2. change (2 ^ 3) with 8. unfold off, blockSize.
      destruct (N.eqb_spec b 0) as [->|]; [done|].
      rewrite (proj2 (N.eqb_neq _ _)) by lia.
      replace (b * 2097152) with ((b * 262144) * 8) by lia. rewrite N.div_mul by lia. lia. }
    assert (Hbr : breg a' = (N.shiftr off 3 + N.of_nat slots, N.to_nat (262144 - N.of_nat slots - 1))).
    { unfold breg, a'. cbn [al_offset al_nextFree]. f_equal.
      - rewrite !N.shiftr_div_pow2. change (2 ^ 3) with 8. rewrite N.div_add by lia. done.
      - f_equal. unfold blockSize. replace (2097152 - N.of_nat slots * 8) with ((262144 - N.of_nat slots) * 8) by lia.
        by rewrite N.div_mul by lia. }
    assert (Hblk : forall x, x ∈ seqN (N.shiftr off 3) (slots + N.to_nat (262144 - N.of_nat slots - 1)) ->
              x / blockSlots = b).
    { intros x Hx. rewrite elem_of_seqN in Hx. rewrite Hoff in Hx. symmetry.
      apply N.div_unique with (x - b * 262144); unfold blockSlots; destruct (b =? 0); lia. }
    assert (Hcov : cover ((N.shiftr off 3, slots) :: [breg a']) =
              seqN (N.shiftr off 3) (slots + N.to_nat (262144 - N.of_nat slots - 1))).
    { rewrite Hbr, !cover_cons, seqN_app. simpl. unfold cover. simpl. by rewrite app_nil_r. }
    assert (Eled : ledger (put_alloc s1 aid a') ((N.shiftr off 3, slots) :: L) ≡ₚ
              ((N.shiftr off 3, slots) :: [breg a']) ++ (L ++ map ireg (al_its a ++ RI) ++ RB)).
    { unfold ledger. rewrite EI', EB', Eits. rewrite map_app. solve_Permutation. }
    assert (Eold : ledger s L ≡ₚ breg a :: (L ++ map ireg (al_its a ++ RI) ++ RB)).
    { unfold ledger. rewrite EI, EB. rewrite map_app. solve_Permutation. }
    change (L ++ map ireg (all_items s) ++ all_bregs s) with (ledger s L) in Hnd, Hreg.
    rewrite Eold in Hnd, Hreg. rewrite cover_cons in Hnd. apply NoDup_app in Hnd as (_ & _ & Hnd).
    apply Forall_cons in Hreg as [Hrega Hreg].
    split_and!.
    + split; fold (ledger (put_alloc s1 aid a') ((N.shiftr off 3, slots) :: L)).
      * rewrite Eled, cover_app, Hcov. apply NoDup_app. split_and!; [apply NoDup_seqN| |done].
        intros x Hx%Hblk Hx2. apply (cover_block _ _ _ Hreg) in Hx2. unfold b in *. lia.
      * rewrite Eled. change (t_nextFreeBlock (put_alloc s1 aid a')) with (b + 1).
        apply Forall_app. split.
        -- rewrite Hbr, Hoff. apply Forall_cons; split; [|apply Forall_singleton]; right; cbn [fst snd]; unfold blockSlots.
           ++ assert ((b * 262144 + (if b =? 0 then 1 else 0)) / 262144 = b) as ->.
              { symmetry. apply N.div_unique with (if b =? 0 then 1 else 0); destruct (b =? 0); lia. }
              assert ((b * 262144 + (if b =? 0 then 1 else 0)) mod 262144 = (if b =? 0 then 1 else 0)) as ->.
              { symmetry. apply N.mod_unique with b; destruct (b =? 0); lia. }
              destruct (N.eqb_spec b 0); lia.
           ++ assert ((b * 262144 + (if b =? 0 then 1 else 0) + N.of_nat slots) / 262144 = b) as ->.
              { symmetry. apply N.div_unique with ((if b =? 0 then 1 else 0) + N.of_nat slots); destruct (b =? 0); lia. }
              assert ((b * 262144 + (if b =? 0 then 1 else 0) + N.of_nat slots) mod 262144 = (if b =? 0 then 1 else 0) + N.of_nat slots) as ->.
              { symmetry. apply N.mod_unique with b; destruct (b =? 0); lia. }
              destruct (N.eqb_spec b 0); lia.
        -- eapply Forall_impl; [exact Hreg|]. intros r Hr. eapply region_ok_mono; [done|lia].
      * unfold put_alloc, set_allocs. cbn [t_allocs]. apply Forall_insert; [done|].
        rewrite Forall_forall in Hrec. cbn. apply Hrec. by eapply elem_of_list_lookup_2.
      * unfold put_alloc, set_allocs. cbn [t_allocs]. apply Forall_insert; [done|].
        unfold bump_ok, a'. cbn [al_nextFree al_block al_offset]. split_and!.
        -- apply N.mod_mul. lia.
        -- unfold blockSize. lia.
        -- unfold maxBlockCount in *. lia.
        -- unfold off, blockSize, maxBlockCount in *. destruct (b * 2097152 =? 0); lia.
      * done.
      * by rewrite EI', Eits, <- EI.
    + split; try done.
      * apply insert_length.
      * rewrite (len_put s1 aid a a' Ha). unfold len. cbn. lia.
      * unfold b. cbn. lia.
    + done.
    + intros r x [Hi Hbx Hblkx] _. split.
      * intros Hx. assert (x / blockSlots = b).
        { apply Hblk. rewrite seqN_app. apply elem_of_app. by left. }
        unfold b in *. lia.
      * split.
        -- intros it. rewrite EI', Eits, <- EI. apply Hi.
        -- rewrite EB', cover_cons. rewrite EB, cover_cons in Hbx.
           rewrite not_elem_of_app in Hbx |- *. split; [|tauto].
           intros Hx. assert (x / blockSlots = b); [|unfold b in *; lia].
           apply Hblk. rewrite <- Hcov. rewrite !cover_cons. apply elem_of_app. right.
           apply elem_of_app. by left.
        -- cbn. unfold b in *. lia.
  - right. eexists _, _. split; [done|].
    set (a' := Alloc _ _ _ _ _ _ _).
    destruct (Eput s a' eq_refl) as [EI' EB'].
    assert (Eits : al_its a' = al_its a) by done.
    assert (Hq : exists q, (blockSize - al_nextFree a) = q * 8 /\ N.of_nat slots + 1 <= q).
    { unfold blockSize in *. pose proof (N.div_mod' (al_nextFree a) 8) as E. rewrite Hnfa in E.
      exists (262144 - al_nextFree a / 8). set (z := al_nextFree a / 8) in *. clearbody z. lia. }
    destruct Hq as (q & Hq1 & Hq2).
    assert (Hb : breg a = (N.shiftr (al_offset a + al_nextFree a) 3, N.to_nat (q - 1))).
    { unfold breg. rewrite Hq1, N.div_mul by lia. done. }
    set (p := N.shiftr (al_offset a + al_nextFree a) 3) in *.
    assert (Hb' : breg a' = (p + N.of_nat slots, (N.to_nat (q - 1) - slots)%nat)).
    { unfold breg, a'. cbn [al_offset al_nextFree]. f_equal.
      - unfold p. rewrite !N.shiftr_div_pow2. change (2 ^ 3) with 8. rewrite N.add_assoc, N.div_add by lia. done.
      - rewrite N.sub_add_distr, Hq1. replace (q * 8 - N.of_nat slots * 8) with ((q - N.of_nat slots) * 8) by lia.
        rewrite N.div_mul by lia. lia. }
    assert (Eled : ledger (put_alloc s aid a') ((p, slots) :: L) ≡ₚ
              ((p, slots) :: [breg a']) ++ (L ++ map ireg (al_its a ++ RI) ++ RB)).
    { unfold ledger. rewrite EI', EB', Eits. rewrite map_app. solve_Permutation. }
    assert (Eold : ledger s L ≡ₚ breg a :: (L ++ map ireg (al_its a ++ RI) ++ RB)).
    { unfold ledger. rewrite EI, EB. rewrite map_app. solve_Permutation. }
    assert (Hsp : seqN p (N.to_nat (q - 1)) = seqN p slots ++ seqN (p + N.of_nat slots) (N.to_nat (q - 1) - slots)).
    { apply seqN_split. lia. }
    change (L ++ map ireg (all_items s) ++ all_bregs s) with (ledger s L) in Hnd, Hreg.
    rewrite Eold in Hnd, Hreg. rewrite cover_cons in Hnd.
    apply Forall_cons in Hreg as [Hrega Hreg].
    split_and!.
    + split; fold (ledger (put_alloc s aid a') ((p, slots) :: L)).
      * rewrite Eled, cover_app, !cover_cons, Hb'. cbn [fst snd]. unfold cover at 1. simpl.
        rewrite app_nil_r. rewrite <- Hsp. by rewrite Hb in Hnd.
      * rewrite Eled. apply Forall_app. split; [|done]. rewrite Hb'. rewrite Hb in Hrega.
        destruct (region_split _ _ _ slots Hrega ltac:(lia)) as [H1 H2].
        apply Forall_cons; split; [done|]. by apply Forall_singleton.
      * unfold put_alloc, set_allocs. cbn [t_allocs]. apply Forall_insert; [done|].
        rewrite Forall_forall in Hrec. cbn. apply Hrec. by eapply elem_of_list_lookup_2.
      * unfold put_alloc, set_allocs. cbn [t_allocs]. apply Forall_insert; [done|].
        unfold bump_ok, a'. cbn [al_nextFree al_block al_offset]. destruct Hbo as (_ & _ & ? & ?). split_and!; [|lia|done|done].
        rewrite N.mod_add by lia. done.
      * done.
      * by rewrite EI', Eits, <- EI.
    + split; try done.
      * apply insert_length.
      * rewrite (len_put s aid a a' Ha). cbn. lia.
    + done.
    + intros r x [Hi Hbx Hblkx] _.
      rewrite EB, cover_cons, Hb in Hbx. cbn [fst snd] in Hbx. rewrite Hsp in Hbx.
      rewrite !not_elem_of_app in Hbx. destruct Hbx as [[Hx1 Hx2] Hx3].
      split; [done|]. split.
      * intros it. rewrite EI', Eits, <- EI. apply Hi.
      * rewrite EB', cover_cons, Hb'. apply not_elem_of_app. done.
      * done.
Qed.

Lemma new_node_ok s aid slots L :
  alloc_inv s L -> (aid < length (t_allocs s))%nat -> (1 <= slots)%nat -> N.of_nat slots <= 262142 ->
  new_node s aid slots = Panic OutOfBlocks \/
  exists n s', new_node s aid slots = Ok (n, s') /\ alloc_post s s' n slots L.
Proof.
  intros Hinv Haid Hs1 Hs2. destruct (get_alloc_ok s aid Haid) as (a & Ega & Ha).
  unfold new_node. rewrite Ega. cbn [bind].
  destruct (find_recycled (al_recycler a) (min_reservation s) (size_classes slots)) as [[[t i] [n e]]|] eqn:Ef.
  2:{ by apply bump_alloc_ok. }
  right. apply find_recycled_spec in Ef as (Ht & l & Hl & Hli & Hlt). cbn [snd] in Hlt.
  apply size_classes_elem in Ht as [Ht1 Ht2].
  set (r1 := alter (swap_remove i) t (al_recycler a)).
  set (r2 := if (2 <=? t - slots)%nat then push_item r1 (t - slots) (n + N.of_nat slots, e) else r1).
  exists n, (put_alloc s aid (al_set_recycler a r2)). split; [done|].
  set (a' := al_set_recycler a r2).
  destruct (ledger_put s aid a Ha) as (RI & RB & EI & EB & Eput).
  destruct (Eput s a' eq_refl) as [EI' EB'].
  assert (Hbr : breg a' = breg a) by done.
  destruct Hinv as [Hnd Hreg Hrec Hnf Hnb Hpos].
  assert (Hlen : length (al_recycler a) = recyclerLen).
  { rewrite Forall_forall in Hrec. apply Hrec. by eapply elem_of_list_lookup_2. }
  assert (Hlen1 : length r1 = recyclerLen) by (unfold r1; by rewrite alter_length).
  assert (Hits : exists I, al_its a ≡ₚ (n, t, e) :: I /\
            al_its a' ≡ₚ (if (2 <=? t - slots)%nat then [(n + N.of_nat slots, (t - slots)%nat, e)] else []) ++ I).
  { unfold al_its. destruct (ritems_alter 0 _ _ _ Hl) as (rest & E1 & E2).
    specialize (E2 (swap_remove i)). fold r1 in E2.
    pose proof (swap_remove_perm i l _ Hli) as Hp.
    exists (ritems 0 r1). split.
    - rewrite E1, E2. rewrite Hp at 1. done.
    - unfold a', al_set_recycler. cbn [al_recycler]. unfold r2.
      destruct (Nat.leb_spec 2 (t - slots)); [|done].
      destruct (lookup_lt_is_Some_2 r1 (t - slots)) as [l1 Hl1].
      { rewrite Hlen1. unfold recyclerLen in *. lia. }
      destruct (ritems_alter 0 _ _ _ Hl1) as (rest1 & E3 & E4).
      unfold push_item. rewrite (E4 (fun l => l ++ _)), E3. rewrite map_app. cbn. solve_Permutation. }
  destruct Hits as (I & EIa & EIa').
  set (X := if (2 <=? t - slots)%nat then [(n + N.of_nat slots, (t - slots)%nat, e)] else []) in *.
  assert (HX : cover (map ireg X) = seqN (n + N.of_nat slots) (t - slots)).
  { unfold X. destruct (Nat.leb_spec 2 (t - slots)) as [H|H].
    - unfold ireg. cbn. unfold cover. cbn. by rewrite app_nil_r.
    - replace (t - slots)%nat with 0%nat by lia. done. }
  assert (Eled : ledger (put_alloc s aid a') ((n, slots) :: L) ≡ₚ
            (n, slots) :: map ireg X ++ (L ++ map ireg (I ++ RI) ++ breg a :: RB)).
  { unfold ledger. rewrite EI', EB', EIa', Hbr. rewrite !map_app. solve_Permutation. }
  assert (Eold : ledger s L ≡ₚ (n, t) :: (L ++ map ireg (I ++ RI) ++ breg a :: RB)).
  { unfold ledger. rewrite EI, EB, EIa. rewrite !map_app. simpl. unfold ireg at 1. cbn. solve_Permutation. }
  change (L ++ map ireg (all_items s) ++ all_bregs s) with (ledger s L) in Hnd, Hreg.
  rewrite Eold in Hnd, Hreg. rewrite cover_cons in Hnd. cbn [fst snd] in Hnd.
  rewrite (seqN_split n t slots) in Hnd by lia.
  apply Forall_cons in Hreg as [Hrega Hreg].
  destruct (region_split _ _ _ slots Hrega ltac:(lia)) as [Hr1 Hr2].
  split_and!.
  - split; fold (ledger (put_alloc s aid a') ((n, slots) :: L)).
    + rewrite Eled, cover_cons, cover_app, HX. cbn [fst snd]. by rewrite <- app_assoc in Hnd.
    + rewrite Eled. apply Forall_cons; split; [done|]. apply Forall_app; split; [|done].
      unfold X. destruct (2 <=? t - slots)%nat; [by apply Forall_singleton|apply Forall_nil_2].
    + unfold put_alloc, set_allocs. cbn [t_allocs]. apply Forall_insert; [done|].
      unfold a', al_set_recycler. cbn. unfold r2. destruct (2 <=? t - slots)%nat; [|done].
      unfold push_item. by rewrite alter_length.
    + unfold put_alloc, set_allocs. cbn [t_allocs]. apply Forall_insert; [done|].
      rewrite Forall_forall in Hnf. apply (Hnf a). by eapply elem_of_list_lookup_2.
    + done.
    + rewrite EI', EIa'. rewrite EI, EIa in Hpos. simpl in Hpos. apply Forall_cons in Hpos as [_ Hpos].
      rewrite <- app_assoc. apply Forall_app; split; [|done].
      unfold X. destruct (Nat.leb_spec 2 (t - slots)); [|apply Forall_nil_2]. apply Forall_singleton. cbn. lia.
  - split; try done.
    + apply insert_length.
    + rewrite (len_put s aid a a' Ha). cbn. lia.
  - done.
  - intros r x [Hi Hbx Hblkx] (r' & Hr' & Hle).
    pose proof (min_reservation_le s r' Hr') as Hmin.
    assert (Hxt : x ∉ seqN n t).
    { intros Hx. specialize (Hi (n, t, e)). cbn in Hi. rewrite EI, EIa in Hi.
      specialize (Hi ltac:(left) Hx). lia. }
    rewrite (seqN_split n t slots) in Hxt by lia. apply not_elem_of_app in Hxt as [Hx1 Hx2].
    split; [done|]. split.
    + intros it. rewrite EI', EIa'. rewrite !elem_of_app. intros [[Hit|Hit]|Hit] Hx.
      * exfalso. apply Hx2. rewrite <- HX. apply elem_of_cover. exists (ireg it). split; [|done].
        apply elem_of_list_fmap. by exists it.
      * apply Hi; [|done]. rewrite EI, EIa. rewrite elem_of_app. left. by right.
      * apply Hi; [|done]. rewrite EI, EIa. rewrite elem_of_app. by right.
    + rewrite EB', Hbr, <- EB. done.
    + done.
Qed.

(** ** Recycling *)

Lemma recycle_ok s aid node slots L :
  alloc_inv s ((node, slots) :: L) -> (aid < length (t_allocs s))%nat -> slots <> recyclerLen -> (0 < slots)%nat ->
  exists s', recycle s aid node slots = Ok s' /\ alloc_inv s' L /\
    t_mem s' = t_mem s /\ t_locks s' = t_locks s /\ t_root s' = t_root s /\ t_rootLock s' = t_rootLock s /\
    t_resv s' = t_resv s /\ length (t_allocs s') = length (t_allocs s) /\ len s' = len s /\
    t_nextFreeBlock s' = t_nextFreeBlock s /\
    (t_epoch s' = t_epoch s \/ t_epoch s' = u64 (t_epoch s + 1)) /\
    (forall r x, x ∉ seqN node slots -> safe_from s r x -> safe_from s' r x) /\
    (forall r x, x ∈ seqN node slots -> r <= t_epoch s -> safe_from s' r x).
Proof.
  intros Hinv Haid Hne Hsp. destruct (get_alloc_ok s aid Haid) as (a & Ega & Ha).
  unfold recycle. destruct (Nat.ltb_spec recyclerLen slots) as [Hbig|Hsmall].
  - (* not recycled: leaked *)
    exists s. split; [done|]. destruct Hinv as [Hnd Hreg Hrec Hnf Hnb Hpos].
    split_and!; try done; [..|by left|].
    + split; try done.
      * simpl in Hnd. rewrite cover_cons in Hnd. by apply NoDup_app in Hnd as (_ & _ & ?).
      * by inversion Hreg.
    + intros r x Hx Hr. simpl in Hnd. rewrite cover_cons in Hnd. apply NoDup_app in Hnd as (_ & Hdis & _).
      specialize (Hdis x Hx). rewrite !cover_app, !not_elem_of_app in Hdis. destruct Hdis as (_ & H1 & H2).
      split; [|done|].
      * intros it Hit Hx'. exfalso. apply H1. apply elem_of_cover. exists (ireg it). split; [|done].
        apply elem_of_list_fmap. by exists it.
      * simpl in Hreg. apply Forall_cons in Hreg as [Hr1 _].
        by destruct (region_ok_block _ _ x Hr1 Hx) as (_ & _ & ?).
  - rewrite (proj2 (Nat.leb_gt _ _)) by lia. rewrite Ega. cbn [bind].
    set (r := push_item (al_recycler a) slots (node, t_epoch s)).
    destruct (ledger_put s aid a Ha) as (RI & RB & EI & EB & Eput).
    destruct Hinv as [Hnd Hreg Hrec Hnf Hnb Hpos].
    assert (Hlen : length (al_recycler a) = recyclerLen).
    { rewrite Forall_forall in Hrec. apply Hrec. by eapply elem_of_list_lookup_2. }
    assert (Hnfa : bump_ok a).
    { rewrite Forall_forall in Hnf. apply Hnf. by eapply elem_of_list_lookup_2. }
    assert (Hr : ritems 0 r ≡ₚ (node, slots, t_epoch s) :: al_its a).
    { unfold r, al_its. destruct (lookup_lt_is_Some_2 (al_recycler a) slots) as [l1 Hl1]; [lia|].
      destruct (ritems_alter 0 _ _ _ Hl1) as (rest1 & E3 & E4).
      unfold push_item. rewrite (E4 (fun l => l ++ _)), E3. rewrite map_app. cbn. solve_Permutation. }
    (* both branches produce a state with the same allocator view *)
    assert (Hgen : forall s', t_allocs s' = <[aid := match t_allocs s' !! aid with Some x => x | None => a end]> (t_allocs s) ->
      (exists a', t_allocs s' !! aid = Some a' /\ al_recycler a' = r /\ breg a' = breg a /\ bump_ok a') ->
      t_nextFreeBlock s' = t_nextFreeBlock s ->
      alloc_inv s' L /\
      (forall r x, x ∉ seqN node slots -> safe_from s r x -> safe_from s' r x) /\
      (forall r x, x ∈ seqN node slots -> r <= t_epoch s -> safe_from s' r x)).
    { intros s' Es' (a' & Ha' & Er & Eb & En) Enb. rewrite Ha' in Es'.
      assert (EIB : all_items s' ≡ₚ al_its a' ++ RI /\ all_bregs s' ≡ₚ breg a' :: RB).
      { unfold all_items, all_bregs. rewrite Es'. apply (Eput s a' eq_refl). }
      destruct EIB as [EI' EB'].
      assert (Eits : al_its a' ≡ₚ (node, slots, t_epoch s) :: al_its a) by (unfold al_its at 1; by rewrite Er).
      assert (Eled : ledger s' L ≡ₚ ledger s ((node, slots) :: L)).
      { unfold ledger. rewrite EI', EB', EI, EB, Eits, Eb. simpl. unfold ireg at 1. cbn. solve_Permutation. }
      split_and!.
      - split; fold (ledger s' L).
        + by rewrite Eled.
        + rewrite Eled, Enb. done.
        + rewrite Es'. apply Forall_insert; [done|]. rewrite Er. unfold r, push_item. by rewrite alter_length.
        + rewrite Es'. by apply Forall_insert.
        + by rewrite Enb.
        + rewrite EI', Eits. simpl. apply Forall_cons; split; [done|]. by rewrite <- EI.
      - intros r0 x Hx [Hi Hb Hk]. split.
        + intros it. rewrite EI', Eits. simpl. intros [->|Hit]%elem_of_cons Hx'; [done|].
          apply Hi; [|done]. by rewrite EI.
        + by rewrite EB', Eb, <- EB.
        + by rewrite Enb.
      - intros r0 x Hx Hr0. simpl in Hnd. rewrite cover_cons in Hnd. apply NoDup_app in Hnd as (_ & Hdis & _).
        specialize (Hdis x Hx). rewrite !cover_app, !not_elem_of_app in Hdis. destruct Hdis as (_ & H1 & H2).
        split.
        + intros it. rewrite EI', Eits. simpl. intros [->|Hit]%elem_of_cons Hx'; [done|].
          exfalso. apply H1. rewrite EI. apply elem_of_cover. exists (ireg it). split; [|done].
          apply elem_of_list_fmap. by exists it.
        + rewrite EB', Eb, <- EB. done.
        + rewrite Enb. simpl in Hreg. apply Forall_cons in Hreg as [Hr1 _].
          by destruct (region_ok_block _ _ x Hr1 Hx) as (_ & _ & ?). }
    destruct (N.leb_spec 1000 (al_counter a + 1)) as [Hc|Hc].
    + set (a1 := Alloc _ _ _ _ _ _ _). unfold flush_stats, get_alloc.
      cbn [t_allocs set_epoch put_alloc set_allocs].
      rewrite list_lookup_insert by done. cbn [bind]. eexists. split; [done|].
      match goal with |- alloc_inv ?x _ /\ _ => set (s' := x) end.
      assert (Hal : t_allocs s' = <[aid := al_add_items a1 (- al_items a1)%Z]> (t_allocs s)).
      { unfold s'. cbn. by rewrite list_insert_insert. }
      assert (Hl' : t_allocs s' !! aid = Some (al_add_items a1 (- al_items a1)%Z)).
      { rewrite Hal. by rewrite list_lookup_insert. }
      destruct (Hgen s') as (G1 & G2 & G3).
      { by rewrite Hl'. }
      { eexists. split; [done|]. done. }
      { done. }
      split_and!; try done.
      * rewrite Hal. apply insert_length.
      * unfold len. rewrite Hal. unfold s'. cbn [t_live set_live].
        pose proof (len_put s aid a (al_add_items a1 (- al_items a1)%Z) Ha) as Hlp.
        unfold len, put_alloc, set_allocs in Hlp. cbn [t_allocs t_live] in Hlp.
        rewrite fold_add in Hlp. rewrite fold_add.
        rewrite (fold_add _ (t_live s)) in Hlp |- *. cbn in *. lia.
      * by right.
    + set (a1 := Alloc _ _ _ _ _ _ _). eexists. split; [done|].
      assert (Hl' : t_allocs (put_alloc s aid a1) !! aid = Some a1).
      { cbn. by rewrite list_lookup_insert. }
      destruct (Hgen (put_alloc s aid a1)) as (G1 & G2 & G3).
      { rewrite Hl'. done. }
      { eexists. split; [done|]. done. }
      { done. }
      split_and!; try done.
      * cbn. apply insert_length.
      * rewrite (len_put s aid a a1 Ha). cbn. lia.
      * by left.
Qed.

Lemma add_items_ok s aid d : (aid < length (t_allocs s))%nat ->
  exists s', add_items s aid d = Ok s' /\ len s' = (len s + d)%Z /\
    (forall L, alloc_inv s L -> alloc_inv s' L) /\
    t_mem s' = t_mem s /\ t_locks s' = t_locks s /\ t_root s' = t_root s /\ t_rootLock s' = t_rootLock s /\
    t_resv s' = t_resv s /\ length (t_allocs s') = length (t_allocs s) /\
    t_nextFreeBlock s' = t_nextFreeBlock s /\ t_epoch s' = t_epoch s /\
    (forall r x, safe_from s r x -> safe_from s' r x).
Proof.
  intros Haid. destruct (get_alloc_ok s aid Haid) as (a & Ega & Ha).
  unfold add_items. rewrite Ega. cbn [bind]. eexists. split; [done|].
  destruct (ledger_put s aid a Ha) as (RI & RB & EI & EB & Eput).
  destruct (Eput s (al_add_items a d) eq_refl) as [EI' EB'].
  change (al_its (al_add_items a d)) with (al_its a) in EI'.
  change (breg (al_add_items a d)) with (breg a) in EB'.
  split_and!; try done.
  - rewrite (len_put s aid a _ Ha). cbn. lia.
  - intros L [Hnd Hreg Hrec Hnf Hnb Hpos]. split.
    + rewrite EI', EB', <- EI, <- EB. done.
    + rewrite EI', EB', <- EI, <- EB. done.
    + unfold put_alloc, set_allocs. cbn [t_allocs]. apply Forall_insert; [done|].
      rewrite Forall_forall in Hrec. cbn. apply Hrec. by eapply elem_of_list_lookup_2.
    + unfold put_alloc, set_allocs. cbn [t_allocs]. apply Forall_insert; [done|].
      rewrite Forall_forall in Hnf. apply (Hnf a). by eapply elem_of_list_lookup_2.
    + done.
    + by rewrite EI', <- EI.
  - cbn. apply insert_length.
  - intros r x [Hi Hb Hk]. split.
    + intros it. rewrite EI', <- EI. apply Hi.
    + by rewrite EB', <- EB.
    + done.
Qed.

(** ** Node data and the allocation wrappers *)

Lemma block_of_div a : block_of a = a / blockSlots.
Proof. unfold block_of, blockSlotsShift, blockSlots. by rewrite N.shiftr_div_pow2. Qed.

Lemma offset_of_mod a : offset_of a = a mod blockSlots.
Proof.
  unfold offset_of, blockSlots. change (262144 - 1) with (N.ones 18).
  by rewrite N.land_ones.
Qed.

(** Length of the data slice of a node. *)
Definition dlen (a : N) : N := blockSlots - offset_of a.

Lemma region_ok_fits nb a n : region_ok nb (a, n) -> (0 < n)%nat ->
  0 < a /\ N.of_nat n <= dlen a /\ block_of a < nb.
Proof.
  intros [H|(H1 & H2 & H3)] Hn; simpl in *; [lia|].
  unfold dlen. rewrite block_of_div, offset_of_mod. split_and!; [done| |done].
  unfold blockSlots in *. pose proof (N.mod_lt a 262144 ltac:(lia)). lia.
Qed.

Lemma node_data_eq s a : block_of a < t_nextFreeBlock s -> t_nextFreeBlock s < maxBlockCount ->
  node_data s a = Ok (Slice a (dlen a)).
Proof.
  intros H1 H2. unfold node_data. rewrite (proj2 (N.leb_gt maxBlockCount _)) by lia.
  rewrite (proj2 (N.leb_gt _ _)) by lia. done.
Qed.

Lemma generation_eq s a : block_of a < t_nextFreeBlock s -> t_nextFreeBlock s < maxBlockCount ->
  generation s a = Ok (lget (t_locks s) (lock_id a)).
Proof.
  intros H1 H2. unfold generation. rewrite (proj2 (N.leb_gt maxBlockCount _)) by lia.
  rewrite (proj2 (N.leb_gt _ _)) by lia. done.
Qed.

Lemma alloc_inv_region s L a n : alloc_inv s L -> (a, n) ∈ L -> (0 < n)%nat ->
  0 < a /\ N.of_nat n <= dlen a /\ block_of a < t_nextFreeBlock s.
Proof.
  intros [_ Hr _ _ _] Hin Hn. apply Forall_app in Hr as [Hr _]. rewrite Forall_forall in Hr.
  apply (region_ok_fits _ a n); [|done]. by apply Hr.
Qed.

Lemma alloc_inv_perm s L L' : L ≡ₚ L' -> alloc_inv s L -> alloc_inv s L'.
Proof.
  intros E [H1 H2 H3 H4 H5 H6]. split; try done; by rewrite <- E.
Qed.

Lemma alloc_inv_app s L L' : alloc_inv s (L ++ L') -> alloc_inv s L'.
Proof.
  intros [H1 H2 H3 H4 H5 H6]. split; try done.
  - rewrite <- app_assoc, cover_app in H1. by apply NoDup_app in H1 as (_ & _ & ?).
  - rewrite <- app_assoc in H2. by apply Forall_app in H2 as [_ ?].
Qed.

(** [alloc_inv], [same_tree] and [safe_from] only look at the allocator part of the state. *)
Lemma alloc_inv_ext s s' L : t_allocs s' = t_allocs s -> t_nextFreeBlock s' = t_nextFreeBlock s ->
  alloc_inv s L -> alloc_inv s' L.
Proof.
  intros E1 E2 [H1 H2 H3 H4 H5 H6]. split; unfold all_items, all_bregs in *; rewrite ?E1, ?E2; done.
Qed.

Lemma safe_from_ext s s' r x : t_allocs s' = t_allocs s -> t_nextFreeBlock s' = t_nextFreeBlock s ->
  safe_from s r x -> safe_from s' r x.
Proof.
  intros E1 E2 [H1 H2 H3]. split; unfold all_items, all_bregs in *; rewrite ?E1, ?E2; done.
Qed.

Lemma len_ext s s' : t_allocs s' = t_allocs s -> t_live s' = t_live s -> len s' = len s.
Proof. intros E1 E2. unfold len. by rewrite E1, E2. Qed.

(** Live addresses are safe. *)
Lemma live_safe s L r x : alloc_inv s L -> x ∈ cover L -> safe_from s r x.
Proof.
  intros [H1 H2 _ _ _] Hx. rewrite cover_app in H1. apply NoDup_app in H1 as (_ & Hd & _).
  specialize (Hd x Hx). rewrite cover_app, not_elem_of_app in Hd. destruct Hd as [Hd1 Hd2].
  split.
  - intros it Hit Hx'. exfalso. apply Hd1. apply elem_of_cover. exists (ireg it). split; [|done].
    apply elem_of_list_fmap. by exists it.
  - done.
  - apply Forall_app in H2 as [H2 _]. by apply (cover_block _ L).
Qed.

Lemma live_pos s L x : alloc_inv s L -> x ∈ cover L -> 0 < x.
Proof.
  intros [_ H2 _ _ _] Hx. apply Forall_app in H2 as [H2 _]. apply elem_of_cover in Hx as (r & Hr & Hx).
  rewrite Forall_forall in H2. by apply (region_ok_block _ r x (H2 _ Hr)).
Qed.

(** Addresses no node uses: slot 0, and everything in blocks not handed out yet. *)
Definition unused (s : tree) (x : N) : Prop := x = 0 \/ t_nextFreeBlock s * blockSlots <= x.

Lemma live_used s L x : alloc_inv s L -> x ∈ cover L -> ~ unused s x.
Proof.
  intros [_ H2 _ _ _] Hx. apply Forall_app in H2 as [H2 _]. apply elem_of_cover in Hx as (r & Hr & Hx).
  rewrite Forall_forall in H2. destruct (region_ok_block _ r x (H2 _ Hr) Hx) as (H3 & H4 & H5).
  intros [->|H]; [lia|]. rewrite N.mul_comm in H. apply N.div_le_lower_bound in H; [lia|done].
Qed.

Lemma unused_mono s s' x : t_nextFreeBlock s <= t_nextFreeBlock s' -> unused s' x -> unused s x.
Proof. unfold unused, blockSlots. intros ? [?|?]; [by left|right; lia]. Qed.

(** Such addresses hold 0: Go blocks are zero-filled (radix.go:185-187). *)
Definition zeroed (s : tree) : Prop := forall x, unused s x -> mget (t_mem s) x = 0.

Lemma zeroed_ext s s' : t_mem s' = t_mem s -> t_nextFreeBlock s' = t_nextFreeBlock s -> zeroed s -> zeroed s'.
Proof. intros E1 E2 H x Hx. unfold unused in Hx. rewrite E2 in Hx. rewrite E1. by apply H. Qed.

(** What an allocation of [slots] slots at [n] guarantees. *)
Record allocd (s s' : tree) (n : N) (slots : nat) (L : list (N * nat)) : Prop := {
  ac_inv : alloc_inv s' ((n, slots) :: L);
  ac_same : same_tree s s';
  ac_mem : forall x, x ∉ seqN n slots -> mget (t_mem s') x = mget (t_mem s) x;
  ac_safe : forall r x, safe_from s r x -> (exists r', r' ∈ t_resv s /\ r' <= r) ->
     x ∉ seqN n slots /\ safe_from s' r x
}.

Lemma allocd_fits s s' n slots L : allocd s s' n slots L -> (0 < slots)%nat ->
  0 < n /\ N.of_nat slots <= dlen n /\ block_of n < t_nextFreeBlock s'.
Proof. intros [H _ _ _] Hs. eapply alloc_inv_region; [done|left|done]. Qed.

Lemma allocate_node_ok s aid count plen L :
  alloc_inv s L -> (aid < length (t_allocs s))%nat -> (1 <= count)%nat ->
  N.of_nat (count + prefix_slots plen) <= 262142 ->
  allocate_node s aid count plen = Panic OutOfBlocks \/
  exists n s', allocate_node s aid count plen = Ok (n, Slice n (dlen n), s') /\
    allocd s s' n (count + prefix_slots plen) L /\ t_mem s' = t_mem s.
Proof.
  intros Hinv Haid Hc Hs. unfold allocate_node.
  destruct (new_node_ok s aid (count + prefix_slots plen) L Hinv Haid) as [->|(n & s' & -> & H1 & H2 & H3 & H4)];
    [lia|done|by left|].
  right. cbn [bind]. exists n, s'.
  destruct (alloc_inv_region s' _ n (count + prefix_slots plen) H1) as (_ & _ & Hb); [left|lia|].
  rewrite node_data_eq by (try done; apply H1). cbn [bind]. split; [done|]. split; [|done].
  split; try done. intros x _. by rewrite H3.
Qed.

Lemma allocate_node_with_prefix_ok s aid count pfx L :
  alloc_inv s L -> (aid < length (t_allocs s))%nat -> (1 <= count)%nat -> bytes pfx ->
  N.of_nat (count + prefix_slots (length pfx)) <= 262142 ->
  allocate_node_with_prefix s aid count pfx = Panic OutOfBlocks \/
  exists n s', allocate_node_with_prefix s aid count pfx =
      Ok (n, Slice (n + N.of_nat (prefix_slots (length pfx))) (dlen n - N.of_nat (prefix_slots (length pfx))), s') /\
    allocd s s' n (count + prefix_slots (length pfx)) L /\ prefix_at (t_mem s') n pfx.
Proof.
  intros Hinv Haid Hc Hb Hs. unfold allocate_node_with_prefix.
  destruct (new_node_ok s aid (count + prefix_slots (length pfx)) L Hinv Haid) as [->|(n & s' & -> & H1 & H2 & H3 & H4)];
    [lia|done|by left|].
  right. cbn [bind].
  destruct (alloc_inv_region s' _ n (count + prefix_slots (length pfx)) H1) as (_ & Hfit & Hbk); [left|lia|].
  rewrite node_data_eq by (try done; apply H1). cbn [bind].
  destruct pfx as [|c pfx'] eqn:Epfx.
  - exists n, s'. simpl. rewrite prefix_slots_0. change (N.of_nat 0) with 0. rewrite N.add_0_r, N.sub_0_r.
    split; [done|]. rewrite Nat.add_0_r. simpl in *. rewrite prefix_slots_0, Nat.add_0_r in *. split; [|done]. split; try done.
    intros x _. by rewrite H3.
  - rewrite <- Epfx in *.
    destruct (store_prefix_ok (t_mem s') n (dlen n) pfx Hb) as (m' & E & Hp & Ho); [subst; done|lia|unfold dlen, blockSlots; change (2 ^ 60) with 1152921504606846976; lia|].
    rewrite E. cbn [bind]. unfold sl_from. cbn [sl_len sl_base].
    rewrite (proj2 (N.leb_le _ _)) by lia. cbn [bind].
    exists n, (set_mem s' m'). split; [done|]. split; [|done]. split.
    + by apply (alloc_inv_ext s').
    + destruct H2. split; done.
    + intros x Hx. change (t_mem (set_mem s' m')) with m'. rewrite Ho; [by rewrite H3|]. rewrite elem_of_seqN in *. lia.
    + intros r x Hs1 Hr. destruct (H4 r x Hs1 Hr) as [? Hsf]. split; [done|].
      by apply (safe_from_ext s').
Qed.
