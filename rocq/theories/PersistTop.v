(** * PersistTop: the persistence properties of reachable states. *)
From Coq Require Import String.
From Verif Require Export Same ApiProps.

Lemma restarted_same s s' : restarted s s' -> same s s'.
Proof. intros H. split; apply H. Qed.

Section Top.
Context (K : list N -> Prop) (fetch : N -> list N).
Notation reachable := (reachable K fetch).

(** What [restart_ok] asks of a tree, for reachable states. *)
Lemma reach_fits n tr y : reachable n tr y -> exists L,
  alloc_inv (sy_tree y) L /\ zeroed (sy_tree y) /\ t_root (sy_tree y) <= maxUint64 /\ t_epoch (sy_tree y) <= maxUint64.
Proof.
  intros Hr. pose proof (rc_univ _ _ _ _ _ Hr) as HK. pose proof (rc_len _ _ _ _ _ Hr) as Hl.
  destruct (reach_inv K fetch _ _ _ Hr) as (T & lost & Hi). pose proof (iv_core _ _ _ _ _ _ _ Hi) as Hc.
  eexists. split; [apply (co_alloc _ _ _ _ Hc)|]. split; [apply (co_zero _ _ _ _ Hc)|]. split.
  - rewrite (co_root _ _ _ _ Hc). by apply (enc_root_lt K fetch HK (sy_tree y)).
  - pose proof (iv_epoch _ _ _ _ _ _ _ Hi). lia.
Qed.

Lemma reach_restart n tr y pack unpack order : reachable n tr y -> proper K fetch y (CRestart pack unpack order) ->
  exists s', new_tree_from_state unpack (write_state pack (sy_tree y) order) = Loaded (s', rev order) /\ restarted (sy_tree y) s'.
Proof.
  intros Hr (_ & Hcd & Hord & Hl & Hna). destruct (reach_fits _ _ _ Hr) as (L & H1 & H2 & H3 & H4).
  by apply (restart_ok pack unpack _ L order).
Qed.

Lemma c23_same n tr y pack unpack order : reachable n tr y -> proper K fetch y (CRestart pack unpack order) ->
  exists s', new_tree_from_state unpack (write_state pack (sy_tree y) order) = Loaded (s', rev order) /\
  (forall b, b < t_nextFreeBlock s' <-> b ∈ rev order) /\
  (forall aid key, (do (v, found, _) <- Search.lookup s' aid key; Ok (v, found)) = (do (v, found, _) <- Search.lookup (sy_tree y) aid key; Ok (v, found))) /\
  (forall fuel key, min_key fuel s' key = min_key fuel (sy_tree y) key) /\
  (forall fuel key, max_key fuel s' key = max_key fuel (sy_tree y) key) /\
  (forall fuel key, count fuel s' key = count fuel (sy_tree y) key) /\
  (forall fuel it, it_next fuel s' it = it_next fuel (sy_tree y) it) /\
  (forall tr', tr' = tr ++ [(CRestart pack unpack order, RRestart (len (sy_tree y) - len s'))] ->
     N.of_nat (length tr') < maxUint64 ->
     reachable n tr' (Sys s' ∅) /\ h_map (replay tr') = h_map (replay tr)).
Proof.
  intros Hr Hp. destruct (reach_restart _ _ _ _ _ _ Hr Hp) as (s' & E & Hrs). exists s'. pose proof (restarted_same _ _ Hrs) as Hs.
  pose proof Hp as (_ & _ & [_ Hord] & _).
  split; [done|]. split.
  { intros b. rewrite (rs_nfb _ _ Hrs), elem_of_list_In, <- in_rev, <- elem_of_list_In. symmetry. apply Hord. }
  split.
  { intros aid key. unfold Search.lookup. assert (H1 : forall s, search (start_op s aid) key = search s key).
    { intros s. apply search_same. split; done. }
    rewrite !H1, (search_same _ _ Hs). destruct (search (sy_tree y) key) as [[v f]| | |]; done. }
  split; [intros; by apply min_key_same|]. split; [intros; by apply max_key_same|]. split; [intros; by apply count_same|].
  split; [intros; by apply it_next_same|].
  intros tr' -> Hl. split.
  - split; [apply Hr| |done]. econstructor; [apply Hr|exact Hp|]. cbn [api]. by rewrite E.
  - by rewrite replay_snoc.
Qed.

(** ** Len *)

Lemma fold_add l : forall z, (fold_left Z.add l z = z + fold_left Z.add l 0)%Z.
Proof. induction l as [|x l IH]; intros z; simpl; [lia|]. rewrite (IH (z + x)%Z), (IH (0 + x)%Z). lia. Qed.

Lemma c24_len n tr y pack unpack order : reachable n tr y -> proper K fetch y (CRestart pack unpack order) ->
  exists s' bs, new_tree_from_state unpack (write_state pack (sy_tree y) order) = Loaded (s', bs) /\
  len s' = Z.max 0 (len (sy_tree y) - fold_left Z.add (map al_items (t_allocs (sy_tree y))) 0)%Z.
Proof.
  intros Hr Hp. destruct (reach_restart _ _ _ _ _ _ Hr Hp) as (s' & E & Hrs). exists s', (rev order). split; [done|].
  unfold len. rewrite (rs_allocs _ _ Hrs), (rs_live _ _ Hrs), map_map. rewrite (fold_add (map al_items _)).
  assert (Hz : forall (l : list allocator) z, fold_left Z.add (map (fun a => al_items (restart_alloc a)) l) z = z).
  { induction l as [|a l IH]; intros z; [done|]. cbn [map fold_left]. rewrite IH. cbn. lia. }
  rewrite Hz. lia.
Qed.

(** FlushStats on every allocator. *)
Definition flushes (n : nat) : list (call * reply) := map (fun aid => (CFlush aid, RUnit)) (seq 0 n).

Lemma flushes_S n : flushes (S n) = flushes n ++ [(CFlush n, RUnit)].
Proof. unfold flushes. rewrite seq_S, map_app. done. Qed.

Lemma len_flush s aid s1 : flush_stats s aid = Ok s1 ->
  len s1 = len s /\ (exists a, t_allocs s !! aid = Some a /\ t_allocs s1 = <[aid := Alloc (al_empty a) (al_nextFree a) (al_block a) (al_offset a) (al_recycler a) (al_counter a) 0]> (t_allocs s)) /\
  t_nextFreeBlock s1 = t_nextFreeBlock s.
Proof.
  unfold flush_stats, get_alloc. destruct (t_allocs s !! aid) as [a|] eqn:Ea; cbn [bind]; [|done]. intros H0. injection H0 as <-.
  unfold al_add_items. rewrite Z.add_opp_diag_r.
  split; [|split; [exists a; split; [done|reflexivity]|reflexivity]]. unfold len, put_alloc, set_live, set_allocs. cbn [t_live t_allocs].
  rewrite (fold_add (map al_items (t_allocs s))), fold_add.
  assert (Hi : forall (l : list allocator) i x, map al_items (<[i := x]> l) = <[i := al_items x]> (map al_items l)).
  { intros l i x. apply (list_fmap_insert al_items). }
  rewrite Hi. cbn [al_items].
  assert (H : forall (l : list Z) i x, l !! i = Some x -> (fold_left Z.add (<[i := 0%Z]> l) 0 = fold_left Z.add l 0 - x)%Z).
  { induction l as [|z l IH]; intros [|i] x Hx; try done.
    - injection Hx as ->. change (<[0%nat := 0%Z]> (x :: l)) with (0%Z :: l). cbn [fold_left]. rewrite (fold_add l (0 + x)%Z), (fold_add l (0 + 0)%Z). lia.
    - specialize (IH _ _ Hx). change (<[S i := 0%Z]> (z :: l)) with (z :: <[i := 0%Z]> l). cbn [fold_left].
      rewrite (fold_add _ (0 + z)%Z), (fold_add l (0 + z)%Z). lia. }
  rewrite (H _ _ (al_items a)); [lia|]. by rewrite list_lookup_fmap, Ea.
Qed.

Lemma flush_all n tr y m : reachable n tr y -> (m <= naids y)%nat -> N.of_nat (length tr + m) < maxUint64 -> sy_open y = ∅ ->
  exists y1, reachable n (tr ++ flushes m) y1 /\ sy_open y1 = ∅ /\ len (sy_tree y1) = len (sy_tree y) /\
  t_nextFreeBlock (sy_tree y1) = t_nextFreeBlock (sy_tree y) /\
  naids y1 = naids y /\ (forall i a, (i < m)%nat -> t_allocs (sy_tree y1) !! i = Some a -> al_items a = 0%Z).
Proof.
  intros Hr. induction m as [|m IH]; intros Hm Hl Ho.
  - exists y. rewrite app_nil_r. split_and!; try done. intros i a Hi. lia.
  - destruct IH as (y1 & Hr1 & Ho1 & E1 & Ef1 & En & H1); [lia|lia|done|].
    destruct (t_allocs (sy_tree y1) !! m) as [a|] eqn:Ea.
    2: { apply lookup_ge_None in Ea. unfold naids in *. lia. }
    assert (Hf : exists s1, flush_stats (sy_tree y1) m = Ok s1).
    { unfold flush_stats, get_alloc. rewrite Ea. cbn [bind]. by eexists. }
    destruct Hf as (s1 & Hf). destruct (len_flush _ _ _ Hf) as (El & (a' & Ea' & Eal) & Enf).
    exists (Sys s1 (sy_open y1)). split.
    { split; [apply Hr| |].
      - rewrite flushes_S, app_assoc. econstructor; [apply Hr1| |].
        + cbn. lia.
        + cbn [api]. rewrite Hf. done.
      - rewrite app_length. unfold flushes. rewrite map_length, seq_length. done. }
    cbn [sy_open sy_tree]. split_and!; [done|congruence|congruence| |].
    + unfold naids. cbn [sy_tree]. rewrite Eal, insert_length. exact En.
    + intros i b Hi. rewrite Eal. destruct (decide (i = m)) as [->|Hne].
      * rewrite list_lookup_insert by (by eapply lookup_lt_Some). by intros [= <-].
      * rewrite list_lookup_insert_ne by done. apply H1. lia.
Qed.

Lemma c24_flushed n tr y pack unpack order : reachable n tr y -> proper K fetch y (CRestart pack unpack order) ->
  N.of_nat (length tr + naids y) < maxUint64 -> (0 <= len (sy_tree y) < 2 ^ 63)%Z ->
  exists y1 s' bs, reachable n (tr ++ flushes (naids y)) y1 /\
  new_tree_from_state unpack (write_state pack (sy_tree y1) order) = Loaded (s', bs) /\ len s' = len (sy_tree y).
Proof.
  intros Hr Hp Hl Hpos. destruct Hp as (Ho & Hcd & Hord & Hlv & Hna).
  destruct (flush_all n tr y (naids y) Hr ltac:(lia) Hl Ho) as (y1 & Hr1 & Ho1 & E1 & Ef & En & H1). exists y1.
  assert (Hz : fold_left Z.add (map al_items (t_allocs (sy_tree y1))) 0%Z = 0%Z).
  { assert (Hall : Forall (fun a => al_items a = 0%Z) (t_allocs (sy_tree y1))).
    { apply Forall_lookup. intros i a Ha. apply (H1 i); [|done]. apply lookup_lt_Some in Ha. unfold naids in *. lia. }
    clear -Hall. induction Hall as [|a l Ha _ IH]; [done|]. cbn [map fold_left]. rewrite Ha. exact IH. }
  assert (Hp1 : proper K fetch y1 (CRestart pack unpack order)).
  { split_and!; try done.
    - unfold all_written. by rewrite Ef.
    - rewrite <- E1 in Hpos. unfold len in Hpos. rewrite fold_add, Hz in Hpos. lia.
    - by rewrite En. }
  destruct (c24_len _ _ _ _ _ _ Hr1 Hp1) as (s' & bs & E & El). exists s', bs. split; [done|]. split; [done|]. rewrite El, Hz, E1. lia.
Qed.

(** ** Parts of a written file *)

Section cut.
Context (n : nat) (tr : list (call * reply)) (y : sys) (pack : list N -> list N) (unpack : list N -> option (list N)) (order : list N).
Hypothesis Hr : reachable n tr y.
Hypothesis Hp : proper K fetch y (CRestart pack unpack order).

Definition head_state : lstate :=
  LS (Z.max 0 (t_live (sy_tree y))) (t_nextFreeBlock (sy_tree y)) (t_root (sy_tree y)) (Some (t_epoch (sy_tree y)))
    (replicate (length (t_allocs (sy_tree y))) newAllocator) (-1) mempty [].

Lemma file_chain order' : Forall (fun b => b < maxBlockCount) order' ->
  chain unpack ls0 (file_segs pack (sy_tree y) order')
    (fold_left (load_block (t_mem (sy_tree y))) order' (set_lallocs head_state (map restart_alloc (t_allocs (sy_tree y))))).
Proof.
  intros Hb. destruct Hp as (_ & Hcd & _ & Hl & Hna). destruct (reach_fits _ _ _ Hr) as (L & H1 & H2 & H3 & H4).
  pose proof (ai_nb _ _ H1) as Hnb. pose proof (all_fits _ _ H1) as Hf. unfold naids in Hna. unfold file_segs. eapply chain_app.
  - apply chain_header; try done. unfold ok64, maxBlockCount in *. rewrite maxUint64_val. lia.
  - eapply chain_app.
    + apply (chain_allocs unpack head_state (t_allocs (sy_tree y)) Hf []). unfold maxAlloc in Hna. simpl. lia.
    + by apply chain_blocks.
Qed.

Lemma order_bound : Forall (fun b => b < maxBlockCount) order.
Proof.
  destruct Hp as (_ & _ & [_ Ho] & _). destruct (reach_fits _ _ _ Hr) as (L & H1 & _). pose proof (ai_nb _ _ H1).
  apply Forall_forall. intros b Hb%Ho. unfold maxBlockCount in *. lia.
Qed.

(** The blocks at the end of the file may be missing. *)
Lemma c25_missing o1 o2 : order = o1 ++ o2 ->
  (exists rest, write_state pack (sy_tree y) order = write_state pack (sy_tree y) o1 ++ rest /\ (o2 <> [] -> rest <> [])) /\
  exists s', new_tree_from_state unpack (write_state pack (sy_tree y) o1) = Loaded (s', rev o1) /\
    t_root s' = t_root (sy_tree y) /\ t_nextFreeBlock s' = t_nextFreeBlock (sy_tree y).
Proof.
  intros Eo. split.
  - exists (concat (map (block_text pack (t_mem (sy_tree y))) o2)). split.
    + unfold write_state. rewrite Eo, map_app, concat_app, <- !app_assoc. done.
    + intros Hne. destruct o2 as [|b o2]; [done|]. cbn [map concat]. unfold block_text. cbn [str map list_ascii_of_string app]. done.
  - pose proof order_bound as Hb. rewrite Eo in Hb. apply Forall_app in Hb as [Hb _]. pose proof (file_chain o1 Hb) as Hch.
    apply load_chain in Hch. rewrite <- write_segs in Hch. unfold new_tree_from_state. rewrite Hch. cbn [lbind].
    destruct (load_blocks_fields (t_mem (sy_tree y)) o1 (set_lallocs head_state (map restart_alloc (t_allocs (sy_tree y))))) as (E1 & E2 & E3 & E4 & E5 & E6).
    unfold finish_load. rewrite E2. cbn [set_lallocs head_state ls_nfb].
    destruct (reach_fits _ _ _ Hr) as (L & H1 & _). pose proof (ai_nb _ _ H1) as Hnb. rewrite (proj2 (N.leb_gt _ _)) by done.
    eexists. split; [|split].
    + cbv zeta. rewrite E6. cbn [set_lallocs head_state ls_blocks]. rewrite app_nil_r. reflexivity.
    + cbn. by rewrite E3.
    + done.
Qed.

(** A file cut inside an allocator section or inside a compressed block is rejected. *)
Lemma c25_alloc i a k : t_allocs (sy_tree y) !! i = Some a -> (k < length (alloc_text a))%nat ->
  new_tree_from_state unpack (header (sy_tree y) ++ allocs_text 0 (take i (t_allocs (sy_tree y))) ++
    str "allocator " ++ dec (N.of_nat i) ++ nl :: take k (alloc_text a)) = Rejected.
Proof.
  intros Ha Hk. pose proof (file_chain [] (List.Forall_nil _)) as Hch. unfold file_segs in Hch. cbn [map concat fold_left] in Hch. rewrite app_nil_r in Hch.
  assert (Es : forall l l' j, allocs_segs j (l ++ l') = allocs_segs j l ++ allocs_segs (j + length l) l').
  { induction l as [|x l IH]; intros l' j; cbn [app allocs_segs length]; [by rewrite Nat.add_0_r|]. rewrite IH. do 3 f_equal. lia. }
  rewrite <- (take_drop_middle _ _ _ Ha), Es in Hch. cbn [allocs_segs] in Hch.
  assert (Hi : length (take i (t_allocs (sy_tree y))) = i).
  { apply take_length_le. apply lookup_lt_Some in Ha. lia. }
  rewrite Hi in Hch. cbn [plus] in Hch.
  rewrite app_assoc in Hch. destruct (chain_split _ _ _ _ _ _ Hch) as (st1 & st2 & C1 & Cg & _).
  pose proof (load_cut_body unpack _ _ [] st1 st2 k C1 Cg Hk) as H.
  unfold new_tree_from_state.
  assert (E : take (length (segs_text (header_segs (sy_tree y) ++ allocs_segs 0 (take i (t_allocs (sy_tree y))))) + S (length (alloc_seg i a).1) + k)
    (segs_text ((header_segs (sy_tree y) ++ allocs_segs 0 (take i (t_allocs (sy_tree y)))) ++ [alloc_seg i a])) =
    header (sy_tree y) ++ allocs_text 0 (take i (t_allocs (sy_tree y))) ++ str "allocator " ++ dec (N.of_nat i) ++ nl :: take k (alloc_text a)).
  { rewrite (segs_text_app _ [_]). rewrite <- Nat.add_assoc, take_add_app by done. rewrite segs_text_app, <- header_text, <- allocs_text_segs.
    rewrite <- !app_assoc. do 2 f_equal. unfold segs_text. cbn [map concat]. rewrite app_nil_r. unfold seg_text.
    change ((alloc_seg i a).2) with (alloc_text a). change ((alloc_seg i a).1) with (str "allocator" ++ sp :: dec (N.of_nat i)).
    rewrite take_app_ge by lia. change (str "allocator ") with (str "allocator" ++ [sp]).
    rewrite <- !app_assoc. cbn [app]. do 2 f_equal. f_equal.
    replace (S (length (str "allocator" ++ sp :: dec (N.of_nat i))) + k - length (str "allocator" ++ sp :: dec (N.of_nat i)))%nat with (S k) by lia.
    done. }
  rewrite E in H. by rewrite H.
Qed.

Lemma c25_block o1 b o2 k : order = o1 ++ b :: o2 ->
  let buf := pack (block_bytes (block_words (t_mem (sy_tree y)) b)) in
  (k < length buf)%nat ->
  new_tree_from_state unpack (write_state pack (sy_tree y) o1 ++ str "block " ++ dec b ++ nl :: str "compression snappy" ++ nl ::
    str "size " ++ dec (N.of_nat (length buf)) ++ nl :: take k buf) = Rejected.
Proof.
  intros Eo buf Hk. pose proof order_bound as Hb. rewrite Eo in Hb. rewrite cons_middle, app_assoc in Hb. apply Forall_app in Hb as [Hb _].
  pose proof (file_chain _ Hb) as Hch. set (s := sy_tree y) in *.
  assert (E1 : file_segs pack s (o1 ++ [b]) = (file_segs pack s o1 ++ [plain (str "block" ++ sp :: dec b); plain (str "compression snappy")]) ++ [size_seg pack (t_mem s) b]).
  { unfold file_segs. rewrite map_app, concat_app. cbn [map concat]. rewrite app_nil_r. unfold block_segs. rewrite <- !app_assoc. done. }
  rewrite E1 in Hch. destruct (chain_split _ _ _ _ _ _ Hch) as (st1 & st2 & C1 & Cg & _).
  pose proof (load_cut_body unpack _ _ [] st1 st2 k C1 Cg Hk) as H. unfold new_tree_from_state.
  rewrite (segs_text_app _ [_]) in H. rewrite <- Nat.add_assoc, take_add_app in H by done. rewrite (segs_text_app (file_segs pack s o1)), <- write_segs in H.
  assert (E2 : take (S (length (size_seg pack (t_mem s) b).1) + k) (segs_text [size_seg pack (t_mem s) b]) = str "size " ++ dec (N.of_nat (length buf)) ++ nl :: take k buf).
  { unfold segs_text. cbn [map concat]. rewrite app_nil_r. unfold seg_text.
    change ((size_seg pack (t_mem s) b).2) with buf. change ((size_seg pack (t_mem s) b).1) with (str "size" ++ sp :: dec (N.of_nat (length buf))).
    rewrite take_app_ge by lia. change (str "size ") with (str "size" ++ [sp]). rewrite <- !app_assoc. cbn [app]. do 2 f_equal. f_equal.
    replace (S (length (str "size" ++ sp :: dec (N.of_nat (length buf)))) + k - length (str "size" ++ sp :: dec (N.of_nat (length buf))))%nat with (S k) by lia.
    done. }
  rewrite E2 in H. clear E2.
  assert (E3 : segs_text [plain (str "block" ++ sp :: dec b); plain (str "compression snappy")] = str "block " ++ dec b ++ nl :: str "compression snappy" ++ [nl]).
  { unfold segs_text. cbn [map concat]. unfold seg_text, plain. cbn [fst snd]. rewrite app_nil_r.
    change (str "block ") with (str "block" ++ [sp]). repeat (rewrite <- !app_assoc; cbn [app]). reflexivity. }
  rewrite E3 in H. clear E3. repeat (rewrite <- !app_assoc in H; cbn [app] in H). by rewrite H.
Qed.

(** No part of a written file makes the loader panic. *)
Lemma load_line_nfb st line rest st' rest' : load_line unpack st line rest = Loaded (st', rest') ->
  ls_nfb st' = ls_nfb st \/ exists v, split_at sp line = Some (str "allocated_blocks", v) /\ ls_nfb st' = parse_uint v.
Proof.
  unfold load_line. destruct (split_at sp line) as [[name v]|]; [|done]. cbv zeta.
  destruct (bytes_eqb name (str "objects")); [intros [= <- <-]; by left|].
  destruct (bytes_eqb name (str "blocksize")). { destruct (_ =? _); intros [=]; subst; by left. }
  destruct (bytes_eqb name (str "allocated_blocks")) eqn:E. { apply bytes_eqb_spec in E as ->. intros [= <- <-]. right. by exists v. }
  destruct (bytes_eqb name (str "epoch")). { destruct (ls_epoch st); intros [=]; subst; by left. }
  destruct (bytes_eqb name (str "root_node")); [intros [= <- <-]; by left|].
  destruct (bytes_eqb name (str "allocators")). { destruct (_ <? _); intros [=]; subst; by left. }
  destruct (bytes_eqb name (str "allocator")).
  { destruct (_ <? _)%Z; [done|]. destruct (_ <=? _); [done|]. destruct (_ !! _); [|done]. destruct (alloc_load _ _ _) as [[? ?]| |]; cbn [lbind]; intros [=]; subst; by left. }
  destruct (bytes_eqb name (str "block")). { destruct (_ <? _)%Z; intros [=]; subst; by left. }
  destruct (bytes_eqb name (str "size")).
  { destruct (_ <? _)%Z; [done|]. destruct (_ <? _); [done|]. destruct (read_full _ _) as [[? ?]| |]; cbn [lbind]; [|done..]. destruct (unpack _); intros [=]; subst; by left. }
  intros [= <- <-]. by left.
Qed.

Lemma seg_nfb st g st' : seg_ok unpack st g st' -> g ∈ file_segs pack (sy_tree y) order -> ls_nfb st < maxBlockCount -> ls_nfb st' < maxBlockCount.
Proof.
  intros (_ & Hg & _) Hin Hst. specialize (Hg []). apply load_line_nfb in Hg as [->|(v & Ev & ->)]; [done|].
  destruct (reach_fits _ _ _ Hr) as (L & H1 & _). pose proof (ai_nb _ _ H1) as Hnb.
  assert (Hv : v = dec (t_nextFreeBlock (sy_tree y))).
  { assert (Hno : forall name w, sp ∉ name -> split_at sp (name ++ sp :: w) = Some (str "allocated_blocks", v) -> name = str "allocated_blocks" /\ v = w).
    { intros name w Hn. rewrite split_name by done. by intros [= -> ->]. }
    unfold file_segs in Hin. rewrite !elem_of_app in Hin. destruct Hin as [Hin|[Hin|Hin]].
    - unfold header_segs in Hin. rewrite !elem_of_cons, elem_of_nil in Hin.
      destruct Hin as [->|[->|[->|[->|[->|[->|[]]]]]]]; cbn [plain fst] in Ev; apply Hno in Ev as [E1 E2]; try done; by apply no_elem.
    - exfalso. assert (Ha : forall l i, g ∈ allocs_segs i l -> exists w, g.1 = str "allocator" ++ sp :: w).
      { induction l as [|a l IH]; intros i; cbn [allocs_segs]; [by intros ?%elem_of_nil|]. rewrite elem_of_cons. intros [->|H]; [by eexists|by eapply IH]. }
      destruct (Ha _ _ Hin) as (w & Ew). rewrite Ew in Ev. apply Hno in Ev as [E1 E2]; [done|by apply no_elem].
    - exfalso. apply elem_of_list_In, in_concat in Hin as (l & Hl & Hin). apply in_map_iff in Hl as (b & <- & _).
      unfold block_segs in Hin. cbn [In] in Hin. destruct Hin as [<-|[<-|[<-|[]]]]; cbn [plain size_seg fst] in Ev.
      + apply Hno in Ev as [E1 E2]; [done|by apply no_elem].
      + by vm_compute in Ev.
      + apply Hno in Ev as [E1 E2]; [done|by apply no_elem]. }
  rewrite Hv, parse_dec; [done|]. unfold maxBlockCount in *. rewrite maxUint64_val. lia.
Qed.

Lemma chain_nfb l1 : forall st l2 st', chain unpack st l1 st' -> incl (l1 ++ l2) (file_segs pack (sy_tree y) order) ->
  ls_nfb st < maxBlockCount -> ls_nfb st' < maxBlockCount.
Proof.
  intros st l2 st' H. revert l2. induction H as [|st g st1 l st2 Hg H IH]; intros l2 Hi Hst; [done|].
  apply (IH l2); [intros x Hx; apply Hi; by right|]. eapply seg_nfb; [exact Hg| |done]. apply elem_of_list_In, Hi. by left.
Qed.

Lemma c26_written k : (k < length (write_state pack (sy_tree y) order))%nat ->
  forall w, new_tree_from_state unpack (take k (write_state pack (sy_tree y) order)) <> Crashed w.
Proof.
  intros Hk w. rewrite write_segs in *. pose proof (file_chain order order_bound) as Hch.
  destruct (load_prefix unpack _ _ k Hch Hk) as [E|(l1 & g & l2 & st1 & El & H1 & E)]; unfold new_tree_from_state; rewrite E; cbn [lbind]; [done|].
  unfold finish_load. rewrite (proj2 (N.leb_gt _ _)); [done|]. eapply (chain_nfb l1 ls0 (g :: l2)); [exact H1| |done].
  rewrite El. apply incl_refl.
Qed.
End cut.
End Top.
