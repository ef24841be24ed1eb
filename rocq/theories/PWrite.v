(** * PWrite: the segments of a written state and what loading them gives. *)
From Coq Require Import String.
From Verif Require Export PSeg AllocFacts.

Lemma no_elem c l : existsb (N.eqb c) l = false -> c ∉ l.
Proof.
  induction l as [|x l IH]; intros H; [apply not_elem_of_nil|]. cbn [existsb] in H. apply orb_false_iff in H as [H1 H2].
  apply N.eqb_neq in H1. apply not_elem_of_cons. split; [done|by apply IH].
Qed.
Ltac noel := apply no_elem; by vm_compute.

Lemma no_elem_app (c : N) a b : c ∉ a -> c ∉ b -> c ∉ a ++ b.
Proof. intros. by apply not_elem_of_app. Qed.

(** ** Segments *)

Definition plain (x : list N) : seg := (x, []).

Definition header_segs (s : tree) : list seg :=
  [ plain (str "objects" ++ sp :: decz (t_live s));
    plain (str "blocksize" ++ sp :: dec blockSize);
    plain (str "allocated_blocks" ++ sp :: dec (t_nextFreeBlock s));
    plain (str "allocators" ++ sp :: dec (N.of_nat (length (t_allocs s))));
    plain (str "root_node" ++ sp :: dec (t_root s));
    plain (str "epoch" ++ sp :: dec (t_epoch s)) ].

Lemma header_text s : header s = segs_text (header_segs s).
Proof.
  unfold header, header_segs, segs_text, seg_text, plain. cbn [map concat fst snd].
  repeat (rewrite <- !app_assoc; cbn [app]). cbn [str map list_ascii_of_string app]. reflexivity.
Qed.

Definition rec_seg (i : nat) (l : list (N * N)) : list seg :=
  match l with
  | [] => []
  | _ => [(str "recycler" ++ sp :: dec (N.of_nat i) ++ sp :: dec (N.of_nat (length l)), concat (map (fun it => le8 it.1) l))]
  end.

Fixpoint recs_segs (i : nat) (r : list (list (N * N))) : list seg :=
  match r with [] => [] | l :: r' => rec_seg i l ++ recs_segs (S i) r' end.

Lemma recs_text r : forall i, recyclers_text i r = segs_text (recs_segs i r).
Proof.
  induction r as [|l r IH]; intros i; [done|]. cbn [recyclers_text recs_segs]. rewrite segs_text_app, <- IH. f_equal.
  destruct l as [|it l]; [done|]. unfold recycler_text, rec_seg, segs_text, seg_text. cbn [map concat fst snd]. rewrite app_nil_r.
  repeat (rewrite <- !app_assoc; cbn [app]). cbn [str map list_ascii_of_string app]. reflexivity.
Qed.

Definition alloc_head (a : allocator) : list seg :=
  [ plain (str "empty" ++ sp :: if al_empty a then str "true" else str "false");
    plain (str "next_free" ++ sp :: dec (al_nextFree a));
    plain (str "block" ++ sp :: dec (al_block a));
    plain (str "block_size" ++ sp :: dec blockSize);
    plain (str "offset" ++ sp :: dec (al_offset a)) ].

Definition alloc_segs (a : allocator) : list seg := alloc_head a ++ recs_segs 0 (al_recycler a).

Lemma alloc_text_segs a : alloc_text a = segs_text (alloc_segs a) ++ [nl].
Proof.
  unfold alloc_text, alloc_segs. rewrite segs_text_app, recs_text. unfold alloc_head, segs_text at 2, seg_text, plain. cbn [map concat fst snd].
  repeat (rewrite <- !app_assoc; cbn [app]). cbn [str map list_ascii_of_string app]. reflexivity.
Qed.

Definition alloc_seg (i : nat) (a : allocator) : seg := (str "allocator" ++ sp :: dec (N.of_nat i), alloc_text a).

Fixpoint allocs_segs (i : nat) (l : list allocator) : list seg :=
  match l with [] => [] | a :: l' => alloc_seg i a :: allocs_segs (S i) l' end.

Lemma allocs_text_segs l : forall i, allocs_text i l = segs_text (allocs_segs i l).
Proof.
  induction l as [|a l IH]; intros i; [done|]. cbn [allocs_text allocs_segs]. rewrite segs_text_cons, <- IH.
  unfold alloc_seg, seg_text. cbn [fst snd]. repeat (rewrite <- !app_assoc; cbn [app]). cbn [str map list_ascii_of_string app]. reflexivity.
Qed.

Section pack.
Context (pack : list N -> list N) (unpack : list N -> option (list N)).

Definition packed (m : mem) (b : N) : list N := pack (block_bytes (block_words m b)).
Definition size_seg (m : mem) (b : N) : seg := (str "size" ++ sp :: dec (N.of_nat (length (packed m b))), packed m b).
Definition block_segs (m : mem) (b : N) : list seg :=
  [ plain (str "block" ++ sp :: dec b); plain (str "compression snappy"); size_seg m b ].

Lemma block_text_segs m b : block_text pack m b = segs_text (block_segs m b).
Proof.
  unfold block_text, block_segs, size_seg, segs_text, seg_text, plain. fold (packed m b). generalize (packed m b). intros buf.
  cbn [map concat fst snd]. rewrite app_nil_r.
  repeat (rewrite <- !app_assoc; cbn [app]). cbn [str map list_ascii_of_string app]. reflexivity.
Qed.

Definition file_segs (s : tree) (order : list N) : list seg :=
  header_segs s ++ allocs_segs 0 (t_allocs s) ++ concat (map (block_segs (t_mem s)) order).

Lemma write_segs s order : write_state pack s order = segs_text (file_segs s order).
Proof.
  unfold write_state, file_segs. rewrite !segs_text_app, header_text, allocs_text_segs. do 2 f_equal.
  induction order as [|b order IH]; [done|]. cbn [map concat]. by rewrite segs_text_app, block_text_segs, IH.
Qed.

(** ** What the reader makes of them *)

Definition rst (it : N * N) : N * N := (u64 it.1, 0).
Definition restart_alloc (a : allocator) : allocator :=
  Alloc false (al_nextFree a) (al_block a) (al_offset a) (map (map rst) (al_recycler a)) 0 0.

Lemma split_name (name v : list N) : sp ∉ name -> split_at sp (name ++ sp :: v) = Some (name, v).
Proof. apply split_at_app. Qed.

Lemma read_full_app n a rest : length a = n -> read_full (N.of_nat n) (a ++ rest) = Loaded (a, rest).
Proof.
  intros <-. unfold read_full. rewrite app_length. rewrite (proj2 (N.ltb_ge _ _)) by lia.
  rewrite !Nat2N.id. by rewrite take_app, drop_app.
Qed.

Lemma read_full_short n l : (length l < n)%nat -> read_full (N.of_nat n) l = Rejected.
Proof. intros H. unfold read_full. by rewrite (proj2 (N.ltb_lt _ _)) by lia. Qed.

Lemma read_items_app l rest : read_items (length l) (concat (map (fun it : N * N => le8 it.1) l) ++ rest) = Loaded (map rst l, rest).
Proof.
  induction l as [|it l IH]; [done|]. cbn [length read_items map concat]. rewrite <- app_assoc.
  change 8 with (N.of_nat 8). rewrite read_full_app by apply le8_length. cbn [lbind]. rewrite IH. cbn [lbind].
  unfold rst at 2. by rewrite le8_val.
Qed.

Lemma items_length (l : list (N * N)) : length (concat (map (fun it : N * N => le8 it.1) l)) = (8 * length l)%nat.
Proof. induction l as [|it l IH]; [done|]. cbn [map concat length]. rewrite app_length, le8_length, IH. lia. Qed.

Lemma read_items_short l : forall k, (k < 8 * length l)%nat ->
  read_items (length l) (take k (concat (map (fun it : N * N => le8 it.1) l))) = Rejected.
Proof.
  induction l as [|it l IH]; intros k Hk; [simpl in Hk; lia|]. cbn [length read_items map concat].
  change 8 with (N.of_nat 8). destruct (decide (k < 8)%nat).
  - rewrite read_full_short; [done|]. rewrite take_length. lia.
  - rewrite take_app_ge by (rewrite le8_length; lia). rewrite read_full_app by apply le8_length. cbn [lbind].
    rewrite IH; [done|]. rewrite le8_length. simpl in Hk. lia.
Qed.

Definition ok64 (n : N) : Prop := n <= maxUint64.

Lemma aseg_plain (a a' : allocator) name v : nl ∉ name -> nl ∉ v ->
  (forall rest, alloc_line a (name ++ sp :: v) rest = Loaded (a', rest)) ->
  aseg_ok a (plain (name ++ sp :: v)) a'.
Proof.
  intros H1 H2 H3. split; [|split; [|split]]; cbn [plain fst snd].
  - apply no_elem_app; [done|]. apply not_elem_of_cons. done.
  - by destruct name.
  - done.
  - intros k Hk. simpl in Hk. lia.
Qed.

Lemma achain_head a b : ok64 (al_nextFree a) -> ok64 (al_block a) -> ok64 (al_offset a) ->
  achain b (alloc_head a) (Alloc false (al_nextFree a) (al_block a) (al_offset a) (al_recycler b) (al_counter b) (al_items b)).
Proof.
  intros H1 H2 H3. unfold alloc_head.
  eapply achain_cons.
  { apply aseg_plain; [noel|destruct (al_empty a); noel|]. intros rest. unfold alloc_line. rewrite split_name by noel.
    assert (E : bytes_eqb ((if al_empty a then str "true" else str "false") ++ [nl]) (str "true") = false) by (by destruct (al_empty a)).
    cbv zeta. change (bytes_eqb (str "empty") (str "empty")) with true. cbn match. rewrite E. reflexivity. }
  eapply achain_cons.
  { apply aseg_plain; [noel|apply dec_no_nl|]. intros rest. unfold alloc_line. rewrite split_name by noel. rewrite parse_dec by done.
    cbn [al_empty al_nextFree al_block al_offset al_recycler al_counter al_items]. reflexivity. }
  eapply achain_cons.
  { apply aseg_plain; [noel|apply dec_no_nl|]. intros rest. unfold alloc_line. rewrite split_name by noel. rewrite parse_dec by done.
    cbn [al_empty al_nextFree al_block al_offset al_recycler al_counter al_items]. reflexivity. }
  eapply achain_cons.
  { apply aseg_plain; [noel|apply dec_no_nl|]. intros rest. unfold alloc_line. rewrite split_name by noel. reflexivity. }
  eapply achain_cons.
  { apply aseg_plain; [noel|apply dec_no_nl|]. intros rest. unfold alloc_line. rewrite split_name by noel. rewrite parse_dec by done.
    cbn [al_empty al_nextFree al_block al_offset al_recycler al_counter al_items]. reflexivity. }
  constructor.
Qed.

Definition set_rec (b : allocator) (r : list (list (N * N))) : allocator :=
  Alloc (al_empty b) (al_nextFree b) (al_block b) (al_offset b) r (al_counter b) (al_items b).

Lemma achain_recs (b : allocator) r : Forall (fun l : list (N * N) => 16 * N.of_nat (length l) <= maxAlloc) r ->
  forall pre, N.of_nat (length pre + length r) <= 9223372036854775807 ->
  achain (set_rec b (pre ++ replicate (length r) [])) (recs_segs (length pre) r) (set_rec b (pre ++ map (map rst) r)).
Proof.
  induction r as [|l r IH]; intros Hr pre Hlen; [constructor|]. apply Forall_cons in Hr as [Hl Hr].
  cbn [recs_segs length replicate map].
  specialize (IH Hr (pre ++ [map rst l])). rewrite app_length in IH. cbn [length] in IH. rewrite Nat.add_1_r, <- !app_assoc in IH.
  simpl in Hlen. cbn [app] in IH. specialize (IH ltac:(lia)).
  destruct l as [|it l]; [exact IH|]. set (l0 := it :: l) in *.
  change (rec_seg (length pre) l0) with
    [(str "recycler" ++ sp :: dec (N.of_nat (length pre)) ++ sp :: dec (N.of_nat (length l0)), concat (map (fun it : N * N => le8 it.1) l0))].
  clearbody l0. clear l. rename l0 into l. cbn [app]. eapply achain_cons; [|exact IH].
  set (p := pre ++ [] :: replicate (length r) []).
  assert (Hins : <[length pre := map rst l]> p = pre ++ map rst l :: replicate (length r) []).
  { unfold p. rewrite <- (Nat.add_0_r (length pre)). by rewrite insert_app_r. }
  assert (Hp : length p = (length pre + S (length r))%nat).
  { unfold p. rewrite app_length. simpl. by rewrite replicate_length. }
  assert (Hgo : forall rest, alloc_line (set_rec b p) (str "recycler" ++ sp :: dec (N.of_nat (length pre)) ++ sp :: dec (N.of_nat (length l))) rest =
    lbind (read_items (length l) rest) (fun '(its, rest') => Loaded (set_rec b (<[length pre := its]> p), rest'))).
  { intros rest. unfold alloc_line. rewrite split_name by noel. cbv zeta.
    change (bytes_eqb (str "recycler") (str "empty")) with false. change (bytes_eqb (str "recycler") (str "next_free")) with false.
    change (bytes_eqb (str "recycler") (str "block")) with false. change (bytes_eqb (str "recycler") (str "offset")) with false.
    change (bytes_eqb (str "recycler") (str "recycler")) with true. cbn match.
    rewrite split_name by apply dec_no_sp. unfold maxAlloc in *. rewrite !atoi_dec by lia.
    cbn [set_rec al_recycler]. rewrite Hp.
    rewrite (proj2 (Z.ltb_ge _ _)), (proj2 (Z.leb_gt _ _)) by lia. cbn [orb].
    rewrite (proj2 (Z.ltb_ge _ _)), (proj2 (Z.ltb_ge _ (16 * _))) by lia. cbn [orb].
    replace (Z.to_nat (Z.of_N (N.of_nat (length l)))) with (length l) by lia.
    replace (Z.to_nat (Z.of_N (N.of_nat (length pre)))) with (length pre) by lia. reflexivity. }
  split; [|split; [|split]]; cbn [fst snd].
  - apply no_elem_app; [noel|]. apply not_elem_of_cons. split; [done|]. apply no_elem_app; [apply dec_no_nl|].
    apply not_elem_of_cons. split; [done|]. apply dec_no_nl.
  - done.
  - intros rest. rewrite Hgo, read_items_app. cbn [lbind]. by rewrite Hins.
  - intros k Hk. rewrite items_length in Hk. rewrite Hgo, read_items_short by done. done.
Qed.

Definition alloc_fits (a : allocator) : Prop :=
  ok64 (al_nextFree a) /\ ok64 (al_block a) /\ ok64 (al_offset a) /\ length (al_recycler a) = recyclerLen /\
  Forall (fun l : list (N * N) => 16 * N.of_nat (length l) <= maxAlloc) (al_recycler a).

Lemma achain_alloc a : alloc_fits a -> achain (al_reset newAllocator) (alloc_segs a) (restart_alloc a).
Proof.
  intros (H1 & H2 & H3 & Hl & Hr). unfold alloc_segs. eapply achain_app; [by apply achain_head|].
  pose proof (achain_recs (Alloc false (al_nextFree a) (al_block a) (al_offset a) [] 0 0) (al_recycler a) Hr []) as H.
  cbn [length app] in H. rewrite Hl in H. unfold set_rec in H. cbn [al_empty al_nextFree al_block al_offset al_recycler al_counter al_items] in H.
  unfold restart_alloc. change (al_recycler (al_reset newAllocator)) with (replicate recyclerLen (@nil (N * N))).
  change (al_counter (al_reset newAllocator)) with 0. change (al_items (al_reset newAllocator)) with 0%Z. apply H. by vm_compute.
Qed.

Lemma seg_plain st st' name v : nl ∉ name -> nl ∉ v ->
  (forall rest, load_line unpack st (name ++ sp :: v) rest = Loaded (st', rest)) ->
  seg_ok unpack st (plain (name ++ sp :: v)) st'.
Proof.
  intros H1 H2 H3. split; [|split]; cbn [plain fst snd].
  - apply no_elem_app; [done|]. by apply not_elem_of_cons.
  - done.
  - intros k Hk. simpl in Hk. lia.
Qed.

Ltac name_line := intros rest; unfold load_line; rewrite split_name by noel; cbv zeta.

Lemma chain_header s : (t_live s < 9223372036854775808)%Z -> ok64 (t_nextFreeBlock s) -> ok64 (t_root s) -> ok64 (t_epoch s) ->
  72 * N.of_nat (length (t_allocs s)) <= maxAlloc ->
  chain unpack ls0 (header_segs s)
    (LS (Z.max 0 (t_live s)) (t_nextFreeBlock s) (t_root s) (Some (t_epoch s)) (replicate (length (t_allocs s)) newAllocator) (-1) mempty []).
Proof.
  intros Hl Hn Hr He Ha. unfold header_segs.
  eapply chain_cons.
  { apply seg_plain; [noel|apply decz_no_nl|]. name_line. change (bytes_eqb (str "objects") (str "objects")) with true.
    rewrite parse_decz by done. reflexivity. }
  eapply chain_cons.
  { apply seg_plain; [noel|apply dec_no_nl|]. name_line. rewrite parse_dec by (vm_compute; discriminate). reflexivity. }
  eapply chain_cons.
  { apply seg_plain; [noel|apply dec_no_nl|]. name_line. rewrite parse_dec by done. reflexivity. }
  eapply chain_cons.
  { apply seg_plain; [noel|apply dec_no_nl|]. name_line. unfold maxAlloc in *.
    rewrite parse_dec by (rewrite maxUint64_val; lia).
    change (bytes_eqb (str "allocators") (str "objects")) with false. change (bytes_eqb (str "allocators") (str "blocksize")) with false.
    change (bytes_eqb (str "allocators") (str "allocated_blocks")) with false. change (bytes_eqb (str "allocators") (str "epoch")) with false.
    change (bytes_eqb (str "allocators") (str "root_node")) with false. change (bytes_eqb (str "allocators") (str "allocators")) with true.
    cbn match. rewrite (proj2 (N.ltb_ge _ _)) by done. rewrite Nat2N.id. cbn [ls_live ls_nfb ls_root ls_next ls_mem ls_blocks]. reflexivity. }
  eapply chain_cons.
  { apply seg_plain; [noel|apply dec_no_nl|]. name_line. rewrite parse_dec by done. reflexivity. }
  eapply chain_cons.
  { apply seg_plain; [noel|apply dec_no_nl|]. name_line. rewrite parse_dec by done. cbn [ls_epoch]. reflexivity. }
  constructor.
Qed.

Definition set_lallocs (st : lstate) (l : list allocator) : lstate :=
  LS (ls_live st) (ls_nfb st) (ls_root st) (ls_epoch st) l (ls_next st) (ls_mem st) (ls_blocks st).

Lemma chain_allocs st l : Forall alloc_fits l -> forall pre, N.of_nat (length pre + length l) < 9223372036854775808 ->
  chain unpack (set_lallocs st (pre ++ replicate (length l) newAllocator)) (allocs_segs (length pre) l)
    (set_lallocs st (pre ++ map restart_alloc l)).
Proof.
  induction l as [|a l IH]; intros Hf pre Hlen; [constructor|]. apply Forall_cons in Hf as [Ha Hf].
  cbn [allocs_segs length replicate map].
  specialize (IH Hf (pre ++ [restart_alloc a])). rewrite app_length in IH. cbn [length] in IH. rewrite Nat.add_1_r, <- !app_assoc in IH.
  simpl in Hlen. cbn [app] in IH. specialize (IH ltac:(lia)).
  eapply chain_cons; [|exact IH].
  set (p := pre ++ newAllocator :: replicate (length l) newAllocator).
  assert (Hp : length p = (length pre + S (length l))%nat).
  { unfold p. rewrite app_length. simpl. by rewrite replicate_length. }
  assert (Hins : <[length pre := restart_alloc a]> p = pre ++ restart_alloc a :: replicate (length l) newAllocator).
  { unfold p. rewrite <- (Nat.add_0_r (length pre)). by rewrite insert_app_r. }
  assert (Hlk : p !! length pre = Some newAllocator).
  { unfold p. rewrite lookup_app_r by lia. by rewrite Nat.sub_diag. }
  pose proof (achain_alloc a Ha) as Hch.
  assert (Hgo : forall rest, load_line unpack (set_lallocs st p) (str "allocator" ++ sp :: dec (N.of_nat (length pre))) rest =
    lbind (alloc_load (S (length rest)) (al_reset newAllocator) rest) (fun '(a', rest') =>
      Loaded (set_lallocs st (<[length pre := a']> p), rest'))).
  { intros rest. unfold load_line. rewrite split_name by noel. cbv zeta.
    change (bytes_eqb (str "allocator") (str "objects")) with false. change (bytes_eqb (str "allocator") (str "blocksize")) with false.
    change (bytes_eqb (str "allocator") (str "allocated_blocks")) with false. change (bytes_eqb (str "allocator") (str "epoch")) with false.
    change (bytes_eqb (str "allocator") (str "root_node")) with false. change (bytes_eqb (str "allocator") (str "allocators")) with false.
    change (bytes_eqb (str "allocator") (str "allocator")) with true. cbn match.
    rewrite parse_dec by (rewrite maxUint64_val; lia). rewrite int64_small by lia. cbn [ls_allocs set_lallocs]. rewrite Hp.
    rewrite (proj2 (Z.ltb_ge _ _)) by lia. rewrite (proj2 (N.leb_gt _ _)) by lia. rewrite Nat2N.id, Hlk. reflexivity. }
  split; [|split]; cbn [fst snd alloc_seg].
  - apply no_elem_app; [noel|]. apply not_elem_of_cons. split; [done|apply dec_no_nl].
  - intros rest. rewrite Hgo. rewrite alloc_text_segs, <- app_assoc. cbn [app]. rewrite (alloc_load_chain _ _ _ _ Hch).
    + cbn [lbind]. by rewrite Hins.
    + rewrite app_length. pose proof (segs_text_length (alloc_segs a)). lia.
  - intros k Hk. rewrite Hgo. rewrite alloc_text_segs in Hk |- *. rewrite (alloc_load_cut _ _ _ Hch); [done|].
    rewrite app_length in Hk. cbn [length] in Hk. lia.
Qed.

(** ** Blocks *)

Definition load_block (m : mem) (st : lstate) (b : N) : lstate :=
  LS (ls_live st) (ls_nfb st) (ls_root st) (ls_epoch st) (ls_allocs st) (Z.of_N b)
    (mwrite (ls_mem st) (b * blockSlots) (block_words m b)) (b :: ls_blocks st).

Hypothesis Hcd : codec pack unpack.

Lemma block_words_length m b : length (block_words m b) = N.to_nat blockSlots.
Proof. apply mread_length. Qed.

Lemma chain_block m st b : b < maxBlockCount -> chain unpack st (block_segs m b) (load_block m st b).
Proof.
  intros Hb. unfold block_segs.
  assert (Hbs : N.of_nat (length (block_bytes (block_words m b))) = blockSize).
  { rewrite block_bytes_length, block_words_length. rewrite Nat2N.inj_mul, N2Nat.id. by vm_compute. }
  eapply chain_cons.
  { apply seg_plain; [noel|apply dec_no_nl|]. name_line. unfold maxBlockCount in Hb. rewrite parse_dec by (rewrite maxUint64_val; lia).
    rewrite int64_small by lia.
    change (bytes_eqb (str "block") (str "objects")) with false. change (bytes_eqb (str "block") (str "blocksize")) with false.
    change (bytes_eqb (str "block") (str "allocated_blocks")) with false. change (bytes_eqb (str "block") (str "epoch")) with false.
    change (bytes_eqb (str "block") (str "root_node")) with false. change (bytes_eqb (str "block") (str "allocators")) with false.
    change (bytes_eqb (str "block") (str "allocator")) with false. change (bytes_eqb (str "block") (str "block")) with true. cbn match.
    unfold maxBlockCount. rewrite (proj2 (Z.ltb_ge _ _)) by lia. reflexivity. }
  eapply chain_cons.
  { change (str "compression snappy") with (str "compression" ++ sp :: str "snappy"). apply seg_plain; [noel|noel|]. name_line. reflexivity. }
  eapply chain_cons; [|constructor].
  pose proof (cd_back _ _ Hcd (block_bytes (block_words m b)) (block_bytes_bytes _)) as Hback.
  pose proof (cd_size _ _ Hcd (block_bytes (block_words m b)) Hbs) as Hsize. fold (packed m b) in Hback, Hsize.
  set (st1 := LS (ls_live st) _ _ _ _ _ _ _).
  assert (Hgo : forall rest, load_line unpack st1 (str "size" ++ sp :: dec (N.of_nat (length (packed m b)))) rest =
    lbind (read_full (N.of_nat (length (packed m b))) rest) (fun '(buf, rest') =>
      match unpack buf with
      | None => Rejected
      | Some b0 => Loaded (LS (ls_live st) (ls_nfb st) (ls_root st) (ls_epoch st) (ls_allocs st) (Z.of_N b)
                    (store_block (ls_mem st) (Z.to_N (Z.of_N b)) b0) (Z.to_N (Z.of_N b) :: ls_blocks st), rest')
      end)).
  { name_line. unfold maxAlloc in *. rewrite parse_dec by (rewrite maxUint64_val; lia).
    change (bytes_eqb (str "size") (str "objects")) with false. change (bytes_eqb (str "size") (str "blocksize")) with false.
    change (bytes_eqb (str "size") (str "allocated_blocks")) with false. change (bytes_eqb (str "size") (str "epoch")) with false.
    change (bytes_eqb (str "size") (str "root_node")) with false. change (bytes_eqb (str "size") (str "allocators")) with false.
    change (bytes_eqb (str "size") (str "allocator")) with false. change (bytes_eqb (str "size") (str "block")) with false.
    change (bytes_eqb (str "size") (str "size")) with true. cbn match.
    change (ls_next st1) with (Z.of_N b). rewrite (proj2 (Z.ltb_ge _ _)) by lia. unfold maxAlloc. rewrite (proj2 (N.ltb_ge _ _)) by done. reflexivity. }
  split; [|split]; cbn [fst snd size_seg].
  - apply no_elem_app; [noel|]. apply not_elem_of_cons. split; [done|apply dec_no_nl].
  - intros rest. rewrite Hgo, read_full_app by done. cbn [lbind]. rewrite Hback. rewrite N2Z.id.
    unfold store_block. cbv zeta. rewrite Hbs, N.leb_refl.
    assert (E : words_of (N.to_nat blockSlots) (block_bytes (block_words m b)) = block_words m b).
    { rewrite <- (block_words_length m b). apply words_of_bytes. apply mread_lt. }
    rewrite E. reflexivity.
  - intros k Hk. rewrite Hgo, read_full_short; [done|]. rewrite take_length. lia.
Qed.

Lemma chain_blocks m order : Forall (fun b => b < maxBlockCount) order -> forall st,
  chain unpack st (concat (map (block_segs m) order)) (fold_left (load_block m) order st).
Proof.
  induction order as [|b order IH]; intros H st; [constructor|]. apply Forall_cons in H as [Hb H].
  cbn [map concat fold_left]. eapply chain_app; [by apply chain_block|]. by apply IH.
Qed.

Lemma load_blocks_fields m order : forall st,
  let st' := fold_left (load_block m) order st in
  ls_live st' = ls_live st /\ ls_nfb st' = ls_nfb st /\ ls_root st' = ls_root st /\ ls_epoch st' = ls_epoch st /\
  ls_allocs st' = ls_allocs st /\ ls_blocks st' = rev order ++ ls_blocks st.
Proof.
  induction order as [|b order IH]; intros st; cbv zeta; [done|]. cbn [fold_left].
  destruct (IH (load_block m st b)) as (H1 & H2 & H3 & H4 & H5 & H6). cbn [load_block ls_live ls_nfb ls_root ls_epoch ls_allocs ls_blocks] in *.
  split_and!; try done. rewrite H6. cbn [rev]. by rewrite <- app_assoc.
Qed.

Lemma load_blocks_mem m order : forall st x,
  mget (ls_mem (fold_left (load_block m) order st)) x =
  if decide (x / blockSlots ∈ order) then mget m x else mget (ls_mem st) x.
Proof.
  induction order as [|b order IH]; intros st x.
  - cbn [fold_left]. rewrite decide_False; [done|]. apply not_elem_of_nil.
  - cbn [fold_left]. rewrite IH. destruct (decide (x / blockSlots ∈ order)) as [Hin|Hin].
    + rewrite decide_True; [done|by right].
    + cbn [load_block ls_mem]. pose proof (N.div_mod' x blockSlots) as Hx. pose proof (N.mod_lt x blockSlots ltac:(done)) as Hm.
      destruct (decide (x / blockSlots = b)) as [Hb|Hb].
      * rewrite decide_True; [|rewrite Hb; left]. rewrite Hb in Hx.
        set (i := N.to_nat (x mod blockSlots)).
        assert (Ex : x = b * blockSlots + N.of_nat i).
        { unfold i. rewrite N2Nat.id. lia. }
        rewrite Ex. assert (Hl : block_words m b !! i = Some (mget m (b * blockSlots + N.of_nat i))).
        { apply mread_lookup. unfold i. lia. }
        rewrite (mget_mwrite_in _ _ _ _ _ Hl). apply u64_small, mget_lt.
      * rewrite decide_False; [|by rewrite elem_of_cons; intros [?|?]].
        apply mget_mwrite_out. rewrite block_words_length, N2Nat.id.
        destruct (decide (x < b * blockSlots)); [by left|right].
        assert (Hlt : b < x / blockSlots \/ x / blockSlots < b) by lia. destruct Hlt as [Hlt|Hlt].
        -- assert ((b + 1) * blockSlots <= x); [|lia]. revert Hx Hm Hlt. unfold blockSlots.
           generalize (x / 262144), (x mod 262144). clear. intros. lia.
        -- exfalso. revert Hx Hm Hlt n. unfold blockSlots. generalize (x / 262144), (x mod 262144). clear. intros. nia.
Qed.
End pack.
