(** * LongKeys: keys whose common part does not fit into a block. *)
From Verif Require Export Spec PrefixFacts ApiTop.

Definition lkey (L : nat) (v : N) : list N := 0 :: replicate L 0 ++ [v].

Lemma lkey_common L (a b : N) n : a <> b -> common_prefix_root (lkey L a) (lkey L b) n = Ok (n + S L)%nat.
Proof.
  intros Hab. unfold lkey. cbn [common_prefix_root]. rewrite N.eqb_refl.
  assert (H : forall n, common_prefix_root (replicate L 0 ++ [a]) (replicate L 0 ++ [b]) n = Ok (n + L)%nat).
  { clear n. induction L as [|L IH]; intros n.
    - simpl. rewrite (proj2 (N.eqb_neq _ _)) by done. by rewrite Nat.add_0_r.
    - change (replicate (S L) 0 ++ [a]) with (0 :: (replicate L 0 ++ [a])). change (replicate (S L) 0 ++ [b]) with (0 :: (replicate L 0 ++ [b])).
      cbn [common_prefix_root]. rewrite N.eqb_refl.
      destruct (replicate L 0 ++ [a]) as [|x l] eqn:Ea; [by destruct L|]. destruct (replicate L 0 ++ [b]) as [|x' l'] eqn:Eb; [by destruct L|].
      rewrite IH. f_equal. lia. }
  destruct (replicate L 0 ++ [a]) as [|x l] eqn:Ea; [by destruct L|]. destruct (replicate L 0 ++ [b]) as [|x' l'] eqn:Eb; [by destruct L|].
  rewrite H. f_equal. lia.
Qed.

Definition longK (L : nat) (k : list N) : Prop := bytes k /\ length k = S (S L).

Definition long_state (L : nat) : sys :=
  match api (init 1) (CPrepU 0 (lkey L 0)) with
  | Ok (_, y1) => match api y1 (CFinU 0 [] false 0) with
                  | Ok (_, y2) => match api y2 (CPrepU 0 (lkey L 1)) with Ok (_, y3) => y3 | _ => init 1 end
                  | _ => init 1
                  end
  | _ => init 1
  end.

Lemma lkey_K L v : v < 256 -> longK L (lkey L v).
Proof.
  intros Hv. split; [|unfold lkey; simpl; rewrite app_length, replicate_length; simpl; lia].
  constructor; [lia|]. apply Forall_app. split; [|by constructor]. apply Forall_replicate. lia.
Qed.

Lemma long_runs L : exists tr, runs (longK L) (lkey L) 1 tr (long_state L) /\
  exists op, sy_open (long_state L) !! 0%nat = Some (HU true op) /\ u_kind op = rootLeafUpdate /\ u_key op = lkey L 1 /\ u_value op = 0 /\ u_alloc op = 0%nat /\
    t_allocs (sy_tree (long_state L)) = [Alloc true blockSize 0 0 (replicate recyclerLen []) 0 1%Z] /\ t_nextFreeBlock (sy_tree (long_state L)) = 0.
Proof.
  unfold long_state.
  destruct (api (init 1) (CPrepU 0 (lkey L 0))) as [[r1 y1]| | |] eqn:E1; [|by vm_compute in E1..].
  assert (H1 : exists op, sy_open y1 !! 0%nat = Some (HU false op) /\ u_key op = lkey L 0).
  { vm_compute in E1. injection E1 as <- <-. eexists. split; [by vm_compute|]. done. }
  destruct H1 as (op1 & Ho1 & Hk1).
  destruct (api y1 (CFinU 0 [] false 0)) as [[r2 y2]| | |] eqn:E2; [|vm_compute in E1; injection E1 as <- <-; by vm_compute in E2..].
  destruct (api y2 (CPrepU 0 (lkey L 1))) as [[r3 y3]| | |] eqn:E3;
    [|vm_compute in E1; injection E1 as <- <-; vm_compute in E2; injection E2 as <- <-; by vm_compute in E3..].
  exists [(CPrepU 0 (lkey L 0), r1); (CFinU 0 [] false 0, r2); (CPrepU 0 (lkey L 1), r3)]. split.
  - apply (runs_snoc _ _ _ [(CPrepU 0 (lkey L 0), r1); (CFinU 0 [] false 0, r2)] y2); [|split_and!|done].
    + apply (runs_snoc _ _ _ [(CPrepU 0 (lkey L 0), r1)] y1); [|exists false, op1; split_and!; [done|by rewrite Hk1|done]|done].
      apply (runs_snoc _ _ _ [] (init 1)); [constructor|split_and!; [by vm_compute; lia|done|by apply lkey_K]|done].
    + vm_compute in E1. injection E1 as <- <-. vm_compute in E2. injection E2 as <- <-. vm_compute. lia.
    + vm_compute in E1. injection E1 as <- <-. vm_compute in E2. injection E2 as <- <-. by vm_compute.
    + by apply lkey_K.
  - vm_compute in E1. injection E1 as <- <-. vm_compute in E2. injection E2 as <- <-. vm_compute in E3. injection E3 as <- <-.
    eexists. split; [by vm_compute|]. by vm_compute.
Qed.

Lemma long_alloc s (p : list N) : t_allocs s = [Alloc true blockSize 0 0 (replicate recyclerLen []) 0 1%Z] -> t_nextFreeBlock s = 0 ->
  2 ^ 21 <= N.of_nat (length p) -> allocate_node_with_prefix s 0 2 p = Panic UnsafeOverrun.
Proof.
  intros Ha Hn HL. unfold allocate_node_with_prefix, new_node, get_alloc. rewrite Ha. cbn [lookup list_lookup bind al_recycler].
  assert (Hp : prefix_slots (length p) = ((length p + 15) / 8)%nat) by (apply prefix_slots_big; lia). rewrite Hp.
  pose proof (Nat.div_mod (length p + 15) 8 ltac:(lia)) as Hd. pose proof (Nat.mod_upper_bound (length p + 15) 8 ltac:(lia)) as Hm.
  set (q := ((length p + 15) / 8)%nat) in *. clearbody q.
  assert (Hq : 262144 <= N.of_nat q) by lia.
  unfold size_classes. destruct (Nat.ltb_spec (2 + q) recyclerLen) as [Hlt|_]; [unfold recyclerLen in Hlt; lia|]. cbn [find_recycled].
  unfold bump_alloc, get_alloc. rewrite Ha. cbn [lookup list_lookup bind al_recycler al_offset al_nextFree].
  destruct (N.leb_spec blockSize (blockSize + N.of_nat (2 + q) * 8)) as [_|]; [|lia].
  unfold receive_block. rewrite Hn. change (0 + 1 <? maxBlockCount) with true. cbn [bind].
  change (N.shiftr (if 0 * blockSize =? 0 then 8 else 0 * blockSize) 3) with 1.
  unfold node_data. cbn [t_nextFreeBlock put_alloc set_allocs set_nextFreeBlock].
  change (maxBlockCount <=? block_of 1) with false. change (N.max 1 (0 + 1) <=? block_of 1) with false. cbn [bind].
  change (blockSlots - offset_of 1) with 262143. destruct p as [|b p]; [simpl in HL; lia|].
  unfold store_prefix. destruct (Nat.leb_spec 255 (length (b :: p))) as [_|]; [|lia].
  unfold sl_set. cbn [sl_len]. change (N.of_nat 0 <? 262143) with true. cbn [bind].
  unfold sl_from at 1. cbn [sl_len sl_base]. change (N.of_nat 1 <=? 262143) with true. cbn [bind].
  destruct (Nat.eqb_spec (length (b :: p)) 0) as [|_]; [done|]. cbn [sl_len].
  change (262143 - N.of_nat 1 =? 0) with false. change (8 * (262143 - N.of_nat 1)) with 2097136.
  destruct (N.ltb_spec 2097136 (N.of_nat (length (b :: p)))); [done|lia].
Qed.

Lemma long_overrun L : 2 ^ 21 <= N.of_nat L -> exists tr, runs (longK L) (lkey L) 1 tr (long_state L) /\
  proper (longK L) (lkey L) (long_state L) (CFinU 0 (lkey L 0) false 1) /\
  api (long_state L) (CFinU 0 (lkey L 0) false 1) = Panic UnsafeOverrun.
Proof.
  intros HL. destruct (long_runs L) as (tr & Hr & op & Ho & Hk & Hkey & Hv & Ha & Hal & Hn). exists tr. split; [done|]. split.
  - exists true, op. split; [done|]. split; [by rewrite Hkey|]. intros _. rewrite Hv, Hkey. split; [done|]. split; [done|].
    intros E. unfold lkey in E. injection E as E. apply app_inj_2 in E as [_ E]; [|done]. done.
  - generalize dependent (long_state L). intros y _ Ho Hal Hn. unfold api. rewrite Ho. unfold finalize_update, finalize_update_body.
    rewrite Hk, Hkey, Ha. rewrite (lkey_common L 1 0) by done. cbn [bind].
    change (0 + S L)%nat with (S L). rewrite long_alloc; [done|done|done|].
    unfold lkey. rewrite take_length. simpl length. rewrite app_length, replicate_length. simpl. lia.
Qed.

Lemma long_witness : exists (K : list N -> Prop) (fetch : N -> list N) tr y c, (forall k, K k -> bytes k /\ k <> []) /\ (forall k k', K k -> K k' -> k `prefix_of` k' -> k = k') /\
  runs K fetch 1 tr y /\ proper K fetch y c /\ api y c = Panic UnsafeOverrun.
Proof.
  destruct (long_overrun (N.to_nat (2 ^ 21))) as (tr & Hr & Hp & Ha); [by rewrite N2Nat.id|].
  set (L := N.to_nat (2 ^ 21)) in *. clearbody L. eexists (longK L), _, tr, _, _. split_and!; [..|exact Hr|exact Hp|exact Ha].
  - intros k [H1 H2]. split; [done|]. by intros ->.
  - intros k k' [_ H1] [_ H2] [q ->]. rewrite app_length in H2. destruct q; [by rewrite app_nil_r|]. simpl in H2. lia.
Qed.

Lemma c42_inside K fetch n tr y c : reachable K fetch n tr y -> proper K fetch y c -> api y c <> Panic UnsafeOverrun.
Proof. intros Hr Hp E. pose proof (c12_outcomes K fetch n tr y c Hr Hp) as H. by rewrite E in H. Qed.
