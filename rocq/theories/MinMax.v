(** * MinMax: the descents of MinKey and MaxKey, and live nodes of the ghost trie. *)
From Verif Require Export PSearch ApiProps.

(** Number of inner nodes. *)
Fixpoint nnodes (t : trie) : nat :=
  match t with
  | Leaf _ _ => 0
  | Node _ _ _ cs => S (sum_list_with (fun c => nnodes c.2) cs)
  end.

Definition nsum (cs : list (N * trie)) : nat := sum_list_with (fun c => nnodes c.2) cs.

Lemma nnodes_node full a pfx cs : nnodes (Node full a pfx cs) = S (nsum cs).
Proof. done. Qed.
Lemma nsum_app l1 l2 : nsum (l1 ++ l2) = (nsum l1 + nsum l2)%nat.
Proof. apply sum_list_with_app. Qed.
Lemma nsum_cons b c l : nsum ((b, c) :: l) = (nnodes c + nsum l)%nat.
Proof. done. Qed.
Lemma nsum_in b c cs : (b, c) ∈ cs -> (nnodes c <= nsum cs)%nat.
Proof. intros Hin. apply elem_of_list_split in Hin as (l & r & ->). rewrite nsum_app, nsum_cons. lia. Qed.

(** A live node all of whose 256 slots are empty. *)
Definition emptied (s : tree) : Prop :=
  exists p w key a count pl d len slots d1, live s p w /\ isLeaf w = false /\ explodeNode w = (key, a, count, pl) /\
    node_data s a = Ok d /\ skip_prefix (t_mem s) d pl = Ok (len, slots, d1) /\
    forall i, (i < count)%nat -> sl_get (t_mem s) d1 i = Ok 0.

Section MinMax.
Context (K : list N -> Prop) (fetch : N -> list N) (HK : universe K).
Local Notation core := (core K fetch).
Local Notation wf := (wf K fetch).
Local Notation sound := (sound K fetch).

Lemma min_loop_ok s L t : alloc_inv s L -> sound s L t -> forall b, b < 256 -> is_leaf t = false ->
  exists v f, (forall fuel, (nnodes t <= fuel)%nat -> min_loop fuel s (enc b t) = Ok (v, f)) /\
    if f : bool then exists k rest, contents t = (k, v) :: rest
    else v = 0 /\ exists C a pfx, t = plug C (Node true a pfx []).
Proof.
  intros Ha. induction t as [|full a pfx cs IH] using trie_ind2; [done|]. intros Hs b Hb _.
  pose proof (sound_view K fetch s L Ha _ _ _ _ Hs) as Hv. destruct (sound_count K fetch s L _ _ _ _ Hs) as [Hn Hfull].
  assert (Hrec : forall b' c r, cs = (b', c) :: r -> exists v f,
    (forall fuel, (nsum cs <= fuel)%nat -> (if isLeaf (enc b' c) then Ok (getLeafValue (enc b' c), true) else min_loop fuel s (enc b' c)) = Ok (v, f)) /\
    if f : bool then exists k rest, contents (Node full a pfx cs) = (k, v) :: rest
    else v = 0 /\ exists C a' pfx', Node full a pfx cs = plug C (Node true a' pfx' [])).
  { intros b' c r Ecs. assert (Hin : (b', c) ∈ cs) by (rewrite Ecs; left).
    destruct (sound_child K fetch s L _ _ _ _ _ _ Hs Hin) as [Hc Hb'].
    destruct (sound_enc K fetch s L Ha c b' Hc Hb') as (_ & -> & _). rewrite contents_node.
    destruct c as [k v|full' a' pfx' cs']; cbn [is_leaf].
    - rewrite (sound_leaf K fetch s L k v b' Hc Hb'). exists v, true. split; [done|]. rewrite Ecs. simpl. by do 2 eexists.
    - rewrite Forall_forall in IH. destruct (IH _ Hin Hc b' Hb' eq_refl) as (v & f & E & H).
      exists v, f. split; [intros fuel Hf; apply E; pose proof (nsum_in _ _ _ Hin); cbn [snd]; lia|]. cbn [snd] in H. destruct f.
      + destruct H as (k & rest & Ek). rewrite Ecs, bind_cons. cbn [snd]. rewrite Ek. simpl. by do 2 eexists.
      + destruct H as (-> & C & a2 & pfx2 & Ec). split; [done|]. exists (C ++ [Frame full a pfx [] b' r]), a2, pfx2.
        rewrite plug_app, <- Ec. simpl. unfold fill. simpl. by rewrite Ecs. }
  assert (Hstep : forall v f, (forall fuel, (nsum cs <= fuel)%nat ->
    (if full then
       match find_up (t_mem s) (nbase a pfx) 0 (ncount full (length cs)) with
       | None => Ok (0, false)
       | Some a => if isLeaf a then Ok (getLeafValue a, true) else min_loop fuel s a
       end
     else let a := mget (t_mem s) (nbase a pfx + N.of_nat 0) in if isLeaf a then Ok (getLeafValue a, true) else min_loop fuel s a) = Ok (v, f)) ->
    forall fuel, (nnodes (Node full a pfx cs) <= fuel)%nat -> min_loop fuel s (enc b (Node full a pfx cs)) = Ok (v, f)).
  { intros v f Hx fuel Hf. rewrite nnodes_node in Hf. destruct fuel as [|fuel]; [lia|]. cbn [min_loop].
    rewrite (sound_explode K fetch s L Ha _ _ _ _ _ Hs Hb).
    rewrite (v_data _ _ _ _ _ Hv). cbn [bind]. rewrite (v_skip _ _ _ _ _ Hv). cbn [bind sl_base]. rewrite Hfull.
    rewrite <- (Hx fuel) by lia. destruct full.
    - pose proof (v_upto _ _ _ _ _ Hv) as Hu. cbn [ncount] in Hu |- *. rewrite Hu. done.
    - rewrite (view_get _ _ _ _ _ 0 Hv) by lia. done. }
  destruct full.
  - rewrite (find_up_spec K fetch s L Ha true a pfx cs (ncount true (length cs)) Hs 0) in Hstep by lia. rewrite kids_0 in Hstep.
    destruct cs as [|[b' c] r] eqn:Ecs.
    + exists 0, false. split; [by apply Hstep|]. split; [done|]. by exists [], a, pfx.
    + destruct (Hrec b' c r eq_refl) as (v & f & E & H). exists v, f. split; [by apply Hstep|done].
  - cbv zeta in Hstep. rewrite (slot_read K fetch s L false a pfx cs 0 Hs) in Hstep by lia. unfold slotw, child_at in Hstep.
    destruct cs as [|[b' c] r]; [simpl in Hn; lia|]. cbn [lookup list_lookup] in Hstep.
    destruct (Hrec b' c r eq_refl) as (v & f & E & H). exists v, f. split; [by apply Hstep|done].
Qed.

Lemma max_loop_ok s L t : alloc_inv s L -> sound s L t -> forall b, b < 256 -> is_leaf t = false ->
  exists v f, (forall fuel, (nnodes t <= fuel)%nat -> max_loop fuel s (enc b t) = Ok (v, f)) /\
    if f : bool then exists k rest, contents t = rest ++ [(k, v)]
    else v = 0 /\ exists C a pfx, t = plug C (Node true a pfx []).
Proof.
  intros Ha. induction t as [|full a pfx cs IH] using trie_ind2; [done|]. intros Hs b Hb _.
  pose proof (sound_view K fetch s L Ha _ _ _ _ Hs) as Hv. destruct (sound_count K fetch s L _ _ _ _ Hs) as [Hn Hfull].
  assert (Hrec : forall b' c r, cs = r ++ [(b', c)] -> exists v f,
    (forall fuel, (nsum cs <= fuel)%nat -> (if isLeaf (enc b' c) then Ok (getLeafValue (enc b' c), true) else max_loop fuel s (enc b' c)) = Ok (v, f)) /\
    if f : bool then exists k rest, contents (Node full a pfx cs) = rest ++ [(k, v)]
    else v = 0 /\ exists C a' pfx', Node full a pfx cs = plug C (Node true a' pfx' [])).
  { intros b' c r Ecs. assert (Hin : (b', c) ∈ cs) by (rewrite Ecs; apply elem_of_app; right; left).
    destruct (sound_child K fetch s L _ _ _ _ _ _ Hs Hin) as [Hc Hb'].
    destruct (sound_enc K fetch s L Ha c b' Hc Hb') as (_ & -> & _). rewrite contents_node.
    destruct c as [k v|full' a' pfx' cs']; cbn [is_leaf].
    - rewrite (sound_leaf K fetch s L k v b' Hc Hb'). exists v, true. split; [done|]. rewrite Ecs, bind_app. simpl. by do 2 eexists.
    - rewrite Forall_forall in IH. destruct (IH _ Hin Hc b' Hb' eq_refl) as (v & f & E & H).
      exists v, f. split; [intros fuel Hf; apply E; pose proof (nsum_in _ _ _ Hin); cbn [snd]; lia|]. cbn [snd] in H. destruct f.
      + destruct H as (k & rest & Ek). rewrite Ecs, bind_app, bind_cons. cbn [snd]. rewrite Ek. simpl.
        rewrite app_nil_r, app_assoc. by do 2 eexists.
      + destruct H as (-> & C & a2 & pfx2 & Ec). split; [done|]. exists (C ++ [Frame full a pfx r b' []]), a2, pfx2.
        rewrite plug_app, <- Ec. simpl. unfold fill. simpl. by rewrite Ecs. }
  assert (Hstep : forall v f, (forall fuel, (nsum cs <= fuel)%nat ->
    (if full then
       match find_down (t_mem s) (nbase a pfx) 255 with
       | None => Ok (0, false)
       | Some a => if isLeaf a then Ok (getLeafValue a, true) else max_loop fuel s a
       end
     else let a := mget (t_mem s) (nbase a pfx + N.of_nat (ncount full (length cs) - 1)) in if isLeaf a then Ok (getLeafValue a, true) else max_loop fuel s a) = Ok (v, f)) ->
    forall fuel, (nnodes (Node full a pfx cs) <= fuel)%nat -> max_loop fuel s (enc b (Node full a pfx cs)) = Ok (v, f)).
  { intros v f Hx fuel Hf. rewrite nnodes_node in Hf. destruct fuel as [|fuel]; [lia|]. cbn [max_loop].
    rewrite (sound_explode K fetch s L Ha _ _ _ _ _ Hs Hb).
    rewrite (v_data _ _ _ _ _ Hv). cbn [bind]. rewrite (v_skip _ _ _ _ _ Hv). cbn [bind sl_base]. rewrite Hfull.
    rewrite <- (Hx fuel) by lia. destruct full.
    - pose proof (v_upto _ _ _ _ _ Hv) as Hu. cbn [ncount] in Hu |- *. rewrite Hu. done.
    - rewrite (view_get _ _ _ _ _ (ncount false (length cs) - 1) Hv) by lia. done. }
  destruct full.
  - rewrite (find_down_spec K fetch s L Ha true a pfx cs 255 Hs) in Hstep; [|simpl; lia|].
    2:{ apply kids_end; [|simpl; lia]. by eapply sound_sbytes. }
    destruct (last cs) as [[b' c]|] eqn:Ecs.
    + apply last_Some in Ecs as [r Er]. destruct (Hrec b' c r Er) as (v & f & E & H). exists v, f. split; [by apply Hstep|done].
    + apply last_None in Ecs as ->. exists 0, false. split; [by apply Hstep|]. split; [done|]. by exists [], a, pfx.
  - cbv zeta in Hstep. rewrite (slot_read K fetch s L false a pfx cs _ Hs) in Hstep by lia. unfold slotw, child_at, ncount in Hstep.
    destruct cs as [|x r _] using rev_ind; [simpl in Hn; lia|]. destruct x as [b' c]. rewrite app_length in Hstep. simpl length in Hstep.
    rewrite lookup_app_r in Hstep by lia. replace (length r + 1 - 1 - length r)%nat with 0%nat in Hstep by lia. cbn [lookup list_lookup] in Hstep.
    destruct (Hrec b' c r eq_refl) as (v & f & E & H). exists v, f. split; [by apply Hstep|done].
Qed.

(** ** Live nodes of the ghost trie *)

Lemma root_byte_lt s t : core s (Some t) -> root_byte t < 256.
Proof.
  intros Hc. pose proof (co_wf _ _ _ _ Hc) as Hw. simpl in Hw. destruct t as [k v|]; simpl; [|lia].
  assert (HKk : K k) by (by inversion Hw). pose proof (uv_bytes _ HK _ HKk) as Hbk.
  destruct k as [|k0 k]; simpl; [lia|]. by inversion Hbk.
Qed.

Lemma sub_live s t p : core s (Some t) -> forall b c, sub (root_byte t) t p = Some (b, c) -> live s p (enc b c).
Proof.
  intros Hc. pose proof (root_byte_lt _ _ Hc) as Hb. pose proof (co_alloc _ _ _ _ Hc) as Ha.
  induction p as [|i p IH] using rev_ind; intros b c Hs.
  - cbn [sub] in Hs. injection Hs as <- <-.
    pose proof (core_sound K fetch s [] t Hc) as Hso. simpl in Hso.
    destruct (sound_enc K fetch s _ Ha t (root_byte t) Hso Hb) as (_ & _ & Hne).
    pose proof (co_root _ _ _ _ Hc) as Hr. change (enc_root (Some t)) with (enc (root_byte t) t) in Hr. rewrite <- Hr. constructor. by rewrite Hr.
  - rewrite sub_snoc in Hs. destruct (sub (root_byte t) t p) as [[b' [|full a pfx cs]]|] eqn:E; [done| |done].
    destruct (Live.sub_view K fetch _ _ _ _ _ _ _ _ _ Hc Hb E) as (Hr & Hrep & (q & Hq) & Hb' & Hv & He).
    assert (Hso : sound s (regs t) (Node full a pfx cs)) by (split; [done|done|by exists q]).
    pose proof (child_at_elem _ _ _ _ _ Hs) as Hin. destruct (sound_child K fetch s _ _ _ _ _ _ _ Hso Hin) as [Hcs Hbc].
    destruct (sound_enc K fetch s _ Ha _ _ Hso Hb') as (_ & Hl & _). destruct (sound_enc K fetch s _ Ha _ _ Hcs Hbc) as (_ & _ & Hne).
    pose proof (sound_sbytes K fetch s _ _ _ _ _ Hso) as Hsb. destruct (child_frame _ _ _ _ _ Hsb Hs) as (l & El & Ei).
    assert (Hi : (i < ncount full (length cs))%nat).
    { destruct (Nat.lt_ge_cases i (ncount full (length cs))) as [|Hge]; [done|]. pose proof (kids_end full cs i Hsb Hge) as Hk.
      rewrite kids_step, Hs in Hk by done. done. }
    eapply live_child; [by apply IH|exact Hl|exact He|exact (v_data _ _ _ _ _ Hv)|exact (v_skip _ _ _ _ _ Hv)|exact Hi| |done].
    rewrite (view_get _ _ _ _ _ _ Hv Hi). fold (nbase a pfx). rewrite (slot_read K fetch s _ _ _ _ _ _ Hso Hi). unfold slotw. by rewrite Hs.
Qed.

Lemma plug_sub s C : forall t, sound s (regs (plug C t)) (plug C t) -> forall b0, exists p b, sub b0 (plug C t) p = Some (b, t).
Proof.
  induction C as [|f C IH] using rev_ind; intros t Hs b0; [by exists [], b0|].
  rewrite plug_app in Hs |- *. simpl in Hs |- *. unfold fill in *.
  pose proof (sound_sbytes K fetch s _ _ _ _ _ Hs) as Hsb.
  destruct (child_at_frame (f_full f) (f_l f) (f_b f) (plug C t) (f_r f) Hsb) as (Hca & _).
  destruct (sound_child K fetch s _ _ _ _ _ (f_b f) (plug C t) Hs) as [Hc _]; [apply elem_of_app; right; left|].
  assert (Hc' : sound s (regs (plug C t)) (plug C t)) by (destruct Hc as [_ H1 H2]; split; done).
  destruct (IH t Hc' (f_b f)) as (p & b & E). eexists (_ :: p), b. cbn [sub]. rewrite Hca. done.
Qed.

Lemma emptied_ghost s C a pfx : core s (Some (plug C (Node true a pfx []))) -> emptied s.
Proof.
  intros Hc. pose proof (root_byte_lt _ _ Hc) as Hb. pose proof (co_alloc _ _ _ _ Hc) as Ha.
  pose proof (core_sound K fetch s [] _ Hc) as Hso. simpl in Hso.
  destruct (plug_sub s C _ Hso (root_byte (plug C (Node true a pfx [])))) as (p & b & E).
  destruct (Live.sub_view K fetch _ _ _ _ _ _ _ _ _ Hc Hb E) as (Hr & Hrep & (q & Hq) & Hb' & Hv & He).
  assert (Hso2 : sound s (regs (plug C (Node true a pfx []))) (Node true a pfx [])) by (split; [done|done|by exists q]).
  exists p, (enc b (Node true a pfx [])). do 8 eexists. split_and!.
  - by eapply sub_live.
  - by apply (sound_enc K fetch s _ Ha _ _ Hso2 Hb').
  - exact He.
  - exact (v_data _ _ _ _ _ Hv).
  - exact (v_skip _ _ _ _ _ Hv).
  - intros i Hi. rewrite (view_get _ _ _ _ _ _ Hv Hi). fold (nbase a pfx). rewrite (slot_read K fetch s _ _ _ _ _ _ Hso2 Hi). done.
Qed.
End MinMax.
