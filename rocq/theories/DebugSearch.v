(** * DebugSearch: the search that prints every node on its way. *)
From Verif Require Export AdminFacts LookupPath Witness.

Section DebugSearch.
Context (K : list N -> Prop) (fetch : N -> list N) (HK : universe K).
Local Notation core := (core K fetch).

Definition on_path (s : tree) (q : list nat) (ds : list dump) : Prop :=
  exists q', forall i d, ds !! i = Some d -> exists w, live s (q ++ take i q') w /\ shows s (q ++ take i q') w d.

Lemma on_path_one s q w d : live s q w -> shows s q w d -> on_path s q [d].
Proof. intros Hl Hs. exists []. intros [|i] d' E; [|done]. injection E as <-. rewrite take_nil, app_nil_r. eauto. Qed.

Lemma debug_loop_ok s t0 L key : core s (Some t0) -> alloc_inv s L -> bytes key -> forall fuel q b p full a pfx cs v f,
  sub (root_byte t0) t0 q = Some (b, Node full a pfx cs) -> b < 256 ->
  (forall r, r ∈ regs (Node full a pfx cs) -> r ∈ L) -> wf K fetch p (Node full a pfx cs) -> rep (t_mem s) (Node full a pfx cs) ->
  search_loop fuel s key a (ncount full (length cs)) (plen8 (length pfx)) (length p) = Ok (v, f) ->
  exists ds, debug_loop fuel s key (enc b (Node full a pfx cs)) (length p) = Ok (ds, v) /\ ds <> [] /\ on_path s q ds.
Proof using HK.
  intros Hc Ha Hbytes. induction fuel as [|fuel IH]; intros q b p full a pfx cs v f Hq Hb Hr Hwf Hrep E0; [done|].
  pose proof (node_view K fetch s L p full a pfx cs Ha Hr Hwf Hrep) as Hv.
  pose proof (sub_live K fetch HK s t0 q Hc _ _ Hq) as Hl. destruct (dump_live K fetch HK s _ _ _ Hc Hl) as (d & Ed & Hd & _). pose proof (on_path_one _ _ _ _ Hl Hd) as H1d.
  cbn [search_loop] in E0. cbn [debug_loop]. rewrite Ed. cbn [bind]. rewrite (explode_enc K fetch s L _ b full a pfx cs Ha Hr Hwf Hb).
  rewrite (v_data _ _ _ _ _ Hv) in E0 |- *. cbn [bind] in E0 |- *. rewrite (v_skip _ _ _ _ _ Hv) in E0 |- *. cbn [bind] in E0 |- *.
  destruct (Nat.leb_spec (length key) (length p + length pfx)) as [Hle|Hlt]; [injection E0 as <- <-; by exists [d]|].
  destruct (lookup_lt_is_Some_2 key _ Hlt) as [k Ek]. rewrite (key_at_Some _ _ _ Ek) in E0 |- *. cbn [bind] in E0 |- *.
  assert (Hk : k < 256) by (eapply Forall_lookup_1 in Hbytes; [|done]; done).
  destruct (ncount_bounds K fetch _ _ _ _ _ Hwf) as [Hn Hfa]. rewrite Hfa in E0 |- *.
  assert (Hgo : forall i c, (k, c) ∈ cs -> child_at full cs i = Some (k, c) -> (if is_leaf c then Ok (getLeafValue (enc k c), true)
    else let '(_, node', count', prefixLen') := explodeNode (enc k c) in search_loop fuel s key node' count' prefixLen' (S (length p + length pfx))) = Ok (v, f) ->
    exists ds, (if is_leaf c then Ok ([d], getLeafValue (enc k c))
    else do (ds, v) <- debug_loop fuel s key (enc k c) (S (length p + length pfx)); Ok (d :: ds, v)) = Ok (ds, v) /\ ds <> [] /\ on_path s q ds).
  { intros i c Hin Hi E. destruct (child_wf K fetch _ _ _ _ _ _ _ Hwf Hin) as [Hw _]. destruct c as [k' v'|full' a' pfx' cs']; cbn [is_leaf] in E |- *.
    - injection E as <- <-. by exists [d].
    - assert (Hrc : forall r, r ∈ regs (Node full' a' pfx' cs') -> r ∈ L) by (intros r Hr'; apply Hr; by eapply child_regs).
      rewrite (explode_enc K fetch s L _ k full' a' pfx' cs' Ha Hrc Hw Hk) in E.
      assert (Hlen : length (p ++ pfx ++ [k]) = S (length p + length pfx)) by (rewrite !app_length; simpl; lia).
      assert (Hq' : sub (root_byte t0) t0 (q ++ [i]) = Some (k, Node full' a' pfx' cs')) by (by rewrite sub_snoc, Hq).
      assert (Hrep' : rep (t_mem s) (Node full' a' pfx' cs')).
      { apply rep_node_iff in Hrep as [_ Hrep]. rewrite list.Forall_forall in Hrep. exact (Hrep _ Hin). }
      rewrite <- Hlen in E |- *. destruct (IH (q ++ [i]) k (p ++ pfx ++ [k]) full' a' pfx' cs' v f Hq' Hk Hrc Hw Hrep' E) as (ds & -> & _ & q' & Hds).
      exists (d :: ds). split_and!; [done|done|]. exists (i :: q'). intros [|j] d' Ej; cbn [take].
      + injection Ej as <-. rewrite app_nil_r. eauto.
      + destruct (Hds j d' Ej) as (w & Hw'). exists w. by rewrite <- app_assoc in Hw'. }
  destruct full.
  - rewrite (view_get _ _ _ _ _ (N.to_nat k) Hv) in E0 |- * by (simpl; lia). cbn [bind] in E0 |- *. rewrite N2Nat.id in E0 |- *.
    destruct (full_child K fetch s L p a pfx cs k Ha Hr Hwf Hrep Hk) as [Ew Hcd]. rewrite Ew in E0 |- *.
    destruct (assoc k cs) as [c|] eqn:Ec; simpl default in E0 |- *; [|injection E0 as <- <-; by exists [d]].
    destruct Hcd as (H1 & H2 & H3). rewrite (proj2 (N.eqb_neq _ _)) in E0 |- * by done. rewrite H2 in E0 |- *.
    apply (Hgo (N.to_nat k) c (assoc_Some_elem _ _ _ Ec)); [|done]. unfold child_at. by rewrite N2Nat.id, Ec.
  - rewrite (v_upto _ _ _ _ _ Hv) in E0 |- *. cbn [bind] in E0 |- *. cbn [sl_base] in E0 |- *.
    destruct (small_scan K fetch s L p a pfx cs k Ha Hr Hwf Hrep) as
      [(l & c & r & Ecs & E & Hbk & Hlf)|(Hnk & l & r & brk & i & w & Ecs & _ & _ & E & _ & Hw)]; cbv zeta in E; simpl ncount in E0 |- *; rewrite E in E0 |- *.
    + rewrite Hbk, N.eqb_refl, Hlf in E0 |- *.
      apply (Hgo (length l) c); [rewrite Ecs; apply elem_of_app; right; left| |done]. unfold child_at. by rewrite Ecs, list_lookup_middle.
    + rewrite (proj2 (N.eqb_neq _ _)) in E0 |- * by done. injection E0 as <- <-. by exists [d].
Qed.

(** In the empty tree. *)
Lemma debug_empty s key : t_nextFreeBlock s < maxBlockCount -> mget (t_mem s) 0 = 0 ->
  forall fuel depth, (depth <= length key < fuel + depth)%nat -> exists ds, debug_loop fuel s key 0 depth = Ok (ds, 0).
Proof.
  intros Hnb H0. induction fuel as [|fuel IH]; intros depth Hf; [simpl in Hf; lia|].
  assert (E : node_data s 0 = Ok (Slice 0 262144)).
  { unfold node_data. change (block_of 0) with 0. destruct (maxBlockCount <=? 0) eqn:E; [by vm_compute in E|].
    destruct (N.max 1 (t_nextFreeBlock s) <=? 0) eqn:E2; [apply N.leb_le in E2; lia|]. f_equal. }
  cbn [debug_loop]. assert (Ed : exists d, debug_print_node s 0 = Ok d).
  { unfold debug_print_node. rewrite isLeaf_zero, explode_zero. change (block_of 0) with 0.
    destruct (maxBlockCount <? 0) eqn:E2; [by vm_compute in E2|]. rewrite E. cbn [bind]. change (0 <? 0)%nat with false. cbn iota. cbn [bind].
    change (sl_from (Slice 0 262144) 0) with (Ok (Slice 0 262144)). cbn [bind]. change (sl_upto (Slice 0 262144) 1) with (@Ok unit tt). cbn [bind]. eauto. }
  destruct Ed as [d ->]. cbn [bind]. rewrite explode_zero, E. cbn [bind]. change (skip_prefix (t_mem s) (Slice 0 262144) 0) with (Ok (0%nat, 0%nat, Slice 0 262144)). cbn [bind].
  rewrite Nat.add_0_r. destruct (Nat.leb_spec (length key) depth); [by exists [d]|].
  destruct (lookup_lt_is_Some_2 key depth ltac:(lia)) as [k Ek]. rewrite (key_at_Some _ _ _ Ek). cbn [bind].
  change (fullAllocFrom <=? 1)%nat with false. cbn iota.
  change (sl_upto (Slice 0 262144) 1) with (@Ok unit tt). cbn [bind sl_base scan].
  change (0 + N.of_nat 0) with 0. rewrite H0.
  change (to_byte 0) with 0. destruct (N.leb_spec k 0); cbn [fst snd].
  - assert (k = 0) as -> by lia. change (to_byte 0) with 0. rewrite N.eqb_refl, isLeaf_zero.
    destruct (IH (S depth)) as [ds ->]; [lia|]. cbn [bind]. by exists (d :: ds).
  - change (to_byte 0) with 0. rewrite (proj2 (N.eqb_neq 0 k)) by lia. by exists [d].
Qed.

Lemma debug_search_ok s T key : core s T -> bytes key -> key <> [] ->
  exists v f ds, search s key = Ok (v, f) /\ debug_search s key = Ok (ds, v) /\ 
    (t_root s <> 0 -> (ds = [] <-> isLeaf (t_root s) = true) /\ on_path s [] ds).
Proof using HK.
  intros Hc Hb Hne. destruct (search_ok K fetch HK s T key Hc Hb Hne) as (v & f & E0 & Hf & _). exists v, f.
  pose proof E0 as E1. unfold search in E1. unfold debug_search. destruct T as [[k v'|full a pfx cs]|].
  - destruct (root_word_leaf K fetch HK _ _ _ Hc) as (_ & Hl & _). rewrite Hl in E1 |- *. destruct (key_at key 0) as [c| | |]; try done. cbn [bind] in E1 |- *.
    exists []. split; [done|]. split; [destruct (to_byte (t_root s) =? c); by injection E1 as <- <-|]. intros _. split; [done|]. by exists [].
  - pose proof (hole_enc K fetch s [] (Node full a pfx cs) Hc eq_refl) as (_ & Hl & _).
    pose proof (hole_explode K fetch s [] full a pfx cs Hc) as Hx.
    assert (Er : t_root s = enc (root_byte (Node full a pfx cs)) (Node full a pfx cs)) by exact (co_root _ _ _ _ Hc).
    change (hole_word [] (Node full a pfx cs)) with (enc (root_byte (Node full a pfx cs)) (Node full a pfx cs)) in Hl, Hx. rewrite <- Er in Hl, Hx. rewrite Hl, Hx in E1. rewrite Hl.
    destruct (sub_facts K fetch s [] _ Hc) as (Hw & Hs & Hr). pose proof (root_byte_lt K fetch HK _ _ Hc) as Hrb.
    destruct (debug_loop_ok s (Node full a pfx cs) _ key Hc (co_alloc _ _ _ _ Hc) Hb _ [] _ [] full a pfx cs v f eq_refl Hrb Hr Hw Hs E1) as (ds & E & Hd & Hds).
    rewrite <- Er in E. exists ds. split; [done|]. split; [exact E|]. intros _. split; [|done]. split; [done|]. intros [=].
  - assert (Er : t_root s = 0) by exact (co_root _ _ _ _ Hc). rewrite Er in E1 |- *. rewrite isLeaf_zero in E1 |- *.
    destruct (debug_empty s key (ai_nb _ _ (co_alloc _ _ _ _ Hc)) ltac:(apply (co_zero _ _ _ _ Hc); by left) (S (length key)) 0 ltac:(lia)) as [ds Eds].
    exists ds. split; [done|]. split; [|done]. rewrite Eds. rewrite explode_zero in E1.
    rewrite search_empty in E1; [by injection E1 as <- <-|apply (ai_nb _ _ (co_alloc _ _ _ _ Hc))|apply (co_zero _ _ _ _ Hc); by left|lia].
Qed.
End DebugSearch.

Lemma c89_debug K fetch n tr y aid key : reachable K fetch n tr y -> proper K fetch y (CLookup aid key) ->
  exists ds v f y', debug_search (sy_tree y) key = Ok (ds, v) /\ api y (CLookup aid key) = Ok (RLookup v f, y') /\
    (t_root (sy_tree y) <> 0 -> (ds = [] <-> isLeaf (t_root (sy_tree y)) = true) /\
      exists q, forall i d, ds !! i = Some d -> exists w, live (sy_tree y) (take i q) w /\ shows (sy_tree y) (take i q) w d).
Proof.
  intros Hr (Haid & Ho & Hb & Hne). destruct (rcore K fetch _ _ _ Hr) as (HK & T & Hc).
  destruct (debug_search_ok K fetch HK _ T key Hc Hb Hne) as (v & f & ds & E1 & E2 & H3). exists ds, v, f.
  unfold api, Search.lookup, start_op. cbv zeta. rewrite search_resv, E1. cbn [bind]. eexists. by split_and!.
Qed.

Lemma ex_debug : exists tr y d0 d1, reachable (fixed 3) (be 3) 2 tr y /\ proper (fixed 3) (be 3) y (CLookup 1 [1; 0; 1]) /\ t_root (sy_tree y) <> 0 /\
  debug_search (sy_tree y) [1; 0; 1] = Ok ([d0; d1], 65537).
Proof.
  destruct (after_reachable 3 (be 3) (puts (be 3) 0 [0; 1; 65536; 65537; 65538]) (fun tr y => actb (fixedb 3) (be 3) y (AFind 1 [1; 0; 1]) && negb (t_root (sy_tree y) =? 0) &&
    match debug_search (sy_tree y) [1; 0; 1] with Ok ([_; _], v) => v =? 65537 | _ => false end)) as (tr & y & Hr & H); [lia|by vm_compute|by vm_compute|].
  apply andb_prop in H as [H H3]. apply andb_prop in H as [H1 H2]. apply actb_proper in H1. apply negb_true_iff, N.eqb_neq in H2.
  destruct (debug_search (sy_tree y) [1; 0; 1]) as [[[|d0 [|d1 []]] v]| | |] eqn:E; try done. apply N.eqb_eq in H3 as ->. by exists tr, y, d0, d1.
Qed.
