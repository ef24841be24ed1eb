(** * Inv: the invariant of reachable API states and its preservation. *)
From Verif Require Export PrepTop Order Spec.

Definition olids (hd : handle) : list N := match hd with HU _ op => ulids op | HD _ op => dlids op | HP l _ => l end.
Definition oroot (hd : handle) : bool := match hd with HU _ op => u_isroot (u_kind op) | HD _ op => d_isroot (d_kind op) | HP _ b => b end.

Definition held (o : gmap nat handle) : list N := map_to_list o ≫= fun p => olids p.2.
Definition rootops (o : gmap nat handle) : list unit := map_to_list o ≫= fun p => if oroot p.2 then [()] else [].

Lemma bind_insert {A B} (o : gmap nat A) i x (f : nat * A -> list B) : o !! i = None ->
  map_to_list (<[i := x]> o) ≫= f ≡ₚ f (i, x) ++ (map_to_list o ≫= f).
Proof. intros H. rewrite map_to_list_insert by done. by rewrite bind_cons. Qed.

Lemma bind_delete {A B} (o : gmap nat A) i x (f : nat * A -> list B) : o !! i = Some x ->
  map_to_list o ≫= f ≡ₚ f (i, x) ++ (map_to_list (delete i o) ≫= f).
Proof. intros H. rewrite <- (insert_delete o i x H) at 1. apply bind_insert. apply lookup_delete. Qed.

Lemma held_insert o i hd : o !! i = None -> held (<[i := hd]> o) ≡ₚ olids hd ++ held o.
Proof. intros H. unfold held. by rewrite bind_insert by done. Qed.
Lemma held_delete o i hd : o !! i = Some hd -> held o ≡ₚ olids hd ++ held (delete i o).
Proof. intros H. unfold held. by rewrite bind_delete by done. Qed.
Lemma rootops_insert o i hd : o !! i = None -> length (rootops (<[i := hd]> o)) = ((if oroot hd then 1 else 0) + length (rootops o))%nat.
Proof. intros H. unfold rootops. rewrite bind_insert by done. rewrite app_length. simpl. by destruct (oroot hd). Qed.
Lemma rootops_delete o i hd : o !! i = Some hd -> length (rootops o) = ((if oroot hd then 1 else 0) + length (rootops (delete i o)))%nat.
Proof. intros H. unfold rootops. rewrite bind_delete by done. rewrite app_length. simpl. by destruct (oroot hd). Qed.
Lemma rootops_elem o i hd : o !! i = Some hd -> oroot hd = true -> (1 <= length (rootops o))%nat.
Proof. intros H E. rewrite (rootops_delete o i hd) by done. rewrite E. lia. Qed.
Lemma held_elem o i hd x : o !! i = Some hd -> x ∈ olids hd -> x ∈ held o.
Proof. intros H E. rewrite (held_delete o i hd) by done. apply elem_of_app. by left. Qed.

Section Inv.
Context (K : list N -> Prop) (fetch : N -> list N) (HK : universe K).
Local Notation core := (core K fetch).
Local Notation wf := (wf K fetch).
Local Notation fin := (FinU.fin K fetch).

(** ** Open operations *)

Definition me256 (op : dop) : thead := HLeaf (fetch (d_value op)) (d_value op).

(** The slot a node-256 delete is going to clear: in a live node, or (if something else was
    finalized meanwhile) in dead memory that cannot be reused yet. *)
Definition d256ok (s : tree) (T : option trie) (aid : nat) (over : bool) (op : dop) : Prop :=
  exists b x r, b < 256 /\ d_raw op = buildLeaf b (d_value op) /\ d_leafPtr op = PSlot x /\
    t_resv s !! aid = Some r /\ r <= t_epoch s /\
    ((exists o, ooccr T o /\ o_full o = true /\ x = slot_of true (o_addr o) (o_pfx o) b 0 /\
        (over = false -> (b, me256 op) ∈ o_hs o)) \/
     (over = true /\ x ∉ cover (oregs T) /\ x <> 0 /\ safe_from s r x)).

Definition hok (s : tree) (T : option trie) (aid : nat) (p : pend) (hd : handle) : Prop :=
  match hd with
  | HU found op =>
    found = is_found (u_kind op) /\ u_alloc op = aid /\ u_key op = p_key p /\
    (if u_isroot (u_kind op) then uroot K (p_key p) op T
     else exists o, ooccr T o /\ uvalid K fetch (p_del p) (p_key p) op o)
  | HD key op =>
    d_alloc op = aid /\ key = p_key p /\ d_value op < vlim /\
    (if d_isroot (d_kind op) then droot fetch op T
     else if is_del256 op then d256ok s T aid (p_over p) op
     else exists o, ooccr T o /\ dvalid fetch false (p_key p) op o)
  | HP _ _ => exists r, t_resv s !! aid = Some r /\ r <= t_epoch s
  end.

(** What happened to an operation in the view of its history entry. *)
Definition pend_le (p p' : pend) : Prop :=
  p_key p' = p_key p /\ (p_del p = true -> p_del p' = true) /\ (p_over p = true -> p_over p' = true).

Lemma uvalid_dirty d d' key op o : (d = true -> d' = true) -> uvalid K fetch d key op o -> uvalid K fetch d' key op o.
Proof.
  intros Hd [H1 H2]. split; [done|]. unfold ukind_ok in *. destruct (u_kind op); try done.
  destruct H2 as (H3 & H4 & H5 & H6 & H7 & H8 & H9 & H10 & H11). do 7 (split; [done|]). split; [|done]. intros ->. apply H10. destruct d; [|done].
  by specialize (Hd eq_refl).
Qed.

Lemma slot_in_region o b : o_full o = true -> b < 256 ->
  slot_of true (o_addr o) (o_pfx o) b 0 ∈ seqN (oreg o).1 (oreg o).2.
Proof.
  intros Hf Hb. unfold oreg. simpl. rewrite Hf. apply elem_of_seqN. unfold slot_of, nslots, ncount. cbn [slot_idx]. lia.
Qed.

Lemma occ_regs p np par t o : occ p np par t o -> oreg o ∈ regs t.
Proof.
  induction 1 as [p np par full a pfx cs|p np par full a pfx l b t r o H IH].
  - unfold oreg. simpl. rewrite heads_length. left.
  - rewrite regs_node. right. apply elem_of_list_bind. exists (b, t). split; [done|]. apply elem_of_app; right; left.
Qed.

Lemma ooccr_regs T o : ooccr T o -> oreg o ∈ oregs T.
Proof. destruct T as [t|]; [|done]. apply occ_regs. Qed.

(** Stability of a node-256 delete under another operation's Finalize. *)
Lemma d256_keep s T s' T' G hl rl d aid op over :
  core s T -> fin s T s' T' hl rl G d -> t_resv s' = t_resv s -> t_epoch s <= t_epoch s' ->
  d256ok s T aid over op -> d256ok s' T' aid true op.
Proof.
  intros Hc [(l & e & Hu & He & Hl) Hgone HG] Hresv Hep (b & x & r & Hb & Hraw & Hptr & Hr & Hre & Hcase).
  exists b, x, r. rewrite Hresv. split_and!; try done; [lia|].
  pose proof (elem_of_list_lookup_2 _ _ _ Hr) as Hrin.
  destruct Hcase as [(o & Ho & Hf & Hx & _)|(_ & Hx & Hx0 & Hs)].
  - destruct (Hgone o Ho) as [(o' & Ho' & Hs1 & Hs2 & Hs3 & Hs4 & _)|Hin].
    + left. exists o'. split_and!; [done|congruence|congruence|done].
    + right. pose proof (slot_in_region o b Hf Hb) as Hsl. rewrite <- Hx in Hsl.
      assert (HxT : x ∈ cover (oregs T)).
      { apply elem_of_cover. exists (oreg o). split; [by apply ooccr_regs|done]. }
      split; [done|]. split; [|split].
      * apply HG. apply elem_of_cover. by exists (oreg o).
      * pose proof (live_pos _ _ _ (co_alloc _ _ _ _ Hc) HxT). lia.
      * eapply (up_safe _ _ _ _ _ _ _ _ _ _ _ Hu); [|by exists r|done]. eapply live_safe; [apply Hc|done].
  - right. split; [done|]. split; [|split; [done|]].
    + intros HxT. destruct (up_fresh _ _ _ _ _ _ _ _ _ _ _ Hu x) as [H|H]; [done|done|].
      apply (H r); [by exists r|done].
    + apply (up_safe _ _ _ _ _ _ _ _ _ _ _ Hu); [done|by exists r|done].
Qed.

(** The nodes named by a valid operation are not among [X] if its locks are not. *)
Lemma not_touched (L X : list N) node parent : (forall a, a ∈ X -> a <> 0 /\ lock_id a ∈ L) ->
  (forall i, i ∈ lids2 node parent -> i ∉ L) -> node ∉ X /\ parent ∉ X.
Proof.
  intros HX HL. split; intros Hin; destruct (HX _ Hin) as [H0 Hi]; eapply HL; try done.
  - apply lids2_node.
  - by apply lids2_parent.
Qed.

Lemma occ_nonzero s T o : core s T -> ooccr T o -> o_addr o <> 0.
Proof.
  intros Hc Ho. destruct T as [t|]; [|done]. destruct (occ_zip _ _ Ho) as (D & cs & -> & _).
  apply sub_region in Hc as (? & _). lia.
Qed.

Lemma occ_child_nonzero s T o b full a pfx n : core s T -> ooccr T o -> (b, HNode full a pfx n) ∈ o_hs o -> a <> 0.
Proof.
  intros Hc Ho Hin. destruct T as [t|]; [|done]. destruct (occ_zip _ _ Ho) as (D & cs & -> & _ & _ & _ & E).
  rewrite E in Hin. apply elem_of_list_split in Hin as (hl & hr & Eh). apply heads_split in Eh as (cl & t & cr & -> & _ & Et & _).
  destruct t as [|full' a' pfx' cs']; [done|]. injection Et as -> -> -> _.
  apply (sub_region K fetch s (Frame (o_full o) (o_addr o) (o_pfx o) cl b cr :: D)) in Hc as (? & _). lia.
Qed.

Lemma dlids_incl s T dirty key op o i : core s T -> ooccr T o -> dvalid fetch dirty key op o -> is_del256 op = false ->
  i ∈ lids2 (o_addr o) (o_par o) -> i ∈ dlids op.
Proof.
  intros Hc Ho [Hb Hk] H256 Hi. pose proof (occ_nonzero _ _ _ Hc Ho) as Hn0. destruct Hb as [Hn Hp _ _].
  unfold dkind_ok, dlids, is_del256 in *. destruct (d_kind op); try done; rewrite Hn, Hp; try done.
  apply lids2_elem in Hi as [->|[Hp0 ->]]; [by apply lids3_node|by apply lids3_parent].
Qed.

(** Another operation finalized with [keeps]. *)
Lemma hok_keep s T s' T' X (L : list N) G hl rl d j p p' hd :
  core s T -> fin s T s' T' hl rl G d -> keeps T T' X -> t_resv s' = t_resv s -> t_epoch s <= t_epoch s' ->
  (forall a, a ∈ X -> a <> 0 /\ lock_id a ∈ L) -> (forall i, i ∈ olids hd -> i ∉ L) ->
  (oroot hd = true -> T' = T \/ exists o, ooccr T o) ->
  pend_le p p' -> p_over p' = true -> hok s T j p hd -> hok s' T' j p' hd.
Proof.
  intros Hc Hfin Hkeep Hresv Hep HX HL Hroot (Ek & Hd & Hov) Hov' Hok.
  destruct hd as [found op|key op|l b]; simpl in *.
  3:{ destruct Hok as (r & Hr & Hre). exists r. rewrite Hresv. split; [done|lia]. }
  - destruct Hok as (H1 & H2 & H3 & H4). rewrite Ek. do 3 (split; [done|]).
    destruct (u_isroot (u_kind op)) eqn:Er.
    + destruct (Hroot eq_refl) as [->|(o & Ho)]; [done|].
      destruct H4 as (_ & _ & _ & H4). unfold u_isroot in Er. destruct (u_kind op); try done.
      * subst T. done.
      * destruct H4 as (k0 & w & b & -> & _). by apply occ_leaf in Ho.
      * destruct H4 as (k0 & -> & _). by apply occ_leaf in Ho.
    + destruct H4 as (o & Ho & Hv). exists o. split; [|by eapply uvalid_dirty].
      destruct Hv as [Hb _]. unfold ulids in HL. rewrite Er in HL.
      destruct (not_touched L X (u_node op) (u_parent op) HX HL) as [Ha Hp].
      apply Hkeep; [done|by rewrite <- (ub_node _ _ _ _ Hb)|by rewrite <- (ub_parent _ _ _ _ Hb)].
  - destruct Hok as (H1 & H2 & H3 & H4). rewrite Ek. do 3 (split; [done|]).
    destruct (d_isroot (d_kind op)) eqn:Er.
    + destruct (Hroot eq_refl) as [->|(o & Ho)]; [done|]. destruct H4 as (_ & _ & ->). by apply occ_leaf in Ho.
    + destruct (is_del256 op) eqn:E256; [rewrite Hov'; by eapply d256_keep|].
      destruct H4 as (o & Ho & Hv). exists o. split; [|done].
      destruct (not_touched L X (o_addr o) (o_par o) HX) as [Ha Hp]; [|by apply Hkeep].
      intros i Hi. apply HL. by eapply dlids_incl.
Qed.

(** Another node-256 delete was finalized. *)
Lemma uvalid_oext dirty key op o o' : oext o o' -> uvalid K fetch dirty key op o -> uvalid K fetch true key op o'.
Proof.
  intros He [[B1 B2 B3 B4 B5 B6 B7 B8 B9 B10 B11] Hk]. pose proof He as [E1 E2 E3 E4 E5 E6 E7 E8]. split.
  - split; rewrite ?E1, ?E2, ?E3, ?E4, ?E5, ?E6; try done.
    rewrite B9. destruct (o_full o) eqn:Ef; [done|]. by rewrite E7.
  - unfold ukind_ok in *. rewrite E1, E4, E5, E6. destruct (u_kind op); try done.
    + destruct Hk as (Ha & Hf & Hh). rewrite E7 by done. done.
    + destruct Hk as (Ha & Hf & Hh & Hp). split; [done|]. split; [done|]. split; [|done]. intros Hin. apply Hh. by eapply oe_fst.
    + destruct Hk as (Ha & Hf & Hh). rewrite E7 by done. done.
    + destruct Hk as (H3 & H4 & H5 & H6 & H7 & H8 & H9 & H10 & H11). do 8 (split; [done|]). intros hd Hin. by apply H11, E8.
Qed.

Lemma dvalid_oext dirty key op o o' : oext o o' -> is_del256 op = false -> dvalid fetch dirty key op o -> dvalid fetch dirty key op o'.
Proof.
  intros [E1 E2 E3 E4 E5 E6 E7 E8] H256 [[B1 B2 B3 B4] Hk]. split.
  - split; rewrite ?E1, ?E2, ?E3, ?E4, ?E5, ?E6; done.
  - unfold dkind_ok, is_del256 in *. rewrite E1, E4, E5, E6. destruct (d_kind op); try done; destruct Hk as [Hf Hk]; by rewrite E7.
Qed.

Lemma hok_oext s T s' T' G hl rl d j p p' hd :
  core s T -> fin s T s' T' hl rl G d -> oexts T T' -> t_resv s' = t_resv s -> t_epoch s <= t_epoch s' ->
  (exists o, ooccr T o) ->
  pend_le p p' -> p_over p' = true -> p_del p' = true -> hok s T j p hd -> hok s' T' j p' hd.
Proof.
  intros Hc Hfin Hext Hresv Hep (o0 & Ho0) (Ek & Hd & Hov) Hov' Hdel Hok.
  destruct hd as [found op|key op|l b]; simpl in *.
  3:{ destruct Hok as (r & Hr & Hre). exists r. rewrite Hresv. split; [done|lia]. }
  - destruct Hok as (H1 & H2 & H3 & H4). rewrite Ek, Hdel. do 3 (split; [done|]).
    destruct (u_isroot (u_kind op)) eqn:Er.
    + destruct H4 as (_ & _ & _ & H4). unfold u_isroot in Er. destruct (u_kind op); try done.
      * subst T. done.
      * destruct H4 as (k0 & w & b & -> & _). by apply occ_leaf in Ho0.
      * destruct H4 as (k0 & -> & _). by apply occ_leaf in Ho0.
    + destruct H4 as (o & Ho & Hv). destruct (Hext o Ho) as (o' & Ho' & He). exists o'. split; [done|].
      by eapply uvalid_oext.
  - destruct Hok as (H1 & H2 & H3 & H4). rewrite Ek. do 3 (split; [done|]).
    destruct (d_isroot (d_kind op)) eqn:Er.
    + destruct H4 as (_ & _ & ->). by apply occ_leaf in Ho0.
    + destruct (is_del256 op) eqn:E256; [rewrite Hov'; by eapply d256_keep|].
      destruct H4 as (o & Ho & Hv). destruct (Hext o Ho) as (o' & Ho' & He). exists o'. split; [done|]. by eapply dvalid_oext.
Qed.

(** Changes that do not concern the tree structure. *)
Lemma hok_ext s s' T j p hd : t_allocs s' = t_allocs s -> t_nextFreeBlock s' = t_nextFreeBlock s ->
  t_epoch s' = t_epoch s -> t_resv s' !! j = t_resv s !! j -> hok s T j p hd -> hok s' T j p hd.
Proof.
  intros E1 E2 E3 E4. destruct hd as [found op|key op|l b]; [done| |simpl; by rewrite E3, E4]. simpl. intros (H1 & H2 & H3 & H4). do 3 (split; [done|]).
  destruct (d_isroot _); [done|]. destruct (is_del256 op); [|done].
  destruct H4 as (b & x & r & Hb & Hraw & Hptr & Hr & Hre & Hcase). exists b, x, r. rewrite E3, E4. do 5 (split; [done|]).
  destruct Hcase as [?|(H5 & H6 & H7 & H8)]; [by left|right]. do 3 (split; [done|]). by apply (safe_from_ext s).
Qed.

(** ** The map of the history *)

Definition maps (M : gmap (list N) N) (susp : gset (list N)) (T : option trie) : Prop :=
  (forall k v, M !! k = Some v -> (k, v) ∈ ocontents T) /\
  (forall k v, (k, v) ∈ ocontents T -> M !! k = Some v \/ (M !! k = None /\ k ∈ susp)).

Lemma co_functional s T k v w : core s T -> (k, v) ∈ ocontents T -> (k, w) ∈ ocontents T -> v = w.
Proof.
  intros Hc. destruct T as [t|]; [|by intros ?%elem_of_nil]. eapply wf_functional. apply (co_wf _ _ _ _ Hc).
Qed.

Lemma co_contents s T k v : core s T -> (k, v) ∈ ocontents T -> K k /\ v < vlim /\ fetch v = k.
Proof.
  intros Hc. destruct T as [t|]; [|by intros ?%elem_of_nil]. intros Hin.
  by destruct (wf_contents K fetch _ _ _ _ (co_wf _ _ _ _ Hc) Hin) as (_ & ?).
Qed.

Lemma maps_upsert s T s' T' key v d M susp : core s T -> core s' T' -> upserted T T' key v d -> maps M susp T ->
  maps (<[key := v]> M) (susp ∖ {[key]}) T'.
Proof.
  intros Hc Hc' Hu [H1 H2].
  assert (Hin : (key, v) ∈ ocontents T').
  { destruct Hu as [_ [[[_ E] _]|[(w & rest & _ & E) _]]]; rewrite E; left. }
  assert (Hother : forall k w, k <> key -> (k, w) ∈ ocontents T' <-> (k, w) ∈ ocontents T).
  { intros k w Hk. destruct Hu as [_ [[[_ E] _]|[(w' & rest & E1 & E) _]]]; rewrite E; [|rewrite E1]; rewrite !elem_of_cons; naive_solver. }
  split.
  - intros k w. destruct (decide (k = key)) as [->|Hne].
    + rewrite lookup_insert. by intros [= <-].
    + rewrite lookup_insert_ne by done. intros Hk. apply Hother; auto.
  - intros k w Hkw. destruct (decide (k = key)) as [->|Hne].
    + left. rewrite lookup_insert. f_equal. by eapply (co_functional s').
    + rewrite lookup_insert_ne by done. apply Hother in Hkw; [|done]. destruct (H2 _ _ Hkw) as [?|[? ?]]; [by left|right].
      split; [done|]. set_solver.
Qed.

Lemma maps_remove s T T' key v M susp : core s T -> removed T T' key v -> maps M susp T ->
  maps (delete key M) (susp ∖ {[key]}) T'.
Proof.
  intros Hc Hr [H1 H2]. unfold removed in Hr.
  assert (Hno : forall w, (key, w) ∉ ocontents T').
  { intros w Hin. assert (Hnd : NoDup (map fst (ocontents T))).
    { destruct T as [t|]; [|constructor]. eapply wf_nodup. apply (co_wf _ _ _ _ Hc). }
    rewrite Hr in Hnd. simpl in Hnd. apply NoDup_cons in Hnd as [Hn _]. apply Hn. apply elem_of_list_fmap. by exists (key, w). }
  split.
  - intros k w Hk. apply lookup_delete_Some in Hk as [Hne Hk]. apply H1 in Hk. rewrite Hr in Hk.
    apply elem_of_cons in Hk as [[= <- <-]|Hk]; done.
  - intros k w Hkw. assert (k <> key) by (intros ->; by apply (Hno w)). rewrite lookup_delete_ne by done.
    destruct (H2 k w) as [?|[? ?]]; [rewrite Hr; by right|by left|right]. split; [done|]. set_solver.
Qed.

Lemma maps_lost key T M susp : maps M susp T -> maps (delete key M) (susp ∪ {[key]}) T.
Proof.
  intros [H1 H2]. split.
  - intros k w Hk. apply lookup_delete_Some in Hk as [Hne Hk]. auto.
  - intros k w Hkw. destruct (decide (k = key)) as [->|Hne].
    + right. rewrite lookup_delete. set_solver.
    + rewrite lookup_delete_ne by done. destruct (H2 _ _ Hkw) as [?|[? ?]]; [by left|right]. split; [done|]. set_solver.
Qed.

Lemma maps_weaken key T M susp : maps M (susp ∖ {[key]}) T -> maps M (susp ∪ {[key]}) T.
Proof. intros [H1 H2]. split; [done|]. intros k w Hkw. destruct (H2 _ _ Hkw) as [?|[? ?]]; [by left|right]. set_solver. Qed.
End Inv.
