(** * QueryTop: the queries in every reachable state. *)
From Verif Require Export Query.

(** A reply for a prefix that no stored key has: the value of one key without the prefix. *)
Definition stray (K : list N -> Prop) (fetch : N -> list N) (y : sys) (sp : list N) (v : N) : Prop :=
  listing K fetch y sp [] /\ K (fetch v) /\ get fetch y (fetch v) = Some v /\ ~ sp `prefix_of` fetch v.

(** The values that an iterator of prefix [sp] returns in its first [calls] calls of Next, and
    whether it has ended by then. *)
Definition iterates (y : sys) (sp : list N) (calls : nat) (vs : list N) (ended : bool) : Prop :=
  returns (fun n => it_collect n calls (sy_tree y) (new_iter sp)) (vs, ended).

(** One call of Next on each of the trees in turn (the same tree at different times). *)
Fixpoint it_along (fuel : nat) (trees : list tree) (it : Iter.iter) : res (list N * bool) :=
  match trees with
  | [] => Ok ([], false)
  | s :: trees' =>
    do (more, it1) <- it_next fuel s it;
    if more then do (vs, e) <- it_along fuel trees' it1; Ok (it_value it1 :: vs, e)
    else Ok ([], true)
  end.

(** The tree's root is a node whose greatest child is a leaf. *)
Definition last_leaf (s : tree) : Prop :=
  exists i w, live s [i] w /\ isLeaf w = true /\ forall j w', live s [j] w' -> (j <= i)%nat.

(** [ps] lists the places of all inner nodes, each once. *)
Definition node_places (s : tree) (ps : list (list nat)) : Prop :=
  NoDup ps /\ forall p, p ∈ ps <-> exists w, live s p w /\ isLeaf w = false.

Section QueryTop.
Context (K : list N -> Prop) (fetch : N -> list N) (HK : universe K).
Local Notation core := (core K fetch).
Local Notation sound := (sound K fetch).

Lemma room_sub s C full a pfx cs : core s (Some (plug C (Node full a pfx cs))) -> room s -> N.of_nat (nslots full pfx (length cs)) < dlen a.
Proof.
  intros Hc Hr. pose proof (root_byte_lt K fetch HK _ _ Hc) as Hb. pose proof (co_alloc _ _ _ _ Hc) as Ha.
  pose proof (core_sound K fetch s [] _ Hc) as Hso. simpl in Hso.
  destruct (plug_sub K fetch s C _ Hso (root_byte (plug C (Node full a pfx cs)))) as (p & b & E).
  destruct (Live.sub_view K fetch _ _ _ _ _ _ _ _ _ Hc Hb E) as (Hr' & Hrep & (q & Hq) & Hb' & Hv & He).
  pose proof (sub_live K fetch HK s _ p Hc _ _ E) as Hl.
  assert (Hso2 : sound s (regs (plug C (Node full a pfx cs))) (Node full a pfx cs)) by (split; [done|done|by exists q]).
  destruct (sound_enc K fetch s _ Ha _ _ Hso2 Hb') as (_ & H2 & _).
  apply (Hr p _ (a, nslots full pfx (length cs)) Hl). do 8 eexists. split_and!; [by rewrite H2|exact He|exact (v_data _ _ _ _ _ Hv)|exact (v_skip _ _ _ _ _ Hv)|done].
Qed.

Lemma root_room_sub s full a pfx cs : core s (Some (Node full a pfx cs)) -> root_room s -> N.of_nat (nslots full pfx (length cs)) < dlen a.
Proof.
  intros Hc Hr. pose proof (root_byte_lt K fetch HK _ _ Hc) as Hb. pose proof (co_alloc _ _ _ _ Hc) as Ha. pose proof (core_sound K fetch s [] _ Hc) as Hso. simpl in Hso.
  pose proof (sub_live K fetch HK s _ [] Hc _ _ eq_refl) as Hl.
  destruct (Live.sub_view K fetch s _ _ [] _ _ _ _ _ Hc Hb eq_refl) as (Hr' & Hrep & (q & Hq) & Hb' & Hv & He).
  destruct (sound_enc K fetch s _ Ha _ _ Hso Hb) as (_ & H2 & H3).
  assert (Er : t_root s = enc (root_byte (Node full a pfx cs)) (Node full a pfx cs)) by (inversion Hl; [done|by destruct p]).
  apply (Hr (a, nslots full pfx (length cs))); rewrite Er; [done|]. do 8 eexists. split_and!; [by rewrite H2|exact He|exact (v_data _ _ _ _ _ Hv)|exact (v_skip _ _ _ _ _ Hv)|done].
Qed.

Lemma last_leaf_ends s full a pfx cs : core s (Some (Node full a pfx cs)) -> last_leaf s -> ends_leaf cs = true.
Proof.
  intros Hc (i & w & Hl & Hw & Hmax). pose proof (root_byte_lt K fetch HK _ _ Hc) as Hb. pose proof (co_alloc _ _ _ _ Hc) as Ha. pose proof (core_sound K fetch s [] _ Hc) as Hso. simpl in Hso.
  destruct (live_sub K fetch HK _ _ _ _ Hc Hl) as (t' & b & c & [= <-] & _ & E & ->). cbn [sub] in E.
  destruct (child_at full cs i) as [[b1 c1]|] eqn:Ec; [|done]. injection E as -> ->.
  pose proof (sound_sbytes K fetch s _ _ _ _ _ Hso) as Hsb. destruct (child_frame _ _ _ _ _ Hsb Ec) as (l & El & Ei).
  assert (Hin : (b, c) ∈ cs) by (rewrite El; apply elem_of_app; right; left).
  destruct (sound_child K fetch s _ _ _ _ _ _ _ Hso Hin) as [Hsc Hbc]. rewrite (proj1 (proj2 (sound_enc K fetch s _ Ha c b Hsc Hbc))) in Hw.
  destruct (kids full cs (S i)) as [|[b2 c2] r] eqn:Ek; [rewrite El; unfold ends_leaf; by rewrite last_snoc|].
  exfalso. assert (El2 : cs = (l ++ [(b, c)]) ++ (b2, c2) :: r) by (rewrite El, <- app_assoc; done).
  assert (Hsb2 := Hsb). rewrite El2 in Hsb2. destruct (child_at_frame full _ _ _ _ Hsb2) as (F1 & _). rewrite <- El2 in F1.
  assert (Hl2 : live s [N.to_nat (slot_idx full b2 (length (l ++ [(b, c)])))] (enc b2 c2)).
  { apply (sub_live K fetch HK s (Node full a pfx cs) _ Hc). cbn [sub]. by rewrite F1. }
  apply Hmax in Hl2. rewrite app_length in Hl2. simpl in Hl2. unfold slot_idx in *. destruct full; [|lia].
  destruct Hsb as [Hss _]. rewrite El in Hss. rewrite map_app in Hss. apply TrieFacts.SSorted_app in Hss as (_ & Hss & _).
  simpl in Hss. apply TrieFacts.SSorted_cons in Hss as [_ Hss]. specialize (Hss b2 ltac:(left)). lia.
Qed.

(** ** The places of the inner nodes *)

Definition node_at (b : N) (t : trie) (p : list nat) : Prop := exists b' c, sub b t p = Some (b', c) /\ is_leaf c = false.

Lemma child_at_end full cs i : sbytes cs -> (ncount full (length cs) <= i)%nat -> child_at full cs i = None.
Proof.
  intros Hs Hi. destruct (child_at full cs i) as [x|] eqn:E; [|done]. pose proof (kids_step full cs i Hs) as Hk.
  rewrite E, kids_end in Hk by done. done.
Qed.

Lemma node_list s L t : sound s L t -> forall b, exists ps, NoDup ps /\ length ps = nnodes t /\ forall p, p ∈ ps <-> node_at b t p.
Proof.
  induction t as [k v|full a pfx cs IH] using trie_ind2; intros Hs b.
  - exists []. split_and!; [constructor|done|]. intros p. rewrite elem_of_nil. split; [done|]. intros (b' & c & E & Hc).
    destruct p as [|i p]; [|done]. injection E as <- <-. done.
  - pose proof (sound_sbytes K fetch s L _ _ _ _ Hs) as Hsb.
    assert (Hk : forall n k, (k + n = ncount full (length cs))%nat -> exists ps, NoDup ps /\ length ps = nsum (kids full cs k) /\
      forall p, p ∈ ps <-> exists i p', p = i :: p' /\ (k <= i)%nat /\ node_at b (Node full a pfx cs) p).
    { induction n as [|n IHn]; intros k Hk.
      - exists []. rewrite kids_end by (done || lia). split_and!; [constructor|done|]. intros p. rewrite elem_of_nil. split; [done|].
        intros (i & p' & -> & Hi & b' & c & E & _). cbn [sub] in E. rewrite child_at_end in E by (done || lia). done.
      - destruct (IHn (S k) ltac:(lia)) as (ps & P1 & P2 & P3). rewrite kids_step by done.
        destruct (child_at full cs k) as [[bc c]|] eqn:Ec.
        + destruct (child_frame _ _ _ _ _ Hsb Ec) as (l & El & _). assert (Hin : (bc, c) ∈ cs) by (rewrite El; apply elem_of_app; right; left).
          destruct (sound_child K fetch s L _ _ _ _ _ _ Hs Hin) as [Hc _]. rewrite Forall_forall in IH.
          destruct (IH _ Hin Hc bc) as (qs & Q1 & Q2 & Q3). cbn [snd] in *.
          exists (map (cons k) qs ++ ps). split_and!.
          * apply NoDup_app. split_and!; [apply NoDup_fmap_2; [|done]; congruence| |done].
            intros p (p' & -> & _)%elem_of_list_fmap Hp. apply P3 in Hp as (i & p2 & [= <- <-] & Hi & _). lia.
          * rewrite app_length, map_length, Q2, P2, nsum_cons. done.
          * intros p. rewrite elem_of_app, elem_of_list_fmap, P3. split.
            -- intros [(p' & -> & Hp)|(i & p' & -> & Hi & Hp)].
               ++ exists k, p'. split_and!; [done|lia|]. apply Q3 in Hp as (b' & c' & E & Hl). exists b', c'. cbn [sub]. by rewrite Ec.
               ++ exists i, p'. split_and!; [done|lia|done].
            -- intros (i & p' & -> & Hi & Hp). destruct (decide (i = k)) as [->|Hne].
               ++ left. exists p'. split; [done|]. apply Q3. destruct Hp as (b' & c' & E & Hl). cbn [sub] in E. rewrite Ec in E. by exists b', c'.
               ++ right. exists i, p'. split_and!; [done|lia|done].
        + exists ps. split_and!; [done|done|]. intros p. rewrite P3. split.
          * intros (i & p' & -> & Hi & Hp). exists i, p'. split_and!; [done|lia|done].
          * intros (i & p' & -> & Hi & Hp). exists i, p'. split_and!; [done| |done]. destruct (decide (i = k)) as [->|Hne]; [|lia].
            exfalso. destruct Hp as (b' & c' & E & Hl). cbn [sub] in E. by rewrite Ec in E. }
    destruct (Hk (ncount full (length cs)) O eq_refl) as (ps & P1 & P2 & P3). rewrite kids_0 in P2.
    exists ([] :: ps). split_and!.
    + constructor; [|done]. intros Hp. apply P3 in Hp as (i & p' & ? & _). done.
    + simpl. rewrite P2. done.
    + intros p. rewrite elem_of_cons, P3. split.
      * intros [->|(i & p' & -> & _ & Hp)]; [|done]. by exists b, (Node full a pfx cs).
      * intros Hp. destruct p as [|i p]; [by left|]. right. exists i, p. split_and!; [done|lia|done].
Qed.

Lemma node_places_ok s T : core s T -> exists ps, node_places s ps /\ length ps = from_option nnodes O T.
Proof.
  intros Hc. destruct T as [t|].
  - pose proof (core_sound K fetch s [] t Hc) as Hso. simpl in Hso.
    pose proof (root_byte_lt K fetch HK _ _ Hc) as Hb. pose proof (co_alloc _ _ _ _ Hc) as Ha.
    destruct (node_list _ _ _ Hso (root_byte t)) as (ps & P1 & P2 & P3). exists ps. split; [|done]. split; [done|].
    assert (Hen : forall p b c, sub (root_byte t) t p = Some (b, c) -> isLeaf (enc b c) = is_leaf c).
    { intros p b c E. pose proof (co_rep _ _ _ _ Hc) as Hrep. simpl in Hrep.
      destruct (sub_wf K fetch _ _ _ _ _ _ Hb (co_wf _ _ _ _ Hc) E) as (Hb' & q & Hq).
      apply (sound_enc K fetch s (regs t) Ha c b); [|done]. split; [|by eapply sub_rep|by exists q]. intros r Hr. by eapply sub_incl. }
    intros p. rewrite P3. split.
    + intros (b' & c & E & Hl). exists (enc b' c). split; [by eapply sub_live|]. by rewrite (Hen _ _ _ E).
    + intros (w & Hl & Hw). destruct (live_sub K fetch HK _ _ _ _ Hc Hl) as (t' & b & c & [= <-] & _ & E & ->).
      exists b, c. split; [done|]. by rewrite <- (Hen _ _ _ E).
  - exists []. split; [|done]. split; [constructor|]. intros p. rewrite elem_of_nil. split; [done|].
    intros (w & Hl & _). destruct (live_sub K fetch HK _ _ _ _ Hc Hl) as (t' & _ & _ & ? & _). done.
Qed.

(** ** Iterators *)

Lemma iter_ok y T sp : core (sy_tree y) T -> bytes sp ->
  (exists vs, listing K fetch y sp vs /\
    (forall calls, (calls <= length vs)%nat -> (sp = [] /\ (root_room (sy_tree y) \/ last_leaf (sy_tree y))) \/ room (sy_tree y) \/ (length vs <= 256)%nat -> iterates y sp calls (take calls vs) false) /\
    (forall calls, (length vs < calls)%nat -> (length vs <= 256)%nat \/ (sp = [] /\ last_leaf (sy_tree y)) -> iterates y sp calls vs true)) \/
  (exists v, stray K fetch y sp v /\ forall calls, (1 < calls)%nat -> iterates y sp calls [v] true).
Proof.
  intros Hc Hb. destruct (partial_search_ok K fetch HK _ T sp Hc Hb) as (raw & d & E & Hp).
  destruct Hp as [Hn|b C k v -> Hbb Hnl Hu|b C full a pfx cs -> Hbb Hnil Hin].
  - left. exists []. split_and!; [by eapply listing_nil| |].
    + intros calls Hl _. simpl in Hl. assert (calls = O) as -> by lia. by exists O.
    + intros calls Hl _. exists O. intros n _. destruct calls as [|calls]; [simpl in Hl; lia|].
      cbn [it_collect]. unfold it_next. simpl. rewrite E. done.
  - pose proof (core_sound K fetch _ _ _ Hc) as Hs. destruct (sound_enc K fetch _ _ (co_alloc _ _ _ _ Hc) _ b Hs Hbb) as (_ & H2 & H3).
    assert (HR1 : iterates y sp 1 [v] false).
    { exists O. intros n _. cbn [it_collect]. unfold it_next, new_iter. cbn [it_prefetched it_done it_prefix it_pp]. rewrite E. cbn [lookup list_lookup bind].
      rewrite (proj2 (N.eqb_neq _ _)) by done. rewrite H2. cbn [is_leaf bind it_value]. by rewrite (sound_leaf K fetch _ _ _ _ _ Hs Hbb). }
    assert (HR2 : forall calls, (1 < calls)%nat -> iterates y sp calls [v] true).
    { intros calls Hl. destruct calls as [|[|calls]]; [lia|lia|]. exists O. intros n _. cbn [it_collect]. unfold it_next at 1, new_iter. cbn [it_prefetched it_done it_prefix it_pp].
      rewrite E. cbn [lookup list_lookup bind]. rewrite (proj2 (N.eqb_neq _ _)) by done. rewrite H2. cbn [is_leaf bind it_value].
      rewrite (sound_leaf K fetch _ _ _ _ _ Hs Hbb). done. }
    destruct (leaf_stored K fetch HK _ _ _ _ Hc) as (HKk & Hf & Hg). destruct (prefix_dec sp k) as [Hp|Hp].
    + left. exists [v]. split_and!; [by eapply listing_leaf| |intros calls Hl _; by apply HR2].
      intros calls Hl _. simpl in Hl. destruct calls as [|[|calls]]; [by exists O|done|lia].
    + right. exists v. split; [|done]. split; [|by rewrite Hf]. eapply listing_nil; [done|done|]. intros k' v' H4 H5. by destruct (Hu _ _ H4 H5) as [-> _].
  - left. pose proof (core_sound K fetch _ _ _ Hc) as Hs. pose proof (co_alloc _ _ _ _ Hc) as Ha. simpl in Ha.
    exists (map snd (contents (Node full a pfx cs))). rewrite map_length. split_and!; [eapply listing_of; [done|done|by eapply plug_sorted|done]| |].
    + intros calls Hl Hroom. exists (it_rounds full a pfx cs). intros n Hfu.
      eapply (it_first K fetch _ _ Ha sp b Hbb full a pfx cs Hs d E n Hfu); [|apply iinv_new|by rewrite map_length].
      destruct Hroom as [[Hsp Hr]|[Hr|Hr]]; [|left; by eapply room_sub|by right; left].
      rewrite (Hnil Hsp) in Hc. simpl in Hc. destruct Hr; [left; by eapply root_room_sub|right; right; by eapply last_leaf_ends].
    + intros calls Hl Hsm. exists (it_rounds full a pfx cs). intros n Hfu.
      assert (Hsm' : (length (contents (Node full a pfx cs)) <= 256)%nat \/ ends_leaf cs = true).
      { destruct Hsm as [?|[Hsp Hll]]; [by left|right]. rewrite (Hnil Hsp) in Hc. simpl in Hc. by eapply last_leaf_ends. }
      eapply (it_all K fetch _ _ Ha sp b Hbb full a pfx cs Hs d E n Hfu Hsm'); [apply iinv_new|by rewrite map_length].
Qed.

(** An iterator that has taken everything on its first call never looks at the tree again. *)
Lemma along_done fuel it : it_done it = true -> forall trees, it_along fuel trees it =
  Ok (take (length trees) (drop (it_pp it) (it_prefetched it)), bool_decide (length (drop (it_pp it) (it_prefetched it)) < length trees)%nat).
Proof.
  intros Hd trees. revert it Hd. induction trees as [|s trees IH]; intros it Hd; [done|]. cbn [it_along]. unfold it_next.
  destruct (it_prefetched it !! it_pp it) as [v|] eqn:E.
  - cbn [bind]. rewrite IH by done. cbn [bind it_value it_pp it_prefetched]. rewrite (drop_S _ _ _ E). cbn [length take]. do 2 f_equal.
    apply bool_decide_ext. lia.
  - rewrite Hd. cbn [bind]. rewrite (drop_None _ _ E), take_nil. rewrite bool_decide_eq_true_2 by (simpl; lia). done.
Qed.

(** The first call takes everything if there are at most 256 values. *)
Lemma iter_snapshot y T sp : core (sy_tree y) T -> bytes sp ->
  (exists vs, listing K fetch y sp vs /\ ((length vs <= 256)%nat -> exists n0, forall n, (n0 <= n)%nat -> forall trees,
      it_along n (sy_tree y :: trees) (new_iter sp) = Ok (take (S (length trees)) vs, bool_decide (length vs <= length trees)%nat))) \/
  (exists v, stray K fetch y sp v /\ forall n trees, it_along n (sy_tree y :: trees) (new_iter sp) = Ok ([v], bool_decide (1 <= length trees)%nat)).
Proof.
  intros Hc Hb. destruct (partial_search_ok K fetch HK _ T sp Hc Hb) as (raw & d & E & Hp).
  destruct Hp as [Hn|b C k v -> Hbb Hnl Hu|b C full a pfx cs -> Hbb Hnil Hin].
  - left. exists []. split; [by eapply listing_nil|]. intros _. exists O. intros n _ trees.
    cbn [it_along]. unfold it_next. cbn. rewrite E. cbn [bind N.eqb]. rewrite bool_decide_eq_true_2 by (simpl; lia). done.
  - pose proof (core_sound K fetch _ _ _ Hc) as Hs. destruct (sound_enc K fetch _ _ (co_alloc _ _ _ _ Hc) _ b Hs Hbb) as (_ & H2 & H3).
    assert (HR : forall n trees, it_along n (sy_tree y :: trees) (new_iter sp) = Ok ([v], bool_decide (1 <= length trees)%nat)).
    { intros n trees. cbn [it_along]. unfold it_next, new_iter. cbn [it_prefetched it_done it_prefix it_pp].
      rewrite E. cbn [lookup list_lookup bind]. rewrite (proj2 (N.eqb_neq _ _)) by done. rewrite H2. cbn [is_leaf bind it_value].
      rewrite along_done by done. cbn [it_pp it_prefetched bind it_value]. rewrite (sound_leaf K fetch _ _ _ _ _ Hs Hbb).
      rewrite drop_nil, take_nil. done. }
    destruct (leaf_stored K fetch HK _ _ _ _ Hc) as (HKk & Hf & Hg). destruct (prefix_dec sp k) as [Hp|Hp].
    + left. exists [v]. split; [by eapply listing_leaf|]. intros _. exists O. intros n _ trees. rewrite HR. simpl. by rewrite take_nil.
    + right. exists v. split; [|done]. split; [|by rewrite Hf]. eapply listing_nil; [done|done|]. intros k' v' H4 H5. by destruct (Hu _ _ H4 H5) as [-> _].
  - left. pose proof (core_sound K fetch _ _ _ Hc) as Hs. pose proof (co_alloc _ _ _ _ Hc) as Ha. simpl in Ha.
    exists (map snd (contents (Node full a pfx cs))). rewrite map_length. split; [eapply listing_of; [done|done|by eapply plug_sorted|done]|].
    intros Hsm. exists (it_rounds full a pfx cs). intros n Hfu trees. cbn [it_along].
    destruct (it_scan K fetch _ _ Ha sp b Hbb full a pfx cs Hs d E n (new_iter sp) [] (Node full a pfx cs) Hfu eq_refl eq_refl eq_refl eq_refl eq_refl) as [(_ & H & _ & _)|Hx]; [lia|].
    cbn [cright] in Hx. rewrite app_nil_r in Hx. rewrite <- map_length with (f := snd).
    destruct (map snd (contents (Node full a pfx cs))) as [|v vs] eqn:Em.
    + destruct Hx as (it' & -> & _). cbn [bind]. rewrite bool_decide_eq_true_2 by (simpl; lia). done.
    + destruct Hx as (it' & w & -> & Hv & Hi & Hd). cbn [bind]. rewrite along_done by auto. cbn [bind]. rewrite Hv.
      assert (Ev : drop (it_pp it') (it_prefetched it') = vs) by (specialize (Hd Hsm); inversion Hi; congruence).
      rewrite Ev. cbn [take length]. done.
Qed.
End QueryTop.

Section Reach.
Context (K : list N -> Prop) (fetch : N -> list N).
Local Notation reachable := (reachable K fetch).
Local Notation listing := (listing K fetch).

Lemma rcore n tr y : reachable n tr y -> universe K /\ exists T, core K fetch (sy_tree y) T.
Proof. intros Hr. split; [by destruct Hr|]. destruct (reach_inv K fetch _ _ _ Hr) as (T & lost & Hi). exists T. apply (iv_core _ _ _ _ _ _ _ Hi). Qed.

Lemma not_stray y v : ~ stray K fetch y [] v.
Proof. intros (_ & _ & _ & H). apply H. apply prefix_nil. Qed.

Lemma c14_iter n tr y : reachable n tr y -> exists vs, listing y [] vs /\
  forall calls, (calls <= length vs)%nat -> root_room (sy_tree y) \/ last_leaf (sy_tree y) \/ (length vs <= 256)%nat -> iterates y [] calls (take calls vs) false.
Proof.
  intros Hr. destruct (rcore _ _ _ Hr) as (HK & T & Hc). destruct (iter_ok K fetch HK y T [] Hc) as [(vs & H1 & H2 & _)|(v & Hs & _)]; [constructor| |by apply not_stray in Hs].
  exists vs. split; [done|]. intros calls Hl Hrm. apply H2; [done|]. destruct Hrm as [?|[?|?]]; [left; by split; [|left]|left; by split; [|right]|by right; right].
Qed.

Lemma c15_iter n tr y : reachable n tr y -> exists vs, listing y [] vs /\
  forall calls, (length vs < calls)%nat -> (length vs <= 256)%nat \/ last_leaf (sy_tree y) -> iterates y [] calls vs true.
Proof.
  intros Hr. destruct (rcore _ _ _ Hr) as (HK & T & Hc). destruct (iter_ok K fetch HK y T [] Hc) as [(vs & H1 & _ & H2)|(v & Hs & _)]; [constructor| |by apply not_stray in Hs].
  exists vs. split; [done|]. intros calls Hl Hx. apply H2; [done|]. destruct Hx; [by left|by right].
Qed.

Lemma c16_iter n tr y sp : reachable n tr y -> bytes sp ->
  (exists vs, listing y sp vs /\
    (forall calls, (calls <= length vs)%nat -> room (sy_tree y) \/ (length vs <= 256)%nat -> iterates y sp calls (take calls vs) false) /\
    (forall calls, (length vs < calls)%nat -> (length vs <= 256)%nat -> iterates y sp calls vs true)) \/
  (exists v, stray K fetch y sp v /\ forall calls, (1 < calls)%nat -> iterates y sp calls [v] true).
Proof.
  intros Hr Hb. destruct (rcore _ _ _ Hr) as (HK & T & Hc). destruct (iter_ok K fetch HK y T sp Hc Hb) as [(vs & H1 & H2 & H3)|H]; [|by right].
  left. exists vs. split_and!; [done| |]; intros calls Hl Hrm; [apply H2; [done|by right]|apply H3; [done|by left]].
Qed.

Lemma c16_count n tr y sp : reachable n tr y -> bytes sp ->
  exists nodes leaves c, returns (fun n => count n (sy_tree y) sp) (nodes, leaves, c) /\
    ((exists vs, listing y sp vs /\ leaves = length vs) \/ (leaves = 1%nat /\ exists v, stray K fetch y sp v)).
Proof.
  intros Hr Hb. destruct (rcore _ _ _ Hr) as (HK & T & Hc). destruct (count_ok K fetch HK y T sp Hc Hb) as (nodes & leaves & c & vs & H1 & H2 & H3 & [[H4 _]|(-> & _ & -> & v & H4)]).
  - exists nodes, leaves, c. split; [done|]. left. by exists vs.
  - exists nodes, 1%nat, c. split; [done|]. right. split; [done|]. by exists v.
Qed.

Lemma c17_min n tr y sp : reachable n tr y -> bytes sp ->
  exists v found vs, returns (fun n => min_key n (sy_tree y) sp) (v, found) /\ listing y sp vs /\
    if found : bool then head vs = Some v \/ stray K fetch y sp v else v = 0 /\ (vs = [] \/ emptied (sy_tree y)).
Proof.
  intros Hr Hb. destruct (rcore _ _ _ Hr) as (HK & T & Hc). destruct (min_key_ok K fetch HK y T sp Hc Hb) as (v & f & H1 & vs & H2 & H3).
  exists v, f, vs. split_and!; [done|done|]. destruct f; [|done]. destruct H3 as [H3|(-> & H3)]; [by left|by right].
Qed.

Lemma c18_max n tr y sp : reachable n tr y -> bytes sp ->
  exists v found vs, returns (fun n => max_key n (sy_tree y) sp) (v, found) /\ listing y sp vs /\
    if found : bool then last vs = Some v \/ stray K fetch y sp v else v = 0 /\ (vs = [] \/ emptied (sy_tree y)).
Proof.
  intros Hr Hb. destruct (rcore _ _ _ Hr) as (HK & T & Hc). destruct (max_key_ok K fetch HK y T sp Hc Hb) as (v & f & H1 & vs & H2 & H3).
  exists v, f, vs. split_and!; [done|done|]. destruct f; [|done]. destruct H3 as [H3|(-> & H3)]; [by left|by right].
Qed.

Lemma c19_count n tr y : reachable n tr y -> exists nodes leaves c vs ps,
  returns (fun n => count n (sy_tree y) []) (nodes, leaves, c) /\ listing y [] vs /\ leaves = length vs /\
  node_places (sy_tree y) ps /\ nodes = length ps.
Proof.
  intros Hr. destruct (rcore _ _ _ Hr) as (HK & T & Hc).
  destruct (count_ok K fetch HK y T [] Hc) as (nodes & leaves & c & vs & H1 & H2 & H3 & [[H4 H5]|(_ & _ & _ & v & _ & _ & H4)]); [constructor| |by destruct H4; apply prefix_nil].
  destruct (node_places_ok K fetch HK _ _ Hc) as (ps & P1 & P2). exists nodes, leaves, c, vs, ps. split_and!; try done. rewrite P2. by apply H5.
Qed.

Lemma c20_count n tr y sp : reachable n tr y -> bytes sp -> exists nodes leaves c,
  returns (fun n => count n (sy_tree y) sp) (nodes, leaves, c) /\ (nodes <= visits c)%nat.
Proof.
  intros Hr Hb. destruct (rcore _ _ _ Hr) as (HK & T & Hc).
  destruct (count_ok K fetch HK y T sp Hc Hb) as (nodes & leaves & c & vs & H1 & H2 & H3 & _). by exists nodes, leaves, c.
Qed.

Lemma c40_snapshot n tr y sp : reachable n tr y -> bytes sp ->
  (exists vs, listing y sp vs /\ ((length vs <= 256)%nat -> exists n0, forall n, (n0 <= n)%nat -> forall trees,
      it_along n (sy_tree y :: trees) (new_iter sp) = Ok (take (S (length trees)) vs, bool_decide (length vs <= length trees)%nat))) \/
  (exists v, stray K fetch y sp v /\ forall n trees, it_along n (sy_tree y :: trees) (new_iter sp) = Ok ([v], bool_decide (1 <= length trees)%nat)).
Proof. intros Hr Hb. destruct (rcore _ _ _ Hr) as (HK & T & Hc). by apply (iter_snapshot K fetch HK y T). Qed.

Lemma c44_queries n tr y sp : reachable n tr y -> bytes sp ->
  (exists x, returns (fun n => min_key n (sy_tree y) sp) x) /\ (exists x, returns (fun n => max_key n (sy_tree y) sp) x) /\
  (exists x, returns (fun n => count n (sy_tree y) sp) x).
Proof.
  intros Hr Hb. destruct (c17_min _ _ _ sp Hr Hb) as (v & f & _ & H1 & _). destruct (c18_max _ _ _ sp Hr Hb) as (v' & f' & _ & H2 & _).
  destruct (c16_count _ _ _ sp Hr Hb) as (nd & l & c & H3 & _). split_and!; eauto.
Qed.
End Reach.
