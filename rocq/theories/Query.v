(** * Query: iterators, counters, MinKey and MaxKey on a fixed tree. *)
From Verif Require Export IterFacts.

(** The values of the stored keys with prefix [sp], in ascending key order. *)
Definition listing (K : list N -> Prop) (fetch : N -> list N) (y : sys) (sp vs : list N) : Prop :=
  StronglySorted lex_lt (map fetch vs) /\
  forall v, v ∈ vs <-> K (fetch v) /\ get fetch y (fetch v) = Some v /\ sp `prefix_of` fetch v.

(** A computation with enough rounds returns [x]. *)
Definition returns {A} (f : nat -> res A) (x : A) : Prop := exists n0, forall n, (n0 <= n)%nat -> f n = Ok x.

(** Every node of the tree ends before the end of its memory block. *)
Definition room (s : tree) : Prop := forall p w r, live s p w -> node_reg s w r -> N.of_nat r.2 < dlen r.1.

(** The tree's root node ends before the end of its memory block. *)
Definition root_room (s : tree) : Prop := forall r, t_root s <> 0 -> node_reg s (t_root s) r -> N.of_nat r.2 < dlen r.1.

Section Query.
Context (K : list N -> Prop) (fetch : N -> list N) (HK : universe K).
Local Notation core := (core K fetch).
Local Notation wf := (wf K fetch).

Lemma sub_sorted {A} (R : A -> A -> Prop) (P : A -> Prop) `{!forall x, Decision (P x)} (l : list A) : StronglySorted R l -> StronglySorted R (filter P l).
Proof.
  induction 1 as [|x l Hs IH Hf]; [constructor|]. rewrite filter_cons. destruct (decide (P x)); [|done]. constructor; [done|].
  rewrite Forall_forall in *. intros y Hy. apply elem_of_list_filter in Hy as [_ Hy]. auto.
Qed.

Lemma listing_of y T sp l : core (sy_tree y) T -> StronglySorted kv_lt l ->
  (forall k v, (k, v) ∈ l <-> (k, v) ∈ ocontents T /\ sp `prefix_of` k) -> listing K fetch y sp (map snd l).
Proof.
  intros Hc Hs Hl.
  assert (Hst : forall k v, (k, v) ∈ ocontents T -> K k /\ fetch v = k).
  { intros k v Hin. by destruct (co_contents K fetch _ _ _ _ Hc Hin) as (? & _ & ?). }
  split.
  - assert (E : map fetch (map snd l) = map fst l).
    { rewrite map_map. apply map_ext_in. intros [k v] Hin. simpl. apply elem_of_list_In in Hin. apply Hl in Hin as [Hin _]. by apply Hst. }
    rewrite E. by apply SSorted_map.
  - intros v. rewrite elem_of_list_fmap. split.
    + intros ([k w] & -> & Hin). simpl. apply Hl in Hin as [Hin Hp]. destruct (Hst _ _ Hin) as [HKk Hf]. rewrite Hf.
      split_and!; [done| |done]. apply (get_iff K fetch HK y T); [done|by apply (uv_bytes _ HK)|by apply (uv_nonempty _ HK)|done].
    + intros (HKk & Hg & Hp). exists (fetch v, v). split; [done|]. apply Hl. split; [|done].
      apply (get_iff K fetch HK y T) in Hg; [done|done|by apply (uv_bytes _ HK)|by apply (uv_nonempty _ HK)].
Qed.

Lemma listing_nil y T sp : core (sy_tree y) T -> (forall k v, (k, v) ∈ ocontents T -> ~ sp `prefix_of` k) -> listing K fetch y sp [].
Proof.
  intros Hc H. apply (listing_of y T sp []); [done|constructor|]. intros k v. rewrite elem_of_nil. split; [done|]. intros [H1 H2]. by eapply H.
Qed.

Lemma listing_leaf y C k v sp : core (sy_tree y) (Some (plug C (Leaf k v))) -> sp `prefix_of` k ->
  (forall k' v', (k', v') ∈ ocontents (Some (plug C (Leaf k v))) -> sp `prefix_of` k' -> k' = k /\ v' = v) -> listing K fetch y sp [v].
Proof.
  intros Hc Hp H. apply (listing_of y (Some (plug C (Leaf k v))) sp [(k, v)]); [done|repeat constructor|]. intros k1 v1.
  rewrite elem_of_list_singleton. split.
  - intros [= -> ->]. split; [|done]. simpl. rewrite contents_plug. apply elem_of_app. right. left.
  - intros [H1 H2]. destruct (H _ _ H1 H2) as [-> ->]. done.
Qed.

Lemma leaf_stored y C k v : core (sy_tree y) (Some (plug C (Leaf k v))) -> K k /\ fetch v = k /\ get fetch y k = Some v.
Proof.
  intros Hc. assert (Hin : (k, v) ∈ ocontents (Some (plug C (Leaf k v)))).
  { simpl. rewrite contents_plug. apply elem_of_app. right. left. }
  destruct (co_contents K fetch _ _ _ _ Hc Hin) as (HKk & _ & Hf). split_and!; [done|done|].
  apply (get_iff K fetch HK y (Some (plug C (Leaf k v)))); [done|by apply (uv_bytes _ HK)|by apply (uv_nonempty _ HK)|done].
Qed.

Lemma plug_sorted s C t : core s (Some (plug C t)) -> StronglySorted kv_lt (contents t).
Proof. intros Hc. pose proof (co_wf _ _ _ _ Hc) as Hw. simpl in Hw. apply (wf_plug_path K fetch []) in Hw. by eapply wf_sorted. Qed.

Lemma prefix_dec (sp k : list N) : Decision (sp `prefix_of` k).
Proof. apply _. Qed.

(** What a descent from the subtree with the prefix may answer. *)
Definition extreme (y : sys) (sp : list N) (pick : list N -> option N) (v : N) (found : bool) : Prop :=
  exists vs, listing K fetch y sp vs /\
    if found then pick vs = Some v \/ (vs = [] /\ K (fetch v) /\ get fetch y (fetch v) = Some v /\ ~ sp `prefix_of` fetch v)
    else v = 0 /\ (vs = [] \/ emptied (sy_tree y)).

Lemma min_key_ok y T sp : core (sy_tree y) T -> bytes sp ->
  exists v f, returns (fun n => min_key n (sy_tree y) sp) (v, f) /\ extreme y sp head v f.
Proof.
  intros Hc Hb. destruct (partial_search_ok K fetch HK _ T sp Hc Hb) as (raw & d & E & Hp). unfold min_key.
  destruct Hp as [Hn|b C k v -> Hbb Hnl Hu|b C full a pfx cs -> Hbb _ Hin].
  - exists 0, false. split; [exists O; intros n _; rewrite E; done|]. exists []. split; [by eapply listing_nil|]. by split; [|left].
  - pose proof (core_sound K fetch _ _ _ Hc) as Hs. destruct (sound_enc K fetch _ _ (co_alloc _ _ _ _ Hc) _ b Hs Hbb) as (_ & H2 & H3).
    exists v, true. split.
    + exists O. intros n _. rewrite E. cbn [bind]. rewrite (proj2 (N.eqb_neq _ _)) by done. rewrite H2. cbn [is_leaf]. by rewrite (sound_leaf K fetch _ _ _ _ _ Hs Hbb).
    + destruct (leaf_stored _ _ _ _ Hc) as (HKk & Hf & Hg). destruct (prefix_dec sp k) as [Hp|Hp].
      * exists [v]. split; [by eapply listing_leaf|]. by left.
      * exists []. split; [|right; rewrite Hf; done]. eapply listing_nil; [done|]. intros k' v' H4 H5. by destruct (Hu _ _ H4 H5) as [-> _].
  - pose proof (core_sound K fetch _ _ _ Hc) as Hs. pose proof (co_alloc _ _ _ _ Hc) as Ha. simpl in Ha.
    destruct (sound_enc K fetch _ _ Ha _ b Hs Hbb) as (_ & H2 & H3).
    destruct (min_loop_ok K fetch _ _ _ Ha Hs b Hbb eq_refl) as (v & f & E' & Hres).
    exists v, f. split.
    + exists (nnodes (Node full a pfx cs)). intros n Hn. rewrite E. cbn [bind]. rewrite (proj2 (N.eqb_neq _ _)) by done. rewrite H2. cbn [is_leaf]. by apply E'.
    + exists (map snd (contents (Node full a pfx cs))). split; [eapply listing_of; [done|by eapply plug_sorted|done]|].
      destruct f.
      * left. destruct Hres as (k & rest & ->). done.
      * destruct Hres as (-> & C2 & a2 & pfx2 & Et). split; [done|]. right. rewrite Et, <- plug_app in Hc. by eapply emptied_ghost.
Qed.

Lemma max_key_ok y T sp : core (sy_tree y) T -> bytes sp ->
  exists v f, returns (fun n => max_key n (sy_tree y) sp) (v, f) /\ extreme y sp last v f.
Proof.
  intros Hc Hb. destruct (partial_search_ok K fetch HK _ T sp Hc Hb) as (raw & d & E & Hp). unfold max_key.
  destruct Hp as [Hn|b C k v -> Hbb Hnl Hu|b C full a pfx cs -> Hbb _ Hin].
  - exists 0, false. split; [exists O; intros n _; rewrite E; done|]. exists []. split; [by eapply listing_nil|]. by split; [|left].
  - pose proof (core_sound K fetch _ _ _ Hc) as Hs. destruct (sound_enc K fetch _ _ (co_alloc _ _ _ _ Hc) _ b Hs Hbb) as (_ & H2 & H3).
    exists v, true. split.
    + exists O. intros n _. rewrite E. cbn [bind]. rewrite (proj2 (N.eqb_neq _ _)) by done. rewrite H2. cbn [is_leaf]. by rewrite (sound_leaf K fetch _ _ _ _ _ Hs Hbb).
    + destruct (leaf_stored _ _ _ _ Hc) as (HKk & Hf & Hg). destruct (prefix_dec sp k) as [Hp|Hp].
      * exists [v]. split; [by eapply listing_leaf|]. by left.
      * exists []. split; [|right; rewrite Hf; done]. eapply listing_nil; [done|]. intros k' v' H4 H5. by destruct (Hu _ _ H4 H5) as [-> _].
  - pose proof (core_sound K fetch _ _ _ Hc) as Hs. pose proof (co_alloc _ _ _ _ Hc) as Ha. simpl in Ha.
    destruct (sound_enc K fetch _ _ Ha _ b Hs Hbb) as (_ & H2 & H3).
    destruct (max_loop_ok K fetch _ _ _ Ha Hs b Hbb eq_refl) as (v & f & E' & Hres).
    exists v, f. split.
    + exists (nnodes (Node full a pfx cs)). intros n Hn. rewrite E. cbn [bind]. rewrite (proj2 (N.eqb_neq _ _)) by done. rewrite H2. cbn [is_leaf]. by apply E'.
    + exists (map snd (contents (Node full a pfx cs))). split; [eapply listing_of; [done|by eapply plug_sorted|done]|].
      destruct f.
      * left. destruct Hres as (k & rest & ->). rewrite map_app. simpl map. by rewrite last_snoc.
      * destruct Hres as (-> & C2 & a2 & pfx2 & Et). split; [done|]. right. rewrite Et, <- plug_app in Hc. by eapply emptied_ghost.
Qed.


(** ** Count *)

Lemma count_ok y T sp : core (sy_tree y) T -> bytes sp ->
  exists nodes leaves c vs, returns (fun n => count n (sy_tree y) sp) (nodes, leaves, c) /\ listing K fetch y sp vs /\
    (nodes <= visits c)%nat /\
    ((leaves = length vs /\ (sp = [] -> nodes = from_option nnodes O T)) \/
     (vs = [] /\ nodes = O /\ leaves = 1%nat /\ exists v, K (fetch v) /\ get fetch y (fetch v) = Some v /\ ~ sp `prefix_of` fetch v)).
Proof.
  intros Hc Hb. destruct (partial_search_ok K fetch HK _ T sp Hc Hb) as (raw & d & E & Hp). 
  assert (Hv0 : (0 <= visits counter0)%nat) by lia.
  destruct Hp as [Hn|b C k v -> Hbb Hnl Hu|b C full a pfx cs -> Hbb Hnil Hin].
  - exists O, O, counter0, []. split_and!; [exists O; intros n _; unfold count; rewrite E; done|by eapply listing_nil|done|].
    left. split; [done|]. intros ->. destruct T as [[k v|full a pfx cs]|]; [done| |done].
    exfalso. unfold partial_search in E. pose proof (co_root _ _ _ _ Hc) as Hr. injection E as Er _. rewrite Hr in Er.
    pose proof (core_sound K fetch _ [] _ Hc) as Hs. destruct (sound_enc K fetch _ _ (co_alloc _ _ _ _ Hc) _ 0 Hs) as (_ & _ & Hne); [lia|]. done.
  - pose proof (core_sound K fetch _ _ _ Hc) as Hs. destruct (sound_enc K fetch _ _ (co_alloc _ _ _ _ Hc) _ b Hs Hbb) as (_ & H2 & H3).
    assert (HR : returns (fun n => count n (sy_tree y) sp) (O, 1%nat, counter0)).
    { exists O. intros n _. unfold count. rewrite E. cbn [bind]. rewrite (proj2 (N.eqb_neq _ _)) by done. by rewrite H2. }
    destruct (leaf_stored _ _ _ _ Hc) as (HKk & Hf & Hg). destruct (prefix_dec sp k) as [Hp|Hp].
    + exists O, 1%nat, counter0, [v]. split_and!; [done|by eapply listing_leaf|done|]. left. split; [done|]. intros Hsp. by rewrite (Hnl Hsp).
    + exists O, 1%nat, counter0, []. split_and!; [done| |done|].
      * eapply listing_nil; [done|]. intros k' v' H4 H5. by destruct (Hu _ _ H4 H5) as [-> _].
      * right. split_and!; try done. exists v. by rewrite Hf.
  - pose proof (core_sound K fetch _ _ _ Hc) as Hs. pose proof (co_alloc _ _ _ _ Hc) as Ha. simpl in Ha.
    destruct (sound_enc K fetch _ _ Ha _ b Hs Hbb) as (_ & H2 & H3).
    set (t0 := Node full a pfx cs) in *.
    destruct (count_loop_ok K fetch _ _ Ha (S (2 * nsum cs)) (CPos b full a pfx cs 0) [] 1 0 counter0) as (c & Ec & Hvis).
    { split_and!; [done|done|simpl; lia]. }
    { constructor. }
    { done. }
    { unfold cp_kids. simpl cp_full. simpl cp_cs. simpl cp_k. rewrite kids_0. change (cp_rounds []) with O. lia. }
    unfold cp_kids, cp_node in Ec, Hvis. cbn [cp_b cp_full cp_a cp_pfx cp_cs cp_k] in Ec, Hvis. rewrite kids_0 in Ec, Hvis.
    change (cp_nodes []) with O in Ec, Hvis. change (cp_leaves []) with O in Ec. change (map cp_word []) with (@nil (N * nat)) in Ec.
    exists (1 + nsum cs)%nat, (length (kvals cs)), c, (map snd (contents t0)). split_and!.
    + exists (S (2 * nsum cs)). intros n Hn. unfold count. rewrite E. cbn [bind]. rewrite (proj2 (N.eqb_neq _ _)) by done.
      rewrite H2. change (is_leaf t0) with false. cbn iota. unfold t0. rewrite (count_loop_mono _ _ _ _ _ _ _ _ _ n Ec Hn). f_equal. f_equal. f_equal; lia.
    + eapply listing_of; [done|by eapply plug_sorted|done].
    + lia.
    + left. split; [by rewrite map_length|]. intros Hsp. by rewrite (Hnil Hsp).
Qed.

(** ** Iterators *)

Section It.
Context (s : tree) (L : list (N * nat)) (Ha : alloc_inv s L) (sp : list N) (b0 : N) (Hb0 : b0 < 256)
  (full : bool) (a : N) (pfx : list N) (cs : list (N * trie)).
Local Notation t0 := (Node full a pfx cs).
Context (Hs0 : sound K fetch s L t0) (d : nat) (Hps : partial_search s sp = Ok (enc b0 t0, d)).

Definition it_rounds : nat := S (3 * nnodes t0).

(** What the iterator will still return; [wild] if its resume key is not a path. *)
Inductive iinv (it : Iter.iter) (todo : list N) : bool -> Prop :=
| ii_done : it_prefix it = sp -> it_done it = true -> todo = drop (it_pp it) (it_prefetched it) -> iinv it todo false
| ii_cut G c : it_prefix it = sp -> it_done it = false -> it_resume it = path_of G -> plug G c = t0 ->
    todo = drop (it_pp it) (it_prefetched it) ++ map snd (contents c ++ cright G) -> iinv it todo false
| ii_wild : it_prefix it = sp -> it_done it = false -> todo = drop (it_pp it) (it_prefetched it) ->
    (256 < length (contents t0))%nat -> ends_leaf cs = false -> iinv it todo true.

Lemma iinv_new : iinv (new_iter sp) (map snd (contents t0)) false.
Proof. eapply (ii_cut _ _ [] t0); try done. simpl. by rewrite app_nil_r. Qed.

Lemma plug_len G c : plug G c = t0 -> (length (contents c ++ cright G) <= length (contents t0))%nat.
Proof. intros <-. rewrite contents_plug, !app_length. lia. Qed.

Lemma drop_None {A} (l : list A) n : l !! n = None -> drop n l = [].
Proof. intros H. apply drop_ge. by apply lookup_ge_None. Qed.

Lemma it_scan fuel it G c : (it_rounds <= fuel)%nat -> it_prefix it = sp -> it_done it = false -> it_resume it = path_of G -> plug G c = t0 ->
  it_prefetched it !! it_pp it = None ->
  (it_next fuel s it = Panic OutOfRange /\ (256 < length (contents t0))%nat /\ ends_leaf cs = false /\ dlen a <= N.of_nat (nslots full pfx (length cs))) \/
  match map snd (contents c ++ cright G) with
  | [] => exists it', it_next fuel s it = Ok (false, it') /\ iinv it' [] false
  | v :: rest => exists it' w, it_next fuel s it = Ok (true, it') /\ it_value it' = v /\ iinv it' rest w /\
      ((length (contents t0) <= 256)%nat -> it_done it' = true)
  end.
Proof.
  intros Hf Hp Hd Hr Hpl Hpre. unfold it_next. rewrite Hpre, Hd, Hp, Hps. cbn [bind].
  destruct (sound_enc K fetch _ _ Ha _ b0 Hs0 Hb0) as (_ & H2 & H3). rewrite (proj2 (N.eqb_neq _ _)) by done. rewrite H2. cbn [is_leaf].
  pose proof (rnodes_bound G c) as Hrb. rewrite Hpl in Hrb.
  assert (HlG : (length G < S (length (it_resume it)))%nat).
  { rewrite Hr. clear. induction G as [|g G IH]; simpl; [lia|]. rewrite !app_length. simpl. simpl in IH. lia. }
  destruct (pre_loop_ok K fetch s L Ha G b0 [] [] (S (length (it_resume it))) c Hb0) as (C & full' & a' & pfx' & cs' & k & st' & E & X2 & X3 & X4 & X5);
    [by rewrite Hpl|by rewrite Hpl|done|].
  simpl app in E. simpl length in E. rewrite <- Hr, Hpl in E. change (length (@nil N)) with O in E. rewrite E. cbn [bind]. rewrite app_nil_r.
  rewrite Hpl in X2. pose proof (rnodes_bound C (Node full' a' pfx' cs')) as Hrb2. rewrite X2 in Hrb2. rewrite (nnodes_node full' a' pfx' cs') in Hrb2.
  pose proof (nsum_kids full' cs' k) as Hnk.
  pose proof (scan_loop_ok K fetch s L Ha b0 t0 (it_resume it) Hb0 Hs0 fuel C full' a' pfx' cs' k st' [] X2 X3 X4) as Hsc.
  rewrite X5 in Hsc. pose proof (plug_len G c Hpl) as Hlen. set (rest := contents c ++ cright G) in *.
  destruct Hsc as [|r1 r2 G' c' st Er Hlt HG HGn Hr2|full2 a2 pfx2 cs2 r st Et Hel Hlt Hroom|full2 a2 pfx2 cs2 Et Hel Hlt Hroom].
  { unfold it_rounds in Hf. lia. }
  - right. cbn [bind app]. destruct (map snd rest) as [|v vs] eqn:Em.
    + eexists. split; [done|]. apply ii_done; [done|done|]. simpl. by rewrite drop_nil.
    + eexists _, false. split_and!; [done|done| |done]. by apply ii_done.
  - right. rewrite Er, map_app. cbn [app bind] in *. destruct (map snd r1) as [|v vs] eqn:Em; [simpl in Hlt; lia|]. simpl.
    eexists _, false. split_and!; [done|done| |].
    + eapply (ii_cut _ _ G' c'); try done. simpl. rewrite drop_0. by rewrite Hr2.
    + apply (f_equal length) in Em, Er. rewrite map_length in Em. rewrite app_length in Er. simpl in Em, Hlt. intros Hx. exfalso. simpl in Hlen. lia.
  - right. cbn [app bind] in *. destruct (map snd rest) as [|v vs] eqn:Em; [simpl in Hlt; lia|].
    apply (f_equal length) in Em. rewrite map_length in Em.
    eexists _, true. split_and!; [done|done| |intros ?; exfalso; lia]. injection Et as <- <- <- <-. apply ii_wild; [done|done|done|lia|done].
  - left. injection Et as <- <- <- <-. cbn [app] in Hlt. rewrite map_length in Hlt. split_and!; [done|lia|done|done].
Qed.

Lemma it_next_ok fuel it v todo w : (it_rounds <= fuel)%nat -> iinv it (v :: todo) w ->
  (it_next fuel s it = Panic OutOfRange /\ (256 < length (contents t0))%nat /\ ends_leaf cs = false /\ dlen a <= N.of_nat (nslots full pfx (length cs))) \/
  exists it' w', it_next fuel s it = Ok (true, it') /\ it_value it' = v /\ iinv it' todo w'.
Proof.
  intros Hf Hi. destruct (it_prefetched it !! it_pp it) as [v0|] eqn:Ep.
  - right. unfold it_next. rewrite Ep. eexists _, w. split; [done|]. pose proof (drop_S _ _ _ Ep) as Ed.
    inversion Hi as [H1 H2 H3|G c H1 H2 H3 H4 H5|H1 H2 H3 H4 H6]; subst w.
    + rewrite Ed in H3. injection H3 as -> ->. split; [done|]. by apply ii_done.
    + rewrite Ed in H5. injection H5 as -> ->. split; [done|]. by eapply ii_cut.
    + rewrite Ed in H3. injection H3 as -> ->. split; [done|]. by apply ii_wild.
  - pose proof (drop_None _ _ Ep) as Ed. inversion Hi as [H1 H2 H3|G c H1 H2 H3 H4 H5|H1 H2 H3 H4 H6]; subst w; [by rewrite Ed in H3| |by rewrite Ed in H3].
    rewrite Ed in H5. simpl in H5. destruct (it_scan fuel it G c Hf H1 H2 H3 H4 Ep) as [?|Hx]; [by left|right].
    rewrite <- H5 in Hx. destruct Hx as (it' & w' & ? & ? & ? & _). by exists it', w'.
Qed.

Lemma it_next_end fuel it : (it_rounds <= fuel)%nat -> iinv it [] false -> (length (contents t0) <= 256)%nat \/ ends_leaf cs = true ->
  exists it', it_next fuel s it = Ok (false, it').
Proof.
  intros Hf Hi Hsm. destruct (it_prefetched it !! it_pp it) as [v0|] eqn:Ep.
  - exfalso. pose proof (drop_S _ _ _ Ep) as Ed. inversion Hi as [H1 H2 H3|G c H1 H2 H3 H4 H5|]; [by rewrite Ed in H3|by rewrite Ed in H5].
  - inversion Hi as [H1 H2 H3|G c H1 H2 H3 H4 H5|].
    + exists it. unfold it_next. by rewrite Ep, H2.
    + rewrite (drop_None _ _ Ep) in H5. simpl in H5. destruct (it_scan fuel it G c Hf H1 H2 H3 H4 Ep) as [(_ & ? & He & _)|Hx]; [destruct Hsm; [lia|congruence]|].
      rewrite <- H5 in Hx. destruct Hx as (it' & E & _). by exists it'.
Qed.

(** The first calls of Next. *)
Lemma it_first fuel : (it_rounds <= fuel)%nat -> N.of_nat (nslots full pfx (length cs)) < dlen a \/ (length (contents t0) <= 256)%nat \/ ends_leaf cs = true ->
  forall calls todo it w, iinv it todo w -> (calls <= length todo)%nat -> it_collect fuel calls s it = Ok (take calls todo, false).
Proof.
  intros Hf Hroom. induction calls as [|calls IH]; intros todo it w Hi Hc; [done|].
  destruct todo as [|v todo]; [simpl in Hc; lia|]. cbn [it_collect].
  destruct (it_next_ok fuel it v todo w Hf Hi) as [(_ & H1 & He & H2)|(it' & w' & -> & <- & Hi')]; [destruct Hroom as [?|[?|?]]; [lia|lia|congruence]|]. cbn [bind].
  rewrite (IH todo it' w' Hi') by (simpl in Hc; lia). done.
Qed.

Lemma iinv_small it todo w : iinv it todo w -> (length (contents t0) <= 256)%nat \/ ends_leaf cs = true -> w = false.
Proof. intros Hi Hl. inversion Hi; [done|done|]. destruct Hl; [lia|congruence]. Qed.

Lemma it_all fuel : (it_rounds <= fuel)%nat -> (length (contents t0) <= 256)%nat \/ ends_leaf cs = true ->
  forall todo calls it w, iinv it todo w -> (length todo < calls)%nat -> it_collect fuel calls s it = Ok (todo, true).
Proof.
  intros Hf Hsm. induction todo as [|v todo IH]; intros calls it w Hi Hc; (destruct calls as [|calls]; [lia|]); cbn [it_collect].
  - assert (w = false) as -> by (by eapply iinv_small). destruct (it_next_end fuel it Hf Hi Hsm) as (it' & ->). done.
  - destruct (it_next_ok fuel it v todo w Hf Hi) as [(_ & H1 & He & H2)|(it' & w' & -> & <- & Hi')]; [destruct Hsm; [lia|congruence]|]. cbn [bind].
    rewrite (IH calls it' w' Hi') by (simpl in Hc; lia). done.
Qed.
End It.

End Query.
