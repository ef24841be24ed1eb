(** * IterGrow: iterations over the whole tree while no key is deleted. *)
From Verif Require Export IterAlong.

(** ** Order *)

Lemma lex_lt_weak a : forall b c, lex_lt a b -> lex_lt a c \/ lex_lt c b.
Proof.
  induction a as [|x a IH]; intros [|y b] [|z c]; simpl; try tauto.
  intros [H|[-> H]].
  - destruct (N.lt_trichotomy x z) as [?|[->|?]]; [tauto|right; by left|right; left; lia].
  - destruct (N.lt_trichotomy y z) as [?|[->|?]]; [tauto| |tauto]. destruct (IH _ c H); tauto.
Qed.

Lemma lex_lt_trans' a b c : lex_lt a b -> lex_lt b c -> lex_lt a c.
Proof. intros H1 H2. destruct (lex_lt_weak a b c H1) as [?|H3]; [done|]. by destruct (lex_lt_asym b c). Qed.

Lemma lex_lt_le a b c : lex_lt a b -> ~ lex_lt c b -> lex_lt a c.
Proof. intros H1 H2. by destruct (lex_lt_weak a b c H1). Qed.

Lemma prefix_not_lt (a b : list N) : a `prefix_of` b -> ~ lex_lt b a.
Proof. intros [z ->] H. induction a as [|x a IH]; simpl in H; [by destruct z|]. destruct H as [?|[_ ?]]; [lia|auto]. Qed.

(** [a] leaves the common part of [a] and [b] with the smaller byte. *)
Definition forks (a b : list N) : Prop := exists q x z, x < z /\ (q ++ [x]) `prefix_of` a /\ (q ++ [z]) `prefix_of` b.

Lemma forks_lt a b : forks a b -> lex_lt a b.
Proof. intros (q & x & z & H & H1 & H2). by eapply lex_lt_branch. Qed.
Lemma forks_r a b z : forks a b -> forks a (b ++ z).
Proof. intros (q & x & y & H & H1 & H2). exists q, x, y. split_and!; [done|done|by apply prefix_app_r]. Qed.
Lemma forks_l a b z : forks a b -> forks (a ++ z) b.
Proof. intros (q & x & y & H & H1 & H2). exists q, x, y. split_and!; [done|by apply prefix_app_r|done]. Qed.

(** ** Edges and contexts *)

Lemma edge_ctx t R : edge t R -> exists G c, t = plug G c /\ path_of G = R /\ G <> [].
Proof.
  induction 1 as [full a pfx cs b c Hin|full a pfx cs b c R Hin He (G & c' & -> & <- & HG)]; apply elem_of_list_split in Hin as (l & r & ->).
  - by exists [Frame full a pfx l b r], c.
  - exists (G ++ [Frame full a pfx l b r]), c'. rewrite plug_app. split_and!; [done| |by destruct G].
    clear. induction G as [|g G IH]; simpl in *; [done|]. by rewrite IH, <- app_assoc.
Qed.

Lemma plug_edge G c : G <> [] -> edge (plug G c) (path_of G).
Proof.
  induction G as [|f G IH] using rev_ind; [done|]. intros _. rewrite plug_app. simpl. unfold fill.
  assert (Hp : path_of (G ++ [f]) = f_pfx f ++ f_b f :: path_of G).
  { clear. induction G as [|g G IH]; simpl in *; [done|]. by rewrite IH, <- app_assoc. }
  rewrite Hp. destruct G as [|g G].
  - simpl. eapply edge_here. apply elem_of_app. right. left.
  - eapply edge_below; [apply elem_of_app; right; left|]. by apply IH.
Qed.

Section Grow.
Context (K : list N -> Prop) (fetch : N -> list N) (HK : universe K).
Local Notation core := (core K fetch).
Local Notation inv := (inv K fetch).

Lemma ctx_order p G : forall c, wf K fetch p (plug G c) ->
  (forall k v, (k, v) ∈ cleft G -> forks k (p ++ path_of G)) /\ (forall k v, (k, v) ∈ cright G -> forks (p ++ path_of G) k).
Proof.
  induction G as [|f G IH]; intros c Hw; simpl; [split; by intros ?? ?%elem_of_nil|]. simpl in Hw.
  destruct (IH _ Hw) as [IHl IHr]. pose proof (wf_plug_path K fetch p G _ Hw) as Hf. unfold fill in Hf.
  apply wf_node_iff in Hf as ([Hsb _] & _ & _ & Hc). rewrite map_app in Hsb. simpl in Hsb.
  apply SS_app in Hsb as (_ & Hs2 & Hl). inversion Hs2 as [|? ? _ Hr]; subst. rewrite list.Forall_forall in Hr. rewrite list.Forall_forall in Hc.
  assert (Hchild : forall b t k v, (b, t) ∈ f_l f ++ (f_b f, c) :: f_r f -> (k, v) ∈ contents t -> (((p ++ path_of G) ++ f_pfx f) ++ [b]) `prefix_of` k).
  { intros b t k v Hin Hk. destruct (wf_contents K fetch _ _ _ _ (Hc _ Hin) Hk) as (Hp & _). simpl in Hp. by rewrite <- app_assoc. }
  split; intros k v Hk; apply elem_of_app in Hk as [Hk|Hk].
  - rewrite app_assoc. apply forks_r. by eapply IHl.
  - apply elem_of_list_bind in Hk as ([b t] & Hk & Hin). exists ((p ++ path_of G) ++ f_pfx f), b, (f_b f). split_and!.
    + apply Hl; [|left]. apply elem_of_list_fmap. by exists (b, t).
    + eapply Hchild; [apply elem_of_app; by left|exact Hk].
    + rewrite <- !app_assoc. done.
  - apply elem_of_list_bind in Hk as ([b t] & Hk & Hin). exists ((p ++ path_of G) ++ f_pfx f), (f_b f), b. split_and!.
    + apply Hr. apply elem_of_list_fmap. by exists (b, t).
    + rewrite <- !app_assoc. done.
    + eapply Hchild; [apply elem_of_app; right; by right|exact Hk].
  - rewrite app_assoc. apply forks_l. by eapply IHr.
Qed.

Lemma ctx_left G c k v : wf K fetch [] (plug G c) -> (k, v) ∈ cleft G -> lex_lt k (path_of G).
Proof. intros Hw Hk. apply forks_lt. destruct (ctx_order [] G c Hw) as [H _]. by eapply H. Qed.

Lemma ctx_rest G c k v : wf K fetch [] (plug G c) -> (k, v) ∈ contents c ++ cright G -> ~ lex_lt k (path_of G).
Proof.
  intros Hw Hk. apply elem_of_app in Hk as [Hk|Hk].
  - apply prefix_not_lt. apply (wf_plug_path K fetch []) in Hw. by destruct (wf_contents K fetch _ _ _ _ Hw Hk) as (? & _).
  - destruct (ctx_order [] G c Hw) as [_ H]. apply H, forks_lt in Hk. intros Hlt. by eapply lex_lt_asym.
Qed.

(** ** The iterator's state *)

Definition okeys (T : option trie) : list (list N) := map fst (ocontents T).
Definition pend (it : Iter.iter) : list N := drop (it_pp it) (it_prefetched it).
Definition keys (vs : list N) : list (list N) := map fetch vs.

Inductive mode (strict : bool) (S : list (list N)) (T : option trie) (vs : list N) (it : Iter.iter) : Prop :=
| m_done : it_done it = true -> StronglySorted lex_lt (keys (vs ++ pend it)) -> S ⊆ keys (vs ++ pend it) -> mode strict S T vs it
| m_cut : it_done it = false -> StronglySorted lex_lt (keys (vs ++ pend it)) ->
    (it_resume it = [] /\ vs = [] /\ it_prefetched it = []) \/ oedge T (it_resume it) ->
    (forall k, k ∈ keys (vs ++ pend it) -> lex_lt k (it_resume it)) ->
    (forall k, k ∈ S -> k ∈ keys (vs ++ pend it) \/ ~ lex_lt k (it_resume it)) -> mode strict S T vs it
| m_wild : strict = false -> it_done it = false -> StronglySorted lex_lt (keys (vs ++ pend it)) -> S ⊆ keys (vs ++ pend it) -> mode strict S T vs it
| m_late : strict = false -> S ⊆ keys vs -> mode strict S T vs it.

Lemma mode_grows strict S T T' vs it : mode strict S T vs it -> grows T T' -> mode strict S T' vs it.
Proof.
  intros Hm Hg. destruct Hm as [H1 H2 H3|H1 H2 H3 H4 H5|H0 H1 H2 H3|H0 H1].
  - by apply m_done.
  - apply m_cut; try done. destruct H3 as [?|?]; [by left|right; by apply Hg].
  - by apply m_wild.
  - by apply m_late.
Qed.

Lemma mode_new strict S T : mode strict S T [] (new_iter []).
Proof. apply m_cut; try done; [constructor|by left|intros k Hk; by apply elem_of_nil in Hk|]. intros k _. right. destruct k; simpl; tauto. Qed.

Lemma keys_snd y T rest : core (sy_tree y) T -> (forall k v, (k, v) ∈ rest -> (k, v) ∈ ocontents T) -> keys (map snd rest) = map fst rest.
Proof.
  intros Hc H. unfold keys. rewrite map_map. apply map_ext_in. intros [k v] Hin. simpl.
  apply elem_of_list_In, H in Hin. by destruct (co_contents K fetch _ _ _ _ Hc Hin) as (_ & _ & ?).
Qed.

Lemma next_prefix fuel s it more it' : it_next fuel s it = Ok (more, it') -> it_prefix it' = it_prefix it.
Proof.
  unfold it_next. destruct (_ !! _); [by intros [= <- <-]|]. destruct (it_done it); [by intros [= <- <-]|].
  destruct (partial_search s _) as [[raw ?]| | |]; try done. cbn [bind]. destruct (raw =? 0); [by intros [= <- <-]|].
  destruct (isLeaf raw); [by intros [= <- <-]|]. destruct (pre_loop _ _ _ _ _ _) as [[[? ?] ?]| | |]; try done. cbn [bind].
  destruct (scan_loop _ _ _ _ _ _ _) as [[[[pre ?] ?] ?]| | |]; try done. cbn [bind]. destruct pre; by intros [= <- <-].
Qed.

(** One call of [Next]. *)
Lemma next_mode strict S y T fuel vs it more it' : core (sy_tree y) T -> (strict = true -> last_leaf (sy_tree y)) -> S ⊆ okeys T ->
  it_prefix it = [] -> mode strict S T vs it -> it_next fuel (sy_tree y) it = Ok (more, it') ->
  it_prefix it' = [] /\ if more then mode strict S T (vs ++ [it_value it']) it' else S ⊆ keys vs.
Proof.
  intros Hc Hstr HS Hpf Hm En.
  destruct (it_prefetched it !! it_pp it) as [v|] eqn:Epp.
  { unfold it_next in En. rewrite Epp in En. injection En as <- <-. split; [done|]. cbn [it_value].
    assert (Hpe : vs ++ pend it = (vs ++ [v]) ++ drop (Datatypes.S (it_pp it)) (it_prefetched it)) by (unfold pend; rewrite (drop_S _ _ _ Epp), <- app_assoc; done).
    destruct Hm as [H1 H2 H3|H1 H2 H3 H4 H5|H0 H1 H2 H3|H0 H1]; try rewrite Hpe in *.
    - by apply m_done.
    - apply m_cut; try done. destruct H3 as [(_ & _ & Hnil)|?]; [by rewrite Hnil in Epp|by right].
    - by apply m_wild.
    - apply m_late; [done|]. unfold keys. rewrite map_app. intros k Hk. apply elem_of_app. left. by apply H1. }
  assert (Hpe : pend it = []) by (by apply drop_None).
  destruct Hm as [H1 H2 H3|H1 H2 H3 H4 H5|H0 H1 H2 H3|H0 H1].
  - rewrite Hpe, app_nil_r in *. unfold it_next in En. rewrite Epp, H1 in En. by injection En as <- <-.
  - rewrite Hpe, app_nil_r in *. destruct (partial_search_ok K fetch HK _ T [] Hc ltac:(constructor)) as (raw & d & E & Hp).
    destruct Hp as [Hn|b C k v -> Hbb Hnl Hu|b C full a pfx cs -> Hbb Hnil Hin].
    + unfold it_next in En. rewrite Epp, H1, Hpf, E in En. cbn [bind N.eqb] in En. injection En as <- <-. split; [done|].
      intros k Hk. apply HS in Hk. apply elem_of_list_fmap in Hk as ([k' v'] & -> & Hk). exfalso. apply (Hn _ _ Hk). apply prefix_nil.
    + rewrite (Hnl eq_refl) in *. simpl plug in *. destruct H3 as [(Hr & -> & Hpre)|He]; [|by apply edge_leaf in He].
      pose proof (core_sound K fetch _ [] _ Hc) as Hs. simpl in Hs. destruct (sound_enc K fetch _ _ (co_alloc _ _ _ _ Hc) _ b Hs Hbb) as (_ & E2 & E3).
      unfold it_next in En. rewrite Epp, H1, Hpf, E in En. cbn [bind] in En. rewrite (proj2 (N.eqb_neq _ _)) in En by done. rewrite E2 in En. cbn [is_leaf] in En.
      injection En as <- <-. split; [done|]. cbn [it_value].
      pose proof (sound_leaf K fetch _ _ _ _ _ Hs Hbb) as Hlv. cbn [enc] in Hlv. rewrite Hlv.
      destruct (co_contents K fetch _ _ k v Hc ltac:(simpl; left)) as (_ & _ & Hf).
      apply m_done; [done| |]; unfold pend; cbn [it_pp it_prefetched]; rewrite Hpre; simpl; [repeat constructor|].
      rewrite Hf. done.
    + rewrite (Hnil eq_refl) in *. simpl plug in *. set (t0 := Node full a pfx cs) in *.
      assert (HG : exists G c, plug G c = t0 /\ it_resume it = path_of G).
      { destruct H3 as [(Hr & _ & _)|He]; [by exists [], t0|]. simpl in He. apply edge_ctx in He as (G & c & -> & <- & _). by exists G, c. }
      destruct HG as (G & c & HG & Hr). rewrite Hr in *.
      assert (Hw : wf K fetch [] t0) by exact (co_wf _ _ _ _ Hc).
      pose proof (core_sound K fetch _ [] _ Hc) as Hs. simpl in Hs. pose proof (co_alloc _ _ _ _ Hc) as Ha. simpl in Ha.
      destruct (sound_enc K fetch _ _ Ha _ b Hs Hbb) as (_ & E2 & E3).
      assert (HlG : (length G < Datatypes.S (length (path_of G)))%nat).
      { clear. induction G as [|g G IH]; simpl; [lia|]. rewrite !app_length. simpl. simpl in IH. lia. }
      destruct (pre_loop_ok K fetch _ _ Ha G b [] [] (Datatypes.S (length (path_of G))) c Hbb) as (C' & full' & a' & pfx' & cs' & k' & st' & E' & X2 & X3 & X4 & X5);
        [by rewrite HG|by rewrite HG|done|].
      simpl app in E'. change (length (@nil N)) with O in E'. rewrite HG in E', X2. rewrite app_nil_r in E'.
      pose proof (rnodes_bound C' (Node full' a' pfx' cs')) as Hrb. rewrite X2, nnodes_node in Hrb. pose proof (nsum_kids full' cs' k') as Hnk.
      pose proof (it_next_mono _ _ _ _ En (fuel + Datatypes.S (3 * nnodes t0))%nat ltac:(lia)) as En2. clear En. rename En2 into En.
      unfold it_next in En. rewrite Epp, H1, Hpf, E in En. cbn [bind] in En. rewrite (proj2 (N.eqb_neq _ _)) in En by done. rewrite E2 in En.
      change (is_leaf t0) with false in En. cbn iota in En. rewrite Hr, E' in En. cbn [bind] in En.
      pose proof (scan_loop_ok K fetch _ _ Ha b t0 (path_of G) Hbb Hs (fuel + Datatypes.S (3 * nnodes t0))%nat C' full' a' pfx' cs' k' st' [] X2 X3 X4 ltac:(lia)) as Hsc.
      rewrite X5 in Hsc. set (rest := contents c ++ cright G) in *.
      assert (Hct : contents t0 = cleft G ++ rest) by (rewrite <- HG; apply contents_plug).
      rewrite <- HG in Hw.
      assert (Hnew : forall r1 r2, rest = r1 ++ r2 -> keys (vs ++ map snd r1) = keys vs ++ map fst r1).
      { intros r1 r2 Hr12. unfold keys at 1. rewrite map_app. f_equal. apply (keys_snd y (Some t0)); [done|]. intros k v Hk. change (ocontents (Some t0)) with (contents t0). rewrite Hct, Hr12, !elem_of_app. auto. }
      assert (Hsort : forall r1 r2, rest = r1 ++ r2 -> StronglySorted lex_lt (keys (vs ++ map snd r1))).
      { intros r1 r2 Hr12. rewrite (Hnew _ _ Hr12). apply SS_app. split_and!; [done| |].
        - apply (wf_sorted K fetch) in Hw. rewrite HG, Hct, Hr12 in Hw. apply SS_app in Hw as (_ & Hw & _). apply SS_app in Hw as (Hw & _).
          by apply (SSorted_map lex_lt fst).
        - intros x z Hx Hz. apply elem_of_list_fmap in Hz as ([k v] & -> & Hz). eapply lex_lt_le; [by apply H4|].
          eapply ctx_rest; [exact Hw|]. fold rest. rewrite Hr12. apply elem_of_app. by left. }
      assert (Hall : S ⊆ keys (vs ++ map snd rest)).
      { rewrite (Hnew rest []) by (by rewrite app_nil_r). intros k Hk. destruct (H5 k Hk) as [?|Hge]; [apply elem_of_app; by left|].
        apply HS in Hk. apply elem_of_list_fmap in Hk as ([k0 v0] & -> & Hk). change (ocontents (Some t0)) with (contents t0) in Hk. cbn [fst] in *. rewrite Hct in Hk. apply elem_of_app in Hk as [Hk|Hk].
        - by apply (ctx_left G c) in Hk.
        - apply elem_of_app. right. apply elem_of_list_fmap. by exists (k0, v0). }
      destruct Hsc as [|r1 r2 G' c' st Er Hlt HG' HGn Hr2|full2 a2 pfx2 cs2 r st Et Hel Hlt Hroom|full2 a2 pfx2 cs2 Et Hel Hlt Hroom]; [| | |done].
      * cbn [bind app] in En. destruct (map snd rest) as [|v vs'] eqn:Em; injection En as <- <-; (split; [done|]).
        -- by rewrite app_nil_r in Hall.
        -- cbn [it_value]. apply m_done; [done| |]; unfold pend; cbn [it_pp it_prefetched drop]; rewrite <- app_assoc; cbn [app]; rewrite drop_0, <- Em; [|by rewrite Em].
           eapply (Hsort rest []). by rewrite app_nil_r.
      * cbn [bind app] in En, Hlt. destruct (map snd r1) as [|v vs'] eqn:Em; [simpl in Hlt; lia|]. injection En as <- <-. split; [done|]. cbn [it_value].
        assert (Hlf : cleft G' = cleft G ++ r1).
        { apply (app_inv_tail r2). rewrite <- app_assoc, <- Er, <- Hct, <- HG', contents_plug. by rewrite Hr2. }
        assert (Hw' : wf K fetch [] (plug G' c')) by (by rewrite HG', <- HG).
        assert (Hlt' : forall k, k ∈ keys (vs ++ map snd r1) -> lex_lt k (path_of G')).
        { intros k Hk. rewrite (Hnew _ _ Er) in Hk.
          assert (Hr1 : forall k, k ∈ map fst r1 -> lex_lt k (path_of G')).
          { intros k0 Hk0. apply elem_of_list_fmap in Hk0 as ([k1 v1] & -> & Hk1). simpl. eapply ctx_left; [exact Hw'|]. rewrite Hlf. apply elem_of_app. by right. }
          apply elem_of_app in Hk as [Hk|Hk]; [|by apply Hr1]. destruct r1 as [|[k1 v1] r1]; [done|].
          eapply lex_lt_trans'; [|apply Hr1; left]. eapply lex_lt_le; [by apply H4|]. eapply ctx_rest; [exact Hw|]. fold rest. rewrite Er. left. }
        apply m_cut; unfold pend; cbn [it_pp it_prefetched it_done it_resume drop]; [done| | | |]; try (rewrite <- app_assoc; cbn [app]; rewrite drop_0, <- Em).
        -- by eapply Hsort.
        -- right. simpl. rewrite <- HG'. by apply plug_edge.
        -- exact Hlt'.
        -- intros k Hk. rewrite (Hnew _ _ Er).
           pose proof (H5 k Hk) as H5k. apply HS in Hk. apply elem_of_list_fmap in Hk as ([k0 v0] & -> & Hk0). change (ocontents (Some t0)) with (contents t0) in Hk0. cbn [fst] in *. destruct (decide (k0 ∈ keys vs ++ map fst r1)) as [?|Hn]; [by left|right].
           rewrite Hct, Er, app_assoc, <- Hlf in Hk0. apply elem_of_app in Hk0 as [Hk0|Hk0].
           ++ rewrite Hlf in Hk0. apply elem_of_app in Hk0 as [Hk0|Hk0].
              ** exfalso. apply (ctx_left G c) in Hk0; [|done]. destruct H5k as [?|?]; [|done]. apply Hn. apply elem_of_app. by left.
              ** exfalso. apply Hn. apply elem_of_app. right. apply elem_of_list_fmap. by exists (k0, v0).
           ++ eapply ctx_rest; [exact Hw'|]. by rewrite <- Hr2.
      * cbn [bind app] in En, Hlt. destruct (map snd rest) as [|v vs'] eqn:Em; [simpl in Hlt; lia|]. injection En as <- <-. split; [done|]. cbn [it_value].
        assert (Hst : strict = false).
        { destruct strict; [|done]. injection Et as <- <- <- <-. pose proof (last_leaf_ends K fetch HK _ _ _ _ _ Hc (Hstr eq_refl)). congruence. }
        apply m_wild; [done|done| |]; unfold pend; cbn [it_pp it_prefetched drop]; rewrite <- app_assoc; cbn [app]; rewrite drop_0, <- Em; [|by rewrite Em].
        eapply (Hsort rest []). by rewrite app_nil_r.
  - rewrite Hpe, app_nil_r in *. split; [rewrite (next_prefix _ _ _ _ _ En); done|]. destruct more; [|done]. apply m_late; [done|].
    unfold keys. rewrite map_app. intros k Hk. apply elem_of_app. left. by apply H3.
  - split; [rewrite (next_prefix _ _ _ _ _ En); done|]. destruct more; [|done]. apply m_late; [done|].
    unfold keys. rewrite map_app. intros k Hk. apply elem_of_app. left. by apply H1.
Qed.

(** ** Histories without deletes *)

(** The call removes no key and is no restart. *)
Definition no_removal (e : call * reply) : Prop :=
  match e with
  | (CFinD _, r) => r <> RBool true
  | (CRestart _ _ _, _) => False
  | _ => True
  end.

Lemma runs_det n tr y y' : runs K fetch n tr y -> runs K fetch n tr y' -> y = y'.
Proof.
  intros H. revert y'. induction H as [|tr y c r y1 H IH Hp Ha]; intros y' H'.
  - inversion H' as [|? ? ? ? ? ? ? ? E]; subst; [done|]. by apply app_nil in E as [_ ?].
  - inversion H' as [E|tr2 y2 c2 r2 ? H2 Hp2 Ha2 E]; subst; [by symmetry in E; apply app_nil in E as [_ ?]|].
    apply app_inj_tail in E as [-> [= -> ->]]. pose proof (IH _ H2). subst y2. congruence.
Qed.

Lemma upserted_keys T T' k v d : upserted T T' k v d -> okeys T ⊆ okeys T'.
Proof.
  intros [_ H] x Hx. unfold okeys in *. destruct H as [[[_ H] _]|[(w & rest & H1 & H2) _]].
  - rewrite H. simpl. by right.
  - rewrite H1 in Hx. rewrite H2. simpl in *. done.
Qed.

Lemma step_keeps y h m T lost c r y' : inv y h m T lost -> m < maxUint64 -> proper K fetch y c -> api y c = Ok (r, y') -> no_removal (c, r) ->
  exists T' lost', inv y' (hstep h (c, r)) (m + 1) T' lost' /\ grows T T' /\ okeys T ⊆ okeys T'.
Proof.
  intros Hi Hm Hp Ha Hk. pose proof (step_ok K fetch HK _ _ _ _ _ c Hi Hm Hp) as H. rewrite Ha in H. simpl in H.
  destruct H as (_ & T' & lost' & Hi' & Hc). exists T', lost'. split; [done|].
  destruct (acked r) eqn:Er.
  - destruct Hc as [Hc _]. destruct c; simpl in Hc; try done.
    + destruct Hc as (p & d & _ & Hu & _). split; [by apply Hu|by eapply upserted_keys].
    + exfalso. simpl in Hk. destruct r; simpl in Er; try done. subst. by apply Hk.
  - destruct Hc as [-> _]. split; [by intros R|done].
Qed.

Lemma run_keeps n tr y T lost tr2 : runs K fetch n tr y -> inv y (replay tr) (N.of_nat (length tr)) T lost -> Forall no_removal tr2 ->
  forall y2, runs K fetch n (tr ++ tr2) y2 -> N.of_nat (length (tr ++ tr2)) < maxUint64 ->
  exists T2 lost2, inv y2 (replay (tr ++ tr2)) (N.of_nat (length (tr ++ tr2))) T2 lost2 /\ grows T T2 /\ okeys T ⊆ okeys T2.
Proof.
  intros Hr Hi Hk. induction tr2 as [|[c r] tr2 IH] using rev_ind; intros y2 Hr2 Hlen.
  - rewrite app_nil_r in *. rewrite <- (runs_det _ _ _ _ Hr Hr2). exists T, lost. split_and!; [done|by intros R|done].
  - apply Forall_app in Hk as [Hk1 Hk2]. inversion Hk2 as [|? ? Hk3 _]; subst. rewrite app_assoc in *.
    inversion Hr2 as [E|tr3 y3 c3 r3 ? H3 Hp3 Ha3 E]; subst; [by symmetry in E; apply app_nil in E as [_ ?]|].
    apply app_inj_tail in E as [-> [= -> ->]]. rewrite app_length in Hlen. simpl in Hlen.
    destruct (IH Hk1 y3 H3 ltac:(lia)) as (T3 & lost3 & Hi3 & Hg3 & Hs3).
    destruct (step_keeps _ _ _ _ _ _ _ _ Hi3 ltac:(lia) Hp3 Ha3 Hk3) as (T4 & lost4 & Hi4 & Hg4 & Hs4).
    exists T4, lost4. split_and!; [|intros R HR; by apply Hg4, Hg3|by etrans].
    rewrite replay_snoc, app_length. simpl. by replace (N.of_nat (length (tr ++ tr2) + 1)) with (N.of_nat (length (tr ++ tr2)) + 1) by lia.
Qed.

(** Moments of one history, each given by the calls since the one before and the state; nothing
    is removed between them. *)
Fixpoint meanwhile (n : nat) (tr : list (call * reply)) (l : list (list (call * reply) * sys)) : Prop :=
  match l with
  | [] => True
  | (tr2, y2) :: l' => reachable K fetch n (tr ++ tr2) y2 /\ Forall no_removal tr2 /\ meanwhile n (tr ++ tr2) l'
  end.

Lemma mode_end strict S T vs it : mode strict S T vs it -> forall k, k ∈ S ->
  k ∈ keys vs \/ (StronglySorted lex_lt (keys vs) /\ Forall (fun v => lex_lt (fetch v) k) vs).
Proof.
  intros Hm k Hk.
  assert (Hso : StronglySorted lex_lt (keys (vs ++ pend it)) -> StronglySorted lex_lt (keys vs)).
  { unfold keys. rewrite map_app. by intros (? & _)%SS_app. }
  assert (Hpe : StronglySorted lex_lt (keys (vs ++ pend it)) -> k ∈ keys (vs ++ pend it) ->
     k ∈ keys vs \/ (StronglySorted lex_lt (keys vs) /\ Forall (fun v => lex_lt (fetch v) k) vs)).
  { intros Hs Hin. pose proof (Hso Hs). unfold keys in *. rewrite map_app in Hs, Hin. apply SS_app in Hs as (_ & _ & Hs). apply elem_of_app in Hin as [?|Hin]; [by left|right].
    split; [done|]. apply list.Forall_forall. intros v Hv. apply Hs; [|done]. apply elem_of_list_fmap. by exists v. }
  destruct Hm as [H1 H2 H3|H1 H2 H3 H4 H5|H0 H1 H2 H3|H0 H1]; [by auto| |by auto|left; by apply H1].
  destruct (H5 k Hk) as [?|Hge]; [by auto|right]. split; [by apply Hso|]. apply list.Forall_forall. intros v Hv. eapply lex_lt_le; [|exact Hge].
  apply H4. unfold keys. apply elem_of_list_fmap. exists v. split; [done|]. apply elem_of_app. by left.
Qed.

Lemma mode_sorted S T vs it : mode true S T vs it -> StronglySorted lex_lt (keys vs).
Proof.
  assert (Hso : StronglySorted lex_lt (keys (vs ++ pend it)) -> StronglySorted lex_lt (keys vs)) by (unfold keys; rewrite map_app; by intros (? & _)%SS_app).
  by intros [ | | |]; auto.
Qed.

Lemma along_mode strict S n l : forall tr y T lost vs it fuel vs' e, reachable K fetch n tr y -> inv y (replay tr) (N.of_nat (length tr)) T lost -> meanwhile n tr l ->
  (strict = true -> Forall (fun x => last_leaf (sy_tree x.2)) l) -> S ⊆ okeys T -> it_prefix it = [] -> mode strict S T vs it ->
  it_along fuel (map (fun x => sy_tree x.2) l) it = Ok (vs', e) ->
  (strict = true -> StronglySorted lex_lt (keys (vs ++ vs'))) /\
  if e then S ⊆ keys (vs ++ vs')
  else forall k, k ∈ S -> k ∈ keys (vs ++ vs') \/ (StronglySorted lex_lt (keys (vs ++ vs')) /\ Forall (fun v => lex_lt (fetch v) k) (vs ++ vs')).
Proof.
  induction l as [|[tr2 y2] l IH]; intros tr y T lost vs it fuel vs' e Hr Hi Hmw Hstr HS Hpf Hm E; cbn [map it_along] in E.
  - injection E as <- <-. rewrite app_nil_r. split; [|by eapply mode_end]. intros ->. by eapply mode_sorted.
  - destruct Hmw as (Hr2 & Hk & Hmw). cbn [snd] in E.
    destruct (run_keeps n tr y T lost tr2 (rc_runs _ _ _ _ _ Hr) Hi Hk y2 (rc_runs _ _ _ _ _ Hr2) (rc_len _ _ _ _ _ Hr2)) as (T2 & lost2 & Hi2 & Hg & Hs2).
    destruct (it_next fuel (sy_tree y2) it) as [[more it1]| | |] eqn:En; try done. cbn [bind] in E.
    destruct (next_mode strict S y2 T2 fuel vs it more it1 (iv_core _ _ _ _ _ _ _ Hi2)) as [Hpf1 Hm1]; [|by etrans|done|by eapply mode_grows|done|].
    { intros Hst. specialize (Hstr Hst). by inversion Hstr. }
    destruct more.
    + destruct (it_along fuel _ it1) as [[vs1 e1]| | |] eqn:El; try done. cbn [bind] in E. injection E as <- <-.
      replace (vs ++ it_value it1 :: vs1) with ((vs ++ [it_value it1]) ++ vs1) by (by rewrite <- app_assoc).
      eapply (IH (tr ++ tr2) y2 T2 lost2); [done|done|done| |by etrans|done|done|done].
      intros Hst. specialize (Hstr Hst). by inversion Hstr.
    + injection E as <- <-. rewrite app_nil_r. split; [|done]. intros ->. eapply mode_sorted. by eapply mode_grows.
Qed.

Lemma stored_key n tr y T lost k v : reachable K fetch n tr y -> inv y (replay tr) (N.of_nat (length tr)) T lost -> bytes k -> k <> [] ->
  get fetch y k = Some v -> k ∈ okeys T.
Proof.
  intros Hr Hi Hb Hk Hg. apply (get_iff K fetch HK y T k v (iv_core _ _ _ _ _ _ _ Hi) Hb Hk) in Hg.
  apply elem_of_list_fmap. by exists (k, v).
Qed.

Lemma iter_keeps n tr y l fuel vs e k v0 : reachable K fetch n tr y -> meanwhile n tr l ->
  it_along fuel (map (fun x => sy_tree x.2) l) (new_iter []) = Ok (vs, e) ->
  bytes k -> k <> [] -> get fetch y k = Some v0 ->
  k ∈ map fetch vs \/ (e = false /\ StronglySorted lex_lt (map fetch vs) /\ Forall (fun v => lex_lt (fetch v) k) vs).
Proof.
  intros Hr Hmw E Hb Hk Hg. destruct (reach_inv K fetch _ _ _ Hr) as (T & lost & Hi).
  pose proof (stored_key _ _ _ _ _ _ _ Hr Hi Hb Hk Hg) as Hin.
  destruct (along_mode false (okeys T) n l tr y T lost [] (new_iter []) fuel vs e Hr Hi Hmw) as [_ H]; [done|done|done|apply mode_new|done|].
  simpl in H. destruct e; [left; by apply H|]. destruct (H k Hin) as [?|[? ?]]; [by left|by right].
Qed.

Lemma iter_keeps_sorted n tr y l fuel vs e : reachable K fetch n tr y -> meanwhile n tr l -> Forall (fun x => last_leaf (sy_tree x.2)) l ->
  it_along fuel (map (fun x => sy_tree x.2) l) (new_iter []) = Ok (vs, e) -> StronglySorted lex_lt (map fetch vs).
Proof.
  intros Hr Hmw Hll E. destruct (reach_inv K fetch _ _ _ Hr) as (T & lost & Hi).
  destruct (along_mode true (okeys T) n l tr y T lost [] (new_iter []) fuel vs e Hr Hi Hmw) as [H _]; [done|done|done|apply mode_new|done|].
  by apply H.
Qed.
End Grow.
