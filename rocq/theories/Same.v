(** * Same: the read-only operations depend on the words of the memory, the root word and the
    number of blocks only. *)
From Verif Require Export MemFacts Iter.

(** Two trees with the same words, root and number of blocks. *)
Record same (s s' : tree) : Prop := {
  sm_mem : forall x, mget (t_mem s') x = mget (t_mem s) x;
  sm_root : t_root s' = t_root s;
  sm_nfb : t_nextFreeBlock s' = t_nextFreeBlock s
}.

Ltac cong := repeat first
  [ reflexivity
  | match goal with |- bind ?r _ = bind ?r _ => destruct r; cbn [bind] end
  | match goal with |- (match ?b with _ => _ end) = (match ?b with _ => _ end) => destruct b end
  | match goal with H : _ |- _ => apply H end ].

Section Mem.
Context (m m' : mem) (Hm : forall x, mget m' x = mget m x).

Lemma sl_get_same d i : sl_get m' d i = sl_get m d i.
Proof. unfold sl_get. by rewrite Hm. Qed.
Lemma load_bytes_same a n : load_bytes m' a n = load_bytes m a n.
Proof. unfold load_bytes. apply map_ext. intros j. unfold get_byte. by rewrite Hm. Qed.
Lemma append_prefix_same d n : append_prefix m' d n = append_prefix m d n.
Proof.
  unfold append_prefix. rewrite sl_get_same. destruct n; [done|]. cong. by rewrite load_bytes_same.
Qed.
Lemma skip_prefix_same d n : skip_prefix m' d n = skip_prefix m d n.
Proof. unfold skip_prefix. by rewrite sl_get_same. Qed.
Lemma scan_same base k n : forall i last, scan m' base k i n last = scan m base k i n last.
Proof. induction n as [|n IH]; intros i last; [done|]. cbn [scan]. rewrite Hm. cong. Qed.
Lemma find_down_same base k : find_down m' base k = find_down m base k.
Proof. induction k as [|k IH]; cbn [find_down]; rewrite Hm; [done|]. by rewrite IH. Qed.
Lemma find_up_same base n : forall k, find_up m' base k n = find_up m base k n.
Proof. induction n as [|n IH]; intros k; [done|]. cbn [find_up]. by rewrite Hm, IH. Qed.
Lemma next_nonzero_same base n : forall k, next_nonzero m' base k n = next_nonzero m base k n.
Proof. induction n as [|n IH]; intros k; [done|]. cbn [next_nonzero]. by rewrite Hm, IH. Qed.
Lemma find_byte_same base c n : forall i, find_byte m' base c i n = find_byte m base c i n.
Proof. induction n as [|n IH]; intros k; [done|]. cbn [find_byte]. by rewrite Hm, IH. Qed.
Lemma scan_children_same base n : forall k pre, scan_children m' base k n pre = scan_children m base k n pre.
Proof. induction n as [|n IH]; intros k pre; [done|]. cbn [scan_children]. rewrite Hm. cong. Qed.
Lemma count_children_same base n : forall k l, count_children m' base k n l = count_children m base k n l.
Proof. induction n as [|n IH]; intros k pre; [done|]. cbn [count_children]. rewrite Hm. cong. Qed.
End Mem.

Section Tree.
Context (s s' : tree) (Hs : same s s').
Let Hm := sm_mem _ _ Hs.

Lemma node_data_same n : node_data s' n = node_data s n.
Proof. unfold node_data. by rewrite (sm_nfb _ _ Hs). Qed.

Lemma search_loop_same fuel : forall key node c p d, search_loop fuel s' key node c p d = search_loop fuel s key node c p d.
Proof.
  induction fuel as [|f IH]; intros key node c p d; [done|]. cbn [search_loop]. rewrite node_data_same.
  destruct (node_data s node); cbn [bind]; [|done..]. rewrite (skip_prefix_same _ _ Hm).
  destruct (skip_prefix _ _ _) as [[[plen sl] d1]| | |]; cbn [bind]; [|done..]. destruct (_ <=? _)%nat; [done|].
  destruct (key_at key _) as [k| | |]; cbn [bind]; [|done..]. rewrite (sl_get_same _ _ Hm), (scan_same _ _ Hm). cong.
Qed.

Lemma search_same key : search s' key = search s key.
Proof.
  unfold search. rewrite (sm_root _ _ Hs). destruct (isLeaf _); [done|]. destruct (explodeNode _) as [[[? ?] ?] ?]. apply search_loop_same.
Qed.

Lemma partial_loop_same fuel : forall sp raw d, partial_loop fuel s' sp raw d = partial_loop fuel s sp raw d.
Proof.
  induction fuel as [|f IH]; intros sp raw d; [done|]. cbn [partial_loop]. destruct (explodeNode raw) as [[[? node] c] p].
  destruct (_ <=? _)%nat; [done|]. rewrite node_data_same. destruct (node_data s node); cbn [bind]; [|done..].
  rewrite (append_prefix_same _ _ Hm). destruct (append_prefix _ _ _) as [[buf sl]| | |]; cbn [bind]; [|done..].
  destruct (sl_from _ _); cbn [bind]; [|done..]. destruct (prefix_cmp _ _ _ _); [done..|].
  destruct (_ <=? _)%nat; [done|]. destruct (key_at sp _) as [k| | |]; cbn [bind]; [|done..].
  rewrite (sl_get_same _ _ Hm), (scan_same _ _ Hm). cong.
Qed.

Lemma partial_search_same sp : partial_search s' sp = partial_search s sp.
Proof. unfold partial_search. rewrite (sm_root _ _ Hs). destruct sp; [done|]. destruct (isLeaf _); [done|]. apply partial_loop_same. Qed.

Lemma max_loop_same fuel : forall raw, max_loop fuel s' raw = max_loop fuel s raw.
Proof.
  induction fuel as [|f IH]; intros raw; [done|]. cbn [max_loop]. destruct (explodeNode raw) as [[[? node] c] p].
  rewrite node_data_same. destruct (node_data s node); cbn [bind]; [|done..]. rewrite (skip_prefix_same _ _ Hm).
  destruct (skip_prefix _ _ _) as [[[plen sl] d1]| | |]; cbn [bind]; [|done..].
  rewrite (sl_get_same _ _ Hm), (find_down_same _ _ Hm). cong.
Qed.

Lemma min_loop_same fuel : forall raw, min_loop fuel s' raw = min_loop fuel s raw.
Proof.
  induction fuel as [|f IH]; intros raw; [done|]. cbn [min_loop]. destruct (explodeNode raw) as [[[? node] c] p].
  rewrite node_data_same. destruct (node_data s node); cbn [bind]; [|done..]. rewrite (skip_prefix_same _ _ Hm).
  destruct (skip_prefix _ _ _) as [[[plen sl] d1]| | |]; cbn [bind]; [|done..].
  rewrite (sl_get_same _ _ Hm), (find_up_same _ _ Hm). cong.
Qed.

Lemma max_key_same fuel sp : max_key fuel s' sp = max_key fuel s sp.
Proof. unfold max_key. rewrite partial_search_same. destruct (partial_search s sp) as [[raw ?]| | |]; cbn [bind]; [|done..]. by rewrite max_loop_same. Qed.
Lemma min_key_same fuel sp : min_key fuel s' sp = min_key fuel s sp.
Proof. unfold min_key. rewrite partial_search_same. destruct (partial_search s sp) as [[raw ?]| | |]; cbn [bind]; [|done..]. by rewrite min_loop_same. Qed.

Lemma pre_loop_same fuel : forall r k raw st, pre_loop fuel s' r k raw st = pre_loop fuel s r k raw st.
Proof.
  induction fuel as [|f IH]; intros r k raw st; [done|]. cbn [pre_loop]. destruct (_ <=? _)%nat; [done|].
  destruct (explodeNode raw) as [[[? node] c] p].
  rewrite node_data_same. destruct (node_data s node); cbn [bind]; [|done..]. rewrite (skip_prefix_same _ _ Hm).
  destruct (skip_prefix _ _ _) as [[[plen sl] d1]| | |]; cbn [bind]; [|done..]. destruct (_ <=? _)%nat; [done|].
  destruct (key_at r _) as [b| | |]; cbn [bind]; [|done..].
  rewrite (sl_get_same _ _ Hm), (find_byte_same _ _ Hm), (next_nonzero_same _ _ Hm). cong.
Qed.

Lemma resume_key_same st : forall j, resume_key s' j st = resume_key s j st.
Proof.
  induction st as [|pos st IH]; intros j; [done|]. cbn [resume_key]. destruct (explodeNode _) as [[[? node] c] p].
  rewrite node_data_same. destruct (node_data s node); cbn [bind]; [|done..]. rewrite (append_prefix_same _ _ Hm).
  destruct (append_prefix _ _ _) as [[buf sl]| | |]; cbn [bind]; [|done..]. rewrite (sl_get_same _ _ Hm). destruct st; [done|]. by rewrite IH.
Qed.

Lemma scan_loop_same fuel : forall raw k st pre r, scan_loop fuel s' raw k st pre r = scan_loop fuel s raw k st pre r.
Proof.
  induction fuel as [|f IH]; intros raw k st pre r; [done|]. cbn [scan_loop]. destruct (explodeNode raw) as [[[? node] c] p].
  rewrite node_data_same. destruct (node_data s node); cbn [bind]; [|done..]. rewrite (skip_prefix_same _ _ Hm).
  destruct (skip_prefix _ _ _) as [[[plen sl] d1]| | |]; cbn [bind]; [|done..].
  destruct (if (k <? c)%nat then sl_upto d1 c else Ok tt); cbn [bind]; [|done..].
  rewrite (scan_children_same _ _ Hm). destruct (scan_children _ _ _ _ _) as [pre1 [[i w]|]].
  - rewrite (next_nonzero_same _ _ Hm). apply IH.
  - destruct st as [|pos st]; [done|]. destruct (_ <? _)%nat; [|apply IH]. by rewrite resume_key_same.
Qed.

Lemma it_next_same fuel it : it_next fuel s' it = it_next fuel s it.
Proof.
  unfold it_next. destruct (_ !! _); [done|]. destruct (it_done it); [done|]. rewrite partial_search_same.
  destruct (partial_search _ _) as [[raw ?]| | |]; cbn [bind]; [|done..]. destruct (raw =? 0); [done|]. destruct (isLeaf raw); [done|].
  rewrite pre_loop_same. destruct (pre_loop _ _ _ _ _ _) as [[[raw1 nc] st]| | |]; cbn [bind]; [|done..]. by rewrite scan_loop_same.
Qed.

Lemma it_collect_same fuel calls : forall it, it_collect fuel calls s' it = it_collect fuel calls s it.
Proof.
  induction calls as [|n IH]; intros it; [done|]. cbn [it_collect]. rewrite it_next_same.
  destruct (it_next _ _ _) as [[more it1]| | |]; cbn [bind]; [|done..]. destruct more; [|done]. by rewrite IH.
Qed.

Lemma count_loop_same fuel : forall raw k st n l c, count_loop fuel s' raw k st n l c = count_loop fuel s raw k st n l c.
Proof.
  induction fuel as [|f IH]; intros raw k st n l ct; [done|]. cbn [count_loop]. destruct (explodeNode raw) as [[[? node] c] p].
  rewrite node_data_same. destruct (node_data s node); cbn [bind]; [|done..]. rewrite (skip_prefix_same _ _ Hm).
  destruct (skip_prefix _ _ _) as [[[plen sl] d1]| | |]; cbn [bind]; [|done..].
  destruct (if (k <? c)%nat then sl_upto d1 c else Ok tt); cbn [bind]; [|done..].
  rewrite (count_children_same _ _ Hm). destruct (count_children _ _ _ _ _) as [l1 [[i w]|]].
  - rewrite (next_nonzero_same _ _ Hm). apply IH.
  - destruct st as [|[raw' n'] st]; [done|]. apply IH.
Qed.

Lemma count_same fuel sp : count fuel s' sp = count fuel s sp.
Proof.
  unfold count. rewrite partial_search_same. destruct (partial_search _ _) as [[raw ?]| | |]; cbn [bind]; [|done..]. by rewrite count_loop_same.
Qed.
End Tree.
