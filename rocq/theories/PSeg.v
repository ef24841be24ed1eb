(** * PSeg: a written state is a sequence of segments, each a line and the bytes read together
    with it; what the reader makes of the whole and of a part of it. *)
From Verif Require Export PText.

Definition seg : Type := list N * list N.
Definition seg_text (g : seg) : list N := g.1 ++ nl :: g.2.
Definition segs_text (l : list seg) : list N := concat (map seg_text l).

Lemma segs_text_cons g l : segs_text (g :: l) = seg_text g ++ segs_text l.
Proof. done. Qed.
Lemma segs_text_app l l' : segs_text (l ++ l') = segs_text l ++ segs_text l'.
Proof. unfold segs_text. by rewrite map_app, concat_app. Qed.
Lemma seg_text_length g : length (seg_text g) = S (length g.1 + length g.2).
Proof. unfold seg_text. rewrite app_length. simpl. lia. Qed.
Lemma segs_text_length l : (length l <= length (segs_text l))%nat.
Proof. induction l as [|g l IH]; [done|]. rewrite segs_text_cons, app_length, seg_text_length. simpl. lia. Qed.

(** A cut inside the line, or inside the bytes after it. *)
Lemma cut_line (g : seg) k rest : (k <= length g.1)%nat -> nl ∉ g.1 -> read_line (take k (seg_text g ++ rest)) = None.
Proof.
  intros Hk Hn. unfold seg_text. rewrite <- app_assoc, take_app_le by done. apply split_at_none.
  intros Hin. apply Hn. by eapply elem_of_take in Hin as (i & Hi & _); eapply elem_of_list_lookup_2.
Qed.

Lemma cut_body (g : seg) k rest : (length g.1 < k < length (seg_text g))%nat -> nl ∉ g.1 ->
  read_line (take k (seg_text g ++ rest)) = Some (g.1, take (k - S (length g.1)) g.2) /\
  (k - S (length g.1) < length g.2)%nat.
Proof.
  rewrite seg_text_length. intros Hk Hn. split; [|lia]. unfold seg_text. rewrite <- app_assoc.
  rewrite take_app_ge by lia. replace (k - length g.1)%nat with (S (k - S (length g.1))) by lia. cbn [take app].
  rewrite take_app_le by lia. by apply read_line_app.
Qed.

(** ** Allocator sections *)

Definition aseg_ok (a : allocator) (g : seg) (a' : allocator) : Prop :=
  nl ∉ g.1 /\ g.1 <> [] /\
  (forall rest, alloc_line a g.1 (g.2 ++ rest) = Loaded (a', rest)) /\
  (forall k, (k < length g.2)%nat -> alloc_line a g.1 (take k g.2) = Rejected).

Inductive achain : allocator -> list seg -> allocator -> Prop :=
| achain_nil a : achain a [] a
| achain_cons a g a' l a'' : aseg_ok a g a' -> achain a' l a'' -> achain a (g :: l) a''.

Lemma achain_app a l a' l' a'' : achain a l a' -> achain a' l' a'' -> achain a (l ++ l') a''.
Proof. induction 1 as [|a g a1 l a2 Hg H IH]; intros H'; [done|]. econstructor; [done|]. by apply IH. Qed.

Lemma alloc_load_chain a l a' rest : achain a l a' -> forall fuel, (length l < fuel)%nat ->
  alloc_load fuel a (segs_text l ++ nl :: rest) = Loaded (a', rest).
Proof.
  induction 1 as [a|a g a1 l a2 (Hn & Hne & Hg & _) H IH]; intros fuel Hf; (destruct fuel as [|fuel]; [simpl in Hf; lia|]).
  - cbn [alloc_load]. by rewrite (read_line_app []) by apply not_elem_of_nil.
  - cbn [alloc_load]. rewrite segs_text_cons. unfold seg_text. rewrite <- !app_assoc. cbn [app].
    rewrite read_line_app by done. destruct g.1 as [|c x] eqn:Eg; [done|]. rewrite <- Eg in *. rewrite Hg. cbn [lbind].
    apply IH. simpl in Hf. lia.
Qed.

Lemma alloc_load_cut a l a' : achain a l a' -> forall fuel k, (k <= length (segs_text l))%nat ->
  alloc_load fuel a (take k (segs_text l ++ [nl])) = Rejected.
Proof.
  induction 1 as [a|a g a1 l a2 (Hn & Hne & Hg & Hc) H IH]; intros fuel k Hk; (destruct fuel as [|fuel]; [done|]).
  - simpl in Hk. assert (k = 0)%nat as -> by lia. done.
  - cbn [alloc_load]. rewrite segs_text_cons. rewrite <- app_assoc.
    destruct (decide (k <= length g.1)%nat) as [H1|H1]; [by rewrite cut_line by done|].
    destruct (decide (k < length (seg_text g))%nat) as [H2|H2].
    + destruct (cut_body g k (segs_text l ++ [nl]) ltac:(lia) Hn) as [-> Hlt].
      destruct g.1 as [|c x] eqn:Eg; [done|]. rewrite <- Eg in *. rewrite Hc by done. done.
    + rewrite take_app_ge by lia. unfold seg_text at 1. rewrite <- app_assoc. cbn [app].
      rewrite read_line_app by done. destruct g.1 as [|c x] eqn:Eg; [done|]. rewrite <- Eg in *. rewrite Hg. cbn [lbind].
      apply IH. rewrite segs_text_cons, app_length in Hk. lia.
Qed.

(** ** The whole file *)

Section load.
Context (unpack : list N -> option (list N)).

Definition seg_ok (st : lstate) (g : seg) (st' : lstate) : Prop :=
  nl ∉ g.1 /\
  (forall rest, load_line unpack st g.1 (g.2 ++ rest) = Loaded (st', rest)) /\
  (forall k, (k < length g.2)%nat -> load_line unpack st g.1 (take k g.2) = Rejected).

Inductive chain : lstate -> list seg -> lstate -> Prop :=
| chain_nil st : chain st [] st
| chain_cons st g st' l st'' : seg_ok st g st' -> chain st' l st'' -> chain st (g :: l) st''.

Lemma chain_app st l st' l' st'' : chain st l st' -> chain st' l' st'' -> chain st (l ++ l') st''.
Proof. induction 1 as [|st g st1 l st2 Hg H IH]; intros H'; [done|]. econstructor; [done|]. by apply IH. Qed.

Lemma load_chain_gen st l st' rest : chain st l st' -> forall fuel,
  load_loop unpack (length l + fuel) st (segs_text l ++ rest) = load_loop unpack fuel st' rest.
Proof.
  induction 1 as [|st g st1 l st2 (Hn & Hg & _) H IH]; intros fuel; [done|].
  cbn [length plus load_loop]. rewrite segs_text_cons. unfold seg_text. rewrite <- !app_assoc. cbn [app].
  rewrite read_line_app by done. rewrite Hg. cbn [lbind]. apply IH.
Qed.

Lemma load_chain l st' : chain ls0 l st' -> load_state unpack (segs_text l) = Loaded st'.
Proof.
  intros H. unfold load_state. pose proof (load_chain_gen _ _ _ [] H (S (length (segs_text l)) - length l)) as E.
  rewrite app_nil_r in E. pose proof (segs_text_length l).
  replace (length l + (S (length (segs_text l)) - length l))%nat with (S (length (segs_text l))) in E by lia.
  rewrite E. by destruct (S (length (segs_text l)) - length l)%nat.
Qed.

(** A part of the file: cut in a line, the segments before it are loaded and the rest is
    ignored; cut in the bytes after a line, it is rejected. *)
Lemma load_cut_line l1 g l2 st1 k : chain ls0 l1 st1 -> nl ∉ g.1 -> (k <= length g.1)%nat ->
  load_state unpack (take (length (segs_text l1) + k) (segs_text (l1 ++ g :: l2))) = Loaded st1.
Proof.
  intros H Hn Hk. rewrite segs_text_app, take_app_ge by lia.
  replace (length (segs_text l1) + k - length (segs_text l1))%nat with k by lia.
  unfold load_state. set (n := S (length _)).
  assert (Hle : (length l1 < n)%nat).
  { unfold n. rewrite app_length. pose proof (segs_text_length l1). lia. }
  replace n with (length l1 + (n - length l1))%nat by lia. rewrite (load_chain_gen _ _ _ _ H).
  destruct (n - length l1)%nat as [|f] eqn:E; [done|]. cbn [load_loop]. rewrite segs_text_cons. by rewrite cut_line.
Qed.

Lemma load_cut_body l1 g l2 st1 st2 k : chain ls0 l1 st1 -> seg_ok st1 g st2 -> (k < length g.2)%nat ->
  load_state unpack (take (length (segs_text l1) + S (length g.1) + k) (segs_text (l1 ++ g :: l2))) = Rejected.
Proof.
  intros H (Hn & _ & Hc) Hk. rewrite segs_text_app, take_app_ge by lia.
  replace (length (segs_text l1) + S (length g.1) + k - length (segs_text l1))%nat with (S (length g.1) + k)%nat by lia.
  unfold load_state. set (n := S (length _)).
  assert (Hle : (length l1 < n)%nat).
  { unfold n. rewrite app_length. pose proof (segs_text_length l1). lia. }
  replace n with (length l1 + (n - length l1))%nat by lia. rewrite (load_chain_gen _ _ _ _ H).
  destruct (n - length l1)%nat as [|f] eqn:E; [lia|]. cbn [load_loop]. rewrite segs_text_cons.
  destruct (cut_body g (S (length g.1) + k) (segs_text l2)) as [-> _].
  { rewrite seg_text_length. lia. }
  { done. }
  replace (S (length g.1) + k - S (length g.1))%nat with k by lia. rewrite Hc by done. done.
Qed.

(** Every cut is of one of the two kinds. *)
Lemma cut_cases l : forall k, (k < length (segs_text l))%nat -> exists l1 g l2, l = l1 ++ g :: l2 /\
  ((exists j, (j <= length g.1)%nat /\ k = (length (segs_text l1) + j)%nat) \/
   (exists j, (j < length g.2)%nat /\ k = (length (segs_text l1) + S (length g.1) + j)%nat)).
Proof.
  induction l as [|g l IH]; intros k Hk; [simpl in Hk; lia|]. rewrite segs_text_cons, app_length in Hk.
  destruct (decide (k < length (seg_text g))%nat) as [H|H].
  - exists [], g, l. split; [done|]. rewrite seg_text_length in H. destruct (decide (k <= length g.1)%nat).
    + left. by exists k.
    + right. exists (k - S (length g.1))%nat. simpl. lia.
  - destruct (IH (k - length (seg_text g))%nat) as (l1 & g' & l2 & -> & Hc); [lia|].
    exists (g :: l1), g', l2. split; [done|]. rewrite segs_text_cons, app_length.
    destruct Hc as [(j & ? & ?)|(j & ? & ?)]; [left|right]; exists j; split; try done; lia.
Qed.

Lemma chain_split st l1 g l2 st' : chain st (l1 ++ g :: l2) st' ->
  exists st1 st2, chain st l1 st1 /\ seg_ok st1 g st2 /\ chain st2 l2 st'.
Proof.
  revert st. induction l1 as [|g1 l1 IH]; intros st H.
  - inversion H; subst. eexists _, _. split; [constructor|]. done.
  - simpl in H. inversion H; subst. destruct (IH _ H5) as (st1 & st2 & ? & ? & ?). exists st1, st2. split; [by econstructor|done].
Qed.

Lemma load_prefix l st' k : chain ls0 l st' -> (k < length (segs_text l))%nat ->
  load_state unpack (take k (segs_text l)) = Rejected \/
  exists l1 g l2 st1, l = l1 ++ g :: l2 /\ chain ls0 l1 st1 /\ load_state unpack (take k (segs_text l)) = Loaded st1.
Proof.
  intros H Hk. destruct (cut_cases l k Hk) as (l1 & g & l2 & -> & Hc).
  destruct (chain_split _ _ _ _ _ H) as (st1 & st2 & H1 & Hg & _).
  destruct Hc as [(j & Hj & ->)|(j & Hj & ->)].
  - right. exists l1, g, l2, st1. split; [done|]. split; [done|]. apply load_cut_line; [done|apply Hg|done].
  - left. by eapply load_cut_body.
Qed.
End load.
