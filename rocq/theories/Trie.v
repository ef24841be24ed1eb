(** * Trie: the ghost trie behind the memory words, its representation predicate,
    well-formedness, and contexts (one-hole tries). *)
From Verif Require Export PrefixFacts.
From Coq Require Export Sorted.

Inductive trie :=
| Leaf (k : list N) (v : N)
| Node (full : bool) (a : N) (pfx : list N) (cs : list (N * trie)).

Lemma trie_ind2 (P : trie -> Prop) :
  (forall k v, P (Leaf k v)) ->
  (forall full a pfx cs, Forall (fun c => P (snd c)) cs -> P (Node full a pfx cs)) ->
  forall t, P t.
Proof.
  intros HL HN. fix IH 1. intros [k v|full a pfx cs]; [apply HL|].
  apply HN. induction cs as [|[b c] cs IHcs]; constructor; [apply IH|apply IHcs].
Qed.

(** Number of child slots of a node: a full node always has 256. *)
Definition ncount (full : bool) (n : nat) : nat := if full then 256%nat else n.

(** Number of memory slots of a node. *)
Definition nslots (full : bool) (pfx : list N) (n : nat) : nat :=
  (prefix_slots (length pfx) + ncount full n)%nat.

(** The word for a subtree, stored under byte [b]. *)
Definition enc (b : N) (t : trie) : N :=
  match t with
  | Leaf _ v => buildLeaf b v
  | Node full a pfx cs => buildNode b a (ncount full (length cs)) (length pfx)
  end.

Definition bws (cs : list (N * trie)) : list (N * N) := map (fun c => (c.1, enc c.1 c.2)) cs.

Fixpoint assoc {A} (b : N) (l : list (N * A)) : option A :=
  match l with
  | [] => None
  | (b', x) :: l' => if b =? b' then Some x else assoc b l'
  end.

(** Memory regions (address, slots) of all nodes. *)
Fixpoint regs (t : trie) : list (N * nat) :=
  match t with
  | Leaf _ _ => []
  | Node full a pfx cs => (a, nslots full pfx (length cs)) :: (cs ≫= fun c => regs c.2)
  end.

Definition cover (l : list (N * nat)) : list N := l ≫= fun r => seqN r.1 r.2.

Global Arguments cover : simpl never.
Global Arguments seqN : simpl never.
Global Arguments nslots : simpl never.
Global Arguments prefix_slots : simpl never.

(** Keys and values, in tree order. *)
Fixpoint contents (t : trie) : list (list N * N) :=
  match t with
  | Leaf k v => [(k, v)]
  | Node _ _ _ cs => cs ≫= fun c => contents c.2
  end.

Lemma regs_node full a pfx cs :
  regs (Node full a pfx cs) = (a, nslots full pfx (length cs)) :: (cs ≫= fun c => regs c.2).
Proof. done. Qed.
Lemma contents_node full a pfx cs : contents (Node full a pfx cs) = cs ≫= fun c => contents c.2.
Proof. done. Qed.

Definition slot_idx (full : bool) (b : N) (i : nat) : N := if full then b else N.of_nat i.

(** What the memory of one node must contain. *)
Definition node_mem (m : mem) (full : bool) (a : N) (pfx : list N) (ws : list (N * N)) : Prop :=
  prefix_at m a pfx /\
  if full
  then forall b, b < 256 -> mget m (a + N.of_nat (prefix_slots (length pfx)) + b) = default 0 (assoc b ws)
  else mread m (a + N.of_nat (prefix_slots (length pfx))) (length ws) = map snd ws.

Inductive rep (m : mem) : trie -> Prop :=
| rep_leaf k v : rep m (Leaf k v)
| rep_node full a pfx cs :
    node_mem m full a pfx (bws cs) -> Forall (fun c => rep m c.2) cs -> rep m (Node full a pfx cs).

Lemma rep_node_iff m full a pfx cs :
  rep m (Node full a pfx cs) <-> node_mem m full a pfx (bws cs) /\ Forall (fun c => rep m c.2) cs.
Proof. split; [inversion 1; done|intros [??]; by constructor]. Qed.

(** ** The key universe and well-formedness *)

Definition maxKeyLen : N := 2000000.

Record universe (K : list N -> Prop) : Prop := {
  uv_bytes : forall k, K k -> bytes k;
  uv_nonempty : forall k, K k -> k <> [];
  uv_len : forall k, K k -> N.of_nat (length k) < maxKeyLen;
  uv_free : forall k k', K k -> K k' -> k `prefix_of` k' -> k = k'
}.

Definition vlim : N := 2 ^ 55.

Section Wf.
Context (K : list N -> Prop) (fetch : N -> list N).

Definition sbytes {A} (cs : list (N * A)) : Prop :=
  StronglySorted N.lt (map fst cs) /\ Forall (fun b => b < 256) (map fst cs).

Inductive wf : list N -> trie -> Prop :=
| wf_leaf p k v :
    p `prefix_of` k -> K k -> v < vlim -> fetch v = k -> wf p (Leaf k v)
| wf_node p (full : bool) a pfx cs :
    sbytes cs ->
    (if full then True else (2 <= length cs <= 127)%nat) ->
    (exists (k : list N) (b : N), K k /\ (p ++ pfx ++ [b]) `prefix_of` k) ->
    Forall (fun c => wf (p ++ pfx ++ [c.1]) c.2) cs ->
    wf p (Node full a pfx cs).

Lemma wf_node_iff p (full : bool) a pfx cs :
  wf p (Node full a pfx cs) <->
    sbytes cs /\ (if full then True else (2 <= length cs <= 127)%nat) /\
    (exists (k : list N) (b : N), K k /\ (p ++ pfx ++ [b]) `prefix_of` k) /\
    Forall (fun c => wf (p ++ pfx ++ [c.1]) c.2) cs.
Proof. split; [inversion 1; done|intros (?&?&?&?); by constructor]. Qed.

Lemma wf_contents p t k v : wf p t -> (k, v) ∈ contents t ->
  p `prefix_of` k /\ K k /\ v < vlim /\ fetch v = k.
Proof.
  revert p. induction t as [k0 v0|full a pfx cs IH] using trie_ind2; intros p Hwf Hin.
  - inversion Hwf; subst. simpl in Hin. apply elem_of_list_singleton in Hin. by simplify_eq.
  - apply wf_node_iff in Hwf as (_ & _ & _ & Hc).
    rewrite contents_node in Hin. apply elem_of_list_bind in Hin as ([b c] & Hin & Hc').
    rewrite Forall_forall in IH, Hc. specialize (IH _ Hc' _ (Hc _ Hc') Hin) as (Hp & ? & ? & ?).
    split_and!; try done. simpl in Hp. etrans; [|done]. apply prefix_app_r. done.
Qed.
End Wf.

(** ** Contexts *)

Record frame := Frame {
  f_full : bool; f_a : N; f_pfx : list N;
  f_l : list (N * trie); f_b : N; f_r : list (N * trie)
}.

(** Innermost frame first. *)
Definition ctx := list frame.

Definition fill (f : frame) (t : trie) : trie :=
  Node (f_full f) (f_a f) (f_pfx f) (f_l f ++ (f_b f, t) :: f_r f).

Fixpoint plug (C : ctx) (t : trie) : trie :=
  match C with
  | [] => t
  | f :: C' => plug C' (fill f t)
  end.

Fixpoint path_of (C : ctx) : list N :=
  match C with
  | [] => []
  | f :: C' => path_of C' ++ f_pfx f ++ [f_b f]
  end.

Definition root_byte (t : trie) : N :=
  match t with Leaf k _ => default 0 (head k) | Node _ _ _ _ => 0 end.

(** Byte under which the subtree in the hole is stored. *)
Definition hole_byte (C : ctx) (t : trie) : N :=
  match C with [] => root_byte t | f :: _ => f_b f end.

Definition hole_word (C : ctx) (t : trie) : N := enc (hole_byte C t) t.

Definition par_of (C : ctx) : N := match C with [] => 0 | f :: _ => f_a f end.

Definition f_slot (f : frame) : N :=
  f_a f + N.of_nat (prefix_slots (length (f_pfx f))) + slot_idx (f_full f) (f_b f) (length (f_l f)).

Definition ptr_of (C : ctx) : ptr := match C with [] => PRoot | f :: _ => PSlot (f_slot f) end.

Definition enc_root (r : option trie) : N :=
  match r with None => 0 | Some t => hole_word [] t end.

(** Contents left and right of the hole. *)
Fixpoint cleft (C : ctx) : list (list N * N) :=
  match C with [] => [] | f :: C' => cleft C' ++ (f_l f ≫= fun c => contents c.2) end.
Fixpoint cright (C : ctx) : list (list N * N) :=
  match C with [] => [] | f :: C' => (f_r f ≫= fun c => contents c.2) ++ cright C' end.

Definition f_count (f : frame) : nat := length (f_l f ++ (f_b f, Leaf [] 0) :: f_r f).

(** Regions of the context. *)
Fixpoint cregs (C : ctx) : list (N * nat) :=
  match C with
  | [] => []
  | f :: C' => (f_a f, nslots (f_full f) (f_pfx f) (f_count f)) ::
               (f_l f ≫= fun c => regs c.2) ++ (f_r f ≫= fun c => regs c.2) ++ cregs C'
  end.

Lemma f_count_fill f t : length (f_l f ++ (f_b f, t) :: f_r f) = f_count f.
Proof. unfold f_count. by rewrite !app_length. Qed.

Lemma plug_app C D t : plug (C ++ D) t = plug D (plug C t).
Proof. revert t; induction C as [|f C IH]; intros t; simpl; auto. Qed.

Lemma contents_plug C t : contents (plug C t) = cleft C ++ contents t ++ cright C.
Proof.
  revert t; induction C as [|f C IH]; intros t; simpl; [by rewrite app_nil_r|].
  rewrite IH. unfold fill. rewrite contents_node, bind_app. simpl.
  by rewrite <- !app_assoc.
Qed.

Lemma regs_plug C t : regs (plug C t) ≡ₚ regs t ++ cregs C.
Proof.
  revert t; induction C as [|f C IH]; intros t; simpl; [by rewrite app_nil_r|].
  rewrite IH. unfold fill. rewrite regs_node, bind_app, f_count_fill. simpl. solve_Permutation.
Qed.
