(** * Unprot: MinKey without the protection of an epoch (C34).

    MinKey and MaxKey (radix.go:391-496) are methods of the tree, not of an allocator, and make
    no reservation.  Here each round of the loop of MinKey may see another state of the tree. *)
From Verif Require Export QWitness.

(** radix.go:459-495; each round of the loop reads the next tree of the list. *)
Fixpoint min_along (ss : list tree) (raw : N) : res (N * bool) :=
  match ss with
  | [] => NoFuel
  | s :: ss' =>
    let '(_, node, count, prefixLen) := explodeNode raw in
    do data <- node_data s node;
    do (_, _, data1) <- skip_prefix (t_mem s) data prefixLen;
    if (fullAllocFrom <=? count)%nat then
      do _ <- sl_upto data1 count;
      match find_up (t_mem s) (sl_base data1) 0 count with
      | None => Ok (0, false)
      | Some a => if isLeaf a then Ok (getLeafValue a, true) else min_along ss' a
      end
    else
      do a <- sl_get (t_mem s) data1 0;
      if isLeaf a then Ok (getLeafValue a, true) else min_along ss' a
  end.

(** radix.go:449-457: partialSearch in [s], then the loop in the trees [ss]. *)
Definition min_key_along (s : tree) (ss : list tree) (sp : list N) : res (N * bool) :=
  do (raw, _) <- partial_search s sp;
  if raw =? 0 then Ok (0, false)
  else if isLeaf raw then Ok (getLeafValue raw, true)
  else min_along ss raw.

(** The value [v] was passed to Finalize in the history [tr]. *)
Definition stored_in (tr : list (call * reply)) (v : N) : Prop :=
  exists aid fk m w r, (CFinU aid fk m w, r) ∈ tr /\ w mod 2 ^ 55 = v.
