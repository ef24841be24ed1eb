(** * CandExample: a candidate that shares with the key only the byte the tree branched on. *)
From Verif Require Export LookupPath Examples.

Lemma near_candidate : exists tr y v, reachable (fixed 2) f2 2 tr y /\ proper (fixed 2) f2 y (CLookup 1 [9; 1]) /\
  api y (CLookup 1 [9; 1]) = Ok (RLookup v true, y) /\ f2 v = [0; 1] /\ get f2 y [0; 0] = Some 0 /\ get f2 y [0; 1] = Some 1.
Proof.
  destruct (after_reachable 2 f2 (puts f2 0 [0; 1]) (fun tr y => actb (fixedb 2) f2 y (AFind 1 [9; 1]) &&
    match api y (CLookup 1 [9; 1]) with
    | Ok (RLookup v true, _) => bool_decide (f2 v = [0; 1])
    | _ => false
    end && bool_decide (get f2 y [0; 0] = Some 0) && bool_decide (get f2 y [0; 1] = Some 1))) as (tr & y & Hr & H); [lia|by vm_compute|by vm_compute|].
  apply andb_prop in H as [H H1]. apply andb_prop in H as [H H0]. apply bool_decide_eq_true in H0, H1.
  apply andb_prop in H as [Hp H]. apply actb_proper in Hp. change (to_call f2 y (AFind 1 [9; 1])) with (CLookup 1 [9; 1]) in Hp.
  destruct (c02_lookup (fixed 2) f2 2 tr y 1 [9; 1] Hr Hp) as (v & found & E & _). rewrite E in H.
  destruct found; [|done]. apply bool_decide_eq_true in H. by exists tr, y, v.
Qed.
