(** * Words: the 64-bit packing of nodes and leaves (model of /repo/utils.go).

    A Go [uint64] is an [N]; every Go operation that can overflow is followed
    by an explicit wrap [u64].  A Go [byte] is an [N] below 256. *)
From stdpp Require Export numbers list.
From Coq Require Export Lia.
Open Scope N_scope.

(** Go conversion/wrap to uint64. *)
Definition u64 (x : N) : N := x mod 18446744073709551616.

(** Go conversion [byte(x)]. *)
Definition to_byte (x : N) : N := N.land x 255.

(** utils.go:12 [valueMask2]. *)
Definition valueMask2 : N := 549755813887.
(** utils.go:13 [countShift]. *)
Definition countShift : N := 56.
(** utils.go:14 [prefixShift]. *)
Definition prefixShift : N := 48.
(** utils.go:15 [valueShift]. *)
Definition valueShift : N := 9.
(** utils.go:16 [leafBit]. *)
Definition leafBit : N := 256.

(** utils.go:20-25 [buildNode].  [children] is at least 2 at every call site,
    so the Go expression [uint64(children-1)] never wraps below zero. *)
Definition buildNode (key value : N) (children prefixLen : nat) : N :=
  let pl := if (255 <? prefixLen)%nat then 255%nat else prefixLen in
  N.lor (N.lor (N.lor
    (u64 (N.shiftl (N.of_nat (children - 1)) countShift))
    (u64 (N.shiftl (N.of_nat pl) prefixShift)))
    (u64 (N.shiftl value valueShift)))
    key.

(** utils.go:28-30 [explodeNode]: (key, value, children, prefixLen). *)
Definition explodeNode (node : N) : N * N * nat * nat :=
  (to_byte node,
   N.land (N.shiftr node valueShift) valueMask2,
   (1 + N.to_nat (to_byte (N.shiftr node countShift)))%nat,
   N.to_nat (to_byte (N.shiftr node prefixShift))).

(** utils.go:32-34 [getNodeValue]. *)
Definition getNodeValue (node : N) : N :=
  N.land (N.shiftr node valueShift) valueMask2.

(** utils.go:37-39 [buildLeaf]. *)
Definition buildLeaf (key value : N) : N :=
  N.lor (N.lor (u64 (N.shiftl value valueShift)) leafBit) key.

(** utils.go:41-43 [updateLeafKey]. *)
Definition updateLeafKey (leaf key : N) : N :=
  N.lor (N.shiftl (N.shiftr leaf 8) 8) key.

(** utils.go:46-48 [getLeafValue]. *)
Definition getLeafValue (node : N) : N := N.shiftr node 9.

(** utils.go:50-52 [isLeaf]. *)
Definition isLeaf (node : N) : bool := N.land node leafBit =? leafBit.
