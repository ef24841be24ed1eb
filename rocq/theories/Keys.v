(** * Keys: the key encodings recommended by the documentation (/repo/radix.go:18-27,
    /repo/README.md) and the order of byte strings. *)
From Verif Require Export Words.

(** Big-endian encoding of [v] in [n] bytes: encoding/binary's [BigEndian.PutUint64] for
    [n = 8], as used for integer keys by the tests (radix_test.go). *)
Fixpoint be (n : nat) (v : N) : list N :=
  match n with
  | O => []
  | S n' => (v / 256 ^ N.of_nat n') mod 256 :: be n' v
  end.

(** A string terminated with a zero byte. *)
Definition zterm (l : list N) : list N := l ++ [0].

(** Lexicographic order on byte strings ([bytes.Compare] < 0). *)
Fixpoint lex_lt (a b : list N) : Prop :=
  match a, b with
  | [], [] => False
  | [], _ :: _ => True
  | _ :: _, [] => False
  | x :: a', y :: b' => x < y \/ (x = y /\ lex_lt a' b')
  end.

(** int64 keys: two's complement with the sign bit flipped (radix.go:15), i.e. the
    bit pattern of [z] xor 2^63, big-endian. *)
Definition int64_bits (z : Z) : N := Z.to_N (z mod 18446744073709551616)%Z.
Definition key_int64 (z : Z) : list N := be 8 (N.lxor (int64_bits z) (2 ^ 63)).
