(** The documented ordered varint format (ordered_varint_writing.h:28-46), as one formula:
    an encoding of [n] bytes is [n - 1] one bits, a zero bit if n < 9, then the value in
    big endian; the shortest length is used. *)
From Verif Require Import Base.Bytes.

(** n - 1 one bits at the top of a byte: 0x00, 0x80, 0xc0, ..., 0xfe, 0xff. *)
Definition ones_prefix (n : Z) : Z := 256 - 2 ^ (9 - n).

Definition ordered_encoding (v : Z) (l : list Z) : Prop :=
  exists n, 1 <= n <= 9 /\ zlen l = n /\ bytes l /\
    be_val l = ones_prefix n * 256 ^ (n - 1) + v /\
    (n = 1 -> 0 <= v) /\ (1 < n -> 2 ^ (7 * (n - 1)) <= v) /\
    (n < 9 -> v < 2 ^ (7 * n)) /\ (n = 9 -> v < 2 ^ 64).
