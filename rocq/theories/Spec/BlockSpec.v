(** The block layout of a Riegeli/records file, independently of the implementation's arithmetic:
    the first 24 bytes of each 65536-byte block are the block header, all other bytes belong to chunks. *)
From Verif Require Import Base.Bytes.

(** [zseq a n]: the positions a, a+1, ..., a+n-1. *)
Definition zseq (a n : Z) : list Z := map (fun i => a + Z.of_nat i) (seq 0 (Z.to_nat n)).

Definition in_block_header (p : Z) : bool := p mod 65536 <? 24.

(** How many positions in [a, b) are not inside a block header. *)
Definition payload_between (a b : Z) : Z :=
  zlen (filter (fun p => negb (in_block_header p)) (zseq a (b - a))).

(** A chunk may begin at [p] if [p] is not strictly inside nor immediately after a block header
    (a chunk "at" a block header begins before it). *)
Definition chunk_boundary (p : Z) : Prop := p mod 65536 = 0 \/ 24 < p mod 65536.
