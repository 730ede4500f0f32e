(** Model of riegeli/records/block.h (block arithmetic) and of the block header codec.
    [Position] is an unsigned 64-bit integer: a [Z] with explicit wrap-around [u64]. *)
From Verif Require Import Base.Bytes Model.Endian.

(** block.h:47,78: BlockHeader::size() = 3 * sizeof(uint64_t). *)
Definition BlockHeaderSize : Z := 24.
(** block.h:81 *)
Definition kBlockSize : Z := 65536.
(** block.h:83 *)
Definition kUsableBlockSize : Z := 65512.
(** chunk.h:44,97: ChunkHeader::size() = 5 * sizeof(uint64_t). *)
Definition ChunkHeaderSize : Z := 40.

(** base/arithmetic.h [SaturatingSub] on unsigned arguments. *)
Definition SaturatingSub (a b : Z) : Z := if a <? b then 0 else a - b.

(** block.h:86 *)
Definition IsBlockBoundary (pos : Z) : bool := pos mod kBlockSize =? 0.
(** block.h:89-91 *)
Definition RoundDownToBlockBoundary (pos : Z) : Z := pos - pos mod kBlockSize.
(** block.h:94; unary minus on an unsigned type wraps. *)
Definition RemainingInBlock (pos : Z) : Z := u64 (- pos) mod kBlockSize.
(** block.h:98-100 *)
Definition IsPossibleChunkBoundary (pos : Z) : bool := RemainingInBlock pos <? kUsableBlockSize.
(** block.h:104-106 *)
Definition RoundUpToPossibleChunkBoundary (pos : Z) : Z :=
  u64 (pos + SaturatingSub (RemainingInBlock pos) (kUsableBlockSize - 1)).
(** block.h:110-112 *)
Definition RemainingInBlockHeader (pos : Z) : Z := SaturatingSub BlockHeaderSize (pos mod kBlockSize).
(** block.h:116-123; every intermediate result is a uint64_t.  The RIEGELI_ASSERT on
    [chunk_begin] (debug mode only) is a hypothesis of the theorems. *)
Definition AddWithOverhead (chunk_begin length : Z) : Z :=
  let num_overhead_blocks :=
    u64 (length + u64 (chunk_begin + kUsableBlockSize - 1) mod kBlockSize) / kUsableBlockSize in
  u64 (chunk_begin + length + num_overhead_blocks * BlockHeaderSize).
(** block.h:127-137 *)
Definition DistanceWithoutOverhead (chunk_begin pos : Z) : Z :=
  let num_overhead_blocks := pos / kBlockSize - chunk_begin / kBlockSize in
  u64 ((pos - Z.min (pos mod kBlockSize) BlockHeaderSize)
       - (chunk_begin - Z.min (chunk_begin mod kBlockSize) BlockHeaderSize)
       - num_overhead_blocks * BlockHeaderSize).
(** block.h:140-144 [ChunkEnd(header, chunk_begin)], as a function of the two header fields used. *)
Definition ChunkEnd (data_size num_records chunk_begin : Z) : Z :=
  Z.max (AddWithOverhead chunk_begin (u64 (ChunkHeaderSize + data_size)))
        (RoundUpToPossibleChunkBoundary (u64 (chunk_begin + num_records))).

(** ** Block headers (block.h:32-79), as 24-byte arrays. *)
Section BlockHeader.
  Variable hash : list Z -> Z.

  (** block.h:49-52, 53-55, 56-58, 59-61 *)
  Definition bh_computed_header_hash (b : list Z) : Z := hash (skipn 8 b).
  Definition bh_stored_header_hash (b : list Z) : Z := ReadLittleEndianArray (firstn 8 b).
  Definition bh_previous_chunk (b : list Z) : Z := ReadLittleEndianArray (firstn 8 (skipn 8 b)).
  Definition bh_next_chunk (b : list Z) : Z := ReadLittleEndianArray (firstn 8 (skipn 16 b)).

  (** block.h:36-40 [BlockHeader(previous_chunk, next_chunk)]: the two fields are stored, then
      the hash of bytes 8..23 is stored in front. *)
  Definition BlockHeader (previous_chunk next_chunk : Z) : list Z :=
    let body := WriteLittleEndian 8 previous_chunk ++ WriteLittleEndian 8 next_chunk in
    WriteLittleEndian 8 (hash body) ++ body.
End BlockHeader.
