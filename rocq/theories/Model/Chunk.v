(** Model of riegeli/chunk_encoding/chunk.{h,cc} and constants.h. *)
From Verif Require Import Base.Bytes Model.Endian Model.Block.

(** constants.h [ChunkType]: the character codes. *)
Definition kFileSignature : Z := 115. (* 's' *)
Definition kFileMetadata : Z := 109.  (* 'm' *)
Definition kPadding : Z := 112.       (* 'p' *)
Definition kSimple : Z := 114.        (* 'r' *)
Definition kTransposed : Z := 116.    (* 't' *)
(** constants.h [kMaxNumRecords] = 2^56 - 1. *)
Definition kMaxNumRecords : Z := 2 ^ 56 - 1.

Section ChunkHeader.
  Variable hash : list Z -> Z.

  (** chunk.h:46-65 and chunk.cc:42-45: accessors of the 40-byte array. *)
  Definition ch_computed_header_hash (h : list Z) : Z := hash (skipn 8 h).
  Definition ch_stored_header_hash (h : list Z) : Z := ReadLittleEndianArray (firstn 8 h).
  Definition ch_data_size (h : list Z) : Z := ReadLittleEndianArray (firstn 8 (skipn 8 h)).
  Definition ch_data_hash (h : list Z) : Z := ReadLittleEndianArray (firstn 8 (skipn 16 h)).
  Definition ch_chunk_type (h : list Z) : Z :=
    Z.land (ReadLittleEndianArray (firstn 8 (skipn 24 h))) 255.
  Definition ch_num_records (h : list Z) : Z :=
    Z.shiftr (ReadLittleEndianArray (firstn 8 (skipn 24 h))) 8.
  Definition ch_decoded_data_size (h : list Z) : Z := ReadLittleEndianArray (firstn 8 (skipn 32 h)).

  (** chunk.cc:30-40 [ChunkHeader(data, chunk_type, num_records, decoded_data_size)] with the
      setters chunk.h:68-89; [num_records << 8] wraps. *)
  Definition ChunkHeader (data : list Z) (chunk_type num_records decoded_data_size : Z) : list Z :=
    let body :=
      WriteLittleEndian 8 (u64 (zlen data)) ++
      WriteLittleEndian 8 (hash data) ++
      WriteLittleEndian 8 (Z.lor chunk_type (u64 (Z.shiftl num_records 8))) ++
      WriteLittleEndian 8 decoded_data_size in
    WriteLittleEndian 8 (hash body) ++ body.

End ChunkHeader.

(** chunk.h:100-109 [Chunk]: 40 header bytes and data bytes. *)
Record chunk := MkChunk { c_header : list Z; c_data : list Z }.

(** chunk.cc:47-53 [Chunk::WriteTo] and 55-61 [Chunk::ReadFrom] on a reader seen as its remaining bytes. *)
Definition Chunk_WriteTo (c : chunk) : list Z := c_header c ++ c_data c.
Definition Chunk_ReadFrom (src : list Z) : option (chunk * list Z) :=
  if zlen src <? ChunkHeaderSize then None
  else
    let h := ztake ChunkHeaderSize src in
    let rest := zdrop ChunkHeaderSize src in
    let n := ch_data_size h in
    if zlen rest <? n then None
    else Some (MkChunk h (ztake n rest), zdrop n rest).
