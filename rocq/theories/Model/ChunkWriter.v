(** Model of riegeli/records/chunk_writer.{h,cc}: [DefaultChunkWriterBase].
    The destination [Writer] is append-only: each function returns the bytes it appends and the
    new value of [pos()].  Destination failures (disk full etc.) are not modelled.
    [None] is a loop out of fuel or a violated precondition; the theorems exclude it. *)
From Verif Require Import Base.Bytes Model.Endian Model.Block Model.Chunk.

(** chunk_writer.cc:49-52: [while (length < ChunkHeader::size()) length += padding;] *)
Fixpoint pad_length_loop (fuel : nat) (length padding : Z) : option Z :=
  match fuel with
  | O => None
  | S fuel' =>
      if length <? ChunkHeaderSize then pad_length_loop fuel' (u64 (length + padding)) padding
      else Some length
  end.
(** chunk_writer.cc:54-57: [while (!IsPossibleChunkBoundary(end_pos)) end_pos += padding;] *)
Fixpoint pad_end_loop (fuel : nat) (end_pos padding : Z) : option Z :=
  match fuel with
  | O => None
  | S fuel' =>
      if negb (IsPossibleChunkBoundary end_pos) then pad_end_loop fuel' (u64 (end_pos + padding)) padding
      else Some end_pos
  end.
(** chunk_writer.cc:44-59 [PosAfterPadding]. *)
Definition PosAfterPadding (pos padding : Z) : option Z :=
  if padding <=? 1 then Some pos
  else
    let remainder := pos mod padding in
    if remainder =? 0 then Some pos
    else
      match pad_length_loop 64 (padding - remainder) padding with
      | None => None
      | Some length => pad_end_loop 64 (u64 (pos + length)) padding
      end.

Section ChunkWriter.
  Variable hash : list Z -> Z.

  (** chunk_writer.cc:112-139 [WriteSection]: [src] is what remains in the section reader. *)
  Fixpoint WriteSection (fuel : nat) (src : list Z) (chunk_begin chunk_end pos : Z)
      : option (list Z * Z) :=
    match src with
    | [] => Some ([], pos)
    | _ =>
        match fuel with
        | O => None
        | S fuel' =>
            let '(hdr, pos) :=
              if IsBlockBoundary pos then
                (BlockHeader hash (u64 (pos - chunk_begin)) (u64 (chunk_end - pos)),
                 u64 (pos + BlockHeaderSize))
              else ([], pos) in
            let length := Z.min (zlen src) (RemainingInBlock pos) in
            match WriteSection fuel' (zdrop length src) chunk_begin chunk_end (u64 (pos + length)) with
            | None => None
            | Some (out, pos') => Some (hdr ++ ztake length src ++ out, pos')
            end
        end
    end.

  (** chunk_writer.cc:141-163 [WritePadding(chunk_begin, chunk_end, dest)]. *)
  Fixpoint WritePaddingTo (fuel : nat) (chunk_begin chunk_end pos : Z) : option (list Z * Z) :=
    if pos <? chunk_end then
      match fuel with
      | O => None
      | S fuel' =>
          let '(hdr, pos) :=
            if IsBlockBoundary pos then
              (BlockHeader hash (u64 (pos - chunk_begin)) (u64 (chunk_end - pos)),
               u64 (pos + BlockHeaderSize))
            else ([], pos) in
          let length := Z.min (u64 (chunk_end - pos)) (RemainingInBlock pos) in
          match WritePaddingTo fuel' chunk_begin chunk_end (u64 (pos + length)) with
          | None => None
          | Some (out, pos') => Some (hdr ++ zeros length ++ out, pos')
          end
      end
    else Some ([], pos).

  (** chunk_writer.cc:85-110 [WriteChunk] with chunk_writer.h:306-309 [PosAfterWriteChunk].
      The final RIEGELI_ASSERT_EQ(pos(), chunk_end) is part of the theorem, not of the model. *)
  Definition WriteChunk (c : chunk) (pos : Z) : option (list Z * Z) :=
    let chunk_begin := pos in
    let chunk_end := ChunkEnd (ch_data_size (c_header c)) (ch_num_records (c_header c)) pos in
    match WriteSection (S (length (c_header c))) (c_header c) chunk_begin chunk_end pos with
    | None => None
    | Some (o1, pos) =>
        match WriteSection (S (length (c_data c))) (c_data c) chunk_begin chunk_end pos with
        | None => None
        | Some (o2, pos) =>
            match WritePaddingTo (S (Z.to_nat (chunk_end - pos))) chunk_begin chunk_end pos with
            | None => None
            | Some (o3, pos) => Some (o1 ++ o2 ++ o3, pos)
            end
        end
    end.

  (** A sequence of [WriteChunk] calls. *)
  Fixpoint WriteChunks (cs : list chunk) (pos : Z) : option (list Z * Z) :=
    match cs with
    | [] => Some ([], pos)
    | c :: cs' =>
        match WriteChunk c pos with
        | None => None
        | Some (o, pos) =>
            match WriteChunks cs' pos with
            | None => None
            | Some (o', pos) => Some (o ++ o', pos)
            end
        end
    end.

  (** chunk_writer.cc:165-179 [WritePadding(padding)].  [padding_data_length] underflows when
      the distance is smaller than the chunk header: then a chunk of nearly 2^64 zero bytes would be
      requested, which is the outcome [None] here. *)
  Definition PaddingChunk (n : Z) : chunk :=
    MkChunk (ChunkHeader hash (zeros n) kPadding 0 0) (zeros n).
  Definition WritePadding (padding pos : Z) : option (list Z * Z) :=
    match PosAfterPadding pos padding with
    | None => None
    | Some pos_after_pad =>
        if pos_after_pad =? pos then Some ([], pos)
        else
          let d := DistanceWithoutOverhead pos pos_after_pad in
          if d <? ChunkHeaderSize then None
          else WriteChunk (PaddingChunk (d - ChunkHeaderSize)) pos
    end.

  (** chunk_writer.cc:65-75 [Initialize(dest, pos)]: bytes written and initial position. *)
  Definition InitializeWriter (pos : Z) : list Z * Z :=
    if IsPossibleChunkBoundary pos then ([], pos)
    else
      let length := RemainingInBlock pos in
      (zeros length, u64 (pos + length)).
End ChunkWriter.
