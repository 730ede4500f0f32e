(** Model of riegeli/records/record_reader.{h,cc}.

    The source is its current [content], a parameter of each call, as in Model/ChunkReader.v.
    There is no recovery function (the default): [TryRecovery()] returns false (record_reader.h:670-674).
    Field projection includes all fields; records are read as byte strings.
    [None] is a loop out of fuel or a violated assertion; the theorems exclude it. *)
From Verif Require Import Base.Bytes Model.Block Model.Chunk Model.SimpleChunk Model.ChunkReader Model.ChunkDecoder.

(** record_reader.h:540-547 *)
Inductive rr_recoverable := RNo | RRecoverChunkReader | RRecoverChunkDecoder | RRecoverMetadata.
(** record_reader.h:549-582: data members; [rd_src] is the chunk reader; [rd_open], [rd_failed]: class Object. *)
Record record_reader := MkRecordReader {
  rd_src : reader;
  rd_begin : Z;
  rd_dec : decoder;
  rd_last : bool;      (* last_record_is_valid_ *)
  rd_rec : rr_recoverable;
  rd_open : bool;
  rd_failed : bool
}.
Definition rd_ok (d : record_reader) : bool := rd_open d && negb (rd_failed d).
Definition put_src s d := MkRecordReader s (rd_begin d) (rd_dec d) (rd_last d) (rd_rec d) (rd_open d) (rd_failed d).
Definition put_begin b d := MkRecordReader (rd_src d) b (rd_dec d) (rd_last d) (rd_rec d) (rd_open d) (rd_failed d).
Definition put_dec c d := MkRecordReader (rd_src d) (rd_begin d) c (rd_last d) (rd_rec d) (rd_open d) (rd_failed d).
Definition put_last l d := MkRecordReader (rd_src d) (rd_begin d) (rd_dec d) l (rd_rec d) (rd_open d) (rd_failed d).
Definition put_rec r d := MkRecordReader (rd_src d) (rd_begin d) (rd_dec d) (rd_last d) r (rd_open d) (rd_failed d).
Definition put_failed f d := MkRecordReader (rd_src d) (rd_begin d) (rd_dec d) (rd_last d) (rd_rec d) (rd_open d) f.

(** record_reader.cc:151-163 [Initialize] over a chunk reader on a byte source at position 0. *)
Definition NewRecordReader : record_reader :=
  let src := InitializeReader 0 in
  MkRecordReader src (r_pos src) ClearDecoder false RNo true false.

(** record_reader.cc:182-188 [FailSeeking] *)
Definition RR_FailSeeking (d : record_reader) : bool * record_reader :=
  (false, put_failed true (put_rec RRecoverChunkReader (put_dec ClearDecoder (put_begin (r_pos (rd_src d)) d)))).

(** record_reader.h:676-692 [last_pos()] ([None] if there is no last record), [pos()] *)
Definition last_pos (d : record_reader) : option (Z * Z) :=
  if rd_last d then Some (rd_begin d, Z.max 0 (dc_index (rd_dec d) - 1)) else None.
Definition rpos (d : record_reader) : Z * Z :=
  if (dc_index (rd_dec d) <? dc_num_records (rd_dec d)) ||
     match rd_rec d with RRecoverChunkDecoder => true | _ => false end
  then (rd_begin d, dc_index (rd_dec d))
  else (r_pos (rd_src d), 0).

Section RecordReader.
  Variable hash : list Z -> Z.
  Variable decompress : Z -> list Z -> option (list Z).
  Variable transpose_decode : list Z -> Z -> Z -> option (list Z * list Z).

  (** record_reader.cc:689-708 [ReadChunk] *)
  Definition RR_ReadChunk (content : list Z) (d : record_reader) : option (bool * record_reader) :=
    let d := put_begin (r_pos (rd_src d)) d in
    match ReadChunk hash content (rd_src d) with
    | None => None
    | Some (None, src) =>
        let d := put_dec ClearDecoder (put_src src d) in
        if negb (r_ok src) then Some (false, put_failed true (put_rec RRecoverChunkReader d))
        else Some (false, d)
    | Some (Some c, src) =>
        let '(b, dec) := Decode decompress transpose_decode c in
        let d := put_dec dec (put_src src d) in
        if negb b then Some (false, put_failed true (put_rec RRecoverChunkDecoder d))
        else Some (true, d)
    end.

  (** record_reader.cc:342-366 [ReadRecordImpl] *)
  Fixpoint RR_ReadRecord_loop (fuel : nat) (content : list Z) (d : record_reader)
      : option (option (list Z) * record_reader) :=
    match fuel with
    | O => None
    | S fuel' =>
        match ReadRecord (rd_dec d) with
        | None => None
        | Some (Some r, dec) => Some (Some r, put_last true (put_dec dec d))
        | Some (None, dec) =>
            let d := put_dec dec d in
            if negb (rd_ok d) then Some (None, d)
            else if negb (dc_ok dec) then Some (None, put_failed true (put_rec RRecoverChunkDecoder d))
            else
              match RR_ReadChunk content d with
              | None => None
              | Some (false, d) => Some (None, d)
              | Some (true, d) => RR_ReadRecord_loop fuel' content d
              end
        end
    end.
  Definition RR_ReadRecord (content : list Z) (d : record_reader) : option (option (list Z) * record_reader) :=
    RR_ReadRecord_loop (S (S (length content))) content (put_last false d).

  (** chunk_decoder_.SetIndex(index) *)
  Definition set_index (index : Z) (d : record_reader) : option (bool * record_reader) :=
    match SetIndex index (rd_dec d) with
    | None => None
    | Some dec => Some (true, put_dec dec d)
    end.
  Definition read_chunk_and_set_index (content : list Z) (index : record_reader -> Z) (d : record_reader)
      : option (bool * record_reader) :=
    match RR_ReadChunk content d with
    | None => None
    | Some (false, d) => Some (false, d)
    | Some (true, d) => set_index (index d) d
    end.

  (** record_reader.cc:430-458 [Seek(RecordPosition)] *)
  Definition RR_SeekTo (content : list Z) (chunk_begin record_index : Z) (d : record_reader)
      : option (bool * record_reader) :=
    let d := put_last false d in
    if negb (rd_ok d) then Some (false, d)
    else if chunk_begin =? rd_begin d then
      if (record_index =? 0) || (rd_begin d <? r_pos (rd_src d)) then set_index record_index d
      else read_chunk_and_set_index content (fun _ => record_index) d
    else
      let '(b, src) := Seek content chunk_begin (rd_src d) in
      let d := put_src src d in
      if negb b then Some (RR_FailSeeking d)
      else if record_index =? 0 then Some (true, put_dec ClearDecoder (put_begin (r_pos src) d))
      else read_chunk_and_set_index content (fun _ => record_index) d.

  (** record_reader.cc:460-487 [Seek(Position)] *)
  Definition RR_Seek (content : list Z) (new_pos : Z) (d : record_reader) : option (bool * record_reader) :=
    let d := put_last false d in
    if negb (rd_ok d) then Some (false, d)
    else if (rd_begin d <=? new_pos) && (new_pos <=? r_pos (rd_src d)) then
      set_index (u64 (new_pos - rd_begin d)) d
    else
      match SeekToChunk hash content kContaining new_pos (rd_src d) with
      | None => None
      | Some (b, src) =>
          let d := put_src src d in
          if negb b then Some (RR_FailSeeking d)
          else if new_pos <=? r_pos src then Some (true, put_dec ClearDecoder (put_begin (r_pos src) d))
          else read_chunk_and_set_index content (fun d => u64 (new_pos - rd_begin d)) d
      end.

  (** record_reader.cc:489-521 [SeekBack] *)
  Fixpoint RR_SeekBack_loop (fuel : nat) (content : list Z) (chunk_pos : Z) (d : record_reader)
      : option (bool * record_reader) :=
    match fuel with
    | O => None
    | S fuel' =>
        if 0 <? chunk_pos then
          match SeekToChunk hash content kBefore (chunk_pos - 1) (rd_src d) with
          | None => None
          | Some (b, src) =>
              let d := put_src src d in
              if negb b then Some (RR_FailSeeking d)
              else
                let chunk_pos := rd_begin d in
                match RR_ReadChunk content d with
                | None => None
                | Some (false, d) => Some (false, d)
                | Some (true, d) =>
                    if 0 <? dc_num_records (rd_dec d) then set_index (dc_num_records (rd_dec d) - 1) d
                    else RR_SeekBack_loop fuel' content chunk_pos d
                end
          end
        else Some (false, d)
    end.
  Definition RR_SeekBack (content : list Z) (d : record_reader) : option (bool * record_reader) :=
    if negb (rd_ok d) then Some (false, d)
    else
      let d := put_last false d in
      if 0 <? dc_index (rd_dec d) then set_index (dc_index (rd_dec d) - 1) d
      else RR_SeekBack_loop (S (S (length content))) content (rd_begin d) d.

  (** record_reader.cc:382-423 [Recover] *)
  Definition RR_Recover (content : list Z) (d : record_reader) : option (option (Z * Z) * record_reader) :=
    match rd_rec d with
    | RNo => Some (None, d)
    | RRecoverChunkReader =>
        let d := put_failed false (put_rec RNo d) in
        match Recover hash content (rd_src d) with
        | None => None
        | Some (None, src) => Some (None, put_failed true (put_src src d))
        | Some (Some region, src) => Some (Some region, put_src src d)
        end
    | RRecoverChunkDecoder =>
        (* chunk_decoder.cc:209-217 [ChunkDecoder::Recover] applies only to invalid protocol messages, then it
           returns true; here records are byte strings, so it returns false. *)
        let index_before := dc_index (rd_dec d) in
        let d := put_dec ClearDecoder (put_failed false (put_rec RNo d)) in
        Some (Some (u64 (rd_begin d + index_before), u64 (fst (rpos d) + snd (rpos d))), d)
    | RRecoverMetadata =>
        let d := put_failed false (put_rec RNo d) in
        Some (Some (rd_begin d, u64 (fst (rpos d) + snd (rpos d))), d)
    end.

  (** record_reader.cc:165-171 [RecordReaderBase::Done], record_reader.h:748-758 [RecordReader::Done] (the reader
      owns its chunk reader), Object::Close: result of Close(). *)
  Definition RR_Close (d : record_reader) : bool * record_reader :=
    if negb (rd_open d) then (negb (rd_failed d), d)
    else
      let '(b, src) := Close (rd_src d) in
      let d := put_last false (put_rec RNo (put_src src d)) in
      let d := if dc_ok (rd_dec d) then d else put_failed true d in
      let d := if b then d else put_failed true (put_rec RRecoverChunkReader d) in
      (negb (rd_failed d), MkRecordReader (rd_src d) (rd_begin d) (rd_dec d) (rd_last d) (rd_rec d) false (rd_failed d)).

  (** ** Users *)
  (** [while (reader.ReadRecord(record)) ...] *)
  Fixpoint RR_ReadAll (fuel : nat) (content : list Z) (d : record_reader) : option (list (list Z) * record_reader) :=
    match fuel with
    | O => None
    | S fuel' =>
        match RR_ReadRecord content d with
        | None => None
        | Some (None, d) => Some ([], d)
        | Some (Some r, d) =>
            match RR_ReadAll fuel' content d with
            | None => None
            | Some (rs, d) => Some (r :: rs, d)
            end
        end
    end.
End RecordReader.
