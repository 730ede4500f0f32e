(** Model of the rest of riegeli/records/record_reader.cc: checking the file format and reading file metadata.
    Conventions as in Model/RecordReader.v: no recovery function; [None] is a loop out of fuel or a violated assertion. *)
From Verif Require Import Base.Bytes Model.Block Model.Chunk Model.SimpleChunk Model.ChunkReader Model.ChunkDecoder Model.RecordReader.

(** record_reader.cc:176-180 [FailReading] *)
Definition RR_FailReading (d : record_reader) : record_reader := put_failed true (put_rec RRecoverChunkReader d).

Section RecordMetadata.
  Variable hash : list Z -> Z.
  Variable transpose_decode : list Z -> Z -> Z -> option (list Z * list Z).

  (** record_reader.cc:202-214 [CheckFileFormat]; chunk_reader.cc:104-106 *)
  Definition RR_CheckFileFormat (content : list Z) (d : record_reader) : option (bool * record_reader) :=
    if negb (rd_ok d) then Some (false, d)
    else if 0 <? dc_num_records (rd_dec d) then Some (true, d)
    else
      match PullChunkHeader hash content (rd_src d) with
      | None => None
      | Some (true, src) => Some (true, put_src src d)
      | Some (false, src) =>
          let d := put_dec ClearDecoder (put_src src d) in
          if negb (r_ok src) then Some (false, RR_FailReading d) else Some (false, d)
      end.

  (** record_reader.cc:283-316 [ParseMetadata]; the TransposeDecoder and the check that the data end where they should are [transpose_decode]. *)
  Definition ParseMetadata (c : chunk) : option (list Z) :=
    if negb (ch_num_records (c_header c) =? 0) then None
    else
      match transpose_decode (c_data c) 1 (ch_decoded_data_size (c_header c)) with
      | None => None
      | Some (_, metadata) => Some metadata
      end.

  (** record_reader.cc:233-281 [ReadSerializedMetadata]: result and [metadata] *)
  Definition RR_ReadSerializedMetadata (content : list Z) (d : record_reader) : option (bool * list Z * record_reader) :=
    let d := put_last false d in
    if negb (rd_ok d) then Some (false, [], d)
    else if negb (r_pos (rd_src d) =? 0) then Some (false, [], put_failed true d)
    else
      let d := put_begin (r_pos (rd_src d)) d in
      match ReadChunk hash content (rd_src d) with
      | None => None
      | Some (None, src) =>
          let d := put_src src d in
          if negb (r_ok src) then Some (false, [], RR_FailReading d) else Some (false, [], d)
      | Some (Some c, src) =>
          if negb (ch_chunk_type (c_header c) =? kFileSignature) then None
          else
            let d := put_begin (r_pos src) (put_src src d) in
            match PullChunkHeader hash content (rd_src d) with
            | None => None
            | Some (false, src) =>
                let d := put_src src d in
                if negb (r_ok src) then Some (false, [], RR_FailReading d) else Some (false, [], d)
            | Some (true, src) =>
                let d := put_src src d in
                if negb (ch_chunk_type (r_header src) =? kFileMetadata) then Some (true, [], d)
                else
                  match ReadChunk hash content src with
                  | None => None
                  | Some (None, src) =>
                      let d := put_src src d in
                      if negb (r_ok src) then Some (false, [], RR_FailReading d) else Some (false, [], d)
                  | Some (Some c, src) =>
                      let d := put_src src d in
                      match ParseMetadata c with
                      | None => Some (false, [], put_failed true (put_rec RRecoverChunkDecoder d))
                      | Some metadata => Some (true, metadata, put_last true d)
                      end
                  end
            end
      end.
End RecordMetadata.
