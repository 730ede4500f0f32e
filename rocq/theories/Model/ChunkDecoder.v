(** Model of riegeli/chunk_encoding/chunk_decoder.{h,cc}.  Field projection includes all fields; reading is
    of raw bytes ([ReadRecord] into a string), so [Recover] never applies. *)
From Verif Require Import Base.Bytes Model.Block Model.Chunk Model.SimpleChunk.

(** chunk_decoder.h:204-217 *)
Record decoder := MkDecoder { dc_limits : list Z; dc_values : list Z; dc_pos : Z; dc_index : Z; dc_ok : bool }.
(** chunk_decoder.h:253-259 *)
Definition ClearDecoder : decoder := MkDecoder [] [] 0 0 true.
Definition dc_num_records (d : decoder) : Z := zlen (dc_limits d).

Section ChunkDecoder.
  Variable decompress : Z -> list Z -> option (list Z).
  (** transpose_decoder.cc [TransposeDecoder::Decode], here a parameter: end positions and values. *)
  Variable transpose_decode : list Z -> Z -> Z -> option (list Z * list Z).

  (** chunk_decoder.cc:75-190 [Parse]: end positions and values. *)
  Definition Parse (header data : list Z) : option (list Z * list Z) :=
    let chunk_type := ch_chunk_type header in
    let num_records := ch_num_records header in
    let decoded_data_size := ch_decoded_data_size header in
    if chunk_type =? kFileSignature then
      if negb (ch_data_size header =? 0) then None
      else if negb (num_records =? 0) then None
      else if negb (decoded_data_size =? 0) then None
      else Some ([], [])
    else if chunk_type =? kFileMetadata then
      if negb (num_records =? 0) then None else Some ([], [])
    else if chunk_type =? kPadding then
      if negb (num_records =? 0) then None
      else if negb (decoded_data_size =? 0) then None
      else Some ([], [])
    else if chunk_type =? kSimple then
      match SimpleDecoder_Decode decompress data num_records decoded_data_size with
      | None => None
      | Some (limits, values) =>
          if zlen values <? decoded_data_size then None
          else match zdrop decoded_data_size values with
               | [] => Some (limits, ztake decoded_data_size values)
               | _ :: _ => None
               end
      end
    else if chunk_type =? kTransposed then transpose_decode data num_records decoded_data_size
    else if num_records =? 0 then Some ([], [])
    else None.

  (** chunk_decoder.cc:47-73 [Decode]; [limits_.max_size()] exceeds 2^56. *)
  Definition Decode (c : chunk) : bool * decoder :=
    match Parse (c_header c) (c_data c) with
    | None => (false, MkDecoder [] [] 0 0 false)
    | Some (limits, values) => (true, MkDecoder limits values 0 0 true)
    end.

  (** chunk_decoder.h:276-289 [ReadRecord(std::string&)] (the other raw overloads alike).
      A violated assertion about the values reader is [None]. *)
  Definition ReadRecord (d : decoder) : option (option (list Z) * decoder) :=
    if negb (dc_ok d) || (dc_index d =? dc_num_records d) then Some (None, d)
    else
      let start := dc_pos d in
      match nth_error (dc_limits d) (Z.to_nat (dc_index d)) with
      | None => None
      | Some limit =>
          if (limit <? start) || (zlen (dc_values d) <? limit) then None
          else Some (Some (zslice start (limit - start) (dc_values d)),
                     MkDecoder (dc_limits d) (dc_values d) limit (dc_index d + 1) true)
      end.

  (** chunk_decoder.h:321-327 [SetIndex] *)
  Definition SetIndex (index : Z) (d : decoder) : option decoder :=
    let index := Z.min index (dc_num_records d) in
    if index =? 0 then Some (MkDecoder (dc_limits d) (dc_values d) 0 index (dc_ok d))
    else
      match nth_error (dc_limits d) (Z.to_nat (index - 1)) with
      | None => None
      | Some start =>
          if zlen (dc_values d) <? start then None
          else Some (MkDecoder (dc_limits d) (dc_values d) start index (dc_ok d))
      end.
End ChunkDecoder.

(** A user of the decoder: reads records until ReadRecord returns false (each of [fuel] calls at most). *)
Fixpoint ReadAllRecords (fuel : nat) (d : decoder) : option (list (list Z) * decoder) :=
  match fuel with
  | O => None
  | S fuel' =>
      match ReadRecord d with
      | None => None
      | Some (None, d) => Some ([], d)
      | Some (Some r, d) =>
          match ReadAllRecords fuel' d with
          | None => None
          | Some (rs, d) => Some (r :: rs, d)
          end
      end
  end.
