(** Model of riegeli/chunk_encoding/simple_encoder.cc, deferred_encoder.cc, compressor.cc,
    decompressor.h, simple_decoder.cc.

    [compress t]/[decompress t] stand for the external libraries (Brotli, Zstd, Snappy).  A decompressing
    reader is lazy in C++: bytes before a corrupted place can still be read; here decompression is eager.
    The difference is not observable, because [Decode] succeeds only if the whole stream was
    decompressed and its end verified.  Writers to memory do not fail. *)
From Verif Require Import Base.Bytes Model.Endian Model.Varint Model.Chunk.

(** constants.h:34-39 [CompressionType] *)
Definition kNone : Z := 0.
Definition kBrotli : Z := 98.
Definition kZstd : Z := 122.
Definition kSnappy : Z := 115.
Definition known_compression (t : Z) : bool := (t =? kNone) || (t =? kBrotli) || (t =? kZstd) || (t =? kSnappy).

(** chunk_encoder.h: [num_records_], [decoded_data_size_], simple_encoder.h: what was written to
    [sizes_compressor_.writer()] and [values_compressor_.writer()]; [ok()]. *)
Record encoder := MkEncoder { e_num : Z; e_size : Z; e_sizes : list Z; e_values : list Z; e_ok : bool }.
Definition NewEncoder : encoder := MkEncoder 0 0 [] [] true.
Definition e_fail (e : encoder) : bool * encoder := (false, MkEncoder (e_num e) (e_size e) (e_sizes e) (e_values e) false).

(** simple_encoder.cc:112-133 [SimpleEncoder::AddRecordImpl] *)
Definition AddRecord (record : list Z) (e : encoder) : bool * encoder :=
  if negb (e_ok e) then (false, e)
  else if e_num e =? kMaxNumRecords then e_fail e
  else if (2 ^ 64 - 1) - e_size e <? zlen record then e_fail e
  else (true, MkEncoder (e_num e + 1) (u64 (e_size e + zlen record))
                (e_sizes e ++ WriteVarint V64 (zlen record)) (e_values e ++ record) true).

(** simple_encoder.cc:149-162: the sizes of records given by their end positions. *)
Fixpoint write_sizes (start : Z) (limits : list Z) : list Z :=
  match limits with
  | [] => []
  | limit :: limits' => WriteVarint V64 (u64 (limit - start)) ++ write_sizes limit limits'
  end.
(** simple_encoder.cc:135-168 [SimpleEncoder::AddRecords] *)
Definition AddRecords (records : list Z) (limits : list Z) (e : encoder) : bool * encoder :=
  if negb (e_ok e) then (false, e)
  else if u64 (kMaxNumRecords - e_num e) <? zlen limits then e_fail e
  else if (2 ^ 64 - 1) - e_size e <? zlen records then e_fail e
  else (true, MkEncoder (u64 (e_num e + zlen limits)) (u64 (e_size e + zlen records))
                (e_sizes e ++ write_sizes 0 limits) (e_values e ++ records) true).

(** deferred_encoder.h: [records_writer_], [limits_], and the counters. *)
Record deferred := MkDeferred { d_num : Z; d_size : Z; d_records : list Z; d_limits : list Z; d_ok : bool }.
Definition NewDeferred : deferred := MkDeferred 0 0 [] [] true.
Definition d_fail (d : deferred) : bool * deferred :=
  (false, MkDeferred (d_num d) (d_size d) (d_records d) (d_limits d) false).
(** deferred_encoder.cc:97-116; [limits_.max_size()] exceeds [kMaxNumRecords]. *)
Definition Deferred_AddRecord (record : list Z) (d : deferred) : bool * deferred :=
  if negb (d_ok d) then (false, d)
  else if d_num d =? kMaxNumRecords then d_fail d
  else if (2 ^ 64 - 1) - d_size d <? zlen record then d_fail d
  else
    let records := d_records d ++ record in
    (true, MkDeferred (d_num d + 1) (u64 (d_size d + zlen record)) records (d_limits d ++ [zlen records]) true).
(** deferred_encoder.cc:118-141 *)
Definition Deferred_AddRecords (records : list Z) (limits : list Z) (d : deferred) : bool * deferred :=
  if negb (d_ok d) then (false, d)
  else if u64 (kMaxNumRecords - d_num d) <? zlen limits then d_fail d
  else
    (true, MkDeferred (u64 (d_num d + zlen limits)) (u64 (d_size d + zlen records)) (d_records d ++ records)
             (match d_limits d with
              | [] => limits
              | _ => let base := last (d_limits d) 0 in d_limits d ++ map (fun limit => u64 (limit + base)) limits
              end) true).

Section Compression.
  Variable compress : Z -> list Z -> list Z.
  Variable decompress : Z -> list Z -> option (list Z).

  (** compressor.cc:59-83 (what reaches [compressed_] when the writer is closed) *)
  Definition compressed (ct : Z) (data : list Z) : list Z := if ct =? kNone then data else compress ct data.
  (** compressor.cc:96-110 [Compressor::EncodeAndClose] *)
  Definition Compressor_EncodeAndClose (ct : Z) (data : list Z) : list Z :=
    (if ct =? kNone then [] else WriteVarint V64 (zlen data)) ++ compressed ct data.
  (** compressor.cc:112-133 [Compressor::LengthPrefixedEncodeAndClose] *)
  Definition Compressor_LengthPrefixed (ct : Z) (data : list Z) : list Z :=
    let compressed_size :=
      u64 (zlen (compressed ct data) + (if ct =? kNone then 0 else LengthVarint (zlen data))) in
    WriteVarint V64 compressed_size ++
    (if ct =? kNone then [] else WriteVarint V64 (zlen data)) ++ compressed ct data.

  (** simple_encoder.cc:170-192 [SimpleEncoder::EncodeAndClose]: data, chunk type, number of records, decoded
      size. *)
  Definition EncodeAndClose (ct : Z) (e : encoder) : option (list Z * Z * Z * Z) :=
    if negb (e_ok e) then None
    else Some (byte_cast ct :: Compressor_LengthPrefixed ct (e_sizes e) ++ Compressor_EncodeAndClose ct (e_values e),
               kSimple, e_num e, e_size e).
  (** deferred_encoder.cc:143-157 with a simple base encoder. *)
  Definition Deferred_EncodeAndClose (ct : Z) (d : deferred) : option (list Z * Z * Z * Z) :=
    if negb (d_ok d) then None
    else
      let '(ok, e) := AddRecords (d_records d) (d_limits d) NewEncoder in
      if ok then EncodeAndClose ct e else None.

  (** decompressor.h:172-208 [Decompressor::Initialize] on everything that remains in [src], and the
      decompressed contents. *)
  Definition Decompressor (ct : Z) (src : list Z) : option (list Z) :=
    if ct =? kNone then Some src
    else
      match ReadVarint V64 src with
      | None => None
      | Some (_uncompressed_size, src) =>
          if (ct =? kBrotli) || (ct =? kZstd) || (ct =? kSnappy) then decompress ct src else None
      end.

  (** simple_decoder.cc:77-91: [n] record sizes remain to be read. *)
  Fixpoint read_limits (n : nat) (decoded_data_size limit : Z) (src : list Z) : option (list Z * Z * list Z) :=
    match n with
    | O => Some ([], limit, src)
    | S n' =>
        match ReadVarint V64 src with
        | None => None
        | Some (size, src) =>
            if u64 (decoded_data_size - limit) <? size then None
            else
              let limit := limit + size in
              match read_limits n' decoded_data_size limit src with
              | None => None
              | Some (limits, last_limit, src) => Some (limit :: limits, last_limit, src)
              end
        end
    end.

  (** simple_decoder.cc:42-108 [SimpleDecoder::Decode]: limits, and what its [reader()] will read. *)
  Definition SimpleDecoder_Decode (src : list Z) (num_records decoded_data_size : Z) : option (list Z * list Z) :=
    match src with
    | [] => None
    | compression_type :: src =>
        match ReadVarint V64 src with
        | None => None
        | Some (sizes_size, src) =>
            if zlen src <? sizes_size then None
            else
              match Decompressor compression_type (ztake sizes_size src) with
              | None => None
              | Some sizes =>
                  match read_limits (Z.to_nat num_records) decoded_data_size 0 sizes with
                  | None => None
                  | Some (limits, limit, rest) =>
                      match rest with
                      | _ :: _ => None
                      | [] =>
                          if negb (limit =? decoded_data_size) then None
                          else
                            match Decompressor compression_type (zdrop sizes_size src) with
                            | None => None
                            | Some values => Some (limits, values)
                            end
                      end
                  end
              end
        end
    end.
End Compression.
