(** The transposed encoding as used by RecordWriter and RecordReader. *)
From Verif Require Import Base.Bytes Model.Varint Model.Chunk Model.SimpleChunk Model.RecordWriter Model.TransposeEncoder Model.TransposeDecoder.

Section Transposed.
  Variable compress : Z -> list Z -> list Z.
  Variable decompress : Z -> list Z -> option (list Z).
  (** Iteration over hash maps (Model/TransposeEncoder.v) *)
  Variable order : nat -> list (nat * dest_info) -> list (nat * dest_info).
  (** record_writer.cc:280-290: computed from effective_chunk_size() and bucket_fraction() in floating point; here any function *)
  Variable bucket_size : options -> Z.
  (** record_writer.cc:277-300 MakeChunkEncoder, 315-344 EncodeMetadata: a TransposeEncoder to which [records] are added, EncodeAndClose.
      If it fails the result is empty (theorems show that it does not). *)
  Definition transposed (o : options) (records : list (list Z)) : list Z :=
    match TransposeEncode compress order {| o_ct := o_compression o; o_bucket_size := bucket_size o |} records with
    | Some data => data
    | None => []
    end.
  (** chunk_decoder.cc:149-176, record_reader.cc:294-312: a TransposeDecoder *)
  Definition untransposed : list Z -> Z -> Z -> option (list Z * list Z) := TransposeDecode decompress.
End Transposed.
