(** The library's objects for the chunks of the specification, and a bound on their extent. *)
From Verif Require Import Base.Bytes Model.Chunk Spec.FileSpec.

(** [Chunk] with the header built by the constructor [ChunkHeader(data, type, num_records, decoded_data_size)]. *)
Definition mk_chunk (hash : list Z -> Z) (k : chunk_spec) : chunk :=
  MkChunk (ChunkHeader hash (k_data k) (k_type k) (k_nrec k) (k_dsize k)) (k_data k).

(** More than the chunk can occupy in a file, wherever it is placed. *)
Definition room (k : chunk_spec) : Z := k_nrec k + 2 * (40 + zlen (k_data k)) + 64.
Definition rooms (ks : list chunk_spec) : Z := fold_right (fun k a => room k + a) 0 ks.
