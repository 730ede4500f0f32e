(** C19-C20: the simple chunk codec and the chunk decoder. *)
From Verif Require Import Base.Bytes Model.Chunk Model.SimpleChunk Model.ChunkDecoder Spec.RecordsSpec Spec.SimpleLink
  Spec.FileSpec Spec.ChunkLink Proof.DecoderProof.

(** C19: the records given to a SimpleEncoder (one by one, or many at a time), directly or through
    a DeferredEncoder, are read back from the decoded chunk, whatever the compression algorithm is. *)
Theorem C19_simple_round_trip hash compress decompress transpose_decode ct calls : (forall l, 0 <= hash l < 2 ^ 64) ->
  (forall t l, bytes l -> bytes (compress t l)) -> (forall t l, bytes l -> decompress t (compress t l) = Some l) ->
  known_compression ct = true -> Forall bytes (all_added calls) ->
  zlen (all_added calls) < 2 ^ 56 -> total (all_added calls) < 2 ^ 64 ->
  let rs := all_added calls in
  exists data,
    EncodeAndClose compress ct (add_all add calls NewEncoder) = Some (data, kSimple, zlen rs, total rs) /\
    Deferred_EncodeAndClose compress ct (add_all add_deferred calls NewDeferred) = Some (data, kSimple, zlen rs, total rs) /\
    (zlen data < 2 ^ 64 -> exists dec dec',
       Decode decompress transpose_decode (mk_chunk hash (Chunk kSimple (zlen rs) (total rs) data)) = (true, dec) /\
       ReadAllRecords (S (length rs)) dec = Some (rs, dec')).
Proof.
  intros H1 H2 H3 H4 H5 H6 H7 rs. destruct (simple_round_trip hash compress decompress transpose_decode ct calls H1 H2 H3 H4 H5 H6 H7) as (data & A & B & C).
  exists data. split; [exact A|]. split; [exact B|]. intros D. destruct (C D) as (dec & E & F). eauto.
Qed.

(** C20: if the decoder accepts a chunk with an arbitrary header and arbitrary data, then the number of records is the
    declared one, they can all be read, also after SetIndex, and for a simple chunk their total size is the
    declared one and they make up the decompressed values. *)
Theorem C20_decoder_sound decompress transpose_decode c dec : (forall t l l', decompress t l = Some l' -> bytes l') ->
  bytes (c_header c) -> zlen (c_header c) = 40 -> bytes (c_data c) -> ch_chunk_type (c_header c) <> kTransposed ->
  Decode decompress transpose_decode c = (true, dec) ->
  exists rs, zlen rs = ch_num_records (c_header c) /\
    (exists d, ReadAllRecords (S (length rs)) dec = Some (rs, d)) /\
    (forall j, 0 <= j -> exists d d', SetIndex j dec = Some d /\ ReadAllRecords (S (length rs)) d = Some (zdrop j rs, d')) /\
    (ch_chunk_type (c_header c) = kSimple -> total rs = ch_decoded_data_size (c_header c) /\
       exists ct m part1 part2, c_data c = ct :: m ++ part1 ++ part2 /\ Decompressor decompress ct part2 = Some (concat rs)) /\
    (ch_chunk_type (c_header c) <> kSimple -> rs = []).
Proof. exact (decode_arbitrary decompress transpose_decode c dec). Qed.

Print Assumptions C19_simple_round_trip.
Print Assumptions C20_decoder_sound.

(** A compressor which inverts bytes, and calls which meet the hypotheses. *)
Definition ex_compress (t : Z) (l : list Z) : list Z := map (fun b => (255 - b) mod 256) l.
Definition ex_calls : list adding := [One [1;2;3]; Many [[4]; []; [5;6]]; One []].
Example C19_nonvacuous : known_compression 98 = true /\ Forall bytes (all_added ex_calls) /\ zlen (all_added ex_calls) = 5 /\ total (all_added ex_calls) = 6.
Proof. split; [reflexivity|]. split; [repeat constructor; lia|split; reflexivity]. Qed.
Example C19_run : EncodeAndClose ex_compress 98 (add_all add ex_calls NewEncoder) =
  Some ([98; 6; 5; 252; 254; 255; 253; 255; 6; 254; 253; 252; 251; 250; 249], kSimple, 5, 6).
Proof. vm_compute. reflexivity. Qed.
(** Arbitrary data: accepted and rejected. *)
Definition ex_dec (t : Z) (l : list Z) : option (list Z) := Some (ex_compress t l).
Definition ex_hdr (n d : Z) : list Z := zeros 24 ++ [114; n] ++ zeros 6 ++ [d] ++ zeros 7.
Example C20_run :
  map (fun x => fst (Decode ex_dec (fun _ _ _ => None) (MkChunk (ex_hdr (fst x) (snd x)) [0; 2; 3; 1; 9; 9; 9; 8]))) [(2, 4); (2, 5); (1, 4); (3, 4)]
  = [true; false; false; false].
Proof. vm_compute. reflexivity. Qed.
