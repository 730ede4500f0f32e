(** C47: decoding a transposed chunk with arbitrary contents ends, and what is decoded are the declared number of records. *)
From Verif Require Import Base.Bytes Model.Chunk Model.SimpleChunk Model.ChunkDecoder Model.TransposeEncoder Model.TransposeDecoder Spec.RecordsSpec
  Proof.TransposeFuel Props.TransposeProps.

(** The loops of the decoder (the search for implicit loops in the state machine, and the state machine itself) are modelled with a bound on
    the number of iterations, and [out1], [out2] are the results when a bound is reached.  For any source the result does not depend on
    them: the bounds, which are computed from the number of states and of transition bytes, are never reached. *)
Theorem C47_terminates : forall decompress src num_records size out1 out2 out1' out2',
  TransposeDecodeOut decompress out1 out2 src num_records size = TransposeDecodeOut decompress out1' out2' src num_records size.
Proof. intros. rewrite decode_fuel_ok. symmetry. apply decode_fuel_ok. Qed.

(** If the decoder accepts a source, the limits and values are those of the declared number of records, of the declared total size. *)
Theorem C47_sound : forall decompress src num_records size limits dest, TransposeDecode decompress src num_records size = Some (limits, dest) ->
  exists rs, limits = ends 0 rs /\ dest = concat rs /\ zlen rs = num_records /\ total rs = size.
Proof. exact decode_sound. Qed.

(** C20 for transposed chunks: if the decoder accepts a transposed chunk with an arbitrary header and arbitrary data, then the number
    of records and their total size are the declared ones, and they can all be read, also after SetIndex. *)
Theorem C47_decoder_sound : forall decompress c dec, ch_chunk_type (c_header c) = kTransposed ->
  Decode decompress (TransposeDecode decompress) c = (true, dec) ->
  exists rs, zlen rs = ch_num_records (c_header c) /\ total rs = ch_decoded_data_size (c_header c) /\
    (exists d, ReadAllRecords (S (length rs)) dec = Some (rs, d)) /\
    (forall j, 0 <= j -> exists d d', SetIndex j dec = Some d /\ ReadAllRecords (S (length rs)) d = Some (zdrop j rs, d')).
Proof. exact transposed_arbitrary. Qed.
Print Assumptions C47_terminates.
Print Assumptions C47_sound.
Print Assumptions C47_decoder_sound.

(** State machines without transition bytes.  Two no-op states, the first implicitly followed by the second: accepted (no records).  If also
    the second is implicitly followed by the first, the decoder would loop forever; the source is rejected. *)
Definition no_ops (next1 next2 : Z) : list Z := [0; 8; 0; 0; 2; 0; 0; next1; next2; 0].
Example C47_loop : TransposeDecode toy_decompress (no_ops 3 1) 0 0 = Some ([], []) /\ TransposeDecode toy_decompress (no_ops 3 2) 0 0 = None /\
  TransposeDecode toy_decompress (no_ops 3 3) 0 0 = None.
Proof. vm_compute. repeat split; reflexivity. Qed.
(** A valid source with a damaged byte, or another declared number of records or size: rejected or accepted. *)
Definition toy_data : list Z := match TransposeEncode toy_compress rev_order (toy_options 98) toy_records with Some d => d | None => [] end.
Definition damaged (i : nat) : list Z := firstn i toy_data ++ map (fun b => (b + 1) mod 256) (firstn 1 (skipn i toy_data)) ++ skipn (S i) toy_data.
Definition accepted src n size : bool := match TransposeDecode toy_decompress src n size with Some _ => true | None => false end.
Example C47_run : accepted toy_data 7 (total toy_records) = true /\ accepted toy_data 6 (total toy_records) = false /\
  accepted toy_data 7 (total toy_records + 1) = false /\ accepted (toy_data ++ [0]) 7 (total toy_records) = false.
Proof. vm_compute. repeat split; reflexivity. Qed.
Definition accepted_damage : list nat := filter (fun i => accepted (damaged i) 7 (total toy_records)) (seq 0 (length toy_data)).
(** (C47_sound applies to all of these.) *)
Example C47_damage : length toy_data = 122%nat /\ length accepted_damage = 39%nat.
Proof. split; vm_compute; reflexivity. Qed.
