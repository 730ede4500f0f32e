(** C07-C14: blocks, chunks, the chunk writer and the chunk reader. *)
From Coq Require Import Sorted.
From Verif Require Import Base.Bytes Model.Block Model.Chunk Model.ChunkWriter Model.ChunkReader
  Spec.BlockSpec Spec.FileSpec Spec.ChunkLink Proof.BlockProof Proof.FileProof Proof.ChunkPropsLemmas.

(** C07: AddWithOverhead gives the least position with [length] payload bytes before it, and
    DistanceWithoutOverhead counts payload bytes; they are inverse. *)
Theorem C07_block_overhead chunk_begin length :
  0 <= chunk_begin -> chunk_boundary chunk_begin -> 0 <= length ->
  chunk_begin + length + (length / 65512 + 1) * 24 < 2 ^ 64 ->
  let e := AddWithOverhead chunk_begin length in
  chunk_begin <= e < 2 ^ 64 /\ payload_between chunk_begin e = length /\
  (forall q, chunk_begin <= q < e -> payload_between chunk_begin q < length) /\
  DistanceWithoutOverhead chunk_begin e = length.
Proof. exact (block_overhead chunk_begin length). Qed.
Theorem C07_distance chunk_begin pos : 0 <= chunk_begin <= pos -> pos < 2 ^ 64 ->
  DistanceWithoutOverhead chunk_begin pos = payload_between chunk_begin pos.
Proof. exact (DistanceWithoutOverhead_payload chunk_begin pos). Qed.

(** C08 *)
Theorem C08_chunk_end data_size num_records chunk_begin e :
  0 <= chunk_begin -> chunk_boundary chunk_begin -> 0 <= data_size -> 0 <= num_records ->
  least_chunk_end chunk_begin (40 + data_size) num_records e -> e + 64 <= 2 ^ 64 ->
  ChunkEnd data_size num_records chunk_begin = e.
Proof. exact (ChunkEnd_least data_size num_records chunk_begin e). Qed.
Theorem C08_round_up pos : 0 <= pos -> pos + 24 < 2 ^ 64 ->
  let e := RoundUpToPossibleChunkBoundary pos in
  pos <= e /\ chunk_boundary e /\ (forall q, pos <= q -> chunk_boundary q -> e <= q).
Proof. exact (RoundUp_least pos). Qed.
Theorem C08_boundary pos : IsPossibleChunkBoundary pos = true <-> chunk_boundary pos.
Proof. exact (IsPossibleChunkBoundary_iff pos). Qed.

(** C09: the padding position is the least multiple of [padding] which is a chunk boundary and leaves room
    for a chunk header, ignoring block headers. *)
Theorem C09_pos_after_padding pos padding : 0 <= pos -> 2 <= padding -> pos + 26 * padding + 40 < 2 ^ 64 ->
  exists e, PosAfterPadding pos padding = Some e /\ pos <= e /\ e mod padding = 0 /\
    (pos mod padding = 0 -> e = pos) /\
    (pos mod padding <> 0 -> pos + 40 <= e /\ chunk_boundary e /\
       forall q, q mod padding = 0 -> pos + 40 <= q -> chunk_boundary q -> e <= q).
Proof. exact (PosAfterPadding_least pos padding). Qed.
(** If the padding is a divisor of the block size not less than 64, or a multiple of it, WritePadding
    writes a well-formed padding chunk up to a multiple of [padding]. *)
Theorem C09_write_padding hash padding pos : (forall l, 0 <= hash l < 2 ^ 64) ->
  0 <= pos -> chunk_boundary pos ->
  (64 <= padding /\ 65536 mod padding = 0 \/ 65536 <= padding /\ padding mod 65536 = 0) ->
  pos + 60 * padding + 200 < 2 ^ 64 -> pos mod padding <> 0 ->
  exists out e n, WritePadding hash padding pos = Some (out, e) /\ e mod padding = 0 /\ pos < e <= pos + 25 * padding + 40 /\ 0 <= n /\
    chunk_layout hash pos e (Chunk kPadding 0 0 (zeros n)) out.
Proof. exact (fun H => WritePadding_spec hash H padding pos). Qed.
Theorem C09_no_padding hash padding pos : padding <= 1 \/ pos mod padding = 0 ->
  WritePadding hash padding pos = Some ([], pos).
Proof. exact (WritePadding_none hash padding pos). Qed.
(** The unguarded claim is false: for these paddings the target position leaves less than a chunk header
    between itself and the current position, so the size of the padding chunk underflows. *)
Theorem C09_padding_refuted :
  Forall (fun '(padding, pos, e, d) =>
    chunk_boundary pos /\ pos mod padding <> 0 /\ PosAfterPadding pos padding = Some e /\
    DistanceWithoutOverhead pos e = d /\ d < ChunkHeaderSize /\ forall hash, WritePadding hash padding pos = None)
  [(32, 65528, 65568, 16); (50, 131055, 131100, 21); (65561, 65516, 65561, 21)].
Proof. exact padding_refuted. Qed.

(** C10 *)
Theorem C10_chunk_header hash k : (forall l, 0 <= hash l < 2 ^ 64) -> chunk_ok k ->
  let h := ChunkHeader hash (k_data k) (k_type k) (k_nrec k) (k_dsize k) in
  h = chunk_header_bytes hash k /\ zlen h = 40 /\ bytes h /\
  ch_data_size h = zlen (k_data k) /\ ch_data_hash h = hash (k_data k) /\ ch_chunk_type h = k_type k /\
  ch_num_records h = k_nrec k /\ ch_decoded_data_size h = k_dsize k /\
  ch_stored_header_hash h = ch_computed_header_hash hash h.
Proof. exact (chunk_header_fields hash k). Qed.
Theorem C10_block_header hash previous next : (forall l, 0 <= hash l < 2 ^ 64) ->
  0 <= previous < 2 ^ 64 -> 0 <= next < 2 ^ 64 ->
  let b := BlockHeader hash previous next in
  b = block_header_bytes hash previous next /\ zlen b = 24 /\ bytes b /\
  bh_previous_chunk b = previous /\ bh_next_chunk b = next /\
  bh_stored_header_hash b = bh_computed_header_hash hash b.
Proof. exact (block_header_fields hash previous next). Qed.
Theorem C10_chunk_serialization hash k rest : (forall l, 0 <= hash l < 2 ^ 64) -> chunk_ok k ->
  Chunk_ReadFrom (Chunk_WriteTo (mk_chunk hash k) ++ rest) = Some (mk_chunk hash k, rest).
Proof. exact (chunk_serialization hash k rest). Qed.

(** C11 *)
Theorem C11_layout hash ks p : (forall l, 0 <= hash l < 2 ^ 64) ->
  0 <= p -> chunk_boundary p -> Forall chunk_ok ks -> p + rooms ks < 2 ^ 64 ->
  exists qs out e, WriteChunks hash (map (mk_chunk hash) ks) p = Some (out, e) /\
    map q_chunk qs = ks /\ file_layout hash p qs out e /\ e = p + zlen out.
Proof. exact (writer_layout hash ks p). Qed.

(** C12 *)
Theorem C12_round_trip hash ks : (forall l, 0 <= hash l < 2 ^ 64) ->
  Forall chunk_ok ks -> rooms (signature_chunk :: ks) + 64 < 2 ^ 64 ->
  exists file, WriteChunks hash (map (mk_chunk hash) (signature_chunk :: ks)) 0 = Some (file, zlen file) /\
    exists r, ReadAll hash (S (length file)) file (InitializeReader 0) =
      Some (map (mk_chunk hash) (signature_chunk :: ks), r) /\ r_ok r = true /\ fst (Close r) = true.
Proof. exact (chunk_round_trip hash ks). Qed.
(** The same for any file with the documented layout, whoever wrote it. *)
Theorem C12_read_any_valid_file hash p qs file : (forall l, 0 <= hash l < 2 ^ 64) ->
  valid_file hash p qs file ->
  exists r, ReadAll hash (S (length file)) file (InitializeReader p) =
      Some (map (fun q => mk_chunk hash (q_chunk q)) qs, r) /\ r_ok r = true /\ fst (Close r) = true.
Proof. exact (read_valid_file hash p qs file). Qed.

(** C13: the file cut at [n]. *)
Theorem C13_truncation hash p qs file n : (forall l, 0 <= hash l < 2 ^ 64) ->
  valid_file hash p qs file -> p <= n <= zlen file ->
  exists r, ReadAll hash (S (length file)) (ztake n file) (InitializeReader p)
            = Some (map (fun q => mk_chunk hash (q_chunk q)) (filter (fun q => q_end q <=? n) qs), r) /\
    r_ok r = true /\ (fst (Close r) = false <-> exists q, In q qs /\ q_begin q < n < q_end q).
Proof. exact (fun H => valid_read_all hash H p qs file n). Qed.

(** C14: ReadChunk called whenever the file has the lengths [lens]. *)
Theorem C14_growing_file hash p qs file lens : (forall l, 0 <= hash l < 2 ^ 64) ->
  valid_file hash p qs file -> Sorted Z.le lens -> Forall (fun n => p <= n <= zlen file) lens ->
  exists r, ReadSchedule hash file lens (InitializeReader p)
            = Some (map (option_map (mk_chunk hash)) (expected_reads qs lens), r) /\ r_ok r = true.
Proof. exact (fun H => valid_schedule hash H p qs file lens). Qed.
(** What [expected_reads] says: the chunks returned are an initial part of the file, in order. *)
Theorem C14_expected qs lens :
  flat_map (fun o => match o with Some k => [k] | None => [] end) (expected_reads qs lens)
  = firstn (length (filter (fun o => match o with Some _ => true | None => false end) (expected_reads qs lens)))
           (map q_chunk qs).
Proof. exact (expected_reads_prefix qs lens). Qed.

Print Assumptions C07_block_overhead.
Print Assumptions C08_chunk_end.
Print Assumptions C09_write_padding.
Print Assumptions C09_padding_refuted.
Print Assumptions C10_chunk_header.
Print Assumptions C11_layout.
Print Assumptions C12_round_trip.
Print Assumptions C12_read_any_valid_file.
Print Assumptions C13_truncation.
Print Assumptions C14_growing_file.
Print Assumptions C14_expected.

(** ** The hypotheses are met *)
Definition toy_hash (l : list Z) : Z := fold_right (fun b a => (b + 31 * a + 7) mod 2 ^ 64) 0 l.
Lemma toy_hash_range l : 0 <= toy_hash l < 2 ^ 64.
Proof. destruct l; unfold toy_hash; cbn [fold_right]; [lia|]. apply Z.mod_pos_bound; lia. Qed.

Definition toy_chunks : list chunk_spec := [Chunk 114 2 7 [1;2;3]; Chunk 112 0 0 (zeros 500); Chunk 114 0 0 []].
Example toy_hyps : Forall chunk_ok toy_chunks /\ rooms (signature_chunk :: toy_chunks) + 64 < 2 ^ 64.
Proof. split; [repeat constructor; cbn; lia|vm_compute; reflexivity]. Qed.
(** A file which crosses a block boundary, written and read back by computation. *)
Example toy_run :
  match WriteChunks toy_hash (map (mk_chunk toy_hash) (signature_chunk :: [Chunk 114 3 9 (zeros 66000); Chunk 114 1 2 [5]])) 0 with
  | Some (file, e) => e =? 66169
  | None => false
  end = true.
Proof. vm_compute. reflexivity. Qed.
Example toy_valid : exists qs file, valid_file toy_hash 0 qs file /\ map q_chunk qs = signature_chunk :: toy_chunks.
Proof.
  destruct (C11_layout toy_hash (signature_chunk :: toy_chunks) 0 toy_hash_range) as (qs & out & e & W & Q & L & E).
  - lia.
  - left; reflexivity.
  - constructor; [unfold chunk_ok; cbn; lia|apply toy_hyps].
  - pose proof (proj2 toy_hyps). lia.
  - exists qs, out. split; [|exact Q].
    assert (ZO : zlen out = 687) by (vm_compute in W; injection W as <- _; vm_compute; reflexivity).
    constructor.
    + split; [lia|left; reflexivity].
    + assert (F : Forall chunk_ok (map q_chunk qs)) by (rewrite Q; constructor; [unfold chunk_ok; cbn; lia|apply toy_hyps]).
      rewrite Forall_forall in *. intros q Hq. apply F, in_map, Hq.
    + intros _. destruct qs; [exact I|]. cbn in Q. injection Q as ? ?. assumption.
    + exists [], out. split; [reflexivity|]. split; [reflexivity|]. rewrite Z.add_0_l in E. rewrite <- E. exact L.
    + lia.
Qed.
Example toy_padding : (fun padding pos => chunk_boundary pos /\ (64 <= padding /\ 65536 mod padding = 0) /\ pos mod padding <> 0) 4096 65530.
Proof. cbv beta. unfold chunk_boundary. repeat split; try reflexivity; try lia; right; reflexivity. Qed.
Example toy_schedule : Sorted Z.le [64; 64; 100; 300; 300; 687; 687].
Proof. repeat constructor; lia. Qed.
