(** The statements of Props/RecoverProps.v. *)
From Verif Require Import Base.Bytes Model.Endian Model.Block Model.Chunk Model.ChunkWriter Model.ChunkReader
  Spec.BlockSpec Spec.FileSpec Spec.ChunkLink Spec.RecoverSpec Proof.EndianProof Proof.BlockProof Proof.ChunkWriterProof
  Proof.ChunkReaderProof Proof.FileProof Proof.StaticRead Proof.AnyRead Proof.RecoverProof Proof.LocalProof.

Lemma credible_honest hash content : bytes content -> credible hash content ->
  forall K, 0 <= K -> K mod 65536 = 0 -> K + 24 <= zlen content -> blk_valid hash content K ->
    (bh_previous_chunk (blk_at content K) = 0 \/ 0 < bh_next_chunk (blk_at content K)) /\
    K + bh_next_chunk (blk_at content K) + 65536 <= 2 ^ 64.
Proof.
  intros B C K K0 K1 K2 V. assert (BY : bytes (blk_at content K)) by (apply bytes_ztake, bytes_zdrop; assumption).
  assert (ZL : zlen (blk_at content K) = 24) by (apply zlen_zslice; lia).
  destruct (bh_ranges _ BY) as [R1 R2]. apply C; try assumption. fold (blk_at content K).
  remember (blk_at content K) as b. unfold block_header_bytes. rewrite !le64_eq.
  unfold bh_previous_chunk, bh_next_chunk. unfold blk_valid in V. rewrite <- Heqb in V. unfold bh_computed_header_hash, bh_stored_header_hash in V.
  unfold zlen in ZL.
  rewrite !le8_inv by (try (apply (bytes_ztake 8)); try (apply (bytes_zdrop 8)); try (apply (bytes_zdrop 16)); try assumption; rewrite firstn_length, skipn_length; lia).
  assert (S16 : firstn 8 (skipn 16 b) = skipn 16 b) by (apply firstn_all2; rewrite skipn_length; lia).
  assert (E : firstn 8 (skipn 8 b) ++ firstn 8 (skipn 16 b) = skipn 8 b).
  { rewrite S16. change 16%nat with (8 + 8)%nat. rewrite skipn_add. apply firstn_skipn. }
  rewrite E, V. rewrite le8_inv; [symmetry; apply firstn_skipn| |].
  - apply (bytes_ztake 8). assumption.
  - rewrite firstn_length. lia.
Qed.

Theorem recovering_terminates hash content p fuel : bytes content -> zlen content < 2 ^ 62 -> credible hash content ->
  0 <= p <= zlen content -> chunk_boundary p \/ p < zlen content -> (length content + 3 <= fuel)%nat ->
  exists es r q, ReadAllRecovering hash fuel content (InitializeReader p) = Some (es, r) /\
    tiles p es q /\ q <= zlen content /\ r_ok r = true.
Proof. intros B L C. apply recovering_init; try assumption. apply credible_honest; assumption. Qed.
