(** C48: reading records from damaged files. *)
From Coq Require Import Permutation.
From Verif Require Import Base.Bytes Model.Chunk Model.SimpleChunk Model.ChunkReader Model.RecordWriter Model.RecordReader Model.RecordRecovery
  Model.TransposeEncoder Model.TransposeDecoder Model.RecordTranspose
  Spec.FileSpec Spec.ChunkLink Spec.RecoverSpec Spec.RecordsSpec Spec.CursorSpec Spec.SessionSpec Spec.RecordRecoverSpec Proof.RecordLocalProof
  Props.RecordProps Props.TransposedFileProps Props.TransposeDecodeProps.

(** C48, any content: as C17, for records.  On any content with credible block headers reading records with recovery (by calls of
    Recover(), or with a recovery function [recovery]) ends, with the reader ok(), and violates no assertion.  The records and the skipped
    regions are those of the chunks [es] a ChunkReader would see: all records of each chunk which can be decoded, and otherwise the region of
    the chunk.  Positions only go forward, and skipped regions are not empty. *)
Theorem C48_recovering : forall hash decompress transpose_decode content,
  (forall t l l', decompress t l = Some l' -> bytes l') -> sound_transposed transpose_decode ->
  bytes content -> zlen content < 2 ^ 62 -> credible hash content ->
  exists es rf q, ReadAllRecovering hash (length es + 1) content (InitializeReader 0) = Some (es, rf) /\ tiles 0 es q /\ q <= zlen content /\
    let records := flat_map (events_of decompress transpose_decode) es in
    forward 0 records q /\
    forall fuel, (length content < fuel)%nat ->
    (exists d, RR_ReadAllRecovering hash decompress transpose_decode fuel content NewRecordReader = Some (records, d) /\ rd_ok d = true) /\
    (forall recovery, exists d, ReadAllWith hash decompress transpose_decode recovery fuel content NewRecordReader = Some (until recovery records, d) /\ rd_ok d = true).
Proof. exact recovering_records. Qed.
Print Assumptions C48_recovering.

(** C48, local damage: as C16, for records.  A file written by any sessions ([qr]: its chunks with their records); the bytes [m] are replaced by
    any [m'] of the same length which does not accidentally match a hash.  Reading with recovery ends with ok(), returns records only with their
    original positions, in order, and all records of all chunks, except possibly some of the chunks which end after the beginning of the damage and begin
    before the first block boundary at least 63 bytes after the end of the damage; the positions of records which were not returned are in
    reported skipped regions. *)
Theorem C48_local : forall hash compress decompress transpose_encode transpose_decode,
  (forall l, 0 <= hash l < 2 ^ 64) -> codecs compress decompress transpose_encode transpose_decode ->
  (forall t l l', decompress t l = Some l' -> bytes l') -> sound_transposed transpose_decode ->
  forall ss, Forall session_ok ss -> sessions_size ss < 2 ^ 62 ->
  exists rs file (qr : list (placed * list (list Z))), Sessions hash compress transpose_encode ss [] = Some (rs, file) /\
    valid_file hash 0 (map fst qr) file /\ concat (map snd qr) = all_written ss /\
    all_positions ss rs = map Some (positions_of (map (fun x => (q_begin (fst x), snd x)) qr)) /\
    forall a m m' b, file = a ++ m ++ b -> zlen m' = zlen m -> bytes (a ++ m' ++ b) -> no_forgery hash file (a ++ m' ++ b) (map fst qr) ->
    exists es kept, (forall fuel, (length file < fuel)%nat ->
        (exists d, RR_ReadAllRecovering hash decompress transpose_decode fuel (a ++ m' ++ b) NewRecordReader = Some (es, d) /\ rd_ok d = true) /\
        (forall recovery, exists d, ReadAllWith hash decompress transpose_decode recovery fuel (a ++ m' ++ b) NewRecordReader = Some (until recovery es, d) /\ rd_ok d = true)) /\
      forward 0 es (zlen file) /\ reads es = flat_map (fun x => numbered (q_begin (fst x)) 0 (snd x)) kept /\
      selects (fun x => zlen a < q_end (fst x) /\ q_begin (fst x) < rup (zlen a + zlen m + 63)) qr kept /\
      (forall x i r, In x qr -> 0 <= i -> nth_error (snd x) (Z.to_nat i) = Some r ->
         In (Read (q_begin (fst x), i) r) es \/ exists b e, In (Lost b e) es /\ b <= q_begin (fst x) + i < e).
Proof. exact damaged_sessions. Qed.
Print Assumptions C48_local.

(** The modelled decoder of transposed chunks meets the assumption. *)
Theorem C48_sound_transposed : forall decompress, sound_transposed (TransposeDecode decompress).
Proof. intros decompress src num_records size limits values. exact (C47_sound decompress src num_records size limits values). Qed.
Print Assumptions C48_sound_transposed.

(** An example: the file of Props/TransposedFileProps.v (simple and transposed chunks, 2 sessions). *)
Definition rec_decompress (t : Z) (l : list Z) : option (list Z) := option_map (map (fun b => b mod 256)) (toy_decompress t l).
Example C48_hyps : (forall t l l', rec_decompress t l = Some l' -> bytes l') /\ codecs toy_compress rec_decompress (transposed toy_compress tr_order (fun _ => 5)) (TransposeDecode rec_decompress) /\
  sessions_size tr_sessions < 2 ^ 62.
Proof.
  split; [|split; [|vm_compute; reflexivity]].
  - intros t l l' E. unfold rec_decompress in E. destruct (toy_decompress t l) as [k|]; [|discriminate E]. injection E as <-. apply Forall_forall. intros x X. apply in_map_iff in X as (y & <- & _). unfold is_byte. pose proof (Z.mod_pos_bound y 256). lia.
  - apply (C41_codecs toy_compress rec_decompress tr_order (fun _ => 5)).
    + apply toy_codecs.
    + intros t l B. unfold rec_decompress. rewrite (cc_inverse _ _ _ _ toy_codecs t l B). cbn [option_map]. f_equal. rewrite <- (map_id l) at 2. apply map_ext_in. intros x X. apply Z.mod_small. unfold bytes in B. rewrite Forall_forall in B. exact (B x X).
    + apply toy_codecs.
    + intros t l. unfold tr_order. apply Permutation_sym, Permutation_rev.
Qed.
Definition rec_damaged (i : Z) : list Z := ztake i tr_file ++ map (fun b => (b + 1) mod 256) (zslice i 1 tr_file) ++ zdrop (i + 1) tr_file.
Definition rec_read (content : list Z) : option (list record_event) :=
  option_map fst (RR_ReadAllRecovering toy_hash rec_decompress (TransposeDecode rec_decompress) (S (length content)) content NewRecordReader).
(** A damaged data byte of a transposed chunk; a damaged chunk header. *)
Example C48_run : rec_read (rec_damaged 200) = Some [Lost 124 218; Read (218, 0) [10; 11]; Read (218, 1) []; Read (218, 2) [12]; Read (283, 0) [13]; Read (384, 0) [14];
    Read (512, 0) [20; 21; 22]; Read (512, 1) [23]] /\
  option_map reads (rec_read (rec_damaged 420)) = option_map (firstn 7) (rec_read tr_file) /\
  option_map (filter (fun e => match e with Lost _ _ => true | _ => false end)) (rec_read (rec_damaged 420)) = Some [Lost 384 560].
Proof. vm_compute. repeat split; reflexivity. Qed.
(** A recovery function which returns false. *)
Example C48_stop : option_map fst (ReadAllWith toy_hash rec_decompress (TransposeDecode rec_decompress) (fun _ => false) 600 (rec_damaged 300) NewRecordReader)
  = option_map (fun l => firstn 6 l ++ [Lost 283 560]) (rec_read tr_file).
Proof. vm_compute. reflexivity. Qed.
