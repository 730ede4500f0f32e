(** C46: CheckFileFormat and ReadSerializedMetadata. *)
From Verif Require Import Base.Bytes Model.Chunk Model.SimpleChunk Model.ChunkDecoder Model.RecordWriter Model.RecordReader Model.RecordMetadata Model.RecordTranspose
  Spec.FileSpec Spec.ChunkLink Spec.RecordsSpec Spec.CursorSpec Spec.CursorLink Spec.SessionSpec Spec.ReadSpec Proof.FileProof Proof.RecordReaderProof Proof.MetadataProof Props.RecordProps Props.TransposedFileProps.

Section Props.
  Variable hash : list Z -> Z.
  Variable compress : Z -> list Z -> list Z.
  Variable decompress : Z -> list Z -> option (list Z).
  Variable transpose_encode : options -> list (list Z) -> list Z.
  Variable transpose_decode : list Z -> Z -> Z -> option (list Z * list Z).
  Notation Sessions := (Sessions hash compress transpose_encode).
  Notation reader_run := (reader_run hash decompress transpose_decode).
  Notation CheckFileFormat := (RR_CheckFileFormat hash).
  Notation ReadSerializedMetadata := (RR_ReadSerializedMetadata hash transpose_decode).

  (** A file written by one or more sessions.  CheckFileFormat() of a new reader returns true.  ReadSerializedMetadata() of a new reader, or after
      CheckFileFormat(), returns the metadata of the first session's options (of no other session's), or nothing if there were none; it returns false only if there are neither
      metadata nor records.  Afterwards the reader is at the first record: all calls are answered as if the metadata had not been read. *)
  Theorem C46_metadata : (forall l, 0 <= hash l < 2 ^ 64) -> codecs compress decompress transpose_encode transpose_decode ->
    forall o cs ss, Forall session_ok ((o, cs) :: ss) -> sessions_size ((o, cs) :: ss) <= 2 ^ 62 ->
    exists rs file v, Sessions ((o, cs) :: ss) [] = Some (rs, file) /\
      records_of v = all_written ((o, cs) :: ss) /\ map Some (positions_of v) = all_positions ((o, cs) :: ss) rs /\ reads_as hash decompress transpose_decode file v /\
      exists d0, CheckFileFormat file NewRecordReader = Some (true, d0) /\
      (forall d, d = NewRecordReader \/ d = d0 ->
        exists b m d', ReadSerializedMetadata file d = Some (b, m, d') /\ rd_ok d' = true /\
          m = match o_metadata o with Some m => m | None => [] end /\ (b = false -> o_metadata o = None /\ all_written ((o, cs) :: ss) = []) /\
          forall calls, Forall (call_ok v (zlen file)) calls -> exists d'', reader_run file calls d' = Some (cursor_run v calls 0, d'') /\ rd_ok d'' = true).
  Proof. intros H C. exact (metadata_read hash H compress decompress transpose_encode transpose_decode C). Qed.

  (** CheckFileFormat() between any two sequences of calls does not change what these return; it does not fail, and returns
      false only if there are no more records. *)
  Theorem C46_check_any_time : (forall l, 0 <= hash l < 2 ^ 64) -> codecs compress decompress transpose_encode transpose_decode ->
    forall ss, Forall session_ok ss -> sessions_size ss <= 2 ^ 62 ->
    exists rs file v, Sessions ss [] = Some (rs, file) /\
      records_of v = all_written ss /\ map Some (positions_of v) = all_positions ss rs /\
      forall before after, Forall (call_ok v (zlen file)) before -> Forall (call_ok v (zlen file)) after ->
      exists d1 b d2 os d3, reader_run file before NewRecordReader = Some (cursor_run v before 0, d1) /\
        CheckFileFormat file d1 = Some (b, d2) /\ rd_ok d2 = true /\
        (b = false -> cursor_run v (before ++ [ReadNext]) 0 = cursor_run v before 0 ++ [Rec None None]) /\
        reader_run file after d2 = Some (os, d3) /\ rd_ok d3 = true /\
        cursor_run v (before ++ after) 0 = cursor_run v before 0 ++ os.
  Proof. intros H C. exact (check_any hash H compress decompress transpose_encode transpose_decode C). Qed.

  (** A file with valid chunks, the first being the file signature, the second a metadata chunk with valid hashes whose content cannot be decoded; [rest] are chunks with the records their
      decoding yields ([decodes]).  ReadSerializedMetadata() fails; Recover() reports exactly the region of the metadata chunk as skipped, and all records are read afterwards. *)
  Theorem C46_bad_metadata : (forall l, 0 <= hash l < 2 ^ 64) ->
    forall file q0 q rest, let qr := (q0, []) :: (q, []) :: rest in
    file_layout hash 0 (map fst qr) file (zlen file) -> zlen file <= 2 ^ 62 ->
    Forall (fun q => chunk_ok (q_chunk q)) (map fst qr) -> Forall (decodes hash decompress transpose_decode) qr ->
    q_chunk q0 = signature_chunk -> k_type (q_chunk q) = kFileMetadata -> transpose_decode (k_data (q_chunk q)) 1 (k_dsize (q_chunk q)) = None ->
    let v := map (fun x => (q_begin (fst x), snd x)) qr in
    exists d1 d2, ReadSerializedMetadata file NewRecordReader = Some (false, [], d1) /\ rd_ok d1 = false /\
      RR_Recover hash file d1 = Some (Some (q_begin q, q_end q), d2) /\ rd_ok d2 = true /\
      forall calls, Forall (call_ok v (zlen file)) calls -> exists d3, reader_run file calls d2 = Some (cursor_run v calls 0, d3) /\ rd_ok d3 = true.
  Proof. intros H. exact (bad_metadata hash H decompress transpose_decode). Qed.
End Props.
Print Assumptions C46_metadata.
Print Assumptions C46_check_any_time.
Print Assumptions C46_bad_metadata.

(** ** Examples *)
Notation tr_metadata := (RR_ReadSerializedMetadata toy_hash (untransposed toy_decompress)).
(** The metadata of the first session, not of the second; then the records. *)
Example tr_meta : match tr_metadata tr_file NewRecordReader with
  | Some (b, m, d) => b = true /\ m = [10; 3; 97; 98; 99] /\ option_map fst (RR_ReadAll toy_hash toy_decompress (untransposed toy_decompress) 20 tr_file d) = Some (all_written tr_sessions)
  | None => False end.
Proof. vm_compute. repeat split. Qed.
(** No metadata: a file of the last session only, and of no records at all. *)
Example tr_no_meta : map (fun ss => match Sessions toy_hash toy_compress toy_transpose ss [] with
    Some (_, f) => option_map fst (RR_ReadSerializedMetadata toy_hash toy_untranspose f NewRecordReader) | None => None end)
  [skipn 1 ex_sessions; [(MkOptions false kNone None None 0 0, [])]; [(MkOptions true kNone None None 0 128, [])]] = [Some (true, []); Some (false, []); Some (true, [])].
Proof. vm_compute. reflexivity. Qed.
(** After reading a record, reading metadata fails. *)
Example tr_late : match RR_ReadRecord toy_hash toy_decompress (untransposed toy_decompress) tr_file NewRecordReader with
  | Some (Some _, d) => match tr_metadata tr_file d with Some (b, _, d') => b = false /\ rd_ok d' = false | None => False end
  | _ => False end.
Proof. vm_compute. split; reflexivity. Qed.
(** The metadata chunk cannot be decoded: [untransposed] with a decompressor which fails. *)
Example tr_bad : match RR_ReadSerializedMetadata toy_hash (untransposed (fun _ _ => None)) tr_file NewRecordReader with
  | Some (b, m, d) => b = false /\ rd_ok d = false /\ match RR_Recover toy_hash tr_file d with
      | Some (Some r, d') => fst r = 64 /\ option_map fst (RR_ReadAll toy_hash toy_decompress (untransposed toy_decompress) 20 tr_file d') = Some (all_written tr_sessions)
      | _ => False end
  | None => False end.
Proof. vm_compute. repeat split. Qed.
(** A file as in C46_bad_metadata, with a chunk of two records. *)
Definition bad_chunks : list chunk_spec := [signature_chunk; Chunk kFileMetadata 0 3 [0; 200]; Chunk 114 2 3 [0; 2; 1; 2; 7; 8; 9]].
Example bad_file : exists file q0 q q1, let qr := (q0, []) :: (q, []) :: [(q1, [[7]; [8; 9]])] in
  file_layout toy_hash 0 (map fst qr) file (zlen file) /\ zlen file <= 2 ^ 62 /\
  Forall (fun q => chunk_ok (q_chunk q)) (map fst qr) /\ Forall (decodes toy_hash toy_decompress (untransposed toy_decompress)) qr /\
  q_chunk q0 = signature_chunk /\ k_type (q_chunk q) = kFileMetadata /\ untransposed toy_decompress (k_data (q_chunk q)) 1 (k_dsize (q_chunk q)) = None.
Proof.
  assert (OK : Forall chunk_ok bad_chunks) by (repeat (constructor; [repeat split; vm_compute; congruence|]); constructor).
  destruct (WriteChunks_layout toy_hash toy_hash_range bad_chunks 0 ltac:(lia) ltac:(left; reflexivity) OK ltac:(vm_compute; reflexivity)) as (qs & out & e & _ & QE & L & E & LE & _).
  destruct qs as [|q0 [|q [|q1 [|? ?]]]]; try discriminate QE. injection QE as E0 E1 E2. exists out, q0, q, q1. cbn [map fst].
  split; [rewrite E in L; exact L|]. split; [transitivity (0 + rooms bad_chunks); [lia|vm_compute; discriminate]|].
  split; [unfold bad_chunks in OK; rewrite <- E0, <- E1, <- E2 in OK; inversion OK as [|? ? O1 OK1]; inversion OK1 as [|? ? O2 OK2]; inversion OK2; constructor; [assumption|constructor; [assumption|constructor; [assumption|constructor]]]|].
  split; [|split; [exact E0|rewrite E1; split; [reflexivity|vm_compute; reflexivity]]].
  constructor; [|constructor; [|constructor; [|constructor]]]; unfold decodes; cbn [fst snd]; rewrite ?E0, ?E1, ?E2; split; vm_compute; reflexivity.
Qed.

Lemma grow_cases (read : list Z -> record_reader -> option (bool * list Z * record_reader)) c1 c2 :
  match read c1 NewRecordReader with
  | Some (false, [], d1) => rd_ok d1 = true /\ match read c2 d1 with Some (false, [], d2) => rd_ok d2 = false | _ => False end
  | _ => False end ->
  match read c2 NewRecordReader with Some (true, _ :: _, _) => True | _ => False end ->
  exists d1 d2, read c1 NewRecordReader = Some (false, [], d1) /\ rd_ok d1 = true /\ read c2 d1 = Some (false, [], d2) /\ rd_ok d2 = false /\
    exists m d3, read c2 NewRecordReader = Some (true, m, d3) /\ m <> [].
Proof.
  intros X Y. destruct (read c1 NewRecordReader) as [[[[|] [|? ?]] d1]|]; try contradiction X. destruct X as [X1 X2]. exists d1.
  destruct (read c2 d1) as [[[[|] [|? ?]] d2]|]; try contradiction X2. exists d2. split; [reflexivity|]. split; [exact X1|]. split; [reflexivity|]. split; [exact X2|].
  destruct (read c2 NewRecordReader) as [[[[|] [|z m]] d3]|]; try contradiction Y. exists (z :: m), d3. split; [reflexivity|discriminate].
Qed.
(** Reading metadata of a file which grows.  "false (when ok())" means that the source ends, and ReadRecord() may then be repeated when the source has grown.  ReadSerializedMetadata()
    may not: if the source ended after the file signature, the first call leaves the reader after the signature, and the second call fails although the metadata are there by then. *)
Theorem C46_growing_refuted : exists hash compress decompress transpose_encode transpose_decode ss rs file n,
  (forall l, 0 <= hash l < 2 ^ 64) /\ codecs compress decompress transpose_encode transpose_decode /\ Forall session_ok ss /\ sessions_size ss <= 2 ^ 62 /\
  Sessions hash compress transpose_encode ss [] = Some (rs, file) /\ 0 <= n < zlen file /\
  exists d1 d2, RR_ReadSerializedMetadata hash transpose_decode (ztake n file) NewRecordReader = Some (false, [], d1) /\ rd_ok d1 = true /\
    RR_ReadSerializedMetadata hash transpose_decode file d1 = Some (false, [], d2) /\ rd_ok d2 = false /\
    exists m d3, RR_ReadSerializedMetadata hash transpose_decode file NewRecordReader = Some (true, m, d3) /\ m <> [].
Proof.
  exists toy_hash, toy_compress, toy_decompress, toy_transpose, toy_untranspose, ex_sessions.
  destruct (Sessions toy_hash toy_compress toy_transpose ex_sessions []) as [[rs f]|] eqn:E; [|vm_compute in E; discriminate E]. exists rs, f, 100.
  assert (F : f = ex_file) by (unfold ex_file; rewrite E; reflexivity). subst f. clear E.
  destruct ex_sessions_ok as [S1 S2]. split; [exact toy_hash_range|]. split; [exact toy_codecs|]. split; [exact S1|]. split; [exact S2|]. split; [reflexivity|].
  split; [vm_compute; split; [discriminate|reflexivity]|].
  apply (grow_cases (RR_ReadSerializedMetadata toy_hash toy_untranspose) (ztake 100 ex_file) ex_file); vm_compute; [split; reflexivity|exact Logic.I].
Qed.
Print Assumptions C46_growing_refuted.
