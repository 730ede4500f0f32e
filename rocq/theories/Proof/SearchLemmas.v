(** Searching a file left by writers. *)
From Coq Require Import Sorted.
From Verif Require Import Base.Bytes Model.SimpleChunk Model.ChunkReader Model.RecordWriter Model.RecordReader Model.BinarySearch Model.RecordSearch Spec.RecordsSpec Spec.CursorSpec Spec.CursorLink Spec.SessionSpec Spec.ReadSpec Spec.BinarySearchSpec
  Proof.FileProof Proof.RecordReaderProof Proof.RecordWriterProof Proof.SessionProof Proof.RecordLemmas Proof.SearchProof.

Lemma searching hash (hash_range : forall l, 0 <= hash l < 2 ^ 64) compress decompress transpose_encode transpose_decode
  (CODECS : codecs compress decompress transpose_encode transpose_decode) ss : Forall session_ok ss -> sessions_size ss <= 2 ^ 62 ->
  exists rs file v, Sessions hash compress transpose_encode ss [] = Some (rs, file) /\
    records_of v = all_written ss /\ map Some (positions_of v) = all_positions ss rs /\
    forall f, monotone (classify f (all_written ss)) 0 (zlen (all_written ss)) ->
    forall cs, Forall (call_ok v (zlen file)) cs ->
    exists d o i d', reader_run hash decompress transpose_decode file cs NewRecordReader = Some (cursor_run v cs 0, d) /\
      RR_Search hash decompress transpose_decode file (fun r => Some (f r)) d = Some (Some o, d') /\
      found_ok (classify f (all_written ss)) 0 (zlen (all_written ss)) (o, i) /\
      forall cs', Forall (call_ok v (zlen file)) cs' ->
      exists d'', reader_run hash decompress transpose_decode file cs' d' = Some (cursor_run v cs' i, d'') /\ rd_ok d'' = true.
Proof.
  intros OK SZ. destruct (sessions_file hash hash_range compress decompress transpose_encode transpose_decode CODECS ss OK SZ) as (rs & file & qr & ps & H1 & FO & _ & _ & _ & H5 & H6 & H4 & _).
  exists rs, file, (vw qr). split; [exact H1|]. split; [exact H4|]. split; [rewrite H6; symmetry; exact H5|]. intros f M cs C.
  destruct (file_chain hash hash_range decompress transpose_decode file qr FO) as [CH SO]. pose proof (f_size _ _ _ _ _ FO) as SZF. assert (FL : zlen file + 64 <= 2 ^ 64) by lia.
  destruct (run_rel hash hash_range decompress transpose_decode file qr CH SO FL (f_dec _ _ _ _ _ FO) cs 0 NewRecordReader C (initial_rel hash hash_range file qr CH SO)) as (d & i0 & R0 & RL).
  rewrite <- H4 in M |- *.
  destruct (search_records_by hash hash_range decompress transpose_decode file qr CH SO FL (f_dec _ _ _ _ _ FO) f i0 d RL M) as (o & i & d' & R1 & RL' & FD).
  exists d, o, i, d'. split; [exact R0|]. split; [exact R1|]. split; [exact FD|]. intros cs' C'.
  apply (run_refines hash hash_range decompress transpose_decode file qr CH SO FL (f_dec _ _ _ _ _ FO)); assumption.
Qed.
