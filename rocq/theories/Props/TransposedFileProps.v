(** C21-C28 hold of files with transposed chunks: the transposed encoding of Model/TransposeEncoder.v meets the assumptions of these theorems. *)
From Coq Require Import Permutation.
From Verif Require Import Base.Bytes Model.SimpleChunk Model.RecordWriter Model.RecordReader Model.TransposeEncoder Model.TransposeDecoder Model.RecordTranspose
  Spec.RecordsSpec Spec.CursorSpec Spec.SessionSpec Spec.ReadSpec Proof.TransposeSize Props.RecordProps.

Theorem C41_codecs : forall compress decompress order bucket_size,
  (forall t l, bytes l -> bytes (compress t l)) -> (forall t l, bytes l -> decompress t (compress t l) = Some l) ->
  (forall t l, bytes l -> zlen (compress t l) <= 2 * zlen l + 2 ^ 7) -> (forall t l, Permutation (order t l) l) ->
  codecs compress decompress (transposed compress order bucket_size) (untransposed decompress).
Proof. exact transposed_codecs. Qed.
Print Assumptions C41_codecs.

(** C21 without assumptions about the transposed encoding: sequences of WriteRecord and Flush by writers with any options, each appending to
    the file left by the previous one: all calls succeed; reading returns the records and then the end of file, and Close() succeeds. *)
Theorem C21_round_trip_transposed : forall hash compress decompress order bucket_size,
  (forall l, 0 <= hash l < 2 ^ 64) ->
  (forall t l, bytes l -> bytes (compress t l)) -> (forall t l, bytes l -> decompress t (compress t l) = Some l) ->
  (forall t l, bytes l -> zlen (compress t l) <= 2 * zlen l + 2 ^ 7) -> (forall t l, Permutation (order t l) l) ->
  forall ss, Forall session_ok ss -> sessions_size ss <= 2 ^ 62 ->
  exists rs file d, Sessions hash compress (transposed compress order bucket_size) ss [] = Some (rs, file) /\ all_true rs /\
    map (fun r => length (fst r)) rs = map (fun s => length (snd s)) ss /\
    RR_ReadAll hash decompress (untransposed decompress) (S (length (all_written ss))) file NewRecordReader = Some (all_written ss, d) /\
    rd_ok d = true /\ fst (RR_Close d) = true.
Proof.
  intros hash compress decompress order bucket_size H C1 C2 C3 C4.
  exact (C21_round_trip hash compress decompress _ _ H (C41_codecs compress decompress order bucket_size C1 C2 C3 C4)).
Qed.
Print Assumptions C21_round_trip_transposed.

(** An example: the sessions of Props/RecordProps.v (the first with transposed chunks and metadata), with a message added. *)
Definition tr_order (t : nat) (l : list (nat * dest_info)) : list (nat * dest_info) := rev l.
Definition tr_sessions : list (options * list call) :=
  (MkOptions true kZstd (Some 60) (Some [10; 3; 97; 98; 99]) 0 0, [CallWrite [8; 150; 1; 18; 3; 97; 98; 99]; CallWrite [1; 2]; CallWrite [8; 151; 1; 34; 2; 8; 7]]) :: ex_sessions.
Definition tr_file : list Z := match Sessions toy_hash toy_compress (transposed toy_compress tr_order (fun _ => 5)) tr_sessions [] with Some (_, f) => f | None => [] end.
Example tr_read : option_map fst (RR_ReadAll toy_hash toy_decompress (untransposed toy_decompress) 20 tr_file NewRecordReader) = Some (all_written tr_sessions) /\ 400 < zlen tr_file.
Proof. split; vm_compute; reflexivity. Qed.
Example tr_hyps : Forall session_ok tr_sessions /\ sessions_size tr_sessions <= 2 ^ 62 /\ (forall t l, bytes l -> zlen (toy_compress t l) <= 2 * zlen l + 2 ^ 7).
Proof.
  split; [|split; [vm_compute; discriminate|apply toy_codecs]]. constructor; [|apply ex_sessions_ok]. split.
  - constructor; cbn [fst o_compression o_chunk_size o_metadata o_initial_padding o_final_padding]; try (left; lia); try reflexivity; try lia.
    + intros _. vm_compute. discriminate.
    + split; [|reflexivity]. repeat (constructor; [unfold is_byte; lia|]). constructor.
  - repeat (constructor; [split; [repeat (constructor; [unfold is_byte; lia|]); constructor|intros _; vm_compute; reflexivity]|]). constructor.
Qed.
