(** C21-C25: records written by RecordWriter are read by RecordReader. *)
From Coq Require Import Sorted.
From Verif Require Import Base.Bytes Model.SimpleChunk Model.RecordWriter Model.RecordReader Spec.RecordsSpec Spec.CursorSpec Spec.CursorLink Spec.SessionSpec Spec.ReadSpec Proof.RecordLemmas.

Section Props.
  (* HighwayHash, compression libraries and the transposed encoding are arbitrary functions. *)
  Variable hash : list Z -> Z.
  Variable compress : Z -> list Z -> list Z.
  Variable decompress : Z -> list Z -> option (list Z).
  Variable transpose_encode : options -> list (list Z) -> list Z.
  Variable transpose_decode : list Z -> Z -> Z -> option (list Z * list Z).
  Notation Sessions := (Sessions hash compress transpose_encode).
  Notation RunCalls := (RunCalls hash compress transpose_encode).
  Notation ReadAll := (RR_ReadAll hash decompress transpose_decode).
  Notation reader_run := (reader_run hash decompress transpose_decode).

  (** C21: sequences of WriteRecord and Flush by writers with any options, each appending to the file left by the previous
      one: all calls succeed; reading returns the records and then the end of file, and Close() succeeds. *)
  Theorem C21_round_trip : (forall l, 0 <= hash l < 2 ^ 64) -> codecs compress decompress transpose_encode transpose_decode ->
    forall ss, Forall session_ok ss -> sessions_size ss <= 2 ^ 62 ->
    exists rs file d, Sessions ss [] = Some (rs, file) /\ all_true rs /\
      map (fun r => length (fst r)) rs = map (fun s => length (snd s)) ss /\
      ReadAll (S (length (all_written ss))) file NewRecordReader = Some (all_written ss, d) /\ rd_ok d = true /\ fst (RR_Close d) = true.
  Proof. intros H C ss. exact (round_trip hash H compress decompress transpose_encode transpose_decode C ss). Qed.

  (** C22: [w1] is the writer just after a Flush, [w2] the same writer after some more calls.
      - What was written stays; more is only appended.
      - Whatever bytes follow the flushed ones, a reader returns the records written before Flush, with their positions.
      - If the file is cut anywhere, reading it returns some of the first records, and then the end of file without
        a failure.  If all flushed bytes are there, then these are at least the records written before Flush. *)
  Theorem C22_flushed_survive : (forall l, 0 <= hash l < 2 ^ 64) -> codecs compress decompress transpose_encode transpose_decode ->
    forall ss o cs more, Forall session_ok (ss ++ [(o, cs ++ CallFlush :: more)]) -> sessions_size (ss ++ [(o, cs ++ CallFlush :: more)]) <= 2 ^ 62 ->
    exists rs file w0 os1 w1 os2 w2 v, Sessions ss [] = Some (rs, file) /\ NewRecordWriter hash transpose_encode o file = Some (true, w0) /\
      RunCalls (cs ++ [CallFlush]) w0 = Some (os1, w1) /\ RunCalls more w1 = Some (os2, w2) /\
      Forall (fun ob => result_of ob = true) (os1 ++ os2) /\
      records_of v = all_written ss ++ written cs /\
      map Some (positions_of v) = all_positions (ss ++ [(o, cs ++ [CallFlush])]) (rs ++ [(os1, true)]) /\
      (exists out, w_dest w2 = w_dest w1 ++ out) /\
      (forall tail, exists d, reader_run (w_dest w1 ++ tail) (repeat ReadNext (length (records_of v))) NewRecordReader
         = Some (record_replies v, d) /\ rd_ok d = true) /\
      (forall n, 0 <= n <= zlen (w_dest w2) -> exists k d, let got := firstn k (all_written ss ++ written cs ++ written more) in
         ReadAll (S (length got)) (ztake n (w_dest w2)) NewRecordReader = Some (got, d) /\ rd_ok d = true /\
         (zlen (w_dest w1) <= n -> (length (all_written ss ++ written cs) <= k)%nat)).
  Proof. intros H C ss o cs more. exact (flushed hash H compress decompress transpose_encode transpose_decode C ss o cs more). Qed.

  (** C23-C25, all together: the file is seen by a reader as a list of records with increasing positions, which
      are those LastPos() returned, and a cursor in the list (Spec/CursorSpec.v).
      Pos() after call [j] of session [i] is a position which can be sought to; this leads just after the records written until then.
      LastPos() after any call is the position of the last record written by the session. *)
  Theorem C23_cursor : (forall l, 0 <= hash l < 2 ^ 64) -> codecs compress decompress transpose_encode transpose_decode ->
    forall ss, Forall session_ok ss -> sessions_size ss <= 2 ^ 62 ->
    exists rs file v, Sessions ss [] = Some (rs, file) /\
      records_of v = all_written ss /\ map Some (positions_of v) = all_positions ss rs /\ StronglySorted pos_lt (positions_of v) /\
      reads_as hash decompress transpose_decode file v /\
      (forall i j os b ob, nth_error rs i = Some (os, b) -> nth_error os j = Some ob ->
         (call_ok v (zlen file) (SeekToPos (pos_of ob)) /\ count (fun q => before q (pos_of ob)) (positions_of v) = records_before ss i j) /\
         exists o cs, nth_error ss i = Some (o, cs) /\ last_of ob = List.last (write_positions (firstn (S j) cs) (firstn (S j) os)) None).
  Proof. intros H C ss. exact (reading hash H compress decompress transpose_encode transpose_decode C ss). Qed.

  (** C23: whatever calls were made before, Seek(LastPos()) makes the next ReadRecord return that very record, and last_pos() is
      the same position. *)
  Theorem C23_seek_to_record file v : reads_as hash decompress transpose_decode file v -> StronglySorted pos_lt (positions_of v) ->
    forall i p, nth_error (positions_of v) i = Some p ->
    forall cs, Forall (call_ok v (zlen file)) cs ->
    exists d, reader_run file (cs ++ [SeekToPos p; ReadNext]) NewRecordReader
      = Some (cursor_run v cs 0 ++ [Flag true; Rec (nth_error (records_of v) i) (Some p)], d) /\ rd_ok d = true.
  Proof. intros R. exact (seek_to_record hash decompress transpose_decode file v R). Qed.

  (** C24: Seek(n) makes the next ReadRecord return the first record at or after [n]. *)
  Theorem C24_numeric_seek file v : reads_as hash decompress transpose_decode file v -> StronglySorted pos_lt (positions_of v) ->
    forall n, 0 <= n <= zlen file ->
    forall cs, Forall (call_ok v (zlen file)) cs ->
    (forall i p, nth_error (positions_of v) i = Some p -> n <= numeric p -> 
       (forall j q, (j < i)%nat -> nth_error (positions_of v) j = Some q -> numeric q < n) ->
       exists d, reader_run file (cs ++ [SeekNumeric n; ReadNext]) NewRecordReader
         = Some (cursor_run v cs 0 ++ [Flag true; Rec (nth_error (records_of v) i) (Some p)], d) /\ rd_ok d = true) /\
    ((forall j q, nth_error (positions_of v) j = Some q -> numeric q < n) ->
       exists d, reader_run file (cs ++ [SeekNumeric n; ReadNext]) NewRecordReader
         = Some (cursor_run v cs 0 ++ [Flag true; Rec None None], d) /\ rd_ok d = true).
  Proof. intros R. exact (numeric_seek hash decompress transpose_decode file v R). Qed.

  (** C25: whatever calls were made before, there is a record number [i] such that ReadRecord would return record [i]; if this is 0 then SeekBack
      returns false, otherwise it returns true, and then ReadRecord returns record [i - 1]. *)
  Theorem C25_seek_back file v : reads_as hash decompress transpose_decode file v ->
    forall cs, Forall (call_ok v (zlen file)) cs ->
    exists i, (i <= length (records_of v))%nat /\
      (exists d, reader_run file (cs ++ [ReadNext]) NewRecordReader
         = Some (cursor_run v cs 0 ++ [Rec (nth_error (records_of v) i) (nth_error (positions_of v) i)], d) /\ rd_ok d = true) /\
      (exists d, reader_run file (cs ++ [StepBack; ReadNext]) NewRecordReader
         = Some (cursor_run v cs 0 ++ [Flag (0 <? i)%nat; Rec (nth_error (records_of v) (i - 1)) (nth_error (positions_of v) (i - 1))], d) /\ rd_ok d = true) /\
      (exists d, reader_run file (cs ++ repeat StepBack (S i)) NewRecordReader
         = Some (cursor_run v cs 0 ++ repeat (Flag true) i ++ [Flag false], d) /\ rd_ok d = true).
  Proof. intros R. exact (seek_back hash decompress transpose_decode file v R). Qed.
End Props.
Print Assumptions C21_round_trip.
Print Assumptions C22_flushed_survive.
Print Assumptions C23_cursor.
Print Assumptions C23_seek_to_record.
Print Assumptions C24_numeric_seek.
Print Assumptions C25_seek_back.

(** ** The assumptions can be met *)
Definition toy_hash (l : list Z) : Z := fold_left (fun a b => (a * 31 + b + 1) mod 2 ^ 64) l 7.
Definition toy_compress (t : Z) (l : list Z) : list Z := map (fun b => (255 - b) mod 256) l.
Definition toy_decompress (t : Z) (l : list Z) : option (list Z) := Some (toy_compress t l).
(** 1 and a byte, or 0 at the end of a record. *)
Definition toy_transpose (o : options) (rs : list (list Z)) : list Z := flat_map (fun r => flat_map (fun b => [1; b]) r ++ [0]) rs.
Fixpoint toy_parse (fuel : nat) (l : list Z) : list (list Z) :=
  match fuel, l with
  | S f, 1 :: b :: l' => match toy_parse f l' with r :: rs => (b :: r) :: rs | [] => [] end
  | S f, _ :: l' => [] :: toy_parse f l'
  | _, _ => []
  end.
Definition toy_untranspose (l : list Z) (_ _ : Z) : option (list Z * list Z) := let rs := toy_parse (length l) l in Some (ends 0 rs, concat rs).
Lemma toy_parse_ok rs : forall o fuel, (length (toy_transpose o rs) <= fuel)%nat -> toy_parse fuel (toy_transpose o rs) = rs.
Proof.
  induction rs as [|r rs IH]; intros o fuel L; [destruct fuel; reflexivity|]. cbn [toy_transpose flat_map] in *. fold (toy_transpose o rs) in *.
  revert fuel L. induction r as [|b r IHr]; intros fuel L.
  - cbn [flat_map app length] in *. destruct fuel as [|fuel]; [lia|]. cbn [toy_parse]. rewrite (IH o) by lia. reflexivity.
  - cbn [flat_map app length] in *. destruct fuel as [|fuel]; [lia|]. cbn [toy_parse]. rewrite IHr by lia. reflexivity.
Qed.
Example toy_codecs : codecs toy_compress toy_decompress toy_transpose toy_untranspose.
Proof.
  constructor.
  - intros t l _. apply Forall_forall. intros x X. apply in_map_iff in X as (b & <- & _). apply Z.mod_pos_bound. lia.
  - intros t l B. unfold toy_decompress. f_equal. induction B as [|b l H B IH]; [reflexivity|]. cbn [toy_compress map] in *. f_equal; [|exact IH]. unfold is_byte in H. rewrite !Z.mod_small by (rewrite ?Z.mod_small; lia). lia.
  - intros t l _. unfold toy_compress. rewrite zlen_map. pose proof (zlen_nonneg l). lia.
  - intros o rs _ _ _. unfold toy_untranspose. rewrite toy_parse_ok by lia. reflexivity.
  - intros o rs _ _ _. assert (zlen (toy_transpose o rs) <= 2 * (zlen rs + zlen (concat rs))).
    { induction rs as [|r rs IH]; [cbn; lia|]. unfold toy_transpose in *. cbn [flat_map concat]. rewrite !zlen_app, (zlen_cons r rs). change (zlen [0]) with 1.
      assert (zlen (flat_map (fun b => [1; b]) r) = 2 * zlen r); [|lia]. clear. induction r as [|b r IH]; [reflexivity|]. cbn [flat_map]. rewrite zlen_app, (zlen_cons b r), IH. change (zlen [1; b]) with 2. lia. }
    pose proof (zlen_nonneg rs). pose proof (zlen_nonneg (concat rs)). lia.
Qed.
Example toy_hash_range : forall l, 0 <= toy_hash l < 2 ^ 64.
Proof.
  intros l. unfold toy_hash. assert (G : forall l a, 0 <= a < 2 ^ 64 -> 0 <= fold_left (fun a b => (a * 31 + b + 1) mod 2 ^ 64) l a < 2 ^ 64).
  { induction l0 as [|b l0 IH]; intros a A; cbn [fold_left]; [exact A|]. apply IH, Z.mod_pos_bound. lia. } apply G. lia.
Qed.

(** Two sessions: simple chunks, compressed, small; transposed chunks with metadata and padding. *)
Definition ex_sessions : list (options * list call) :=
  [(MkOptions true kZstd (Some 30) (Some [1;2;3]) 0 64, [CallWrite [10;11]; CallWrite []; CallWrite [12]; CallWrite [13]; CallFlush; CallWrite [14]]);
   (MkOptions false kNone None None 128 0, [CallFlush; CallWrite [20;21;22]; CallWrite [23]])].
Example ex_sessions_ok : Forall session_ok ex_sessions /\ sessions_size ex_sessions <= 2 ^ 62.
Proof.
  split; [|vm_compute; discriminate].
  assert (P : forall p, In p [0; 64; 128] -> padding_ok p).
  { intros p [<- | [<- | [<- | []]]]; [left; lia|right; left; split; [lia|reflexivity]|right; left; split; [lia|reflexivity]]. }
  assert (C : Forall (fun s => Forall (write_ok (fst s)) (snd s)) ex_sessions) by (repeat constructor; try (unfold is_byte; lia); intros _; vm_compute; reflexivity).
  unfold ex_sessions in *. inversion C as [|? ? C1 C']; subst. inversion C' as [|? ? C2 _]; subst.
  constructor; [|constructor; [|constructor]]; (split; [constructor|assumption]); cbn [fst o_compression o_chunk_size o_metadata o_initial_padding o_final_padding];
    solve [apply P; cbn; tauto | reflexivity | lia | exact I | intros _; vm_compute; discriminate | discriminate | split; [repeat constructor; unfold is_byte; lia|reflexivity]].
Qed.
Definition ex_file : list Z := match Sessions toy_hash toy_compress toy_transpose ex_sessions [] with Some (_, f) => f | None => [] end.
Example ex_positions : match Sessions toy_hash toy_compress toy_transpose ex_sessions [] with Some (rs, _) => all_positions ex_sessions rs | None => [] end
  = [Some (111, 0); Some (111, 1); Some (111, 2); Some (160, 0); Some (256, 0); Some (384, 0); Some (384, 1)].
Proof. vm_compute. reflexivity. Qed.
Example ex_reading : option_map fst (reader_run toy_hash toy_decompress toy_untranspose ex_file
    [ReadNext; SeekToPos (384, 0); ReadNext; StepBack; StepBack; ReadNext; SeekNumeric 112; ReadNext; SeekNumeric 300; ReadNext; ReadNext; ReadNext] NewRecordReader)
  = Some [Rec (Some [10;11]) (Some (111, 0)); Flag true; Rec (Some [20;21;22]) (Some (384, 0)); Flag true; Flag true; Rec (Some [14]) (Some (256, 0));
          Flag true; Rec (Some []) (Some (111, 1)); Flag true; Rec (Some [20;21;22]) (Some (384, 0)); Rec (Some [23]) (Some (384, 1)); Rec None None].
Proof. vm_compute. reflexivity. Qed.
Example ex_cut : map (fun n => option_map fst (RR_ReadAll toy_hash toy_decompress toy_untranspose 9 (ztake n ex_file) NewRecordReader)) [110; 160; 200; 320; 400; 1000]
  = [Some []; Some [[10;11]; []; [12]]; Some [[10;11]; []; [12]]; Some [[10;11]; []; [12]; [13]; [14]]; Some [[10;11]; []; [12]; [13]; [14]]; Some [[10;11]; []; [12]; [13]; [14]; [20;21;22]; [23]]].
Proof. vm_compute. reflexivity. Qed.
