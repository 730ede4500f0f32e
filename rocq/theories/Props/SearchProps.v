(** C30-C31: binary search; searching records. *)
From Coq Require Import List.
From Verif Require Import Base.Bytes Model.SimpleChunk Model.RecordWriter Model.RecordReader Model.BinarySearch Model.RecordSearch
  Spec.RecordsSpec Spec.CursorSpec Spec.CursorLink Spec.SessionSpec Spec.BinarySearchSpec Proof.BinarySearchProof Proof.SearchLemmas Props.RecordProps.

(** The state of [logged test] is the state of [test] together with the history of calls. *)
Theorem C30_logged {St} (test : Z -> St -> ordering * St) p st log :
  logged test p (st, log) = Some (fst (test p st), (snd (test p st), log ++ [(p, fst (test p st))])).
Proof. unfold logged. cbn. destruct (test p st); reflexivity. Qed.
(** Whatever [test()] does, the search ends; the history of calls is as documented; if some [test()] returned equivalent or
    greater, then this is the last such position; otherwise it is the end of the range. *)
Theorem C30_history {St} (test : Z -> St -> ordering * St) low high st fuel : 2 * Z.max 0 (high - low) + 1 <= Z.of_nat fuel ->
  exists res st' log, DefaultBinarySearch (logged test) fuel low high (st, []) = Some (res, (st', log)) /\ history_ok low high log /\
    match last_found log with Some r => res = r | None => snd res = high /\ ge0 (fst res) = false end.
Proof.
  intros FU. destruct (default_search test low high st fuel FU) as (res & st' & log & E & O & _). exists res, st', log. split; [exact E|].
  split; [apply (outcome_history _ _ _ _ _ O)|apply (outcome_last _ _ _ _ _ O)].
Qed.
(** If [test()] classifies positions by [t], which is monotone, then the result is as documented. *)
Theorem C30_result {St} (test : Z -> St -> ordering * St) (t : Z -> ordering) low high st fuel : 2 * Z.max 0 (high - low) + 1 <= Z.of_nat fuel ->
  (forall p s, fst (test p s) = t p) -> monotone t low high ->
  exists res st', DefaultBinarySearch (logged test) fuel low high (st, []) = Some (res, st') /\ found_ok t low high res.
Proof.
  intros FU T M. destruct (default_search test low high st fuel FU) as (res & st' & log & E & O & F). exists res, (st', log). split; [exact E|].
  apply (default_found t low high res log O (F t T) M).
Qed.
(** If no position is unordered then the number of tests is at most the logarithm of the size of the range, plus 1. *)
Theorem C30_cost {St} (test : Z -> St -> ordering * St) low high st fuel : 2 * Z.max 0 (high - low) + 1 <= Z.of_nat fuel ->
  (forall p s, low <= p < high -> fst (test p s) <> Unordered) ->
  exists res st' log, DefaultBinarySearch (logged test) fuel low high (st, []) = Some (res, (st', log)) /\
    (log = [] \/ Z.of_nat (length log) <= Z.log2 (high - low) + 1).
Proof.
  intros FU NU. destruct (default_search test low high st fuel FU) as (res & st' & log & E & _). exists res, st', log. split; [exact E|].
  destruct (search_cost test low high NU fuel low high _ _ _ _ _ _ (Z.le_refl _) (Z.le_refl _) E) as (n & L & N). cbn in L.
  destruct log as [|e log]; [left; reflexivity|right]. destruct N as [-> |N]; [discriminate L|]. rewrite L.
  destruct n as [|n]; [discriminate L|]. enough (Z.of_nat n <= Z.log2 (high - low)) by lia.
  rewrite Nat2Z.inj_succ, Z.pow_succ_r in N by lia. apply Z.log2_le_pow2; [|lia]. pose proof (Z.pow_pos_nonneg 2 (Z.of_nat n)). lia.
Qed.
(** The variant with cancellation returns nullopt if and only if a [test()] did, which was then the last one. *)
Theorem C30_cancel {St} (test : Z -> St -> option ordering * St) low high st fuel : 2 * Z.max 0 (high - low) + 1 <= Z.of_nat fuel ->
  exists res st' log, BinarySearch_cancel DefaultMiddle DefaultEmpty (logged_cancel test) fuel low high (st, []) = Some (res, (st', log)) /\
    history_ok low high (map answered log) /\
    match res with
    | None => exists a p, log = a ++ [(p, None)]
    | Some r => Forall (fun e => snd e <> None) log /\ match last_found (map answered log) with Some r' => r = r' | None => snd r = high /\ ge0 (fst r) = false end
    end.
Proof.
  intros FU. destruct (cancel_search test low high st fuel FU) as (res & st' & log & E & H & M). exists res, st', log. split; [exact E|]. split; [exact H|].
  destruct res; [|exact M]. destruct M as [A O]. split; [exact A|]. apply (outcome_last _ _ _ _ _ O).
Qed.
Print Assumptions C30_history.
Print Assumptions C30_result.
Print Assumptions C30_cost.
Print Assumptions C30_cancel.

(** Squares around 50, of even numbers only. *)
Definition ex_test (p : Z) : ordering := if Z.odd p then Unordered else if p * p <? 50 then Less else Greater.
Example ex_monotone : monotone ex_test 0 100.
Proof.
  intros p q P Q. unfold ex_test. destruct (Z.odd p), (Z.odd q); try (repeat split; discriminate).
  destruct (Z.ltb_spec (p * p) 50), (Z.ltb_spec (q * q) 50); repeat split; try discriminate; intros; nia.
Qed.
Example C30_instance : DefaultBinarySearch (logged (fun p (st : unit) => (ex_test p, st))) 201 0 100 (tt, []) =
  Some ((Greater, 8), (tt, [(50, Greater); (25, Unordered); (26, Greater); (12, Greater); (6, Less); (9, Unordered); (10, Greater); (8, Greater); (7, Unordered)])).
Proof. vm_compute. reflexivity. Qed.

(** C31: in a file left by any sequence of writers, whatever calls were made before, if [test()] classifies records monotonically,
    then Search() returns an ordering [o] and moves the reader to record [i] (the end of file if [i] is the number of records), as documented
    ([found_ok], Spec/BinarySearchSpec.v): after that all calls are answered as by a cursor at [i]. *)
Theorem C31_search hash compress decompress transpose_encode transpose_decode :
  (forall l, 0 <= hash l < 2 ^ 64) -> codecs compress decompress transpose_encode transpose_decode ->
  forall ss, Forall session_ok ss -> sessions_size ss <= 2 ^ 62 ->
  exists rs file v, Sessions hash compress transpose_encode ss [] = Some (rs, file) /\
    records_of v = all_written ss /\ map Some (positions_of v) = all_positions ss rs /\
    forall f, monotone (classify f (all_written ss)) 0 (zlen (all_written ss)) ->
    forall cs, Forall (call_ok v (zlen file)) cs ->
    exists d o i d', reader_run hash decompress transpose_decode file cs NewRecordReader = Some (cursor_run v cs 0, d) /\
      RR_Search hash decompress transpose_decode file (fun r => Some (f r)) d = Some (Some o, d') /\
      found_ok (classify f (all_written ss)) 0 (zlen (all_written ss)) (o, i) /\
      forall cs', Forall (call_ok v (zlen file)) cs' ->
      exists d'', reader_run hash decompress transpose_decode file cs' d' = Some (cursor_run v cs' i, d'') /\ rd_ok d'' = true.
Proof. intros H C. exact (searching hash H compress decompress transpose_encode transpose_decode C). Qed.
Print Assumptions C31_search.

(** The file of Props/RecordProps.v has records 10 11; empty; 12; 13; 14; 20 21 22; 23. *)
Definition ex_order (limit : Z) (r : list Z) : ordering :=
  match r with [] => Unordered | b :: _ => if b <? limit then Less else if b =? limit then Equivalent else Greater end.
Example ex_order_monotone : monotone (classify (ex_order 15) (all_written ex_sessions)) 0 (zlen (all_written ex_sessions)).
Proof.
  assert (G : forall p, 0 <= p < 7 -> p = 0 \/ p = 1 \/ p = 2 \/ p = 3 \/ p = 4 \/ p = 5 \/ p = 6) by (intros; lia).
  change (zlen (all_written ex_sessions)) with 7. intros p q P Q. apply G in P. apply G in Q.
  decompose [or] P; decompose [or] Q; subst; repeat split; intros A B; try (vm_compute in A; discriminate A); try (vm_compute in B; discriminate B); lia.
Qed.
Example C31_instance : map (fun limit => match RR_Search toy_hash toy_decompress toy_untranspose ex_file (fun r => Some (ex_order limit r)) NewRecordReader with
    | Some (Some o, d) => Some (o, option_map fst (reader_run toy_hash toy_decompress toy_untranspose ex_file [ReadNext] d))
    | _ => None end) [0; 12; 15; 23; 24]
  = [Some (Greater, Some [Rec (Some [10; 11]) (Some (111, 0))]); Some (Equivalent, Some [Rec (Some [12]) (Some (111, 2))]);
     Some (Greater, Some [Rec (Some [20; 21; 22]) (Some (384, 0))]); Some (Equivalent, Some [Rec (Some [23]) (Some (384, 1))]);
     Some (Less, Some [Rec None None])].
Proof. vm_compute. reflexivity. Qed.

(** For a truncated file the documented result is not ensured: all records are before the desired position, but the result is [Greater]. *)
Theorem C31_truncated_refuted : exists n, 
  option_map fst (RR_ReadAll toy_hash toy_decompress toy_untranspose 9 (ztake n ex_file) NewRecordReader) = Some [[10; 11]; []; [12]; [13]; [14]] /\
  option_map fst (RR_Search toy_hash toy_decompress toy_untranspose (ztake n ex_file) (fun _ => Some Less) NewRecordReader) = Some (Some Greater).
Proof. exists 400. vm_compute. split; reflexivity. Qed.
Definition test_reading_ahead (f : list Z -> ordering) (d : record_reader) : option (option ordering * record_reader) :=
  match RR_ReadRecord toy_hash toy_decompress toy_untranspose ex_file d with
  | Some (Some r, d) => match RR_ReadRecord toy_hash toy_decompress toy_untranspose ex_file d with Some (_, d) => Some (Some (f r), d) | None => None end
  | _ => None
  end.
(** Neither is it ensured if [test()] reads the record and then reads on, beyond the chunk: record 20 is missed. *)
Theorem C31_reading_ahead_refuted :
  monotone (classify (ex_order 20) (all_written ex_sessions)) 0 7 /\ classify (ex_order 20) (all_written ex_sessions) 5 = Equivalent /\
  option_map fst (RR_SearchImpl toy_hash toy_decompress toy_untranspose ex_file (test_reading_ahead (ex_order 20)) NewRecordReader) = Some (Some Less).
Proof.
  split; [|vm_compute; split; reflexivity].
  assert (G : forall p, 0 <= p < 7 -> p = 0 \/ p = 1 \/ p = 2 \/ p = 3 \/ p = 4 \/ p = 5 \/ p = 6) by (intros; lia).
  intros p q P Q. apply G in P. apply G in Q.
  decompose [or] P; decompose [or] Q; subst; repeat split; intros A B; try (vm_compute in A; discriminate A); try (vm_compute in B; discriminate B); lia.
Qed.
