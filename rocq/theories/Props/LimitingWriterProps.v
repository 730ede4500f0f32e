(** C37 (the writer): a limiting writer writes up to the limit and nothing beyond, whatever the sizes of writes, the state of the buffer of the original
    writer, and failures of the original writer. *)
From Verif Require Import Base.Bytes Spec.PosixFile Model.BufferSizer Model.BufferedWriter Model.LimitingWriter Spec.LimitingWriterSpec.
From Verif Require Import Proof.LimWriterHistory Proof.LimWriterPlain.
From Verif Require Spec.BufferedWriterSpec.
Import BufferedWriter(writer, call).
Import BufferedWriterSpec(call_ok, fd_ok, options_valid, option_ok, file_pos, calls_succeed, steps).

(** Whatever was written to the original writer before ([pre]), whatever the calls and the sizes of buffers, and whatever system calls fail: each call does what
    its specification says (Spec/LimitingWriterSpec.v), and no assertion fails.
    If it is not known whether the original writer supports random access then no system call fails (see C37_random_access_refuted). *)
Theorem C37_writer : forall f options assumed_pos independent_pos own pre rs w o exact owning calls,
  fd_ok f -> options_valid options -> option_ok assumed_pos -> option_ok independent_pos ->
  let w0 := new_writer f options assumed_pos independent_pos own in
  let shift := file_pos f independent_pos - BufferedWriterSpec.pos w0 in
  Forall call_ok pre -> Forall (fun c => sequential c = true) pre -> run pre w0 = Some (rs, w) -> ok w = true ->
  (assumed_pos <> None \/ independent_pos <> None \/ f_append f = true \/ calls_succeed f \/ Exists (fun c => c = CSupportsRandomAccess \/ c = CSize) pre) ->
  limit_option_ok o -> Forall lcall_ok calls ->
  exists content pos l, steps shift pre rs (f_content f, BufferedWriterSpec.pos w0) (content, pos) /\ new_limiter w o exact owning = Some l /\
    (pos <= wanted pos o -> lok l = negb (exact && (kMaxPosition <? wanted pos o))) /\
    lhistory shift exact owning (match assumed_pos with None => negb (f_append f) | Some _ => false end) (calls_succeed f /\ pos + Z.max 0 shift <= kMaxFdPosition)
      calls (initial content pos o exact (lok l)) (f_content (w_fd w)) (observe_run calls l).
Proof.
  intros f bo a i own pre rs w o exact owning calls F OO A IP w0 shift C SQ R O RN LO LC.
  destruct (new_limiter_history f bo a i own F OO A IP pre rs w o exact owning calls C SQ R O RN LO LC) as (content & pos & l & H1 & _ & H2). exists content, pos, l. split; [exact H1|exact H2].
Qed.
(** Sequential writing to a limiting writer, which is then closed, if no system call fails: the file has everything up to the limit and nothing beyond.  All calls including Close() succeed if and
    only if the limit was not exceeded and, with exact(), was reached. *)
Theorem C37_writer_sequential : forall f options assumed_pos independent_pos own pre rs w o exact owning calls,
  fd_ok f -> options_valid options -> option_ok assumed_pos -> option_ok independent_pos ->
  let w0 := new_writer f options assumed_pos independent_pos own in
  let shift := file_pos f independent_pos - BufferedWriterSpec.pos w0 in
  Forall call_ok pre -> Forall (fun c => sequential c = true) pre -> run pre w0 = Some (rs, w) -> ok w = true -> calls_succeed f ->
  limit_option_ok o -> Forall lcall_ok calls -> Forall (fun c => plain c = true) calls ->
  exists content pos l, steps shift pre rs (f_content f, BufferedWriterSpec.pos w0) (content, pos) /\ new_limiter w o exact owning = Some l /\
    let limit := wanted pos o in
    let d := all_written calls in
    (pos <= limit <= kMaxPosition -> pos + zlen d + Z.max 0 shift <= kMaxFdPosition ->
     exists os result, observe_run (calls ++ [LWriter CClose]) l = os ++ [result] /\ length os = length calls /\
       q_closed result = Some (write_at content (pos + shift) (ztake (limit - pos) d), pos + Z.min (limit - pos) (zlen d)) /\
       forallb succeeded (os ++ [result]) = (pos + zlen d <=? limit) && negb (exact && (pos + zlen d <? limit))).
Proof.
  intros f bo a i own pre rs w o exact owning calls F OO A IP w0 shift C SQ R O CS LO LC PL.
  assert (LC' : Forall lcall_ok (calls ++ [LWriter CClose])) by (apply Forall_app; split; [exact LC|constructor; [exact Logic.I|constructor]]).
  destruct (new_limiter_history f bo a i own F OO A IP pre rs w o exact owning _ C SQ R O (or_intror (or_intror (or_intror (or_introl CS)))) LO LC') as (content & pos & l & H1 & PS & H2 & OK & H).
  exists content, pos, l. split; [exact H1|]. split; [exact H2|]. cbv zeta. intros [LI LM] RM. specialize (OK LI). replace (kMaxPosition <? wanted pos o) with false in OK by lia. rewrite andb_false_r in OK. cbn in OK.
  pose proof (zlen_nonneg (all_written calls)) as ZD. fold w0 in PS, H1, H. fold shift in PS, H1, H.
  assert (I0 : pinv shift content pos (wanted pos o - pos) (initial content pos o exact (lok l)) []).
  { constructor; cbn [initial a_known a_content a_pos a_ok a_excess a_limit]; unfold content_of; rewrite ?ztake_nil.
    - lia.
    - symmetry. apply PosixProof.write_at_nil.
    - change (zlen (@nil Z)) with 0. lia.
    - intros _. rewrite zdrop_nil. split; [reflexivity|lia].
    - rewrite OK. discriminate. }
  edestruct plain_history as (os & r & E & LE & CL & FB); [..|exact H|]; [|exact PS|exact PL|exact I0| | |]; [lia|split; [exact CS|lia]|cbn [app]; exact RM|].
  exists os, r. rewrite <- E. split; [reflexivity|]. split; [exact LE|]. cbn [app] in *. split; [rewrite CL; unfold content_of; rewrite zlen_ztake; do 2 f_equal; lia|]. rewrite FB by (cbn [initial a_ok]; exact OK). unfold all_true. f_equal; [lia|]. f_equal. f_equal. lia.
Qed.

Definition small := {| min_buffer_size := 4; max_buffer_size := 8 |}.
Definition file_of (content : list Z) (system : list Z) : fd := {| f_content := content; f_pos := zlen content; f_append := false; f_calls := system |}.
Definition outcomes (f : fd) (o : limit_option) (exact owning : bool) (calls : list lcall) : option (list (result * Z * bool * option (list Z * Z))) :=
  match new_limiter (new_writer f small None None true) o exact owning with
  | Some l => Some (map (fun o => (q_result o, q_pos o, q_ok o, q_closed o)) (observe_run calls l))
  | None => None
  end.
(** The byte 5 is stored in the buffer, then the limit is increased; then the limit is exceeded. *)
Example C37_writer_example :
  outcomes (file_of [1; 2; 3] [1; 1; 2]) (MaxLength 1) true true
    [LWriter (CWriteChar 4); LWriter (CWriteChar 5); LSetMaxPos 6; LWriter (CFlush false); LWriter CSize; LWriter (CSeek 5); LWriter (CSeek 7); LWriter (CWrite [6; 7; 8]); LWriter CClose] =
  Some [(RBool true, 4, true, Some ([1; 2; 3], 3)); (RBool true, 5, true, Some ([1; 2; 3; 4], 4)); (RUnit, 5, true, Some ([1; 2; 3; 4], 4)); (RBool true, 5, true, Some ([1; 2; 3; 4; 5], 5));
        (RSize (Some 5), 5, true, Some ([1; 2; 3; 4; 5], 5)); (RBool true, 5, true, Some ([1; 2; 3; 4; 5], 5)); (RBool false, 5, true, Some ([1; 2; 3; 4; 5], 5));
        (RBool false, 6, false, Some ([1; 2; 3; 4; 5; 6], 6)); (RBool false, 6, false, Some ([1; 2; 3; 4; 5; 6], 6))].
Proof. vm_compute. reflexivity. Qed.
Example C37_writer_exact_example :
  outcomes (file_of [1; 2; 3] []) (MaxPos 5) true true [LWriter (CWriteChar 4); LWriter CClose] = Some [(RBool true, 4, true, Some ([1; 2; 3], 3)); (RBool false, 3, false, Some ([1; 2; 3; 4], 4))] /\
  outcomes (file_of [1; 2; 3] []) (MaxPos 5) true true [LWriter (CWrite [4; 5]); LWriter CClose] = Some [(RBool true, 5, true, Some ([1; 2; 3; 4; 5], 5)); (RBool true, 5, false, Some ([1; 2; 3; 4; 5], 5))].
Proof. split; vm_compute; reflexivity. Qed.
Example C37_writer_hypotheses :
  let f := file_of [1; 2; 3] [1; 2] in
  fd_ok f /\ options_valid small /\ calls_succeed f /\ Forall call_ok [CWrite [4; 5]; CSupportsRandomAccess] /\ Forall (fun c => sequential c = true) [CWrite [4; 5]; CSupportsRandomAccess] /\
  (exists rs w, run [CWrite [4; 5]; CSupportsRandomAccess] (new_writer f small None None true) = Some (rs, w) /\ ok w = true) /\ limit_option_ok (MaxLength 7) /\
  Forall lcall_ok [LWriter (CWrite [6]); LWriter (CFlush true); LFlushFromObject] /\ Forall (fun c => plain c = true) [LWriter (CWrite [6]); LWriter (CFlush true); LFlushFromObject].
Proof.
  cbv zeta. split; [unfold fd_ok, kMaxFdPosition; cbn; lia|]. split; [unfold options_valid; cbn; lia|]. split; [unfold calls_succeed; cbn; repeat constructor; lia|]. split; [repeat constructor|]. split; [repeat constructor|].
  split; [eexists _, _; split; [vm_compute; reflexivity|reflexivity]|]. split; [cbn; lia|]. split; repeat constructor.
Qed.

(** What does not hold. *)
(** SetWriteSizeHint() after the limit was exceeded: an assertion fails. *)
Theorem C37_hint_after_failure_refuted :
  exists f o calls, fd_ok f /\ calls_succeed f /\ Forall lcall_ok calls /\
    match new_limiter (new_writer f small None None true) o false true with Some l => length (observe_run (calls ++ [LWriter (CSetWriteSizeHint None)]) l) = length calls | None => False end.
Proof.
  exists (file_of [1; 2; 3; 4] []), (MaxLength 1), [LWriter (CWriteChar 5); LWriter (CWriteChar 6); LWriter (CFlush false)]. split; [unfold fd_ok, kMaxFdPosition; cbn; lia|]. split; [constructor|]. split; [repeat constructor|]. vm_compute. reflexivity.
Qed.
(** If the limit is decreased below what was written, and the position is moved back, then bytes beyond the limit can be overwritten. *)
Theorem C37_overwrite_beyond_limit_refuted :
  exists f, fd_ok f /\ calls_succeed f /\
    outcomes f NoLimit false true [LWriter (CWriteChar 5); LWriter (CWriteChar 6); LWriter (CWriteChar 7); LWriter (CSeek 4); LSetMaxPos 5; LWriter (CWriteChar 8); LWriter (CWriteChar 9); LWriter (CFlush false)] =
    Some [(RBool true, 5, true, Some ([1; 2; 3; 4], 4)); (RBool true, 6, true, Some ([1; 2; 3; 4], 4)); (RBool true, 7, true, Some ([1; 2; 3; 4], 4)); (RBool true, 4, true, Some ([1; 2; 3; 4; 5; 6; 7], 4)); (RUnit, 4, true, Some ([1; 2; 3; 4; 5; 6; 7], 4));
          (RBool true, 5, true, Some ([1; 2; 3; 4; 8; 6; 7], 4)); (RBool true, 6, true, Some ([1; 2; 3; 4; 8; 9; 7], 4)); (RBool false, 5, false, Some ([1; 2; 3; 4; 8; 9; 7], 5))].
Proof. exists (file_of [1; 2; 3; 4] []). split; [unfold fd_ok, kMaxFdPosition; cbn; lia|]. split; [constructor|]. vm_compute. reflexivity. Qed.
(** Truncate() to a size beyond the limit returns true although the writer has failed. *)
Theorem C37_truncate_beyond_limit_refuted :
  exists f calls, fd_ok f /\ calls_succeed f /\ Forall lcall_ok calls /\
    match outcomes f (MaxPos 3) false true calls with Some os => last os (RUnit, 0, true, None) = (RBool true, 3, false, Some ([1; 2; 3; 4; 5], 5)) | None => False end.
Proof.
  exists {| f_content := [1; 2; 3; 4; 5; 6]; f_pos := 0; f_append := false; f_calls := [] |}, [LWriter (CTruncate 5)]. split; [unfold fd_ok, kMaxFdPosition; cbn; lia|]. split; [constructor|]. split; [repeat constructor; cbn; lia|]. vm_compute. reflexivity.
Qed.
(** If the position cannot be restored after checking for random access then SupportsRandomAccess() makes the original writer fail, but not the limiting writer, which then
    accepts bytes to a buffer which the original writer does not have: an assertion fails later. *)
Theorem C37_random_access_refuted :
  exists f calls, fd_ok f /\ Forall lcall_ok calls /\
    match new_limiter (new_writer f small None None true) NoLimit false true with
    | Some l => map q_result (observe_run (calls ++ [LWriter (CFlush false)]) l) = [RBool true; RBool false; RBool true] /\ length calls = 3%nat
    | None => False
    end.
Proof.
  exists (file_of [1; 2; 3; 4] [1; 1; 0]), [LWriter (CWriteChar 5); LWriter CSupportsRandomAccess; LWriter (CWriteChar 6)]. split; [unfold fd_ok, kMaxFdPosition; cbn; lia|]. split; [repeat constructor|]. vm_compute. split; reflexivity.
Qed.
Print Assumptions C37_writer.
Print Assumptions C37_writer_sequential.
Print Assumptions C37_hint_after_failure_refuted.
Print Assumptions C37_overwrite_beyond_limit_refuted.
Print Assumptions C37_truncate_beyond_limit_refuted.
Print Assumptions C37_random_access_refuted.
