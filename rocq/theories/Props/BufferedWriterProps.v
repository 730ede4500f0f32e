(** C38 (the writer): a buffered writer to a file descriptor is a file with a cursor, whatever the sizes of writes, the sizes of buffers,
    the hints, short writes and failures of system calls. *)
From Verif Require Import Base.Bytes Spec.PosixFile Model.BufferSizer Model.BufferedWriter Spec.BufferedWriterSpec Proof.WriterRun.

(** If the writer is good after a history of calls then all results, the position and the content which the file will have are those of a file
    with a cursor.  Truncate() needs positions to be positions in the file (not assumed); Seek() and Truncate() need the writer to be created
    not beyond the end of the file (see C38_seek_beyond_end_refuted). *)
Theorem C38_writer : forall f o assumed_pos independent_pos owning calls rs w,
  fd_ok f -> options_valid o -> option_ok assumed_pos -> option_ok independent_pos -> Forall call_ok calls ->
  let w0 := new_writer f o assumed_pos independent_pos owning in
  let shift := file_pos f independent_pos - pos w0 in
  Forall (fun c => truncates c = true -> shift = 0) calls ->
  (file_pos f independent_pos <= zlen (f_content f) \/ Forall (fun c => moves_cursor c = false) calls) ->
  run calls w0 = Some (rs, w) -> ok w = true ->
  exists v, steps shift calls rs (f_content f, pos w0) v /\ pos w = snd v.
Proof.
  intros f o a i own calls rs w F O A IP C w0 shift T IN R OK. destruct (new_history f o a i own F O A IP calls rs w C T IN R OK) as (_ & _ & S1 & _).
  eexists. split; [exact S1|reflexivity].
Qed.
(** After Flush() has succeeded, the file has that content. *)
Theorem C38_flush : forall f o assumed_pos independent_pos owning calls machine rs w,
  fd_ok f -> options_valid o -> option_ok assumed_pos -> option_ok independent_pos -> Forall call_ok calls ->
  let w0 := new_writer f o assumed_pos independent_pos owning in
  let shift := file_pos f independent_pos - pos w0 in
  Forall (fun c => truncates c = true -> shift = 0) calls ->
  (file_pos f independent_pos <= zlen (f_content f) \/ Forall (fun c => moves_cursor c = false) calls) ->
  run (calls ++ [CFlush machine]) w0 = Some (rs, w) -> ok w = true ->
  exists v, steps shift (calls ++ [CFlush machine]) rs (f_content f, pos w0) v /\ f_content (w_fd w) = fst v /\ pos w = snd v.
Proof.
  intros f o a i own calls m rs w F O A IP C w0 shift T IN R OK.
  assert (C' : Forall call_ok (calls ++ [CFlush m])) by (apply Forall_app; split; [exact C|constructor; [exact Logic.I|constructor]]).
  assert (T' : Forall (fun c => truncates c = true -> shift = 0) (calls ++ [CFlush m])) by (apply Forall_app; split; [exact T|constructor; [discriminate|constructor]]).
  assert (IN' : file_pos f i <= zlen (f_content f) \/ Forall (fun c => moves_cursor c = false) (calls ++ [CFlush m])).
  { destruct IN as [IN|IN]; [left; exact IN|right]. apply Forall_app; split; [exact IN|constructor; [reflexivity|constructor]]. }
  destruct (new_history f o a i own F O A IP (calls ++ [CFlush m]) rs w C' T' IN' R OK) as (_ & _ & S1 & L).
  eexists. split; [exact S1|]. split; [|reflexivity]. rewrite last_last in L. destruct (calls ++ [CFlush m]) eqn:E; [destruct calls; discriminate|exact L].
Qed.
(** If Close() returns true then nothing has failed before, and the file has that content. *)
Theorem C38_close : forall f o assumed_pos independent_pos owning calls rs w,
  fd_ok f -> options_valid o -> option_ok assumed_pos -> option_ok independent_pos -> Forall call_ok calls ->
  let w0 := new_writer f o assumed_pos independent_pos owning in
  let shift := file_pos f independent_pos - pos w0 in
  Forall (fun c => truncates c = true -> shift = 0) calls -> Forall (fun c => c <> CClose) calls ->
  (file_pos f independent_pos <= zlen (f_content f) \/ Forall (fun c => moves_cursor c = false) calls) ->
  run (calls ++ [CClose]) w0 = Some (rs ++ [RBool true], w) ->
  exists v, steps shift calls rs (f_content f, pos w0) v /\ f_content (w_fd w) = fst v /\ pos w = snd v.
Proof. intros f o a i own calls rs w F O A IP C w0 shift T NC IN R. exact (new_close f o a i own F O A IP calls rs w C T NC IN R). Qed.
(** No assertion fails, no byte outside of the buffer is accessed, no uninitialized byte is written, and all functions return, whatever system calls
    fail, if Seek() is called only when it is known whether random access is supported, and not after Fail() was called by the user. *)
Theorem C38_safe : forall f o assumed_pos independent_pos owning known calls,
  fd_ok f -> options_valid o -> option_ok assumed_pos -> option_ok independent_pos -> Forall call_ok calls -> careful known false calls ->
  (known = true -> assumed_pos <> None \/ independent_pos <> None \/ f_append f = true \/ calls_succeed f) ->
  run calls (new_writer f o assumed_pos independent_pos owning) <> None.
Proof. intros f o a i own known calls F O A IP C CA K. exact (new_safe f o a i own F O A IP known calls C CA K). Qed.
(** Sequential writing from the end of the file: whatever system calls fail (in particular if all fail from some moment on), the file is
    at any time what it was followed by a prefix of what was written. *)
Theorem C38_prefix : forall f o assumed_pos independent_pos owning calls rs w,
  fd_ok f -> options_valid o -> option_ok assumed_pos -> option_ok independent_pos -> Forall call_ok calls ->
  Forall (fun c => moves_cursor c = false) calls -> file_pos f independent_pos = zlen (f_content f) ->
  run calls (new_writer f o assumed_pos independent_pos owning) = Some (rs, w) ->
  exists n, f_content (w_fd w) = f_content f ++ ztake n (all_bytes calls).
Proof. intros f o a i own calls rs w F O A IP C M E R. exact (new_prefix f o a i own F O A IP calls rs w C M E R). Qed.
(** If no system call fails, options are consistent and positions stay in the range of off_t then nothing fails.  Seek() and Size() need random access, which
    is available unless a position is assumed or the file is opened for appending. *)
Theorem C38_live : forall f o assumed_pos independent_pos owning calls,
  fd_ok f -> options_valid o -> option_ok assumed_pos -> option_ok independent_pos -> Forall call_ok calls ->
  let w0 := new_writer f o assumed_pos independent_pos owning in
  let shift := file_pos f independent_pos - pos w0 in
  Forall (fun c => truncates c = true -> shift = 0) calls -> Forall (fun c => match c with CFail | CClose => false | _ => true end = true) calls ->
  (assumed_pos = None /\ f_append f = false \/ Forall (fun c => match c with CSeek _ | CSize => False | _ => True end) calls) -> calls_succeed f ->
  (assumed_pos = None \/ independent_pos = None /\ match assumed_pos with Some p => p <= kMaxFdPosition | None => True end) ->
  match independent_pos with Some p => f_append f = false /\ p <= kMaxFdPosition | None => True end ->
  Z.max (zlen (f_content f)) (Z.max (pos w0) (file_pos f independent_pos)) + zlen (all_bytes calls) <= kMaxFdPosition ->
  exists rs w, run calls w0 = Some (rs, w) /\ ok w = true /\ exists w', Close w = Some (true, w').
Proof.
  intros f o a i own calls F O A IP C w0 shift T MF SK CS V1 V2 RE. apply (new_live f o a i own F O A IP calls C T); auto.
  eapply Forall_impl; [|exact MF]. intros c. destruct c; auto.
Qed.

Definition small := {| min_buffer_size := 4; max_buffer_size := 8 |}.
Definition example_fd := {| f_content := [1; 2; 3]; f_pos := 3; f_append := false; f_calls := [1; 3; 1; 1; 2] |}.
(** Small buffers, short writes, seeking back and overwriting *)
Example C38_writer_example :
  exists w, run [CWrite [4; 5]; CWriteChain [[6; 7; 8; 9]; [10; 11; 12; 13; 14; 15; 16]]; CSupportsRandomAccess; CSeek 1; CWriteChar 20; CSize; CWriteFill 3 0; CTruncate 14; CSeek 20; CFlush false; CSeek 20]
      (new_writer example_fd small None None true) =
    Some ([RBool true; RBool true; RBool true; RBool true; RBool true; RSize (Some 16); RBool true; RBool true; RBool false; RBool true; RBool false], w) /\
    ok w = true /\ f_content (w_fd w) = [1; 20; 0; 0; 0; 6; 7; 8; 9; 10; 11; 12; 13; 14].
Proof. eexists. split; [vm_compute; reflexivity|]. split; reflexivity. Qed.
Example C38_hypotheses : fd_ok example_fd /\ options_valid small /\ calls_succeed example_fd /\ file_pos example_fd None <= zlen (f_content example_fd) /\
  careful false false [CWrite [4]; CSupportsRandomAccess; CSeek 1; CTruncate 2].
Proof.
  unfold fd_ok, options_valid, calls_succeed, kMaxFdPosition. cbn. repeat split; try lia; try (repeat constructor; lia).
Qed.
Example C38_prefix_example :
  exists rs w, run [CWrite [4; 5; 6; 7; 8; 9; 10; 11; 12]; CWrite [13]; CClose]
      (new_writer {| f_content := [1; 2; 3]; f_pos := 3; f_append := false; f_calls := [1; 3; 1; 0; 0; 0] |} small None None true) = Some (rs ++ [RBool false], w) /\
    f_content (w_fd w) = [1; 2; 3; 4; 5; 6; 7].
Proof. eexists [_; _], _. split; vm_compute; reflexivity. Qed.

(** What does not hold. *)
(** A writer which is created beyond the end of the file can be seeked to a position beyond the end of the file which is not its position. *)
Theorem C38_seek_beyond_end_refuted :
  exists f rs w, fd_ok f /\ calls_succeed f /\ run [CSeek 3] (new_writer f small None None true) = Some (rs, w) /\ ok w = true /\ pos w = 3 /\ zlen (f_content (w_fd w)) = 2 /\
    forall v, ~ steps 0 [CSeek 3] rs (f_content f, 5) v.
Proof.
  exists {| f_content := [1; 2]; f_pos := 5; f_append := false; f_calls := [] |}. eexists _, _. split; [unfold fd_ok, kMaxFdPosition; cbn; lia|]. split; [constructor|].
  split; [vm_compute; reflexivity|]. split; [reflexivity|]. split; [reflexivity|]. split; [reflexivity|]. intros v (v1 & [X _] & _). discriminate.
Qed.
(** Truncate() does not check that random access is supported: with an assumed position it cuts the file at a wrong place, and reports success. *)
Theorem C38_truncate_assumed_refuted :
  exists f rs w, fd_ok f /\ calls_succeed f /\
    run [CSupportsRandomAccess; CWrite [7; 8]; CTruncate 1; CFlush false] (new_writer f small (Some 0) None true) = Some (rs, w) /\
    rs = [RBool false; RBool true; RBool true; RBool true] /\ f_content f = [1; 2; 3; 4] /\ f_pos f = 4 /\ f_content (w_fd w) = [1].
Proof.
  exists {| f_content := [1; 2; 3; 4]; f_pos := 4; f_append := false; f_calls := [] |}. eexists _, _. split; [unfold fd_ok, kMaxFdPosition; cbn; lia|]. split; [constructor|].
  split; [vm_compute; reflexivity|]. repeat split; reflexivity.
Qed.
(** Fail() called by the user leaves the size of the data which were in the buffer: Seek() then moves the cursor out of the buffer. *)
Theorem C38_seek_after_fail_refuted :
  exists f, fd_ok f /\ calls_succeed f /\ run [CWrite [1; 2; 3]; CSupportsRandomAccess; CSeek 1; CFail; CSeek 3] (new_writer f small None None true) = None.
Proof.
  exists {| f_content := []; f_pos := 0; f_append := false; f_calls := [] |}. split; [unfold fd_ok, kMaxFdPosition; cbn; lia|]. split; [constructor|]. vm_compute. reflexivity.
Qed.
(** If the position cannot be restored after checking for random access then Seek() to the beginning of the buffer violates an assertion. *)
Theorem C38_seek_unknown_refuted :
  exists f, fd_ok f /\ run [CWrite [1; 2]; CSeek 0] (new_writer f small None None true) = None.
Proof.
  exists {| f_content := []; f_pos := 0; f_append := false; f_calls := [1; 1; 0] |}. split; [unfold fd_ok, kMaxFdPosition; cbn; lia|]. vm_compute. reflexivity.
Qed.
Print Assumptions C38_writer.
Print Assumptions C38_flush.
Print Assumptions C38_close.
Print Assumptions C38_safe.
Print Assumptions C38_prefix.
Print Assumptions C38_live.
Print Assumptions C38_seek_beyond_end_refuted.
Print Assumptions C38_truncate_assumed_refuted.
Print Assumptions C38_seek_after_fail_refuted.
Print Assumptions C38_seek_unknown_refuted.
