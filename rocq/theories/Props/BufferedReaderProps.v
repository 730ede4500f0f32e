(** C45: a buffered reader from a file descriptor is a byte string with a cursor, whatever the sizes of reads, the sizes of buffers, the hints,
    short reads and failures of system calls. *)
From Verif Require Import Base.Bytes Model.BufferSizer Model.BufferedReader Spec.BufferedReaderSpec Proof.ReaderProof.
Import BufferedWriter(fd, f_content, f_pos, f_append, f_calls, Build_fd, kMaxFdPosition).

(** Any history of calls: no assertion fails and all functions return, whatever system calls fail; every call is what a byte string with
    a cursor allows; if no system call fails then the reader does not fail either, except of calls which need random access and VerifyEnd() before the end, and
    Close() returns true; the file is not changed. *)
Theorem C45_reader : forall f options assumed_pos independent_pos growing owning spaces calls,
  fd_ok f independent_pos -> options_valid options -> option_ok assumed_pos -> Forall call_ok calls ->
  exists r os r', new_reader f options assumed_pos independent_pos growing owning spaces = Some r /\ run calls r = Some (os, r') /\
    f_content (r_fd r') = f_content f /\
    let shift := file_pos f independent_pos - pos r in
    history (f_content f) shift (r_random r) (r_independent r) (calls_succeed f /\ size (f_content f) shift < kMaxFdPosition) calls (pos r) (ok r) os.
Proof.
  intros f o a i g own sp calls F O A C. destruct (reader_ok f o a i g own sp calls O F A C) as (r & os & r' & E1 & E2 & E3 & H & _). exists r, os, r'. auto.
Qed.
(** Opening: if no system call fails and the options are consistent then the reader is good, its position is the one which was asked for or the position
    of the file descriptor, and random access is supported unless the position is assumed. *)
Theorem C45_open : forall f options assumed_pos independent_pos growing owning spaces,
  fd_ok f independent_pos -> options_valid options -> option_ok assumed_pos -> calls_succeed f ->
  (assumed_pos = None \/ independent_pos = None) -> match assumed_pos with Some p => p <= kMaxFdPosition | None => True end ->
  exists r, new_reader f options assumed_pos independent_pos growing owning spaces = Some r /\ ok r = true /\
    pos r = match assumed_pos with Some p => p | None => file_pos f independent_pos end /\
    r_random r = match assumed_pos with Some _ => false | None => true end.
Proof.
  intros f o a i g own sp F O A CS V1 V2. destruct (new_reader_ok f o a i g own sp O F A) as (r & E & [_ _ G _]). destruct (G (conj V1 V2) CS) as (G1 & G2 & G3). exists r. auto.
Qed.
(** Whatever system calls fail, what was read by any reading functions is, together, a piece of the file from where reading has started. *)
Theorem C45_stream : forall f options assumed_pos independent_pos growing owning spaces calls,
  fd_ok f independent_pos -> options_valid options -> option_ok assumed_pos -> Forall call_ok calls -> forallb is_read calls = true ->
  exists r os r', new_reader f options assumed_pos independent_pos growing owning spaces = Some r /\ run calls r = Some (os, r') /\
    concat (map data_of os) = zslice (file_pos f independent_pos) (zlen (concat (map data_of os))) (f_content f).
Proof. intros f o a i g own sp calls F O A C R. exact (stream_ok f o a i g own sp calls O F A C R). Qed.
(** Results and positions do not depend on the sizes of buffers, on how much is read by each system call, on the sharing of buffers, on whether
    the position is independent, on growing_source: only on the file, if no system call fails. *)
Theorem C45_transparent : forall f options independent_pos growing owning spaces f' options' independent_pos' growing' owning' spaces' calls,
  fd_ok f independent_pos -> options_valid options -> fd_ok f' independent_pos' -> options_valid options' ->
  f_content f' = f_content f -> file_pos f' independent_pos' = file_pos f independent_pos -> calls_succeed f -> calls_succeed f' -> zlen (f_content f) < kMaxFdPosition ->
  Forall call_ok calls -> forallb is_plain calls = true ->
  exists r os q r' os' q', new_reader f options None independent_pos growing owning spaces = Some r /\ run calls r = Some (os, q) /\
    new_reader f' options' None independent_pos' growing' owning' spaces' = Some r' /\ run calls r' = Some (os', q') /\
    map o_result os = map o_result os' /\ map o_pos os = map o_pos os' /\ Forall (fun o => o_ok o = true) os.
Proof.
  intros f o i g own sp f' o' i' g' own' sp' calls F O F' O' CE PE CS CS' MX C PL. exact (transparent_ok f o i g own sp f' o' i' g' own' sp' calls O O' F F' CE PE CS CS' MX C PL).
Qed.
(** A reader with an independent position does not move the position of the file descriptor, which may be used by others. *)
Theorem C45_independent : forall f options p growing owning spaces calls,
  fd_ok f (Some p) -> options_valid options -> Forall call_ok calls ->
  exists r os r', new_reader f options None (Some p) growing owning spaces = Some r /\ run calls r = Some (os, r') /\ Forall (fun o => o_fd_pos o = f_pos f) os.
Proof. intros f o p g own sp calls F O C. exact (independent_ok f o p g own sp calls O F C). Qed.

Definition small := {| min_buffer_size := 4; max_buffer_size := 8 |}.
Definition example_fd := {| f_content := [1; 2; 3; 4; 5; 6; 7; 8; 9; 10; 11; 12; 13; 14; 15; 16; 17; 18; 19; 20]; f_pos := 2; f_append := false; f_calls := [1; 1; 1; 3; 1; 1; 2] |}.
(** Small buffers, short reads, seeking back, synchronizing *)
Example C45_reader_example :
  exists r os r', new_reader example_fd small None None false true [true; false; true] = Some r /\ ok r = true /\ pos r = 2 /\
    run [CRead 3; CPull 4 0; CReadView 2; CReadByte; CReadSome 100; CReadChain 9; CSeek 1; CRead 2; CSync; CSkip 10; CSize; CVerifyEnd; CRead 100; CClose] r = Some (os, r') /\
    map o_result os = [RBytes true [3; 4; 5]; RBool true; RBytes true [6; 7]; RBytes true [8]; RBytes true [9; 10; 11; 12]; RBytes false [13; 14; 15; 16; 17; 18; 19; 20]; RBool true;
      RBytes true [2; 3]; RBool true; RSkip true 10; RSize (Some 20); RUnit; RBytes false [14; 15; 16]; RBool false] /\
    map o_pos os = [5; 5; 7; 8; 12; 20; 1; 3; 3; 13; 13; 13; 16; 16].
Proof. eexists _, _, _. split; [vm_compute; reflexivity|]. split; [reflexivity|]. split; [reflexivity|]. split; [vm_compute; reflexivity|]. split; vm_compute; reflexivity. Qed.
Example C45_hypotheses : fd_ok example_fd None /\ fd_ok example_fd (Some 20) /\ options_valid small /\ calls_succeed example_fd /\ option_ok (Some 7) /\
  Forall call_ok [CRead 3; CPull 4 0; CReadView 2; CReadByte; CReadChain 9; CSeek 1; CSync; CSkip 10; CSize; CReadHint 5 7; CSetReadAllHint true] /\
  forallb is_plain [CRead 3; CPull 4 0; CReadView 2; CReadByte; CReadChain 9; CSeek 1; CSync; CSkip 10; CSize; CReadHint 5 7; CSetReadAllHint true] = true.
Proof. unfold fd_ok, options_valid, calls_succeed, kMaxFdPosition. cbn. repeat split; try lia; repeat (constructor; cbn; try lia). Qed.
(** A failing read() *)
Example C45_failure_example :
  exists r os r', new_reader {| f_content := [1; 2; 3; 4; 5; 6; 7; 8; 9; 10]; f_pos := 0; f_append := false; f_calls := [1; 1; 1; 3; 0] |} small None None false true [] = Some r /\
    run [CRead 2; CRead 5; CRead 1; CClose] r = Some (os, r') /\
    map o_result os = [RBytes true [1; 2]; RBytes false [3]; RBytes false []; RBool false] /\ map o_ok os = [false; false; false; false].
Proof. eexists _, _, _. split; [vm_compute; reflexivity|]. split; [vm_compute; reflexivity|]. split; vm_compute; reflexivity. Qed.

(** What does not hold. *)
(** If reading starts beyond the end of the file then, after reading nothing, Size() returns the position instead of the size, with nothing having failed. *)
Theorem C45_beyond_end_refuted :
  exists f r os r', calls_succeed f /\ new_reader f small None (Some 5) false true [] = Some r /\ run [CRead 1; CSize] r = Some (os, r') /\ zlen (f_content f) = 2 /\
    map o_result os = [RBytes false []; RSize (Some 5)] /\ map o_ok os = [true; true].
Proof.
  exists {| f_content := [1; 2]; f_pos := 0; f_append := false; f_calls := [] |}. eexists _, _, _. split; [constructor|]. split; [vm_compute; reflexivity|]. split; [vm_compute; reflexivity|].
  repeat split; vm_compute; reflexivity.
Qed.
(** reader.h:421 documents that random access implies that Size() is supported, i.e. SupportsSize() returns true; with an independent position (or with a growing source)
    it returns false, until something asks for the size. *)
Theorem C45_supports_size_refuted :
  exists f r os r', calls_succeed f /\ new_reader f small None (Some 0) false true [] = Some r /\ ok r = true /\ r_random r = true /\ SupportsSize r = false /\
    run [CSize] r = Some (os, r') /\ map o_result os = [RSize (Some 2)] /\ SupportsSize r' = true.
Proof.
  exists {| f_content := [1; 2]; f_pos := 0; f_append := false; f_calls := [] |}. eexists _, _, _. split; [constructor|]. split; [vm_compute; reflexivity|]. split; [reflexivity|]. split; [reflexivity|].
  split; [reflexivity|]. split; [vm_compute; reflexivity|]. split; vm_compute; reflexivity.
Qed.
(** On a reader which has failed Sync() moves the position, over data which were not read by the user. *)
Theorem C45_sync_failed_refuted :
  exists f r os r', new_reader f small None None false true [] = Some r /\ ok r = true /\ run [CRead 1; CPull 8 0; CSync] r = Some (os, r') /\ map o_pos os = [1; 1; 4] /\ map o_ok os = [true; false; false].
Proof.
  exists {| f_content := [1; 2; 3; 4; 5; 6; 7; 8; 9; 10]; f_pos := 0; f_append := false; f_calls := [1; 1; 1; 4; 0] |}. eexists _, _, _. split; [vm_compute; reflexivity|]. split; [reflexivity|].
  split; [vm_compute; reflexivity|]. split; vm_compute; reflexivity.
Qed.
Print Assumptions C45_reader.
Print Assumptions C45_open.
Print Assumptions C45_stream.
Print Assumptions C45_transparent.
Print Assumptions C45_independent.
Print Assumptions C45_beyond_end_refuted.
Print Assumptions C45_supports_size_refuted.
Print Assumptions C45_sync_failed_refuted.
