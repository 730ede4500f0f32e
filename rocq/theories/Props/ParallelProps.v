(** C26-C27: the parallel writer. *)
From Coq Require Import List.
From Verif Require Import Base.Bytes Model.Block Model.Chunk Model.SimpleChunk Model.RecordWriter Model.RecordReader Model.ParallelWriter
  Spec.RecordsSpec Spec.SessionSpec Spec.ParallelSpec Proof.SessionProof Proof.ParallelLive Proof.ParallelLemmas Props.RecordProps.

Section Statements.
  Variable hash : list Z -> Z.
  Variable compress : Z -> list Z -> list Z.
  Variable decompress : Z -> list Z -> option (list Z).
  Variable transpose_encode : options -> list (list Z) -> list Z.
  Variable transpose_decode : list Z -> Z -> Z -> option (list Z * list Z).
  Hypothesis hash_range : forall l, 0 <= hash l < 2 ^ 64.
  Hypothesis CODECS : codecs compress decompress transpose_encode transpose_decode.
  Variable parallelism : Z.
  Hypothesis parallel : 0 < parallelism.
  Variable ss : list (options * list call).
  Variable o : options.
  Variable cs : list ucall.
  Variable dest : list Z.
  Hypothesis ST : setting hash compress transpose_encode ss o cs dest.
  Notation Serial := (serial_session hash compress transpose_encode o cs dest).
  Notation Sessions := (Sessions hash compress transpose_encode).
  Notation Step := (parallel_step hash compress transpose_encode o parallelism).
  Notation Run := (parallel_run hash compress transpose_encode o parallelism).
  Notation start := (Parallel hash o cs dest).

  Let main := let '(Build_setting _ _ _ _ _ _ _ A B C D (ex_intro _ rs E)) := ST in
    parallel_main hash hash_range compress decompress transpose_encode transpose_decode CODECS parallelism parallel ss o cs A B C D rs dest E.

  (** The serial writer succeeds, and what it leaves is the file of these sessions, one after another. *)
  Theorem C26_serial : exists y images file, Serial = Some (y, images, true, file) /\ exists rs, Sessions (ss ++ [(o, plain cs)]) [] = Some (rs, file).
  Proof. destruct main as (y & im & file & A & B & _). exists y, im, file. auto. Qed.
  (** Whatever the schedule and whatever faults of the destination: if Close() returned true, then everything the user saw, the file,
      and the file at each flush, are those of the serial writer. *)
  Theorem C26_same_as_serial ts s y : Run ts start = Some s -> user_finished s y true -> Serial = Some (y, s_images s, true, s_dest s).
  Proof. intros E U. destruct main as (sn & im & file & A & _ & M). destruct (M ts s E) as (_ & _ & _ & _ & _ & _ & H & _). destruct (H y U) as (-> & -> & ->). exact A. Qed.
  (** Hence a reader reads back all records. *)
  Theorem C26_read_back ts s y : Run ts start = Some s -> user_finished s y true ->
    exists d, RR_ReadAll hash decompress transpose_decode (S (length (all_written (ss ++ [(o, plain cs)])))) (s_dest s) NewRecordReader = Some (all_written (ss ++ [(o, plain cs)]), d) /\
      rd_ok d = true /\ fst (RR_Close d) = true.
  Proof.
    intros E U. destruct C26_serial as (y2 & im & file & A & rs & B). rewrite (C26_same_as_serial ts s y E U) in A. injection A as _ _ A. rewrite <- A in B. clear A.
    assert (SO : Forall session_ok (ss ++ [(o, plain cs)])).
    { apply Forall_app. split; [apply ST|]. constructor; [split; [apply ST|exact (plain_bytes o cs (st_calls _ _ _ _ _ _ _ ST))]|constructor]. }
    destruct (C21_round_trip hash compress decompress transpose_encode transpose_decode hash_range CODECS _ SO (st_size _ _ _ _ _ _ _ ST)) as (rs2 & file2 & d & B2 & _ & _ & R & K).
    rewrite B in B2. injection B2 as _ <-. exists d. auto.
  Qed.
  (** At any moment, even after faults: what was there stays, the file is a beginning of the file of the serial writer, and the files
      at flushes are those of the first flushes of the serial writer. *)
  Theorem C26_prefix ts s y images file : Run ts start = Some s -> Serial = Some (y, images, true, file) ->
    prefix dest (s_dest s) /\ prefix (s_dest s) file /\ prefix (s_images s) images.
  Proof. intros E S. destruct main as (sn & im & file2 & A & _ & M). rewrite S in A. injection A as <- <- <-. destruct (M ts s E) as (P1 & P2 & P3 & _). auto. Qed.
  (** If the [n]-th Flush() or FutureFlush() was reported to succeed, then the file already begins with what the serial writer had at its [n]-th flush. *)
  Theorem C26_flush ts s y images file n : Run ts start = Some s -> Serial = Some (y, images, true, file) -> nth_error (s_flushes s) n = Some (Some true) ->
    exists image, nth_error images n = Some image /\ prefix image (s_dest s).
  Proof.
    intros E S F. destruct main as (sn & im & file2 & A & _ & M). rewrite S in A. injection A as <- <- <-. destruct (M ts s E) as (_ & _ & [more P3] & P4 & _). specialize (P4 n F).
    destruct (nth_error (s_images s) n) as [image|] eqn:N; [|apply nth_error_None in N; lia]. exists image. split; [rewrite P3, nth_error_app1 by lia; exact N|].
    assert (FI : Forall (fun i => prefix i (s_dest s)) (s_images s)).
    { apply (run_images _ _ _ _ _ _ E). unfold Parallel, initial. destruct (ChunkWriter.InitializeWriter (zlen dest)). constructor. }
    apply nth_error_In in N. rewrite Forall_forall in FI. auto.
  Qed.
  (** Without faults, nothing fails. *)
  Theorem C26_no_fault ts s : Run ts start = Some s -> Forall (fun t => is_fault t = false) ts -> s_ok s = true /\ forall y b, user_finished s y b -> b = true.
  Proof.
    intros E F. destruct main as (sn & im & file & _ & _ & M). destruct (M ts s E) as (_ & _ & _ & _ & _ & _ & _ & H1 & H2 & _). split; [auto|]. intros y b. apply H2. auto.
  Qed.
  (** The queue holds at most [parallelism] requests, besides the request to exit. *)
  Theorem C26_queue ts s : Run ts start = Some s -> zlen (s_queue s) <= parallelism \/ exists q, s_queue s = q ++ [RDone] /\ zlen q <= parallelism.
  Proof. intros E. destruct main as (sn & im & file & _ & _ & M). apply (M ts s E). Qed.
  (** Threads never wait for each other: until the user thread finished, some thread can make a step, also after faults. *)
  Theorem C26_no_deadlock ts s : Run ts start = Some s -> (exists y b, user_finished s y b) \/ exists t s', is_fault t = false /\ Step t s = Some s'.
  Proof.
    intros E. destruct main as (sn & im & file & _ & _ & M). destruct (M ts s E) as (_ & _ & _ & _ & _ & _ & _ & _ & _ & [[[y b] D]|D] & _); [left; exists y, b; exact D|right; exact D].
  Qed.
  (** No schedule is infinite. *)
  Theorem C26_terminates (schedule : nat -> turn) : exists n, Run (map schedule (seq 0 n)) start = None.
  Proof. apply all_end. Qed.
  (** C27.  At any moment at which nothing has failed, the session can be completed with everything seen as by the serial writer:
      so positions seen so far (which the program of the user thread keeps) are those of the serial writer. *)
  Theorem C27_seen_so_far ts s : Run ts start = Some s -> s_ok s = true ->
    exists ts' s' y, Run ts' s = Some s' /\ user_finished s' y true /\ Serial = Some (y, s_images s', true, s_dest s').
  Proof.
    intros E K. destruct main as (sn & im & file & A & _ & M). destruct (M ts s E) as (_ & _ & _ & _ & _ & _ & _ & _ & _ & _ & ts' & s' & E' & _ & _ & U).
    exists ts', s', sn. specialize (U K). split; [exact E'|]. split; [exact U|]. apply (C26_same_as_serial (ts ++ ts')); [|exact U].
    unfold parallel_run in *. rewrite run_app, E. exact E'.
  Qed.
End Statements.
Print Assumptions C26_serial.
Print Assumptions C26_same_as_serial.
Print Assumptions C26_read_back.
Print Assumptions C26_prefix.
Print Assumptions C26_flush.
Print Assumptions C26_no_fault.
Print Assumptions C26_queue.
Print Assumptions C26_no_deadlock.
Print Assumptions C26_terminates.
Print Assumptions C27_seen_so_far.

(** ** A concrete case *)
Definition ex_o : options := MkOptions false kNone (Some 30) None 64 128.
Definition ex_cs : list ucall :=
  [AskPos; Write [1;2;3]; AskLastPos; AskPos; Write [4]; AskLastPos; StartFlush; AskLastPos; Write [5;6]; GetPos 2; AskPos; FlushNow; GetFlush 0; Write [7]; AskLastPos;
   GetPos 0; GetPos 1; GetPos 3; GetPos 4; GetPos 5; GetPos 9].
Example ex_setting : setting toy_hash toy_compress toy_transpose ex_sessions ex_o ex_cs ex_file.
Proof.
  destruct ex_sessions_ok as [A _]. constructor; [exact A| | |vm_compute; discriminate|].
  - constructor; cbn; try reflexivity; try exact I; try discriminate; try lia; right; left; (split; [lia|reflexivity]).
  - repeat constructor; try discriminate; unfold is_byte; lia.
  - exists (match Sessions toy_hash toy_compress toy_transpose ex_sessions [] with Some (rs, _) => rs | None => [] end). vm_compute. reflexivity.
Qed.
(** Schedules: at each step, the first thread of [order] which can make a step does it. *)
Fixpoint drive (step : turn -> state (list seen * bool) -> option (state (list seen * bool))) (fuel : nat) (order : list turn) (s : state (list seen * bool)) : list turn :=
  match fuel with
  | O => []
  | S fuel =>
      match find (fun t => match step t s with Some _ => true | None => false end) order with
      | None => []
      | Some t => match step t s with Some s => t :: drive step fuel order s | None => [] end
      end
  end.
Definition ex_step := parallel_step toy_hash toy_compress toy_transpose ex_o 3.
Definition ex_run := parallel_run toy_hash toy_compress toy_transpose ex_o 3.
Definition ex_start := Parallel toy_hash ex_o ex_cs ex_file.
(** The user first, then the last of three tasks first; the chunk writer as late as possible. *)
Definition ex_lazy : list turn := drive ex_step 500 [TurnUser; TurnTask 2; TurnTask 1; TurnTask 0; TurnWriter None] ex_start.
(** The chunk writer first, the user as late as possible. *)
Definition ex_eager : list turn := drive ex_step 500 [TurnWriter None; TurnTask 0; TurnTask 1; TurnTask 2; TurnUser] ex_start.
Definition ex_seen : list seen :=
  [SawNothing; SawFlag true; SawNothing; SawNothing; SawFlag true; SawNothing; SawNothing; SawNothing; SawFlag true; SawPos (512, 1); SawNothing;
   SawFlag true; SawFlag true; SawFlag true; SawNothing; SawPos (512, 0); SawPos (512, 0); SawPos (512, 1); SawPos (512, 1); SawPos (640, 1); SawNothing].
Example ex_lazy_seen : option_map s_user (ex_run ex_lazy ex_start) = Some (Running (Ret (ex_seen, true))).
Proof. vm_compute. reflexivity. Qed.
Example ex_eager_seen : option_map s_user (ex_run ex_eager ex_start) = Some (Running (Ret (ex_seen, true))).
Proof. vm_compute. reflexivity. Qed.
Example ex_schedules_differ : ex_lazy <> ex_eager.
Proof. vm_compute. discriminate. Qed.
Example ex_same_file : option_map s_dest (ex_run ex_lazy ex_start) = option_map s_dest (ex_run ex_eager ex_start).
Proof. vm_compute. reflexivity. Qed.
(** Faults: Close() returns false, the file is a beginning of the file of the serial writer. *)
Definition ex_faulty : list turn := drive ex_step 500 [TurnUser; TurnTask 2; TurnTask 1; TurnTask 0; TurnWriter (Some (MkFault 7 0))] ex_start.
Example ex_faulty_seen : option_map (fun s => (s_user s, zlen (s_dest s) - zlen ex_file)) (ex_run ex_faulty ex_start)
  = Some (Running (Ret ([SawNothing; SawFlag true; SawNothing; SawNothing; SawFlag true; SawNothing; SawNothing; SawNothing; SawFlag false; SawPos (512, 1); SawNothing; SawFlag false; SawFlag false; SawFlag false;
      SawNothing; SawPos (512, 0); SawPos (512, 0); SawPos (512, 1); SawPos (512, 1); SawPos (128, 0); SawNothing], false)), 7).
Proof. vm_compute. reflexivity. Qed.

(** ** Refuted: a failure of encoding a chunk
    If encoding a chunk fails in a task (for example Snappy cannot compress more than 4 GiB, snappy_writer.cc:262), then the task asks the
    chunk writer thread to annotate the status and waits for it, while the chunk writer thread waits for the chunk of that task:
    Close() never returns. *)
Definition stuck_run (encode : job -> option chunk) := @run toy_hash encode 3 (list seen * bool).
Theorem C26_no_deadlock_if_encoding_fails_refuted : exists ts s,
  stuck_run (fun j => None) ts (Parallel toy_hash ex_o [Write [1]] ex_file) = Some s /\
  (forall y b, ~ user_finished s y b) /\ forall t, @step toy_hash (fun j => None) 3 _ t s = None.
Proof.
  pose (st := @step toy_hash (fun j => None) 3 (list seen * bool)).
  exists (drive st 500 [TurnUser; TurnTask 0; TurnWriter None] (Parallel toy_hash ex_o [Write [1]] ex_file)).
  destruct (stuck_run (fun j => None) (drive st 500 [TurnUser; TurnTask 0; TurnWriter None] (Parallel toy_hash ex_o [Write [1]] ex_file)) (Parallel toy_hash ex_o [Write [1]] ex_file)) as [s|] eqn:E;
    vm_compute in E; [|discriminate E]. injection E as <-. eexists. split; [reflexivity|]. split; [intros y b H; discriminate H|].
  intros [|n|f]; [reflexivity| |destruct f; reflexivity]. destruct n as [|[|n]]; reflexivity.
Qed.
Print Assumptions C26_no_deadlock_if_encoding_fails_refuted.
